(** Properties C32 and C33: the circuit breaker. *)
From Verif Require Import Breaker.
Open Scope nat_scope.

(** ** Specification, over the labels of an execution *)

(** the completed calls, oldest first, with the instant of completion *)
Fixpoint completed (tr : list label) : list (outcome * Z) :=
  match tr with
  | [] => []
  | Complete _ o t :: tr' => (o, t) :: completed tr'
  | _ :: tr' => completed tr'
  end.

(** the latest completed calls are a run of at least [max] (at least one)
    counted errors, the last of which completed less than [interval] before
    [t] *)
Definition open_at (max interval : Z) (h : list (outcome * Z)) (t : Z) : Prop :=
  exists h0 run tl, h = h0 ++ run ++ [(Counted, tl)] /\
    Forall (fun c => fst c = Counted) run /\
    (Z.max 1 max <= Z.of_nat (S (length run)))%Z /\
    (t < tl + interval)%Z.

(** ** Counting positions *)
Definition b2n (b : bool) : nat := if b then 1 else 0.
Fixpoint cnt (f : pc -> bool) (l : list pc) : nat :=
  match l with [] => 0 | x :: l' => b2n (f x) + cnt f l' end.

Lemma cnt_upd f l i x y : nth_error l i = Some x -> cnt f (upd i y l) + b2n (f x) = cnt f l + b2n (f y).
Proof.
  revert i; induction l as [|a l IH]; intros [|i] H; cbn in H; try discriminate.
  - injection H as ->. cbn. lia.
  - cbn. specialize (IH i H). lia.
Qed.
Lemma cnt_app f l x : cnt f (l ++ [x]) = cnt f l + b2n (f x).
Proof. induction l as [|a l IH]; cbn; lia. Qed.
Lemma cnt_ge f l i x : nth_error l i = Some x -> f x = true -> 1 <= cnt f l.
Proof.
  revert i; induction l as [|a l IH]; intros [|i] H Hf; cbn in H; try discriminate.
  - injection H as ->. cbn. rewrite Hf. cbn. lia.
  - cbn. specialize (IH i H Hf). lia.
Qed.
Lemma cnt_le f g l : (forall x, f x = true -> g x = true) -> cnt f l <= cnt g l.
Proof.
  intros H. induction l as [|a l IH]; cbn; [lia|]. specialize (H a). destruct (f a), (g a); cbn; try lia; now discriminate H.
Qed.
Lemma cnt_strict f g l i x : (forall x, f x = true -> g x = true) -> nth_error l i = Some x -> f x = false -> g x = true ->
  S (cnt f l) <= cnt g l.
Proof.
  intros H. revert i; induction l as [|a l IH]; intros [|i] Hi Hf Hg; cbn in Hi; try discriminate.
  - injection Hi as ->. cbn. rewrite Hf, Hg. pose proof (cnt_le f g l H). cbn. lia.
  - cbn. specialize (IH i Hi Hf Hg). specialize (H a). destruct (f a), (g a); cbn; try lia; now discriminate H.
Qed.

Definition reading (p : pc) : bool := match p with AtCheck | AtRUnlockReject | AtRUnlockPass => true | _ => false end.
Definition writing (p : pc) : bool := match p with AtUpdate _ | AtIncremented | AtUnlock _ => true | _ => false end.
Definition incremented (p : pc) : bool := match p with AtIncremented => true | _ => false end.

(** ** The number of counted errors at the end of a history *)
Fixpoint trail_rev (h : list (outcome * Z)) : nat :=
  match h with (Counted, _) :: h' => S (trail_rev h') | _ => 0 end.
Definition trail (h : list (outcome * Z)) : nat := trail_rev (rev h).
Definition last_time (h : list (outcome * Z)) : Z := match rev h with (_, t) :: _ => t | [] => 0%Z end.

Lemma trail_snoc h o t : trail (h ++ [(o, t)]) = match o with Counted => S (trail h) | _ => 0 end.
Proof. unfold trail. rewrite rev_unit. now destruct o. Qed.
Lemma last_snoc h o t : last_time (h ++ [(o, t)]) = t.
Proof. unfold last_time. now rewrite rev_unit. Qed.

Lemma trail_split h : exists h0 run, h = h0 ++ run /\ length run = trail h /\ Forall (fun c => fst c = Counted) run.
Proof.
  induction h as [|[o t] h IH] using rev_ind; [exists [], []; repeat split; constructor|].
  rewrite trail_snoc. destruct (match o with Counted => true | _ => false end) eqn:E.
  2: { exists (h ++ [(o, t)]), []. rewrite app_nil_r. destruct o; try discriminate; repeat split; constructor. }
  destruct o; try discriminate.
  destruct IH as (h0 & run & -> & L & F). exists h0, (run ++ [(Counted, t)]). rewrite app_assoc. split; [reflexivity|].
  rewrite app_length. cbn. split; [rewrite <- L; lia|]. apply Forall_app. split; auto.
Qed.
Lemma trail_ge h0 run : Forall (fun c => fst c = Counted) run -> length run <= trail (h0 ++ run).
Proof.
  induction run as [|[o t] run IH] using rev_ind; intros F; [cbn; lia|].
  apply Forall_app in F. destruct F as (F & Fo). inversion Fo as [|? ? E _]; subst. cbn in E. subst o.
  rewrite app_assoc, trail_snoc, app_length. cbn. specialize (IH F). lia.
Qed.

Lemma open_at_iff max interval h t :
  open_at max interval h t <-> (Z.max 1 max <= Z.of_nat (trail h))%Z /\ (t < last_time h + interval)%Z.
Proof.
  split.
  - intros (h0 & run & tl & -> & F & L & T). split.
    + assert (F' : Forall (fun c => fst c = Counted) (run ++ [(Counted, tl)])) by (apply Forall_app; auto).
      pose proof (trail_ge h0 _ F') as G. rewrite app_length in G. cbn in G. lia.
    + rewrite app_assoc, last_snoc. exact T.
  - intros (L & T). destruct (trail_split h) as (h0 & run & E & EL & F).
    destruct run as [|[o tl] run _] using rev_ind; [cbn in EL; lia|].
    apply Forall_app in F. destruct F as (F & Fo). inversion Fo as [|? ? Eo _]; subst. cbn in Eo. subst o.
    exists h0, run, tl. split; [reflexivity|]. split; [exact F|]. split.
    + rewrite app_length in EL. cbn in EL. lia.
    + now rewrite app_assoc, last_snoc in T.
Qed.

Lemma completed_snoc tr l : completed (tr ++ [l]) = completed tr ++ match l with Complete _ o t => [(o, t)] | _ => [] end.
Proof.
  induction tr as [|x tr IH]; cbn; [destruct l; reflexivity|]. destruct x; rewrite IH; try reflexivity.
Qed.

(** ** The invariant *)
Section Inv.
  Variable max interval : Z.
  Notation step := (step max interval).

  Definition inv (tr : list label) (s : state) : Prop :=
    readers s = cnt reading (calls s) /\
    cnt writing (calls s) = b2n (writer s) /\
    (writer s = true -> readers s = 0) /\
    errs s = trail (completed tr) + cnt incremented (calls s) /\
    closesAt s = (if Z.leb (Z.max 1 max) (Z.of_nat (trail (completed tr)))
                  then Some (last_time (completed tr) + interval)%Z else None).

  Lemma inc_writing x : incremented x = true -> writing x = true.
  Proof. now destruct x. Qed.

  Lemma inv_step tr s l s' : inv tr s -> step s l s' -> inv (tr ++ [l]) s'.
  Proof.
    intros (I1 & I2 & I3 & I4 & I5) H. unfold inv. rewrite completed_snoc.
    destruct H as [s t Ht|s|s i Hi Hw|s i Hi|s i Hi|s i Hi|s i o Hi|s i o Hi Hw Hr|s i o Hi Ho|s i Hi|s i Hi Hm|s i Hi Hm|s i o Hi];
      cbn [readers writer errs closesAt calls set_call set_lock set_data]; rewrite ?app_nil_r;
      try (pose proof (fun y => cnt_upd reading _ _ _ y Hi) as U1; pose proof (fun y => cnt_upd writing _ _ _ y Hi) as U2;
           pose proof (fun y => cnt_upd incremented _ _ _ y Hi) as U3).
    - auto.
    - rewrite !cnt_app. cbn. rewrite !Nat.add_0_r. auto.
    - specialize (U1 AtCheck); specialize (U2 AtCheck); specialize (U3 AtCheck). cbn in U1, U2, U3.
      rewrite Hw in I2. cbn in I2. cbn. repeat split; try lia; auto; congruence.
    - set (p := if is_open _ _ then AtRUnlockReject else AtRUnlockPass).
      specialize (U1 p); specialize (U2 p); specialize (U3 p).
      assert (reading p = true /\ writing p = false /\ incremented p = false) as (P1 & P2 & P3) by (unfold p; destruct (is_open _ _); auto).
      rewrite P1 in U1; rewrite P2 in U2; rewrite P3 in U3. cbn in U1, U2, U3. repeat split; try lia; auto.
    - specialize (U1 Rejected); specialize (U2 Rejected); specialize (U3 Rejected). cbn in U1, U2, U3.
      pose proof (cnt_ge reading _ _ _ Hi eq_refl). repeat split; try lia; auto. intros Hw. specialize (I3 Hw). lia.
    - specialize (U1 AtBase); specialize (U2 AtBase); specialize (U3 AtBase). cbn in U1, U2, U3.
      pose proof (cnt_ge reading _ _ _ Hi eq_refl). repeat split; try lia; auto. intros Hw. specialize (I3 Hw). lia.
    - set (p := match o with Panicked => Returned Panicked | _ => AtLock o end).
      specialize (U1 p); specialize (U2 p); specialize (U3 p).
      assert (reading p = false /\ writing p = false /\ incremented p = false) as (P1 & P2 & P3) by (unfold p; destruct o; auto).
      rewrite P1 in U1; rewrite P2 in U2; rewrite P3 in U3. cbn in U1, U2, U3. repeat split; try lia; auto.
    - specialize (U1 (AtUpdate o)); specialize (U2 (AtUpdate o)); specialize (U3 (AtUpdate o)). cbn in U1, U2, U3.
      rewrite Hw in I2. cbn in I2. cbn. repeat split; try lia; auto.
    - (* reset *)
      pose proof (cnt_strict incremented writing _ _ _ inc_writing Hi eq_refl eq_refl) as HS.
      specialize (U1 (AtUnlock o)); specialize (U2 (AtUnlock o)); specialize (U3 (AtUnlock o)). cbn in U1, U2, U3.
      assert (cnt writing (calls s) <= 1) by (rewrite I2; destruct (writer s); cbn; lia).
      rewrite trail_snoc. assert (trail_o : match o with Counted => S (trail (completed tr)) | _ => 0 end = 0) by (destruct o; congruence).
      rewrite trail_o. repeat split; try lia; auto.
      destruct (Z.leb_spec (Z.max 1 max) (Z.of_nat 0)); [lia | reflexivity].
    - (* incr *)
      pose proof (cnt_strict incremented writing _ _ _ inc_writing Hi eq_refl eq_refl) as HS.
      specialize (U1 AtIncremented); specialize (U2 AtIncremented); specialize (U3 AtIncremented). cbn in U1, U2, U3.
      repeat split; try lia; auto.
    - (* trip *)
      specialize (U1 (AtUnlock Counted)); specialize (U2 (AtUnlock Counted)); specialize (U3 (AtUnlock Counted)). cbn in U1, U2, U3.
      pose proof (cnt_ge incremented _ _ _ Hi eq_refl) as G1. pose proof (cnt_le incremented writing (calls s) inc_writing) as G2.
      assert (cnt writing (calls s) <= 1) by (rewrite I2; destruct (writer s); cbn; lia).
      rewrite trail_snoc, last_snoc. repeat split; try lia; auto.
      destruct (Z.leb_spec (Z.max 1 max) (Z.of_nat (S (trail (completed tr))))); [reflexivity | lia].
    - specialize (U1 (AtUnlock Counted)); specialize (U2 (AtUnlock Counted)); specialize (U3 (AtUnlock Counted)). cbn in U1, U2, U3.
      pose proof (cnt_ge incremented _ _ _ Hi eq_refl) as G1. pose proof (cnt_le incremented writing (calls s) inc_writing) as G2.
      assert (cnt writing (calls s) <= 1) by (rewrite I2; destruct (writer s); cbn; lia).
      rewrite trail_snoc, last_snoc. repeat split; try lia; auto.
      rewrite I5. destruct (Z.leb_spec (Z.max 1 max) (Z.of_nat (trail (completed tr)))), (Z.leb_spec (Z.max 1 max) (Z.of_nat (S (trail (completed tr))))); try lia; reflexivity.
    - specialize (U1 (Returned o)); specialize (U2 (Returned o)); specialize (U3 (Returned o)). cbn in U1, U2, U3.
      pose proof (cnt_ge writing _ _ _ Hi eq_refl) as G1.
      assert (Hw : writer s = true) by (destruct (writer s); [reflexivity | cbn in I2; lia]). rewrite Hw in I2. cbn in I2. cbn.
      repeat split; try lia; auto; congruence.
  Qed.

  Lemma inv_run t0 tr s : run step (init t0) tr s -> inv tr s.
  Proof.
    apply (run_inv step inv).
    - unfold inv, init; cbn. repeat split; auto. destruct (Z.leb_spec (Z.max 1 max) 0); [lia | reflexivity].
    - intros. eapply inv_step; eauto.
  Qed.

  Lemma is_open_iff tr s t : inv tr s -> is_open (closesAt s) t = true <-> open_at max interval (completed tr) t.
  Proof.
    intros (_ & _ & _ & _ & I5). rewrite open_at_iff, I5. unfold is_open.
    destruct (Z.leb_spec (Z.max 1 max) (Z.of_nat (trail (completed tr)))) as [L|L].
    - rewrite Z.ltb_lt. intuition lia.
    - split; [discriminate | intros (H & _); lia].
  Qed.
End Inv.

(** ** C32 *)

(** Every check rejects exactly when the history says the circuit is open. *)
Theorem C32_open_exactly : forall max interval t0 tr s i t reject,
  run (step max interval) (init t0) (tr ++ [Check i t reject]) s ->
  (reject = true <-> open_at max interval (completed tr) t).
Proof.
  intros max interval t0 tr s i t reject H. inversion H as [E|tr' s1 l s2 HR HS E]; [now destruct tr|].
  apply app_inj_tail in E. destruct E as (-> & ->). apply inv_run in HR. inversion HS; subst.
  now apply is_open_iff.
Qed.

(** what call [i] did so far *)
Definition events (i : nat) (tr : list label) : list label :=
  filter (fun l => match l with
                   | Check j _ _ | Base j | BaseDone j _ | Complete j _ _ => Nat.eqb i j
                   | _ => false end) tr.

(** the possible stories of one call *)
Inductive story (i : nat) : list label -> pc -> Prop :=
| st_new : story i [] AtRLock
| st_read : story i [] AtCheck
| st_reject t : story i [Check i t true] AtRUnlockReject
| st_rejected t : story i [Check i t true] Rejected
| st_pass t : story i [Check i t false] AtRUnlockPass
| st_base t : story i [Check i t false; Base i] AtBase
| st_back t o p : o <> Panicked -> (p = AtLock o \/ p = AtUpdate o \/ (o = Counted /\ p = AtIncremented)) ->
    story i [Check i t false; Base i; BaseDone i o] p
| st_panic t : story i [Check i t false; Base i; BaseDone i Panicked] (Returned Panicked)
| st_done t o t' p : o <> Panicked -> (p = AtUnlock o \/ p = Returned o) ->
    story i [Check i t false; Base i; BaseDone i o; Complete i o t'] p.

(** A rejected call never reaches the base; every other call calls it exactly
    once, and is counted exactly once with the base's outcome unless the base
    panicked. *)
Theorem C32_one_base_call : forall max interval t0 tr s i p,
  run (step max interval) (init t0) tr s -> nth_error (calls s) i = Some p ->
  story i (events i tr) p.
Proof.
  intros max interval t0 tr s i p H. revert i p.
  apply (run_inv (step max interval) (fun tr s => (forall i p, nth_error (calls s) i = Some p -> story i (events i tr) p) /\
     (forall i, length (calls s) <= i -> events i tr = []))) in H; [tauto| |].
  - split; [|reflexivity]. intros [|i] p Hi; discriminate.
  - clear. intros tr s l s' HR (IH & IN) HS.
    assert (EV : forall j, events j (tr ++ [l]) = events j tr ++ events j [l]) by (intros j; unfold events; now rewrite filter_app).
    destruct HS as [s t Ht|s|s i Hi Hw|s i Hi|s i Hi|s i Hi|s i o Hi|s i o Hi Hw Hr|s i o Hi Ho|s i Hi|s i Hi Hm|s i Hi Hm|s i o Hi];
      cbn [calls set_call set_lock set_data]; (split; [intros j q Hj; rewrite EV | intros j Hj; rewrite EV]); cbn [events filter]; rewrite ?app_nil_r; auto.
    all: try (rewrite upd_length in Hj).
    all: try (pose proof (nth_lt _ _ _ Hi) as Li).
    all: try (apply IN; lia).
    all: try (destruct (Nat.eqb_spec j i) as [->|N]; [lia|]; rewrite app_nil_r; apply IN; lia).
    all: try (apply nth_upd in Hj; destruct Hj as [(-> & -> & _)|(N & Hj)];
              [| try (destruct (Nat.eqb_spec j i) as [->|_]; [contradiction|]); rewrite ?app_nil_r; now apply IH]).
    all: try rewrite Nat.eqb_refl.
    + apply nth_app_inv in Hj. destruct Hj as [Hj|(-> & ->)]; [now apply IH|]. rewrite IN by lia. constructor.
    + rewrite app_length in Hj. apply IN. lia.
    + specialize (IH i _ Hi). inversion IH as [E| | | | | |u0 o0 p0 H1 H2| |u0 o0 t1 p0 H1 H2]; try (destruct H2 as [?|[?|(? & ?)]]; congruence); try (destruct H2; congruence). constructor.
    + specialize (IH i _ Hi). inversion IH as [|E| | | | |u0 o0 p0 H1 H2| |u0 o0 t1 p0 H1 H2]; try (destruct H2 as [?|[?|(? & ?)]]; congruence); try (destruct H2; congruence).
      cbn. destruct (is_open _ _); constructor.
    + specialize (IH i _ Hi). inversion IH as [| |u0 E| | | |u0 o0 p0 H1 H2| |u0 o0 t1 p0 H1 H2]; try (destruct H2 as [?|[?|(? & ?)]]; congruence); try (destruct H2; congruence). constructor.
    + specialize (IH i _ Hi). inversion IH as [| | | |u0 E| |u0 o0 p0 H1 H2| |u0 o0 t1 p0 H1 H2]; try (destruct H2 as [?|[?|(? & ?)]]; congruence); try (destruct H2; congruence). cbn. constructor.
    + specialize (IH i _ Hi). inversion IH as [| | | | |u0 E|u0 o0 p0 H1 H2| |u0 o0 t1 p0 H1 H2]; try (destruct H2 as [?|[?|(? & ?)]]; congruence); try (destruct H2; congruence). cbn.
      destruct o; [apply st_back; [discriminate|auto] .. | apply st_panic].
    + specialize (IH i _ Hi). inversion IH as [| | | | | |u0 o0 p0 H1 H2 E| |u0 o0 t1 p0 H1 H2]; try (destruct H2 as [?|?]; congruence).
      destruct H2 as [[= <-]|[?|(? & ?)]]; try congruence. constructor; auto.
    + specialize (IH i _ Hi). inversion IH as [| | | | | |u0 o0 p0 H1 H2 E| |u0 o0 t1 p0 H1 H2]; try (destruct H2 as [?|?]; congruence).
      destruct H2 as [?|[[= <-]|(? & ?)]]; try congruence. cbn. constructor; auto.
    + specialize (IH i _ Hi). inversion IH as [| | | | | |u0 o0 p0 H1 H2 E| |u0 o0 t1 p0 H1 H2]; try (destruct H2 as [?|?]; congruence).
      destruct H2 as [?|[[= <-]|(? & ?)]]; try congruence. constructor; auto.
    + specialize (IH i _ Hi). inversion IH as [| | | | | |u0 o0 p0 H1 H2 E| |u0 o0 t1 p0 H1 H2]; try (destruct H2 as [?|?]; congruence).
      destruct H2 as [?|[?|(-> & ?)]]; try congruence. cbn. constructor; auto.
    + specialize (IH i _ Hi). inversion IH as [| | | | | |u0 o0 p0 H1 H2 E| |u0 o0 t1 p0 H1 H2]; try (destruct H2 as [?|?]; congruence).
      destruct H2 as [?|[?|(-> & ?)]]; try congruence. cbn. constructor; auto.
    + specialize (IH i _ Hi). inversion IH as [| | | | | |u0 o0 p0 H1 H2| |u0 o0 t1 p0 H1 H2 E]; try (destruct H2 as [?|[?|(? & ?)]]; congruence).
      destruct H2 as [[= <-]|?]; try congruence. constructor; auto.
Qed.

(** No deadlock: while some call has neither returned nor been rejected, some
    call can take a step. *)
Definition finished (p : pc) : bool := match p with Rejected | Returned _ => true | _ => false end.
Definition by_call (l : label) : Prop := l <> Clock /\ l <> Call.

Lemma cnt_pos f l : 1 <= cnt f l -> exists i x, nth_error l i = Some x /\ f x = true.
Proof.
  induction l as [|a l IH]; cbn; [lia|]. intros H. destruct (f a) eqn:E; [exists 0, a; auto|].
  destruct IH as (i & x & A & B); [cbn in H; lia|]. exists (S i), x. auto.
Qed.

Theorem C32_no_deadlock : forall max interval t0 tr s i p,
  run (step max interval) (init t0) tr s -> nth_error (calls s) i = Some p -> finished p = false ->
  exists l s', by_call l /\ step max interval s l s'.
Proof.
  intros max interval t0 tr s i p HR Hi Hf. pose proof (inv_run _ _ _ _ _ HR) as (I1 & I2 & I3 & _ & _).
  pose proof (C32_one_base_call _ _ _ _ _ i p HR Hi) as St.
  assert (NP : forall j o, nth_error (calls s) j = Some (AtUpdate o) \/ nth_error (calls s) j = Some (AtUnlock o) \/ nth_error (calls s) j = Some AtIncremented ->
    exists l s', by_call l /\ step max interval s l s').
  { intros j o [H|[H|H]].
    - destruct (match o with Counted => true | _ => false end) eqn:E.
      + destruct o; try discriminate. eexists _, _; split; [|apply s_incr; exact H]; split; discriminate.
      + eexists _, _; split; [|apply s_reset; [exact H|]]; [split; discriminate|]. destruct o; discriminate.
    - eexists _, _; split; [|eapply s_unlock; exact H]; split; discriminate.
    - destruct (Z.le_gt_cases max (Z.of_nat (errs s))).
      + eexists _, _; split; [|eapply s_trip; eauto]; split; discriminate.
      + eexists _, _; split; [|eapply s_notrip; eauto]; split; discriminate. }
  assert (NR : 1 <= readers s -> exists l s', by_call l /\ step max interval s l s').
  { intros H. rewrite I1 in H. apply cnt_pos in H. destruct H as (j & x & Hj & Hx).
    destruct x; try discriminate.
    - eexists _, _; split; [|eapply s_check; exact Hj]; split; discriminate.
    - eexists _, _; split; [|eapply s_reject; exact Hj]; split; discriminate.
    - eexists _, _; split; [|eapply s_pass; exact Hj]; split; discriminate. }
  destruct (writer s) eqn:Hw.
  { cbn in I2. assert (H : 1 <= cnt writing (calls s)) by lia. apply cnt_pos in H. destruct H as (j & x & Hj & Hx).
    destruct x; try discriminate; [apply (NP j o)|apply (NP j Success)|apply (NP j o)]; auto. }
  destruct p; try discriminate.
  - eexists _, _; split; [|eapply s_rlock; eauto]; split; discriminate.
  - eexists _, _; split; [|eapply s_check; exact Hi]; split; discriminate.
  - eexists _, _; split; [|eapply s_reject; exact Hi]; split; discriminate.
  - eexists _, _; split; [|eapply s_pass; exact Hi]; split; discriminate.
  - eexists _, _; split; [|eapply (s_base _ _ s i Success); exact Hi]; split; discriminate.
  - destruct (readers s) eqn:Hr.
    + eexists _, _; split; [|eapply s_lock; eauto]; split; discriminate.
    + apply NR. lia.
  - apply (NP i o); auto.
  - apply (NP i Success); auto.
  - apply (NP i o); auto.
Qed.

(** ** C33 *)

Lemma check_spec max interval t0 tr s i t reject :
  run (step max interval) (init t0) (tr ++ [Check i t reject]) s ->
  (reject = true <-> (Z.max 1 max <= Z.of_nat (trail (completed tr)))%Z /\ (t < last_time (completed tr) + interval)%Z).
Proof. intros H. rewrite <- open_at_iff. eapply C32_open_exactly; eauto. Qed.

Lemma completed_app tr1 tr2 : completed (tr1 ++ tr2) = completed tr1 ++ completed tr2.
Proof. induction tr1 as [|l tr1 IH]; cbn; [reflexivity|]. destruct l; rewrite IH; reflexivity. Qed.

(** Once [interval] has passed since the last completed call, or before any
    call has completed, a call reaches the base. *)
Theorem C33_passes_after_interval : forall max interval t0 tr s i t reject,
  run (step max interval) (init t0) (tr ++ [Check i t reject]) s ->
  (forall h o tl, completed tr = h ++ [(o, tl)] -> (tl + interval <= t)%Z) ->
  reject = false.
Proof.
  intros max interval t0 tr s i t reject H L. destruct reject; [exfalso | reflexivity].
  apply C32_open_exactly in H. destruct H as (H & _). destruct (H eq_refl) as (h0 & run & tl & E & _ & _ & T).
  rewrite app_assoc in E. apply L in E. lia.
Qed.

(** If the circuit had tripped and the next call to complete fails with a
    counted error, then every check before the next completion and within
    [interval] rejects. *)
Theorem C33_trips_again : forall max interval t0 tr1 i t' tr2 j t reject s tt,
  run (step max interval) (init t0) (tr1 ++ Complete i Counted t' :: tr2 ++ [Check j t reject]) s ->
  open_at max interval (completed tr1) tt ->
  completed tr2 = [] -> (t < t' + interval)%Z ->
  reject = true.
Proof.
  intros max interval t0 tr1 i t' tr2 j t reject s tt H O E T.
  change (Complete i Counted t' :: tr2 ++ [Check j t reject]) with ((Complete i Counted t' :: tr2) ++ [Check j t reject]) in H.
  rewrite app_assoc in H. apply (C32_open_exactly _ _ _ _ _ _ _ _ H).
  rewrite completed_app. cbn [completed]. rewrite E.
  destruct O as (h0 & run & tl & E1 & F & L & _). exists h0, (run ++ [(Counted, tl)]), t'.
  rewrite E1, <- !app_assoc. split; [reflexivity|]. split; [apply Forall_app; auto|]. rewrite app_length. cbn. lia.
Qed.

Lemma suffix_inside {A} (P : A -> Prop) h x c h0 r : h ++ x :: c = h0 ++ r -> Forall P r -> ~ P x -> exists k, c = k ++ r.
Proof.
  revert r. induction c as [|y c IH] using rev_ind; intros r E F N.
  - destruct r as [|z r _] using rev_ind; [exists []; reflexivity|].
    rewrite app_assoc in E. apply app_inj_tail in E. destruct E as (_ & ->).
    apply Forall_app in F. destruct F as (_ & F). inversion F; subst. contradiction.
  - destruct r as [|z r _] using rev_ind; [exists (c ++ [y]); now rewrite app_nil_r|].
    rewrite app_comm_cons, !app_assoc in E. apply app_inj_tail in E. destruct E as (E & ->).
    apply Forall_app in F. destruct F as (F & _). destruct (IH _ E F N) as (k & ->). exists k. now rewrite app_assoc.
Qed.

(** After a success or an ignored error has completed, the next rejection needs
    at least max(1, N) counted errors completed since. *)
Theorem C33_success_closes : forall max interval t0 tr1 i o t' tr2 j t s,
  run (step max interval) (init t0) (tr1 ++ Complete i o t' :: tr2 ++ [Check j t true]) s ->
  o <> Counted ->
  exists h0 run, completed tr2 = h0 ++ run /\ Forall (fun c => fst c = Counted) run /\ (Z.max 1 max <= Z.of_nat (length run))%Z.
Proof.
  intros max interval t0 tr1 i o t' tr2 j t s H O.
  change (Complete i o t' :: tr2 ++ [Check j t true]) with ((Complete i o t' :: tr2) ++ [Check j t true]) in H.
  rewrite app_assoc in H. apply C32_open_exactly in H. destruct H as (H & _).
  destruct (H eq_refl) as (h0 & run & tl & E & F & L & _).
  rewrite completed_app in E. cbn [completed] in E.
  assert (F' : Forall (fun c => fst c = Counted) (run ++ [(Counted, tl)])) by (apply Forall_app; auto).
  destruct (suffix_inside _ _ _ _ _ _ E F') as (k & Ek); [exact O|].
  exists k, (run ++ [(Counted, tl)]). split; [exact Ek|]. split; [exact F'|]. rewrite app_length. cbn. lia.
Qed.

(** ** Executions of the model *)
Ltac go c := eapply run_cons; [eapply c; cbn; try reflexivity; try lia; try discriminate | cbn [upd app calls set_call set_lock set_data readers writer errs closesAt now init pred]].
Ltac clk x := eapply run_cons; [eapply s_clock with (t := x); cbn; lia | cbn [upd app calls set_call set_lock set_data readers writer errs closesAt now init pred]].
Ltac done_ := apply run_nil.

(** N = 2, interval 10: two failing calls; a third is rejected at 5 and served
    at 11. *)
Definition one_failure (i : nat) : list label :=
  [Call; Internal i; Check i 0 false; Base i; BaseDone i Counted; Internal i; Internal i; Complete i Counted 0; Internal i].
Definition tripping : list label :=
  one_failure 0 ++ one_failure 1 ++
  [Clock; Call; Internal 2; Check 2 5 true; Internal 2; Clock; Call; Internal 3; Check 3 11 false].
Example C32_trace : exists s, run (step 2 10) (init 0) tripping s.
Proof.
  eexists. unfold tripping, one_failure. cbn [app].
  go s_call. go s_rlock. go s_check. go s_pass. go s_base. go s_lock. go s_incr. go s_notrip. go s_unlock.
  go s_call. go s_rlock. go s_check. go s_pass. go s_base. go s_lock. go s_incr. go s_trip. go s_unlock.
  clk 5%Z. go s_call. go s_rlock. go s_check. go s_reject.
  clk 11%Z. go s_call. go s_rlock. go s_check. done_.
Qed.

(** The hypotheses of the other theorems are met by the same execution: the
    circuit has tripped when call 3 passes; if it fails with a counted error the
    next call is rejected, if it succeeds the next is served. *)
Definition reopening : list label :=
  tripping ++ [Base 3; BaseDone 3 Counted; Internal 3; Internal 3; Complete 3 Counted 11; Internal 3;
               Clock; Call; Internal 4; Check 4 20 true].
Example C33_trips_again_example : exists s, run (step 2 10) (init 0) reopening s.
Proof.
  eexists. unfold reopening, tripping, one_failure. cbn [app].
  go s_call. go s_rlock. go s_check. go s_pass. go s_base. go s_lock. go s_incr. go s_notrip. go s_unlock.
  go s_call. go s_rlock. go s_check. go s_pass. go s_base. go s_lock. go s_incr. go s_trip. go s_unlock.
  clk 5%Z. go s_call. go s_rlock. go s_check. go s_reject.
  clk 11%Z. go s_call. go s_rlock. go s_check.
  go s_pass. go s_base. go s_lock. go s_incr. go s_trip. go s_unlock.
  clk 20%Z. go s_call. go s_rlock. go s_check. done_.
Qed.
Example C33_open_example : open_at 2 10 (completed tripping) 5.
Proof. exists [], [(Counted, 0%Z)], 0%Z. vm_compute. intuition (try discriminate; auto). Qed.
Definition closing : list label :=
  tripping ++ [Base 3; BaseDone 3 Ignored; Internal 3; Complete 3 Ignored 11; Internal 3] ++
  [Call; Internal 4; Check 4 11 false; Base 4; BaseDone 4 Counted; Internal 4; Internal 4; Complete 4 Counted 11; Internal 4;
   Call; Internal 5; Check 5 11 false; Base 5; BaseDone 5 Counted; Internal 5; Internal 5; Complete 5 Counted 11; Internal 5;
   Call; Internal 6; Check 6 11 true].
Example C33_success_closes_example : exists s, run (step 2 10) (init 0) closing s.
Proof.
  eexists. unfold closing, tripping, one_failure. cbn [app].
  go s_call. go s_rlock. go s_check. go s_pass. go s_base. go s_lock. go s_incr. go s_notrip. go s_unlock.
  go s_call. go s_rlock. go s_check. go s_pass. go s_base. go s_lock. go s_incr. go s_trip. go s_unlock.
  clk 5%Z. go s_call. go s_rlock. go s_check. go s_reject.
  clk 11%Z. go s_call. go s_rlock. go s_check.
  go s_pass. go s_base. go s_lock. go s_reset. go s_unlock.
  go s_call. go s_rlock. go s_check. go s_pass. go s_base. go s_lock. go s_incr. go s_notrip. go s_unlock.
  go s_call. go s_rlock. go s_check. go s_pass. go s_base. go s_lock. go s_incr. go s_trip. go s_unlock.
  go s_call. go s_rlock. go s_check. done_.
Qed.

(** ** "Once open it rejects every call for openInterval" does not hold: a call
    that was already in flight closes the circuit by succeeding. *)
Definition stays_open : Prop := forall max interval t0 tr1 i tc tr2 j t reject s,
  run (step max interval) (init t0) (tr1 ++ Complete i Counted tc :: tr2 ++ [Check j t reject]) s ->
  open_at max interval (completed tr1 ++ [(Counted, tc)]) tc ->
  (tc <= t < tc + interval)%Z -> reject = true.
Definition early_close : list label :=
  ([Call; Internal 0; Check 0 0 false; Base 0;
    Call; Internal 1; Check 1 0 false; Base 1; BaseDone 1 Counted; Internal 1; Internal 1]) ++ Complete 1 Counted 0 ::
  [Internal 1; Call; Internal 2; Check 2 0 true; Internal 2;
   BaseDone 0 Success; Internal 0; Complete 0 Success 0; Internal 0;
   Call; Internal 3] ++ [Check 3 0 false].
Theorem C33_stays_open_refuted : ~ stays_open.
Proof.
  intros H.
  assert (R : exists s, run (step 1 10) (init 0) early_close s).
  { eexists. unfold early_close. cbn [app].
    go s_call. go s_rlock. go s_check. go s_pass.
    go s_call. go s_rlock. go s_check. go s_pass. go s_base. go s_lock. go s_incr. go s_trip. go s_unlock.
    go s_call. go s_rlock. go s_check. go s_reject.
    go s_base. go s_lock. go s_reset. go s_unlock. go s_call. go s_rlock. go s_check. done_. }
  destruct R as (s & R). unfold early_close in R. assert (false = true); [|discriminate]. refine (H _ _ _ _ _ _ _ _ _ _ _ R _ _); [|lia].
  exists [], [], 0%Z. vm_compute. intuition (try discriminate; auto).
Qed.

Print Assumptions C32_open_exactly.
Print Assumptions C32_one_base_call.
Print Assumptions C32_no_deadlock.
Print Assumptions C33_passes_after_interval.
Print Assumptions C33_trips_again.
Print Assumptions C33_success_closes.
Print Assumptions C33_stays_open_refuted.
