(** Property C82, for implementations that call the circuit breaker again: no
    calls wait for each other in a circle, even if Go's RWMutex lets no reader
    in while a writer waits. *)
From Verif Require Import Breaker PropBreaker.
Open Scope nat_scope.

(** ** Model: calls of a circuit breaker (Breaker.v,
    templates/circuitbreaker:35-72), each made from outside or by the
    implementation another call is in, which goes on when that call is over. *)
Record nested := Nested { st : state; parents : list (option nat) }.
Definition over (s : state) (j : nat) : Prop := exists p, nth_error (calls s) j = Some p /\ finished p = true.
Inductive nlabel := NCall (parent : option nat) | NDo (l : label).

Section NESTED.
Variables max interval : Z.
Notation step := (step max interval).

Inductive nstep : nested -> nlabel -> nested -> Prop :=
| n_call s ps par s' : (forall i, par = Some i -> nth_error (calls s) i = Some AtBase) -> step s Call s' ->
    nstep (Nested s ps) (NCall par) (Nested s' (ps ++ [par]))
| n_do s ps l s' : step s l s' -> l <> Call -> (forall i o, l = BaseDone i o -> forall j, nth_error ps j = Some (Some i) -> over s j) ->
    nstep (Nested s ps) (NDo l) (Nested s' ps).

(** ** Specification: a call goes on, and if it locks to read then no call waits
    to write *)
Definition goes_on (s : nested) : Prop := exists l s', nstep s (NDo l) s' /\ l <> Clock /\
  forall i, l = Internal i -> nth_error (calls (st s)) i = Some AtRLock -> forall j o, nth_error (calls (st s)) j <> Some (AtLock o).

(** ** Proof *)
Lemma step_length : forall s l s', step s l s' -> l <> Call -> length (calls s') = length (calls s).
Proof. intros s l s' H N. destruct H; cbn; rewrite ?upd_length; auto. contradiction. Qed.

Lemma nested_run : forall t0 tr s, run nstep (Nested (init t0) []) tr s ->
  (exists tr', run step (init t0) tr' (st s)) /\ length (parents s) = length (calls (st s)) /\
  (forall j i, nth_error (parents s) j = Some (Some i) -> i < j).
Proof.
  intros t0 tr s H. induction H as [|tr s1 l s2 H ((tr' & R) & L & P) Hs].
  - cbn. split; [exists []; constructor|]. split; [reflexivity|]. intros [|j] i; discriminate.
  - destruct Hs as [s ps par s' Hp Hc|s ps l s' Hd N Ho]; cbn [st parents] in *; (split; [eexists; eapply run_snoc; eassumption|]).
    + inversion Hc; subst; cbn [calls]. rewrite !app_length, L. split; [reflexivity|]. intros j i Hj.
      destruct (Nat.lt_ge_cases j (length ps)); [rewrite nth_error_app1 in Hj by assumption; now apply P|].
      rewrite nth_error_app2 in Hj by assumption. destruct (j - length ps) as [|k] eqn:E; [|destruct k; discriminate]. injection Hj as ->.
      specialize (Hp i eq_refl). apply nth_lt in Hp. lia.
    + rewrite (step_length _ _ _ Hd N). now split.
Qed.

Lemma last_unfinished : forall l, (exists i p, nth_error l i = Some p /\ finished p = false) ->
  exists i p, nth_error l i = Some p /\ finished p = false /\ forall j q, i < j -> nth_error l j = Some q -> finished q = true.
Proof.
  induction l as [|a l IH]; intros (i & p & Hi & Hp); [destruct i; discriminate|]. destruct (forallb finished l) eqn:E.
  - assert (F : forall j q, nth_error l j = Some q -> finished q = true).
    { intros j q Hq. apply nth_error_In in Hq. exact (proj1 (forallb_forall _ _) E _ Hq). }
    exists 0, a. split; [reflexivity|]. split.
    + destruct i as [|i]; [injection Hi as ->; exact Hp|]. cbn in Hi. rewrite (F i p Hi) in Hp. discriminate.
    + intros [|j] q Hj Hq; [lia|]. exact (F j q Hq).
  - assert (X : exists k q, nth_error l k = Some q /\ finished q = false).
    { clear -E. induction l as [|b l IH]; [discriminate|]. cbn in E. destruct (finished b) eqn:F; [|now exists 0, b].
      destruct (IH E) as (k & q & A & B). now exists (S k), q. }
    destruct (IH X) as (i' & p' & A & B & C). exists (S i'), p'. split; [exact A|]. split; [exact B|].
    intros [|j] q' Hj Hq'; [lia|]. apply (C j); [lia | exact Hq'].
Qed.

Theorem C82_nested : forall t0 tr s i p, run nstep (Nested (init t0) []) tr s ->
  nth_error (calls (st s)) i = Some p -> finished p = false -> goes_on s.
Proof.
  intros t0 tr [s ps] i0 p0 H Hi0 Hp0. destruct (nested_run _ _ _ H) as ((tr' & R) & L & P). cbn [st parents] in *.
  pose proof (inv_run _ _ _ _ _ R) as (I1 & I2 & _).
  (* a step of a call that does not end in the implementation and does not lock to read *)
  assert (OK : forall l s' j q, step s l s' -> (l = Internal j \/ (exists t b, l = Check j t b) \/ l = Base j \/ exists o t, l = Complete j o t) ->
            nth_error (calls s) j = Some q -> q <> AtRLock -> goes_on (Nested s ps)).
  { intros l s' j q Hs Hl Hj Hq. exists l, (Nested s' ps). split; [|split].
    - apply n_do; [exact Hs| |]; destruct Hl as [->|[(t & b & ->)|[->|(o & t & ->)]]]; discriminate.
    - destruct Hl as [->|[(t & b & ->)|[->|(o & t & ->)]]]; discriminate.
    - cbn [st]. intros k E Hk. destruct Hl as [->|[(t & b & ->)|[->|(o & t & ->)]]]; try discriminate. injection E as <-. congruence. }
  assert (NP : forall j q, nth_error (calls s) j = Some q -> writing q = true -> goes_on (Nested s ps)).
  { intros j q Hj Hq. destruct q as [| | | | | |o| |o| |]; try discriminate.
    - destruct (match o with Counted => true | _ => false end) eqn:E.
      + destruct o; try discriminate. eapply (OK _ _ j); [apply s_incr; exact Hj | auto | exact Hj | discriminate].
      + eapply (OK _ _ j); [apply s_reset; [exact Hj | destruct o; discriminate] | eauto 6 | exact Hj | discriminate].
    - destruct (Z.le_gt_cases max (Z.of_nat (errs s))).
      + eapply (OK _ _ j); [apply s_trip; eassumption | eauto 6 | exact Hj | discriminate].
      + eapply (OK _ _ j); [apply s_notrip; eassumption | eauto 6 | exact Hj | discriminate].
    - eapply (OK _ _ j); [eapply s_unlock; exact Hj | auto | exact Hj | discriminate]. }
  assert (NR : 1 <= readers s -> goes_on (Nested s ps)).
  { intros Hr. rewrite I1 in Hr. apply cnt_pos in Hr. destruct Hr as (j & x & Hj & Hx). destruct x; try discriminate.
    - eapply (OK _ _ j); [eapply s_check; exact Hj | eauto 6 | exact Hj | discriminate].
    - eapply (OK _ _ j); [eapply s_reject; exact Hj | auto | exact Hj | discriminate].
    - eapply (OK _ _ j); [eapply s_pass; exact Hj | auto | exact Hj | discriminate]. }
  destruct (writer s) eqn:Hw.
  { cbn in I2. assert (Hc : 1 <= cnt writing (calls s)) by lia. apply cnt_pos in Hc. destruct Hc as (j & x & Hj & Hx). exact (NP j x Hj Hx). }
  assert (NL : forall j o, nth_error (calls s) j = Some (AtLock o) -> goes_on (Nested s ps)).
  { intros j o Hj. destruct (readers s) eqn:Hr; [|apply NR; lia].
    eapply (OK _ _ j); [eapply s_lock; eassumption | auto | exact Hj | discriminate]. }
  set (waits := fun q => match q with AtLock _ => true | _ => false end). destruct (existsb waits (calls s)) eqn:Ew.
  { apply existsb_exists in Ew. destruct Ew as (q & Hq & Hx). apply In_nth_error in Hq. destruct Hq as (j & Hj). destruct q; try discriminate. exact (NL j o Hj). }
  assert (NW : forall j o, nth_error (calls s) j <> Some (AtLock o)).
  { intros j o Hj. apply nth_error_In in Hj. assert (existsb waits (calls s) = true) by (apply existsb_exists; now exists (AtLock o)). congruence. }
  destruct (last_unfinished (calls s) (ex_intro _ i0 (ex_intro _ p0 (conj Hi0 Hp0)))) as (i & p & Hi & Hp & Hlast).
  destruct p; try discriminate.
  - exists (Internal i). eexists. split; [apply n_do; [eapply s_rlock; eassumption | discriminate | discriminate]|]. split; [discriminate|]. intros; apply NW.
  - eapply (OK _ _ i); [eapply s_check; exact Hi | eauto 6 | exact Hi | discriminate].
  - eapply (OK _ _ i); [eapply s_reject; exact Hi | auto | exact Hi | discriminate].
  - eapply (OK _ _ i); [eapply s_pass; exact Hi | auto | exact Hi | discriminate].
  - exists (BaseDone i Success). eexists. split; [apply n_do; [eapply s_base; exact Hi | discriminate|]|split; [discriminate | intros ? E; discriminate E]].
    intros k o E. injection E as <- _. intros j Hj. pose proof (P j i Hj) as Lt.
    destruct (nth_error (calls s) j) as [q|] eqn:Eq; [|apply nth_error_None in Eq; assert (j < length ps) by (apply nth_error_Some; congruence); lia].
    exists q. split; [exact Eq|]. exact (Hlast j q Lt Eq).
  - exact (NL i o Hi).
  - exact (NP i _ Hi eq_refl).
  - exact (NP i _ Hi eq_refl).
  - exact (NP i _ Hi eq_refl).
Qed.
(** Calls are finite: without new calls, every execution, in whatever order the
    calls go on, takes at most eight steps of each call, and as long as it has
    not finished them all it can be continued. *)
Definition by_calls (l : nlabel) : Prop := exists x, l = NDo x /\ x <> Clock.
Definition rank (p : pc) : nat := match p with
  | AtRLock => 8 | AtCheck => 7 | AtRUnlockReject => 6 | AtRUnlockPass => 6 | AtBase => 5 | AtLock _ => 4 | AtUpdate _ => 3
  | AtIncremented => 2 | AtUnlock _ => 1 | _ => 0 end.
Fixpoint ranks (l : list pc) : nat := match l with [] => 0 | p :: l' => rank p + ranks l' end.
Lemma ranks_upd : forall l i p q, nth_error l i = Some p -> ranks (upd i q l) + rank p = ranks l + rank q.
Proof.
  induction l as [|a l IH]; intros [|i] p q H; cbn in H; try discriminate; cbn.
  - injection H as ->. lia.
  - specialize (IH i p q H). lia.
Qed.
Lemma ranks_step : forall s l s', step s l s' -> l <> Call -> l <> Clock -> ranks (calls s') < ranks (calls s).
Proof.
  intros s l s' H N1 N2.
  destruct H; try contradiction; cbn [calls set_call set_lock set_data];
    match goal with X : nth_error (calls s) ?k = Some ?p |- context[upd ?k ?q _] => pose proof (ranks_upd _ _ p q X) as U end; cbn [rank] in U; try lia.
  - destruct (is_open (closesAt s) (now s)); cbn [rank] in U; lia.
  - destruct o; cbn [rank] in U; lia.
Qed.
Lemma ranks_bound : forall l, ranks l <= 8 * length l.
Proof. induction l as [|a l IH]; cbn; [lia|]. destruct a; cbn [rank]; lia. Qed.

Theorem C82_finite : forall s tr s', run nstep s tr s' -> (forall l, In l tr -> by_calls l) -> length tr <= 8 * length (calls (st s)).
Proof.
  intros s tr s' H F. enough (length tr + ranks (calls (st s')) <= ranks (calls (st s))) by (pose proof (ranks_bound (calls (st s))); lia).
  induction H as [|tr s1 l s2 H IH Hs]; [cbn; lia|]. rewrite app_length. cbn [length].
  specialize (IH (fun l Hl => F l (in_or_app _ _ _ (or_introl Hl)))). destruct (F l) as (x & -> & Nx); [apply in_or_app; right; now left|].
  inversion Hs as [|s3 ps l s4 Hd N Ho]; subst. cbn [st] in *. pose proof (ranks_step _ _ _ Hd N Nx). lia.
Qed.

Theorem C82_finishes : forall t0 tr s tr1 s1, run nstep (Nested (init t0) []) tr s ->
  run nstep s tr1 s1 -> (forall l, In l tr1 -> by_calls l) ->
  exists tr2 s2, run nstep s1 tr2 s2 /\ (forall l, In l tr2 -> by_calls l) /\
    length (calls (st s2)) = length (calls (st s)) /\ forall i p, nth_error (calls (st s2)) i = Some p -> finished p = true.
Proof.
  intros t0 tr s tr1 s1 H H1 F1.
  assert (L1 : length (calls (st s1)) = length (calls (st s))).
  { clear H. induction H1 as [|tr1 s1 l s2 H1 IH Hs]; [reflexivity|]. rewrite <- (IH (fun l Hl => F1 l (in_or_app _ _ _ (or_introl Hl)))).
    destruct (F1 l) as (x & -> & Nx); [apply in_or_app; right; now left|]. inversion Hs as [|s3 ps l s4 Hd N Ho]; subst. cbn [st]. now rewrite (step_length _ _ _ Hd N). }
  rewrite <- L1. pose proof (run_app _ _ _ _ _ _ H H1) as R. clear H H1 F1 L1. remember (tr ++ tr1) as t eqn:Et. clear Et tr tr1 s. revert t R.
  remember (ranks (calls (st s1))) as n eqn:En. revert s1 En. induction n as [n IH] using lt_wf_ind. intros s En t R.
  destruct (forallb finished (calls (st s))) eqn:E.
  - exists [], s. split; [constructor|]. split; [intros l []|]. split; [reflexivity|]. intros i p Hi. apply nth_error_In in Hi. exact (proj1 (forallb_forall _ _) E _ Hi).
  - assert (X : exists i p, nth_error (calls (st s)) i = Some p /\ finished p = false).
    { clear -E. induction (calls (st s)) as [|b l IH]; [discriminate|]. cbn in E. destruct (finished b) eqn:F; [|now exists 0, b].
      destruct (IH E) as (k & q & A & B). now exists (S k), q. }
    destruct X as (i & p & Hi & Hp). destruct (C82_nested _ _ _ i p R Hi Hp) as (l & s' & Hs & Nl & _).
    assert (Q : ranks (calls (st s')) < ranks (calls (st s)) /\ length (calls (st s')) = length (calls (st s))).
    { inversion Hs as [|s3 ps l0 s4 Hd N Ho]; subst. cbn [st]. split; [eapply ranks_step; eassumption | eapply step_length; eassumption]. }
    destruct Q as (Q & L). destruct (IH (ranks (calls (st s'))) ltac:(lia) s' eq_refl _ (run_snoc _ _ _ _ _ _ R Hs)) as (tr2 & s2 & R2 & F2 & L2 & D2).
    exists (NDo l :: tr2), s2. split; [eapply run_cons; eassumption|]. split; [|split; [congruence | exact D2]].
    intros x [<-|Hx]; [now exists l | now apply F2].
Qed.
End NESTED.

(** ** Example: the implementation of a call makes another, while a third call
    waits to write *)
Example C82_nested_nontrivial : exists tr s, run (nstep 1 5) (Nested (init 0) []) tr s /\
  calls (st s) = [AtBase; AtRLock; AtLock Success] /\ parents s = [None; Some 0; None].
Proof.
  eexists _, _. split.
  - eapply run_cons; [apply (n_call _ _ _ _ None); [discriminate | apply s_call]|cbn].
    eapply run_cons; [apply n_do; [eapply (s_rlock _ _ _ 0); reflexivity | discriminate | discriminate]|cbn].
    eapply run_cons; [apply n_do; [eapply (s_check _ _ _ 0); reflexivity | discriminate | discriminate]|cbn].
    eapply run_cons; [apply n_do; [eapply (s_pass _ _ _ 0); reflexivity | discriminate | discriminate]|cbn].
    eapply run_cons; [apply (n_call _ _ _ _ (Some 0)); [intros i E; injection E as <-; reflexivity | apply s_call]|cbn].
    eapply run_cons; [apply (n_call _ _ _ _ None); [discriminate | apply s_call]|cbn].
    eapply run_cons; [apply n_do; [eapply (s_rlock _ _ _ 2); reflexivity | discriminate | discriminate]|cbn].
    eapply run_cons; [apply n_do; [eapply (s_check _ _ _ 2); reflexivity | discriminate | discriminate]|cbn].
    eapply run_cons; [apply n_do; [eapply (s_pass _ _ _ 2); reflexivity | discriminate | discriminate]|cbn].
    eapply run_cons; [apply n_do; [eapply (s_base _ _ _ 2 Success); reflexivity | discriminate|]|cbn; apply run_nil].
    cbn. intros i o E j Hj. injection E as <- _. destruct j as [|[|[|[|j]]]]; discriminate.
  - split; reflexivity.
Qed.

Print Assumptions C82_nested.
Print Assumptions C82_finite.
Print Assumptions C82_finishes.
