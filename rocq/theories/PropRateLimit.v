(** Properties C40 and C41: the rate limiter. *)
From Verif Require Import RateLimit.
Open Scope nat_scope.

(** ** Specification: counting labels *)
Definition count (f : label -> bool) (tr : list label) : nat := length (filter f tr).
Definition is_tick (l : label) : bool := match l with Tick _ => true | _ => false end.
Definition is_kept (l : label) : bool := match l with Tick false => true | _ => false end.
Definition is_take (l : label) : bool := match l with Take _ => true | _ => false end.
Definition is_start (l : label) : bool := match l with Start _ => true | _ => false end.
Definition is_call (l : label) : bool := match l with Call _ => true | _ => false end.
(** base calls started for calls numbered [m] or later *)
Definition is_start_from (m : nat) (l : label) : bool := match l with Start i => Nat.leb m i | _ => false end.
Definition is_take_from (m : nat) (l : label) : bool := match l with Take i => Nat.leb m i | _ => false end.

(** ** Accounting *)
Lemma count_app f a b : count f (a ++ b) = count f a + count f b.
Proof. unfold count. now rewrite filter_app, app_length. Qed.
Lemma count_le f g tr : (forall l, f l = true -> g l = true) -> count f tr <= count g tr.
Proof.
  intros H. unfold count. induction tr as [|l tr IH]; cbn; [lia|]. specialize (H l). destruct (f l), (g l); cbn; try lia; now discriminate H.
Qed.

Definition bn (b : bool) : nat := if b then 1 else 0.
Definition supply (s : state) : nat := buf s + bn (match feed s with AtSend => true | AtRange => false end) + bn (pending s).

Section Acc.
  Variable burst : nat.
  Variable delay : Z.
  Notation step := (step burst delay).

  Lemma supply_step s l s' : step s l s' -> supply s' + bn (is_take l) = supply s + bn (is_kept l).
  Proof. intros H. destruct H; unfold supply; cbn; try rewrite H; try rewrite H0; cbn; try lia.
    - destruct (pending s); cbn; lia.
    - rewrite H1. cbn. lia. Qed.

  Lemma supply_run s tr s' : run step s tr s' -> supply s' + count is_take tr = supply s + count is_kept tr.
  Proof.
    intros H. induction H as [|tr s1 l s2 HR IH HS]; [cbn; lia|]. rewrite !count_app. apply supply_step in HS.
    unfold count at 2 4; cbn. unfold bn in HS. destruct (is_take l), (is_kept l); cbn; lia.
  Qed.

  Lemma buf_run tr s : run step (init burst) tr s -> buf s <= burst.
  Proof.
    intros H. apply (run_inv step (fun _ s => buf s <= burst)) in H; [exact H | cbn; lia |].
    intros ? ? ? ? _ Hb HS. destruct HS; cbn; lia.
  Qed.
  Lemma supply_bound tr s : run step (init burst) tr s -> supply s <= burst + 2.
  Proof. intros H. apply buf_run in H. unfold supply. destruct (feed s), (pending s); cbn; lia. Qed.

  (** calls numbered [m] or later that hold a token *)
  Fixpoint holding (m : nat) (l : list pc) : nat :=
    match l with
    | [] => 0
    | p :: l' => match m with
                 | O => bn (match p with Holding => true | _ => false end) + holding 0 l'
                 | S m' => holding m' l'
                 end
    end.
  Definition isH (p : pc) : bool := match p with Holding => true | _ => false end.
  Lemma holding_cons0 p l : holding 0 (p :: l) = bn (isH p) + holding 0 l.
  Proof. reflexivity. Qed.
  Lemma holding_upd m i q l p : nth_error l i = Some p ->
    holding m (upd i q l) + (if Nat.leb m i then bn (isH p) else 0) = holding m l + (if Nat.leb m i then bn (isH q) else 0).
  Proof.
    revert m i; induction l as [|a l IH]; intros m [|i] H; cbn [nth_error] in H; try discriminate.
    - injection H as ->. destruct m; cbn [upd holding Nat.leb]; fold (isH p) (isH q); lia.
    - destruct m as [|m]; cbn [upd].
      + rewrite !holding_cons0. specialize (IH 0 i H). cbn [Nat.leb] in *. lia.
      + cbn [holding Nat.leb]. apply IH, H.
  Qed.
  Lemma holding_snoc m l sel cd : holding m (l ++ [Waiting sel cd]) = holding m l.
  Proof.
    revert m; induction l as [|a l IH]; intros m; cbn [app]; [destruct m; reflexivity|].
    destruct m; cbn [holding]; now rewrite IH.
  Qed.

  Lemma holding_step m s l s' : step s l s' ->
    holding m (calls s') + bn (is_start_from m l) = holding m (calls s) + bn (is_take_from m l).
  Proof.
    intros H. destruct H; cbn [calls is_start_from is_take_from bn]; rewrite ?holding_snoc; try lia.
    - pose proof (holding_upd m i (Waiting sel true) _ _ H) as U. cbn in U. destruct (Nat.leb m i); cbn in U |- *; lia.
    - pose proof (holding_upd m i Holding _ _ H) as U. cbn in U. destruct (Nat.leb m i); cbn in U |- *; lia.
    - pose proof (holding_upd m i Holding _ _ H) as U. cbn in U. destruct (Nat.leb m i); cbn in U |- *; lia.
    - pose proof (holding_upd m i Cancelled _ _ H) as U. cbn in U. destruct (Nat.leb m i); cbn in U |- *; lia.
    - pose proof (holding_upd m i Running _ _ H) as U. cbn in U. destruct (Nat.leb m i); cbn in U |- *; lia.
    - pose proof (holding_upd m i Returned _ _ H) as U. cbn in U. destruct (Nat.leb m i); cbn in U |- *; lia.
  Qed.
  Lemma holding_run m s tr s' : run step s tr s' ->
    holding m (calls s') + count (is_start_from m) tr = holding m (calls s) + count (is_take_from m) tr.
  Proof.
    intros H. induction H as [|tr s1 l s2 HR IH HS]; [cbn; lia|]. rewrite !count_app. apply (holding_step m) in HS.
    unfold count at 2 4; cbn. unfold bn in HS. destruct (is_take_from m l), (is_start_from m l); cbn; lia.
  Qed.
  Lemma holding_beyond m l : length l <= m -> holding m l = 0.
  Proof. revert m; induction l as [|a l IH]; intros [|m] H; cbn in *; try lia. apply IH; lia. Qed.
  Lemma calls_count s tr s' : run step s tr s' -> length (calls s') = length (calls s) + count is_call tr.
  Proof.
    intros H. induction H as [|tr s1 l s2 HR IH HS]; [cbn; lia|]. rewrite count_app.
    destruct HS; cbn [calls]; rewrite ?upd_length, ?app_length; cbn; lia.
  Qed.
  Lemma start_from_0 tr : count (is_start_from 0) tr = count is_start tr.
  Proof. unfold count. f_equal. Qed.
  Lemma take_from_0 tr : count (is_take_from 0) tr = count is_take tr.
  Proof. unfold count. f_equal. Qed.
End Acc.

(** ** C40 *)

(** Since construction: no more base calls than burst plus ticks. *)
Theorem C40_since_construction : forall burst delay tr s,
  run (step burst delay) (init burst) tr s ->
  count is_start tr <= burst + count is_tick tr.
Proof.
  intros burst delay tr s H. pose proof (supply_run _ _ _ _ _ H) as A. pose proof (holding_run _ _ 0 _ _ _ H) as B.
  rewrite start_from_0, take_from_0 in B. cbn in A, B. assert (count is_kept tr <= count is_tick tr) by (apply count_le; now intros [[] | | | | | | | |]).
  lia.
Qed.

(** In any part of an execution: the tokens taken are at most burst + 2 plus the
    ticks in it ... *)
Theorem C40_window_tokens : forall burst delay tr1 s1 tr2 s2,
  run (step burst delay) (init burst) tr1 s1 -> run (step burst delay) s1 tr2 s2 ->
  count is_take tr2 <= burst + 2 + count is_tick tr2.
Proof.
  intros burst delay tr1 s1 tr2 s2 H1 H2. pose proof (supply_run _ _ _ _ _ H2) as A. apply supply_bound in H1.
  assert (count is_kept tr2 <= count is_tick tr2) by (apply count_le; now intros [[] | | | | | | | |]). lia.
Qed.

(** ... and so are the base calls started for the calls made in it. *)
Theorem C40_window_starts : forall burst delay tr1 s1 tr2 s2,
  run (step burst delay) (init burst) tr1 s1 -> run (step burst delay) s1 tr2 s2 ->
  count (is_start_from (count is_call tr1)) tr2 <= burst + 2 + count is_tick tr2.
Proof.
  intros burst delay tr1 s1 tr2 s2 H1 H2. pose proof (C40_window_tokens _ _ _ _ _ _ H1 H2) as A.
  pose proof (calls_count _ _ _ _ _ H1) as C. cbn in C.
  pose proof (holding_run _ _ (count is_call tr1) _ _ _ H2) as B. rewrite (holding_beyond _ (calls s1)) in B by lia.
  assert (count (is_take_from (count is_call tr1)) tr2 <= count is_take tr2) by (apply count_le; now intros []). lia.
Qed.

(** Every token is accounted for: it was taken by a call, is available, is in
    the hands of the feeder, or is still in the ticker's channel. *)
Theorem C40_token_conservation : forall burst delay tr s,
  run (step burst delay) (init burst) tr s ->
  count is_take tr + buf s + bn (match feed s with AtSend => true | AtRange => false end) + bn (pending s) = burst + count is_kept tr.
Proof.
  intros burst delay tr s H. pose proof (supply_run _ _ _ _ _ H) as A. unfold supply in A. cbn in A. lia.
Qed.

(** The story of a call: one token, then one base call; a cancelled call takes
    no token and does not reach the base. *)
Definition events (i : nat) (tr : list label) : list label :=
  filter (fun l => match l with CtxDone j | Take j | Cancel j | Start j | Finish j => Nat.eqb i j | _ => false end) tr.
Inductive story (i : nat) : list label -> pc -> Prop :=
| st_wait sel : story i [] (Waiting sel false)
| st_wait_done sel : story i [CtxDone i] (Waiting sel true)
| st_cancel : story i [CtxDone i; Cancel i] Cancelled
| st_hold pre : pre = [] \/ pre = [CtxDone i] -> story i (pre ++ [Take i]) Holding
| st_run pre : pre = [] \/ pre = [CtxDone i] -> story i (pre ++ [Take i; Start i]) Running
| st_ret pre : pre = [] \/ pre = [CtxDone i] -> story i (pre ++ [Take i; Start i; Finish i]) Returned.
Theorem C40_story : forall burst delay tr s i p, run (step burst delay) (init burst) tr s ->
  nth_error (calls s) i = Some p -> story i (events i tr) p.
Proof.
  intros burst delay tr s i p H. revert i p.
  apply (run_inv (step burst delay) (fun tr s => (forall i p, nth_error (calls s) i = Some p -> story i (events i tr) p) /\
     (forall i, length (calls s) <= i -> events i tr = []))) in H; [tauto| |].
  - split; [|reflexivity]. intros [|i] p Hi; discriminate.
  - clear. intros tr s l s' HR (IH & IN) HS.
    assert (EV : forall j, events j (tr ++ [l]) = events j tr ++ events j [l]) by (intros j; unfold events; now rewrite filter_app).
    destruct HS as [s Hd|s Hf Hp|s Hf Hb|s sel|s i sel Hi|s i sel cd b Hi Hb|s i sel cd Hi Hb Hf|s i Hi|s i Hi|s i Hi]; cbn [calls];
      (split; [intros j r Hj; rewrite EV | intros j Hj; rewrite EV]); cbn [events filter]; rewrite ?app_nil_r; auto.
    all: try (rewrite upd_length in Hj).
    all: try (pose proof (nth_lt _ _ _ Hi) as Li).
    all: try (destruct (Nat.eqb_spec j i) as [->|N]; [lia|]; rewrite app_nil_r; apply IN; lia).
    all: try (apply nth_upd in Hj; destruct Hj as [(-> & -> & _)|(N & Hj)];
              [rewrite Nat.eqb_refl; specialize (IH i _ Hi)
              | destruct (Nat.eqb_spec j i) as [->|_]; [contradiction|]; rewrite ?app_nil_r; now apply IH]).
    + apply nth_app_inv in Hj. destruct Hj as [Hj|(-> & ->)]; [now apply IH|]. rewrite IN by lia. constructor.
    + rewrite app_length in Hj. apply IN. lia.
    + inversion IH; cbn; constructor.
    + inversion IH; cbn; [apply (st_hold i []) | apply (st_hold i [CtxDone i])]; auto.
    + inversion IH; cbn; [apply (st_hold i []) | apply (st_hold i [CtxDone i])]; auto.
    + inversion IH; cbn; constructor.
    + inversion IH; rewrite <- app_assoc; cbn; now apply st_run.
    + inversion IH; rewrite <- app_assoc; cbn; now apply st_ret.
Qed.

(** With a positive delay every waiting call can still be served, whatever
    happened so far. *)
Theorem C40_no_starvation : forall burst delay tr s i sel cd, (0 < delay)%Z ->
  run (step burst delay) (init burst) tr s -> nth_error (calls s) i = Some (Waiting sel cd) ->
  exists tr' s', run (step burst delay) s (tr' ++ [Take i; Start i]) s'.
Proof.
  intros burst delay tr s i sel cd Hd HR Hi. pose proof (nth_lt _ _ _ Hi) as Li.
  assert (T : forall s0, calls s0 = calls s -> (exists b, buf s0 = S b) -> exists s', run (step burst delay) s0 [Take i; Start i] s').
  { intros s0 E (b & Eb). eexists. eapply run_cons; [eapply s_take; [rewrite E; exact Hi | exact Eb]|].
    apply run_one. apply s_start. cbn. apply nth_upd_same. now rewrite E. }
  destruct (buf s) as [|b] eqn:Eb; [|exists []; apply T; eauto].
  (* bring the feeder to the send *)
  assert (F : exists tr' s0, run (step burst delay) s tr' s0 /\ feed s0 = AtSend /\ buf s0 = 0 /\ calls s0 = calls s).
  { destruct (feed s) eqn:Ef.
    - destruct (pending s) eqn:Ep.
      + exists [Feed]. eexists. split; [apply run_one, s_feed; assumption|]. cbn. auto.
      + exists [Tick false; Feed]. eexists. split.
        * eapply run_cons; [rewrite <- Ep; apply s_tick, Hd|]. apply run_one, s_feed; cbn; auto.
        * cbn. auto.
    - exists [], s. split; [constructor | auto]. }
  destruct F as (tr' & s0 & R0 & F0 & B0 & C0).
  destruct (Nat.eq_dec burst 0) as [Z0|Z0].
  - exists tr'. eexists. eapply run_app; [exact R0|]. eapply run_cons; [eapply s_handoff; [rewrite C0; exact Hi | exact Z0 | exact F0]|].
    apply run_one, s_start. cbn. rewrite C0. now apply nth_upd_same.
  - destruct (T (State 1 AtRange (pending s0) (calls s0))) as (s' & R'); [exact C0 | eexists; reflexivity|].
    exists (tr' ++ [Put]), s'. eapply run_app; [|exact R']. eapply run_app; [exact R0|]. apply run_one. rewrite <- B0. apply s_put; [exact F0 | lia].
Qed.

(** Without a positive delay only [burst] calls are ever served: the others wait
    for ever. *)
Theorem C40_nonpositive_delay : forall burst delay tr s, (delay <= 0)%Z ->
  run (step burst delay) (init burst) tr s -> count is_start tr <= burst.
Proof.
  intros burst delay tr s Hd H. pose proof (C40_since_construction _ _ _ _ H) as A.
  assert (count is_tick tr = 0); [|lia].
  clear A. induction H as [|tr s1 l s2 HR IH HS]; [reflexivity|]. rewrite count_app, IH. destruct HS; try reflexivity. lia.
Qed.
Theorem C40_constructor : forall burst, new_limiter burst = None <-> (burst < 0)%Z.
Proof. intros b. unfold new_limiter. destruct (Z.ltb_spec b 0); split; intros; try discriminate; try lia; auto. Qed.

(** ** C40 read for all the base calls in a window, and C41, do not hold *)
Definition window_starts_all : Prop := forall burst delay tr1 s1 tr2 s2,
  run (step burst delay) (init burst) tr1 s1 -> run (step burst delay) s1 tr2 s2 ->
  count is_start tr2 <= burst + 2 + count is_tick tr2.
Definition C41_statement : Prop := forall burst delay tr1 s1 tr2 s2,
  run (step burst delay) (init burst) tr1 s1 -> run (step burst delay) s1 tr2 s2 ->
  count is_tick tr2 = 0 -> count is_start tr2 <= burst.

Ltac go c := eapply run_cons; [eapply c; cbn; try reflexivity; try lia | cbn [upd app calls buf feed pending init]].
Ltac stop_ := apply run_nil.

(** burst 1: after two ticks without calls, three calls go through at once *)
Definition idle : list label := [Tick false; Feed; Tick false].
Definition three : list label := [Call true; Call false; Call false; Take 0; Start 0; Put; Feed; Take 1; Start 1; Put; Take 2; Start 2].
Example C41_witness : exists s1 s2, run (step 1 5) (init 1) idle s1 /\ run (step 1 5) s1 three s2.
Proof.
  eexists _, _. unfold idle, three, init. split.
  - go s_tick. go s_feed. go s_tick. stop_.
  - go s_call. go s_call. go s_call. go s_take. go s_start. go s_put. go s_feed. go s_take. go s_start. go s_put. go s_take. go s_start. stop_.
Qed.
Theorem C41_refuted : ~ C41_statement.
Proof.
  intros H. destruct C41_witness as (s1 & s2 & H1 & H2). specialize (H _ _ _ _ _ _ H1 H2 eq_refl). vm_compute in H. lia.
Qed.
(** The true bound: burst + 2, reached by the execution above. *)
Theorem C41_partial : forall burst delay tr1 s1 tr2 s2,
  run (step burst delay) (init burst) tr1 s1 -> run (step burst delay) s1 tr2 s2 ->
  count is_tick tr2 = 0 -> count (is_start_from (count is_call tr1)) tr2 <= burst + 2.
Proof. intros burst delay tr1 s1 tr2 s2 H1 H2 E. pose proof (C40_window_starts _ _ _ _ _ _ H1 H2). lia. Qed.
Example C41_bound_reached : count is_start three = 1 + 2.
Proof. reflexivity. Qed.
(** ... and until the first tick it is the burst. *)
Theorem C41_fresh_partial : forall burst delay tr s,
  run (step burst delay) (init burst) tr s -> count is_tick tr = 0 -> count is_start tr <= burst.
Proof. intros burst delay tr s H E. pose proof (C40_since_construction _ _ _ _ H). lia. Qed.

(** burst 0: calls that took their tokens one per tick, but were delayed before
    calling the base *)
Definition hoard : list label :=
  [Call false; Call false; Call false; Tick false; Feed; Take 0; Tick false; Feed; Take 1; Tick false; Feed; Take 2].
Definition release : list label := [Start 0; Start 1; Start 2].
Theorem C40_window_starts_all_refuted : ~ window_starts_all.
Proof.
  intros H.
  assert (R : exists s1 s2, run (step 0 5) (init 0) hoard s1 /\ run (step 0 5) s1 release s2).
  { eexists _, _. unfold hoard, release, init. split.
    - go s_call. go s_call. go s_call. go s_tick. go s_feed. go s_handoff. go s_tick. go s_feed. go s_handoff. go s_tick. go s_feed. go s_handoff. stop_.
    - go s_start. go s_start. go s_start. stop_. }
  destruct R as (s1 & s2 & R1 & R2). specialize (H _ _ _ _ _ _ R1 R2). vm_compute in H. lia.
Qed.

(** an execution with a cancelled call *)
Example C40_example : exists s, run (step 1 5) (init 1)
  [Call true; Call true; Take 0; CtxDone 1; Start 0; Tick false; Feed; Put; Cancel 1; Finish 0; Call false; Take 2; Start 2] s.
Proof.
  eexists. unfold init. go s_call. go s_call. go s_take. go s_ctx. go s_start. go s_tick. go s_feed. go s_put. go s_cancel. go s_finish.
  go s_call. go s_take. go s_start. stop_.
Qed.

Print Assumptions C40_since_construction.
Print Assumptions C40_window_tokens.
Print Assumptions C40_window_starts.
Print Assumptions C40_token_conservation.
Print Assumptions C40_story.
Print Assumptions C40_no_starvation.
Print Assumptions C40_nonpositive_delay.
Print Assumptions C40_constructor.
Print Assumptions C40_window_starts_all_refuted.
Print Assumptions C41_refuted.
Print Assumptions C41_partial.
Print Assumptions C41_fresh_partial.
