(** Property C86: implementations that call their rate limiter again.  With a
    positive delay between ticks all calls can still be finished, to any depth of
    nesting; without one, a call nested in [burst] others waits for ever. *)
From Verif Require Import RateLimit PropRateLimit.
Open Scope nat_scope.

(** ** Model: calls of a rate limiter (RateLimit.v, templates/ratelimit:37-50),
    each made from outside or by the implementation another call is in, which
    goes on when that call is over. *)
Record nested := Nested { st : state; parents : list (option nat) }.
Definition done (p : pc) : bool := match p with Returned | Cancelled => true | _ => false end.
Definition over (s : state) (j : nat) : Prop := exists p, nth_error (calls s) j = Some p /\ done p = true.
Inductive nlabel := NCall (parent : option nat) (sel : bool) | NDo (l : label).

Section NESTED.
Variable burst : nat.
Variable delay : Z.
Notation step := (step burst delay).

Inductive nstep : nested -> nlabel -> nested -> Prop :=
| n_call s ps par sel s' : (forall i, par = Some i -> nth_error (calls s) i = Some Running) -> step s (Call sel) s' ->
    nstep (Nested s ps) (NCall par sel) (Nested s' (ps ++ [par]))
| n_do s ps l s' : step s l s' -> (forall sel, l <> Call sel) -> (forall i, l = Finish i -> forall j, nth_error ps j = Some (Some i) -> over s j) ->
    nstep (Nested s ps) (NDo l) (Nested s' ps).

(** ** Specification: without further calls and without any context being
    cancelled, all calls can come to their end *)
Definition can_finish (s : nested) : Prop := exists tr s', run nstep s tr s' /\
  (forall l, In l tr -> exists x, l = NDo x /\ forall i, x <> CtxDone i /\ x <> Cancel i) /\
  length (calls (st s')) = length (calls (st s)) /\ forall i p, nth_error (calls (st s')) i = Some p -> done p = true.

(** ** Proof *)
Lemma step_length : forall s l s', step s l s' -> (forall sel, l <> Call sel) -> length (calls s') = length (calls s).
Proof. intros s l s' H N. destruct H; cbn; rewrite ?upd_length; auto. destruct (N sel eq_refl). Qed.

Definition well (s : nested) : Prop := length (parents s) = length (calls (st s)) /\ forall j i, nth_error (parents s) j = Some (Some i) -> i < j.
Lemma well_run : forall tr s, run nstep (Nested (init burst) []) tr s -> well s.
Proof.
  intros tr s H. induction H as [|tr s1 l s2 H (L & P) Hs].
  - split; [reflexivity|]. intros [|j] i; discriminate.
  - destruct Hs as [s ps par sel s' Hp Hc|s ps l s' Hd N Ho]; unfold well; cbn [st parents] in *.
    + inversion Hc; subst; cbn [calls]. rewrite !app_length, L. split; [reflexivity|]. intros j i Hj.
      apply nth_app_inv in Hj. destruct Hj as [Hj|(-> & E)]; [now apply P|]. rewrite L. apply nth_lt with (x := Running). now apply Hp.
    + rewrite (step_length _ _ _ Hd N). now split.
Qed.

Definition quiet (l : label) : Prop := match l with Call _ | Finish _ | CtxDone _ | Cancel _ => False | _ => True end.
Lemma lift : forall s ps tr s', run step s tr s' -> Forall quiet tr -> run nstep (Nested s ps) (map NDo tr) (Nested s' ps).
Proof.
  intros s ps tr s' H. induction H as [|tr s1 l s2 H IH Hs]; intros F; [constructor|]. apply Forall_app in F. destruct F as [F1 F2]. inversion F2; subst.
  rewrite map_app. eapply run_snoc; [now apply IH|]. apply n_do; [exact Hs| |]; intros i ->; contradiction.
Qed.

Lemma serve : forall s i p, (0 < delay)%Z -> nth_error (calls s) i = Some p -> done p = false ->
  exists tr s', run step s tr s' /\ Forall quiet tr /\ calls s' = upd i Running (calls s).
Proof.
  intros s i p Hd Hi Hp. pose proof (nth_lt _ _ _ Hi) as Li.
  assert (UU : forall (l : list pc) x y, upd i x (upd i y l) = upd i x l).
  { clear. intros l x y. revert i. induction l as [|a l IH]; intros [|i]; cbn; auto. now rewrite IH. }
  destruct p as [sel cd| | | |]; try discriminate.
  - assert (T : forall s0, calls s0 = calls s -> (exists b, buf s0 = S b) -> exists s', run step s0 [Take i; Start i] s' /\ calls s' = upd i Running (calls s)).
    { intros s0 E (b & Eb). eexists. split.
      - eapply run_cons; [eapply s_take; [rewrite E; exact Hi | exact Eb]|]. apply run_one. apply s_start. cbn. apply nth_upd_same. now rewrite E.
      - cbn. now rewrite UU, E. }
    destruct (buf s) as [|b] eqn:Eb.
    2: { destruct (T s eq_refl (ex_intro _ b Eb)) as (s' & R & E). exists [Take i; Start i], s'. split; [exact R|]. split; [repeat constructor | exact E]. }
    assert (F : exists tr' s0, run step s tr' s0 /\ Forall quiet tr' /\ feed s0 = AtSend /\ buf s0 = 0 /\ calls s0 = calls s).
    { destruct (feed s) eqn:Ef.
      - destruct (pending s) eqn:Ep.
        + exists [Feed]. eexists. split; [apply run_one, s_feed; assumption|]. split; [repeat constructor|]. cbn. auto.
        + exists [Tick false; Feed]. eexists. split; [|split; [repeat constructor|]].
          * eapply run_cons; [rewrite <- Ep; apply s_tick, Hd|]. apply run_one, s_feed; cbn; auto.
          * cbn. auto.
      - exists [], s. split; [constructor | auto]. }
    destruct F as (tr' & s0 & R0 & Q0 & F0 & B0 & C0). destruct (Nat.eq_dec burst 0) as [Z0|Z0].
    + exists (tr' ++ [Take i; Start i]). eexists. split; [eapply run_app; [exact R0|]|split].
      * eapply run_cons; [eapply s_handoff; [rewrite C0; exact Hi | exact Z0 | exact F0]|]. apply run_one, s_start. cbn. rewrite C0. now apply nth_upd_same.
      * apply Forall_app. split; [exact Q0 | repeat constructor].
      * cbn. now rewrite UU, C0.
    + destruct (T (State 1 AtRange (pending s0) (calls s0))) as (s' & R' & E'); [exact C0 | eexists; reflexivity|].
      exists ((tr' ++ [Put]) ++ [Take i; Start i]), s'. split; [|split; [|exact E']].
      * eapply run_app; [|exact R']. eapply run_app; [exact R0|]. apply run_one. rewrite <- B0. apply s_put; [exact F0 | lia].
      * apply Forall_app. split; [apply Forall_app; split; [exact Q0|]|]; repeat constructor.
  - exists [Start i]. eexists. split; [apply run_one, s_start, Hi|]. split; [repeat constructor | reflexivity].
  - exists [], s. split; [constructor|]. split; [constructor|]. clear -Hi. revert i Hi. induction (calls s) as [|a l IH]; intros [|i] Hi; cbn in *; try discriminate.
    + injection Hi as ->. reflexivity.
    + f_equal. now apply IH.
Qed.

(** the calls from number [k] on are over: finish the one before *)
Lemma finish_from : forall k s, (0 < delay)%Z -> well s -> k <= length (calls (st s)) ->
  (forall j p, k <= j -> nth_error (calls (st s)) j = Some p -> done p = true) -> can_finish s.
Proof.
  induction k as [|k IH]; intros [s ps] Hd W Hk Hall; cbn [st] in *.
  - exists [], (Nested s ps). split; [constructor|]. split; [intros l []|]. split; [reflexivity|]. intros i p. apply Hall. lia.
  - destruct (nth_error (calls s) k) as [p|] eqn:Ek; [|apply nth_error_None in Ek; lia]. destruct (done p) eqn:Dp.
    + apply (IH (Nested s ps) Hd W); cbn [st]; [lia|]. intros j q Hj Hq. destruct (Nat.eq_dec j k) as [->|N]; [congruence|]. apply (Hall j); [lia | exact Hq].
    + destruct (serve s k p Hd Ek Dp) as (tr & s1 & R & Q & E). set (s2 := State (buf s1) (feed s1) (pending s1) (upd k Returned (calls s1))).
      assert (R2 : run nstep (Nested s ps) (map NDo tr ++ [NDo (Finish k)]) (Nested s2 ps)).
      { eapply run_snoc; [apply lift; eassumption|]. apply n_do; [apply s_finish; rewrite E; apply nth_upd_same, Hk | discriminate|].
        intros i X j Hj. injection X as <-. destruct W as (L & P). cbn [st parents] in *. pose proof (P j k Hj) as Lt. pose proof (nth_lt _ _ _ Hj) as Lj.
        destruct (nth_error (calls s) j) as [q|] eqn:Eq; [|apply nth_error_None in Eq; lia]. exists q. split; [rewrite E, nth_upd_other by lia; exact Eq | apply (Hall j); [lia | exact Eq]]. }
      assert (L2 : length (calls s2) = length (calls s)) by (cbn; rewrite upd_length, E, upd_length; reflexivity).
      destruct (IH (Nested s2 ps) Hd) as (tr' & s' & R' & Q' & L' & F').
      * destruct W as (L & P). split; cbn [st parents] in *; [rewrite L2; exact L | exact P].
      * cbn [st]. lia.
      * cbn [st]. intros j q Hj Hq. subst s2. cbn [calls] in Hq. apply nth_upd in Hq. destruct Hq as [(-> & -> & _)|(N & Hq)]; [reflexivity|].
        rewrite E, nth_upd_other in Hq by lia. apply (Hall j); [lia | exact Hq].
      * eexists _, s'. split; [eapply run_app; [exact R2 | exact R']|]. split; [|split; [cbn [st] in *; lia | exact F']].
        intros l Hl. apply in_app_or in Hl. destruct Hl as [Hl|Hl]; [|now apply Q']. apply in_app_or in Hl. destruct Hl as [Hl|[<-|[]]].
        -- apply in_map_iff in Hl. destruct Hl as (x & <- & Hx). exists x. split; [reflexivity|]. rewrite Forall_forall in Q. specialize (Q x Hx).
           intros i. split; intros ->; contradiction.
        -- eexists. split; [reflexivity|]. intros i. split; discriminate.
Qed.

Theorem C86_finish : forall tr s, (0 < delay)%Z -> run nstep (Nested (init burst) []) tr s -> can_finish s.
Proof.
  intros tr s Hd H. apply (finish_from (length (calls (st s)))); [exact Hd | eapply well_run; exact H | lia |].
  intros j p Hj Hp. apply nth_lt in Hp. lia.
Qed.
End NESTED.

(** ** Without ticks (a delay that is not positive): [burst] + 1 calls, each but
    the first made by the implementation the one before is in *)
Definition above (k : nat) : option nat := match k with 0 => None | S j => Some j end.
Definition chain_state (b k : nat) : nested := Nested (State b AtRange false (repeat Running k)) (map above (seq 0 k)).

Lemma upd_last {A} : forall (l : list A) x y, upd (length l) y (l ++ [x]) = l ++ [y].
Proof. induction l as [|a l IH]; intros x y; cbn; [reflexivity | now rewrite IH]. Qed.
Lemma repeat_snoc {A} : forall (x : A) k, repeat x (S k) = repeat x k ++ [x].
Proof. intros x. induction k as [|k IH]; [reflexivity|]. cbn in *. now rewrite <- IH. Qed.
Lemma chain : forall delay burst k, k <= burst -> exists tr, run (nstep burst delay) (Nested (init burst) []) tr (chain_state (burst - k) k).
Proof.
  intros delay burst. induction k as [|k IH]; intros Hk; [exists []; unfold chain_state; rewrite Nat.sub_0_r; constructor|]. destruct (IH ltac:(lia)) as (tr & R).
  exists (((tr ++ [NCall (above k) false]) ++ [NDo (Take k)]) ++ [NDo (Start k)]).
  unfold chain_state. rewrite repeat_snoc, seq_S, map_app. cbn [map Nat.add]. 
  assert (U : forall x y, upd k y (repeat Running k ++ [x]) = repeat Running k ++ [y]) by (intros x y; rewrite <- (repeat_length Running k) at 1; apply upd_last).
  assert (N : forall x, nth_error (repeat Running k ++ [x]) k = Some x) by (intros x; rewrite <- (repeat_length Running k) at 2; apply nth_app_last).
  eapply run_snoc; [eapply run_snoc; [eapply run_snoc; [exact R|]|]|].
  - apply n_call; [|apply s_call]. intros i E. destruct k as [|j]; [discriminate|]. injection E as <-. cbn [calls]. apply nth_error_repeat. lia.
  - apply n_do; [|discriminate|discriminate]. eapply s_take; cbn [calls buf]; [apply N|]. instantiate (1 := burst - S k). lia.
  - cbn [calls buf feed pending]. rewrite U, <- (U Holding Running). apply n_do; [|discriminate|discriminate].
    apply (s_start burst delay (State _ _ _ _)). cbn [calls]. apply N.
Qed.

Definition stuck_state (burst : nat) (cs : list pc) : nested := Nested (State 0 AtRange false cs) (map above (seq 0 (S burst))).
Lemma nothing : forall burst delay l s', (delay <= 0)%Z -> nstep burst delay (stuck_state burst (repeat Running burst ++ [Waiting false false])) (NDo l) s' ->
  exists i, l = CtxDone i.
Proof.
  intros burst delay l s' Hd H. inversion H as [|s ps l0 s1 Hs N Ho]; subst. set (cs := repeat Running burst ++ [Waiting false false]) in *.
  assert (K : forall i p, nth_error cs i = Some p -> (i < burst /\ p = Running) \/ (i = burst /\ p = Waiting false false)).
  { intros i p Hi. apply nth_app_inv in Hi. rewrite repeat_length in Hi. destruct Hi as [Hi|(-> & ->)]; [|now right].
    left. pose proof (nth_lt _ _ _ Hi) as Li. rewrite repeat_length in Li. split; [exact Li|]. apply nth_error_In in Hi. now apply repeat_spec in Hi. }
  inversion Hs; subst; cbn [buf feed pending calls] in *; try discriminate; try lia; eauto.
  - destruct (N sel eq_refl).
  - match goal with X : nth_error cs _ = Some (Waiting true true) |- _ => apply K in X; destruct X as [(_ & E)|(_ & E)]; discriminate end.
  - match goal with X : nth_error cs _ = Some Holding |- _ => apply K in X; destruct X as [(_ & E)|(_ & E)]; discriminate end.
  - exfalso. assert (Li : i < burst) by (match goal with X : nth_error cs _ = Some Running |- _ => apply K in X; destruct X as [(Li & _)|(_ & E)]; [exact Li | discriminate] end).
    destruct (Ho i eq_refl (S i)) as (p & Hp & Dp).
    { change (nth_error (map above (seq 0 (S burst))) (S i) = Some (Some i)). rewrite nth_error_map, (nth_error_nth' _ 0) by (rewrite seq_length; lia). now rewrite seq_nth by lia. }
    apply K in Hp. destruct Hp as [(_ & ->)|(_ & ->)]; discriminate.
Qed.

Theorem C86_without_ticks : forall burst delay, (delay <= 0)%Z ->
  exists tr s, run (nstep burst delay) (Nested (init burst) []) tr s /\ ~ can_finish burst delay s /\
    forall l s', nstep burst delay s (NDo l) s' -> exists i, l = CtxDone i.
Proof.
  intros burst delay Hd. destruct (chain delay burst burst (le_n _)) as (tr & R).
  exists (tr ++ [NCall (above burst) false]), (stuck_state burst (repeat Running burst ++ [Waiting false false])). split; [|split].
  - eapply run_snoc; [exact R|]. unfold chain_state, stuck_state. rewrite Nat.sub_diag, seq_S, map_app. cbn [map Nat.add].
    apply n_call; [|apply s_call]. intros i E. destruct burst as [|j]; [discriminate|]. injection E as <-. cbn [calls]. apply nth_error_repeat. lia.
  - intros (tr' & s' & R' & Q & L & F). destruct tr' as [|l tr'].
    + inversion R' as [E|tr0 ? ? ? ? ? E]; [|destruct tr0; discriminate]. subst s'.
      assert (X : nth_error (repeat Running burst ++ [Waiting false false]) burst = Some (Waiting false false)).
      { rewrite <- (repeat_length Running burst) at 2. apply nth_app_last. }
      specialize (F burst _ X). discriminate.
    + apply run_cons_inv in R'. destruct R' as (s1 & Hs & _). destruct (Q l (or_introl eq_refl)) as (x & -> & Hx).
      apply nothing in Hs; [|exact Hd]. destruct Hs as (i & ->). destruct (Hx i) as [N _]. now apply N.
  - intros l s' Hs. eapply nothing; eassumption.
Qed.
(** ** Example: burst 1, the implementation of a call calls again and waits for a tick *)
Example C86_nontrivial : exists tr s, run (nstep 1 5) (Nested (init 1) []) tr s /\
  calls (st s) = [Running; Waiting true false] /\ buf (st s) = 0 /\ parents s = [None; Some 0] /\ can_finish 1 5 s.
Proof.
  assert (X : exists tr s, run (nstep 1 5) (Nested (init 1) []) tr s /\ calls (st s) = [Running; Waiting true false] /\ buf (st s) = 0 /\ parents s = [None; Some 0]).
  { eexists _, _. split; [|split; [|split]].
    - eapply run_cons; [apply (n_call _ _ _ _ None true); [discriminate | apply s_call]|].
      eapply run_cons; [apply n_do; [eapply (s_take _ _ _ 0); reflexivity | discriminate | discriminate]|].
      eapply run_cons; [apply n_do; [eapply (s_start _ _ _ 0); reflexivity | discriminate | discriminate]|].
      eapply run_cons; [apply (n_call _ _ _ _ (Some 0) true); [intros i E; injection E as <-; reflexivity | apply s_call]|apply run_nil].
    - reflexivity.
    - reflexivity.
    - reflexivity. }
  destruct X as (tr & s & R & A & B & C). exists tr, s. repeat split; try assumption. eapply C86_finish; [lia | exact R].
Qed.

Print Assumptions C86_finish.
Print Assumptions C86_without_ticks.
