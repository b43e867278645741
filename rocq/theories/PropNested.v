(** Property C84: implementations of a pool that call the pool again.  A pool of
    n implementations serves up to n calls that are in progress at once, nested
    or not; n+1 of them, nested in each other, wait for ever. *)
From Verif Require Import SyncPool PropSyncPool.
From Coq Require Import Permutation.
Open Scope nat_scope.

(** ** Model: calls of the pool (SyncPool.v, templates/syncpool:25-31), each made
    from outside or by the implementation that another call uses.  An
    implementation that made a call goes on when that call is over. *)
Record nested := Nested { st : state; parents : list (option nat) }.
Inductive nlabel := NCall (parent : option nat) | NDo (l : label).
Definition over (s : state) (j : nat) : Prop := exists b, nth_error (calls s) j = Some (Returned b).
Inductive nstep : nested -> nlabel -> nested -> Prop :=
| n_call s ps par s' : (forall i, par = Some i -> exists x, nth_error (calls s) i = Some (Using x)) -> step s Call s' ->
    nstep (Nested s ps) (NCall par) (Nested s' (ps ++ [par]))
| n_done s ps i p s' : step s (Done i p) s' -> (forall j, nth_error ps j = Some (Some i) -> over s j) ->
    nstep (Nested s ps) (NDo (Done i p)) (Nested s' ps)
| n_take s ps i x s' : step s (Take i x) s' -> nstep (Nested s ps) (NDo (Take i x)) (Nested s' ps)
| n_give s ps i x s' : step s (GiveBack i x) s' -> nstep (Nested s ps) (NDo (GiveBack i x)) (Nested s' ps).

(** ** Specification *)
Definition in_progress (p : pc) : bool := match p with Returned _ => false | _ => true end.
Definition number_in_progress (s : state) : nat := length (filter in_progress (calls s)).
(** some call that was made can go on *)
Definition goes_on (s : nested) : Prop := exists l s', nstep s (NDo l) s'.

(** ** Proof *)
Lemma nested_run : forall c tr s, run nstep (Nested (State c []) []) tr s ->
  (exists tr', run step (State c []) tr' (st s)) /\ length (parents s) = length (calls (st s)) /\
  (forall j i, nth_error (parents s) j = Some (Some i) -> i < j) /\
  ((forall i, ~ In (NCall (Some i)) tr) -> forall j i, nth_error (parents s) j <> Some (Some i)).
Proof.
  intros c tr s H. induction H as [|tr s1 l s2 H ((tr' & R) & L & P & N) Hs].
  - cbn. split; [exists []; constructor|]. split; [reflexivity|]. split; [intros [|j] i | intros _ [|j] i]; discriminate.
  - destruct Hs as [s ps par s' Hp Hc|s ps i p s' Hd Ho|s ps i x s' Ht|s ps i x s' Hg]; cbn [st parents] in *.
    + split; [eexists; eapply run_snoc; eassumption|]. inversion Hc; subst; cbn [calls]. rewrite !app_length, L. split; [reflexivity|].
      assert (K : forall j i, nth_error (ps ++ [par]) j = Some (Some i) -> nth_error ps j = Some (Some i) \/ (j = length ps /\ par = Some i)).
      { intros j i Hj. destruct (Nat.lt_ge_cases j (length ps)); [left; now rewrite nth_error_app1 in Hj by assumption|].
        rewrite nth_error_app2 in Hj by assumption. destruct (j - length ps) as [|k] eqn:E; [|destruct k; discriminate]. right. split; [lia | now injection Hj]. }
      split.
      * intros j i Hj. apply K in Hj. destruct Hj as [Hj|(-> & ->)]; [now apply P|]. destruct (Hp i eq_refl) as (x & Hx).
        rewrite L. apply nth_error_Some. congruence.
      * intros Hn j i Hj. apply K in Hj. destruct Hj as [Hj|(-> & ->)].
        -- apply (N (fun k Hk => Hn k (in_or_app _ _ _ (or_introl Hk))) j i Hj).
        -- apply (Hn i). apply in_or_app. right. now left.
    + split; [eexists; eapply run_snoc; eassumption|]. inversion Hd; subst; cbn [calls]. rewrite upd_length. split; [exact L|]. split; [exact P|].
      intros Hn. apply N. intros k Hk. apply (Hn k). apply in_or_app. now left.
    + split; [eexists; eapply run_snoc; eassumption|]. inversion Ht; subst; cbn [calls]. rewrite upd_length. split; [exact L|]. split; [exact P|].
      intros Hn. apply N. intros k Hk. apply (Hn k). apply in_or_app. now left.
    + split; [eexists; eapply run_snoc; eassumption|]. inversion Hg; subst; cbn [calls]. rewrite upd_length. split; [exact L|]. split; [exact P|].
      intros Hn. apply N. intros k Hk. apply (Hn k). apply in_or_app. now left.
Qed.

(** the last call in progress *)
Lemma last_in_progress : forall l, (exists i p, nth_error l i = Some p /\ in_progress p = true) ->
  exists i p, nth_error l i = Some p /\ in_progress p = true /\ forall j q, i < j -> nth_error l j = Some q -> in_progress q = false.
Proof.
  induction l as [|a l IH]; intros (i & p & Hi & Hp); [destruct i; discriminate|]. destruct (existsb in_progress l) eqn:E.
  - apply existsb_exists in E. destruct E as (q & Hq & Hp'). apply In_nth_error in Hq. destruct Hq as (k & Hk).
    destruct (IH (ex_intro _ k (ex_intro _ q (conj Hk Hp')))) as (i' & p' & A & B & C). exists (S i'), p'. split; [exact A|]. split; [exact B|].
    intros [|j] q' Hj Hq'; [lia|]. apply (C j); [lia | exact Hq'].
  - assert (F : forall j q, nth_error l j = Some q -> in_progress q = false).
    { intros j q Hq. destruct (in_progress q) eqn:Eq; [|reflexivity]. apply nth_error_In in Hq.
      assert (existsb in_progress l = true) by (apply existsb_exists; eauto). congruence. }
    exists 0, a. split; [reflexivity|]. split.
    + destruct i as [|i]; [injection Hi as ->; exact Hp|]. cbn in Hi. rewrite (F i p Hi) in Hp. discriminate.
    + intros [|j] q Hj Hq; [lia|]. exact (F j q Hq).
Qed.

Lemma waiting_count : forall l i, nth_error l i = Some AtTake -> length (held l) < length (filter in_progress l).
Proof.
  assert (G : forall l, length (held l) <= length (filter in_progress l)).
  { unfold held. induction l as [|[|x|x b|b] l IH]; cbn; lia. }
  induction l as [|a l IH]; intros [|i] H; cbn in H; try discriminate.
  - injection H as ->. pose proof (G l). unfold held in *. cbn. lia.
  - specialize (IH i H). unfold held in *. destruct a; cbn; lia.
Qed.

Lemma may_take : forall s ps i x q, nth_error (calls s) i = Some AtTake -> items (pool s) = x :: q -> goes_on (Nested s ps).
Proof. intros s ps i x q Hi Hq. exists (Take i x). eexists. apply n_take. eapply s_take; eassumption. Qed.
Lemma may_give : forall n c tr s ps i x b, new_pool n = Some c -> run step (State c []) tr s -> nth_error (calls s) i = Some (AtReturn x b) -> goes_on (Nested s ps).
Proof.
  intros n c tr s ps i x b Hn HR Hi. destruct (C43_return_never_blocks n c tr s i x b Hn HR Hi) as (s' & Hs & _).
  exists (GiveBack i x). eexists. apply n_give. exact Hs.
Qed.
Lemma may_finish : forall s ps i x, nth_error (calls s) i = Some (Using x) -> (forall j, nth_error ps j = Some (Some i) -> over s j) -> goes_on (Nested s ps).
Proof. intros s ps i x Hi Hj. exists (Done i false). eexists. apply n_done; [eapply s_done; exact Hi | exact Hj]. Qed.

(** With no more calls in progress than implementations, one of them can go on,
    however they are nested. *)
Theorem C84_few : forall n c tr s, new_pool n = Some c -> run nstep (Nested (State c []) []) tr s ->
  0 < number_in_progress (st s) <= n -> goes_on s.
Proof.
  intros n c tr [s ps] Hn H B. destruct (nested_run _ _ _ H) as ((tr' & R) & L & P & _). cbn [st parents] in *.
  assert (E : exists i p, nth_error (calls s) i = Some p /\ in_progress p = true).
  { unfold number_in_progress in B. destruct (filter in_progress (calls s)) as [|p l] eqn:E; [cbn in B; lia|].
    assert (Hp : In p (filter in_progress (calls s))) by (rewrite E; now left). apply filter_In in Hp. destruct Hp as [Hp Hq].
    apply In_nth_error in Hp. destruct Hp as (i & Hi). eauto. }
  apply last_in_progress in E. destruct E as (i & p & Hi & Hp & Hlast). destruct p as [|x|x b|b]; [| | |discriminate].
  - destruct (C43_waits_only_if_busy n c tr' s i Hn R Hi) as [(x & s' & Hs)|Hb].
    + exists (Take i x). eexists. apply n_take. exact Hs.
    + apply Permutation_length in Hb. rewrite seq_length in Hb. pose proof (waiting_count _ _ Hi). unfold number_in_progress in B. lia.
  - eapply may_finish; [exact Hi|]. intros j Hj. pose proof (P j i Hj) as Lt.
    destruct (nth_error (calls s) j) as [q|] eqn:Eq; [|apply nth_error_None in Eq; assert (j < length ps) by (apply nth_error_Some; congruence); lia].
    specialize (Hlast j q Lt Eq). destruct q as [| | |b]; try discriminate. now exists b.
  - eapply may_give; eassumption.
Qed.

(** If no implementation calls the pool, one of the calls in progress can go on,
    however many there are. *)
Theorem C84_flat : forall n c tr s, new_pool n = Some c -> run nstep (Nested (State c []) []) tr s ->
  (forall i, ~ In (NCall (Some i)) tr) -> 0 < number_in_progress (st s) -> goes_on s.
Proof.
  intros n c tr [s ps] Hn H F B. destruct (nested_run _ _ _ H) as ((tr' & R) & L & P & N). cbn [st parents] in *. specialize (N F).
  assert (U : forall i x, nth_error (calls s) i = Some (Using x) -> goes_on (Nested s ps)).
  { intros i x Hi. eapply may_finish; [exact Hi|]. intros j Hj. destruct (N j i Hj). }
  unfold number_in_progress in B. destruct (filter in_progress (calls s)) as [|p l] eqn:E; [cbn in B; lia|].
  assert (Hp : In p (filter in_progress (calls s))) by (rewrite E; now left). apply filter_In in Hp. destruct Hp as [Hp Hq].
  apply In_nth_error in Hp. destruct Hp as (i & Hi). destruct p as [|x|x b|b]; [|now apply (U i x) | eapply may_give; eassumption | discriminate].
  destruct (C43_waits_only_if_busy n c tr' s i Hn R Hi) as [(x & s' & Hs)|Hb]; [exists (Take i x); eexists; apply n_take; exact Hs|].
  destruct (new_pool_inv _ _ Hn) as (_ & Pos). destruct (held (calls s)) as [|x r] eqn:Eh.
  - apply Permutation_length in Hb. rewrite seq_length in Hb. cbn in Hb. lia.
  - assert (Hx : In x (held (calls s))) by (rewrite Eh; now left). apply in_flat_map in Hx. destruct Hx as (p & Hp2 & Hx).
    apply In_nth_error in Hp2. destruct Hp2 as (j & Hj). destruct p as [|y|y b|b]; cbn in Hx; try contradiction; [now apply (U j y) | eapply may_give; eassumption].
Qed.

(** Calls are finite: without new calls, every execution takes at most three
    steps of each call ... *)
Definition by_calls (l : nlabel) : Prop := exists x, l = NDo x.
Definition rank (p : pc) : nat := match p with AtTake => 3 | Using _ => 2 | AtReturn _ _ => 1 | Returned _ => 0 end.
Fixpoint ranks (l : list pc) : nat := match l with [] => 0 | p :: l' => rank p + ranks l' end.
Lemma ranks_upd : forall l i p q, nth_error l i = Some p -> ranks (upd i q l) + rank p = ranks l + rank q.
Proof.
  induction l as [|a l IH]; intros [|i] p q H; cbn in H; try discriminate; cbn.
  - injection H as ->. lia.
  - specialize (IH i p q H). lia.
Qed.
Lemma progress_upd : forall l i p q, nth_error l i = Some p -> in_progress p = true -> length (filter in_progress (upd i q l)) <= length (filter in_progress l).
Proof.
  induction l as [|a l IH]; intros [|i] p q H Hp; cbn in H; try discriminate; cbn.
  - injection H as ->. rewrite Hp. destruct (in_progress q); cbn; lia.
  - specialize (IH i p q H Hp). destruct (in_progress a); cbn; lia.
Qed.
Lemma step_less : forall s l s', nstep s (NDo l) s' -> ranks (calls (st s')) < ranks (calls (st s)) /\
  number_in_progress (st s') <= number_in_progress (st s) /\ length (calls (st s')) = length (calls (st s)).
Proof.
  intros s l s' H. unfold number_in_progress.
  inversion H as [|s0 ps i p s1 Hs|s0 ps i x s1 Hs|s0 ps i x s1 Hs]; subst; inversion Hs; subst; cbn [st calls]; rewrite upd_length;
    match goal with X : nth_error (calls s0) ?k = Some ?p |- context[upd ?k ?q _] => pose proof (ranks_upd _ _ p q X) as U; pose proof (progress_upd _ _ p q X eq_refl) as V end;
    cbn [rank] in U; repeat split; try lia.
Qed.
Theorem C84_finite : forall s tr s', run nstep s tr s' -> (forall l, In l tr -> by_calls l) -> length tr <= 3 * length (calls (st s)).
Proof.
  intros s tr s' H F. enough (length tr + ranks (calls (st s')) <= ranks (calls (st s))).
  { assert (B : forall l, ranks l <= 3 * length l) by (induction l as [|[] l IH]; cbn [ranks rank length]; lia). specialize (B (calls (st s))). lia. }
  induction H as [|tr s1 l s2 H IH Hs]; [cbn; lia|]. rewrite app_length. cbn [length].
  specialize (IH (fun l Hl => F l (in_or_app _ _ _ (or_introl Hl)))). destruct (F l) as (x & ->); [apply in_or_app; right; now left|].
  apply step_less in Hs. lia.
Qed.

(** ... and with no more calls in progress than implementations it can be
    continued until all of them are over. *)
Theorem C84_few_finish : forall n c tr s tr1 s1, new_pool n = Some c -> run nstep (Nested (State c []) []) tr s -> number_in_progress (st s) <= n ->
  run nstep s tr1 s1 -> (forall l, In l tr1 -> by_calls l) ->
  exists tr2 s2, run nstep s1 tr2 s2 /\ (forall l, In l tr2 -> by_calls l) /\
    length (calls (st s2)) = length (calls (st s)) /\ number_in_progress (st s2) = 0.
Proof.
  intros n c tr s tr1 s1 Hn H B H1 F1.
  assert (L1 : length (calls (st s1)) = length (calls (st s)) /\ number_in_progress (st s1) <= number_in_progress (st s)).
  { clear H. induction H1 as [|tr1 s1 l s2 H1 IH Hs]; [split; lia|]. specialize (IH (fun l Hl => F1 l (in_or_app _ _ _ (or_introl Hl)))).
    destruct (F1 l) as (x & ->); [apply in_or_app; right; now left|]. apply step_less in Hs. lia. }
  destruct L1 as (L1 & B1). rewrite <- L1. assert (B2 : number_in_progress (st s1) <= n) by lia. pose proof (run_app _ _ _ _ _ _ H H1) as R.
  clear H H1 F1 L1 B B1. remember (tr ++ tr1) as t eqn:Et. clear Et tr tr1 s. revert t R B2.
  remember (ranks (calls (st s1))) as m eqn:Em. revert s1 Em. induction m as [m IH] using lt_wf_ind. intros s Em t R B.
  destruct (Nat.eq_dec (number_in_progress (st s)) 0) as [E|E].
  - exists [], s. split; [constructor|]. split; [intros l []|]. now split.
  - destruct (C84_few n c t s Hn R ltac:(lia)) as (l & s' & Hs). pose proof (step_less _ _ _ Hs) as (Q & P & L).
    destruct (IH (ranks (calls (st s'))) ltac:(lia) s' eq_refl _ (run_snoc _ _ _ _ _ _ R Hs) ltac:(lia)) as (tr2 & s2 & R2 & F2 & L2 & D2).
    exists (NDo l :: tr2), s2. split; [eapply run_cons; eassumption|]. split; [|split; [congruence | exact D2]].
    intros x [<-|Hx]; [now exists l | now apply F2].
Qed.

(** ** The bound is sharp: n implementations that each call the pool again, the
    last of them in vain *)
Definition above (k : nat) : option nat := match k with 0 => None | S j => Some j end.
Lemma chain : forall n k, k <= n -> exists tr, run nstep (Nested (State (Chan (seq 0 n) n) []) [])
  tr (Nested (State (Chan (seq k (n - k)) n) (map Using (seq 0 k))) (map above (seq 0 k))).
Proof.
  intros n. induction k as [|k IH]; intros Hk; [exists []; rewrite Nat.sub_0_r; constructor|]. destruct (IH ltac:(lia)) as (tr & R).
  exists ((tr ++ [NCall (above k)]) ++ [NDo (Take k k)]). eapply run_snoc; [eapply run_snoc; [exact R|]|].
  - apply n_call; [|apply s_call]. intros i E. destruct k as [|j]; [discriminate|]. injection E as <-. exists j. cbn [calls].
    rewrite nth_error_map, (nth_error_nth' _ 0) by (rewrite seq_length; lia). now rewrite seq_nth by lia.
  - assert (E1 : map above (seq 0 (S k)) = map above (seq 0 k) ++ [above k]) by (rewrite seq_S, map_app; reflexivity). rewrite E1.
    assert (E2 : map Using (seq 0 (S k)) = upd k (Using k) (map Using (seq 0 k) ++ [AtTake])).
    { rewrite seq_S, map_app. cbn [map Nat.add]. clear. assert (G : forall l : list pc, upd (length l) (Using k) (l ++ [AtTake]) = l ++ [Using k]).
      { induction l as [|a l IH]; cbn; [reflexivity | now rewrite IH]. }
      rewrite <- G, map_length, seq_length. reflexivity. }
    rewrite E2. apply n_take.
    assert (E3 : seq k (n - k) = k :: seq (S k) (n - S k)) by (replace (n - k) with (S (n - S k)) by lia; reflexivity).
    cbn [pool calls].
    apply (s_take (State (Chan (seq k (n - k)) n) (map Using (seq 0 k) ++ [AtTake])) k k (seq (S k) (n - S k))); [|exact E3].
    cbn [calls]. rewrite nth_error_app2; rewrite map_length, seq_length; [now rewrite Nat.sub_diag | lia].
Qed.

Theorem C84_nested_refuted : forall n, 0 < n -> exists c tr s, new_pool n = Some c /\ run nstep (Nested (State c []) []) tr s /\
  number_in_progress (st s) = S n /\ ~ goes_on s.
Proof.
  intros n Hn. destruct (new_pool n) as [c|] eqn:E; [|apply C43_constructor in E; lia]. destruct (new_pool_inv _ _ E) as (-> & _).
  destruct (chain n n (le_n n)) as (tr & R). rewrite Nat.sub_diag in R. cbn [seq] in R.
  exists (Chan (seq 0 n) n), (tr ++ [NCall (above n)]). eexists. split; [reflexivity|]. split; [|split].
  - eapply run_snoc; [exact R|]. apply n_call; [|apply s_call]. intros i Ei. destruct n as [|j]; [lia|]. injection Ei as <-. exists j. cbn [calls].
    rewrite nth_error_map, (nth_error_nth' _ 0) by (rewrite seq_length; lia). now rewrite seq_nth by lia.
  - cbn [st]. unfold number_in_progress. cbn [calls]. rewrite filter_app, app_length. cbn. rewrite Nat.add_1_r. f_equal.
    assert (G : forall l, length (filter in_progress (map Using l)) = length l) by (induction l; cbn; auto). rewrite G. apply seq_length.
  - intros (l & s' & Hs).
    assert (U : forall i p, nth_error (map Using (seq 0 n) ++ [AtTake]) i = Some p -> (i < n /\ p = Using i) \/ (i = n /\ p = AtTake)).
    { intros i p Hi. destruct (Nat.lt_ge_cases i n) as [Lt|Ge].
      - left. split; [exact Lt|]. rewrite nth_error_app1 in Hi by (rewrite map_length, seq_length; exact Lt).
        rewrite nth_error_map, (nth_error_nth' _ 0) in Hi by (rewrite seq_length; lia). rewrite seq_nth in Hi by lia. cbn in Hi. congruence.
      - right. rewrite nth_error_app2 in Hi; rewrite map_length, seq_length in *; [|exact Ge].
        destruct (i - n) as [|k] eqn:Ek; [split; [lia | cbn in Hi; congruence] | destruct k; discriminate]. }
    inversion Hs as [|s ps i p s1 Hd Ho|s ps i x s1 Ht|s ps i x s1 Hg]; subst; cbn [pool calls] in *.
    + inversion Hd as [| |s i0 x p0 Hi|]; subst. cbn [calls] in Hi. apply U in Hi. destruct Hi as [(Lt & _)|(_ & Hi)]; [|discriminate].
      destruct (Ho (S i)) as (b & Hb).
      * assert (A : map above (seq 0 n) ++ [above n] = map above (seq 0 (S n))) by (rewrite seq_S, map_app; reflexivity). rewrite A.
        rewrite nth_error_map, (nth_error_nth' _ 0) by (rewrite seq_length; lia). now rewrite seq_nth by lia.
      * cbn [calls] in Hb. apply U in Hb. destruct Hb as [(_ & Hb)|(_ & Hb)]; discriminate.
    + inversion Ht as [|s i0 x0 q Hi Hq| |]; subst. cbn in Hq. discriminate.
    + inversion Hg as [| | |s i0 x0 p c Hi Hc]; subst. cbn [calls] in Hi. apply U in Hi. destruct Hi as [(_ & Hi)|(_ & Hi)]; discriminate.
Qed.

(** ** Example: a pool of two; an implementation calls the pool again, and both
    calls end *)
Example C84_nontrivial : exists c tr s, new_pool 2 = Some c /\ run nstep (Nested (State c []) []) tr s /\ In (NCall (Some 0)) tr /\
  number_in_progress (st s) = 2 /\ goes_on s.
Proof.
  exists (Chan (seq 0 2) 2).
  assert (R2 : run nstep (Nested (State (Chan [0; 1] 2) []) []) [NCall None; NDo (Take 0 0); NCall (Some 0); NDo (Take 1 1)]
                 (Nested (State (Chan [] 2) [Using 0; Using 1]) [None; Some 0])).
  { eapply run_cons; [apply n_call; [intros i E; discriminate | apply s_call]|].
    eapply run_cons; [apply n_take; eapply s_take; reflexivity|].
    eapply run_cons; [apply n_call; [intros i E; injection E as <-; exists 0; reflexivity | apply s_call]|].
    eapply run_cons; [apply n_take; eapply s_take; reflexivity|]. apply run_nil. }
  eexists _, _. split; [reflexivity|]. split; [exact R2|]. split; [cbn; tauto|]. split; [reflexivity|].
  apply (C84_few 2 _ _ _ eq_refl R2). cbn. lia.
Qed.

Print Assumptions C84_few.
Print Assumptions C84_flat.
Print Assumptions C84_nested_refuted.
Print Assumptions C84_finite.
Print Assumptions C84_few_finish.
