(** Property C43: the pool of implementations. *)
From Verif Require Import SyncPool.
From Coq Require Import Permutation.
Open Scope nat_scope.

(** ** Specification *)

(** the implementation a call holds *)
Definition holds (p : pc) : list nat :=
  match p with Using x | AtReturn x _ => [x] | _ => [] end.
Definition held (l : list pc) : list nat := flat_map holds l.


(** ** Proofs *)
Lemma fill_fits impls c : length (items c) + length impls <= cap c ->
  fill impls c = Some (Chan (items c ++ impls) (cap c)).
Proof.
  revert c; induction impls as [|x l IH]; intros c H; cbn.
  - rewrite app_nil_r. now destruct c.
  - unfold send. destruct (Nat.ltb_spec (length (items c)) (cap c)); [|cbn in H; lia].
    rewrite IH; cbn; [now rewrite <- app_assoc|]. rewrite app_length. cbn in *. lia.
Qed.

Lemma new_pool_inv n c : new_pool n = Some c -> c = Chan (seq 0 n) n /\ 0 < n.
Proof.
  unfold new_pool. destruct (Nat.eqb_spec n 0); [discriminate|]. rewrite fill_fits by (cbn; rewrite seq_length; lia).
  cbn. intros [= <-]. split; [reflexivity | lia].
Qed.

(** The constructor panics exactly without implementations, and otherwise never
    blocks while filling the pool. *)
Theorem C43_constructor : forall n, (new_pool n = None <-> n = 0) /\
  (0 < n -> exists c, new_pool n = Some c /\ Permutation (items c) (seq 0 n) /\ cap c = n).
Proof.
  intros n. unfold new_pool. destruct (Nat.eqb_spec n 0) as [->|N].
  - split; [tauto | lia].
  - rewrite fill_fits by (cbn; rewrite seq_length; lia). split; [split; [discriminate | congruence]|]. cbn. eauto.
Qed.

Lemma held_upd l i p q : nth_error l i = Some p ->
  Permutation (holds p ++ held (upd i q l)) (holds q ++ held l).
Proof.
  revert i; induction l as [|a l IH]; intros [|i] H; cbn in H; try discriminate.
  - injection H as ->. cbn. rewrite !app_assoc. apply Permutation_app_tail, Permutation_app_comm.
  - cbn. specialize (IH _ H).
    rewrite !app_assoc. rewrite (Permutation_app_comm (holds p)), (Permutation_app_comm (holds q)).
    rewrite <- !app_assoc. now apply Permutation_app_head.
Qed.

Definition inv (n : nat) (s : state) : Prop :=
  cap (pool s) = n /\ Permutation (items (pool s) ++ held (calls s)) (seq 0 n).

Lemma inv_step n s l s' : inv n s -> step s l s' -> inv n s'.
Proof.
  intros (I1 & I2) H. destruct H as [s|s i x q Hi Hq|s i x p Hi|s i x p c Hi Hc]; unfold inv; cbn [pool calls items cap].
  - split; [exact I1|]. unfold held. rewrite flat_map_app. cbn. now rewrite app_nil_r.
  - split; [exact I1|]. rewrite <- I2, Hq. pose proof (held_upd _ _ _ (Using x) Hi) as U. cbn in U.
    rewrite U. cbn. symmetry. apply Permutation_middle.
  - split; [exact I1|]. rewrite <- I2. pose proof (held_upd _ _ _ (AtReturn x p) Hi) as U. cbn in U.
    apply Permutation_app_head. now apply Permutation_cons_inv in U.
  - unfold send in Hc. destruct (Nat.ltb _ _); [|discriminate]. injection Hc as <-. cbn. split; [exact I1|].
    rewrite <- I2. pose proof (held_upd _ _ _ (Returned p) Hi) as U. cbn in U.
    rewrite <- app_assoc. cbn. apply Permutation_app_head. exact U.
Qed.

Lemma inv_run n c tr s : new_pool n = Some c -> run step (State c []) tr s -> inv n s.
Proof.
  intros H HR. destruct (new_pool_inv _ _ H) as (-> & _).
  apply (run_inv step (fun _ => inv n)) in HR; [exact HR| |].
  - unfold inv; cbn. split; [reflexivity | now rewrite app_nil_r].
  - intros ? ? ? ? _ Hi Hs. eapply inv_step; eauto.
Qed.

(** In every reachable state every implementation is either idle in the pool
    or held by exactly one call, exactly once. *)
Theorem C43_exclusive : forall n c tr s, new_pool n = Some c -> run step (State c []) tr s ->
  Permutation (items (pool s) ++ held (calls s)) (seq 0 n).
Proof. intros n c tr s H HR. apply (inv_run _ _ _ _ H HR). Qed.

Lemma held_nth l i p x : nth_error l i = Some p -> In x (holds p) -> In x (held l).
Proof. intros H Hx. apply in_flat_map. exists p. split; [eapply nth_error_In; eauto | exact Hx]. Qed.

Lemma held_two l i j p q x : nth_error l i = Some p -> nth_error l j = Some q -> In x (holds p) -> In x (holds q) ->
  i <> j -> ~ NoDup (held l).
Proof.
  revert i j; induction l as [|a l IH]; intros [|i] [|j] Hi Hj Hp Hq N ND; cbn in Hi, Hj; try discriminate; try lia.
  - injection Hi as ->. cbn in ND.
    assert (G : forall (u v : list nat), NoDup (u ++ v) -> In x u -> In x v -> False).
    { clear. induction u as [|y u IH]; intros v ND Hu Hv; [contradiction|]. cbn in ND. apply NoDup_cons_iff in ND. destruct ND as (NI & ND).
      destruct Hu as [->|Hu]; [apply NI, in_or_app; auto | eapply IH; eauto]. }
    eapply G; eauto. eapply held_nth; eauto.
  - injection Hj as ->. cbn in ND.
    assert (G : forall (u v : list nat), NoDup (u ++ v) -> In x u -> In x v -> False).
    { clear. induction u as [|y u IH]; intros v ND Hu Hv; [contradiction|]. cbn in ND. apply NoDup_cons_iff in ND. destruct ND as (NI & ND).
      destruct Hu as [->|Hu]; [apply NI, in_or_app; auto | eapply IH; eauto]. }
    eapply G; eauto. eapply held_nth; eauto.
  - cbn in ND. assert (NoDup (held l)).
    { clear -ND. induction (holds a) as [|y u IH]; [exact ND|]. cbn in ND. apply NoDup_cons_iff in ND. apply IH, ND. }
    eapply (IH i j); eauto.
Qed.

(** ... so two different calls never use the same implementation at once, and
    none is used that is idle. *)
Theorem C43_never_shared : forall n c tr s i j x y, new_pool n = Some c -> run step (State c []) tr s ->
  nth_error (calls s) i = Some (Using x) -> nth_error (calls s) j = Some (Using y) -> i <> j ->
  x <> y /\ ~ In x (items (pool s)) /\ x < n.
Proof.
  intros n c tr s i j x y H HR Hi Hj N. destruct (inv_run _ _ _ _ H HR) as (_ & P).
  assert (ND : NoDup (items (pool s) ++ held (calls s))) by (rewrite P; apply seq_NoDup).
  assert (Hx : In x (held (calls s))) by (apply (held_nth _ _ _ x Hi); cbn; auto).
  split; [|split].
  - intros <-. eapply (held_two _ i j _ _ x Hi Hj); cbn; auto.
    clear -ND. induction (items (pool s)) as [|z u IH]; [exact ND|]. cbn in ND. apply NoDup_cons_iff in ND. apply IH, ND.
  - intros Hin. clear -ND Hin Hx. induction (items (pool s)) as [|z u IH]; [contradiction|]. cbn in ND. apply NoDup_cons_iff in ND.
    destruct ND as (NI & ND). destruct Hin as [->|Hin]; [apply NI, in_or_app; auto | auto].
  - assert (In x (seq 0 n)) as G by (rewrite <- P; apply in_or_app; auto). apply in_seq in G. lia.
Qed.

(** Giving an implementation back never blocks, whether or not the call
    panicked. *)
Theorem C43_return_never_blocks : forall n c tr s i x p, new_pool n = Some c -> run step (State c []) tr s ->
  nth_error (calls s) i = Some (AtReturn x p) -> exists s', step s (GiveBack i x) s' /\ nth_error (calls s') i = Some (Returned p).
Proof.
  intros n c tr s i x p H HR Hi. destruct (inv_run _ _ _ _ H HR) as (C & P).
  assert (L : length (items (pool s)) < n).
  { apply Permutation_length in P. rewrite app_length, seq_length in P.
    assert (In x (held (calls s))) as Hin by (apply (held_nth _ _ _ x Hi); cbn; auto).
    destruct (held (calls s)); [contradiction|]. cbn in P. lia. }
  eexists. split.
  - eapply s_give; [exact Hi|]. unfold send. rewrite C. destruct (Nat.ltb_spec (length (items (pool s))) n); [reflexivity | lia].
  - cbn. apply nth_upd_same. eapply nth_lt; eauto.
Qed.

(** A waiting call is blocked only while all the implementations are held by
    other calls. *)
Theorem C43_waits_only_if_busy : forall n c tr s i, new_pool n = Some c -> run step (State c []) tr s ->
  nth_error (calls s) i = Some AtTake ->
  (exists x s', step s (Take i x) s') \/ Permutation (held (calls s)) (seq 0 n).
Proof.
  intros n c tr s i H HR Hi. destruct (inv_run _ _ _ _ H HR) as (C & P).
  destruct (items (pool s)) as [|x q] eqn:E.
  - right. exact P.
  - left. eexists _, _. eapply s_take; eauto.
Qed.

(** ... and when no call is running, all the implementations are back. *)
Theorem C43_never_lost : forall n c tr s, new_pool n = Some c -> run step (State c []) tr s ->
  (forall i p, nth_error (calls s) i = Some p -> p = AtTake \/ exists b, p = Returned b) ->
  Permutation (items (pool s)) (seq 0 n).
Proof.
  intros n c tr s H HR Hall. destruct (inv_run _ _ _ _ H HR) as (C & P).
  assert (E : held (calls s) = []).
  { clear -Hall. unfold held. induction (calls s) as [|p l IH]; [reflexivity|]. cbn.
    destruct (Hall 0 p eq_refl) as [->|(b & ->)]; cbn; apply IH; intros i q Hq; apply (Hall (S i) q Hq). }
  now rewrite E, app_nil_r in P.
Qed.

(** What a call does, in order: take one implementation, run it, give the same
    one back. *)
Definition events (i : nat) (tr : list label) : list label :=
  filter (fun l => match l with Take j _ | Done j _ | GiveBack j _ => Nat.eqb i j | Call => false end) tr.
Inductive story (i : nat) : list label -> pc -> Prop :=
| st_wait : story i [] AtTake
| st_use x : story i [Take i x] (Using x)
| st_ret x b : story i [Take i x; Done i b] (AtReturn x b)
| st_end x b : story i [Take i x; Done i b; GiveBack i x] (Returned b).
Theorem C43_story : forall c tr s i p, run step (State c []) tr s ->
  nth_error (calls s) i = Some p -> story i (events i tr) p.
Proof.
  intros c tr s i p H. revert i p.
  apply (run_inv step (fun tr s => (forall i p, nth_error (calls s) i = Some p -> story i (events i tr) p) /\
     (forall i, length (calls s) <= i -> events i tr = []))) in H; [tauto| |].
  - split; [|reflexivity]. intros [|i] p Hi; discriminate.
  - clear. intros tr s l s' HR (IH & IN) HS.
    assert (EV : forall j, events j (tr ++ [l]) = events j tr ++ events j [l]) by (intros j; unfold events; now rewrite filter_app).
    destruct HS as [s|s i x q Hi Hq|s i x p Hi|s i x p c' Hi Hc]; cbn [calls];
      (split; [intros j r Hj; rewrite EV | intros j Hj; rewrite EV]); cbn [events filter]; rewrite ?app_nil_r.
    all: try (rewrite upd_length in Hj).
    all: try (pose proof (nth_lt _ _ _ Hi) as Li).
    all: try (destruct (Nat.eqb_spec j i) as [->|N]; [lia|]; rewrite app_nil_r; apply IN; lia).
    all: try (apply nth_upd in Hj; destruct Hj as [(-> & -> & _)|(N & Hj)];
              [rewrite Nat.eqb_refl; specialize (IH i _ Hi); inversion IH; cbn; constructor
              | destruct (Nat.eqb_spec j i) as [->|_]; [contradiction|]; rewrite ?app_nil_r; now apply IH]).
    + apply nth_app_inv in Hj. destruct Hj as [Hj|(-> & ->)]; [now apply IH|]. rewrite IN by lia. constructor.
    + rewrite app_length in Hj. apply IN. lia.
Qed.

(** ** An execution: two implementations, three calls, one of which panics *)
Definition demo : list label :=
  [Call; Call; Call; Take 0 0; Take 2 1; Done 2 true; GiveBack 2 1; Take 1 1; Done 0 false; Done 1 false; GiveBack 1 1; GiveBack 0 0].
Example C43_example : exists s, run step (State (Chan [0; 1] 2) []) demo s /\ items (pool s) = [1; 0].
Proof.
  eexists. split.
  - unfold demo. do 3 (eapply run_cons; [apply s_call|]; cbn [pool calls app]).
    do 2 (eapply run_cons; [eapply s_take; reflexivity|]; cbn [pool calls items cap upd]).
    eapply run_cons; [eapply s_done; reflexivity|]; cbn [pool calls items cap upd].
    eapply run_cons; [eapply s_give; reflexivity|]; cbn [pool calls items cap upd app].
    eapply run_cons; [eapply s_take; reflexivity|]; cbn [pool calls items cap upd app].
    do 2 (eapply run_cons; [eapply s_done; reflexivity|]; cbn [pool calls items cap upd]).
    do 2 (eapply run_cons; [eapply s_give; reflexivity|]; cbn [pool calls items cap upd app]).
    apply run_nil.
  - reflexivity.
Qed.
Example C43_example_new : new_pool 2 = Some (Chan [0; 1] 2).
Proof. reflexivity. Qed.

Print Assumptions C43_constructor.
Print Assumptions C43_exclusive.
Print Assumptions C43_never_shared.
Print Assumptions C43_return_never_blocks.
Print Assumptions C43_waits_only_if_busy.
Print Assumptions C43_never_lost.
Print Assumptions C43_story.
