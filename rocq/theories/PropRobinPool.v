(** Property C42: the round-robin pool. *)
From Verif Require Import RobinPool.
From Coq Require Import Permutation.
Open Scope Z_scope.

(** ** Specification over the labels of an execution *)

(** the calls in the order in which they drew their tickets *)
Fixpoint ticket_order (tr : list label) : list nat :=
  match tr with
  | [] => []
  | Add i _ :: tr' => i :: ticket_order tr'
  | _ :: tr' => ticket_order tr'
  end.

(** [k] and [k'] are neighbours in the cyclic order of [n] implementations *)
Definition next_of (n k k' : Z) : Prop := (k < n - 1 /\ k' = k + 1) \/ (k = n - 1 /\ k' = 0).

(** the ticket of the j-th (from 0) call to draw one *)
Definition ticket (j : nat) : Z := (Z.of_nat j + 1) mod 4294967296.

Lemma ticket_order_snoc tr l : ticket_order (tr ++ [l]) = ticket_order tr ++ match l with Add i _ => [i] | _ => [] end.
Proof. induction tr as [|x tr IH]; cbn; [now destruct l|]. destruct x; rewrite IH; reflexivity. Qed.

Section Inv.
  Variable len : nat.
  Variable size : Z.
  Notation step := (step len size).

  Definition inv (tr : list label) (s : state) : Prop :=
    counter s = u32 (Z.of_nat (length (ticket_order tr))) /\
    (forall i p, nth_error (calls s) i = Some p ->
       match p with
       | AtAdd => ~ In i (ticket_order tr)
       | AtPick c => exists j, nth_error (ticket_order tr) j = Some i /\ c = ticket j
       | Served k => exists j, nth_error (ticket_order tr) j = Some i /\ pick len size (ticket j) = Some k
       | Crashed => exists j, nth_error (ticket_order tr) j = Some i /\ pick len size (ticket j) = None
       end) /\
    (forall i, (length (calls s) <= i)%nat -> ~ In i (ticket_order tr)) /\
    NoDup (ticket_order tr) /\
    (forall i k, In (Serve i k) tr -> nth_error (calls s) i = Some (Served k)) /\
    (forall i, In (Crash i) tr -> nth_error (calls s) i = Some Crashed).

  Lemma nth_error_snoc_some {A} (l : list A) x j y : nth_error l j = Some y -> nth_error (l ++ [x]) j = Some y.
  Proof. intros H. rewrite nth_error_app1; [exact H | eapply nth_lt; eauto]. Qed.

  Lemma inv_step tr s l s' : inv tr s -> step s l s' -> inv (tr ++ [l]) s'.
  Proof.
    intros (I1 & I2 & I3 & I4 & I5 & I6) HS. unfold inv. rewrite ticket_order_snoc.
    destruct HS as [s|s i Hi c|s i c k Hi Hk|s i c Hi Hk]; cbn [counter calls]; rewrite ?app_nil_r.
    - split; [exact I1|]. split; [|split; [|split; [exact I4|split]]].
      + intros i p Hi. apply nth_app_inv in Hi. destruct Hi as [Hi|(-> & ->)]; [now apply I2|]. apply I3. lia.
      + intros i Hi. rewrite app_length in Hi. apply I3. lia.
      + intros i k Hin. apply in_app_or in Hin. destruct Hin as [Hin|[E|[]]]; [|discriminate E].
        now apply nth_error_snoc_some, I5.
      + intros i Hin. apply in_app_or in Hin. destruct Hin as [Hin|[E|[]]]; [|discriminate E].
        now apply nth_error_snoc_some, I6.
    - assert (HN : ~ In i (ticket_order tr)) by (apply (I2 i AtAdd Hi)).
      split; [|split; [|split; [|split; [|split]]]].
      + rewrite app_length. cbn. unfold c. rewrite I1. unfold u32. rewrite Zplus_mod_idemp_l. f_equal. lia.
      + intros j p Hj. apply nth_upd in Hj. destruct Hj as [(-> & -> & _)|(N & Hj)].
        * exists (length (ticket_order tr)). split; [apply nth_app_last|]. unfold c, ticket, u32. rewrite I1. unfold u32. rewrite Zplus_mod_idemp_l. reflexivity.
        * specialize (I2 _ _ Hj). destruct p.
          -- intros Hin. apply in_app_or in Hin. destruct Hin as [Hin|[E|[]]]; congruence.
          -- destruct I2 as (j0 & A & B). exists j0. split; [now apply nth_error_snoc_some | exact B].
          -- destruct I2 as (j0 & A & B). exists j0. split; [now apply nth_error_snoc_some | exact B].
          -- destruct I2 as (j0 & A & B). exists j0. split; [now apply nth_error_snoc_some | exact B].
      + intros j Hj. rewrite upd_length in Hj. intros Hin. apply in_app_or in Hin. destruct Hin as [Hin|[E|[]]].
        * revert Hin. now apply I3.
        * subst j. apply nth_lt in Hi. lia.
      + apply NoDup_Add with (a := i) (l := ticket_order tr); [|auto].
        assert (A := Add_app i (ticket_order tr) []). now rewrite app_nil_r in A.
      + intros j k Hin. apply in_app_or in Hin. destruct Hin as [Hin|[E|[]]]; [|discriminate E].
        apply I5 in Hin. rewrite nth_upd_other; [exact Hin | congruence].
      + intros j Hin. apply in_app_or in Hin. destruct Hin as [Hin|[E|[]]]; [|discriminate E].
        apply I6 in Hin. rewrite nth_upd_other; [exact Hin | congruence].
    - split; [exact I1|]. split; [|split; [|split; [exact I4|split]]].
      + intros j p Hj. apply nth_upd in Hj. destruct Hj as [(-> & -> & _)|(N & Hj)]; [|now apply I2].
        specialize (I2 _ _ Hi). cbn in I2. destruct I2 as (j & A & ->). eauto.
      + intros j Hj. rewrite upd_length in Hj. now apply I3.
      + intros j k' Hin. apply in_app_or in Hin. destruct Hin as [Hin|[E|[]]].
        * apply I5 in Hin. rewrite nth_upd_other; [exact Hin | congruence].
        * injection E as <- <-. apply nth_upd_same. eapply nth_lt; eauto.
      + intros j Hin. apply in_app_or in Hin. destruct Hin as [Hin|[E|[]]]; [|discriminate E].
        apply I6 in Hin. rewrite nth_upd_other; [exact Hin | congruence].
    - split; [exact I1|]. split; [|split; [|split; [exact I4|split]]].
      + intros j p Hj. apply nth_upd in Hj. destruct Hj as [(-> & -> & _)|(N & Hj)]; [|now apply I2].
        specialize (I2 _ _ Hi). cbn in I2. destruct I2 as (j & A & ->). eauto.
      + intros j Hj. rewrite upd_length in Hj. now apply I3.
      + intros j k' Hin. apply in_app_or in Hin. destruct Hin as [Hin|[E|[]]]; [|discriminate E].
        apply I5 in Hin. rewrite nth_upd_other; [exact Hin | congruence].
      + intros j Hin. apply in_app_or in Hin. destruct Hin as [Hin|[E|[]]].
        * apply I6 in Hin. rewrite nth_upd_other; [exact Hin | congruence].
        * injection E as <-. apply nth_upd_same. eapply nth_lt; eauto.
  Qed.

  Lemma inv_run tr s : run step init tr s -> inv tr s.
  Proof.
    apply (run_inv step inv).
    - unfold inv, init; cbn. split; [reflexivity|]. split; [intros [|i] p H; discriminate|].
      split; [auto|]. split; [constructor|]. split; intros; contradiction.
    - intros. eapply inv_step; eauto.
  Qed.

  Lemma served_pick tr s i k j : run step init tr s -> In (Serve i k) tr -> nth_error (ticket_order tr) j = Some i ->
    pick len size (ticket j) = Some k.
  Proof.
    intros HR Hin Hj. destruct (inv_run _ _ HR) as (_ & I2 & _ & I4 & I5 & _). apply I5 in Hin. apply I2 in Hin.
    cbn in Hin. destruct Hin as (j' & A & B). assert (j' = j) as ->; [|exact B].
    eapply NoDup_nth_error; [exact I4 | eapply nth_lt; eauto | congruence].
  Qed.
End Inv.

Lemma new_pool_size n size : new_pool n = Some size -> Z.of_nat n < 4294967296 -> size = Z.of_nat n /\ (0 < n)%nat.
Proof.
  unfold new_pool. destruct (Nat.eqb_spec n 0); [discriminate|]. intros [= <-] H. split; [|lia].
  unfold u32, two32. apply Z.mod_small. lia.
Qed.
Lemma pick_mod n c : (0 < n)%nat -> pick n (Z.of_nat n) c = Some (c mod Z.of_nat n).
Proof.
  intros H. unfold pick. destruct (Z.eqb_spec (Z.of_nat n) 0); [lia|].
  pose proof (Z.mod_pos_bound c (Z.of_nat n)) as B. destruct (Z.ltb_spec (c mod Z.of_nat n) (Z.of_nat n)); [reflexivity | lia].
Qed.

(** Both constructors give the same pool, and fail exactly on no
    implementations. *)
Theorem C42_constructors : forall n, new_pool n = must_new_pool n /\ (new_pool n = None <-> n = 0%nat).
Proof.
  intros n. split; [reflexivity|]. unfold new_pool. destruct (Nat.eqb_spec n 0); split; intros; try discriminate; congruence.
Qed.

(** Every served call goes to an existing implementation, and no call crashes;
    every call that has drawn its ticket can be served. *)
Theorem C42_in_bounds : forall n size tr s, new_pool n = Some size -> Z.of_nat n < 4294967296 ->
  run (step n size) init tr s ->
  (forall i k, In (Serve i k) tr -> 0 <= k < Z.of_nat n) /\
  (forall i, ~ In (Crash i) tr) /\
  (forall i c, nth_error (calls s) i = Some (AtPick c) -> exists k s', step n size s (Serve i k) s').
Proof.
  intros n size tr s HN HB HR. destruct (new_pool_size _ _ HN HB) as (-> & H0).
  destruct (inv_run _ _ _ _ HR) as (_ & I2 & _ & _ & I5 & I6). split; [|split].
  - intros i k Hin. apply I5, I2 in Hin. cbn in Hin. destruct Hin as (j & _ & E). rewrite pick_mod in E by assumption.
    injection E as <-. apply Z.mod_pos_bound. lia.
  - intros i Hin. apply I6, I2 in Hin. cbn in Hin. destruct Hin as (j & _ & E). now rewrite pick_mod in E by assumption.
  - intros i c Hi. eexists _, _. eapply s_serve; [exact Hi | now apply pick_mod].
Qed.

(** Within the first 2^32 - 1 tickets consecutive tickets are served by
    neighbours in cyclic order. *)
Theorem C42_cyclic : forall n size tr s j i i' k k', new_pool n = Some size -> Z.of_nat n < 4294967296 ->
  run (step n size) init tr s ->
  nth_error (ticket_order tr) j = Some i -> nth_error (ticket_order tr) (S j) = Some i' ->
  In (Serve i k) tr -> In (Serve i' k') tr ->
  Z.of_nat j + 2 < 4294967296 ->
  next_of (Z.of_nat n) k k'.
Proof.
  intros n size tr s j i i' k k' HN HB HR Hj Hj' Hk Hk' HW. destruct (new_pool_size _ _ HN HB) as (-> & H0).
  pose proof (served_pick _ _ _ _ _ _ _ HR Hk Hj) as E. pose proof (served_pick _ _ _ _ _ _ _ HR Hk' Hj') as E'.
  rewrite pick_mod in E, E' by assumption. injection E as <-. injection E' as <-. unfold ticket.
  rewrite !Z.mod_small with (b := 4294967296) by lia. replace (Z.of_nat (S j) + 1) with (Z.of_nat j + 1 + 1) by lia.
  set (a := Z.of_nat j + 1). unfold next_of. pose proof (Z.mod_pos_bound a (Z.of_nat n)) as B.
  destruct (Z.eq_dec (a mod Z.of_nat n) (Z.of_nat n - 1)) as [E|E].
  - right. split; [exact E|]. rewrite <- Zplus_mod_idemp_l, E. replace (Z.of_nat n - 1 + 1) with (Z.of_nat n) by lia.
    apply Z_mod_same_full.
  - left. split; [lia|]. rewrite <- Zplus_mod_idemp_l. apply Z.mod_small. lia.
Qed.

(** ... hence any [n] consecutive tickets hit every implementation exactly
    once. *)
Definition window {A} (j n : nat) (l : list A) : list A := firstn n (skipn j l).

Lemma mod_window_NoDup n a : (0 < n)%nat ->
  NoDup (map (fun q => (a + Z.of_nat q) mod Z.of_nat n) (seq 0 n)).
Proof.
  intros H0. assert (G : forall m b, (b + m <= n)%nat -> NoDup (map (fun q => (a + Z.of_nat q) mod Z.of_nat n) (seq b m))).
  { induction m as [|m IH]; intros b Hb; cbn; constructor.
    - intros Hin. apply in_map_iff in Hin. destruct Hin as (q & E & Hq). apply in_seq in Hq.
      assert (D : (Z.of_nat n | (a + Z.of_nat q) - (a + Z.of_nat b))).
      { apply Z.mod_divide; [lia|]. rewrite Zminus_mod, E, Z.sub_diag. apply Z.mod_0_l. lia. }
      replace (a + Z.of_nat q - (a + Z.of_nat b)) with (Z.of_nat q - Z.of_nat b) in D by lia.
      apply Z.divide_pos_le in D; lia.
    - apply IH. lia. }
  apply G. lia.
Qed.

Lemma NoDup_bounded_perm (l : list Z) n : NoDup l -> length l = n -> (forall x, In x l -> 0 <= x < Z.of_nat n) ->
  Permutation l (map Z.of_nat (seq 0 n)).
Proof.
  intros HD HL HB. apply NoDup_Permutation_bis; [exact HD| |].
  - rewrite map_length, seq_length. lia.
  - intros x Hx. apply HB in Hx. apply in_map_iff. exists (Z.to_nat x). split; [lia|]. apply in_seq. lia.
Qed.

Theorem C42_fair : forall n size tr s j ks, new_pool n = Some size -> Z.of_nat n < 4294967296 ->
  run (step n size) init tr s ->
  Z.of_nat j + Z.of_nat n < 4294967296 ->
  length (window j n (ticket_order tr)) = n ->
  Forall2 (fun i k => In (Serve i k) tr) (window j n (ticket_order tr)) ks ->
  Permutation ks (map Z.of_nat (seq 0 n)).
Proof.
  intros n size tr s j ks HN HB HR HW HL HF. destruct (new_pool_size _ _ HN HB) as (-> & H0).
  assert (E : ks = map (fun q => (Z.of_nat j + 1 + Z.of_nat q) mod Z.of_nat n) (seq 0 n)).
  { assert (G : forall q i k, nth_error (window j n (ticket_order tr)) q = Some i -> In (Serve i k) tr ->
       k = (Z.of_nat j + 1 + Z.of_nat q) mod Z.of_nat n).
    { intros q i k Hq Hin. assert (Lq : (q < n)%nat) by (rewrite <- HL; eapply nth_lt; eauto).
      assert (Hq' : nth_error (ticket_order tr) (j + q) = Some i).
      { rewrite <- Hq. unfold window. clear -Lq. revert q Lq. revert n. induction (skipn j (ticket_order tr)) as [|x l IH] eqn:El in j |- *; intros n q Lq.
        - rewrite firstn_nil. replace (nth_error [] q) with (@None nat) by now destruct q.
          apply nth_error_None. apply (f_equal (@length nat)) in El. rewrite skipn_length in El. cbn in El. lia.
        - destruct n as [|n]; [lia|]. destruct q as [|q].
          + cbn. rewrite Nat.add_0_r. rewrite <- (firstn_skipn j (ticket_order tr)), El.
            apply (f_equal (@length nat)) in El. rewrite skipn_length in El. cbn in El.
            rewrite nth_error_app2 by (rewrite firstn_length; lia). rewrite firstn_length. replace (j - _)%nat with 0%nat by lia. reflexivity.
          + cbn. replace (j + S q)%nat with (S j + q)%nat by lia. apply IH; [|lia].
            clear -El. revert j El. induction (ticket_order tr) as [|y t IHt]; intros j El; [now rewrite skipn_nil in El|].
            destruct j as [|j]; cbn in El |- *; [now injection El | now apply IHt]. }
      pose proof (served_pick _ _ _ _ _ _ _ HR Hin Hq') as E. rewrite pick_mod in E by assumption. injection E as <-.
      unfold ticket. rewrite Z.mod_small with (b := 4294967296) by lia. f_equal. lia. }
    revert HL HF G. generalize (window j n (ticket_order tr)) as w. intros w HL HF G.
    assert (G' : forall b w ks, Forall2 (fun i k => In (Serve i k) tr) w ks ->
       (forall q i k, nth_error w q = Some i -> In (Serve i k) tr -> k = (Z.of_nat j + 1 + Z.of_nat (b + q)) mod Z.of_nat n) ->
       ks = map (fun q => (Z.of_nat j + 1 + Z.of_nat q) mod Z.of_nat n) (seq b (length w))).
    { clear. intros b w ks HF. revert b. induction HF as [|i k w ks Hik HF IH]; intros b G; [reflexivity|]. cbn. f_equal.
      - rewrite (G 0%nat i k eq_refl Hik). do 2 f_equal. lia.
      - apply IH. intros q i' k' Hq Hin. rewrite (G (S q) i' k' Hq Hin). do 2 f_equal. lia. }
    pose proof (G' 0%nat w ks HF G) as E. now rewrite HL in E. }
  rewrite E. apply NoDup_bounded_perm.
  - now apply mod_window_NoDup.
  - now rewrite map_length, seq_length.
  - intros x Hx. apply in_map_iff in Hx. destruct Hx as (q & <- & _). apply Z.mod_pos_bound. lia.
Qed.

(** When the pool size divides 2^32 there is no exception: neighbours follow
    each other for ever. *)
Theorem C42_cyclic_forever : forall n size tr s j i i' k k', new_pool n = Some size -> Z.of_nat n < 4294967296 ->
  run (step n size) init tr s ->
  nth_error (ticket_order tr) j = Some i -> nth_error (ticket_order tr) (S j) = Some i' ->
  In (Serve i k) tr -> In (Serve i' k') tr ->
  (Z.of_nat n | 4294967296) ->
  next_of (Z.of_nat n) k k'.
Proof.
  intros n size tr s j i i' k k' HN HB HR Hj Hj' Hk Hk' (q & HD). destruct (new_pool_size _ _ HN HB) as (-> & H0).
  pose proof (served_pick _ _ _ _ _ _ _ HR Hk Hj) as E. pose proof (served_pick _ _ _ _ _ _ _ HR Hk' Hj') as E'.
  rewrite pick_mod in E, E' by assumption. injection E as <-. injection E' as <-. unfold ticket.
  assert (M : forall a, (a mod 4294967296) mod Z.of_nat n = a mod Z.of_nat n).
  { intros a. rewrite (Z.div_mod a 4294967296) at 2 by (unfold two32; lia). rewrite HD at 2.
    replace (q * Z.of_nat n * (a / 4294967296) + a mod 4294967296) with (a mod 4294967296 + (q * (a / 4294967296)) * Z.of_nat n) by lia.
    now rewrite Z_mod_plus_full. }
  rewrite !M. replace (Z.of_nat (S j) + 1) with (Z.of_nat j + 1 + 1) by lia.
  set (a := Z.of_nat j + 1). unfold next_of. pose proof (Z.mod_pos_bound a (Z.of_nat n)) as B.
  destruct (Z.eq_dec (a mod Z.of_nat n) (Z.of_nat n - 1)) as [E|E].
  - right. split; [exact E|]. rewrite <- Zplus_mod_idemp_l, E. replace (Z.of_nat n - 1 + 1) with (Z.of_nat n) by lia.
    apply Z_mod_same_full.
  - left. split; [lia|]. rewrite <- Zplus_mod_idemp_l. apply Z.mod_small. lia.
Qed.

(** ** Executions: [m] calls one after the other *)
Fixpoint one_by_one (n : nat) (size : Z) (m : nat) : list label :=
  match m with
  | O => []
  | S m' => one_by_one n size m' ++ [Call; Add m' (ticket m'); Serve m' (ticket m' mod size)]
  end.

Lemma one_by_one_run n m : (0 < n)%nat -> exists s,
  run (step n (Z.of_nat n)) init (one_by_one n (Z.of_nat n) m) s /\ counter s = u32 (Z.of_nat m) /\ length (calls s) = m.
Proof.
  intros H0. induction m as [|m (s & HR & HC & HL)].
  - exists init. split; [constructor | split; reflexivity].
  - eexists. cbn [one_by_one]. split; [|split].
    + eapply run_app; [exact HR|].
      assert (E : u32 (counter s + 1) = ticket m) by (rewrite HC; unfold u32, ticket; now rewrite Zplus_mod_idemp_l).
      eapply run_cons; [apply s_call|]. eapply run_cons.
      { rewrite <- E. apply (s_add n (Z.of_nat n) (State (counter s) (calls s ++ [AtAdd])) m). cbn. rewrite <- HL. apply nth_app_last. }
      cbn [counter calls]. apply run_one. eapply s_serve; cbn [calls].
      { apply nth_upd_same. rewrite app_length. cbn. lia. }
      rewrite E. now apply pick_mod.
    + cbn [counter calls]. rewrite HC. unfold u32. rewrite Zplus_mod_idemp_l. f_equal. lia.
    + cbn [counter calls]. rewrite !upd_length, app_length. cbn. lia.
Qed.

Lemma one_by_one_order n size m : ticket_order (one_by_one n size m) = seq 0 m.
Proof.
  assert (A : forall a b, ticket_order (a ++ b) = ticket_order a ++ ticket_order b).
  { induction a as [|x a IH]; intros b; [reflexivity|]. cbn. destruct x; rewrite IH; reflexivity. }
  induction m as [|m IH]; [reflexivity|]. cbn [one_by_one]. rewrite A, IH, seq_S. reflexivity.
Qed.
Lemma one_by_one_serve n size m i : (i < m)%nat -> In (Serve i (ticket i mod size)) (one_by_one n size m).
Proof.
  induction m as [|m IH]; intros H; [lia|]. cbn [one_by_one]. apply in_or_app.
  destruct (Nat.eq_dec i m) as [->|N]; [right; cbn; auto | left; apply IH; lia].
Qed.

(** Seven calls of a pool of three: 1, 2, 0, 1, 2, 0, 1 - the first call goes to
    the second implementation. *)
Example C42_example : one_by_one 3 3 7 =
  [Call; Add 0 1; Serve 0 1; Call; Add 1 2; Serve 1 2; Call; Add 2 3; Serve 2 0; Call; Add 3 4; Serve 3 1;
   Call; Add 4 5; Serve 4 2; Call; Add 5 6; Serve 5 0; Call; Add 6 7; Serve 6 1].
Proof. reflexivity. Qed.
Example C42_example_runs : exists s, run (step 3 3) init (one_by_one 3 3 7) s.
Proof. destruct (one_by_one_run 3 7) as (s & H & _); [lia|]. now exists s. Qed.
(** and an execution in which the second call overtakes the first *)
Example C42_example_overtaking : exists s, run (step 3 3) init
  [Call; Call; Add 0 1; Add 1 2; Serve 1 2; Serve 0 1] s.
Proof.
  eexists. eapply run_cons; [apply s_call|]. eapply run_cons; [apply s_call|]. eapply run_cons; [apply s_add; reflexivity|].
  eapply run_cons; [apply s_add; reflexivity|]. eapply run_cons; [eapply s_serve; reflexivity|].
  apply run_one. eapply s_serve; reflexivity.
Qed.

(** ** At the wrap-around of the counter the round robin is broken: with three
    implementations the tickets 2^32-1 and 0 go to the same one, so the 2^32-th
    call already breaks the cyclic order. *)
Definition cyclic_always : Prop := forall n size tr s j i i' k k', new_pool n = Some size -> Z.of_nat n < 4294967296 ->
  run (step n size) init tr s ->
  nth_error (ticket_order tr) j = Some i -> nth_error (ticket_order tr) (S j) = Some i' ->
  In (Serve i k) tr -> In (Serve i' k') tr ->
  next_of (Z.of_nat n) k k'.
Theorem C42_cyclic_refuted : ~ cyclic_always.
Proof.
  intros H.
  assert (G : forall j, Z.of_nat j = 4294967296 - 2 -> False).
  { intros j Hj. destruct (one_by_one_run 3 (S (S j))) as (s & HR & _); [lia|].
    assert (N : next_of (Z.of_nat 3) (ticket j mod Z.of_nat 3) (ticket (S j) mod Z.of_nat 3)).
    { refine (H 3%nat 3 _ s j j (S j) _ _ eq_refl eq_refl HR _ _ (one_by_one_serve _ _ _ _ _) (one_by_one_serve _ _ _ _ _)); try lia.
      - rewrite one_by_one_order. change j with (0 + j)%nat at 3. rewrite nth_error_nth' with (d := 0%nat) by (rewrite seq_length; lia). now rewrite seq_nth by lia.
      - rewrite one_by_one_order. rewrite nth_error_nth' with (d := 0%nat) by (rewrite seq_length; lia). now rewrite seq_nth by lia. }
    unfold ticket in N. rewrite (Nat2Z.inj_succ j), Hj in N. vm_compute in N. destruct N as [(_ & N)|(N & _)]; discriminate N. }
  apply (G (Z.to_nat (4294967296 - 2))). rewrite Z2Nat.id; [reflexivity | unfold two32; lia].
Qed.

Print Assumptions C42_constructors.
Print Assumptions C42_in_bounds.
Print Assumptions C42_cyclic.
Print Assumptions C42_fair.
Print Assumptions C42_cyclic_forever.
Print Assumptions C42_cyclic_refuted.
