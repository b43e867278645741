(** Properties C34 to C38: the fallback decorator. *)
From Verif Require Import FallbackProofs.
From Coq Require Import Permutation.
Open Scope nat_scope.

(** ** Specification over the labels of an execution *)

(** text a failed implementation contributes (line 43) *)
Definition failure_text (tname : nat -> string) (ie : nat * string) : string := (tname (fst ie) ++ ": " ++ snd ie)%string.

(** the failures [l], one per implementation, in the order in which the caller
    received them *)
Definition all_failed {V} (n : nat) (tr : list (label V)) (l : list (nat * string)) : Prop :=
  Permutation (map fst l) (seq 0 n) /\
  (forall i e, In (i, e) l -> In (ImplDone i (Bad e)) tr) /\
  map fst (received_in tr) = map fst l.

Section C34.
  Context {V : Type}.
  Variable ctxm errm : bool.
  Variable n : nat.
  Variable tname : nat -> string.
  Variable ctx_text : string.
  Hypothesis compiles : ctxm = true \/ errm = false.
  Notation step := (@step V ctxm errm n tname ctx_text).

  Lemma returns_main tr s a : run step (init n) tr s -> In (Returns a) tr -> main s = MDone a.
  Proof.
    intros H. revert a. refine (run_inv step (fun tr s => forall a, In (Returns a) tr -> main s = MDone a) _ _ _ _ _ H); [contradiction |].
    clear. intros tr s l s' _ IH HS a Hin. apply in_app_or in Hin. destruct Hin as [Hin|[->|[]]].
    - apply IH in Hin. destruct HS; cbn; try congruence.
    - inversion HS; subst. reflexivity.
  Qed.
  Lemma texts_all l : length (@texts V l) = length l -> forall i r, In (i, r) l -> exists e, r = Bad e.
  Proof.
    induction l as [|[j r0] l IH]; intros HL i r Hin; [contradiction|]. cbn in HL. rewrite app_length in HL. fold (@texts V l) in HL.
    pose proof (texts_length l). destruct r0 as [v|e]; cbn in HL; [lia|]. destruct Hin as [E|Hin]; [injection E as <- <-; eauto | eapply IH; eauto; lia].
  Qed.
End C34.

(** ** C34 *)
Theorem C34_answer : forall V (errm : bool) n tname ctx_text tr s (a : answer V),
  run (step true errm n tname ctx_text) (init n) tr s -> In (Returns a) tr ->
  match a with
  | Answer v => exists i, i < n /\ In (ImplDone i (Good v)) tr
  | AllFailed t => exists l, all_failed n tr l /\ t = join ";" (map (failure_text tname) l)
  | CtxErr t => In CtxDone tr
  end.
Proof.
  intros V errm n tname ctx_text tr s a HR Hin.
  assert (C : true = true \/ errm = false) by auto.
  destruct (inv_run _ _ _ _ _ C _ _ HR) as (IL & IM). pose proof (received_bound _ _ _ _ _ _ (proj1 IL) IM) as RB.
  apply (returns_main true errm n tname ctx_text) with (s := s) in Hin; [|exact HR].
  destruct IM as (I1 & I2 & I3 & I4 & I5 & I6 & I7 & I8 & I9 & I10 & I11). rewrite Hin in I8. destruct I8 as (J & _).
  destruct a as [v|t|t]; cbn in J.
  - destruct J as (i & Hi). destruct (I4 _ _ Hi) as (A & r0 & B & D). apply nth_lt in A. exists i.
    split; [rewrite <- (proj1 IL); exact A|]. destruct r0; [|discriminate]. cbn in D. congruence.
  - destruct J as (L1 & L2 & ->).
    assert (G : forall R, (forall i r, In (i, r) R -> In (i, r) (received_in tr)) -> length (texts R) = length R ->
      exists l, map fst R = map fst l /\ texts R = map (failure_text tname) l /\ (forall i e, In (i, e) l -> In (ImplDone i (Bad e)) tr)).
    { induction R as [|[i r] R IH]; intros Hsub HL; [exists []; repeat split; contradiction|].
      cbn in HL. rewrite app_length in HL. fold (@texts V R) in HL. pose proof (texts_length R).
      destruct r as [v|e]; cbn in HL; [lia|].
      destruct IH as (l & E1 & E2 & E3); [intros j r Hj; apply Hsub; cbn; auto | lia |].
      assert (Hr : In (Recv i (Bad e)) tr) by (apply received_In, Hsub; cbn; auto).
      destruct (I4 _ _ Hr) as (_ & r0 & B & D). destruct r0 as [v|e0]; [discriminate|]. cbn in D. injection D as ->.
      exists ((i, e0) :: l). cbn. rewrite E1. split; [reflexivity|]. split.
      - f_equal. exact E2.
      - intros j e [E|Hin']; [injection E as <- <-; exact B | now apply E3]. }
    destruct (G (received_in tr)) as (l & E1 & E2 & E3); [auto | lia |].
    exists l. split; [|unfold joined; now rewrite E2]. split; [|split; [exact E3 | exact E1]].
    rewrite <- E1. apply NoDup_Permutation_bis; [exact I3 | rewrite map_length, seq_length; lia |].
    intros j Hj. apply in_map_iff in Hj. destruct Hj as ((j' & r) & <- & Hj). cbn. apply received_In in Hj.
    destruct (I4 _ _ Hj) as (A & _). apply nth_lt in A. apply in_seq. rewrite (proj1 IL) in A. lia.
  - exact J.
Qed.

(** A call returns once, and an error answer other than the context's is given
    only after every implementation was called. *)
Definition begun {V} (i : nat) (tr : list (label V)) : Prop := In (Begin i) tr.
Lemma done_begun : forall V ctxm errm n tname ctx_text tr s i (r : result V),
  run (step ctxm errm n tname ctx_text) (init n) tr s -> In (ImplDone i r) tr -> begun i tr.
Proof.
  intros V ctxm errm n tname ctx_text tr s i r H.
  assert (G : (forall i p, nth_error (impls s) i = Some p -> p <> INew -> p <> ILaunched -> begun i tr) /\ (forall i r, In (ImplDone i r) tr -> begun i tr)).
  { apply (run_inv (step ctxm errm n tname ctx_text) (fun tr s => (forall i p, nth_error (impls s) i = Some p -> p <> INew -> p <> ILaunched -> begun i tr) /\
      (forall i r, In (ImplDone i r) tr -> begun i tr))) in H; [exact H| |].
    - split; [|contradiction]. cbn. intros j p Hj N _. apply nth_error_In, repeat_spec in Hj. congruence.
    - clear. intros tr s l s' _ (A & B) HS. unfold begun in *. split.
      + intros j p Hj N1 N2. destruct HS; cbn in Hj; try (apply in_snoc; eapply A; eauto; fail);
          apply nth_upd in Hj; destruct Hj as [(-> & -> & _)|(_ & Hj)]; try congruence; try (apply in_snoc; eapply A; eauto; try discriminate; fail).
        apply in_snoc_last.
      + intros j r Hj. apply in_app_or in Hj. destruct Hj as [Hj|[->|[]]]; [apply in_snoc; eauto|].
        inversion HS; subst. apply in_snoc. eapply A; eauto; discriminate. }
  apply G.
Qed.
Theorem C34_all_called : forall V (errm : bool) n tname ctx_text tr s t,
  run (@step V true errm n tname ctx_text) (init n) tr s -> In (Returns (AllFailed t)) tr ->
  forall i, i < n -> begun i tr /\ exists e, In (ImplDone i (Bad e)) tr.
Proof.
  intros V errm n tname ctx_text tr s t HR Hin i Hi. pose proof (C34_answer _ _ _ _ _ _ _ _ HR Hin) as (l & (P & F & _) & _).
  assert (In i (map fst l)) as Hl by (rewrite P; apply in_seq; lia).
  apply in_map_iff in Hl. destruct Hl as ((i' & e) & E & Hl). cbn in E. subst i'. apply F in Hl.
  split; [eapply done_begun; eauto | eauto].
Qed.
Theorem C34_returns_once : forall V ctxm errm n tname ctx_text tr s (a b : answer V),
  run (step ctxm errm n tname ctx_text) (init n) tr s -> In (Returns a) tr -> In (Returns b) tr -> a = b.
Proof.
  intros V ctxm errm n tname ctx_text tr s a b H A B. eapply returns_main in A; [|exact H]. eapply returns_main in B; [|exact H]. congruence.
Qed.

(** The same for methods with no error result: the answer is an
    implementation's. *)
Theorem C34_answer_no_error : forall V (ctxm : bool) n tname ctx_text tr s (a : answer V),
  run (step ctxm false n tname ctx_text) (init n) tr s -> In (Returns a) tr ->
  match a with
  | Answer v => exists i, i < n /\ In (ImplDone i (Good v)) tr
  | AllFailed t => False
  | CtxErr t => ctxm = true /\ In CtxDone tr
  end.
Proof.
  intros V ctxm n tname ctx_text tr s a HR Hin.
  assert (C : ctxm = true \/ false = false) by auto.
  destruct (inv_run _ _ _ _ _ C _ _ HR) as (IL & IM). pose proof (received_bound _ _ _ _ _ _ (proj1 IL) IM) as RB.
  apply (returns_main ctxm false n tname ctx_text) with (s := s) in Hin; [|exact HR].
  assert (GG : forall i r, In (Recv i r) tr -> exists v, r = Good v).
  { clear -HR C. assert (G : forall tr s, run (@step V ctxm false n tname ctx_text) (init n) tr s -> forall i r, In (Recv i r) tr -> exists v, r = Good v).
    { clear tr s HR. intros tr s HR. induction HR as [|tr s1 l s2 HR IH HS]; intros i r Hin; [contradiction|].
      apply in_app_or in Hin. destruct Hin as [Hin|[->|[]]]; [eauto|].
      destruct (inv_run _ _ _ _ _ C _ _ HR) as (_ & IM). inversion HS; subst. destruct IM as (_ & _ & _ & _ & _ & _ & _ & _ & _ & _ & I11). eapply I11; eauto. }
    eauto. }
  assert (CT : forall tr s, run (@step V ctxm false n tname ctx_text) (init n) tr s -> In CtxDone tr -> ctxm = true).
  { clear. intros tr s HR. induction HR as [|tr s1 l s2 HR IH HS]; [contradiction|]. intros Hin. apply in_app_or in Hin.
    destruct Hin as [Hin|[->|[]]]; [auto|]. inversion HS; assumption. }
  destruct IM as (I1 & I2 & I3 & I4 & I5 & I6 & I7 & I8 & I9 & I10 & I11). rewrite Hin in I8. destruct I8 as (J & _).
  destruct a as [v|t|t]; cbn in J.
  - destruct J as (i & Hi). destruct (I4 _ _ Hi) as (A & r0 & B & D). apply nth_lt in A. exists i.
    split; [rewrite <- (proj1 IL); exact A|]. destruct r0; [|discriminate]. cbn in D. congruence.
  - destruct J as (L1 & L2 & ->).
    assert (n = 0 \/ 0 < n) as [Z0|Z0] by lia.
    + (* the error answer is only given after a failure *)
      clear -HR Hin Z0 C. assert (G : forall tr s, run (@step V ctxm false n tname ctx_text) (init n) tr s -> forall t, main s <> MCancel (AllFailed t) /\ main s <> MStop (AllFailed t) /\ main s <> MDone (AllFailed t)).
      { clear tr s HR Hin. intros tr s HR. induction HR as [|tr s1 l s2 HR IH HS]; intros t; [cbn; repeat split; discriminate|].
        specialize (IH t). destruct IH as (A & B & D).
        destruct HS; cbn; try (repeat split; congruence); try (repeat split; discriminate).
        - destruct (inv_run _ _ _ _ _ C _ _ HR) as (_ & IM). destruct IM as (_ & _ & _ & _ & _ & _ & _ & _ & _ & _ & I11).
          destruct (I11 eq_refl _ _ H0) as (v & ->). cbn. destruct ctxm; repeat split; discriminate.
        - lia. }
      destruct (G _ _ HR (joined (texts (received_in tr)))) as (_ & _ & N). contradiction.
    + destruct (received_in tr) as [|[i r] R] eqn:E; [cbn in L1; lia|].
      assert (Hr : In (Recv i r) tr) by (apply received_In; rewrite E; cbn; auto).
      destruct (GG _ _ Hr) as (v & ->). cbn in L1, L2. fold (@texts V R) in L2. pose proof (texts_length R). lia.
  - split; [eapply CT; eauto | exact J].
Qed.

(** ** C35 *)

(** Implementations are launched in list order, each at most once, and an
    implementation is called at most once and only after it was launched. *)
Theorem C35_launch_order : forall V ctxm errm n tname ctx_text tr s,
  ctxm = true \/ errm = false ->
  run (@step V ctxm errm n tname ctx_text) (init n) tr s ->
  exists k, k <= n /\ launched_in tr = seq 0 k.
Proof.
  intros V ctxm errm n tname ctx_text tr s C HR. destruct (inv_run _ _ _ _ _ C _ _ HR) as ((_ & A & B & _) & _). eauto.
Qed.
Definition is_begin {V} (i : nat) (l : label V) : bool := match l with Begin j => Nat.eqb i j | _ => false end.
Definition is_any_begin {V} (l : label V) : bool := match l with Begin _ => true | _ => false end.
Lemma begins_inv : forall V ctxm errm n tname ctx_text tr s,
  run (@step V ctxm errm n tname ctx_text) (init n) tr s ->
  forall i, count (is_begin i) tr = match nth_error (impls s) i with Some INew | Some ILaunched | None => 0 | _ => 1 end.
Proof.
  intros V ctxm errm n tname ctx_text tr s HR. induction HR as [|tr s1 l s2 HR IH HS]; intros i.
  - cbn. destruct (nth_error (repeat INew n) i) eqn:E; [|reflexivity]. apply nth_error_In, repeat_spec in E. now subst.
  - rewrite count_snoc, IH. clear IH.
    destruct HS; cbn [impls set_main set_impl set_launcher is_begin]; rewrite ?Nat.add_0_r; try reflexivity.
    all: match goal with |- context [upd ?k ?q (impls ?s)] =>
      destruct (Nat.eq_dec i k) as [->|Nk];
      [rewrite nth_upd_same by (eapply nth_lt; eauto) | rewrite nth_upd_other by auto] end.
    all: try (match goal with Hn : nth_error (impls ?s) ?i = Some _ |- context [nth_error (impls ?s) ?i] => rewrite Hn end; cbn; rewrite ?Nat.eqb_refl; try reflexivity; fail).
    all: try reflexivity.
    destruct (Nat.eqb_spec i i0); [contradiction | lia].
Qed.
Theorem C35_called_once : forall V ctxm errm n tname ctx_text tr s i,
  ctxm = true \/ errm = false ->
  run (@step V ctxm errm n tname ctx_text) (init n) tr s ->
  count (is_begin i) tr <= 1 /\ (In (Begin i) tr -> In (Launch i) tr).
Proof.
  intros V ctxm errm n tname ctx_text tr s i C HR. split.
  - rewrite (begins_inv _ _ _ _ _ _ _ _ HR i). destruct (nth_error _ _) as [[]|]; lia.
  - intros Hin. destruct (inv_run _ _ _ _ _ C _ _ HR) as ((A1 & A2 & A3 & A4 & _) & _).
    assert (B : 1 <= count (is_begin i) tr).
    { clear -Hin. unfold count. induction tr as [|l tr IH]; [contradiction|]. cbn. destruct Hin as [->|Hin]; [cbn; rewrite Nat.eqb_refl; cbn; lia|].
      specialize (IH Hin). destruct (is_begin i l); cbn; lia. }
    rewrite (begins_inv _ _ _ _ _ _ _ _ HR i) in B. destruct (nth_error (impls s) i) as [p|] eqn:E; [|lia].
    assert (Hl : i < nl n s). { destruct (Nat.lt_ge_cases i (nl n s)) as [L|L]; [exact L|]. apply (A4 _ _ E) in L. subst p. cbn in B. lia. }
    assert (In i (launched_in tr)) as HI by (rewrite A3; apply in_seq; lia).
    clear -HI. induction tr as [|l tr IH]; [contradiction|]. cbn in HI. destruct l; cbn in HI; try (right; now apply IH).
    destruct HI as [->|HI]; [left; reflexivity | right; now apply IH].
Qed.

(** Every launch beyond the first, and so every call beyond the first, is paid
    for by a tick or by a failure the caller received. *)
Definition is_launch {V} (l : label V) : bool := match l with Launch _ => true | _ => false end.
Lemma count_launches V (tr : list (label V)) : count is_launch tr = length (launched_in tr).
Proof. unfold count. induction tr as [|l tr IH]; [reflexivity|]. destruct l; cbn; auto. Qed.
Theorem C35_paid : forall V ctxm errm n tname ctx_text tr s,
  ctxm = true \/ errm = false ->
  run (@step V ctxm errm n tname ctx_text) (init n) tr s ->
  count is_any_begin tr <= count is_launch tr /\
  count is_launch tr <= 1 + count is_tick tr + count is_failure tr.
Proof.
  intros V ctxm errm n tname ctx_text tr s C HR. pose proof (inv_run _ _ _ _ _ C _ _ HR) as (IL & IM). split.
  - assert (G : count is_any_begin tr + length (filter (fun p => match p with ILaunched => true | _ => false end) (impls s)) = count is_launch tr).
    { clear -HR. induction HR as [|tr s1 l s2 HR IH HS].
      - cbn. induction n as [|m IHm]; [reflexivity | exact IHm].
      - rewrite !count_snoc.
        assert (U : forall i (p q : ipc V) (l : list (ipc V)), nth_error l i = Some p ->
          length (filter (fun p => match p with ILaunched => true | _ => false end) (upd i q l)) + bn (match p with ILaunched => true | _ => false end) =
          length (filter (fun p => match p with ILaunched => true | _ => false end) l) + bn (match q with ILaunched => true | _ => false end)).
        { clear. intros i p q l. revert i. induction l as [|a l IH]; intros [|i] H; cbn in H; try discriminate.
          - injection H as ->. cbn. destruct p, q; cbn; lia.
          - cbn. specialize (IH _ H). destruct a; cbn; lia. }
        destruct HS; cbn [impls set_main set_impl set_launcher is_any_begin is_launch]; try lia.
        all: match goal with |- context [upd ?k ?q (impls ?s)] => match goal with Hn : nth_error (impls s) k = Some ?p |- _ => pose proof (U k p q _ Hn) as Hu; cbn in Hu end end; lia. }
    lia.
  - rewrite count_launches. destruct IL as (A1 & A2 & A3 & A4 & A5 & A6 & A7). rewrite A3, seq_length.
    assert (nl n s <= 1 + passes tr). { unfold nl. destruct (launcher s); lia. }
    destruct IM as (I1 & I2 & _). assert (count is_send_next tr <= count is_failure tr).
    { rewrite I1. assert (length (errorsList s) <= length (texts (received_in tr))) by (rewrite I2, app_length; lia).
      assert (length (texts (received_in tr)) = count is_failure tr); [|lia].
      clear. unfold count. induction tr as [|l tr IH]; [reflexivity|]. destruct l; cbn; try exact IH. rewrite app_length. fold (@texts V (received_in tr)).
      destruct r; cbn; lia. }
    unfold passes in *. lia.
Qed.

(** The implementations need not be *called* in list order, though: the
    goroutines may be scheduled in another order. *)
Definition called_in_order : Prop := forall n tname ctx_text tr s i j,
  run (@step unit true true n tname ctx_text) (init n) (tr ++ [Begin i]) s -> i < j -> ~ In (Begin j) tr.
Tactic Notation "go" uconstr(c) := eapply run_cons; [eapply c; cbn; try reflexivity; try lia; try discriminate | cbn [main errorsList nexts tick stopped parent cancelled launcher impls set_main set_impl set_launcher upd repeat received joined Nat.eqb length app]].
Theorem C35_called_in_order_refuted : ~ called_in_order.
Proof.
  intros H.
  assert (R : exists s, run (@step unit true true 2 (fun _ => "T"%string) ""%string) (init 2) ([Launch 0; Launcher; Tick; TakeTick; Launch 1; Begin 1] ++ [Begin 0]) s).
  { eexists. unfold init. cbn [app repeat].
    go s_launch. go s_wait. go s_tick. go s_take_tick. go s_launch. go s_begin. go s_begin. apply run_nil. }
  destruct R as (s & R). eapply (H 2 _ _ _ s 0 1) in R; [|lia]. apply R. cbn. tauto.
Qed.

(** ** C36 *)
Definition env {V} (l : label V) : bool := match l with Tick | CtxDone => true | _ => false end.

(** Sending the next-signal never blocks the caller. *)
Theorem C36_send_never_blocks : forall V ctxm errm n tname ctx_text tr s e,
  ctxm = true \/ errm = false ->
  run (@step V ctxm errm n tname ctx_text) (init n) tr s -> main s = MSend e ->
  nexts s < n.
Proof.
  intros V ctxm errm n tname ctx_text tr s e C HR HM. pose proof (inv_run _ _ _ _ _ C _ _ HR) as (IL & IM).
  pose proof (received_bound _ _ _ _ _ _ (proj1 IL) IM) as RB.
  destruct IL as (A1 & A2 & A3 & A4 & A5 & A6 & A7). destruct IM as (I1 & I2 & I3 & I4 & I5 & I6 & I7 & I8 & _). rewrite HM in I8. lia.
Qed.

(** While the call has not returned, some goroutine of the call can take a
    step, or an implementation is still running.  No tick and no cancellation
    is needed. *)
Theorem C36_no_deadlock : forall V errm n tname ctx_text tr s, 0 < n ->
  run (@step V true errm n tname ctx_text) (init n) tr s -> (forall a, main s <> MDone a) ->
  (exists l s', env l = false /\ step true errm n tname ctx_text s l s') \/
  (exists i, nth_error (impls s) i = Some IRunning).
Proof.
  intros V errm n tname ctx_text tr s Hn HR HM.
  assert (C : true = true \/ errm = false) by auto.
  pose proof (inv_run _ _ _ _ _ C _ _ HR) as (IL & IM). pose proof (received_bound _ _ _ _ _ _ (proj1 IL) IM) as RB.
  pose proof (fun e => C36_send_never_blocks _ _ _ _ _ _ _ _ e C HR) as SB.
  destruct (main s) eqn:EM; try (left; eexists _, _; split; [|constructor; eassumption]; reflexivity).
  2:{ left. eexists _, _. split; [|eapply s_send; [eassumption | eapply SB; reflexivity]]. reflexivity. }
  2:{ exfalso. eapply HM. reflexivity. }
  destruct (ctx_done s) eqn:ED; [left; eexists _, _; split; [|apply s_main_ctx; auto]; reflexivity|].
  (* look at the implementations *)
  assert (D : (exists j, nth_error (impls s) j = Some ILaunched \/ nth_error (impls s) j = Some IRunning \/ exists r, nth_error (impls s) j = Some (IReady r)) \/
              (forall j p, nth_error (impls s) j = Some p -> p = INew \/ p = IExited)).
  { clear. induction (impls s) as [|p l IH]; [right; intros [|j] p H; discriminate|].
    destruct p; try (left; exists 0; cbn; eauto; fail).
    - destruct IH as [(j & H)|H]; [left; exists (S j); exact H | right; intros [|j] p Hj; cbn in Hj; [injection Hj as <-; auto | eauto]].
    - destruct IH as [(j & H)|H]; [left; exists (S j); exact H | right; intros [|j] p Hj; cbn in Hj; [injection Hj as <-; auto | eauto]]. }
  destruct D as [(j & [Hj|[Hj|(r & Hj)]])|D].
  - left. eexists _, _. split; [|eapply s_begin; eassumption]. reflexivity.
  - right. eauto.
  - left. eexists _, _. split; [|eapply s_recv; eassumption]. reflexivity.
  - left. destruct IL as (A1 & A2 & A3 & A4 & A5 & A6 & A7). destruct IM as (I1 & I2 & I3 & I4 & I5 & I6 & I7 & I8 & _). rewrite EM in I8.
    destruct I8 as (B1 & B2 & B3).
    assert (G : nl n s <= length (errorsList s)).
    { rewrite <- B1, <- (map_length fst), <- (seq_length (nl n s) 0). apply NoDup_incl_length; [apply seq_NoDup|].
      intros j Hj. apply in_seq in Hj. destruct (nth_error (impls s) j) as [p|] eqn:Ej; [|apply nth_error_None in Ej; lia].
      destruct (D _ _ Ej) as [-> | ->]; [pose proof (proj1 (A4 _ _ Ej) eq_refl); lia|].
      destruct (I6 _ Ej) as [(r & Hr)|[F|F]]; [|discriminate|congruence]. apply received_In in Hr. apply in_map_iff. exists (j, r). auto. }
    unfold nl in *. destruct (launcher s) as [i|i|i|] eqn:EL.
    + destruct (Nat.lt_ge_cases i n) as [L|L].
      * destruct (nth_error (impls s) i) as [p|] eqn:Ei; [|apply nth_error_None in Ei; lia].
        assert (p = INew) as -> by (apply (A4 _ _ Ei); lia). eexists _, _. split; [|eapply s_launch; eassumption]. reflexivity.
      * eexists _, _. split; [|eapply s_loop_end; eassumption]. reflexivity.
    + destruct (Nat.lt_ge_cases (i + 1) n) as [L|L].
      * eexists _, _. split; [|eapply s_wait; eassumption]. reflexivity.
      * eexists _, _. split; [|eapply s_last; eassumption]. reflexivity.
    + destruct A5 as (P1 & P2). unfold passes in P1. destruct (nexts s) as [|k] eqn:EK; [lia|].
      eexists _, _. split; [|eapply s_take_next; eassumption]. reflexivity.
    + exfalso. destruct B2 as [B2|B2]; [rewrite B2 in G; cbn in G; lia | lia].
Qed.

(** The call's own steps, and the returns of implementations, are bounded: so
    once every implementation called has returned, the call returns, in every
    schedule. *)
Definition main_weight {V} (m : mpc V) : nat :=
  match m with MStart => 11 | MSelect => 10 | MSend _ => 11 | MCancel _ => 2 | MStop _ => 1 | MDone _ => 0 end.
Definition impl_weight {V} (p : ipc V) : nat :=
  match p with INew => 6 | ILaunched => 5 | IRunning => 4 | IReady _ => 3 | IExited => 0 end.
Definition launcher_weight (n : nat) (l : lpc) : nat :=
  match l with LAt i => 4 * (S n - i) | LTest i => 4 * (S n - i) - 1 | LWait i => 4 * (S n - i) - 2 | LDone => 0 end.
Definition weight {V} (n : nat) (s : state V) : nat :=
  main_weight (main s) + launcher_weight n (launcher s) + list_sum (map impl_weight (impls s)).

Lemma weight_upd V (l : list (ipc V)) i p q : nth_error l i = Some p ->
  list_sum (map impl_weight (upd i q l)) + impl_weight p = list_sum (map impl_weight l) + impl_weight q.
Proof.
  revert i; induction l as [|a l IH]; intros [|i] H; cbn in H; try discriminate.
  - injection H as ->. cbn. lia.
  - cbn. specialize (IH _ H). fold (list_sum (map impl_weight l)) (list_sum (map impl_weight (upd i q l))). lia.
Qed.

Lemma weight_step V ctxm errm n tname ctx_text tr s l s' :
  ctxm = true \/ errm = false ->
  run (@step V ctxm errm n tname ctx_text) (init n) tr s ->
  step ctxm errm n tname ctx_text s l s' -> env l = false -> S (weight n s') <= weight n s.
Proof.
  intros C HR HS HE. destruct (inv_run _ _ _ _ _ C _ _ HR) as ((A1 & A2 & _) & _). unfold nl in A2.
  destruct HS; cbn in HE; try discriminate; unfold weight; cbn [main launcher impls set_main set_impl set_launcher];
    try (match goal with |- context [upd ?k ?q (impls ?s)] => match goal with Hn : nth_error (impls s) k = Some ?p |- _ => pose proof (weight_upd _ _ k p q Hn) as Hu; cbn [impl_weight] in Hu end end);
    try (rewrite H in * ); cbn [main_weight launcher_weight] in *; try lia.
  - unfold received. destruct r; [destruct ctxm|]; cbn [main_weight]; lia.
  - destruct (Nat.eqb (length errs) n); cbn [main_weight]; lia.
Qed.

Theorem C36_bounded : forall V ctxm errm n tname ctx_text tr1 s1 tr2 s2,
  ctxm = true \/ errm = false ->
  run (@step V ctxm errm n tname ctx_text) (init n) tr1 s1 ->
  run (step ctxm errm n tname ctx_text) s1 tr2 s2 ->
  count (fun l => negb (env l)) tr2 <= 15 + 10 * n.
Proof.
  intros V ctxm errm n tname ctx_text tr1 s1 tr2 s2 C H1 H2.
  assert (W : forall tr s, run (@step V ctxm errm n tname ctx_text) (init n) tr s -> count (fun l => negb (env l)) tr + weight n s <= weight n (init n : state V)).
  { intros tr s HR. induction HR as [|tr s0 l s' HR IH HS]; [cbn; lia|]. rewrite count_snoc.
    destruct (env l) eqn:E; cbn [negb].
    - assert (weight n s' = weight n s0); [|lia]. destruct HS; try discriminate; reflexivity.
    - pose proof (weight_step _ _ _ _ _ _ _ _ _ _ C HR HS E). lia. }
  pose proof (W _ _ (run_app _ _ _ _ _ _ H1 H2)) as G. unfold count in *. rewrite filter_app, app_length in G.
  assert (weight n (init n : state V) = 15 + 10 * n).
  { unfold weight, init. cbn [main launcher impls main_weight launcher_weight]. rewrite Nat.sub_0_r.
    assert (list_sum (map impl_weight (repeat (@INew V) n)) = 6 * n) as ->; [|lia].
    clear. induction n as [|m IH]; [reflexivity|]. cbn [repeat map]. change (list_sum (impl_weight INew :: map impl_weight (repeat (@INew V) m))) with (6 + list_sum (map impl_weight (repeat (@INew V) m))). lia. }
  lia.
Qed.

(** With no implementation at all the call blocks until its context is done. *)
Theorem C36_no_implementations : forall V errm tname ctx_text tr s (a : answer V),
  run (step true errm 0 tname ctx_text) (init 0) tr s -> In (Returns a) tr -> In CtxDone tr.
Proof.
  intros V errm tname ctx_text tr s a HR Hin. pose proof (C34_answer _ _ _ _ _ _ _ _ HR Hin) as A. destruct a as [v|t|t]; [destruct A; lia| |exact A].
  exfalso. assert (G : forall t, main s <> MCancel (AllFailed t) /\ main s <> MStop (AllFailed t) /\ main s <> MDone (AllFailed t)).
  { clear -HR. induction HR as [|tr s1 l s2 HR IH HS]; intros t; [cbn; repeat split; discriminate|].
    specialize (IH t). destruct IH as (A & B & D).
    destruct HS; cbn; try (repeat split; congruence); try (repeat split; discriminate); try lia.
    destruct r; cbn; repeat split; discriminate. }
  eapply returns_main in Hin; [|exact HR]. destruct (G t) as (_ & _ & N). contradiction.
Qed.

(** ** C37 *)
Definition C37_statement : Prop := forall V n tname ctx_text tr s i (r : result V),
  run (step false false n tname ctx_text) (init n) tr s -> In (ImplDone i r) tr ->
  (exists a, main s = MDone a) \/ exists l s', step false false n tname ctx_text s l s' /\ l <> Tick.
(** The implementation answers before the caller has reached its receive: the
    answer is thrown away and the caller waits for ever. *)
Theorem C37_refuted : ~ C37_statement.
Proof.
  intros H.
  assert (R : exists s, run (@step unit false false 1 (fun _ => "T"%string) ""%string) (init 1)
      [Launch 0; Begin 0; ImplDone 0 (Good tt); Drop 0; Caller; Launcher; Launcher] s /\
      s = State MSelect [] 0 false false false false LDone [IExited]).
  { eexists. split; [unfold init; cbn [repeat] | reflexivity].
    go s_launch. go s_begin. eapply run_cons; [eapply s_done; cbn; [reflexivity | eauto] | cbn [main errorsList nexts tick stopped parent cancelled launcher impls set_main set_impl set_launcher upd wrap_result]].
    eapply run_cons; [eapply s_drop_default; cbn; [reflexivity | reflexivity | discriminate] | cbn [main errorsList nexts tick stopped parent cancelled launcher impls set_main set_impl set_launcher upd]].
    go s_reach. go s_last. go s_loop_end. apply run_nil. }
  destruct R as (s & R & ->).
  assert (D := H unit 1 _ _ _ _ 0 (Good tt) R). destruct D as [(a & E)|(l & s' & HS & N)]; [cbn; tauto | discriminate |].
  inversion HS; subst; cbn in *; try discriminate; try contradiction.
  all: repeat match goal with Hn : nth_error _ ?i = Some _ |- _ => destruct i as [|[|]]; cbn in Hn; try discriminate end.
Qed.
(** What is true: an answer that arrives while the caller waits is returned -
    it cannot be dropped, and receiving it leads to the return. *)
Theorem C37_partial : forall V n tname ctx_text tr s i (r : result V),
  run (step false false n tname ctx_text) (init n) tr s ->
  main s = MSelect -> nth_error (impls s) i = Some (IReady r) ->
  (forall j s', ~ step false false n tname ctx_text s (Drop j) s') /\
  exists v s1 s2, r = Good v /\ step false false n tname ctx_text s (Recv i r) s1 /\
    step false false n tname ctx_text s1 (Returns (Answer v)) s2.
Proof.
  intros V n tname ctx_text tr s i r HR HM Hi. split.
  - intros j s' HS. inversion HS; subst; congruence.
  - assert (C : false = true \/ false = false) by auto. destruct (inv_run _ _ _ _ _ C _ _ HR) as (_ & IM).
    destruct IM as (_ & _ & _ & _ & _ & _ & _ & _ & _ & _ & I11). destruct (I11 eq_refl _ _ Hi) as (v & ->).
    eexists v, _, _. split; [reflexivity|]. split; [eapply s_recv; eassumption|]. apply s_stop. reflexivity.
Qed.

(** ** C38 *)
Definition C38_statement : Prop := forall V errm n tname ctx_text tr s (a : answer V),
  run (step true errm n tname ctx_text) (init n) tr s -> main s = MDone a ->
  (forall i p, nth_error (impls s) i = Some p -> p = INew \/ p = IExited) ->
  launcher s = LDone \/ exists l s', step true errm n tname ctx_text s l s' /\ env l = false.
(** The launcher waits for ever after an early answer: nobody signals it any
    more and its ticker is stopped. *)
Theorem C38_refuted : ~ C38_statement.
Proof.
  intros H.
  assert (R : exists s, run (@step unit true true 2 (fun _ => "T"%string) ""%string) (init 2)
      [Caller; Launch 0; Launcher; Begin 0; ImplDone 0 (Good tt); Recv 0 (Good tt); Caller; Returns (Answer tt)] s /\
      s = State (MDone (Answer tt)) [] 0 false true false true (LWait 0) [IExited; INew]).
  { eexists. split; [unfold init; cbn [repeat] | reflexivity].
    go s_reach. go s_launch. go s_wait. go s_begin.
    eapply run_cons; [eapply s_done; cbn; [reflexivity | discriminate] | cbn [main errorsList nexts tick stopped parent cancelled launcher impls set_main set_impl set_launcher upd wrap_result]].
    go s_recv. go s_cancel. go s_stop. apply run_nil. }
  destruct R as (s & R & ->). specialize (H unit true 2 _ _ _ _ (Answer tt) R eq_refl).
  destruct H as [E|(l & s' & HS & HE)]; [|discriminate|].
  - intros [|[|i]] p Hp; cbn in Hp; [injection Hp as <-; auto | injection Hp as <-; auto | destruct i; discriminate].
  - inversion HS; subst; cbn in *; try discriminate.
    all: repeat match goal with Hn : nth_error _ ?i = Some _ |- _ => destruct i as [|[|[|]]]; cbn in Hn; try discriminate end.
Qed.
(** What is true: no goroutine running an implementation stays behind, and after
    a failed call neither does the launcher. *)
Theorem C38_impls_partial : forall V ctxm errm n tname ctx_text tr s (a : answer V) i r,
  ctxm = true \/ errm = false ->
  run (step ctxm errm n tname ctx_text) (init n) tr s -> main s = MDone a ->
  nth_error (impls s) i = Some (IReady r) -> exists s', step ctxm errm n tname ctx_text s (Drop i) s' /\ nth_error (impls s') i = Some IExited.
Proof.
  intros V ctxm errm n tname ctx_text tr s a i r C HR HM Hi. destruct (inv_run _ _ _ _ _ C _ _ HR) as (_ & IM).
  destruct IM as (_ & _ & _ & _ & _ & _ & _ & I8 & _). rewrite HM in I8. destruct I8 as (_ & B).
  exists (set_impl i IExited s). split; [|cbn; apply nth_upd_same; eapply nth_lt; eauto].
  destruct ctxm.
  - eapply s_drop_ctx; eauto. unfold ctx_done. rewrite B. apply orb_true_r.
  - eapply s_drop_default; eauto. congruence.
Qed.
Theorem C38_launcher_partial : forall V errm n tname ctx_text tr s t, 0 < n ->
  run (@step V true errm n tname ctx_text) (init n) tr s -> main s = MDone (AllFailed t) ->
  launcher s = LDone \/ exists s', step true errm n tname ctx_text s Launcher s'.
Proof.
  intros V errm n tname ctx_text tr s t Hn HR HM.
  assert (C : true = true \/ errm = false) by auto. destruct (inv_run _ _ _ _ _ C _ _ HR) as (IL & IM).
  destruct IM as (I1 & I2 & I3 & I4 & I5 & I6 & I7 & I8 & _). rewrite HM in I8. destruct I8 as ((J1 & _) & _).
  destruct IL as (A1 & A2 & A3 & A4 & A5 & A6 & A7).
  assert (G : n <= nl n s).
  { rewrite <- J1 at 1. rewrite <- (map_length fst), <- (seq_length (nl n s) 0). apply NoDup_incl_length; [exact I3|].
    intros j Hj. apply in_map_iff in Hj. destruct Hj as ((j' & r) & <- & Hj). cbn. apply received_In in Hj.
    destruct (I4 _ _ Hj) as (E & _). apply in_seq. split; [lia|]. cbn.
    destruct (Nat.lt_ge_cases j' (nl n s)) as [L|L]; [exact L|]. apply (A4 _ _ E) in L. discriminate L. }
  unfold nl in G. destruct (launcher s) as [i|i|i|] eqn:EL; [right|right|exfalso; lia|left; reflexivity].
  - eexists. eapply s_loop_end; eassumption.
  - eexists. eapply s_last; [eassumption | lia].
Qed.

(** ** Executions *)

(** two implementations: the first fails, which starts the second *)
Example C34_example : exists s, run (@step nat true true 2 (fun i => if Nat.eqb i 0 then "A" else "B")%string "ctx"%string) (init 2)
  [Caller; Launch 0; Launcher; Begin 0; ImplDone 0 (Bad "x"); Recv 0 (Bad "A: x"); SendNext; TakeNext; Launch 1; Begin 1; ImplDone 1 (Good 7);
   Recv 1 (Good 7); Caller; Returns (Answer 7)] s.
Proof.
  eexists. unfold init; cbn [repeat]. go s_reach. go s_launch. go s_wait. go s_begin.
  eapply run_cons; [eapply s_done; cbn; [reflexivity | discriminate] | cbn [main errorsList nexts tick stopped parent cancelled launcher impls set_main set_impl set_launcher upd wrap_result]].
  go s_recv. go s_send. go s_take_next. go s_launch. go s_begin.
  eapply run_cons; [eapply s_done; cbn; [reflexivity | discriminate] | cbn [main errorsList nexts tick stopped parent cancelled launcher impls set_main set_impl set_launcher upd wrap_result]].
  go s_recv. go s_cancel. go s_stop. apply run_nil.
Qed.
(** both fail; the second, started by a tick, answers first *)
Example C34_example_failed : exists s, run (@step nat true true 2 (fun i => if Nat.eqb i 0 then "A" else "B")%string "ctx"%string) (init 2)
  [Caller; Launch 0; Launcher; Begin 0; Tick; TakeTick; Launch 1; Begin 1; ImplDone 1 (Bad "y"); Recv 1 (Bad "B: y"); SendNext;
   ImplDone 0 (Bad "x"); Recv 0 (Bad "A: x"); SendNext; Caller; Returns (AllFailed "B: y;A: x")] s.
Proof.
  eexists. unfold init; cbn [repeat]. go s_reach. go s_launch. go s_wait. go s_begin. go s_tick. go s_take_tick. go s_launch. go s_begin.
  eapply run_cons; [eapply s_done; cbn; [reflexivity | discriminate] | cbn [main errorsList nexts tick stopped parent cancelled launcher impls set_main set_impl set_launcher upd wrap_result]].
  go s_recv. go s_send.
  eapply run_cons; [eapply s_done; cbn; [reflexivity | discriminate] | cbn [main errorsList nexts tick stopped parent cancelled launcher impls set_main set_impl set_launcher upd wrap_result]].
  go s_recv. go s_send. go s_cancel. go s_stop. apply run_nil.
Qed.
(** the caller's context ends first *)
Example C34_example_ctx : exists s, run (@step nat true true 1 (fun _ => "A")%string "context canceled"%string) (init 1)
  [Launch 0; Begin 0; Caller; CtxDone; Caller; Caller; Returns (CtxErr "context canceled: ")] s.
Proof.
  eexists. unfold init; cbn [repeat]. go s_launch. go s_begin. go s_reach. go s_ctx. go s_main_ctx. go s_cancel. go s_stop. apply run_nil.
Qed.
(** A non-positive interval panics before anything is started. *)
Theorem C36_interval : forall V interval n, (@call_starts V interval n = None <-> (interval <= 0)%Z).
Proof. intros V i n. unfold call_starts. destruct (Z.leb_spec i 0); split; intros; try discriminate; try lia; auto. Qed.

Print Assumptions C34_answer.
Print Assumptions C34_all_called.
Print Assumptions C34_returns_once.
Print Assumptions C34_answer_no_error.
Print Assumptions C35_launch_order.
Print Assumptions C35_called_once.
Print Assumptions C35_paid.
Print Assumptions C35_called_in_order_refuted.
Print Assumptions C36_send_never_blocks.
Print Assumptions C36_no_deadlock.
Print Assumptions C36_bounded.
Print Assumptions C36_no_implementations.
Print Assumptions C36_interval.
Print Assumptions C37_refuted.
Print Assumptions C37_partial.
Print Assumptions C38_refuted.
Print Assumptions C38_impls_partial.
Print Assumptions C38_launcher_partial.
