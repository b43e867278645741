(** Invariants of the fallback model. *)
From Verif Require Export Fallback.
From Coq Require Import Permutation.
Open Scope nat_scope.

Section Traces.
  Context {V : Type}.
  Notation label := (label V).

  (** the implementations' results received by the caller, in order of arrival *)
  Fixpoint received_in (tr : list label) : list (nat * result V) :=
    match tr with
    | [] => []
    | Recv i r :: tr' => (i, r) :: received_in tr'
    | _ :: tr' => received_in tr'
    end.
  (** the implementations launched, in order *)
  Fixpoint launched_in (tr : list label) : list nat :=
    match tr with
    | [] => []
    | Launch i :: tr' => i :: launched_in tr'
    | _ :: tr' => launched_in tr'
    end.
  Definition count (f : label -> bool) (tr : list label) : nat := length (filter f tr).
  Definition is_tick (l : label) := match l with Tick => true | _ => false end.
  Definition is_take_next (l : label) := match l with TakeNext => true | _ => false end.
  Definition is_take_tick (l : label) := match l with TakeTick => true | _ => false end.
  Definition is_send_next (l : label) := match l with SendNext => true | _ => false end.
  Definition is_failure (l : label) := match l with Recv _ (Bad _) => true | _ => false end.

  Lemma received_snoc tr l : received_in (tr ++ [l]) = received_in tr ++ match l with Recv i r => [(i, r)] | _ => [] end.
  Proof. induction tr as [|x tr IH]; cbn; [now destruct l|]. destruct x; rewrite IH; reflexivity. Qed.
  Lemma launched_snoc tr l : launched_in (tr ++ [l]) = launched_in tr ++ match l with Launch i => [i] | _ => [] end.
  Proof. induction tr as [|x tr IH]; cbn; [now destruct l|]. destruct x; rewrite IH; reflexivity. Qed.
  Lemma count_snoc f tr l : count f (tr ++ [l]) = count f tr + (if f l then 1 else 0).
  Proof. unfold count. rewrite filter_app, app_length. cbn. now destruct (f l). Qed.
  Lemma received_In tr i r : In (i, r) (received_in tr) <-> In (Recv i r) tr.
  Proof.
    induction tr as [|x tr IH]; cbn; [tauto|]. destruct x; cbn; rewrite IH; intuition (try discriminate; try congruence).
  Qed.
End Traces.

Section Inv.
  Context {V : Type}.
  Variable ctxm errm : bool.
  Variable n : nat.
  Variable tname : nat -> string.
  Variable ctx_text : string.
  Hypothesis compiles : ctxm = true \/ errm = false.
  Notation step := (@step V ctxm errm n tname ctx_text).
  Notation label := (label V).
  Notation state := (state V).

  (** how many implementations have been launched *)
  Definition nl (s : state) : nat :=
    match launcher s with LAt i => i | LTest i => S i | LWait i => S i | LDone => n end.
  Definition passes (tr : list label) : nat := count is_take_next tr + count is_take_tick tr.
  Definition bn (b : bool) : nat := if b then 1 else 0.

  Definition inv_launch (tr : list label) (s : state) : Prop :=
    length (impls s) = n /\ nl s <= n /\ launched_in tr = seq 0 (nl s) /\
    (forall j p, nth_error (impls s) j = Some p -> (p = INew <-> nl s <= j)) /\
    match launcher s with
    | LAt i => i <= S (passes tr) /\ (i < n -> passes tr = i)
    | LTest i => passes tr = i
    | LWait i => passes tr = i /\ i + 1 < n
    | LDone => n <= S (passes tr)
    end /\
    nexts s + count is_take_next tr = count is_send_next tr /\
    count is_take_tick tr + bn (tick s) <= count is_tick tr.

  Definition texts (l : list (nat * result V)) : list string :=
    flat_map (fun ir => match snd ir with Bad e => [e] | Good _ => [] end) l.
  Definition pending_text (s : state) : list string := match main s with MSend e => [e] | _ => [] end.

  Definition justified (tr : list label) (a : answer V) : Prop :=
    match a with
    | Answer v => exists i, In (Recv i (Good v)) tr
    | AllFailed t => length (received_in tr) = n /\ length (texts (received_in tr)) = n /\ t = joined (texts (received_in tr))
    | CtxErr t => In CtxDone tr
    end.

  Definition inv_main (tr : list label) (s : state) : Prop :=
    count is_send_next tr = length (errorsList s) /\
    texts (received_in tr) = errorsList s ++ pending_text s /\
    NoDup (map fst (received_in tr)) /\
    (forall j r, In (Recv j r) tr -> nth_error (impls s) j = Some IExited /\ exists r0, In (ImplDone j r0) tr /\ r = wrap_result tname j r0) /\
    (forall j r, nth_error (impls s) j = Some (IReady r) -> exists r0, In (ImplDone j r0) tr /\ r = wrap_result tname j r0) /\
    (forall j, nth_error (impls s) j = Some IExited -> (exists r, In (Recv j r) tr) \/ ctxm = false \/ ctx_done s = true) /\
    (parent s = true -> In CtxDone tr) /\
    match main s with
    | MStart | MSelect => length (received_in tr) = length (errorsList s) /\ (errorsList s = [] \/ length (errorsList s) < n) /\ cancelled s = false
    | MSend _ => length (received_in tr) = S (length (errorsList s)) /\ cancelled s = false
    | MCancel a => justified tr a /\ cancelled s = false
    | MStop a | MDone a => justified tr a /\ cancelled s = ctxm
    end /\
    (ctxm = false -> forall e, main s <> MSend e) /\
    (ctxm = false -> forall a, main s <> MCancel a) /\
    (errm = false -> forall j r, nth_error (impls s) j = Some (IReady r) -> exists v, r = Good v).

  Lemma inv_launch_step tr s l s' : inv_launch tr s -> step s l s' -> inv_launch (tr ++ [l]) s'.
  Proof.
    intros (I1 & I2 & I3 & I4 & I5 & I6 & I7) HS. unfold inv_launch, passes. rewrite launched_snoc, !count_snoc.
    unfold nl in *.
    destruct HS; cbn [main errorsList nexts tick stopped parent cancelled launcher impls set_main set_impl set_launcher is_take_next is_take_tick is_send_next is_tick bn] in *;
      rewrite ?app_nil_r, ?Nat.add_0_r, ?upd_length;
      try (rewrite H in *; cbn [nl] in * ).
    all: try (split; [assumption|]; split; [lia|]; split; [assumption|]; split; [assumption|]; split; [assumption|]; split; lia).
    all: try (split; [assumption|]; split; [lia|]; split; [assumption|]; split;
      [intros k p0 Hk; apply nth_upd in Hk; destruct Hk as [(-> & -> & _)|(_ & Hk)]; [|now apply I4];
       match goal with Hi : nth_error (impls _) _ = Some ?q |- _ => pose proof (proj2 (I4 _ _ Hi)) as J end;
       split; [discriminate|]; intros G; apply J in G; discriminate
      |]; split; [assumption|]; split; lia).
    - (* launch *)
      pose proof (nth_lt _ _ _ H0) as Li. split; [assumption|]. split; [lia|]. split; [rewrite I3, seq_S; reflexivity|].
      split; [|split; [unfold passes in I5; lia | split; lia]].
      intros j p Hj. apply nth_upd in Hj. destruct Hj as [(-> & -> & _)|(Nj & Hj)].
      + split; [discriminate | lia].
      + rewrite (I4 _ _ Hj). lia.
    - (* loop end *)
      assert (i = n) as -> by lia. split; [assumption|]. split; [lia|]. split; [assumption|]. split; [assumption|].
      unfold passes in I5. split; [lia | split; lia].
    - (* last *)
      split; [assumption|]. split; [lia|]. split; [assumption|]. split; [assumption|].
      unfold passes in I5. split; [lia | split; lia].
    - (* wait *)
      split; [assumption|]. split; [lia|]. split; [assumption|]. split; [assumption|].
      unfold passes in I5. split; [lia | split; lia].
    - (* take next *)
      split; [assumption|]. split; [lia|]. split; [assumption|]. split; [assumption|].
      unfold passes in I5. split; [lia | split; lia].
    - (* take tick *)
      split; [assumption|]. split; [lia|]. split; [assumption|]. split; [assumption|].
      unfold passes in I5. rewrite H0 in I7. cbn in I7. split; [lia | split; lia].
  Qed.

  Lemma in_snoc_other {A} (l : list A) x y : x <> y -> In x (l ++ [y]) -> In x l.
  Proof. intros N H. apply in_app_or in H. destruct H as [H|[->|[]]]; [exact H | contradiction]. Qed.
  Lemma in_snoc {A} (l : list A) x y : In x l -> In x (l ++ [y]).
  Proof. intros H. apply in_or_app. auto. Qed.
  Lemma in_snoc_last {A} (l : list A) x : In x (l ++ [x]).
  Proof. apply in_or_app. right. cbn. auto. Qed.

  Lemma texts_app a b : texts (a ++ b) = texts a ++ texts b.
  Proof. unfold texts. apply flat_map_app. Qed.
  Lemma texts_length a : length (texts a) <= length a.
  Proof. induction a as [|[i r] a IH]; cbn; [lia|]. rewrite app_length. destruct r; cbn; fold (texts a); lia. Qed.

  Lemma received_bound tr s : length (impls s) = n -> inv_main tr s -> length (received_in tr) <= n.
  Proof.
    intros L (_ & _ & ND & IR & _). rewrite <- (map_length fst).
    assert (G : incl (map fst (received_in tr)) (seq 0 n)).
    { intros j Hj. apply in_map_iff in Hj. destruct Hj as ((j' & r) & <- & Hj). cbn. apply received_In in Hj.
      destruct (IR _ _ Hj) as (Hn & _). apply nth_lt in Hn. apply in_seq. lia. }
    pose proof (NoDup_incl_length ND G) as E. now rewrite seq_length in E.
  Qed.

  (** steps that neither receive nor touch the implementations *)
  Lemma inv_main_quiet tr s l s' :
    inv_main tr s -> impls s' = impls s ->
    (forall i r, l <> Recv i r) -> l <> SendNext ->
    main s' = main s -> errorsList s' = errorsList s -> cancelled s' = cancelled s ->
    (parent s' = parent s \/ (parent s' = true /\ l = CtxDone)) ->
    inv_main (tr ++ [l]) s'.
  Proof.
    intros (I1 & I2 & I3 & I4 & I5 & I6 & I7 & I8 & I9 & I10 & I11) E1 NR NS EM EE EC EP.
    assert (RE : received_in (tr ++ [l]) = received_in tr).
    { rewrite received_snoc. destruct l; try apply app_nil_r. now destruct (NR i r). }
    assert (IO : forall i r, In (Recv i r) (tr ++ [l]) -> In (Recv i r) tr).
    { intros i r. apply in_snoc_other. intros E. now destruct (NR i r). }
    unfold inv_main, pending_text. rewrite RE, E1, EM, EE, EC. split; [|split; [|split; [|split; [|split; [|split; [|split; [|split; [|split; [|split]]]]]]]]]; auto.
    - rewrite count_snoc. destruct l; cbn; try lia. congruence.
    - intros j r Hj. destruct (I4 _ _ (IO _ _ Hj)) as (A & r0 & B & C). split; [exact A|]. exists r0. auto using in_snoc.
    - intros j r Hj. destruct (I5 _ _ Hj) as (r0 & B & C). exists r0. auto using in_snoc.
    - intros j Hj. destruct (I6 _ Hj) as [(r & A)|[A|A]]; [left; exists r; auto using in_snoc | auto |].
      right; right. unfold ctx_done in *. rewrite EC. apply orb_true_iff in A. destruct A as [A|A]; [|rewrite A; apply orb_true_r].
      destruct EP as [->|(-> & _)]; [now rewrite A | reflexivity].
    - intros HP. destruct EP as [EP|(_ & ->)]; [apply in_snoc, I7; congruence | apply in_snoc_last].
    - assert (J : forall a, justified tr a -> justified (tr ++ [l]) a).
      { intros a. destruct a; cbn; rewrite ?RE; auto using in_snoc. intros (i & Hi). exists i. auto using in_snoc. }
      destruct (main s); destruct I8 as (A & B); auto.
  Qed.

  Lemma inv_main_step tr s l s' : inv_launch tr s -> inv_main tr s -> step s l s' -> inv_main (tr ++ [l]) s'.
  Proof.
    intros IL IM HS. pose proof (received_bound tr s (proj1 IL) IM) as RB.
    assert (ILn : forall j, nth_error (impls s) j = Some INew -> nl s <= j) by (intros j Hj; now apply (proj1 (proj2 (proj2 (proj2 IL))) j INew Hj)).
    (* changing the status of one implementation *)
    assert (ONE : forall i p q l', nth_error (impls s) i = Some p -> p <> IExited ->
       (forall j r, l' <> Recv j r) -> l' <> SendNext ->
       (q = IExited -> ctxm = false \/ ctx_done s = true) ->
       (forall r, q = IReady r -> (exists r0, In (ImplDone i r0) (tr ++ [l']) /\ r = wrap_result tname i r0) /\ (errm = false -> exists v, r = Good v)) ->
       inv_main (tr ++ [l']) (set_impl i q s)).
    { intros i p q l' Hi HpE NR NS Hex Hrdy.
      destruct IM as (I1 & I2 & I3 & I4 & I5 & I6 & I7 & I8 & I9 & I10 & I11).
      assert (RE : received_in (tr ++ [l']) = received_in tr).
      { rewrite received_snoc. destruct l'; try apply app_nil_r. now destruct (NR i0 r). }
      assert (IO : forall j r, In (Recv j r) (tr ++ [l']) -> In (Recv j r) tr).
      { intros j r. apply in_snoc_other. intros E. now destruct (NR j r). }
      unfold inv_main, pending_text. rewrite RE. cbn [set_impl main errorsList cancelled parent impls].
      split; [|split; [|split; [|split; [|split; [|split; [|split; [|split; [|split; [|split]]]]]]]]]; auto.
      - rewrite count_snoc. destruct l'; cbn; try lia. congruence.
      - intros j r Hj. destruct (I4 _ _ (IO _ _ Hj)) as (A & r0 & B & C). split.
        + rewrite nth_upd_other; [exact A|]. intros <-. congruence.
        + exists r0. auto using in_snoc.
      - intros j r Hj. apply nth_upd in Hj. destruct Hj as [(-> & E & _)|(Nj & Hj)].
        + now apply Hrdy.
        + destruct (I5 _ _ Hj) as (r0 & B & C). exists r0. auto using in_snoc.
      - intros j Hj. apply nth_upd in Hj. destruct Hj as [(-> & E & _)|(Nj & Hj)].
        + right. now apply Hex.
        + destruct (I6 _ Hj) as [(r & A)|[A|A]]; [left; exists r; auto using in_snoc | auto | auto].
      - intros HP. apply in_snoc, I7, HP.
      - assert (J : forall a, justified tr a -> justified (tr ++ [l']) a).
        { intros a. destruct a; cbn; rewrite ?RE; auto using in_snoc. intros (k & Hk). exists k. auto using in_snoc. }
        destruct (main s); destruct I8 as (A & B); auto.
      - intros Ee j r Hj. apply nth_upd in Hj. destruct Hj as [(-> & E & _)|(Nj & Hj)]; [now apply (Hrdy r) | now apply (I11 Ee j)]. }
    (* moving the caller without receiving *)
    destruct HS.
    - apply inv_main_quiet with (s := s); auto; discriminate.
    - apply inv_main_quiet with (s := s); auto; try discriminate.
    - (* launch *)
      assert (G : inv_main (tr ++ [Launch i]) (set_impl i ILaunched s)) by (eapply ONE; eauto; discriminate).
      revert G. unfold inv_main. cbn. auto.
    - apply inv_main_quiet with (s := s); auto; discriminate.
    - apply inv_main_quiet with (s := s); auto; discriminate.
    - apply inv_main_quiet with (s := s); auto; discriminate.
    - apply inv_main_quiet with (s := s); auto; discriminate.
    - apply inv_main_quiet with (s := s); auto; discriminate.
    - eapply ONE; eauto; discriminate.
    - (* done *)
      eapply ONE; eauto; try discriminate. intros r' [= <-]. split; [exists r; split; [apply in_snoc_last | reflexivity]|].
      intros Ee. destruct (H0 Ee) as (v & ->). exists v. reflexivity.
    - eapply ONE; eauto; try discriminate.
    - eapply ONE; eauto; try discriminate.
    - (* reach *)
      destruct IM as (I1 & I2 & I3 & I4 & I5 & I6 & I7 & I8 & I9 & I10 & I11). rewrite H in I8. unfold pending_text in I2. rewrite H in I2.
      unfold inv_main, pending_text. rewrite received_snoc, app_nil_r, count_snoc. cbn.
      split; [lia|]. split; [exact I2|]. split; [exact I3|]. split.
      { intros j r Hj. apply in_snoc_other in Hj; [|discriminate]. destruct (I4 _ _ Hj) as (A & r0 & B & C). split; [exact A|]. exists r0. auto using in_snoc. }
      split. { intros j r Hj. destruct (I5 _ _ Hj) as (r0 & B & C). exists r0. auto using in_snoc. }
      split. { intros j Hj. destruct (I6 _ Hj) as [(r & A)|[A|A]]; [left; exists r; auto using in_snoc | auto | auto]. }
      split; [intros HP; apply in_snoc, I7, HP|]. split; [exact I8|]. split; [discriminate|]. split; [discriminate | exact I11].
    - (* recv *)
      destruct IM as (I1 & I2 & I3 & I4 & I5 & I6 & I7 & I8 & I9 & I10 & I11). rewrite H in I8. unfold pending_text in I2. rewrite H in I2.
      destruct I8 as (A1 & A2 & A3).
      assert (FR : ~ In i (map fst (received_in tr))).
      { intros Hin. apply in_map_iff in Hin. destruct Hin as ((i' & r') & E & Hin). cbn in E. subst i'. apply received_In in Hin.
        destruct (I4 _ _ Hin) as (B & _). congruence. }
      assert (I4' : forall j r', In (Recv j r') (tr ++ [Recv i r]) -> nth_error (upd i IExited (impls s)) j = Some IExited /\
         exists r0, In (ImplDone j r0) (tr ++ [Recv i r]) /\ r' = wrap_result tname j r0).
      { intros j r' Hj. apply in_app_or in Hj. destruct Hj as [Hj|[E|[]]].
        - destruct (I4 _ _ Hj) as (B & r0 & C & D). split; [|exists r0; auto using in_snoc].
          destruct (Nat.eq_dec j i) as [->|Nj]; [apply nth_upd_same; eapply nth_lt; eauto | now rewrite nth_upd_other by auto].
        - injection E as <- <-. split; [apply nth_upd_same; eapply nth_lt; eauto|].
          destruct (I5 _ _ H0) as (r0 & C & D). exists r0. auto using in_snoc. }
      assert (I5' : forall j r', nth_error (upd i IExited (impls s)) j = Some (IReady r') -> exists r0, In (ImplDone j r0) (tr ++ [Recv i r]) /\ r' = wrap_result tname j r0).
      { intros j r' Hj. apply nth_upd in Hj. destruct Hj as [(_ & E & _)|(_ & Hj)]; [discriminate|]. destruct (I5 _ _ Hj) as (r0 & C & D). exists r0. auto using in_snoc. }
      assert (I6' : forall j, nth_error (upd i IExited (impls s)) j = Some IExited -> (exists r', In (Recv j r') (tr ++ [Recv i r])) \/ ctxm = false \/ ctx_done s = true).
      { intros j Hj. apply nth_upd in Hj. destruct Hj as [(-> & _ & _)|(_ & Hj)]; [left; exists r; apply in_snoc_last|].
        destruct (I6 _ Hj) as [(r' & A)|[A|A]]; [left; exists r'; auto using in_snoc | auto | auto]. }
      assert (I11' : errm = false -> forall j r', nth_error (upd i IExited (impls s)) j = Some (IReady r') -> exists v, r' = Good v).
      { intros Ee j r' Hj. apply nth_upd in Hj. destruct Hj as [(_ & E & _)|(_ & Hj)]; [discriminate|]. now apply (I11 Ee j). }
      unfold inv_main, pending_text. rewrite received_snoc, count_snoc, texts_app, map_app. cbn [is_send_next set_main set_impl main errorsList cancelled parent impls map fst].
      split; [lia|]. split.
      { rewrite I2, app_nil_r. destruct r; unfold received; [destruct ctxm|]; cbn; rewrite ?app_nil_r; reflexivity. }
      split.
      { eapply NoDup_Add with (a := i) (l := map fst (received_in tr)); [|split; [exact I3 | exact FR]].
        pose proof (Add_app i (map fst (received_in tr)) []) as Ad. now rewrite app_nil_r in Ad. }
      split; [exact I4'|]. split; [exact I5'|]. split; [exact I6'|]. split; [intros HP; apply in_snoc, I7, HP|].
      split; [|split; [|split; [|exact I11']]].
      + destruct r as [v|e]; cbn [received].
        * destruct ctxm; cbn; (split; [exists i; apply in_snoc_last | exact A3]).
        * rewrite app_length. cbn. split; [lia | exact A3].
      + intros Ec e. rewrite Ec. destruct r as [v|e']; cbn [received]; [discriminate|].
        destruct compiles as [C|C]; [congruence|]. destruct (I11 C _ _ H0) as (v & E). discriminate E.
      + intros Ec a. rewrite Ec. destruct r as [v|e']; cbn [received]; discriminate.
    - (* main ctx *)
      destruct IM as (I1 & I2 & I3 & I4 & I5 & I6 & I7 & I8 & I9 & I10 & I11). rewrite H in I8. unfold pending_text in I2. rewrite H in I2.
      destruct I8 as (A1 & A2 & A3).
      unfold inv_main, pending_text. rewrite received_snoc, app_nil_r, count_snoc. cbn.
      split; [lia|]. split; [exact I2|]. split; [exact I3|]. split.
      { intros j r Hj. apply in_snoc_other in Hj; [|discriminate]. destruct (I4 _ _ Hj) as (A & r0 & B & C). split; [exact A|]. exists r0. auto using in_snoc. }
      split. { intros j r Hj. destruct (I5 _ _ Hj) as (r0 & B & C). exists r0. auto using in_snoc. }
      split. { intros j Hj. destruct (I6 _ Hj) as [(r & A)|[A|A]]; [left; exists r; auto using in_snoc | auto | auto]. }
      split; [intros HP; apply in_snoc, I7, HP|]. split; [|split; [discriminate|split; [congruence | exact I11]]].
      split; [|exact A3]. apply in_snoc, I7. unfold ctx_done in H1. rewrite A3, orb_false_r in H1. exact H1.
    - (* send *)
      destruct IM as (I1 & I2 & I3 & I4 & I5 & I6 & I7 & I8 & I9 & I10 & I11). rewrite H in I8. unfold pending_text in I2. rewrite H in I2.
      destruct I8 as (A1 & A2).
      unfold inv_main, pending_text. rewrite received_snoc, app_nil_r, count_snoc. cbn.
      split; [unfold errs; rewrite app_length; cbn; lia|]. split.
      { destruct (Nat.eqb _ _); rewrite app_nil_r; exact I2. }
      split; [exact I3|]. split.
      { intros j r Hj. apply in_snoc_other in Hj; [|discriminate]. destruct (I4 _ _ Hj) as (A & r0 & B & C). split; [exact A|]. exists r0. auto using in_snoc. }
      split. { intros j r Hj. destruct (I5 _ _ Hj) as (r0 & B & C). exists r0. auto using in_snoc. }
      split. { intros j Hj. destruct (I6 _ Hj) as [(r & A)|[A|A]]; [left; exists r; auto using in_snoc | auto | auto]. }
      split; [intros HP; apply in_snoc, I7, HP|].
      assert (EL : length errs = S (length (errorsList s))) by (unfold errs; rewrite app_length; cbn; lia).
      split; [|split; [|split; [|exact I11]]].
      + destruct (Nat.eqb_spec (length errs) n) as [E|E].
        * split; [|exact A2]. cbn. rewrite received_snoc, app_nil_r, I2. fold errs. split; [lia | split; [exact E | reflexivity]].
        * split; [lia|]. split; [right; lia | exact A2].
      + intros Ec. exfalso. now apply (I9 Ec e).
      + intros Ec. exfalso. now apply (I9 Ec e).
    - (* cancel *)
      destruct IM as (I1 & I2 & I3 & I4 & I5 & I6 & I7 & I8 & I9 & I10 & I11). rewrite H in I8. unfold pending_text in I2. rewrite H in I2.
      destruct I8 as (A1 & A2).
      unfold inv_main, pending_text. rewrite received_snoc, app_nil_r, count_snoc. cbn.
      split; [lia|]. split; [exact I2|]. split; [exact I3|]. split.
      { intros j r Hj. apply in_snoc_other in Hj; [|discriminate]. destruct (I4 _ _ Hj) as (A & r0 & B & C). split; [exact A|]. exists r0. auto using in_snoc. }
      split. { intros j r Hj. destruct (I5 _ _ Hj) as (r0 & B & C). exists r0. auto using in_snoc. }
      split. { intros j Hj. right; right. unfold ctx_done. cbn. apply orb_true_r. }
      split; [intros HP; apply in_snoc, I7, HP|]. split; [|split; [discriminate|split; [discriminate | exact I11]]].
      split.
      + destruct a; cbn in *; rewrite ?received_snoc, ?app_nil_r; auto using in_snoc. destruct A1 as (i & Hi). exists i. auto using in_snoc.
      + destruct ctxm eqn:Ec; [reflexivity|]. exfalso. now apply (I10 eq_refl a).
    - (* stop *)
      destruct IM as (I1 & I2 & I3 & I4 & I5 & I6 & I7 & I8 & I9 & I10 & I11). rewrite H in I8. unfold pending_text in I2. rewrite H in I2.
      destruct I8 as (A1 & A2).
      unfold inv_main, pending_text. rewrite received_snoc, app_nil_r, count_snoc. cbn.
      split; [lia|]. split; [exact I2|]. split; [exact I3|]. split.
      { intros j r Hj. apply in_snoc_other in Hj; [|discriminate]. destruct (I4 _ _ Hj) as (A & r0 & B & C). split; [exact A|]. exists r0. auto using in_snoc. }
      split. { intros j r Hj. destruct (I5 _ _ Hj) as (r0 & B & C). exists r0. auto using in_snoc. }
      split. { intros j Hj. destruct (I6 _ Hj) as [(r & A)|[A|A]]; [left; exists r; auto using in_snoc | auto | auto]. }
      split; [intros HP; apply in_snoc, I7, HP|]. split; [|split; [discriminate|split; [discriminate | exact I11]]].
      split; [|exact A2].
      destruct a; cbn in *; rewrite ?received_snoc, ?app_nil_r; auto using in_snoc. destruct A1 as (i & Hi). exists i. auto using in_snoc.
  Qed.

  Lemma inv_run tr s : run step (init n) tr s -> inv_launch tr s /\ inv_main tr s.
  Proof.
    apply (run_inv step (fun tr s => inv_launch tr s /\ inv_main tr s)).
    - split.
      + unfold inv_launch, init, nl; cbn. rewrite repeat_length. split; [reflexivity|]. split; [lia|]. split; [reflexivity|]. split.
        * intros j p Hj. split; [lia|]. intros _. apply nth_error_In, repeat_spec in Hj. exact Hj.
        * repeat split; lia.
      + unfold inv_main, init; cbn. split; [reflexivity|]. split; [reflexivity|]. split; [constructor|]. split; [intros; contradiction|].
        assert (G : forall j p, nth_error (repeat (@INew V) n) j = Some p -> p = INew) by (intros j p Hj; apply nth_error_In, repeat_spec in Hj; exact Hj).
        split; [intros j r Hj; apply G in Hj; discriminate|]. split; [intros j Hj; apply G in Hj; discriminate|].
        split; [discriminate|]. split; [auto|]. split; [discriminate|]. split; [discriminate|]. intros _ j r Hj; apply G in Hj; discriminate.
    - intros tr0 s1 l s2 _ (A & B) HS. split; [eapply inv_launch_step; eauto | eapply inv_main_step; eauto].
  Qed.
End Inv.
