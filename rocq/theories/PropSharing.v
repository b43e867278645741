(** Property C52. *)
From Verif Require Import Sharing.
Open Scope nat_scope.

Lemma update_length {A} n (x : A) l : length (update n x l) = length l.
Proof. revert n; induction l as [|a l IH]; intros [|n]; cbn; auto. Qed.
Lemma nth_error_update_same {A} n (x : A) l : n < length l -> nth_error (update n x l) n = Some x.
Proof. revert n; induction l as [|a l IH]; intros [|n]; cbn; intros H; try lia; [reflexivity|]. apply IH. lia. Qed.
Lemma nth_error_update_other {A} n m (x : A) l : n <> m -> nth_error (update n x l) m = nth_error l m.
Proof. revert n m; induction l as [|a l IH]; intros [|n] [|m] H; cbn; auto; try lia. Qed.
Lemma nth_error_update {A} n m (x y : A) l : nth_error (update n x l) m = Some y ->
  (m = n /\ y = x /\ n < length l) \/ (m <> n /\ nth_error l m = Some y).
Proof.
  destruct (Nat.eq_dec m n) as [->|N].
  - intros H. assert (n < length l) by (rewrite <- (update_length n x), <- nth_error_Some; congruence).
    rewrite nth_error_update_same in H by assumption. left. intuition congruence.
  - rewrite nth_error_update_other by auto. auto.
Qed.

Lemma set_nth_length n x h : length (set_nth n x h) = length h.
Proof. revert n; induction h as [|a l IH]; intros [|n]; cbn; auto. Qed.
Lemma cells_set_same n x h : n < length h -> cells (set_nth n x h) n = x.
Proof. unfold cells. revert n; induction h as [|a l IH]; intros [|n]; cbn; intros H; try lia; [reflexivity|]. apply IH. lia. Qed.
Lemma cells_set_other n m x h : n <> m -> cells (set_nth n x h) m = cells h m.
Proof. unfold cells. revert n m; induction h as [|a l IH]; intros [|n] [|m] H; cbn; auto; try lia. Qed.
Lemma cells_app_old h x m : m < length h -> cells (h ++ [x]) m = cells h m.
Proof. intros H. unfold cells. now rewrite app_nth1. Qed.
Lemma cells_app_new h x : cells (h ++ [x]) (length h) = x.
Proof. unfold cells. rewrite app_nth2, Nat.sub_diag by lia. reflexivity. Qed.

Lemma write_elems off len xs arr : off + len + length xs <= length arr ->
  firstn (len + length xs) (skipn off (write (off + len) xs arr)) = firstn len (skipn off arr) ++ xs.
Proof.
  intros H. unfold write.
  rewrite skipn_app, firstn_length_le by lia. replace (off - (off + len)) with 0 by lia. cbn [skipn].
  rewrite firstn_skipn_comm.
  assert (E : firstn (off + len) arr = firstn (off + len) arr) by reflexivity.
  rewrite <- (firstn_skipn_comm len off arr).
  assert (L : length (firstn len (skipn off arr)) = len) by (rewrite firstn_length_le; [reflexivity | rewrite skipn_length; lia]).
  rewrite app_assoc, firstn_app, app_length, L. replace (len + length xs - (len + length xs)) with 0 by lia. cbn [firstn].
  rewrite app_nil_r. rewrite <- (app_nil_r (firstn len (skipn off arr) ++ xs)) at 2.
  rewrite firstn_all2; [now rewrite app_nil_r|]. rewrite app_length, L. lia.
Qed.

Lemma write_length i xs arr : i + length xs <= length arr -> length (write i xs arr) = length arr.
Proof. intros H. unfold write. rewrite !app_length, firstn_length_le, skipn_length by lia. lia. Qed.

Section Private.
  Variable h0 : heap.
  Variable s0 : slice.
  Hypothesis OK0 : slice_ok h0 s0.
  Hypothesis FULL : sl_len s0 = sl_cap s0.

  (** every maker still has the shared slice or owns its array *)
  Definition owns (h : heap) (ms : list maker) : Prop :=
    length h0 <= length h /\ (forall a, a < length h0 -> cells h a = cells h0 a) /\
    (forall i m, nth_error ms i = Some m ->
       (mk_slice m = s0 /\ mk_done m = []) \/
       (slice_ok h (mk_slice m) /\ length h0 <= sl_arr (mk_slice m) /\
        elems h (mk_slice m) = elems h0 s0 ++ mk_done m)) /\
    (forall i j m m', nth_error ms i = Some m -> nth_error ms j = Some m' -> i <> j ->
       length h0 <= sl_arr (mk_slice m) -> sl_arr (mk_slice m) <> sl_arr (mk_slice m')).

  Lemma elems_s0_length : length (elems h0 s0) = sl_len s0.
  Proof. destruct OK0 as (A & B & C). unfold elems. rewrite firstn_length_le; [reflexivity|]. rewrite skipn_length. lia. Qed.

  Lemma elems_eq h h' s : cells h' (sl_arr s) = cells h (sl_arr s) -> elems h' s = elems h s.
  Proof. unfold elems. now intros ->. Qed.

  Lemma owns_step h ms h' ms' : owns h ms -> astep (h, ms) (h', ms') -> owns h' ms'.
  Proof.
    intros (O1 & O2 & O3 & O4) H. inversion H as [? ? i m xs rest extra Hi Ht]; subst.
    assert (Hl : i < length ms) by (apply nth_error_Some; congruence).
    unfold go_append. destruct (Nat.leb_spec (sl_len (mk_slice m) + length xs) (sl_cap (mk_slice m))) as [HC|HC]; cbn [fst snd].
    - (* in place *)
      destruct (O3 i m Hi) as [(Es & Ed)|(OKm & Hown & He)].
      + (* the shared slice is full: nothing was appended *)
        assert (xs = []) as -> by (rewrite Es in HC; destruct xs; [reflexivity|cbn in HC; lia]).
        assert (Hh : forall a, cells (set_nth (sl_arr (mk_slice m)) (write (sl_off (mk_slice m) + sl_len (mk_slice m)) [] (cells h (sl_arr (mk_slice m)))) h) a = cells h a).
        { intros a. destruct (Nat.eq_dec (sl_arr (mk_slice m)) a) as [<-|N]; [|now apply cells_set_other].
          rewrite cells_set_same by (rewrite Es; destruct OK0; lia). unfold write. cbn. rewrite Nat.add_0_r. apply firstn_skipn. }
        assert (Eslice : Slice (sl_arr (mk_slice m)) (sl_off (mk_slice m)) (sl_len (mk_slice m) + length (@nil string)) (sl_cap (mk_slice m)) = mk_slice m)
          by (rewrite Nat.add_0_r; destruct (mk_slice m); reflexivity).
        rewrite Eslice, app_nil_r. split; [|split; [|split]].
        * rewrite set_nth_length. exact O1.
        * intros a Ha. rewrite Hh. auto.
        * intros j m' Hj. apply nth_error_update in Hj. destruct Hj as [(-> & -> & _)|(N & Hj)]; [left; auto|].
          destruct (O3 j m' Hj) as [|((A & B & C) & HH & E)]; [now left|]. right. split; [|split].
          -- split; [now rewrite set_nth_length|]. rewrite Hh. auto.
          -- exact HH.
          -- rewrite <- E. apply elems_eq, Hh.
        * intros j k m1 m2 Hj Hk N. apply nth_error_update in Hj, Hk.
          destruct Hj as [(-> & -> & _)|(N1 & Hj)], Hk as [(-> & -> & _)|(N2 & Hk)]; cbn; eauto; contradiction.
      + destruct OKm as (A & B & C).
        split; [|split; [|split]].
        * rewrite set_nth_length. exact O1.
        * intros a Ha. rewrite cells_set_other by lia. auto.
        * intros j m' Hj. apply nth_error_update in Hj. destruct Hj as [(-> & -> & _)|(N & Hj)].
          -- right. cbn. split; [|split]; [|exact Hown|].
             ++ split; [now rewrite set_nth_length|]. cbn. split; [exact HC|]. rewrite cells_set_same by exact A.
                rewrite write_length by lia. exact C.
             ++ unfold elems. cbn. rewrite cells_set_same by exact A. rewrite write_elems by lia.
                fold (elems h (mk_slice m)). rewrite He. now rewrite app_assoc.
          -- destruct (O3 j m' Hj) as [|((A' & B' & C') & HH & E)]; [now left|]. right.
             assert (sl_arr (mk_slice m) <> sl_arr (mk_slice m')) by (eapply O4; eauto).
             split; [|split]; [|exact HH|].
             ++ split; [now rewrite set_nth_length|]. rewrite cells_set_other by assumption. auto.
             ++ rewrite <- E. apply elems_eq. now apply cells_set_other.
        * intros j k m1 m2 Hj Hk N. apply nth_error_update in Hj, Hk.
          destruct Hj as [(-> & -> & _)|(N1 & Hj)], Hk as [(-> & -> & _)|(N2 & Hk)]; cbn; eauto; contradiction.
    - (* a new array *)
      assert (He : elems h (mk_slice m) = elems h0 s0 ++ mk_done m).
      { destruct (O3 i m Hi) as [(Es & Ed)|(_ & _ & He)]; [|exact He].
        rewrite Es, Ed, app_nil_r. apply elems_eq. apply O2. now destruct OK0. }
      assert (Hlen : length (elems h (mk_slice m)) = sl_len (mk_slice m)).
      { destruct (O3 i m Hi) as [(Es & Ed)|((A & B & C) & _)].
        - rewrite He, Ed, app_nil_r, Es. apply elems_s0_length.
        - unfold elems. rewrite firstn_length_le; [reflexivity|]. rewrite skipn_length. lia. }
      assert (Hold : forall j m', nth_error ms j = Some m' -> sl_arr (mk_slice m') < length h).
      { intros j m' Hj. destruct (O3 j m' Hj) as [(-> & _)|((A & _) & _)]; [destruct OK0; lia | exact A]. }
      split; [|split; [|split]].
      * rewrite app_length. cbn. lia.
      * intros a Ha. rewrite cells_app_old by lia. auto.
      * intros j m' Hj. apply nth_error_update in Hj. destruct Hj as [(-> & -> & _)|(N & Hj)].
        -- right. cbn. split; [|split]; [|exact O1|].
           ++ split; [|split]; cbn; [rewrite app_length; cbn; lia | lia |]. rewrite cells_app_new, !app_length, repeat_length, Hlen. lia.
           ++ set (E := elems h (mk_slice m)) in *. clearbody E. unfold elems at 1. cbn [sl_len sl_off sl_arr skipn]. rewrite cells_app_new. cbn [skipn].
              rewrite (app_assoc E), firstn_app, app_length, Hlen, Nat.sub_diag. cbn [firstn]. rewrite app_nil_r.
              rewrite firstn_all2 by (rewrite app_length, Hlen; lia). rewrite He. now rewrite app_assoc.
        -- destruct (O3 j m' Hj) as [|((A' & B' & C') & HH & E)]; [now left|]. right.
           split; [|split]; [|exact HH|].
           ++ split; [rewrite app_length; cbn; lia|]. rewrite cells_app_old by assumption. auto.
           ++ rewrite <- E. apply elems_eq. now apply cells_app_old.
      * intros j k m1 m2 Hj Hk N. apply nth_error_update in Hj, Hk.
        destruct Hj as [(-> & -> & _)|(N1 & Hj)], Hk as [(-> & -> & _)|(N2 & Hk)]; cbn; try contradiction; eauto.
        -- intros _. apply Hold in Hk. lia.
        -- intros _. apply Hold in Hj. lia.
  Qed.
End Private.

(** If the shared slice has no spare capacity (in particular if it is nil, as
    in cmd/gowrap), every generator sees exactly the shared imports followed by
    its own, whatever the interleaving of the appends and the growth of
    arrays. *)
Theorem C52_imports_partial : forall h0 s0 todos h ms i m,
  slice_ok h0 s0 -> sl_len s0 = sl_cap s0 ->
  asteps (h0, start s0 todos) (h, ms) ->
  nth_error ms i = Some m ->
  elems h (mk_slice m) = elems h0 s0 ++ mk_done m /\
  exists todo, nth_error todos i = Some todo /\ concat todo = mk_done m ++ concat (mk_todo m).
Proof.
  intros h0 s0 todos h ms i m OK FULL HS. remember (h0, start s0 todos) as st0. remember (h, ms) as st.
  revert h ms i m Heqst.
  assert (X : forall h ms, st = (h, ms) -> owns h0 s0 h ms /\
     forall i m, nth_error ms i = Some m -> exists todo, nth_error todos i = Some todo /\ concat todo = mk_done m ++ concat (mk_todo m)).
  { induction HS as [s|s1 s2 s3 HS IH H]; intros h ms E.
    - subst. injection E as <- <-. split.
      + split; [lia|]. split; [auto|]. split.
        * intros i m Hi. unfold start in Hi. rewrite nth_error_map in Hi. destruct (nth_error todos i); [|discriminate]. injection Hi as <-. now left.
        * intros i j m m' Hi _ _ Hge. unfold start in Hi. rewrite nth_error_map in Hi. destruct (nth_error todos i); [|discriminate]. injection Hi as <-.
          cbn in Hge. destruct OK. lia.
      + intros i m Hi. unfold start in Hi. rewrite nth_error_map in Hi. destruct (nth_error todos i) as [t|]; [|discriminate]. injection Hi as <-. exists t. auto.
    - destruct s2 as [h2 ms2]. specialize (IH Heqst0 h2 ms2 eq_refl). destruct IH as (IH1 & IH2). subst s3. split.
      + eapply owns_step; eauto.
      + inversion H as [? ? i m xs rest extra Hi Ht]; subst. intros j m' Hj. apply nth_error_update in Hj.
        destruct Hj as [(-> & -> & _)|(N & Hj)]; [|eauto]. destruct (IH2 i m Hi) as (t & E1 & E2). exists t. split; [exact E1|].
        cbn. rewrite E2, Ht. cbn. now rewrite app_assoc. }
  intros h ms i m E Hi. destruct (X h ms E) as ((O1 & O2 & O3 & O4) & X2). split; [|eauto].
  destruct (O3 i m Hi) as [(Es & Ed)|(_ & _ & He)]; [|exact He].
  rewrite Es, Ed, app_nil_r. unfold elems. rewrite O2; [reflexivity|]. now destruct OK.
Qed.

(** The full claim for slices of any capacity. *)
Definition C52_imports_statement : Prop := forall h0 s0 todos h ms i m,
  slice_ok h0 s0 ->
  asteps (h0, start s0 todos) (h, ms) ->
  nth_error ms i = Some m ->
  elems h (mk_slice m) = elems h0 s0 ++ mk_done m.

(** It fails with spare capacity: two generators made from the same Options
    write into the same cell. *)
Theorem C52_imports_refuted : ~ C52_imports_statement.
Proof.
  intros H.
  specialize (H [["fmt"; ""]] (Slice 0 0 1 2) [[["a"]]; [["b"]]] [["fmt"; "b"]]
    [Maker (Slice 0 0 2 2) ["a"] []; Maker (Slice 0 0 2 2) ["b"] []] 0 (Maker (Slice 0 0 2 2) ["a"] [])).
  assert (X : ["fmt"; "b"] = ["fmt"; "a"]); [|discriminate X].
  apply H; [repeat split; cbn; lia| |reflexivity].
  apply asteps_step with (s2 := ([["fmt"; "a"]], [Maker (Slice 0 0 2 2) ["a"] []; Maker (Slice 0 0 1 2) [] [["b"]]]));
    [eapply asteps_step; [apply asteps_refl|]|].
  - apply (astep_intro [["fmt"; ""]] (start (Slice 0 0 1 2) [[["a"]]; [["b"]]]) 0 (Maker (Slice 0 0 1 2) [] [["a"]]) ["a"] [] 0); reflexivity.
  - apply (astep_intro [["fmt"; "a"]] [Maker (Slice 0 0 2 2) ["a"] []; Maker (Slice 0 0 1 2) [] [["b"]]] 1 (Maker (Slice 0 0 1 2) [] [["b"]]) ["b"] [] 0); reflexivity.
Qed.

(** The premises of [C52_imports_partial] are met by two generators with
    interleaved appends. *)
Example C52_imports_nontrivial : exists h ms,
  asteps ([["fmt"]], start (Slice 0 0 1 1) [[["a"]; ["b"; "c"]]; [["d"]; ["e"]]]) (h, ms) /\
  map (fun m => elems h (mk_slice m)) ms = [["fmt"; "a"; "b"; "c"]; ["fmt"; "d"; "e"]].
Proof.
  eexists. eexists. split.
  - eapply asteps_step; [eapply asteps_step; [eapply asteps_step; [eapply asteps_step; [apply asteps_refl|]|]|]|].
    + eapply (astep_intro _ _ 0 _ _ _ 3); reflexivity.
    + eapply (astep_intro _ _ 1 _ _ _ 0); reflexivity.
    + eapply (astep_intro _ _ 0 _ _ _ 1); reflexivity.
    + eapply (astep_intro _ _ 1 _ _ _ 2); reflexivity.
  - vm_compute. reflexivity.
Qed.

(** ** imports.LocalPrefix *)

Definition C52_prefix_statement : Prop := forall g ps sched s i p u,
  gsteps sched (ginit g ps) s ->
  nth_error (gs_pcs s) i = Some (p, Done u) -> u = p.

(** Two concurrent Generate calls with different prefixes: the first one
    processes its imports with the prefix of the second. *)
Theorem C52_prefix_refuted : ~ C52_prefix_statement.
Proof.
  intros H. specialize (H "" ["a"; "b"] [0; 1; 0] (GState "b" [("a", Done "b"); ("b", Set_)]) 0 "a" "b").
  assert (X : "b" = "a"); [|discriminate X]. apply H; [|reflexivity].
  change [0; 1; 0] with ((([] ++ [0]) ++ [1]) ++ [0]).
  eapply gsteps_snoc; [eapply gsteps_snoc; [eapply gsteps_snoc; [apply gsteps_nil|]|]|].
  - apply (g_set 0 _ "a"). reflexivity.
  - apply (g_set 1 _ "b"). reflexivity.
  - apply (g_process 0 (GState "b" [("a", Set_); ("b", Set_)]) "a"). reflexivity.
Qed.

(** What holds for every schedule: a generator uses the prefix set last before
    it processed, i.e. its own when no generator with another prefix set the
    variable in between.  [between sched i k]: the steps after the first
    step of [i] and before position k. *)
Definition starts (sched : list nat) (k j : nat) : Prop :=   (* position k is the first step of j *)
  nth_error sched k = Some j /\ ~ In j (firstn k sched).

Definition C52_prefix_at (ps : list string) (sched : list nat) (i : nat) (u : string) : Prop :=
  exists k1 k2 p, starts sched k1 i /\ nth_error sched k2 = Some i /\ k1 < k2 /\ nth_error ps i = Some p /\
    ((forall k j q, k1 < k < k2 -> starts sched k j -> nth_error ps j = Some q -> q = p) -> u = p).

(* invariant *)
Definition ginv (ps : list string) (sched : list nat) (s : gstate) : Prop :=
  length (gs_pcs s) = length ps /\
  (forall i p c, nth_error (gs_pcs s) i = Some (p, c) -> nth_error ps i = Some p /\
     match c with
     | Ready => ~ In i sched
     | Set_ => (exists k1, starts sched k1 i) /\ (forall k1 k, starts sched k1 i -> k1 < k -> nth_error sched k <> Some i) /\
               (forall k1, starts sched k1 i ->
                  (forall k j q, k1 < k -> starts sched k j -> nth_error ps j = Some q -> q = p) -> gs_global s = p)
     | Done u => C52_prefix_at ps sched i u
     end).

Lemma starts_app sched x k j : k < length sched -> starts (sched ++ x) k j <-> starts sched k j.
Proof.
  intros H. unfold starts. rewrite nth_error_app1 by exact H.
  replace (firstn k (sched ++ x)) with (firstn k sched); [tauto|]. rewrite firstn_app. replace (k - length sched) with 0 by lia.
  cbn. now rewrite app_nil_r.
Qed.
Lemma starts_last sched i j : starts (sched ++ [i]) (length sched) j <-> j = i /\ ~ In i sched.
Proof.
  unfold starts. rewrite nth_error_app2, Nat.sub_diag by lia. cbn. rewrite firstn_app, Nat.sub_diag, firstn_all. cbn. rewrite app_nil_r.
  split; [intros ([= ->] & H); auto | intros (-> & H); auto].
Qed.
Lemma starts_lt sched k j : starts sched k j -> k < length sched.
Proof. intros (H & _). apply nth_error_Some. congruence. Qed.
Lemma starts_unique sched k k' j : starts sched k j -> starts sched k' j -> k = k'.
Proof.
  assert (X : forall k k', starts sched k j -> starts sched k' j -> k < k' -> False).
  { intros a b (H1 & _) (_ & H2) L. apply H2. eapply nth_error_In with (n := a).
    assert (La : a < length sched) by (apply nth_error_Some; congruence).
    rewrite <- (firstn_skipn b sched) in H1. rewrite nth_error_app1 in H1; [exact H1|]. rewrite firstn_length. lia. }
  intros H1 H2. destruct (Nat.lt_trichotomy k k') as [|[|]]; auto; exfalso; eauto.
Qed.

Lemma prefix_at_app ps sched i u x : C52_prefix_at ps sched i u -> C52_prefix_at ps (sched ++ [x]) i u.
Proof.
  intros (k1 & k2 & p & S1 & S2 & L & Hp & H). pose proof (starts_lt _ _ _ S1) as L1.
  assert (L2 : k2 < length sched) by (apply nth_error_Some; congruence).
  exists k1, k2, p. split; [now apply starts_app|]. split; [now rewrite nth_error_app1|]. split; [exact L|]. split; [exact Hp|].
  intros Hq. apply H. intros k j q Hk Hs Hj. apply (Hq k j q Hk); [|exact Hj]. apply starts_app; [lia | exact Hs].
Qed.

Lemma gstep_inv ps sched s i s' : ginv ps sched s -> gstep i s s' -> ginv ps (sched ++ [i]) s'.
Proof.
  intros (HL & HI) H. inversion H as [? ? p Hi|? ? p Hi]; subst.
  - assert (Li : i < length (gs_pcs s)) by (apply nth_error_Some; congruence).
    destruct (HI _ _ _ Hi) as (Hpi & Hni).
    split; [cbn; rewrite update_length; exact HL|]. intros j q c Hj. cbn in Hj. apply nth_error_update in Hj.
    destruct Hj as [(-> & [= -> ->] & _)|(N & Hj)].
    + split; [exact Hpi|]. split; [|split].
      * exists (length sched). now apply starts_last.
      * intros k1 k Hs Hk E. assert (k < length (sched ++ [i])) by (apply nth_error_Some; congruence). rewrite app_length in H0. cbn in H0.
        assert (k1 = length sched) by (eapply starts_unique; [exact Hs | now apply starts_last]). lia.
      * intros. reflexivity.
    + destruct (HI _ _ _ Hj) as (Hp & HC). split; [exact Hp|]. destruct c as [| |u].
      * rewrite in_app_iff. cbn. intuition.
      * destruct HC as ((k1 & Hk1) & H2 & H3). pose proof (starts_lt _ _ _ Hk1) as Lk. split; [|split].
        -- exists k1. now apply starts_app.
        -- intros k1' k Hs Hk E. assert (k1' = k1) by (eapply starts_unique; [exact Hs | now apply starts_app]). subst k1'.
           assert (k < length (sched ++ [i])) by (apply nth_error_Some; congruence). rewrite app_length in H0. cbn in H0.
           destruct (Nat.eq_dec k (length sched)) as [->|].
           ++ rewrite nth_error_app2, Nat.sub_diag in E by lia. cbn in E. congruence.
           ++ rewrite nth_error_app1 in E by lia. eapply H2; eauto.
        -- intros k1' Hs Hq. cbn. assert (k1' = k1) by (eapply starts_unique; [exact Hs | now apply starts_app]). subst k1'.
           apply (Hq (length sched) i); [exact Lk | now apply starts_last | exact Hpi].
      * now apply prefix_at_app.
  - assert (Li : i < length (gs_pcs s)) by (apply nth_error_Some; congruence).
    destruct (HI _ _ _ Hi) as (Hpi & (k1 & Hk1) & H2 & H3). pose proof (starts_lt _ _ _ Hk1) as Lk.
    split; [cbn; rewrite update_length; exact HL|]. intros j q c Hj. cbn in Hj. apply nth_error_update in Hj.
    destruct Hj as [(-> & [= -> ->] & _)|(N & Hj)].
    + split; [exact Hpi|]. exists k1, (length sched), p. split; [now apply starts_app|]. split; [rewrite nth_error_app2, Nat.sub_diag by lia; reflexivity|].
      split; [exact Lk|]. split; [exact Hpi|]. intros Hq. apply (H3 k1 Hk1). intros k j q Hk Hs Hj.
      pose proof (starts_lt _ _ _ Hs). apply (Hq k j q); [lia | now apply starts_app | exact Hj].
    + destruct (HI _ _ _ Hj) as (Hp & HC). split; [exact Hp|]. destruct c as [| |u].
      * rewrite in_app_iff. cbn. intuition.
      * destruct HC as ((k2 & Hk2) & H2' & H3'). pose proof (starts_lt _ _ _ Hk2) as Lk2. split; [|split].
        -- exists k2. now apply starts_app.
        -- intros k1' k Hs Hk E. assert (k1' = k2) by (eapply starts_unique; [exact Hs | now apply starts_app]). subst k1'.
           assert (k < length (sched ++ [i])) by (apply nth_error_Some; congruence). rewrite app_length in H0. cbn in H0.
           destruct (Nat.eq_dec k (length sched)) as [->|].
           ++ rewrite nth_error_app2, Nat.sub_diag in E by lia. cbn in E. congruence.
           ++ rewrite nth_error_app1 in E by lia. eapply H2'; eauto.
        -- intros k1' Hs Hq. cbn. assert (k1' = k2) by (eapply starts_unique; [exact Hs | now apply starts_app]). subst k1'.
           apply (H3' k2 Hk2). intros k j' q' Hk Hs' Hj'. pose proof (starts_lt _ _ _ Hs'). apply (Hq k j' q'); [exact Hk | now apply starts_app | exact Hj'].
      * now apply prefix_at_app.
Qed.

Lemma ginv_steps g ps sched s : gsteps sched (ginit g ps) s -> ginv ps sched s.
Proof.
  intros H. remember (ginit g ps) as s0. induction H as [s|l i s1 s2 s3 H IH Hs].
  - subst. split; [cbn; apply map_length|]. intros i p c Hi. cbn in Hi. rewrite nth_error_map in Hi.
    destruct (nth_error ps i) eqn:E; [|discriminate]. injection Hi as <- <-. auto.
  - subst. eapply gstep_inv; eauto.
Qed.

(** A generator that processed its imports used its own prefix, unless another
    generator with a different prefix set the variable between its two steps. *)
Theorem C52_prefix_exact_partial : forall g ps sched s i p u,
  gsteps sched (ginit g ps) s -> nth_error (gs_pcs s) i = Some (p, Done u) ->
  nth_error ps i = Some p /\ C52_prefix_at ps sched i u.
Proof. intros g ps sched s i p u H Hi. destruct (ginv_steps _ _ _ _ H) as (_ & HI). exact (HI _ _ _ Hi). Qed.

(** In particular: equal prefixes are always safe ... *)
Corollary C52_prefix_same_partial : forall g p0 n sched s i p u,
  gsteps sched (ginit g (repeat p0 n)) s -> nth_error (gs_pcs s) i = Some (p, Done u) -> u = p0.
Proof.
  intros g p0 n sched s i p u H Hi. destruct (C52_prefix_exact_partial _ _ _ _ _ _ _ H Hi) as (Hp & k1 & k2 & q & _ & _ & _ & Hq & HX).
  assert (R : forall j r, nth_error (repeat p0 n) j = Some r -> r = p0) by (intros j r Hr; apply nth_error_In in Hr; now apply repeat_spec in Hr).
  rewrite (HX); [now apply (R i)|]. intros k j r _ _ Hj. rewrite (R j r Hj), (R i q Hq). reflexivity.
Qed.

(** ... and so are generators running one after the other. *)
Corollary C52_prefix_serial_partial : forall g ps order s i p u,
  gsteps (flat_map (fun j => [j; j]) order) (ginit g ps) s -> NoDup order ->
  nth_error (gs_pcs s) i = Some (p, Done u) -> u = p.
Proof.
  intros g ps order s i p u H HD Hi.
  destruct (C52_prefix_exact_partial _ _ _ _ _ _ _ H Hi) as (Hp & k1 & k2 & q & S1 & S2 & L & Hq & HX).
  assert (q = p) by congruence. subst q. apply HX. intros k j r Hk (Sj & Nj) Hr. exfalso.
  assert (X : forall n, nth_error (flat_map (fun j => [j; j]) order) n = nth_error order (n / 2)).
  { clear. induction order as [|a l IH]; intros n.
    - cbn [flat_map]. now destruct (n / 2), n.
    - destruct n as [|[|n]]; [reflexivity|reflexivity|].
      change (nth_error (flat_map (fun j => [j; j]) (a :: l)) (S (S n))) with (nth_error (flat_map (fun j => [j; j]) l) n).
      rewrite IH. replace (S (S n)) with (n + 1 * 2) by lia. rewrite Nat.div_add by lia. rewrite Nat.add_1_r. reflexivity. }
  destruct S1 as (S1 & _). rewrite X in S1, S2, Sj.
  assert (E : k1 / 2 = k2 / 2).
  { apply (proj1 (NoDup_nth_error order) HD); [apply nth_error_Some; congruence | congruence]. }
  pose proof (Nat.div_mod k1 2 ltac:(lia)). pose proof (Nat.div_mod k2 2 ltac:(lia)).
  pose proof (Nat.mod_upper_bound k1 2 ltac:(lia)). pose proof (Nat.mod_upper_bound k2 2 ltac:(lia)). lia.
Qed.

Example C52_prefix_nontrivial : exists s,
  gsteps (flat_map (fun j => [j; j]) [1; 0]) (ginit "" ["a"; "b"]) s /\
  gs_pcs s = [("a", Done "a"); ("b", Done "b")].
Proof.
  eexists. split.
  - change (flat_map (fun j => [j; j]) [1; 0]) with (((([] ++ [1]) ++ [1]) ++ [0]) ++ [0]).
    eapply gsteps_snoc; [eapply gsteps_snoc; [eapply gsteps_snoc; [eapply gsteps_snoc; [apply gsteps_nil|]|]|]|].
    + apply (g_set 1 _ "b"). reflexivity.
    + eapply (g_process 1 _ "b"). reflexivity.
    + eapply (g_set 0 _ "a"). reflexivity.
    + eapply (g_process 0 _ "a"). reflexivity.
  - reflexivity.
Qed.

Print Assumptions C52_imports_partial.
Print Assumptions C52_imports_refuted.
Print Assumptions C52_prefix_refuted.
Print Assumptions C52_prefix_exact_partial.
Print Assumptions C52_prefix_same_partial.
Print Assumptions C52_prefix_serial_partial.
