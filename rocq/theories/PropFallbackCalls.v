(** Property C65: calls of methods generated by templates/fallback.

    The statements are about the events of the machine of Goroutines.v running
    the statements whose tokens the template produces. *)
From Verif Require Import FallbackCalls FallbackProofs PropFallback FallbackProgress PropNaming.
From Verif Require Deco.
From Coq Require Import Permutation.
Open Scope nat_scope.

(** ** Specification *)

(** what is asked of the method and of the call *)
Record fallback_call (m : method) (interval : Z) (zeros args : list cval) : Prop := FallbackCall {
  fc_wf : wf_method m;
  fc_names : hygienic m fallback_ids;
  fc_compiles : m_returnsError m = true -> m_acceptsContext m = true;
  fc_interval : (0 < interval)%Z;
  fc_results : length zeros = length (m_results m);
  fc_args : length args = length (m_params m);
  fc_ctx : m_acceptsContext m = true -> exists r, args = CtxV 0 :: r
}.

(** the receiver: n implementations; the caller's context, not done yet *)
Definition receiver (n : nat) (interval : Z) : cval :=
  RecV [("implementations", SliceV (map ImplV (seq 0 n))); ("interval", IntV interval)].
Definition caller_ctxs (m : method) : list context := if m_acceptsContext m then [Ctx None false] else [].
Definition runs_fallback (m : method) (typ : string) (tname : nat -> string) (ctx_text : string) (n : nat) (interval : Z) (zeros args : list cval) :
  list event -> gstate -> Prop :=
  executes m tname ctx_text (fallback_body typ m) (caller_ctxs m) (receiver n interval) zeros args.

(** the arguments an implementation gets: the call's, with the derived context *)
Definition passed_on (m : method) (args : list cval) : list cval :=
  if m_acceptsContext m then CtxV 1 :: tl args else args.

(** implementation [i] returned [vs] / without an error / with error [e] *)
Definition answers (evs : list event) (i : nat) (vs : list cval) : Prop := exists t, In (Answered t i vs) evs.
Definition without_error (m : method) (vs : list cval) : Prop := m_returnsError m = true -> last vs NilV = NilV.
Definition fails (m : method) (evs : list event) (i : nat) (e : string) : Prop :=
  m_returnsError m = true /\ exists vs, answers evs i vs /\ last vs NilV = ErrV e.

Definition with_error (zeros : list cval) (t : string) : list cval := removelast zeros ++ [ErrV t].

Definition is_call (i : nat) (ev : event) : bool := match ev with Called _ j _ => Nat.eqb i j | _ => false end.
Definition is_any_call (ev : event) : bool := match ev with Called _ _ _ => true | _ => false end.
Definition is_ticked (ev : event) : bool := match ev with Ticked _ => true | _ => false end.
(** the caller takes a result with an error *)
Definition is_failed (m : method) (ev : event) : bool :=
  match ev with
  | Passed _ 0 (RecV l) => m_returnsError m && match last l ("", NilV) with (_, ErrV _) => true | _ => false end
  | _ => false
  end.
(** the goroutines started, with who started them *)
Fixpoint spawned_in (evs : list event) : list (nat * nat) :=
  match evs with [] => [] | Spawned t u :: r => (t, u) :: spawned_in r | _ :: r => spawned_in r end.

(** ** Proofs *)
Section TRANSFER.
Variable m : method.
Variable args : list cval.
Notation V := (list cval).
Notation means := (means m args).
Notation meanings := (meanings m args).

Lemma meanings_out : forall evs ls x, meanings evs ls -> In x ls -> exists ev ls', In ev evs /\ means ev ls' /\ In x ls'.
Proof.
  intros evs ls x H. induction H as [|ev evs ls ls' _ IH Hm]; intros Hx; [destruct Hx|]. apply in_app_or in Hx as [Hx|Hx].
  - destruct (IH Hx) as (ev' & l' & A & B & C). exists ev', l'. repeat split; auto. apply in_or_app. now left.
  - exists ev, ls'. repeat split; auto. apply in_or_app. right. now left.
Qed.
Lemma meanings_into : forall evs ls ev, meanings evs ls -> In ev evs -> exists ls', means ev ls' /\ incl ls' ls.
Proof.
  intros evs ls ev H. induction H as [|ev' evs ls ls' _ IH Hm]; intros Hx; [destruct Hx|]. apply in_app_or in Hx as [Hx|[->|[]]].
  - destruct (IH Hx) as (l' & A & B). exists l'. split; [exact A|]. intros z Hz. apply in_or_app. left. now apply B.
  - exists ls'. split; [exact Hm|]. intros z Hz. apply in_or_app. now right.
Qed.
Lemma meanings_count : forall (F : event -> bool) (f : label V -> bool), (forall ev (ls : list (label V)), means ev ls -> (if F ev then 1 else 0) = count f ls) ->
  forall evs ls, meanings evs ls -> length (filter F evs) = count f ls.
Proof.
  intros F f H evs ls Hm. induction Hm as [|ev evs ls ls' _ IH Hm]; [reflexivity|].
  unfold count in *. rewrite !filter_app, !app_length, IH. f_equal. cbn. rewrite <- (H _ _ Hm). now destruct (F ev).
Qed.
End TRANSFER.

Section CALLS.
Variable m : method.
Variable typ : string.
Variable tname : nat -> string.
Variable ctx_text : string.
Variable n : nat.
Variable interval : Z.
Variables zeros args : list cval.
Hypothesis OK : fallback_call m interval zeros args.
Notation V := (list cval).
Notation runs := (runs_fallback m typ tname ctx_text n interval zeros args).
Notation lts := (@step V (m_acceptsContext m) (m_returnsError m) n tname ctx_text).
Notation rel := (relates m typ tname ctx_text n interval zeros args).

Lemma zeros_rs : length zeros = length (cresults m).
Proof. unfold cresults. rewrite map_length. apply OK. Qed.
Lemma args_ps : length args = length (cparams m).
Proof. unfold cparams. rewrite map_length. apply OK. Qed.
Lemma compiles : m_acceptsContext m = true \/ m_returnsError m = false.
Proof. destruct (m_returnsError m) eqn:E; [left; now apply OK | now right]. Qed.

Lemma tied : forall evs s, runs evs s -> exists ls l, meanings m args evs ls /\ run lts (init n) ls l /\ rel s l.
Proof. intros evs s H. apply (fallback_simulated m typ tname ctx_text n interval zeros args); try apply OK; [apply zeros_rs | apply args_ps | exact H]. Qed.

Lemma answered_typed : forall evs s t i vs, runs evs s -> In (Answered t i vs) evs -> answer_typed m vs.
Proof.
  intros evs s t i vs H. revert t i vs. refine (run_inv _ (fun evs s => forall t i vs, In (Answered t i vs) evs -> answer_typed m vs) _ _ _ _ _ H); [contradiction|].
  clear. intros evs s ev s' _ IH Hs t i vs Hin. apply in_app_or in Hin as [Hin|[->|[]]]; [eauto|]. now inversion Hs.
Qed.
Lemma classify_good : forall vs v, classify m vs = Good v -> v = vs.
Proof. intros vs v. unfold classify. destruct (m_returnsError m); [|congruence]. destruct (last vs NilV); congruence. Qed.
Lemma classify_good_error : forall vs v, answer_typed m vs -> classify m vs = Good v -> without_error m vs.
Proof.
  intros vs v [_ Ht] Hc He. destruct (Ht He) as [E | (e & E)]; [exact E|]. unfold classify in Hc. rewrite He, E in Hc. discriminate.
Qed.
Lemma classify_bad : forall vs e, classify m vs = Bad e -> m_returnsError m = true /\ last vs NilV = ErrV e.
Proof. intros vs e. unfold classify. destruct (m_returnsError m); [|discriminate]. destruct (last vs NilV); try discriminate. intros E. injection E as ->. auto. Qed.

Lemma main_returns : forall ls l a, run lts (init n) ls l -> main l = MDone a -> In (Returns a) ls.
Proof.
  intros ls l a H. refine (run_inv _ (fun ls l => main l = MDone a -> In (Returns a) ls) _ _ _ _ _ H); [discriminate|].
  clear. intros ls l lb l' _ IH Hs E. destruct Hs; cbn in E; try (apply in_snoc, IH; congruence); try discriminate; try (rewrite H in *; discriminate).
  - unfold received in E. destruct r; [|discriminate]. destruct (m_acceptsContext m); discriminate.
  - destruct (Nat.eqb _ _) in E; discriminate.
  - injection E as ->. apply in_snoc_last.
Qed.

Lemma with_error_eq : forall t, m_returnsError m = true -> with_err m zeros t = with_error zeros t.
Proof.
  intros t He. unfold with_err, with_error. destruct (wf_err m (fc_wf _ _ _ _ OK) He) as (r & p & E & _).
  pose proof zeros_rs as Hz. destruct (@exists_last _ zeros) as (z & a & ->).
  { intros ->. unfold cresults in Hz. rewrite E, map_app, app_length in Hz. cbn in Hz. lia. }
  rewrite removelast_last, <- Hz, app_length. cbn. replace (length z + 1 - 1) with (length z + 0) by lia. now rewrite upd_app2.
Qed.
End CALLS.

(** *** The statements executed are the generated ones *)
Theorem C65_body : forall dec typ m,
  fallback_method dec typ m = fallback_header dec m ++ TP "{" :: cbody m (fallback_body typ m) ++ [TP "}"].
Proof. exact fallback_method_tokens. Qed.

(** *** No goroutine panics, whatever is interleaved *)
Theorem C65_no_panic : forall m typ tname ctx_text n interval zeros args evs s t,
  fallback_call m interval zeros args -> runs_fallback m typ tname ctx_text n interval zeros args evs s ->
  advance m tname ctx_text (result_locs m) t s <> Fault.
Proof.
  intros m typ tname ctx_text n interval zeros args evs s t OK H. destruct (tied m typ tname ctx_text n interval zeros args OK _ _ H) as (ls & l & _ & _ & R).
  apply (never_faults m typ tname ctx_text n interval zeros args) with (l := l); try apply OK; [eapply zeros_rs; exact OK | eapply args_ps; exact OK | exact R].
Qed.

(** *** Every execution is one of the transition system *)
Theorem C65_simulated : forall m typ tname ctx_text n interval zeros args evs s,
  fallback_call m interval zeros args -> runs_fallback m typ tname ctx_text n interval zeros args evs s ->
  exists ls l, meanings m args evs ls /\
    run (@step (list cval) (m_acceptsContext m) (m_returnsError m) n tname ctx_text) (init n) ls l /\
    (forall vs, returned m s vs -> exists a, main l = MDone a /\ vs = results_of m zeros a).
Proof.
  intros m typ tname ctx_text n interval zeros args evs s OK H. destruct (tied m typ tname ctx_text n interval zeros args OK _ _ H) as (ls & l & A & B & C).
  exists ls, l. repeat split; auto. intros vs Hv. eapply returned_answer; eauto.
Qed.

(** *** What the call returns *)
Theorem C65_answer : forall m typ tname ctx_text n interval zeros args evs s vs,
  fallback_call m interval zeros args -> runs_fallback m typ tname ctx_text n interval zeros args evs s -> returned m s vs ->
  (exists i, i < n /\ answers evs i vs /\ without_error m vs) \/
  (exists l, Permutation (map fst l) (seq 0 n) /\ (forall i e, In (i, e) l -> fails m evs i e) /\
     m_returnsError m = true /\ vs = with_error zeros (join ";" (map (fun ie => (tname (fst ie) ++ ": " ++ snd ie)%string) l))) \/
  (m_acceptsContext m = true /\ In CallerDone evs /\
     if m_returnsError m then exists l, vs = with_error zeros (ctx_text ++ ": " ++ l) else vs = zeros).
Proof.
  intros m typ tname ctx_text n interval zeros args evs s vs OK H Hr.
  destruct (tied m typ tname ctx_text n interval zeros args OK _ _ H) as (ls & l & A & B & C).
  destruct (returned_answer _ _ _ _ _ _ _ _ _ _ _ C Hr) as (a & Ea & ->). pose proof (main_returns _ _ _ _ _ _ _ B Ea) as Hin.
  assert (G : forall i r, In (ImplDone i r) ls -> exists ws, answers evs i ws /\ r = classify m ws /\ answer_typed m ws).
  { intros i r Hi. destruct (meanings_out _ _ _ _ _ A Hi) as (ev & ls' & P & Q & R). inversion Q; subst; cbn in R; try (intuition discriminate).
    destruct R as [R|[]]. injection R as <- <-. exists vs. split; [eexists; eauto | split; [reflexivity|]]. eapply answered_typed; eauto. }
  assert (G2 : In CtxDone ls -> In CallerDone evs).
  { intros Hi. destruct (meanings_out _ _ _ _ _ A Hi) as (ev & ls' & P & Q & R). inversion Q; subst; cbn in R; intuition discriminate. }
  destruct (m_returnsError m) eqn:He.
  - pose proof (fc_compiles _ _ _ _ OK He) as Hc. rewrite Hc in B. pose proof (C34_answer _ _ _ _ _ _ _ _ B Hin) as W.
    destruct a as [v|t|t].
    + destruct W as (i & Hi & W). destruct (G _ _ W) as (ws & Ha & Ec & Ht). symmetry in Ec. pose proof (classify_good _ _ _ Ec) as ->. left. exists i. repeat split; auto. eapply classify_good_error; eauto.
    + destruct W as (L & (P1 & P2 & _) & ->). right. left. exists L. split; [exact P1|]. split; [|split; [reflexivity|]].
      * intros i e Hie. destruct (G _ _ (P2 _ _ Hie)) as (ws & Ha & Ec & Ht). symmetry in Ec. apply classify_bad in Ec as [_ Ec]. split; [exact He|]. eauto.
      * cbn [results_of]. rewrite (with_error_eq _ interval _ args OK) by exact He. reflexivity.
    + right. right. split; [exact Hc|]. split; [now apply G2|].
      assert (exists x, t = (ctx_text ++ ": " ++ x)%string) as (x & ->).
      { clear -B Hin. assert (K : forall t, (main l = MCancel (CtxErr t) \/ main l = MStop (CtxErr t) \/ main l = MDone (CtxErr t) \/ In (Returns (CtxErr t)) ls) -> exists x, t = (ctx_text ++ ": " ++ x)%string).
        { refine (run_inv _ (fun ls l => forall t, (main l = MCancel (CtxErr t) \/ main l = MStop (CtxErr t) \/ main l = MDone (CtxErr t) \/ In (Returns (CtxErr t)) ls) -> exists x, t = (ctx_text ++ ": " ++ x)%string) _ _ _ _ _ B).
          - cbn. intros t0 [|[|[|[]]]]; discriminate.
          - clear. intros ls l lb l' _ IH Hs t [E | [E | [E | E]]].
            + destruct Hs; cbn in E; try (eapply IH; eauto; fail); try discriminate.
              * unfold received in E. destruct r; discriminate.
              * injection E as <-. exists (joined (errorsList s)). reflexivity.
              * destruct (Nat.eqb _ _) in E; discriminate.
            + destruct Hs; cbn in E; try (eapply IH; eauto; fail); try discriminate.
              * unfold received in E. destruct r; discriminate.
              * destruct (Nat.eqb _ _) in E; discriminate.
              * injection E as ->. eapply IH; eauto.
            + destruct Hs; cbn in E; try (eapply IH; eauto; fail); try discriminate.
              * unfold received in E. destruct r; discriminate.
              * destruct (Nat.eqb _ _) in E; discriminate.
              * injection E as ->. eapply IH; eauto.
            + apply in_app_or in E as [E|[->|[]]]; [eapply IH; eauto|]. inversion Hs; subst. eapply IH; eauto. }
        apply K. auto. }
      exists x. cbn [results_of]. rewrite He. now rewrite (with_error_eq _ interval _ args OK) by exact He.
  - pose proof (C34_answer_no_error _ _ _ _ _ _ _ _ B Hin) as W. destruct a as [v|t|t]; [|destruct W|].
    + destruct W as (i & Hi & W). destruct (G _ _ W) as (ws & Ha & Ec & Ht). symmetry in Ec. pose proof (classify_good _ _ _ Ec) as ->. left. exists i. repeat split; auto. eapply classify_good_error; eauto.
    + destruct W as [Hc W]. right. right. repeat split; auto. cbn [results_of]. now rewrite He.
Qed.

(** *** Which implementations are called, and how *)
Theorem C65_calls : forall m typ tname ctx_text n interval zeros args evs s,
  fallback_call m interval zeros args -> runs_fallback m typ tname ctx_text n interval zeros args evs s ->
  (forall t i vs, In (Called t i vs) evs -> i < n /\ vs = passed_on m args) /\
  (forall i, length (filter (is_call i) evs) <= 1).
Proof.
  intros m typ tname ctx_text n interval zeros args evs s OK H.
  destruct (tied m typ tname ctx_text n interval zeros args OK _ _ H) as (ls & l & A & B & C). pose proof (compiles _ _ _ _ OK) as K. split.
  - intros t i vs Hin. destruct (meanings_into _ _ _ _ _ A Hin) as (ls' & Q & R). inversion Q; subst. split; [|reflexivity].
    pose proof (begins_inv _ _ _ _ _ _ _ _ B i) as Hb. assert (In (Begin i) ls) as Hi by (apply R; now left).
    destruct (nth_error (impls l) i) as [p|] eqn:E.
    + apply nth_lt in E. destruct (inv_run _ _ _ _ _ K _ _ B) as ((L & _) & _). lia.
    + exfalso. unfold count in Hb. assert (In (Begin i) (filter (is_begin i) ls)) as Hf by (apply filter_In; split; [exact Hi | cbn; apply Nat.eqb_refl]).
      destruct (filter (is_begin i) ls); [destruct Hf | discriminate].
  - intros i. rewrite (meanings_count m args (is_call i) (is_begin i)) with (ls := ls); [apply (C35_called_once _ _ _ _ _ _ _ _ i K B) | | exact A].
    clear. intros ev ls H. inversion H; subst; try reflexivity. cbn. now destruct (Nat.eqb i i0).
Qed.

(** goroutines are numbered as they are created *)
Lemma spawned_app : forall a c, spawned_in (a ++ c) = spawned_in a ++ spawned_in c.
Proof. induction a as [|x a IH]; intros c; [reflexivity|]. destruct x; cbn; rewrite ?IH; reflexivity. Qed.
Lemma spawned_numbers : forall m typ tname ctx_text n interval zeros args evs s,
  runs_fallback m typ tname ctx_text n interval zeros args evs s ->
  length (g_gos s) = S (length (spawned_in evs)) /\ map snd (spawned_in evs) = seq 1 (length (spawned_in evs)).
Proof.
  intros m typ tname ctx_text n interval zeros args evs s H.
  refine (run_inv _ (fun evs s => length (g_gos s) = S (length (spawned_in evs)) /\ map snd (spawned_in evs) = seq 1 (length (spawned_in evs))) _ _ _ _ _ H); [now split|].
  clear. intros evs s ev s' _ (A & B) Hs. rewrite spawned_app.
  assert (T : forall t b v e k ds s, length (g_gos (Goroutines.take t b v e k ds s)) = length (g_gos s)).
  { clear. intros t [[x|] l] v e k ds s; cbn; now rewrite upd_length. }
  destruct Hs; cbn [spawned_in]; rewrite ?app_nil_r; unfold set_chans; rewrite ?T; cbn [g_gos set_go set_mem set_chans set_tickers set_ctxs to]; rewrite ?upd_length; try (split; [exact A | exact B]).
  - rewrite (local_gos _ _ _ _ _ _ _ H). now split.
  - rewrite !app_length, upd_length, map_app, B. cbn [length map snd]. rewrite !Nat.add_1_r, seq_S, A. split; [lia | reflexivity].
Qed.

(** *** Goroutines started: the launcher by the caller, then one for each
    implementation by the launcher, in order; all but the first of these are
    paid for by a tick or by a result with an error *)
Theorem C65_launches : forall m typ tname ctx_text n interval zeros args evs s,
  fallback_call m interval zeros args -> runs_fallback m typ tname ctx_text n interval zeros args evs s ->
  exists k, k <= S n /\ spawned_in evs = firstn k ((0, 1) :: map (fun i => (1, 2 + i)) (seq 0 n)) /\
    length (filter is_any_call evs) <= k - 1 /\ k - 1 <= 1 + length (filter is_ticked evs) + length (filter (is_failed m) evs).
Proof.
  intros m typ tname ctx_text n interval zeros args evs s OK H.
  destruct (tied m typ tname ctx_text n interval zeros args OK _ _ H) as (ls & l & A & B & C). pose proof (compiles _ _ _ _ OK) as K.
  destruct (C35_launch_order _ _ _ _ _ _ _ _ K B) as (k & Hk & Hl). destruct (C35_paid _ _ _ _ _ _ _ _ K B) as [P1 P2].
  rewrite count_launches, Hl, seq_length in P1, P2.
  assert (LA : forall (a c : list (label (list cval))), launched_in (a ++ c) = launched_in a ++ launched_in c).
  { clear. induction a as [|x a IH]; intros c; [reflexivity|]. destruct x; cbn; rewrite ?IH; reflexivity. }
  assert (E1 : filter (fun p => Nat.eqb (fst p) 1) (spawned_in evs) = map (fun i => (1, 2 + i)) (seq 0 k)).
  { rewrite <- Hl. clear -A LA. induction A as [|ev evs ls ls' _ IH Hm]; [reflexivity|]. rewrite spawned_app, LA, filter_app, map_app, IH. f_equal. inversion Hm; subst; reflexivity. }
  assert (E2 : Forall (fun p => p = (0, 1) \/ exists i, p = (1, 2 + i)) (spawned_in evs)).
  { clear -A. induction A as [|ev evs ls ls' _ IH Hm]; [constructor|]. rewrite spawned_app. apply Forall_app. split; [exact IH|]. inversion Hm; subst; cbn; repeat (apply Forall_cons || apply Forall_nil); eauto. }
  destruct (spawned_numbers _ _ _ _ _ _ _ _ _ _ H) as [_ E3].
  assert (E4 : spawned_in evs = map (fun u => (if Nat.eqb u 1 then 0 else 1, u)) (seq 1 (length (spawned_in evs)))).
  { clear -E2 E3. rewrite <- E3 at 1. rewrite map_map. rewrite <- (map_id (spawned_in evs)) at 1. apply map_ext_in.
    intros [t u] Hin. rewrite Forall_forall in E2. destruct (E2 _ Hin) as [E | (i & E)]; injection E as -> ->; reflexivity. }
  assert (E5 : length (spawned_in evs) - 1 = k).
  { assert (length (filter (fun p => Nat.eqb (fst p) 1) (spawned_in evs)) = length (spawned_in evs) - 1) as <-; [|now rewrite E1, map_length, seq_length].
    clear -E4. remember (length (spawned_in evs)) as j eqn:Ej. clear Ej. rewrite E4. clear E4. destruct j as [|j]; [reflexivity|]. cbn. rewrite Nat.sub_0_r.
    assert (G : forall j a, 2 <= a -> length (filter (fun p => Nat.eqb (fst p) 1) (map (fun u => (if Nat.eqb u 1 then 0 else 1, u)) (seq a j))) = j); [|apply G; lia].
    clear. induction j as [|j IH]; intros a Ha; [reflexivity|]. cbn. destruct (Nat.eqb_spec a 1); [lia|]. cbn. f_equal. apply IH. lia. }
  exists (length (spawned_in evs)). split; [lia|]. split.
  { rewrite E4 at 1. destruct (length (spawned_in evs)) as [|j]; [reflexivity|]. cbn in E5. rewrite Nat.sub_0_r in E5. subst j. cbn [seq map firstn]. f_equal.
    rewrite firstn_map. assert (firstn k (seq 0 n) = seq 0 k) as ->.
    { replace n with (k + (n - k)) by lia. rewrite seq_app, firstn_app, seq_length, Nat.sub_diag. cbn. rewrite app_nil_r. apply firstn_all2. now rewrite seq_length. }
    rewrite <- (seq_shift k 1), <- (seq_shift k 0), !map_map. apply map_ext. reflexivity. }
  rewrite E5. split.
  - rewrite (meanings_count m args is_any_call is_any_begin) with (ls := ls); [exact P1 | | exact A]. clear. intros ev ls H. inversion H; subst; reflexivity.
  - rewrite (meanings_count m args is_ticked is_tick) with (ls := ls); [|clear; intros ev ls H; inversion H; subst; reflexivity | exact A].
    rewrite (meanings_count m args (is_failed m) is_failure) with (ls := ls); [exact P2 | | exact A].
    clear P1 P2. intros ev ls0 Hm. inversion Hm as [| | | | | | | i vs Ht | | | | | | | | | | | |]; subst; try reflexivity.
    unfold is_failed, record, count. cbn [filter is_failure].
    destruct (m_returnsError m) eqn:He; unfold classify; rewrite He; cbn [andb]; [|reflexivity].
    pose proof (typed_length m vs Ht) as Hlen. destruct (wf_err m (fc_wf _ _ _ _ OK) He) as (r & p & E & _).
    destruct (@exists_last _ vs) as (vs' & v & ->).
    { intros ->. unfold cresults in Hlen. rewrite E, map_app, app_length in Hlen. cbn in Hlen. lia. }
    assert (cresults m = map p_name r ++ [p_name p]) as Er by (unfold cresults; rewrite E; apply map_app).
    rewrite Er in *. rewrite !app_length in Hlen. cbn in Hlen.
    assert (combine (map p_name r ++ [p_name p]) (vs' ++ [v]) = combine (map p_name r) vs' ++ [(p_name p, v)]) as ->.
    { clear -Hlen. assert (length vs' = length (map p_name r)) as H by lia. revert vs' H Hlen. induction (map p_name r) as [|x xs IH]; intros [|w ws] H Hl; try discriminate; [reflexivity|].
      cbn in *. f_equal. apply IH; lia. }
    rewrite !last_last. now destruct v.
Qed.

(** *** With a context the call is never stuck: some goroutine of it can go on,
    or an implementation is running *)
Theorem C65_no_deadlock : forall m typ tname ctx_text n interval zeros args evs s,
  fallback_call m interval zeros args -> m_acceptsContext m = true -> 0 < n ->
  runs_fallback m typ tname ctx_text n interval zeros args evs s -> nth_error (g_gos s) 0 <> Some Ended ->
  (exists ev s', gstep m tname ctx_text (result_locs m) s ev s' /\ own ev = true) \/
  (exists t i e r k ds, nth_error (g_gos s) t = Some (InCall i e r k ds)).
Proof.
  intros m typ tname ctx_text n interval zeros args evs s OK Hc Hn H HE. destruct (tied m typ tname ctx_text n interval zeros args OK _ _ H) as (ls & l & _ & B & C).
  apply (progress m typ tname ctx_text n interval zeros args) with (ls := ls) (l := l); auto; try (apply OK; fail); try (eapply zeros_rs; exact OK); eapply args_ps; exact OK.
Qed.

(** *** Executions *)
Definition ex_go (m : method) (tname : nat -> string) (ctx_text : string) (n : nat) (zeros args : list cval) (cs : list choice) : option (list event * gstate) :=
  plays m tname ctx_text (result_locs m) (call_start m (caller_ctxs m) (fallback_body "Iface" m) (receiver n 1000) zeros args) cs.
Lemma ex_go_runs : forall m tname ctx_text n zeros args cs evs s, ex_go m tname ctx_text n zeros args cs = Some (evs, s) ->
  runs_fallback m "Iface" tname ctx_text n 1000 zeros args evs s.
Proof. intros m tname ctx_text n zeros args cs evs s H. unfold runs_fallback, executes. eapply plays_sound. exact H. Qed.
Definition go (t k : nat) : list choice := repeat (Move t) k.

(** Do(ctx, a, i1, rest...) (s1 string, err error) *)
Definition ex_args : list cval := [CtxV 0; IntV 7; IntV 8; SliceV []].
Definition ex_zeros : list cval := [StrV ""; NilV].
Definition ex_name (i : nat) : string := if Nat.eqb i 0 then "A" else "B".
Example C65_example_method : fallback_call ex_m 1000 ex_zeros ex_args.
Proof.
  split; try reflexivity; [eapply Deco.NewMethod_wf, ex_NewMethod | | intros _; eexists; reflexivity].
  intros x Hx Hin. cbn in Hx, Hin. intuition (subst; discriminate).
Qed.

(** the first implementation fails, so that the second is called, which answers *)
Example C65_example : exists evs s, runs_fallback ex_m "Iface" ex_name "context canceled" 2 1000 ex_zeros ex_args evs s /\
  returned ex_m s [StrV "hello"; NilV] /\ fails ex_m evs 0 "down" /\ answers evs 1 [StrV "hello"; NilV] /\ spawned_in evs = [(0, 1); (1, 2); (1, 3)].
Proof.
  destruct (ex_go ex_m ex_name "context canceled" 2 ex_zeros ex_args
    (go 0 12 ++ go 1 5 ++ go 2 1 ++ [Reply 2 [StrV ""; ErrV "down"]] ++ go 2 4 ++ [Goroutines.Pass 2 0] ++ go 2 3 ++ go 0 2 ++ [Put_ 0] ++ go 0 6 ++
     [Get_ 1 1] ++ go 1 12 ++ go 3 1 ++ [Reply 3 [StrV "hello"; NilV]] ++ go 3 2 ++ [Goroutines.Pass 3 0] ++ go 0 5)) as [[evs s]|] eqn:E; [|vm_compute in E; discriminate].
  exists evs, s. split; [eapply ex_go_runs; exact E|]. vm_compute in E. injection E as <- <-.
  split; [split; [reflexivity | eexists; split; reflexivity]|]. split; [split; [reflexivity|]; exists [StrV ""; ErrV "down"]; split; [exists 2; cbn; tauto | reflexivity]|].
  split; [exists 3; cbn; tauto | reflexivity].
Qed.
(** a tick starts the second implementation; both fail *)
Example C65_example_failed : exists evs s, runs_fallback ex_m "Iface" ex_name "context canceled" 2 1000 ex_zeros ex_args evs s /\
  returned ex_m s [StrV ""; ErrV "B: late;A: down"] /\ filter is_ticked evs = [Ticked 2] /\ ~ In CallerDone evs.
Proof.
  destruct (ex_go ex_m ex_name "context canceled" 2 ex_zeros ex_args
    (go 0 12 ++ go 1 5 ++ go 2 1 ++ [Fire 2; Get_ 1 2] ++ go 1 12 ++ go 3 1 ++ [Reply 3 [StrV ""; ErrV "late"]] ++ go 3 4 ++ [Goroutines.Pass 3 0] ++ go 0 2 ++ [Put_ 0] ++ go 0 6 ++
     [Reply 2 [StrV ""; ErrV "down"]] ++ go 2 4 ++ [Goroutines.Pass 2 0] ++ go 0 2 ++ [Put_ 0] ++ go 0 7)) as [[evs s]|] eqn:E; [|vm_compute in E; discriminate].
  exists evs, s. split; [eapply ex_go_runs; exact E|]. vm_compute in E. injection E as <- <-.
  split; [split; [reflexivity | eexists; split; reflexivity]|]. split; [reflexivity|]. cbn. intuition discriminate.
Qed.
(** the caller's context is done while the second implementation is awaited *)
Example C65_example_done : exists evs s, runs_fallback ex_m "Iface" ex_name "context canceled" 2 1000 ex_zeros ex_args evs s /\
  returned ex_m s [StrV ""; ErrV "context canceled: A: down"] /\ In CallerDone evs.
Proof.
  destruct (ex_go ex_m ex_name "context canceled" 2 ex_zeros ex_args
    (go 0 12 ++ go 1 5 ++ go 2 1 ++ [Reply 2 [StrV ""; ErrV "down"]] ++ go 2 4 ++ [Goroutines.Pass 2 0] ++ go 0 2 ++ [Put_ 0] ++ go 0 6 ++ [Cancelled; Done_ 0] ++ go 0 5)) as [[evs s]|] eqn:E; [|vm_compute in E; discriminate].
  exists evs, s. split; [eapply ex_go_runs; exact E|]. vm_compute in E. injection E as <- <-.
  split; [split; [reflexivity | eexists; split; reflexivity]|]. cbn. tauto.
Qed.

(** Sum(a int) (r int): a method without a context *)
Definition ex_sum : method := Method [] [] "Sum" [Param [] [] "a" "int" false] [Param [] [] "r" "int" false] false false.
Example ex_sum_method : fallback_call ex_sum 1000 [IntV 0] [IntV 3].
Proof.
  split; [|intros x Hx Hin; cbn in Hx, Hin; intuition (subst; discriminate) | discriminate | lia | reflexivity | reflexivity | discriminate].
  split; [cbn; repeat constructor; cbn; intuition discriminate | discriminate | discriminate].
Qed.

(** *** Without a context the call can be stuck: the answer arrives before the
    caller waits for it, is thrown away by the [default:] of line 55, and no
    step is left but those of the clock *)
Theorem C65_no_context_refuted :
  exists m tname n zeros args evs s i vs, fallback_call m 1000 zeros args /\ m_acceptsContext m = false /\
    runs_fallback m "Iface" tname "" n 1000 zeros args evs s /\ answers evs i vs /\ nth_error (g_gos s) 0 <> Some Ended /\
    (forall t i e r k ds, nth_error (g_gos s) t <> Some (InCall i e r k ds)) /\
    forall ev s', gstep m tname "" (result_locs m) s ev s' -> is_ticked ev = true.
Proof.
  destruct (ex_go ex_sum (fun _ => "A") "" 1 [IntV 0] [IntV 3]
    (go 0 6 ++ go 1 9 ++ go 2 1 ++ [Reply 2 [IntV 4]; Skip 2] ++ go 2 2 ++ go 0 1)) as [[evs s]|] eqn:E; [|vm_compute in E; discriminate].
  exists ex_sum, (fun _ => "A"), 1, [IntV 0], [IntV 3], evs, s, 0, [IntV 4]. split; [exact ex_sum_method|]. split; [reflexivity|].
  split; [eapply ex_go_runs; exact E|]. vm_compute in E. injection E as <- <-. split; [exists 2; cbn; tauto|]. split; [discriminate|].
  split; [intros [|[|[|[|t]]]] i e r k ds H; discriminate|]. 
  match goal with |- forall ev s', gstep _ _ _ _ ?s0 ev s' -> _ => set (s := s0);
    assert (W : forall t, advance ex_sum (fun _ => "A") "" (result_locs ex_sum) t s = Waits) by (intros [|[|[|t]]]; try reflexivity; unfold advance; subst s; cbn [g_gos nth_error]; destruct t; reflexivity);
    assert (Pk : forall t bs e k ds, nth_error (g_gos s) t = Some (Parked bs e k ds) -> t = 0 /\ map fst bs = [ORecv (ChanV 0)])
      by (intros [|[|[|[|t]]]] bs e k ds H; try discriminate; cbn in H; injection H as <- <- <- <-; split; reflexivity) end.
  assert (Pc : forall t bs e k ds, at_comm ex_sum (fun _ => "A") "" (result_locs ex_sum) s t bs e k ds -> t = 0 /\ map fst bs = [ORecv (ChanV 0)]).
  { intros t bs e k ds H. inversion H; subst; [now apply (Pk _ _ _ _ _ H0)|]. rewrite W in H0. discriminate. }
  intros ev s' H. inversion H; subst ev; try reflexivity; try (rewrite W in *; discriminate).
  - destruct t as [|[|[|[|t]]]]; discriminate.
  - destruct (Pc _ _ _ _ _ H1) as [_ Eb]. apply (in_map fst) in H2. rewrite Eb in H2. cbn in H2. intuition discriminate.
  - destruct (Pc _ _ _ _ _ H0) as [_ Eb]. apply (in_map fst) in H1. rewrite Eb in H1. cbn in H1. intuition discriminate.
  - destruct (Pc _ _ _ _ _ H0) as [_ Eb]. apply (in_map fst) in H1. rewrite Eb in H1. cbn in H1. destruct H1 as [E1|[]]. injection E1 as <-. cbn in H2. injection H2 as <-. discriminate.
  - destruct (Pc _ _ _ _ _ H0) as [_ Eb]. apply (in_map fst) in H1. rewrite Eb in H1. cbn in H1. intuition discriminate.
  - subst s. cbn in *. lia.
Qed.

(** ** C66: after the call has returned *)
Definition C66_statement : Prop := forall m typ tname ctx_text n interval zeros args evs s ev s',
  fallback_call m interval zeros args -> runs_fallback m typ tname ctx_text n interval zeros args evs s ->
  nth_error (g_gos s) 0 = Some Ended -> gstep m tname ctx_text (result_locs m) s ev s' -> is_any_call ev = false.
(** The first implementation answers when the tick for the second has arrived:
    the call returns, and then the second implementation is called. *)
Theorem C66_refuted : ~ C66_statement.
Proof.
  intros H.
  destruct (ex_go ex_m ex_name "context canceled" 2 ex_zeros ex_args
    (go 0 12 ++ go 1 5 ++ go 2 1 ++ [Fire 2] ++ [Reply 2 [StrV "hello"; NilV]] ++ go 2 2 ++ [Goroutines.Pass 2 0] ++ go 0 5 ++ [Get_ 1 2] ++ go 1 12)) as [[evs s]|] eqn:E; [|vm_compute in E; discriminate].
  destruct (play ex_m ex_name "context canceled" (result_locs ex_m) s (Move 3)) as [[ev s']|] eqn:F.
  - apply play_sound in F as F'. specialize (H ex_m "Iface" ex_name "context canceled" 2 1000%Z ex_zeros ex_args evs s ev s' C65_example_method (ex_go_runs _ _ _ _ _ _ _ _ _ E)).
    vm_compute in E. injection E as <- <-. specialize (H eq_refl F'). vm_compute in F. injection F as <- <-. discriminate.
  - vm_compute in E. injection E as <- <-. vm_compute in F. discriminate.
Qed.

(** What is true: an implementation called after the return gets a context that
    is done. *)
Theorem C66_done_partial : forall m typ tname ctx_text n interval zeros args evs s t i vs s',
  fallback_call m interval zeros args -> runs_fallback m typ tname ctx_text n interval zeros args evs s ->
  m_acceptsContext m = true -> nth_error (g_gos s) 0 = Some Ended ->
  gstep m tname ctx_text (result_locs m) s (Called t i vs) s' ->
  exists c r, vs = CtxV c :: r /\ is_done (g_ctxs s) c = true.
Proof.
  intros m typ tname ctx_text n interval zeros args evs s t i vs s' OK H Hc HE Hs.
  assert (H' : runs_fallback m typ tname ctx_text n interval zeros args (evs ++ [Called t i vs]) s') by (eapply run_snoc; eauto).
  destruct (C65_calls _ _ _ _ _ _ _ _ _ _ OK H') as [A _]. destruct (A t i vs (in_snoc_last _ _)) as [_ ->]. unfold passed_on. rewrite Hc. exists 1, (tl args). split; [reflexivity|].
  destruct (tied m typ tname ctx_text n interval zeros args OK _ _ H) as (ls & l & _ & B & R).
  destruct R as [M | (pa & tk & _ & S0)].
  2:{ destruct (setting_gos _ _ _ _ _ _ _ _ _ S0) as (e & l0 & ds & Eg). rewrite Eg in HE. discriminate. }
  rewrite (ctxs_eq m typ tname ctx_text n interval zeros args _ _ M). unfold ctxs_of. rewrite Hc. cbn.
  destruct (inv_run _ _ _ _ _ (compiles _ _ _ _ OK) _ _ B) as (_ & IM). destruct IM as (_ & _ & _ & _ & _ & _ & _ & I8 & _).
  destruct M as [sg0 sg1 segs g0 g1 gs st Es Hst Hse Hm Hla Hls Hlg Hli Him Hnew]. rewrite Es in HE. cbn in HE. injection HE as ->.
  inversion Hm; subst. match goal with E : _ = main l |- _ => rewrite <- E in I8 end. destruct I8 as (_ & E). rewrite E, Hc. apply orb_true_r.
Qed.

Print Assumptions C65_body.
Print Assumptions C65_no_panic.
Print Assumptions C65_simulated.
Print Assumptions C65_answer.
Print Assumptions C65_calls.
Print Assumptions C65_launches.
Print Assumptions C65_no_deadlock.
Print Assumptions C65_no_context_refuted.
Print Assumptions C66_refuted.
Print Assumptions C66_done_partial.
