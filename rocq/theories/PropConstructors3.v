(** C69, continued: the goroutine that NewXWithRateLimit starts is the feeder of
    RateLimit.v and PropRateLimitCalls.v. *)
From Coq Require Import Floats.SpecFloat.
From Verif Require Import Render.
From Verif Require Export Feeder PropConstructors2.
From Verif Require PropRateLimitCalls RateLimit MiniGo Lts Threads.
Open Scope nat_scope.
Notation Limiter := PropRateLimitCalls.Limiter.

Section FEED.
Variable machine : spec_float -> Z.
Variable T : list (string * list (string * uval)).
Variables L k : nat.
Variables (dec : string) (ticks burst : nat) (delay : Z).
Notation gstep := (gstep machine T L (20 + k)).
Notation env_step := (PropRateLimitCalls.limiter_env burst delay).

Definition send_body : list kstmt := [JSend (KSel (KVar "d") "_ticks") (KVar "t")].

(** time.Tick's channel, with [p] ticks in it *)
Definition ticker (st : ust) (ch : uval) (p : bool) : Prop :=
  if (delay <=? 0)%Z then ch = UNil /\ p = false
  else exists kt b, ch = UChan kt /\ In kt (tickers st) /\ kt <> ticks /\ nth_error (chans st) kt = Some (UCh 1 b) /\ length b = (if p then 1 else 0).
Inductive position (env : uenv) (st : ust) : task -> RateLimit.feeder -> bool -> Prop :=
| at_start : position env st (TStmts env feeder_body []) RateLimit.AtRange false
| at_range ch p : ticker st ch p -> position env st (TRange (Frame "t" ch send_body env []) []) RateLimit.AtRange p
| at_end env' ch p : ticker st ch p -> position env st (TStmts env' [] [Frame "t" ch send_body env []]) RateLimit.AtRange p
| at_send c v ch p : ticker st ch p -> nth_error (cells st) c = Some v ->
    position env st (TStmts (("t", c) :: env) send_body [Frame "t" ch send_body env []]) RateLimit.AtSend p.
Definition feeds (c : task * ust) (s : PropRateLimitCalls.limiter) : Prop :=
  let '(t, st) := c in
  exists buf a env fs, nth_error (chans st) ticks = Some (UCh burst buf) /\ length buf = PropRateLimitCalls.l_buf s /\ ~ In ticks (tickers st) /\
    feeder_env env st (UPtr a) delay /\ nth_error (cells st) a = Some (URec dec fs) /\ get "_ticks" fs = Some (UChan ticks) /\
    position env st t (PropRateLimitCalls.l_feed s) (PropRateLimitCalls.l_pending s).

Lemma nth_nput_same : forall {A} (l : list A) n x v, nth_error l n = Some x -> nth_error (nput n v l) n = Some v.
Proof. induction l as [|y l IH]; intros [|n] x v H; cbn in *; try discriminate; eauto. Qed.
Lemma nth_nput_other : forall {A} (l : list A) n m v, n <> m -> nth_error (nput n v l) m = nth_error l m.
Proof. induction l as [|y l IH]; intros [|n] [|m] v H; cbn; auto; congruence. Qed.

Lemma env_keep : forall env st st' d, feeder_env env st d delay -> (exists new, cells st' = cells st ++ new) -> feeder_env env st' d delay.
Proof.
  intros env st st' d ((a & Ha & Hb) & (a' & Hc & Hd) & He) (new & E). unfold feeder_env. rewrite E.
  split; [|split]; eauto using @nth_keep.
Qed.

(** the goroutine ranges over this channel *)
Definition ranges (t : task) (j : nat) : Prop :=
  match t with
  | TRange (Frame _ ch _ _ _) _ => ch = UChan j
  | TStmts _ _ (Frame _ ch _ _ _ :: _) => ch = UChan j
  | TStmts _ _ [] => False
  end.
(** what a step is in PropRateLimitCalls.v *)
Definition seen (t : task) (l : glabel) (s s' : PropRateLimitCalls.limiter) : Prop :=
  match l with
  | GTau => s' = s
  | GRecv _ _ => env_step s PropRateLimitCalls.HFeed s'
  | GSend j _ => j = ticks /\ env_step s PropRateLimitCalls.HPut s'
  | GHand j _ => j = ticks /\ forall base tk arity done_of v,
      PropRateLimitCalls.limiter_sem base tk burst arity done_of s (MiniGo.OSelect [MiniGo.VRef tk]) (MiniGo.ARet [MiniGo.VInt 0; v]) s'
  | GTick j _ => (ranges t j -> env_step s PropRateLimitCalls.HTick s') /\ (~ ranges t j -> s' = s)
  | GTake j _ => (j = ticks -> forall base tk arity done_of v,
      PropRateLimitCalls.limiter_sem base tk burst arity done_of s (MiniGo.OSelect [MiniGo.VRef tk]) (MiniGo.ARet [MiniGo.VInt 0; v]) s') /\ (j <> ticks -> s' = s)
  end.

Lemma ticker_keep : forall st st' ch p, ticker st ch p -> (forall kt, ch = UChan kt -> nth_error (chans st') kt = nth_error (chans st) kt) ->
  (forall kt, In kt (tickers st) -> In kt (tickers st')) -> ticker st' ch p.
Proof.
  unfold ticker. intros st st' ch p. destruct (delay <=? 0)%Z; auto. intros (kt & b & -> & H1 & H2 & H3 & H4) HC HT.
  exists kt, b. rewrite HC by reflexivity. auto.
Qed.
Lemma position_keep : forall env st st' t f p, position env st t f p -> (forall kt, ranges t kt -> nth_error (chans st') kt = nth_error (chans st) kt) ->
  (forall kt, In kt (tickers st) -> In kt (tickers st')) -> (exists new, cells st' = cells st ++ new) -> position env st' t f p.
Proof.
  intros env st st' t f p H HC HT (new & E). destruct H as [|ch p H|env' ch p H|c v ch p H Hc];
    [constructor|constructor; eapply ticker_keep; eauto..|].
  econstructor; [eapply ticker_keep; eauto | rewrite E; apply nth_keep; eassumption].
Qed.

Lemma eval_tick : forall env st d, feeder_env env st d delay ->
  keval machine T L (20 + k) env (KCall (KSel (v_ "time") "Tick") [v_ "delay"]) st =
  if (delay <=? 0)%Z then ROk UNil (USt (cells st) (chans st) (tickers st) (spawned st) (outs st ++ [(USel (UPkg "time") "Tick", [UNum delay])]))
  else ROk (UChan (length (chans st))) (USt (cells st) (chans st ++ [UCh 1 []]) (tickers st ++ [length (chans st)]) (spawned st) (outs st ++ [(USel (UPkg "time") "Tick", [UNum delay])])).
Proof.
  intros env st d ((a & Ha & Hb) & (a' & Hc & Hd) & He & Hf). change (20 + k) with (S (S (S (S (16 + k))))).
  rewrite keval_KCall, keval_KSel. unfold v_. rewrite keval_KVar, He. cbn -[keval outside]. rewrite keval_KVar, Hc, Hd. cbn -[Z.leb]. reflexivity.
Qed.
Lemma eval_ticks : forall env st a c fs, feeder_env env st (UPtr a) delay -> nth_error (cells st) a = Some (URec dec fs) -> get "_ticks" fs = Some (UChan ticks) ->
  keval machine T L (20 + k) (("t", c) :: env) (KSel (KVar "d") "_ticks") st = ROk (UChan ticks) st.
Proof.
  intros env st d c fs ((a & Ha & Hb) & (a' & Hc & Hd) & He & Hf) HA HF. change (20 + k) with (S (S (S (S (16 + k))))).
  rewrite keval_KSel, keval_KVar. cbn -[keval String.eqb select]. eqs. rewrite Ha, Hb. cbn. now rewrite HA, HF.
Qed.
Lemma eval_t : forall env st c v, nth_error (cells st) c = Some v -> keval machine T L (20 + k) (("t", c) :: env) (KVar "t") st = ROk v st.
Proof. intros. change (20 + k) with (S (19 + k)). rewrite keval_KVar. cbn. now rewrite H. Qed.

Lemma feeds_intro : forall buf a env fs t st b f p cl, nth_error (chans st) ticks = Some (UCh burst buf) -> length buf = b -> ~ In ticks (tickers st) ->
  feeder_env env st (UPtr a) delay -> nth_error (cells st) a = Some (URec dec fs) -> get "_ticks" fs = Some (UChan ticks) ->
  position env st t f p -> feeds (t, st) (Limiter b f p cl).
Proof. intros. exists buf, a, env, fs. auto 10. Qed.

Theorem C69_feeder : forall t st b f p cl l t' st', feeds (t, st) (Limiter b f p cl) -> gstep (t, st) l (t', st') ->
  exists s', feeds (t', st') s' /\ seen t l (Limiter b f p cl) s'.
Proof.
  intros t st b f p cl l t' st' (buf & a & env & fs & Hb & Hl & Hn & He & Ha & Hf & HP) HS. cbn [PropRateLimitCalls.l_buf PropRateLimitCalls.l_feed PropRateLimitCalls.l_pending] in *.
  assert (HC : exists new : list uval, cells st = cells st ++ new) by (exists []; now rewrite app_nil_r).
  assert (HK : ticks < length (chans st)) by (apply nth_error_Some; congruence).
  inversion HS; subst.
  - inversion HP; subst; cbn in *; discriminate.
  - (* the range starts *)
    match goal with H : keval _ _ _ _ _ _ _ = _ |- _ => rename H into H0 end. inversion HP; subst. rewrite (eval_tick _ _ _ He) in H0.
    exists (Limiter (length buf) RateLimit.AtRange false cl). split; [|reflexivity].
    destruct (delay <=? 0)%Z eqn:D; injection H0 as <- <-.
    + eapply feeds_intro; [exact Hb|reflexivity|exact Hn|exact He|exact Ha|exact Hf|]. constructor. unfold ticker. rewrite D. auto.
    + eapply feeds_intro; [apply nth_keep; exact Hb|reflexivity| |exact He|exact Ha|exact Hf|]; cbn [chans cells tickers].
      * rewrite in_app_iff. intros [?|[?|[]]]; [contradiction|lia].
      * constructor. unfold ticker. rewrite D. exists (length (chans st)), []. cbn [chans tickers]. rewrite in_app_iff, nth_last. repeat split; cbn; auto. lia.
  - (* a receive *)
    match goal with H : nth_error (chans st) _ = Some (UCh _ (_ :: _)) |- _ => rename H into H0 end.
    inversion HP; subst.
    match goal with H : ticker _ _ _ |- _ => unfold ticker in H; rename H into HT end.
    destruct (delay <=? 0)%Z eqn:D; [destruct HT; discriminate|].
    destruct HT as (kt & b1 & E1 & E2 & E3 & E4 & E5). injection E1 as <-.
    rewrite H0 in E4. injection E4 as -> <-. cbn in E5. destruct p; [|discriminate]. injection E5 as E5. apply length_zero_iff_nil in E5. subst b0.
    exists (Limiter (length buf) RateLimit.AtSend false cl). split; [|constructor].
    eapply feeds_intro; cbn [alloc snd set_chan chans cells tickers];
      [rewrite nth_nput_other by congruence; exact Hb|reflexivity|exact Hn|eapply env_keep; [exact He|eexists; reflexivity]|apply nth_keep; exact Ha|exact Hf|].
    eapply at_send; [|apply nth_last]. unfold ticker. rewrite D. exists k0, []. cbn [chans tickers].
    rewrite (nth_nput_same _ _ _ _ H0). auto.
  - (* the next round *)
    inversion HP; subst. exists (Limiter (length buf) RateLimit.AtRange p cl). split; [|reflexivity].
    eapply feeds_intro; [exact Hb|reflexivity|exact Hn|exact He|exact Ha|exact Hf|]. now constructor.
  - (* a send *)
    match goal with H : keval _ _ _ _ _ _ st = _ |- _ => rename H into H0 end.
    inversion HP; subst.
    rewrite (eval_ticks _ _ _ _ _ He Ha Hf) in H0. injection H0 as <- <-.
    match goal with H : nth_error (cells st) _ = Some _ |- _ => rename H into Hc end.
    match goal with H : keval _ _ _ _ _ _ _ = _ |- _ => rewrite (eval_t _ _ _ _ Hc) in H; injection H as <- <- end.
    match goal with H : try_send _ _ _ = _ |- _ => unfold try_send in H; rewrite Hb in H; destruct (Nat.ltb_spec (length buf) burst) as [Hlt|]; [|discriminate]; injection H as <- end.
    exists (Limiter (S (length buf)) RateLimit.AtRange p cl). split; [|split; [reflexivity|now constructor]].
    eapply feeds_intro; cbn [set_chan chans cells tickers]; [rewrite (nth_nput_same _ _ _ _ Hb); reflexivity|rewrite app_length; cbn; lia|exact Hn|exact He|exact Ha|exact Hf|].
    constructor. eapply ticker_keep; [eassumption| |auto]. intros kt ->. cbn [set_chan chans].
    match goal with H : ticker _ _ _ |- _ => unfold ticker in H; destruct (delay <=? 0)%Z; [now destruct H|]; destruct H as (kt' & ? & E & ? & ? & _) end.
    injection E as <-. apply nth_nput_other. congruence.
  - (* a hand-over *)
    match goal with H : keval _ _ _ _ _ _ st = _ |- _ => rename H into H0 end.
    inversion HP; subst.
    rewrite (eval_ticks _ _ _ _ _ He Ha Hf) in H0. injection H0 as <- <-.
    match goal with H : nth_error (cells st) _ = Some _ |- _ => rename H into Hc end.
    match goal with H : keval _ _ _ _ _ _ _ = _ |- _ => rewrite (eval_t _ _ _ _ Hc) in H; injection H as <- <- end.
    match goal with H : nth_error (chans st) ticks = Some (UCh 0 []) |- _ => pose proof H as H'; rewrite Hb in H'; injection H' as E1 E2; subst buf end.
    exists (Limiter 0 RateLimit.AtRange p cl). split; [|split; [reflexivity|intros; constructor; exact E1]].
    eapply feeds_intro; [exact Hb|reflexivity|exact Hn|exact He|exact Ha|exact Hf|]. now constructor.
  - (* a tick *)
    match goal with H : In _ (tickers st) |- _ => rename H into HI end.
    match goal with H : nth_error (chans st) k0 = _ |- _ => rename H into H0 end.
    assert (HJ : k0 <> ticks) by congruence.
    assert (HB : nth_error (chans (ticked k0 c b0 v st)) ticks = Some (UCh burst buf)).
    { unfold ticked. destruct (length b0 <? c); [|exact Hb]. cbn. now rewrite nth_nput_other. }
    assert (HX : tickers (ticked k0 c b0 v st) = tickers st /\ cells (ticked k0 c b0 v st) = cells st /\ (forall j, j <> k0 -> nth_error (chans (ticked k0 c b0 v st)) j = nth_error (chans st) j)).
    { unfold ticked. destruct (length b0 <? c); cbn; repeat split; auto. intros j Hj. now rewrite nth_nput_other by auto. }
    destruct HX as (X1 & X2 & X3).
    assert (HE : feeder_env env (ticked k0 c b0 v st) (UPtr a) delay) by (eapply env_keep; [exact He|rewrite X2; exact HC]).
    assert (HD : ranges t' k0 \/ ~ ranges t' k0).
    { destruct t' as [env1 l1 [|[? ch ? ? ?] ?]|[? ch ? ? ?] ?]; cbn; [now right|..]; destruct ch as [| | | | | | | | | |j| | | |]; try (right; congruence);
        destruct (Nat.eq_dec j k0) as [->|]; [now left|right; congruence|now left|right; congruence]. }
    destruct HD as [HD|HD].
    + exists (Limiter (length buf) f true cl).
      assert (HT : exists ch, ch = UChan k0 /\ ticker st ch p /\ forall p', ticker (ticked k0 c b0 v st) ch p' -> position env (ticked k0 c b0 v st) t' f p').
      { inversion HP; subst; cbn in HD; try contradiction; subst; eexists; split; [reflexivity|split; [eassumption|]| reflexivity|split; [eassumption|]|reflexivity|split; [eassumption|]]; intros p' Hp';
          [now constructor | now constructor | econstructor; [exact Hp'|rewrite X2; eassumption]]. }
      destruct HT as (ch & -> & HT & HP'). unfold ticker in HT.
      destruct (delay <=? 0)%Z eqn:D; [destruct HT; discriminate|]. destruct HT as (kt & b1 & E1 & E2 & E3 & E4 & E5).
      injection E1 as <-. rewrite H0 in E4. injection E4 as -> <-. apply Z.leb_gt in D.
      split; [|split; [intros; now constructor|contradiction]].
      eapply feeds_intro; [exact HB|reflexivity|now rewrite X1|exact HE|rewrite X2; exact Ha|exact Hf|].
      apply HP'. unfold ticker. destruct (Z.leb_spec delay 0); [lia|]. exists k0, (if p then b0 else [v]). rewrite X1. repeat split; auto.
      * unfold ticked. destruct p; rewrite E5; cbn; [exact H0|]. apply length_zero_iff_nil in E5. subst b0. now rewrite (nth_nput_same _ _ _ _ H0).
      * now destruct p.
    + exists (Limiter (length buf) f p cl). split; [|split; [contradiction|reflexivity]].
      eapply feeds_intro; [exact HB|reflexivity|now rewrite X1|exact HE|rewrite X2; exact Ha|exact Hf|].
      eapply position_keep; [exact HP| |now rewrite X1|rewrite X2; exact HC]. intros kt Hkt. apply X3. congruence.
  - (* a token is taken *)
    match goal with H : ~ In k0 (tickers st) |- _ => rename H into HI end.
    match goal with H : nth_error (chans st) k0 = _ |- _ => rename H into H0 end.
    assert (HR : forall kt, ranges t' kt -> kt <> k0).
    { intros kt Hr ->. assert (exists ch, ch = UChan k0 /\ ticker st ch p) as (ch & -> & HT) by (inversion HP; subst; cbn in Hr; try contradiction; eauto).
      unfold ticker in HT. destruct (delay <=? 0)%Z; [now destruct HT|]. destruct HT as (kt & ? & E & ? & _). injection E as <-. contradiction. }
    assert (HPos : position env (set_chan k0 (UCh c b0) st) t' f p).
    { eapply position_keep; [exact HP| |auto|exact HC]. intros kt Hkt. cbn. apply nth_nput_other. intros <-. now apply (HR k0). }
    destruct (Nat.eq_dec k0 ticks) as [->|N].
    + rewrite Hb in H0. injection H0 as <- ->. exists (Limiter (length b0) f p cl). split.
      * eapply feeds_intro; [apply (nth_nput_same _ _ _ _ Hb)|reflexivity|exact Hn|exact He|exact Ha|exact Hf|exact HPos].
      * split; [|contradiction]. intros _ *. constructor.
    + exists (Limiter (length buf) f p cl). split; [|split; [contradiction|reflexivity]].
      eapply feeds_intro; [cbn; rewrite nth_nput_other by exact N; exact Hb|reflexivity|exact Hn|exact He|exact Ha|exact Hf|exact HPos].
Qed.

(** and whatever the ticker and the feeder of PropRateLimitCalls.v can do, these can, after internal steps *)
Definition kind (h : PropRateLimitCalls.happening) (l : glabel) : Prop :=
  match h, l with
  | PropRateLimitCalls.HTick, GTick _ _ | PropRateLimitCalls.HFeed, GRecv _ _ | PropRateLimitCalls.HPut, GSend _ _ => True
  | _, _ => False
  end.
Lemma enter : forall t st b f p cl, feeds (t, st) (Limiter b f p cl) ->
  exists tr t' st', Lts.run gstep (t, st) tr (t', st') /\ Forall (eq GTau) tr /\ feeds (t', st') (Limiter b f p cl) /\
  (f = RateLimit.AtRange -> exists ch env, t' = TRange (Frame "t" ch send_body env []) []) /\ (forall env, t' <> TStmts env feeder_body []).
Proof.
  intros t st b f p cl HF. pose proof HF as (buf & a & env & fs & Hb & Hl & Hn & He & Ha & Hf & HP). pose proof HP as HP'.
  cbn [PropRateLimitCalls.l_buf PropRateLimitCalls.l_feed PropRateLimitCalls.l_pending] in *.
  clear HP. destruct HP' as [|ch p HT|env' ch p HT|c v ch p HT Hc].
  - assert (exists ch st', keval machine T L (20 + k) env (KCall (KSel (v_ "time") "Tick") [v_ "delay"]) st = ROk ch st') as (ch & st' & E)
      by (rewrite (eval_tick _ _ _ He); destruct (delay <=? 0)%Z; eauto).
    pose proof (g_range machine T L (20 + k) env "t" _ send_body [] [] st ch st' E) as G.
    destruct (C69_feeder _ _ _ _ _ _ _ _ _ HF G) as (s' & H1 & H2). cbn in H2. subst s'.
    eexists _, _, _. split; [eapply Lts.run_snoc; [apply Lts.run_nil|exact G]|]. split; [repeat constructor|]. split; [exact H1|].
    split; [intros _; eauto|discriminate].
  - eexists [], _, _. split; [apply Lts.run_nil|]. repeat split; auto; [eauto|discriminate].
  - pose proof (g_again machine T L (20 + k) env' (Frame "t" ch send_body env []) [] st) as G.
    destruct (C69_feeder _ _ _ _ _ _ _ _ _ HF G) as (s' & H1 & H2). cbn in H2. subst s'.
    eexists _, _, _. split; [eapply Lts.run_snoc; [apply Lts.run_nil|exact G]|]. split; [repeat constructor|]. split; [exact H1|].
    split; [intros _; eauto|discriminate].
  - eexists [], _, _. split; [apply Lts.run_nil|]. repeat split; auto; [discriminate|discriminate].
Qed.
Theorem C69_feeder_keeps_up : forall t st s h s', feeds (t, st) s -> env_step s h s' -> (forall j, h <> PropRateLimitCalls.HCancel j) ->
  exists tr l t' st', Lts.run gstep (t, st) (tr ++ [l]) (t', st') /\ Forall (eq GTau) tr /\ kind h l /\ feeds (t', st') s'.
Proof.
  intros t st [b f p cl] h s' HF HE HN. destruct (enter _ _ _ _ _ _ HF) as (tr & t1 & st1 & HR & HT & HF1 & HA & HB).
  cut (exists l t' st', gstep (t1, st1) l (t', st') /\ kind h l /\ forall s2, seen t1 l (Limiter b f p cl) s2 -> s2 = s').
  { intros (l & t' & st' & G & HK & HU). destruct (C69_feeder _ _ _ _ _ _ _ _ _ HF1 G) as (s2 & H1 & H2).
    rewrite (HU s2 H2) in H1. exists tr, l, t', st'. split; [eapply Lts.run_snoc; eauto|auto]. }
  pose proof HF1 as (buf & a & env & fs & Hb & Hl & Hn & He & Ha & Hf & HP).
  cbn [PropRateLimitCalls.l_buf PropRateLimitCalls.l_feed PropRateLimitCalls.l_pending] in *.
  inversion HE; subst.
  - assert (HX : exists kt b0, ranges t1 kt /\ In kt (tickers st1) /\ nth_error (chans st1) kt = Some (UCh 1 b0)).
    { destruct (Z.leb_spec delay 0) as [|D]; [lia|].
      assert (HY : exists ch, ticker st1 ch p /\ forall kt, ch = UChan kt -> ranges t1 kt).
      { inversion HP; subst; [now destruct (HB _ eq_refl)|..]; eexists; (split; [eassumption|]); intros; assumption. }
      destruct HY as (ch & HY & HZ). unfold ticker in HY. destruct (Z.leb_spec delay 0); [lia|]. destruct HY as (kt & b0 & -> & H1 & H2 & H3 & H4). exists kt, b0. auto. }
    destruct HX as (kt & b0 & X1 & X2 & X3).
    eexists (GTick kt UNil), _, _. split; [eapply g_tick; eauto|]. split; [exact I|].
    intros s2 [H1 _]. specialize (H1 X1). now inversion H1; subst.
  - destruct (HA eq_refl) as (ch & env1 & ->). inversion HP; subst.
    match goal with H : ticker _ _ _ |- _ => unfold ticker in H; destruct (delay <=? 0)%Z; [now destruct H|]; destruct H as (kt & [|v [|]] & -> & H1 & H2 & H3 & H4) end;
      try discriminate.
    eexists (GRecv kt v), _, _. split; [eapply g_recv; eauto|]. split; [exact I|]. intros s2 H. cbn in H. now inversion H; subst.
  - inversion HP; subst.
    match goal with H : nth_error (cells st1) _ = Some _ |- _ => rename H into Hc end.
    eexists (GSend ticks v), _, _. split.
    { eapply g_send; [eapply eval_ticks; eauto|eapply eval_t; eauto|]. unfold try_send. rewrite Hb.
      match goal with |- context [Nat.ltb ?x ?y] => destruct (Nat.ltb_spec x y); [reflexivity|lia] end. }
    split; [exact I|]. intros s2 [_ Hs]. now inversion Hs; subst.
  - now destruct (HN k0).
Qed.
End FEED.

(** what NewXWithRateLimit leaves behind is the start of PropRateLimitCalls.v *)
Theorem C69_ratelimit_starts : forall machine L k dec typ st base burst rps, burst < L -> Forall (fun j => j < length (chans st)) (tickers st) ->
  exists a env st', call_func machine (struct_table dec (ratelimit_fields typ)) L (20 + k) (ratelimit_new dec typ) [base; UNum (Z.of_nat burst); UFloat rps] st
    = ROk [UPtr a] st' /\ spawned st' = spawned st ++ [(env, feeder_body)] /\
  feeds dec (length (chans st)) burst (delay_of machine rps) (TStmts env feeder_body [], st') (Threads.cf_shared (PropRateLimitCalls.fresh burst)).
Proof.
  intros machine L k dec typ st base burst rps HL HT.
  destruct (C69_ratelimit machine L k dec typ st base burst rps HL) as (a & env & st' & H1 & H2 & H3 & H4 & H5 & H6 & H7 & H8 & H9).
  exists a, env, st'. split; [exact H1|]. split; [exact H6|]. unfold PropRateLimitCalls.fresh. cbn [Threads.cf_shared].
  eapply feeds_intro; [rewrite H4; apply nth_last|apply repeat_length| |exact H7|exact H3|reflexivity|constructor].
  rewrite H9. intros HI. rewrite Forall_forall in HT. specialize (HT _ HI). lia.
Qed.
