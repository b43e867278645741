(** Property C62, for templates/ratelimit: the transition system of RateLimit.v
    has an execution for every execution of generated calls, so that C40 and C41
    hold of the generated code itself. *)
From Verif Require Import Threads Pools PropNaming.
From Verif Require RateLimit PropRateLimit.
Open Scope nat_scope.

(** ** One call: lines 38-49 of /repo/templates/ratelimit *)
Definition chosen (l : list val) : Z := match l with VInt z :: _ => z | _ => 0%Z end.

Definition ratelimit_pass (b : nat) (nm : string) (args : list val) : prog :=
  Do (OMeth (VRef b) nm args) (fun a => Ret (outcome_of a)).
Definition ratelimit_cancel (c : val) (zeros : list val) : prog :=
  Do (ctx_err c) (fun a => Ret (match a with ARet l => Val (removelast zeros ++ [hd VNil l]) | _ => outcome_of a end)).
Definition ratelimit_select (b ticks : nat) (nm : string) (zeros args : list val) (ch : val) : prog :=
  Do (OSelect [ch; VRef ticks]) (fun a =>
    match a with
    | ARet l => if Z.eqb (chosen l) 0 then ratelimit_cancel (hd VNil args) zeros else ratelimit_pass b nm args
    | _ => Ret (outcome_of a)
    end).
(** [sel]: the method takes a context and returns an error *)
Definition ratelimit_prog (b ticks : nat) (sel : bool) (nm : string) (zeros args : list val) : prog :=
  if sel then
    Do (ctx_done (hd VNil args)) (fun a =>
      match a with
      | ARet l => ratelimit_select b ticks nm zeros args (hd VNil l)
      | _ => Ret (outcome_of a)
      end)
  else
    Do (OSelect [VRef ticks]) (fun a =>
      match a with
      | ARet _ => ratelimit_pass b nm args
      | _ => Ret (outcome_of a)
      end).

Section ONE.
Variable W : gworld.
Variable m : method.
Variable L : nat.
Variables base ticks : nat.
Variables (zeros args : list val).
Hypothesis Hwf : wf_method m.
Hypothesis Hhyg : hygienic m [].
Hypothesis Hz : length zeros = length (m_results m).
Hypothesis Ha : length args = length (m_params m).
Hypothesis Hbase : base_typed W m base.
Hypothesis Hctx : m_acceptsContext m = true -> exists c, hd VNil args = VRef c.
Hypothesis Hticks : forall tr vs, w_ans W tr (OSelect [VRef ticks]) = ARet vs -> exists t, vs = [VInt 0; t].
Hypothesis Hselect : forall tr ch vs, w_ans W tr (OSelect [ch; VRef ticks]) = ARet vs -> exists z t, vs = [VInt z; t] /\ (z = 0 \/ z = 1)%Z.
Hypothesis Hdone : m_acceptsContext m = true -> forall tr vs, w_ans W tr (ctx_done (hd VNil args)) = ARet vs -> exists ch, vs = [ch].
Hypothesis Herr : m_acceptsContext m = true -> forall tr vs, w_ans W tr (ctx_err (hd VNil args)) = ARet vs -> exists e, vs = [e].

(** The generated body plays this tree. *)
Theorem C62_ratelimit_call :
  run_method W m [] L (ratelimit_body m) (VRec [("_base", VRef base); ("_ticks", VRef ticks)]) zeros args
  = play W [] (ratelimit_prog base ticks (m_acceptsContext m && m_returnsError m) (m_name m) zeros args).
Proof.
  apply follows_play. pose proof (ratelimit_meets W m L base ticks zeros args Hwf Hhyg Hz Ha Hbase Hctx Hticks Hselect Hdone Herr) as H.
  destruct (run_method W m [] L (ratelimit_body m) _ zeros args) as [r tr]. unfold ratelimit_prog, follows.
  destruct H as [a r E H|t a r E H|a r E H|ch a r E H|ch t a r E H|ch t a r E H|ch t e E]; rewrite E; apply R_do.
  - apply fails_outcome in H. destruct H as [-> H]. destruct a; [now destruct (H l) | apply R_here | apply R_here].
  - apply ends_outcome in H. subst r. apply R_do, R_here.
  - apply fails_outcome in H. destruct H as [-> H]. destruct a; [now destruct (H l) | apply R_here | apply R_here].
  - apply fails_outcome in H. destruct H as [-> H]. apply R_do. destruct a; [now destruct (H l) | apply R_here | apply R_here].
  - apply ends_outcome in H. subst r. apply R_do. cbn. apply R_do, R_here.
  - apply fails_outcome in H. destruct H as [-> H]. apply R_do. cbn. apply R_do. destruct a; [now destruct (H l) | apply R_here | apply R_here].
  - apply R_do. cbn. apply R_do, R_here.
Qed.
End ONE.

(** ** Many calls *)

(** the channel of tokens, the goroutine that fills it and the ticker (lines
    15-31), and the channels of cancelled contexts *)
Record limiter := Limiter { l_buf : nat; l_feed : RateLimit.feeder; l_pending : bool; l_closed : list nat }.
Inductive happening := HTick | HFeed | HPut | HCancel (ch : nat).

Section MANY.
Variables base ticks : nat.
Variable burst : nat.
Variable delay : Z.
Variable arity : string -> nat.
Variable done_of : nat -> val.          (* what ctx.Done() returns *)

Inductive limiter_sem : limiter -> op -> ans -> limiter -> Prop :=
(* a token from the buffer, or from the goroutine when there is no buffer *)
| ls_take b f p cl t : limiter_sem (Limiter (S b) f p cl) (OSelect [VRef ticks]) (ARet [VInt 0; t]) (Limiter b f p cl)
| ls_handoff b p cl t : burst = 0 ->
    limiter_sem (Limiter b RateLimit.AtSend p cl) (OSelect [VRef ticks]) (ARet [VInt 0; t]) (Limiter b RateLimit.AtRange p cl)
| ls_take2 b f p cl ch t : limiter_sem (Limiter (S b) f p cl) (OSelect [ch; VRef ticks]) (ARet [VInt 1; t]) (Limiter b f p cl)
| ls_handoff2 b p cl ch t : burst = 0 ->
    limiter_sem (Limiter b RateLimit.AtSend p cl) (OSelect [ch; VRef ticks]) (ARet [VInt 1; t]) (Limiter b RateLimit.AtRange p cl)
(* a receive from the closed channel of a cancelled context *)
| ls_cancelled s k t : In k (l_closed s) -> limiter_sem s (OSelect [VRef k; VRef ticks]) (ARet [VInt 0; t]) s
| ls_done s c : c <> base -> limiter_sem s (ctx_done (VRef c)) (ARet [done_of c]) s
| ls_done_panics s c v : c <> base -> limiter_sem s (ctx_done (VRef c)) (APan v) s
| ls_err s c e : c <> base -> limiter_sem s (ctx_err (VRef c)) (ARet [e]) s
| ls_err_panics s c v : c <> base -> limiter_sem s (ctx_err (VRef c)) (APan v) s
| ls_base s nm args vs : length vs = arity nm -> limiter_sem s (OMeth (VRef base) nm args) (ARet vs) s
| ls_base_panics s nm args v : limiter_sem s (OMeth (VRef base) nm args) (APan v) s.

Inductive limiter_env : limiter -> happening -> limiter -> Prop :=
| le_tick b f p cl : (0 < delay)%Z -> limiter_env (Limiter b f p cl) HTick (Limiter b f true cl)
| le_feed b cl : limiter_env (Limiter b RateLimit.AtRange true cl) HFeed (Limiter b RateLimit.AtSend false cl)
| le_put b p cl : b < burst -> limiter_env (Limiter b RateLimit.AtSend p cl) HPut (Limiter (S b) RateLimit.AtRange p cl)
| le_cancel b f p cl k : limiter_env (Limiter b f p cl) (HCancel k) (Limiter b f p (k :: cl)).

(** the context given is not the base itself *)
Definition limiter_entry (p : prog) : Prop := exists m zeros args,
  wf_method m /\ hygienic m [] /\ length zeros = length (m_results m) /\ length args = length (m_params m) /\
  length (m_results m) = arity (m_name m) /\ (m_acceptsContext m = true -> exists c, hd VNil args = VRef c /\ c <> base) /\
  p = ratelimit_prog base ticks (m_acceptsContext m && m_returnsError m) (m_name m) zeros args.

Notation limiter_step := (sys_step limiter_sem limiter_env limiter_entry).
Definition fresh : conf limiter := Conf (Limiter burst RateLimit.AtRange false []) [].
Notation step := (RateLimit.step burst delay).

Inductive limiter_means : event happening -> list RateLimit.label -> Prop :=
| lm_tick d : limiter_means (EvEnv HTick) [RateLimit.Tick d]
| lm_feed : limiter_means (EvEnv HFeed) [RateLimit.Feed]
| lm_put : limiter_means (EvEnv HPut) [RateLimit.Put]
| lm_cancel k : limiter_means (EvEnv (HCancel k)) []
| lm_call sel : limiter_means EvCall [RateLimit.Call sel]
| lm_take i t : limiter_means (EvDo i (OSelect [VRef ticks]) (ARet [VInt 0; t])) [RateLimit.Take i]
| lm_take2 i ch t : limiter_means (EvDo i (OSelect [ch; VRef ticks]) (ARet [VInt 1; t])) [RateLimit.Take i]
| lm_cancelled i ch t : limiter_means (EvDo i (OSelect [ch; VRef ticks]) (ARet [VInt 0; t])) [RateLimit.CtxDone i; RateLimit.Cancel i]
| lm_done i c a : c <> VRef base -> limiter_means (EvDo i (ctx_done c) a) []
| lm_err i c a : c <> VRef base -> limiter_means (EvDo i (ctx_err c) a) []
| lm_base i nm args a : limiter_means (EvDo i (OMeth (VRef base) nm args) a) [RateLimit.Start i; RateLimit.Finish i].

Inductive at_pc : RateLimit.pc -> prog -> Prop :=
| ap_enter sel nm zeros args : (sel = true -> hd VNil args <> VRef base) -> at_pc (RateLimit.Waiting sel false) (ratelimit_prog base ticks sel nm zeros args)
| ap_select nm zeros args ch : hd VNil args <> VRef base -> at_pc (RateLimit.Waiting true false) (ratelimit_select base ticks nm zeros args ch)
| ap_dead r : at_pc (RateLimit.Waiting true false) (Ret r)            (* ctx.Done() panicked *)
| ap_holding nm args : at_pc RateLimit.Holding (ratelimit_pass base nm args)
| ap_returned r : at_pc RateLimit.Returned (Ret r)
| ap_cancel c zeros : c <> VRef base -> at_pc RateLimit.Cancelled (ratelimit_cancel c zeros)
| ap_cancelled r : at_pc RateLimit.Cancelled (Ret r).

Definition limiter_rel (c : conf limiter) (s : RateLimit.state) : Prop :=
  RateLimit.buf s = l_buf (cf_shared c) /\ RateLimit.feed s = l_feed (cf_shared c) /\
  RateLimit.pending s = l_pending (cf_shared c) /\ Forall2 at_pc (RateLimit.calls s) (cf_calls c).

Lemma upd_upd : forall {A} (x y : A) l j, upd j x (upd j y l) = upd j x l.
Proof. intros A x y. induction l as [|z l IH]; intros [|j]; cbn; f_equal; auto. Qed.

Lemma limiter_simulates : forall c e c' s, limiter_rel c s -> limiter_step c e c' ->
  exists l s', limiter_means e l /\ run step s l s' /\ limiter_rel c' s'.
Proof.
  intros c e c' s (R1 & R2 & R3 & RT) HS. destruct s as [n f pd cs]. cbn [RateLimit.buf RateLimit.feed RateLimit.pending RateLimit.calls] in *.
  assert (Rsame : forall q q', l_buf q' = l_buf q -> l_feed q' = l_feed q -> l_pending q' = l_pending q -> n = l_buf q -> f = l_feed q -> pd = l_pending q ->
     forall ps, Forall2 at_pc cs ps -> limiter_rel (Conf q' ps) (RateLimit.State n f pd cs)).
  { intros q q' E1 E2 E3 F1 F2 F3 ps Hps. repeat split; cbn; congruence. }
  destruct HS as [q h q' ps He|q ps p (m & zeros & args & _ & _ & _ & _ & _ & Hc & ->)|q ps i o k a q' Hi Hs]; cbn [cf_shared cf_calls] in *.
  - destruct He as [b fd p cl Hd|b cl|b p cl Hb|b fd p cl k]; cbn in R1, R2, R3; subst.
    + eexists _, _. split; [apply lm_tick|]. split; [apply run_one; now apply RateLimit.s_tick|]. now repeat split.
    + eexists _, _. split; [apply lm_feed|]. split; [apply run_one; now apply RateLimit.s_feed|]. now repeat split.
    + eexists _, _. split; [apply lm_put|]. split; [apply run_one; now apply RateLimit.s_put|]. now repeat split.
    + eexists _, _. split; [apply lm_cancel|]. split; [apply run_nil|]. now repeat split.
  - eexists _, _. split; [constructor|]. split; [apply run_one; eapply RateLimit.s_call|].
    split; [exact R1|]. split; [exact R2|]. split; [exact R3|]. cbn. apply Forall2_snoc; [exact RT|]. apply ap_enter. intros E.
    apply andb_prop in E. destruct E as [E _]. destruct (Hc E) as (c & -> & Hn). congruence.
  - destruct (Forall2_nth_r _ _ _ _ _ RT Hi) as (pc & Hp & Hat). remember (Do o k) as p eqn:Ep.
    pose proof (nth_lt _ _ _ Hp) as Hlt.
    destruct Hat as [sel nm zeros args Hnb|nm zeros args ch Hnb|r|nm args|r|c0 zeros Hnb|r]; try discriminate.
    + destruct sel; cbn in Ep; injection Ep as <- <-.
      * assert (q' = q) by (now inversion Hs). subst q'.
        assert (Hr : at_pc (RateLimit.Waiting true false)
                 match a with ARet l => ratelimit_select base ticks nm zeros args (hd VNil l) | _ => Ret (outcome_of a) end)
          by (destruct a; constructor; now apply Hnb).
        eexists _, _. split; [apply lm_done; now apply Hnb|]. split; [apply run_nil|]. split; [exact R1|]. split; [exact R2|]. split; [exact R3|].
        cbn.
        assert (Eu : upd i (RateLimit.Waiting true false) cs = cs).
        { clear -Hp. revert i Hp. induction cs as [|z l IH]; intros [|i] Hp; cbn in *; try discriminate; [now injection Hp as -> | f_equal; auto]. }
        rewrite <- Eu. apply Forall2_upd; [exact RT | exact Hr].
      * inversion Hs; subst.
        -- eexists _, _. split; [apply lm_take|]. split; [apply run_one; eapply RateLimit.s_take; [exact Hp | reflexivity]|].
           repeat split; cbn. apply Forall2_upd; [exact RT | constructor].
        -- eexists _, _. split; [apply lm_take|]. split; [apply run_one; eapply RateLimit.s_handoff; [exact Hp | assumption | reflexivity]|].
           repeat split; cbn. apply Forall2_upd; [exact RT | constructor].
    + cbn in Ep. injection Ep as <- <-. inversion Hs; subst.
      * eexists _, _. split; [apply lm_take2|]. split; [apply run_one; eapply RateLimit.s_take; [exact Hp | reflexivity]|].
        repeat split; cbn. apply Forall2_upd; [exact RT | constructor].
      * eexists _, _. split; [apply lm_take2|]. split; [apply run_one; eapply RateLimit.s_handoff; [exact Hp | assumption | reflexivity]|].
        repeat split; cbn. apply Forall2_upd; [exact RT | constructor].
      * eexists _, _. split; [apply lm_cancelled|]. split.
        -- eapply run_cons; [eapply RateLimit.s_ctx; exact Hp|]. apply run_one. apply RateLimit.s_cancel. cbn. now apply nth_upd_same.
        -- repeat split; cbn. rewrite upd_upd. apply Forall2_upd; [exact RT | now constructor].
    + cbn in Ep. injection Ep as <- <-. assert (q' = q) by (now inversion Hs). subst q'.
      eexists _, _. split; [apply lm_base|]. split.
      * eapply run_cons; [eapply RateLimit.s_start; exact Hp|]. apply run_one. apply RateLimit.s_finish. cbn. now apply nth_upd_same.
      * split; [exact R1|]. split; [exact R2|]. split; [exact R3|]. cbn. rewrite upd_upd. apply Forall2_upd; [exact RT | constructor].
    + cbn in Ep. injection Ep as <- <-. assert (q' = q) by (now inversion Hs). subst q'.
      eexists _, _. split; [now apply lm_err|]. split; [apply run_nil|]. split; [exact R1|]. split; [exact R2|]. split; [exact R3|]. cbn.
      assert (Eu : upd i RateLimit.Cancelled cs = cs).
      { clear -Hp. revert i Hp. induction cs as [|z l IH]; intros [|i] Hp; cbn in *; try discriminate; [now injection Hp as -> | f_equal; auto]. }
      rewrite <- Eu. apply Forall2_upd; [exact RT | constructor].
Qed.

Lemma limiter_matches : forall c0 s0, limiter_rel c0 s0 -> forall tr c, run limiter_step c0 tr c ->
  exists ls s, matched limiter_means tr ls /\ run step s0 ls s /\ limiter_rel c s.
Proof.
  intros c0 s0 H0 tr c H. eapply (simulation limiter_sem limiter_env limiter_entry step limiter_means limiter_rel c0); [exact H0 | |exact H].
  intros tr0 c1 e c' ls s _ _ Hrel Hst. now apply (limiter_simulates c1).
Qed.

(** Every execution of generated calls is an execution of the model that C40 and
    C41 are about, with the same ticks, tokens and cancellations. *)
Theorem C62_ratelimit : forall tr c, run limiter_step fresh tr c ->
  exists ls s, matched limiter_means tr ls /\ run step (RateLimit.init burst) ls s /\ limiter_rel c s.
Proof. intros tr c H. eapply limiter_matches; [|exact H]. repeat split. constructor. Qed.

(** *** C40 and C41 for generated calls *)

Definition ticked (e : event happening) : bool := match e with EvEnv HTick => true | _ => false end.
(** a token taken, by line 47 or by the second case of the select of lines 40-45 *)
Definition took (e : event happening) : bool :=
  match e with
  | EvDo _ (OSelect [_]) (ARet _) => true
  | EvDo _ (OSelect _) (ARet (VInt 1 :: _)) => true
  | _ => false
  end.
(** the base returned or panicked *)
Definition based (e : event happening) : bool :=
  match e with EvDo _ (OMeth (VRef b) _ _) _ => Nat.eqb b base | _ => false end.
Definition occurs (f : event happening -> bool) (tr : list (event happening)) : nat := length (filter f tr).

Lemma occurs_app : forall f tr1 tr2, occurs f (tr1 ++ tr2) = occurs f tr1 + occurs f tr2.
Proof. intros. unfold occurs. now rewrite filter_app, app_length. Qed.

Lemma matched_counts : forall tr ls, matched limiter_means tr ls ->
  PropRateLimit.count PropRateLimit.is_tick ls = occurs ticked tr /\
  PropRateLimit.count PropRateLimit.is_take ls = occurs took tr /\
  PropRateLimit.count PropRateLimit.is_start ls = occurs based tr.
Proof.
  intros tr ls H. induction H as [|tr ls e l H (I1 & I2 & I3) Hm]; [repeat split|].
  rewrite !PropRateLimit.count_app, !occurs_app, I1, I2, I3.
  assert (Hb : forall c, c <> VRef base -> match c with VRef b => Nat.eqb b base | _ => false end = false).
  { intros [] Hc; try reflexivity. apply Nat.eqb_neq. congruence. }
  destruct Hm; (split; [|split]); cbn; try lia.
  - rewrite Hb by assumption. cbn. lia.
  - rewrite Hb by assumption. cbn. lia.
  - rewrite Nat.eqb_refl. cbn. lia.
Qed.

(** Since construction: no more tokens are taken than the burst plus one per
    tick. *)
Theorem C62_ratelimit_since_construction : forall tr c, run limiter_step fresh tr c ->
  occurs took tr <= burst + occurs ticked tr.
Proof.
  intros tr c H. destruct (C62_ratelimit tr c H) as (ls & s & Hm & HR & _). destruct (matched_counts _ _ Hm) as (<- & <- & _).
  pose proof (PropRateLimit.C40_token_conservation _ _ _ _ HR) as A.
  assert (PropRateLimit.count PropRateLimit.is_kept ls <= PropRateLimit.count PropRateLimit.is_tick ls)
    by (apply PropRateLimit.count_le; now intros [[] | | | | | | | |]). lia.
Qed.

(** ... and so are the calls of the base. *)
Theorem C62_ratelimit_base_calls : forall tr c, run limiter_step fresh tr c ->
  occurs based tr <= burst + occurs ticked tr.
Proof.
  intros tr c H. destruct (C62_ratelimit tr c H) as (ls & s & Hm & HR & _). destruct (matched_counts _ _ Hm) as (<- & _ & <-).
  eapply PropRateLimit.C40_since_construction. exact HR.
Qed.

(** In any window: the burst plus two plus one per tick of the window. *)
Theorem C62_ratelimit_window : forall tr1 c1 tr2 c2, run limiter_step fresh tr1 c1 -> run limiter_step c1 tr2 c2 ->
  occurs took tr2 <= burst + 2 + occurs ticked tr2.
Proof.
  intros tr1 c1 tr2 c2 H1 H2. destruct (C62_ratelimit tr1 c1 H1) as (ls1 & s1 & Hm1 & HR1 & Hrel).
  destruct (limiter_matches _ _ Hrel _ _ H2) as (ls2 & s2 & Hm2 & HR2 & _). destruct (matched_counts _ _ Hm2) as (<- & <- & _).
  eapply PropRateLimit.C40_window_tokens; eassumption.
Qed.

Lemma history_in : forall (tr : list (event happening)) i o a, In (o, a) (history i tr) -> In (EvDo i o a) tr.
Proof.
  intros tr i o a. induction tr as [|[e| |j o' a'] tr IH]; cbn [history]; intros Hin; [destruct Hin|right; auto|right; auto|].
  destruct (Nat.eqb_spec i j) as [->|_]; [|right; auto]. destruct Hin as [E|Hin]; [|right; auto]. injection E as -> ->. now left.
Qed.

(** what one call has done, in order *)
Inductive limiter_story (nm : string) (zeros args : list val) : bool -> trace -> prog -> Prop :=
| lt_enter sel : limiter_story nm zeros args sel [] (ratelimit_prog base ticks sel nm zeros args)
| lt_dead c v : limiter_story nm zeros args true [(ctx_done c, APan v)] (Ret (Pan v))
| lt_asked c ch : limiter_story nm zeros args true [(ctx_done c, ARet [ch])] (ratelimit_select base ticks nm zeros args ch)
| lt_token t : limiter_story nm zeros args false [(OSelect [VRef ticks], ARet [VInt 0; t])] (ratelimit_pass base nm args)
| lt_token2 c ch t : limiter_story nm zeros args true [(ctx_done c, ARet [ch]); (OSelect [ch; VRef ticks], ARet [VInt 1; t])] (ratelimit_pass base nm args)
| lt_passed t a : a <> ABlock ->
    limiter_story nm zeros args false [(OSelect [VRef ticks], ARet [VInt 0; t]); (OMeth (VRef base) nm args, a)] (Ret (outcome_of a))
| lt_passed2 c ch t a : a <> ABlock ->
    limiter_story nm zeros args true
      [(ctx_done c, ARet [ch]); (OSelect [ch; VRef ticks], ARet [VInt 1; t]); (OMeth (VRef base) nm args, a)] (Ret (outcome_of a))
| lt_cancel c ch t : limiter_story nm zeros args true
    [(ctx_done c, ARet [ch]); (OSelect [ch; VRef ticks], ARet [VInt 0; t])] (ratelimit_cancel (hd VNil args) zeros)
| lt_cancelled c ch t e : limiter_story nm zeros args true
    [(ctx_done c, ARet [ch]); (OSelect [ch; VRef ticks], ARet [VInt 0; t]); (ctx_err (hd VNil args), ARet [e])]
    (Ret (Val (removelast zeros ++ [e])))
| lt_cancelled_panics c ch t v : limiter_story nm zeros args true
    [(ctx_done c, ARet [ch]); (OSelect [ch; VRef ticks], ARet [VInt 0; t]); (ctx_err (hd VNil args), APan v)] (Ret (Pan v)).

(** Every call goes through these steps and no others: one token before the one
    call of the base, none for a cancelled call, which never reaches the base. *)
Theorem C62_ratelimit_story : forall tr c i p, run limiter_step fresh tr c -> nth_error (cf_calls c) i = Some p ->
  exists m zeros args, limiter_entry (ratelimit_prog base ticks (m_acceptsContext m && m_returnsError m) (m_name m) zeros args) /\
    limiter_story (m_name m) zeros args (m_acceptsContext m && m_returnsError m) (history i tr) p.
Proof.
  intros tr c i p H Hi. destruct (proj1 (sys_reaches _ _ _ _ _ _ H) i _ Hi) as (p0 & (m & zeros & args & H1 & H2 & H3 & H4 & H5 & H6 & ->) & Hr).
  assert (Hans : forall o a, In (o, a) (history i tr) -> exists s s', limiter_sem s o a s')
    by (intros o a Hin; eapply sys_answers; [exact H | exact Hin]).
  exists m, zeros, args. split; [exists m, zeros, args; tauto|].
  assert (Hctx : m_acceptsContext m && m_returnsError m = true -> exists c, hd VNil args = VRef c /\ c <> base)
    by (intros E; apply andb_prop in E; now apply H6).
  revert Hr Hans. generalize (history i tr). intros h Hr Hans. revert Hctx Hr.
  generalize (m_acceptsContext m && m_returnsError m). intros sel Hctx Hr.
  unfold ratelimit_prog in Hr. destruct sel.
  - destruct (Hctx eq_refl) as (c0 & Hc0 & Hn0).
    inversion Hr as [|o1 k1 a1 h1 p1 Hr1]; subst; [apply lt_enter|].
    destruct (Hans _ _ (or_introl eq_refl)) as (s & s' & Hs). rewrite Hc0 in Hs.
    inversion Hs; subst; try (now destruct Hn0).
    + cbn [hd] in Hr1. unfold ratelimit_select in Hr1. inversion Hr1 as [|o2 k2 a2 h2 p2 Hr2]; subst; [apply lt_asked|].
      destruct (Hans _ _ (or_intror (or_introl eq_refl))) as (s2 & s2' & Hs2). inversion Hs2; subst; cbn in Hr2.
      * inversion Hr2 as [|o3 k3 a3 h3 p3 Hr3]; subst; [apply lt_token2|].
        destruct (Hans _ _ (or_intror (or_intror (or_introl eq_refl)))) as (s3 & s3' & Hs3).
        inversion Hr3; subst. apply lt_passed2. intros ->. inversion Hs3.
      * inversion Hr2 as [|o3 k3 a3 h3 p3 Hr3]; subst; [apply lt_token2|].
        destruct (Hans _ _ (or_intror (or_intror (or_introl eq_refl)))) as (s3 & s3' & Hs3).
        inversion Hr3; subst. apply lt_passed2. intros ->. inversion Hs3.
      * inversion Hr2 as [|o3 k3 a3 h3 p3 Hr3]; subst; [apply lt_cancel|].
        destruct (Hans _ _ (or_intror (or_intror (or_introl eq_refl)))) as (s3 & s3' & Hs3). rewrite Hc0 in Hs3.
        inversion Hs3; subst; try (now destruct Hn0); inversion Hr3; subst; constructor.
    + inversion Hr1; subst. apply lt_dead.
  - inversion Hr as [|o1 k1 a1 h1 p1 Hr1]; subst; [apply (lt_enter _ _ _ false)|].
    destruct (Hans _ _ (or_introl eq_refl)) as (s & s' & Hs). inversion Hs; subst; cbn in Hr1.
    + inversion Hr1 as [|o3 k3 a3 h3 p3 Hr3]; subst; [apply lt_token|].
      destruct (Hans _ _ (or_intror (or_introl eq_refl))) as (s3 & s3' & Hs3).
      inversion Hr3; subst. apply lt_passed. intros ->. inversion Hs3.
    + inversion Hr1 as [|o3 k3 a3 h3 p3 Hr3]; subst; [apply lt_token|].
      destruct (Hans _ _ (or_intror (or_introl eq_refl))) as (s3 & s3' & Hs3).
      inversion Hr3; subst. apply lt_passed. intros ->. inversion Hs3.
Qed.

(** A finished call is a run of the generated body. *)
Theorem C62_ratelimit_is_run : forall tr c i r L, run limiter_step fresh tr c ->
  nth_error (cf_calls c) i = Some (Ret r) ->
  exists W m zeros args, limiter_entry (ratelimit_prog base ticks (m_acceptsContext m && m_returnsError m) (m_name m) zeros args) /\
    run_method W m [] L (ratelimit_body m) (VRec [("_base", VRef base); ("_ticks", VRef ticks)]) zeros args = (r, history i tr).
Proof.
  intros tr c i r L H Hi. destruct (proj1 (sys_reaches _ _ _ _ _ _ H) i _ Hi) as (p0 & (m & zeros & args & H1 & H2 & H3 & H4 & H5 & H6 & ->) & Hr).
  assert (Hans : forall o a, In (o, a) (history i tr) -> exists s s', limiter_sem s o a s')
    by (intros o a Hin; eapply sys_answers; [exact H | exact Hin]).
  exists (scripted (history i tr)), m, zeros, args. split; [exists m, zeros, args; tauto|].
  eapply finished_run; [exact Hr|]. apply C62_ratelimit_call; try assumption.
  - intros tr1 args1 vs1 Hw1. apply scripted_in in Hw1. destruct Hw1 as (o1 & Hin1 & Hsim1).
    destruct o1 as [|rv f as1| | | |]; try discriminate. cbn in Hsim1. apply andb_prop in Hsim1. destruct Hsim1 as [Hb Hsim1].
    destruct rv; try discriminate. apply Nat.eqb_eq in Hb. subst n.
    apply andb_prop in Hsim1. destruct Hsim1 as [Hn _]. apply String.eqb_eq in Hn. subst f.
    destruct (Hans _ _ Hin1) as (s1 & s1' & Hs1). inversion Hs1; subst; try contradiction. congruence.
  - intros E. destruct (H6 E) as (c0 & E0 & _). eauto.
  - intros tr1 vs Hw. apply scripted_in in Hw. destruct Hw as (o1 & Hin1 & Hsim1).
    destruct o1 as [|rv f as1|chs| | |]; try discriminate. destruct chs as [|x [|y chs]]; cbn in Hsim1; rewrite ?andb_false_r in Hsim1; try discriminate.
    destruct (Hans _ _ Hin1) as (s1 & s1' & Hs1). inversion Hs1; subst; eauto.
  - intros tr1 ch vs Hw. apply scripted_in in Hw. destruct Hw as (o1 & Hin1 & Hsim1).
    destruct o1 as [|rv f as1|chs| | |]; try discriminate. destruct chs as [|x [|y [|z chs]]]; cbn in Hsim1; rewrite ?andb_false_r in Hsim1; try discriminate.
    destruct (Hans _ _ Hin1) as (s1 & s1' & Hs1). inversion Hs1; subst; eauto 6.
  - intros E tr1 vs Hw. destruct (H6 E) as (c0 & E0 & Hn0). rewrite E0 in Hw.
    apply scripted_in in Hw. destruct Hw as (o1 & Hin1 & Hsim1).
    destruct o1 as [|rv f as1|chs| | |]; try discriminate. unfold ctx_done, similar in Hsim1.
    apply andb_prop in Hsim1. destruct Hsim1 as [Hb Hsim1]. apply same_ref_ref in Hb. subst rv.
    apply andb_prop in Hsim1. destruct Hsim1 as [Hn Hl]. apply String.eqb_eq in Hn. subst f.
    destruct (Hans _ _ Hin1) as (s1 & s1' & Hs1). inversion Hs1; subst; eauto; contradiction.
  - intros E tr1 vs Hw. destruct (H6 E) as (c0 & E0 & Hn0). rewrite E0 in Hw.
    apply scripted_in in Hw. destruct Hw as (o1 & Hin1 & Hsim1).
    destruct o1 as [|rv f as1|chs| | |]; try discriminate. unfold ctx_err, similar in Hsim1.
    apply andb_prop in Hsim1. destruct Hsim1 as [Hb Hsim1]. apply same_ref_ref in Hb. subst rv.
    apply andb_prop in Hsim1. destruct Hsim1 as [Hn Hl]. apply String.eqb_eq in Hn. subst f.
    destruct (Hans _ _ Hin1) as (s1 & s1' & Hs1). inversion Hs1; subst; eauto; contradiction.
Qed.
End MANY.

(** ** An execution: burst 1, three calls; the first takes the token of the
    burst, the second one made by a tick, the third is cancelled *)
Definition ex_args : list val := [VRef 3; VInt 7; VInt 8; VSlice []].
Definition ex_limiter_events : list (event happening) :=
  [EvCall; EvCall; EvCall;
   EvDo 0 (ctx_done (VRef 3)) (ARet [VRef 30]);
   EvDo 1 (ctx_done (VRef 3)) (ARet [VRef 30]);
   EvDo 2 (ctx_done (VRef 3)) (ARet [VRef 30]);
   EvDo 0 (OSelect [VRef 30; VRef 5]) (ARet [VInt 1; VNil]);
   EvEnv HTick; EvEnv HFeed;
   EvDo 0 (OMeth (VRef 1) "Do" ex_args) (APan VNil);
   EvEnv HPut;
   EvDo 1 (OSelect [VRef 30; VRef 5]) (ARet [VInt 1; VNil]);
   EvEnv (HCancel 30);
   EvDo 2 (OSelect [VRef 30; VRef 5]) (ARet [VInt 0; VNil]);
   EvDo 1 (OMeth (VRef 1) "Do" ex_args) (ARet [VString "s"; VNil]);
   EvDo 2 (ctx_err (VRef 3)) (ARet [VInt 99])].

Example C62_ratelimit_nontrivial :
  (exists c, run (sys_step (limiter_sem 1 5 1 (fun _ => 2) (fun _ => VRef 30)) (limiter_env 1 100) (limiter_entry 1 5 (fun _ => 2)))
      (fresh 1) ex_limiter_events c /\
      cf_calls c = [Ret (Pan VNil); Ret (Val [VString "s"; VNil]); Ret (Val [VString ""; VInt 99])]) /\
  occurs took ex_limiter_events = 2 /\ occurs ticked ex_limiter_events = 1 /\ occurs (based 1) ex_limiter_events = 2.
Proof.
  assert (He : limiter_entry 1 5 (fun _ => 2) (ratelimit_prog 1 5 true "Do" [VString ""; VNil] ex_args)).
  { exists ex_m, [VString ""; VNil], ex_args. split; [eapply NewMethod_wf, ex_NewMethod|].
    split; [intros x Hx Hin; cbn in Hx, Hin; intuition (subst; discriminate)|].
    split; [reflexivity|]. split; [reflexivity|]. split; [reflexivity|]. split; [|reflexivity].
    intros _. exists 3. split; [reflexivity | discriminate]. }
  split; [|repeat split].
  eexists. unfold ex_limiter_events, fresh. split.
  - do 3 (eapply run_cons; [apply y_call; exact He|]; cbn [app]).
    do 3 (eapply run_cons; [eapply y_do; [reflexivity | apply (ls_done 1 5 1 (fun _ => 2) (fun _ => VRef 30) _ 3); discriminate]|]; cbn [upd]).
    eapply run_cons; [eapply y_do; [reflexivity | apply ls_take2]|]; cbn [upd].
    eapply run_cons; [apply y_env; apply le_tick; lia|].
    eapply run_cons; [apply y_env; apply le_feed|].
    eapply run_cons; [eapply y_do; [reflexivity | apply ls_base_panics]|]; cbn [upd].
    eapply run_cons; [apply y_env; apply le_put; lia|].
    eapply run_cons; [eapply y_do; [reflexivity | apply ls_take2]|]; cbn [upd].
    eapply run_cons; [apply y_env; apply le_cancel|].
    eapply run_cons; [eapply y_do; [reflexivity | apply ls_cancelled; now left]|]; cbn [upd].
    eapply run_cons; [eapply y_do; [reflexivity | apply ls_base; reflexivity]|]; cbn [upd].
    eapply run_cons; [eapply y_do; [reflexivity | apply ls_err; discriminate]|]; cbn [upd].
    apply run_nil.
  - reflexivity.
Qed.

Print Assumptions C62_ratelimit_call.
Print Assumptions C62_ratelimit.
Print Assumptions C62_ratelimit_since_construction.
Print Assumptions C62_ratelimit_base_calls.
Print Assumptions C62_ratelimit_window.
Print Assumptions C62_ratelimit_story.
Print Assumptions C62_ratelimit_is_run.
