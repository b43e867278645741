(** A call of a method generated by templates/fallback is never stuck. *)
From Verif Require Import FallbackCalls FallbackProofs PropFallback.
Open Scope nat_scope.

(** steps the call takes by itself: not the environment's, not an
    implementation's return *)
Definition own (ev : event) : bool := match ev with Ticked _ | CallerDone | Answered _ _ _ => false | _ => true end.

Lemma run_not_waits : forall m tname ctx_text res s t k ds, nth_error (g_gos s) t = Some (Run k ds) -> advance m tname ctx_text res t s <> Waits.
Proof.
  intros m tname ctx_text res s t k ds H E. unfold advance in E. rewrite H in E. unfold exec_stmt in E.
  repeat (match type of E with
          | match ?x with _ => _ end = _ => destruct x eqn:?; try discriminate
          | (if ?x then _ else _) = _ => destruct x eqn:?; try discriminate
          end).
Qed.

Section PROGRESS.
Variable m : method.
Variable typ : string.
Variable tname : nat -> string.
Variable ctx_text : string.
Variable n : nat.
Variable interval : Z.
Variables zeros args : list cval.
Notation ctxm := (m_acceptsContext m).
Notation errm := (m_returnsError m).
Hypothesis Hwf : wf_method m.
Hypothesis Hids : hygienic m fallback_ids.
Hypothesis Hcompiles : errm = true -> ctxm = true.
Hypothesis Hinterval : (0 < interval)%Z.
Hypothesis Hzeros : length zeros = length (cresults m).
Hypothesis Hargs : length args = length (cparams m).
Hypothesis Hctx : ctxm = true -> exists r, args = CtxV 0 :: r.
Notation V := (list cval).
Notation lts := (@step V ctxm errm n tname ctx_text).
Notation gostep := (gstep m tname ctx_text (result_locs m)).
Notation adv := (advance m tname ctx_text (result_locs m)).
Notation rel := (relates m typ tname ctx_text n interval zeros args).
Notation mat := (matches m typ tname ctx_text n interval zeros args).
Definition can_step (s : gstate) : Prop := exists ev s', gostep s ev s' /\ own ev = true.

(** with a context, a goroutine that is running can go on *)
Lemma moves : forall s l t k ds, ctxm = true -> rel s l -> nth_error (g_gos s) t = Some (Run k ds) -> can_step s.
Proof.
  intros s l t k ds Hc R H. pose proof (run_not_waits m tname ctx_text (result_locs m) s t k ds H) as W.
  pose proof (never_faults m typ tname ctx_text n interval zeros args Hwf Hids Hcompiles Hinterval Hzeros Hargs Hctx s l t R) as F.
  destruct (adv t s) as [s'| g vs body | i vs g | bs e k' ds' | d g | | |] eqn:A.
  - exists (Tau t), s'. split; [now apply g_local | reflexivity].
  - eexists _, _. split; [eapply g_spawn; exact A | reflexivity].
  - eexists _, _. split; [eapply g_call; exact A | reflexivity].
  - exfalso. destruct R as [R | (pa & tk & -> & R)].
    + pose proof (all_fine m typ tname ctx_text n interval zeros args Hwf Hids Hcompiles Hzeros Hargs Hctx s l t R) as P. rewrite A in P. destruct P as (i & vs & _ & E & _). congruence.
    + destruct t as [|t]; [|destruct (setting_gos _ _ _ _ _ _ _ _ _ R) as (e' & l' & ds2 & Eg); rewrite Eg in H; destruct t; discriminate].
      destruct (setting_adv m typ tname ctx_text n interval zeros args Hwf Hids Hcompiles Hinterval Hzeros Hargs Hctx _ _ _ R) as [(s1 & B & _) | (g & vs & body & B & _)]; congruence.
  - destruct d as [c|i].
    + eexists _, _. split; [eapply g_stop; exact A | reflexivity].
    + eexists _, _. split; [eapply g_cancel; exact A | reflexivity].
  - eexists _, _. split; [eapply g_end; exact A | reflexivity].
  - congruence.
  - congruence.
Qed.

Lemma ended_or : forall gs : list gostate, (exists i g, nth_error gs i = Some g /\ g <> Ended) \/ (forall i g, nth_error gs i = Some g -> g = Ended).
Proof.
  induction gs as [|g gs [(i & g' & A & B) | IH]]; [right; intros [|i] g H; discriminate | left; exists (S i), g'; auto|].
  destruct g; try (left; eexists 0, _; split; [reflexivity | discriminate]). right. intros [|i] g H; [cbn in H; congruence | now apply (IH i)].
Qed.

Theorem progress : forall ls s l, ctxm = true -> 0 < n -> run lts (init n) ls l -> rel s l -> nth_error (g_gos s) 0 <> Some Ended ->
  can_step s \/ exists t i e r k ds, nth_error (g_gos s) t = Some (InCall i e r k ds).
Proof.
  intros ls s l Hc Hn HR R HE. pose proof R as R0. destruct R as [M | (pa & tk & -> & S0)].
  2:{ left. destruct (setting_gos m typ n interval zeros args _ _ _ S0) as (e & l & ds & Eg). apply (moves s (start_state n pa tk) 0 [FSeq e l] ds Hc R0). now rewrite Eg. }
  pose proof (chans_eq m typ tname ctx_text n interval zeros args _ _ M) as Ech. pose proof (ctxs_eq m typ tname ctx_text n interval zeros args _ _ M) as Ecx.
  pose proof M as M0. destruct M as [sg0 sg1 segs g0 g1 gs st Es Hst Hse Hm Hla Hls Hlg Hli Him Hnew].
  assert (N0 : nth_error (g_gos s) 0 = Some g0) by (rewrite Es; reflexivity). assert (N1 : nth_error (g_gos s) 1 = Some g1) by (rewrite Es; reflexivity).
  assert (N2 : forall i, nth_error (g_gos s) (2 + i) = nth_error gs i) by (intros i; rewrite Es; reflexivity).
  destruct g0 as [k ds | i e r k ds | bs e k ds |]; [left; eapply moves; eauto | right; eauto 10 | | congruence].
  destruct (parked_main m typ tname ctx_text n interval zeros args _ _ _ _ _ _ M0 N0) as [(-> & Hmn & _ & -> & -> & ->) | [(_ & _ & Hx & _) | (x & Hmn & _ & He & _ & ->)]].
  - (* waiting for results *)
    destruct g1 as [k1 ds1 | i1 e1 r1 k1 ds1 | bs1 e1 k1 ds1 |] eqn:Eg1; [left; eapply moves; eauto | right; eauto 10 | |].
    all: destruct (ended_or gs) as [(i & g & Ng & Hg) | All].
    1, 3: rewrite <- N2 in Ng; destruct g as [k2 ds2 | i2 e2 r2 k2 ds2 | bs2 e2 k2 ds2 |]; [left; eapply moves; eauto | right; eauto 10 | | congruence].
    1, 2: left; pose proof (at_parked m tname ctx_text (result_locs m) s (2 + i) _ _ _ _ Ng) as AC;
      destruct (comm_impl m typ tname ctx_text n interval zeros args Hwf Hids Hcompiles Hzeros Hargs Hctx _ _ _ _ _ _ _ M0 AC) as (vs & Ht & -> & _ & -> & -> & ->);
      eexists _, _; split; [|shelve];
      eapply g_pass with (t := 2 + i) (u := 0) (c := 0) (v := record m vs); [discriminate | exact AC | unfold sends, offers; rewrite Hc; left; reflexivity | exact N0 | left; reflexivity | rewrite Ech; reflexivity | reflexivity].
    Unshelve. all: try reflexivity.
    all: assert (Hex : forall i p, nth_error (impls l) i = Some p -> p = IExited \/ p = INew)
      by (intros i p Hp; destruct (le_lt_dec (length gs) i) as [L|L];
          [ right; rewrite Hnew in Hp; [congruence | split; [exact L | rewrite <- Hli; eapply nth_lt; eauto]]
          | left; destruct (Him i L) as (sg & g & p' & _ & Ng & Np & Hi); rewrite (All i g Ng) in Hi; rewrite Hp in Np; injection Np as <-; now inversion Hi ]).
    all: left; rewrite Hc in HR; destruct (C36_no_deadlock _ _ _ _ _ _ _ Hn HR) as [(lb & l' & Hen & Hs) | (i & Hi)];
      [rewrite Hmn; discriminate | | destruct (Hex _ _ Hi); discriminate].
    all: inversion Hs; subst lb; try discriminate; try congruence;
      try (match goal with H : nth_error (impls _) _ = Some _ |- _ => destruct (Hex _ _ H); congruence end).
    all: try (match goal with H : launcher _ = _ |- _ => rewrite H in Hla; inversion Hla; fail end).
    1, 2: destruct (parked_launcher m typ tname ctx_text n interval zeros args _ _ _ _ _ _ M0 N1) as (i0 & _ & _ & -> & -> & -> & ->); eexists _, _; split; [|shelve].
    1: eapply g_get with (t := 1) (c := 1); [apply at_parked; exact N1 | left; reflexivity | rewrite Ech; reflexivity | cbn; match goal with H : nexts _ = S _ |- _ => rewrite H end; reflexivity].
    1: eapply g_get with (t := 1) (c := 2); [apply at_parked; exact N1 | right; left; reflexivity | rewrite Ech; reflexivity | cbn; match goal with H : tick _ = true |- _ => rewrite H end; reflexivity].
    1, 2: eexists _, _; split; [eapply g_done with (t := 0) (i := 1); [apply at_parked; exact N0 | right; left; reflexivity | rewrite Ecx; unfold ctxs_of; rewrite Hc; cbn; assumption] | reflexivity].
    Unshelve. all: reflexivity.
  - congruence.
  - (* sending *)
    left. pose proof (C36_send_never_blocks _ _ _ _ _ _ _ _ _ (or_introl Hc) HR Hmn) as Hlt.
    eexists _, _. split; [|shelve]. eapply g_put with (t := 0) (c := 1) (v := UnitV); [apply at_parked; exact N0 | left; reflexivity | rewrite Ech; reflexivity | cbn; rewrite repeat_length; exact Hlt].
    Unshelve. reflexivity.
Qed.
End PROGRESS.
