(** Property C85: rate limited calls and their contexts (templates/ratelimit:39-48). *)
From Verif Require Import RateLimit PropRateLimit.
Open Scope nat_scope.

(** ** Specification *)
Definition by_call (i : nat) (l : label) : Prop := l = Take i \/ l = Cancel i.

(** A call of a method with a context and an error can stop waiting as soon as
    its context is done, whatever the tokens and the other calls do. *)
Theorem C85_stops : forall burst delay s i, nth_error (calls s) i = Some (Waiting true true) ->
  exists s', step burst delay s (Cancel i) s' /\ nth_error (calls s') i = Some Cancelled /\ buf s' = buf s /\ feed s' = feed s /\ pending s' = pending s.
Proof.
  intros burst delay s i Hi. eexists. split; [eapply s_cancel; exact Hi|]. cbn. repeat split. apply nth_upd_same. now apply (nth_lt _ _ _ Hi).
Qed.

(** A call that ends with its context's error took no token and did not call the
    implementation, and its context was done before. *)
Theorem C85_cancelled : forall burst delay tr s i, run (step burst delay) (init burst) tr s ->
  (In (Cancel i) tr \/ nth_error (calls s) i = Some Cancelled) ->
  ~ In (Take i) tr /\ ~ In (Start i) tr /\ exists tr1 tr2, tr = tr1 ++ Cancel i :: tr2 /\ In (CtxDone i) tr1.
Proof.
  intros burst delay tr s i H HC.
  assert (L : forall l, In l tr -> match l with Take j | Cancel j | Start j | CtxDone j => j < length (calls s) | _ => True end).
  { clear HC. induction H as [|tr s1 l s2 HR IH HS]; [intros l []|].
    assert (Le : length (calls s1) <= length (calls s2)) by (destruct HS; cbn [calls]; rewrite ?upd_length, ?app_length; lia).
    intros l' Hl. apply in_app_or in Hl. destruct Hl as [Hl|[<-|[]]].
    - specialize (IH l' Hl). destruct l'; auto; lia.
    - destruct HS; cbn [calls] in *; auto; rewrite upd_length; eapply nth_lt; eassumption. }
  assert (Hi : i < length (calls s)) by (destruct HC as [HC|HC]; [exact (L _ HC) | exact (nth_lt _ _ _ HC)]).
  destruct (nth_error (calls s) i) as [p|] eqn:E; [|apply nth_error_None in E; lia].
  pose proof (C40_story burst delay tr s i p H E) as S.
  assert (M : forall l, (l = Take i \/ l = Start i \/ l = Cancel i \/ l = CtxDone i) -> In l tr <-> In l (events i tr)).
  { intros l Hl. unfold events. rewrite filter_In. intuition (subst; cbn; now rewrite ?Nat.eqb_refl). }
  assert (EV : events i tr = [CtxDone i; Cancel i]).
  { destruct HC as [HC|HC]; [apply M in HC; [|tauto]|injection HC as ->; now inversion S].
    inversion S as [sel A B|sel A B|A B|pre Hp A B|pre Hp A B|pre Hp A B]; rewrite <- ?A in HC; try reflexivity; cbn in HC;
      try (apply in_app_or in HC); destruct Hp as [-> | ->] || idtac; cbn in HC; intuition discriminate. }
  split; [rewrite M, EV by tauto; cbn; intuition discriminate|]. split; [rewrite M, EV by tauto; cbn; intuition discriminate|].
  assert (HC2 : In (Cancel i) tr) by (apply M; [tauto|]; rewrite EV; cbn; tauto). apply in_split in HC2. destruct HC2 as (tr1 & tr2 & ->).
  exists tr1, tr2. split; [reflexivity|]. unfold events in EV. rewrite filter_app in EV. cbn [filter] in EV. rewrite Nat.eqb_refl in EV.
  destruct (filter _ tr1) as [|a l] eqn:F; [discriminate EV|]. injection EV as -> _.
  assert (Y : In (CtxDone i) (CtxDone i :: l)) by now left. rewrite <- F in Y. now apply filter_In in Y.
Qed.

(** A call whose context is done already may take a token all the same and call
    the implementation: select chooses among the cases that are ready. *)
Theorem C85_not_called_refuted : forall burst delay, 0 < burst -> exists s,
  run (step burst delay) (init burst) [Call true; CtxDone 0; Take 0; Start 0] s /\ nth_error (calls s) 0 = Some Running.
Proof.
  intros [|b] delay Hb; [lia|]. eexists. split.
  - eapply run_cons; [apply s_call|]. eapply run_cons; [eapply s_ctx; reflexivity|].
    eapply run_cons; [eapply (s_take _ _ _ 0); reflexivity|]. apply run_one. eapply s_start. reflexivity.
  - reflexivity.
Qed.

(** With no token to take, it does end with the context's error. *)
Theorem C85_no_token : forall burst delay s i l s', nth_error (calls s) i = Some (Waiting true true) -> buf s = 0 -> (burst = 0 -> feed s = AtRange) ->
  step burst delay s l s' -> by_call i l -> l = Cancel i.
Proof.
  intros burst delay s i l s' Hi Hb Hf HS [-> | ->]; [|reflexivity]. inversion HS; subst; [congruence|].
  rewrite Hf in * by reflexivity. discriminate.
Qed.

(** A call of a method with a context but without an error goes on waiting when
    its context is done: without tokens, for ever. *)
Theorem C85_no_error_refuted : forall delay, (delay <= 0)%Z -> exists tr s, run (step 0 delay) (init 0) tr s /\
  nth_error (calls s) 0 = Some (Waiting false true) /\
  forall tr' s', run (step 0 delay) s tr' s' -> nth_error (calls s') 0 = Some (Waiting false true).
Proof.
  intros delay Hd. exists [Call false; CtxDone 0]. eexists. split; [|split].
  - eapply run_cons; [apply s_call|]. apply run_one. eapply s_ctx. reflexivity.
  - reflexivity.
  - intros tr' s' H.
    apply (run_inv (step 0 delay) (fun _ s => buf s = 0 /\ feed s = AtRange /\ pending s = false /\ nth_error (calls s) 0 = Some (Waiting false true))) in H; [tauto | now cbn |].
    clear -Hd. intros tr s1 l s2 _ (B & F & P & W) HS.
    assert (U : forall i p q, nth_error (calls s1) i = Some p -> p <> Waiting false true -> nth_error (upd i q (calls s1)) 0 = Some (Waiting false true)).
    { intros i p q Hi Hp. rewrite nth_upd_other; [exact W|]. intros ->. congruence. }
    destruct HS; cbn [buf feed pending calls]; try congruence; try lia; repeat split; auto; try (eapply U; [eassumption|discriminate]).
    destruct (calls s); [discriminate | exact W].
Qed.

Example C85_nontrivial : exists s, run (step 1 5) (init 1) [Call true; Take 0; Call true; CtxDone 1; Cancel 1] s /\
  nth_error (calls s) 1 = Some Cancelled /\ nth_error (calls s) 0 = Some Holding.
Proof.
  eexists. split.
  - eapply run_cons; [apply s_call|]. eapply run_cons; [eapply (s_take _ _ _ 0); reflexivity|]. eapply run_cons; [apply s_call|].
    eapply run_cons; [eapply (s_ctx _ _ _ 1); reflexivity|]. apply run_one. eapply (s_cancel _ _ _ 1). reflexivity.
  - split; reflexivity.
Qed.

Print Assumptions C85_stops.
Print Assumptions C85_cancelled.
Print Assumptions C85_not_called_refuted.
Print Assumptions C85_no_token.
Print Assumptions C85_no_error_refuted.
