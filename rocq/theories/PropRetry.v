(** C39: attempts and result of a retrying call. *)
From Verif Require Import Retry PropNaming.
Open Scope nat_scope.

(** some wait in the trace found the context done *)
Definition cancelled (c : val) (tr : trace) : Prop :=
  exists ch tick v a b, tr = a ++ [(OMeth c "Done" [], ARet [ch]); (OSelect [ch; tick], ARet [VInt 0; v])] ++ b.

Section SPEC.
Variables (b : nat) (nm : string) (args : list val).
Let base := OMeth (VRef b) nm args.

(** what is claimed of the answers [l] of the attempts *)
Record attempts (n : Z) (ctx : option val) (tr : trace) (l : list (list val * ans)) (r : out (list val)) : Prop := {
  at_args : Forall (fun c => fst c = args) l;
  at_some : l <> [];
  at_most : (Z.of_nat (length l) <= 1 + Z.max 0 n)%Z;
  at_retried : Forall (fun c => exists vs, snd c = ARet vs /\ error_of vs <> VNil) (removelast l);
  at_result : forall vs, r = Val vs -> snd (last l ([], ABlock)) = ARet vs;
  at_enough : forall vs, r = Val vs -> error_of vs <> VNil ->
    (Z.of_nat (length l) = 1 + Z.max 0 n)%Z \/ exists c, ctx = Some c /\ cancelled c tr;
  at_outcome : r <> NoFuel /\ r <> Stuck
}.

Lemma base_calls_base : forall a tr, base_calls b nm ((base, a) :: tr) = (args, a) :: base_calls b nm tr.
Proof. intros. cbn. now rewrite Nat.eqb_refl, String.eqb_refl. Qed.

Definition foreign (ctx : option val) : Prop := forall c, ctx = Some c -> exists k, c = VRef k /\ k <> b.

Lemma base_calls_waits : forall tick ctx w e, foreign ctx -> waits tick ctx w e -> base_calls b nm w = [].
Proof.
  intros tick ctx w e Hctx H.
  destruct H as [| | c a r| c ch a r| c ch v| c ch v]; try reflexivity;
  destruct (Hctx c eq_refl) as [k [-> Hk]]; cbn; apply Nat.eqb_neq in Hk; rewrite Hk; reflexivity.
Qed.

Lemma fails_outcome : forall a r, fails a r -> r <> NoFuel /\ r <> Stuck /\ forall vs, r <> Val vs.
Proof. intros [l|v|] r H; cbn in H; [contradiction| |]; subst; repeat split; discriminate. Qed.

Lemma cancelled_after : forall c a tr, cancelled c tr -> cancelled c (a ++ tr).
Proof.
  intros c a tr (ch & tick & v & x & y & ->). exists ch, tick, v, (a ++ x), y. now rewrite <- app_assoc.
Qed.

Lemma cancelled_before : forall c a tr, cancelled c tr -> cancelled c (tr ++ a).
Proof.
  intros c a tr (ch & tick & v & x & y & ->). exists ch, tick, v, x, (y ++ a). now rewrite <- !app_assoc.
Qed.

Lemma waits_cancelled : forall tick ctx w, waits tick ctx w Cancelled -> exists c, ctx = Some c /\ cancelled c w.
Proof.
  intros tick ctx w H. inversion H; subst. exists c. split; [reflexivity|]. now exists ch, tick, v, [], [].
Qed.

Lemma waits_failed : forall tick ctx w r, waits tick ctx w (Failed r) -> exists a, fails a r.
Proof. intros tick ctx w r H. inversion H; subst; eauto. Qed.

(** one more failed attempt in front *)
Lemma attempts_cons : forall n ctx tr tr' l r vs,
  (0 < n)%Z -> error_of vs <> VNil -> (forall c, cancelled c tr -> cancelled c tr') ->
  attempts (n - 1) ctx tr l r -> attempts n ctx tr' ((args, ARet vs) :: l) r.
Proof.
  intros n ctx tr tr' l r vs Hn Hvs Hc [H1 H2 H3 H4 H5 H6 H7]. constructor.
  - now constructor.
  - discriminate.
  - cbn [length]. lia.
  - destruct l as [|x l]; [constructor|]. change (removelast ((args, ARet vs) :: x :: l)) with ((args, ARet vs) :: removelast (x :: l)).
    constructor; [|exact H4]. cbn. eauto.
  - intros ws E. destruct l as [|x l]; [contradiction|]. change (last ((args, ARet vs) :: x :: l) ([], ABlock)) with (last (x :: l) ([], ABlock)). auto.
  - intros ws E He. destruct (H6 ws E He) as [Hl | [c [E1 E2]]]; [left; cbn [length]; lia | right; eauto].
  - exact H7.
Qed.

(** the last attempt *)
Lemma attempts_last : forall n ctx tr a r,
  r <> NoFuel /\ r <> Stuck ->
  (forall vs, r = Val vs -> a = ARet vs) ->
  (forall vs, r = Val vs -> error_of vs <> VNil -> (n <= 0)%Z \/ exists c, ctx = Some c /\ cancelled c tr) ->
  attempts n ctx tr [(args, a)] r.
Proof.
  intros n ctx tr a r H1 H2 H3. constructor; [apply Forall_cons; [reflexivity | apply Forall_nil] | discriminate | cbn [length]; lia | apply Forall_nil | exact H2 | | exact H1].
  intros vs E He. destruct (H3 vs E He); [left; cbn [length]; lia | now right].
Qed.

Lemma retries_attempts : forall tick ctx n vs tr r, foreign ctx -> retries base tick ctx n vs tr r ->
  attempts n ctx tr ((args, ARet vs) :: base_calls b nm tr) r.
Proof.
  intros tick ctx n vs tr r Hctx H. induction H as [n vs He|n vs Hn|n vs w Hn He Hw|n vs w r Hn He Hw|n vs w a r Hn He Hw Hf|n vs w vs' tr r Hn He Hw H IH].
  - apply attempts_last; [split; discriminate | congruence |]. intros vs' E. injection E as <-. contradiction.
  - apply attempts_last; [split; discriminate | congruence |]. intros vs' E. now left.
  - rewrite (base_calls_waits _ _ _ _ Hctx Hw). apply attempts_last; [split; discriminate | congruence |].
    intros vs' _ _. right. eapply waits_cancelled, Hw.
  - rewrite (base_calls_waits _ _ _ _ Hctx Hw). destruct (waits_failed _ _ _ _ Hw) as [a Ha].
    destruct (fails_outcome _ _ Ha) as (H1 & H2 & H3). apply attempts_last; [now split | |]; intros vs' E; now apply H3 in E.
  - rewrite base_calls_app, (base_calls_waits _ _ _ _ Hctx Hw). cbn [app]. fold base. rewrite base_calls_base.
    eapply (attempts_cons n ctx []); [exact Hn | exact He | |].
    { intros c Hc. destruct Hc as (ch & t & v & x & y & E). now destruct x. }
    destruct (fails_outcome _ _ Hf) as (H1 & H2 & H3). apply attempts_last; [now split | |]; intros ws E; now apply H3 in E.
  - rewrite base_calls_app, (base_calls_waits _ _ _ _ Hctx Hw). cbn [app]. rewrite base_calls_base.
    eapply attempts_cons; [exact Hn | exact He | | exact IH].
    intros c Hc. apply cancelled_after. now apply (cancelled_after c [(base, ARet vs')]).
Qed.

Lemma retry_call_attempts : forall nt ctx n tr r, foreign ctx ->
  (forall v, base_calls b nm [(nt, v)] = []) ->
  retry_call base nt (fun k => k <> b) ctx n tr r -> attempts n ctx tr (base_calls b nm tr) r.
Proof.
  intros nt ctx n tr r Hctx Hnt H.
  assert (Hmid : forall k sv tail mid vs r, error_of vs <> VNil -> (1 <= n)%Z -> (forall c, cancelled c mid -> cancelled c tail) ->
     retries base (VOf (VRef k) "C") ctx n vs mid r -> tail = [(base, ARet vs); (nt, ARet [VRef k])] ++ mid ++ sv ->
     base_calls b nm sv = [] -> attempts n ctx tail (base_calls b nm tail) r).
  { intros k sv tail mid vs r0 He Hn Hc Hr -> Hsv. rewrite !base_calls_app, Hsv, app_nil_r. cbn [app].
    change ([(base, ARet vs); (nt, ARet [VRef k])]) with ([(base, ARet vs)] ++ [(nt, ARet [VRef k])]).
    rewrite base_calls_app, Hnt, app_nil_r, base_calls_base. cbn [app].
    destruct (retries_attempts _ _ _ _ _ _ Hctx Hr) as [H1 H2 H3 H4 H5 H6 H7]. constructor; try assumption.
    intros ws E He'. destruct (H6 ws E He') as [|[c [E1 E2]]]; [now left | right; eauto]. }
  destruct H as [a r Hf|vs Hv|vs a r He Hn Hf|vs k tr Hk He Hn Hr|vs k tr r sv Hk He Hn Hr0 Hr].
  - rewrite base_calls_base. destruct (fails_outcome _ _ Hf) as (H1 & H2 & H3).
    apply attempts_last; [now split | |]; intros ws E; now apply H3 in E.
  - rewrite base_calls_base. apply attempts_last; [split; discriminate | congruence |]. intros vs' E He'. injection E as <-.
    destruct Hv as [Hv|Hv]; [contradiction|]. left. lia.
  - rewrite base_calls_base. rewrite Hnt. destruct (fails_outcome _ _ Hf) as (H1 & H2 & H3).
    apply attempts_last; [now split | |]; intros ws E; now apply H3 in E.
  - eapply (Hmid k [] _ tr vs); [exact He | exact Hn | | exact Hr | now rewrite app_nil_r | reflexivity].
    intros c Hc. now apply (cancelled_after c [(base, ARet vs); (nt, ARet [VRef k])]).
  - eapply (Hmid k _ _ tr vs); [exact He | exact Hn | | exact Hr | reflexivity |].
    + intros c Hc. apply (cancelled_after c [(base, ARet vs); (nt, ARet [VRef k])]). now apply cancelled_before.
    + cbn. apply Nat.eqb_neq in Hk. now rewrite Hk.
Qed.
End SPEC.

(** ** C39 *)

(** a panic or a hang of the call comes from something it called *)
Definition blame (tr : trace) (r : out (list val)) : Prop :=
  match r with
  | Pan v => exists o, In (o, APan v) tr
  | Blk => exists o, In (o, ABlock) tr
  | _ => True
  end.

Lemma fails_blame : forall o a r tr, fails a r -> In (o, a) tr -> blame tr r.
Proof. intros o [l|v|] r tr H Hin; cbn in H; [contradiction| |]; subst; cbn; eauto. Qed.

Lemma blame_incl : forall r tr tr', blame tr r -> incl tr tr' -> blame tr' r.
Proof. intros [l|v| | |] tr tr' H Hi; cbn in *; auto; destruct H as [o Ho]; eauto. Qed.

Lemma waits_blame : forall tick ctx w r, waits tick ctx w (Failed r) -> blame w r.
Proof. intros tick ctx w r H. inversion H; subst; eapply fails_blame; eauto; cbn; auto. Qed.

Lemma retries_blame : forall base tick ctx n vs tr r, retries base tick ctx n vs tr r -> blame tr r.
Proof.
  intros base tick ctx n vs tr r H. induction H; cbn; auto.
  - eapply waits_blame; eauto.
  - eapply fails_blame; eauto. apply in_or_app. right. now left.
  - eapply blame_incl; [exact IHretries|]. intros x Hx. apply in_or_app. right. now right.
Qed.

Lemma retry_call_blame : forall base nt tk ctx n tr r, retry_call base nt tk ctx n tr r -> blame tr r.
Proof.
  intros base nt tk ctx n tr r H. destruct H as [a r H|vs H|vs a r He Hn H|vs k tr Hk He Hn H|vs k tr r sv Hk He Hn Hb H].
  - eapply fails_blame; eauto. now left.
  - exact I.
  - eapply fails_blame; eauto. right. now left.
  - eapply blame_incl; [eapply retries_blame, H|]. intros x Hx. apply in_or_app. now right.
  - eapply blame_incl; [eapply retries_blame, H|]. intros x Hx. apply in_or_app. right. apply in_or_app. now left.
Qed.

(** The outside world respects the types of what the decorator calls: the base
    returns as many values as the method declares; NewTicker a ticker other than
    the base; Stop returns; Done returns one channel; select picks a case. *)
Record retry_world (W : gworld) (m : method) (base : nat) (interval : val) (args : list val) : Prop := {
  rw_base : forall tr vs, w_ans W tr (OMeth (VRef base) (m_name m) args) = ARet vs -> length vs = length (m_results m);
  rw_ticker : forall tr vs, w_ans W tr (OCall (VPkg "time.NewTicker") [interval]) = ARet vs ->
    exists k, vs = [VRef k] /\ k <> base;
  rw_stop : forall tr k, exists vs, w_ans W tr (OMeth (VRef k) "Stop" []) = ARet vs;
  rw_done : forall tr c vs, w_ans W tr (OMeth (VRef c) "Done" []) = ARet vs -> exists ch, vs = [ch];
  rw_select : forall tr chs vs, w_ans W tr (OSelect chs) = ARet vs ->
    exists i v, vs = [VInt i; v] /\ (0 <= i < Z.of_nat (length chs))%Z
}.

(** What the generated method does, exactly: Retry.retry_call.  Retry.v relates
    it to the generated text through Generated.retry_generated. *)
Theorem C39_retry_trace : forall W m name typ n interval base L zeros args,
  wf_method m -> hygienic m ["time"; "_ticker"; "_i"] -> m_returnsError m = true ->
  length zeros = length (m_results m) -> length args = length (m_params m) ->
  name <> "_retryCount" -> name <> "_retryInterval" ->
  (m_acceptsContext m = true -> exists c r, args = VRef c :: r) ->
  retry_world W m base interval args -> Z.to_nat n < L ->
  let '(r, tr) := run_method W m [] L (retry_body name m) (construct (retry_ctor name typ) [VRef base; VInt n; interval]) zeros args in
  retry_call (OMeth (VRef base) (m_name m) args) (OCall (VPkg "time.NewTicker") [interval]) (fun k => k <> base)
             (if m_acceptsContext m then Some (hd VNil args) else None) n tr r.
Proof.
  intros W m name typ n interval base L zeros args Hwf Hh He Hz Ha H1 H2 Hc [Wb Wt Ws Wd Wl] HL.
  now apply retry_meets.
Qed.

(** C39: the attempts of a call and its result, for every retry count, every
    sequence of outcomes and every cancellation point.  Missing: when NewTicker
    panics (C39_interval_refuted) the call has no result. *)
Theorem C39_retry_attempts_partial : forall W m name typ n interval base L zeros args,
  wf_method m -> hygienic m ["time"; "_ticker"; "_i"] -> m_returnsError m = true ->
  length zeros = length (m_results m) -> length args = length (m_params m) ->
  name <> "_retryCount" -> name <> "_retryInterval" ->
  (m_acceptsContext m = true -> exists c r, args = VRef c :: r /\ c <> base) ->
  retry_world W m base interval args -> Z.to_nat n < L ->
  let '(r, tr) := run_method W m [] L (retry_body name m) (construct (retry_ctor name typ) [VRef base; VInt n; interval]) zeros args in
  attempts args n (if m_acceptsContext m then Some (hd VNil args) else None) tr (base_calls base (m_name m) tr) r
  /\ blame tr r.
Proof.
  intros W m name typ n interval base L zeros args Hwf Hh He Hz Ha H1 H2 Hc HW HL.
  assert (Hc' : m_acceptsContext m = true -> exists c r, args = VRef c :: r).
  { intros E. destruct (Hc E) as (c & r & -> & _). eauto. }
  pose proof (C39_retry_trace W m name typ n interval base L zeros args Hwf Hh He Hz Ha H1 H2 Hc' HW HL) as H.
  destruct (run_method _ _ _ _ _ _ _ _) as [r tr]. split; [|eapply retry_call_blame, H].
  eapply retry_call_attempts; [| | exact H].
  - intros c. destruct (m_acceptsContext m); [|discriminate]. destruct (Hc eq_refl) as (k & rest & -> & Hk).
    intros E. injection E as <-. eauto.
  - reflexivity.
Qed.

(** *** A call that succeeds at the third attempt *)
Definition ex_world (fail_first : nat) (done : bool) (ticker_panics : bool) : gworld :=
  GWorld (fun tr o => match o with
    | OMeth (VRef 0) "Do" _ =>
        if length (base_calls 0 "Do" tr) <? fail_first then ARet [VString ""; VRef 9] else ARet [VString "done"; VNil]
    | OCall (VPkg "time.NewTicker") _ => if ticker_panics then APan (VString "non-positive interval for NewTicker") else ARet [VRef 1]
    | OMeth _ "Stop" _ => ARet []
    | OMeth _ "Done" _ => ARet [VRef 2]
    | OSelect [] => ABlock
    | OSelect [_] => ARet [VInt 0; VNil]
    | OSelect _ => ARet [VInt (if done then 0 else 1); VNil]
    | _ => ABlock
    end) (fun _ _ => false).
Definition ex_args : list val := [VRef 3; VInt 7; VInt 8; VSlice [VString "x"]].
Definition ex_run (n : Z) (W : gworld) : out (list val) * trace :=
  run_method W ex_m [] 20 (retry_body "Doer" ex_m) (construct (retry_ctor "Doer" "pkg.Doer") [VRef 0; VInt n; VInt 5])
    [VString ""; VNil] ex_args.

Example C39_nontrivial :
  wf_method ex_m /\ hygienic ex_m ["time"; "_ticker"; "_i"] /\
  (forall k d p, retry_world (ex_world k d p) ex_m 0 (VInt 5) ex_args) /\
  (let '(r, tr) := ex_run 5 (ex_world 2 false false) in
   r = Val [VString "done"; VNil] /\ length (base_calls 0 "Do" tr) = 3) /\
  (let '(r, tr) := ex_run 1 (ex_world 9 false false) in
   r = Val [VString ""; VRef 9] /\ length (base_calls 0 "Do" tr) = 2) /\
  (let '(r, tr) := ex_run 5 (ex_world 9 true false) in
   r = Val [VString ""; VRef 9] /\ length (base_calls 0 "Do" tr) = 1) /\
  (let '(r, tr) := ex_run (-3) (ex_world 9 false false) in
   r = Val [VString ""; VRef 9] /\ length (base_calls 0 "Do" tr) = 1).
Proof.
  split; [eapply NewMethod_wf, ex_NewMethod|]. split.
  { intros x Hx Hin. cbn in Hx, Hin. intuition (subst; discriminate). }
  split.
  { intros k d p. constructor.
    - intros tr vs. cbn. match goal with |- context [if ?c then _ else _] => destruct c end; intros E; injection E as <-; reflexivity.
    - intros tr vs. cbn. destruct p; intros E; [discriminate|]. injection E as <-. exists 1. now split.
    - intros tr k'. exists []. cbn. now destruct k'.
    - intros tr c vs H. cbn in H. destruct c; injection H as <-; eauto.
    - intros tr chs vs H. cbn in H. destruct chs as [|a [|b l]]; [discriminate| |]; injection H as <-.
      + exists 0%Z, VNil. cbn. split; [reflexivity|lia].
      + exists (if d then 0 else 1)%Z, VNil. split; [reflexivity|]. cbn [length]. destruct d; lia. }
  vm_compute. repeat split; reflexivity.
Qed.

(** Full statement: with a retry count of at least one, a call whose first
    attempt fails and whose context is not done makes a second attempt. *)
Definition C39_statement : Prop :=
  forall W m name typ n interval base L zeros args,
  wf_method m -> hygienic m ["time"; "_ticker"; "_i"] -> m_returnsError m = true ->
  length zeros = length (m_results m) -> length args = length (m_params m) ->
  name <> "_retryCount" -> name <> "_retryInterval" ->
  (m_acceptsContext m = true -> exists c r, args = VRef c :: r /\ c <> base) ->
  retry_world W m base interval args -> Z.to_nat n < L ->
  let '(r, tr) := run_method W m [] L (retry_body name m) (construct (retry_ctor name typ) [VRef base; VInt n; interval]) zeros args in
  (forall c, In c (base_calls base (m_name m) tr) -> exists vs, snd c = ARet vs) -> exists vs, r = Val vs.

(** time.NewTicker panics for an interval that is not positive, so a failing
    call with such an interval panics instead of returning its error *)
Theorem C39_interval_refuted : ~ C39_statement.
Proof.
  intros H. destruct C39_nontrivial as (H1 & H2 & H3 & _).
  specialize (H (ex_world 9 false true) ex_m "Doer" "pkg.Doer" 1%Z (VInt 5) 0 20 [VString ""; VNil] ex_args H1 H2 eq_refl eq_refl eq_refl).
  specialize (H ltac:(discriminate) ltac:(discriminate)).
  specialize (H (fun _ => ex_intro _ 3 (ex_intro _ [VInt 7; VInt 8; VSlice [VString "x"]] (conj eq_refl (Nat.neq_succ_0 2))))).
  specialize (H (H3 9 false true) ltac:(cbn; lia)). vm_compute in H.
  destruct H as [vs E]; [|discriminate]. intros c [<-|[]]. eexists. reflexivity.
Qed.

Print Assumptions C39_retry_trace.
Print Assumptions C39_retry_attempts_partial.
Print Assumptions C39_nontrivial.
Print Assumptions C39_interval_refuted.
