(** C69, continued: constructors with loops (syncpool, ratelimit, elasticapm). *)
From Coq Require Import Floats.SpecFloat.
From Verif Require Import Render.
From Verif Require Export PropConstructors.
Open Scope nat_scope.

Lemma try_send_last : forall cs c b v cl tk sp ou, length b < c ->
  try_send (length cs) v (USt cl (cs ++ [UCh c b]) tk sp ou) = Some (USt cl (cs ++ [UCh c (b ++ [v])]) tk sp ou).
Proof.
  intros cs c b v cl tk sp ou H. unfold try_send. cbn [chans]. rewrite nth_last.
  apply Nat.ltb_lt in H. rewrite H. unfold set_chan. cbn [chans cells tickers spawned outs]. now rewrite nput_last.
Qed.

Lemma nneg : forall n, (Z.of_nat n <? 0)%Z = false.
Proof. intros. apply Z.ltb_ge. lia. Qed.

Section BUILD.
Variable machine : spec_float -> Z.
Variables L k : nat.
Variables (dec name typ : string) (st : ust) (base : uval).
Notation build fields f args := (call_func machine (struct_table dec fields) L (20 + k) f args st).

(** the loop that fills the channel *)
Lemma each_send : forall T n env p cs c l b cl tk sp ou,
  get "pool" env = Some p -> nth_error cl p = Some (UChan (length cs)) -> length b + length l <= c ->
  each (fun v st => kexecs machine T L (S (S (S (S n)))) (("i", length (cells st)) :: env) [JSend (KVar "pool") (KVar "i")]
                      (USt (cells st ++ [v]) (chans st) (tickers st) (spawned st) (outs st)))
    env l (USt cl (cs ++ [UCh c b]) tk sp ou)
  = ROk (FNext env) (USt (cl ++ l) (cs ++ [UCh c (b ++ l)]) tk sp ou).
Proof.
  intros T n env p cs c l. induction l as [|x l IH]; intros b cl tk sp ou Hp Hk Hc; cbn [each].
  - now rewrite !app_nil_r.
  - cbn [length] in Hc. cbn [alloc cells chans tickers spawned outs]. rewrite kexecs_cons, kexec_JSend, !keval_KVar.
    cbn [get]. change (String.eqb "i" "pool") with false. cbn iota. rewrite Hp. cbn [cells].
    rewrite (nth_keep cl [x] p _ Hk). cbn [ubind cells]. rewrite keval_KVar. cbn [get]. rewrite String.eqb_refl. cbn [cells]. rewrite nth_last.
    cbn [ubind]. rewrite try_send_last by lia. cbn [ubind]. rewrite kexecs_nil. cbn [ubind].
    rewrite IH; [|exact Hp|apply nth_keep, Hk|rewrite app_length; cbn; lia]. now rewrite <- !app_assoc.
Qed.

(** The pool of instances: a panic for an empty one, otherwise a channel that
    holds the implementations in order and has room for no more. *)
Theorem C69_syncpool_empty :
  exists st', (build (syncpool_fields typ) (syncpool_new dec typ) []) = RPanic (UStr "empty pool") st' /\ keeps st st'.
Proof. eexists. split; [table; crunch; reflexivity | kept]. Qed.

Theorem C69_syncpool : forall impls, impls <> [] ->
  exists st', (build (syncpool_fields typ) (syncpool_new dec typ) impls) = ROk [URec dec [("pool", UChan (length (chans st)))]] st' /\
    chans st' = chans st ++ [UCh (length impls) impls] /\
    (exists new, cells st' = cells st ++ new) /\ tickers st' = tickers st /\ spawned st' = spawned st /\ outs st' = outs st.
Proof.
  intros [|x impls] Hp; [congruence|]. eexists. split.
  - table. crunch. rewrite nneg, Nat2Z.id. crunch.
    erewrite each_send; [|reflexivity|apply nth_last|cbn; lia]. crunch. reflexivity.
  - cbn [chans cells tickers spawned outs]. repeat split. eexists. rewrite <- !app_assoc. reflexivity.
Qed.

(** the loop that puts the first tokens into the channel *)
Lemma count_send : forall T n1 n2 env a0 a1 pd fs t now B cs c cl tk sp ou,
  get "burst" env = Some a0 -> nth_error cl a0 = Some (UNum B) ->
  get "d" env = Some a1 -> nth_error cl a1 = Some (UPtr pd) -> nth_error cl pd = Some (URec t fs) -> get "_ticks" fs = Some (UChan (length cs)) ->
  (exists a2, get "now" env = Some a2 /\ nth_error cl a2 = Some now) ->
  forall m z b fuel, (B - z = Z.of_nat m)%Z -> m < fuel -> length b + m <= c ->
  count (fun st => keval machine T L (S (S (S n1))) (("i", length cl) :: env) (KBin "<" (KVar "i") (KVar "burst")) st)
        (fun st => kexecs machine T L (S (S (S (S (S n2))))) (("i", length cl) :: env) [JSend (KSel (KVar "d") "_ticks") (KVar "now")] st)
        (length cl) env fuel (USt (cl ++ [UNum z]) (cs ++ [UCh c b]) tk sp ou)
  = ROk (FNext env) (USt (cl ++ [UNum B]) (cs ++ [UCh c (b ++ repeat now m)]) tk sp ou).
Proof.
  intros T n1 n2 env a0 a1 pd fs t now B cs c cl tk sp ou H0 N0 H1 N1 N2 Ht [a2 [H2 N3]].
  induction m as [|m IH]; intros z b fuel Hz Hf Hc; (destruct fuel as [|fuel]; [lia|]); cbn [count].
  - assert (z = B) by lia. subst z. rewrite keval_KBin, keval_KVar. cbn [get cells]. rewrite String.eqb_refl, nth_last. cbn [ubind].
    change (String.eqb "<" "&&") with false. cbn iota. rewrite keval_KVar. cbn [get cells]. change (String.eqb "i" "burst") with false. cbn iota.
    rewrite H0, (nth_keep cl [UNum B] a0 _ N0). cbn [ubind]. unfold binop. eqs. cbn [orb]. rewrite Z.ltb_irrefl. cbn [ubind]. rewrite app_nil_r. reflexivity.
  - rewrite keval_KBin, keval_KVar. cbn [get cells]. rewrite String.eqb_refl, nth_last. cbn [ubind].
    change (String.eqb "<" "&&") with false. cbn iota. rewrite keval_KVar. cbn [get cells]. change (String.eqb "i" "burst") with false. cbn iota.
    rewrite H0, (nth_keep cl [UNum z] a0 _ N0). cbn [ubind]. unfold binop. eqs.
    replace (z <? B)%Z with true by (symmetry; apply Z.ltb_lt; lia). cbn [ubind].
    rewrite kexecs_cons, kexec_JSend, keval_KSel, keval_KVar. cbn [get cells]. change (String.eqb "i" "d") with false. cbn iota.
    rewrite H1, (nth_keep cl [UNum z] a1 _ N1). cbn [ubind select cells]. rewrite (nth_keep cl [UNum z] pd _ N2), Ht. cbn [ubind].
    rewrite keval_KVar. cbn [get cells]. change (String.eqb "i" "now") with false. cbn iota. rewrite H2, (nth_keep cl [UNum z] a2 _ N3). cbn [ubind].
    rewrite try_send_last by lia. cbn [ubind]. rewrite kexecs_nil. cbn [ubind cells]. rewrite nth_last. unfold set_cell. cbn [cells chans tickers spawned outs].
    rewrite nput_last. rewrite IH; [|lia|lia|rewrite app_length; cbn; lia]. rewrite <- app_assoc. reflexivity.
Qed.

(** The rate limiter: a panic for a negative burst, otherwise a channel with
    room for [burst] tokens and that many in it, and one goroutine, whose delay
    is a second divided by rps. *)
Definition delay_of (rps : spec_float) : Z :=
  let d := SFdiv 53 1024 (float_of 1000000000) rps in match whole d with Some z => z | None => machine d end.
Theorem C69_ratelimit_negative : forall burst rps, (burst < 0)%Z ->
  exists st', (build (ratelimit_fields typ) (ratelimit_new dec typ) [base; UNum burst; UFloat rps]) = RPanic (UStr "makechan: size out of range") st' /\ keeps st st'.
Proof.
  intros burst rps Hb. eexists. split; [table; crunch; replace (burst <? 0)%Z with true by (symmetry; apply Z.ltb_lt; lia); crunch; reflexivity | kept].
Qed.
(** what the goroutine needs to know *)
Definition feeder_env (env : uenv) (st : ust) (d : uval) (delay : Z) : Prop :=
  (exists a, get "d" env = Some a /\ nth_error (cells st) a = Some d) /\
  (exists a, get "delay" env = Some a /\ nth_error (cells st) a = Some (UNum delay)) /\
  get "time" env = None /\ get "t" env = None.
Theorem C69_ratelimit : forall burst rps, burst < L ->
  exists a env st', (build (ratelimit_fields typ) (ratelimit_new dec typ) [base; UNum (Z.of_nat burst); UFloat rps]) = ROk [UPtr a] st' /\
    length (cells st) <= a /\ nth_error (cells st') a = Some (URec dec [("_base", base); ("_ticks", UChan (length (chans st)))]) /\
    chans st' = chans st ++ [UCh burst (repeat (URes (length (outs st))) burst)] /\
    outs st' = outs st ++ [(USel (UPkg "time") "Now", [])] /\
    spawned st' = spawned st ++ [(env, feeder_body)] /\ feeder_env env st' (UPtr a) (delay_of rps) /\
    (exists new, cells st' = cells st ++ new) /\ tickers st' = tickers st.
Proof.
  intros burst rps HL. eexists _, _, _. split.
  - table. crunch. rewrite nneg, Nat2Z.id. crunch.
    erewrite count_send with (m := burst) (z := 0%Z) (b := []);
      [|reflexivity|look; reflexivity|reflexivity|look; reflexivity|look; reflexivity|reflexivity|eexists; split; [reflexivity|look; reflexivity]|lia|exact HL|cbn; lia].
    crunch.
    reflexivity.
  - cbn [chans cells tickers spawned outs]. repeat split; try reflexivity.
    + rewrite !app_length. lia.
    + look. reflexivity.
    + eexists. split; [reflexivity|]. cbn [cells]. look. reflexivity.
    + eexists. split; [reflexivity|]. cbn [cells]. look. reflexivity.
    + eexists. rewrite <- !app_assoc. reflexivity.
Qed.

(** ** elasticapm *)

(** what an option does *)
Inductive effect := SetsLabels | SetsType (v : uval).
Definition label_call : list kstmt :=
  [JDo (KCall (KSel (KSel (KSel (KVar "span") "SpanData") "Context") "SetLabel") [KVar "key"; KVar "value"])].
Inductive option_value (cl : list uval) : uval -> effect -> Prop :=
| ov_label env : option_value cl (UFun ["v"] [JSet "v" "setLabel" (KFunc t_span_params label_call)] env) SetsLabels
| ov_type env a v : get "spanType" env = Some a -> nth_error cl a = Some v ->
    option_value cl (UFun ["v"] [JSet "v" "spanType" (KVar "spanType")] env) (SetsType v).
Lemma option_keep : forall cl new f e, option_value cl f e -> option_value (cl ++ new) f e.
Proof. intros cl new f e []; econstructor; eauto using @nth_keep. Qed.

Theorem C69_with_label : forall opt fields,
  (build fields (apm_with_label dec opt) []) = ROk [UFun ["v"] [JSet "v" "setLabel" (KFunc t_span_params label_call)] []] st.
Proof. intros. unfold call_func. cbn [f_params apm_with_label pack bindings map combine fold_left fst snd f_body]. crunch. reflexivity. Qed.
Theorem C69_with_type : forall opt fields v,
  exists f st', (build fields (apm_with_type dec opt) [v]) = ROk [f] st' /\ option_value (cells st') f (SetsType v) /\ keeps st st'.
Proof.
  intros. eexists _, _. split; [unfold call_func; generalize (struct_table dec fields); intros; crunch; reflexivity|]. split; [|kept].
  econstructor; [reflexivity|]. cbn [cells]. apply nth_last.
Qed.

(** the last span type given, and whether labels are asked for *)
Definition labels (e : effect) : bool := match e with SetsLabels => true | SetsType _ => false end.
Definition types_given (es : list effect) : list uval := flat_map (fun e => match e with SetsLabels => [] | SetsType v => [v] end) es.
Definition settled (es : list effect) (dflt : uval) : bool * uval := (existsb labels es, last (types_given es) dflt).

(** a function with this body; it sees the package apm *)
Definition closure (ps : list string) (body : list kstmt) (v : uval) : Prop := exists env, v = UFun ps body env /\ get "apm" env = None.
Definition end_body : list kstmt := [JDo (KCall (KSel (KVar "span") "End") [])].
Definition capture_body : list kstmt :=
  [JDo (KCall (KSel (KCall (KSel (KVar "apm") "CaptureError") [KVar "ctx"; KVar "err"]) "Send") [])].

Lemma nth_mid : forall {A} (a : list A) x b, nth_error (a ++ x :: b) (length a) = Some x.
Proof. induction a; cbn; auto. Qed.
Lemma nput_mid : forall {A} (a : list A) x b y, nput (length a) y (a ++ x :: b) = a ++ y :: b.
Proof. induction a as [|z a IH]; intros; cbn; [reflexivity|]. now rewrite IH. Qed.

Definition apm_rec (b s e c l t : uval) : uval :=
  URec dec [("base", b); ("startSpan", s); ("endSpan", e); ("setLabel", l); ("captureError", c); ("spanType", t)].

(** what [setLabel] is *)
Definition label_value (on : bool) (v : uval) : Prop := exists env, v = UFun ["span"; "key"; "value"] (if on then label_call else []) env.
Definition after_options (s : bool * uval) (es : list effect) : bool * uval :=
  fold_left (fun s e => match e with SetsLabels => (true, snd s) | SetsType v => (fst s, v) end) es s.

Lemma after_options_settled : forall es on t, after_options (on, t) es = (on || existsb labels es, last (types_given es) t)%bool.
Proof.
  unfold after_options. induction es as [|[|v] es IH]; intros; cbn -[last]; [now rewrite orb_false_r| |].
  - rewrite IH. now rewrite orb_true_r.
  - rewrite IH. f_equal. change (flat_map _ es) with (types_given es). clear. revert v t. induction (types_given es) as [|w l IHl]; intros; [reflexivity|].
    change (last (v :: w :: l) t) with (last (w :: l) t). rewrite <- !IHl. reflexivity.
Qed.

Lemma apply_option : forall T n env cl b s e c f eff l t on tl ch tk sp ou, option_value cl f eff -> get "r" env = Some (length cl) -> label_value on l ->
  exists l' t' tl', label_value (fst (after_options (on, t) [eff])) l' /\ t' = snd (after_options (on, t) [eff]) /\
  kexecs machine T L (10 + n) (("fn", length (cl ++ apm_rec b s e c l t :: tl)) :: env) [JDo (KCall (KVar "fn") [KAddr "r"])]
    (USt ((cl ++ apm_rec b s e c l t :: tl) ++ [f]) ch tk sp ou) = ROk (FNext (("fn", length (cl ++ apm_rec b s e c l t :: tl)) :: env)) (USt (cl ++ apm_rec b s e c l' t' :: tl') ch tk sp ou).
Proof.
  intros T n env cl b s e c f eff l t on tl ch tk sp ou HO HR HL.
  pose proof (nth_mid cl (apm_rec b s e c l t) tl) as HM. unfold apm_rec in *.
  set (X := URec dec _) in *.
  destruct HO as [fenv|fenv a v Ha Hv].
  - eexists _, _, _. split; [|split; [reflexivity|]].
    2:{ change (10 + n) with (S (S (S (S (S (S (S (S (S (S n)))))))))). crunch. unfold set_cell. cbn [cells chans tickers spawned outs].
        rewrite <- !app_assoc. cbn [app]. rewrite nput_mid. reflexivity. }
    eexists. reflexivity.
  - eexists _, _, _. split; [|split; [reflexivity|]].
    2:{ change (10 + n) with (S (S (S (S (S (S (S (S (S (S n)))))))))). crunch. unfold set_cell. cbn [cells chans tickers spawned outs].
        rewrite <- !app_assoc. cbn [app]. rewrite nput_mid. reflexivity. }
    exact HL.
Qed.
Lemma each_option : forall T n env cl b s e c opts es, Forall2 (option_value cl) opts es -> get "r" env = Some (length cl) ->
  forall l t on tl ch tk sp ou, label_value on l ->
  exists l' t' tl', label_value (fst (after_options (on, t) es)) l' /\ t' = snd (after_options (on, t) es) /\
  each (fun v st => kexecs machine T L (10 + n) (("fn", length (cells st)) :: env) [JDo (KCall (KVar "fn") [KAddr "r"])]
                      (USt (cells st ++ [v]) (chans st) (tickers st) (spawned st) (outs st))) env opts
    (USt (cl ++ apm_rec b s e c l t :: tl) ch tk sp ou) = ROk (FNext env) (USt (cl ++ apm_rec b s e c l' t' :: tl') ch tk sp ou).
Proof.
  intros T n env cl b s e c opts es H HR. induction H as [|f eff opts es Hf _ IH]; intros l t on tl ch tk sp ou Hl.
  - exists l, t, tl. repeat split; auto.
  - destruct (apply_option T n env cl b s e c f eff l t on tl ch tk sp ou Hf HR Hl) as (l1 & t1 & tl1 & H1 & H2 & H3).
    cbn [each]. cbn [cells chans tickers spawned outs] in *. rewrite H3.
    destruct (IH l1 t1 (fst (after_options (on, t) [eff])) tl1 ch tk sp ou H1) as (l2 & t2 & tl2 & H4 & H5 & H6).
    exists l2, t2, tl2. subst t1.
    assert (E : after_options (fst (after_options (on, t) [eff]), snd (after_options (on, t) [eff])) es = after_options (on, t) (eff :: es))
      by (cbn; now destruct eff).
    rewrite E in *. auto.
Qed.

Theorem C69_elasticapm : forall comp opts es, Forall2 (option_value (cells st)) opts es ->
  exists end_ lab cap, closure ["span"] end_body end_ /\ label_value (fst (settled es (UStr comp))) lab /\ closure ["ctx"; "err"] capture_body cap /\
  returns_struct (build (elasticapm_fields typ) (apm_new dec comp typ) (base :: opts)) st dec
    [("base", base); ("startSpan", USel (UPkg "apm") "StartSpan"); ("endSpan", end_); ("setLabel", lab); ("captureError", cap);
     ("spanType", snd (settled es (UStr comp)))].
Proof.
  intros comp opts es H.
  assert (H' : Forall2 (option_value ((cells st ++ [base]) ++ [UList opts])) opts es).
  { generalize (UList opts). intros w. induction H as [|x y ? ? Hx ? IH]; constructor; [now apply option_keep, option_keep | exact IH]. }
  set (env := [("opts", length (cells st ++ [base])); ("base", length (cells st))]).
  exists (UFun ["span"] end_body env).
  unfold returns_struct. table.
  destruct (each_option l (7 + k) (("r", length ((cells st ++ [base]) ++ [UList opts])) :: env) ((cells st ++ [base]) ++ [UList opts])
              base (USel (UPkg "apm") "StartSpan") (UFun ["span"] end_body env) (UFun ["ctx"; "err"] capture_body env) opts es H' eq_refl
              (UFun ["span"; "key"; "value"] [] env) (UStr comp) false [] (chans st) (tickers st) (spawned st) (outs st) (ex_intro _ env eq_refl))
    as (l' & t' & tl' & H1 & H2 & H3).
  rewrite after_options_settled in H1, H2. cbn [orb] in H1, H2.
  exists l', (UFun ["ctx"; "err"] capture_body env).
  split; [exists env; auto|]. split; [exact H1|]. split; [exists env; auto|].
  eexists. split; [crunch|].
  - unfold apm_rec, end_body, capture_body, env in H3. cbn [Nat.add] in H3. rewrite H3.
    pose proof (nth_mid ((cells st ++ [base]) ++ [UList opts]) (apm_rec base (USel (UPkg "apm") "StartSpan") (UFun ["span"] end_body env) (UFun ["ctx"; "err"] capture_body env) l' t') tl') as HM.
    unfold apm_rec, end_body, capture_body, env in HM.
    crunch. subst t'. reflexivity.
  - kept.
Qed.

(** ** Calls of the functions kept in the struct *)
Definition apply_value (T : list (string * list (string * uval))) (f : uval) (args : list uval) (s : ust) : ures uval :=
  match f with
  | UFun ps body env =>
      if Nat.eqb (length ps) (length args) then
        let '(env', s1) := bindings ps args env s in
        udo fl, s2 <- kexecs machine T L (20 + k) env' body s1;
        match fl with FReturn [v] => ROk v s2 | FReturn _ => RStuck | FNext _ => ROk UNil s2 end
      else RStuck
  | _ => outside f args s
  end.
(** memory grows and these calls of other packages happen *)
Definition calls (r : ures uval) (s : ust) (new : list (uval * list uval)) : Prop :=
  exists v s', r = ROk v s' /\ (exists more, cells s' = cells s ++ more) /\ chans s' = chans s /\ tickers s' = tickers s /\
  spawned s' = spawned s /\ outs s' = outs s ++ new.
(** a value of the apm package *)
Definition opaque (v : uval) : Prop := match v with USel _ _ | URes _ | UGiven _ => True | _ => False end.
Ltac called := split; [eexists; cbn [cells]; rewrite <- ?app_assoc; reflexivity | repeat split; cbn [outs]; now rewrite <- ?app_assoc, ?app_nil_r].
Theorem C69_end_span : forall T f span s, closure ["span"] end_body f -> opaque span ->
  calls (apply_value T f [span] s) s [(USel span "End", [])].
Proof.
  intros T f span s (env & -> & He) Ho. destruct span; try destruct Ho;
    (eexists _, _; split; [unfold apply_value, end_body; crunch; reflexivity|called]).
Qed.
Theorem C69_capture_error : forall T f ctx err s, closure ["ctx"; "err"] capture_body f ->
  calls (apply_value T f [ctx; err] s) s
    [(USel (UPkg "apm") "CaptureError", [ctx; err]); (USel (URes (length (outs s))) "Send", [])].
Proof.
  intros T f ctx err s (env & -> & He). eexists _, _. split; [unfold apply_value, capture_body; crunch; rewrite He; crunch; reflexivity|called].
Qed.
Theorem C69_set_label : forall T f span key value s on, label_value on f -> opaque span ->
  calls (apply_value T f [span; key; value] s) s
    (if on then [(USel (USel (USel span "SpanData") "Context") "SetLabel", [key; value])] else []).
Proof.
  intros T f span key value s on (env & ->) Ho. unfold apply_value, label_call.
  destruct on; [destruct span; try destruct Ho|];
    (eexists _, _; split; [crunch; reflexivity|called]).
Qed.
End BUILD.
