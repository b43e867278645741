(** What a call of a method generated by templates/opencensus, opentelemetry,
    opentracing or elasticapm does. *)
From Verif Require Export Observed.
Open Scope nat_scope.

(** ** Specification *)

(** the part of a trace before the base call yields the span and the arguments
    of the base call *)
Definition opencensus_before (inst typ : string) (m : method) (ctx : val) (rest : list val) : script (val * list val) :=
  Ask (OCall (VPkg "trace.StartSpan") [ctx; VString (inst ++ "." ++ typ ++ "." ++ m_name m)])
      (fun l => Done (nth 1 l VNil, nth 0 l VNil :: rest)).

Definition opentelemetry_before (inst pfx : string) (m : method) (ctx : val) (rest : list val) : script (val * list val) :=
  Ask (OCall (VPkg "otel.Tracer") [VString inst])
      (fun t => Ask (OMeth (hd VNil t) "Start" [ctx; VString (pfx ++ "." ++ m_name m)])
         (fun l => Done (nth 1 l VNil, nth 0 l VNil :: rest))).

Definition opentracing_before (inst typ : string) (m : method) (ctx : val) (rest : list val) : script (val * list val) :=
  Ask (OCall (VPkg "opentracing.StartSpanFromContext") [ctx; VString (inst ++ "." ++ typ ++ "." ++ m_name m)])
      (fun l => Done (nth 0 l VNil, nth 1 l VNil :: rest)).

(** marking the span as failed with error [e] *)
Definition opencensus_mark (span e : val) : script unit :=
  Ask (OCall (VPkg "trace.BoolAttribute") [VString "error"; VBool true]) (fun a1 =>
  Ask (OCall (VPkg "trace.StringAttribute") [VString "event"; VString "error"]) (fun a2 =>
  Ask (OMeth e "Error" []) (fun s =>
  Ask (OCall (VPkg "trace.StringAttribute") [VString "message"; hd VNil s]) (fun a3 =>
  Ask (OMeth span "AddAttributes" [hd VNil a1; hd VNil a2; hd VNil a3]) (fun _ => Done tt))))).

Definition opentelemetry_mark (span e : val) : script unit :=
  Ask (OMeth span "RecordError" [e]) (fun _ =>
  Ask (OMeth e "Error" []) (fun s =>
  Ask (OMeth span "SetStatus" [VPkg "_codes.Error"; hd VNil s]) (fun _ =>
  Ask (OCall (VPkg "attribute.String") [VString "event"; VString "error"]) (fun a1 =>
  Ask (OMeth e "Error" []) (fun s =>
  Ask (OCall (VPkg "attribute.String") [VString "message"; hd VNil s]) (fun a2 =>
  Ask (OMeth span "SetAttributes" [hd VNil a1; hd VNil a2]) (fun _ => Done tt))))))).

Definition opentracing_mark (span e : val) : script unit :=
  Ask (OCall (VPkg "_ext.Error.Set") [span; VBool true]) (fun _ =>
  Ask (OCall (VPkg "_log.String") [VString "event"; VString "error"]) (fun a1 =>
  Ask (OMeth e "Error" []) (fun s =>
  Ask (OCall (VPkg "_log.String") [VString "message"; hd VNil s]) (fun a2 =>
  Ask (OMeth span "LogFields" [hd VNil a1; hd VNil a2]) (fun _ => Done tt))))).

(** when the base call is over: the span decorator if there is one, else the
    mark if the call failed; then the end of the span *)
Definition span_after (mark : val -> val -> script unit) (fin : string) (sd : val) (m : method) (span : val) (ps rs : list val)
  : script unit :=
  andthen (if is_nil sd
           then if failed m rs then mark span (last rs VNil) else Done tt
           else Ask (OCall sd [span; VMap (combine (param_names m) ps); VMap (combine (result_names m) rs)]) (fun _ => Done tt))
          (fun _ => Ask (OMeth span fin []) (fun _ => Done tt)).

(** a script that was played and left the variables alone *)
Definition played_here {A} (st : list val) (sc : script unit) (tr : trace) (x : A) (r : out A) (s : mstate) : Prop :=
  exists tr2 b, ms_trace s = tr ++ tr2 /\ plays sc tr2 b /\ ms_defers s = [] /\ ms_store s = st /\
    match b with
    | Val _ => r = Val x
    | Pan w => r = Pan w
    | Blk => r = Blk
    | _ => False
    end.

Ltac played_here :=
  unfold played_here; eexists _, _; split;
  [ cbn [ms_trace]; rewrite <- ?app_assoc; cbn [app]; first [reflexivity | symmetry; apply app_nil_r]
  | split; [plays | split; [reflexivity|]; split; reflexivity] ].

Section SPANS.
Variable W : gworld.
Variable m : method.
Variable name : string.
Variable L : nat.
Variable base : nat.
Variable inst : string.
Variable sd : val.
Variables (zeros : list val) (ctx : val) (rest : list val).
Variable ids : list string.
Hypothesis Hwf : wf_method m.
Hypothesis Hhyg : hygienic m ("_span" :: ids).
Hypothesis Hac : m_acceptsContext m = true.
Hypothesis Hz : length zeros = length (m_results m).
Hypothesis Ha : length (ctx :: rest) = length (m_params m).
Hypothesis Hbase : base_typed W m base.
Hypothesis Hsd : sd = VNil \/ exists d, sd = VRef d.
Hypothesis Hn2 : name <> "_spanDecorator".
(** errors of the base are nil or errors, whose text is one value *)
Definition error_value (e : nat) : Prop := forall tr vs, w_ans W tr (OMeth (VRef e) "Error" []) = ARet vs -> exists s, vs = [s].
Definition error_like (rs : list val) : Prop :=
  m_returnsError m = true -> last rs VNil = VNil \/ exists e, last rs VNil = VRef e /\ error_value e.

Definition span_recv : val := VRec [(name, VRef base); ("_instance", VString inst); ("_spanDecorator", sd)].
Let env := ("_span", S (length (m_results m) + length (m_params m)) + 0) :: method_env m.

(** the frame of the deferred closure *)
Lemma span_frame : frame m env.
Proof. apply frame_cons; [discriminate | apply Hhyg; do 4 right; now left |]. eapply frame_start; [apply Hwf | apply Hhyg]. Qed.

Lemma span_deferred_meets : forall mark mk fin span c' rs,
  length rs = length (m_results m) ->
  (failed m rs = true -> forall tr,
     wp (block W m [] L (invoke W m [] L 1) [] env [] mark)
        (played_here (cells span_recv rs (c' :: rest) [VRef span]) (mk (VRef span) (last rs VNil)) tr CNext)
        (MState (cells span_recv rs (c' :: rest) [VRef span]) tr [])) ->
  clo_meets W m [] L env (span_deferred mark fin m) span_recv rs (c' :: rest) [VRef span]
    (span_after mk fin sd m (VRef span) (c' :: rest) rs).
Proof.
  intros mark mk fin span c' rs Hrs Hmark tr.
  unfold span_deferred, call0, Bodies.call, verr, vnil, d_, var, span_after.
  pose proof span_frame as Hf. pose proof (fr_d m env Hf) as Hd.
  assert (Hnil : lookup "nil" env = None).
  { unfold env. cbn [lookup String.eqb Ascii.eqb Bool.eqb]. eapply lookup_predeclared; [apply Hhyg | tauto]. }
  assert (Hsp : lookup "_span" env = Some (S (length (m_results m) + length (m_params m)) + 0)) by reflexivity.
  assert (F1 : field_of "_spanDecorator" [(name, VRef base); ("_instance", VString inst); ("_spanDecorator", sd)] = Some sd).
  { cbn [field_of]. destruct (String.eqb_spec "_spanDecorator" name) as [E|_]; [symmetry in E; contradiction|]. reflexivity. }
  assert (Ha' : length (c' :: rest) = length (m_params m)) by exact Ha.
  unfold span_recv in *. set (fs := [(name, VRef base); ("_instance", VString inst); ("_spanDecorator", sd)]) in *. clearbody fs.
  assert (Herr : m_returnsError m = true -> lookup "err" env = Some (length (m_results m))) by (intros He; exact (lookup_err m Hwf He)).
  clearbody env. unfold failed in *.
  destruct (m_returnsError m) eqn:He.
  - specialize (Herr eq_refl). assert (Hne : rs <> []).
    { destruct (wf_err m Hwf He) as (r & p & E & _). intros ->. rewrite E, app_length, Nat.add_comm in Hrs. discriminate. }
    repeat wp1. destruct Hsd as [-> | [d ->]]; cbn [is_nil negb andb] in *.
    + repeat wp1. destruct (is_nil (last rs VNil)) eqn:El; cbn [is_nil negb] in *; cbv iota.
      * repeat wp1. ask; played.
      * eapply wp_weaken; [apply Hmark; reflexivity|]. intros r s (tr2 & b & Ht & Hp & Hd2 & Hs & Hb).
        destruct s as [st t ds]. cbn [ms_trace ms_defers ms_store] in *. subst st t ds. destruct b as [u|w| | |]; subst r || destruct Hb.
        -- repeat wp1. destruct u. ask; unfold played; eexists _, _; (split; [cbn [ms_trace]; rewrite <- app_assoc; reflexivity|]);
           (split; [eapply plays_andthen; [exact Hp|]; plays | split; [reflexivity | first [reflexivity | split; [eexists; reflexivity | eexists; reflexivity]]]]).
        -- eexists _, _. split; [reflexivity|]. split; [eapply plays_andthen_panics, Hp|]. split; reflexivity.
        -- eexists _, _. split; [reflexivity|]. split; [eapply plays_andthen_hangs, Hp|]. split; reflexivity.
    + repeat wp1. eapply wp_params; [exact Hf | exact Hrs | exact Ha' |]. repeat wp1.
      eapply wp_results; [exact Hf | exact Hrs |]. repeat wp1. cbn [andthen]. ask; [ask; played | played | played].
  - repeat wp1. destruct Hsd as [-> | [d ->]]; cbn [is_nil negb andb] in *.
    + repeat wp1. ask; played.
    + repeat wp1. eapply wp_params; [exact Hf | exact Hrs | exact Ha' |]. repeat wp1.
      eapply wp_results; [exact Hf | exact Hrs |]. repeat wp1. cbn [andthen]. ask; [ask; played | played | played].
Qed.

(** := with the context among the names assigns to the parameter *)
Lemma wp_define_ctx : forall top e xs recv rs c ps ex v vs tr ds (Q : out (loc_env * list string) -> mstate -> Prop),
  mem "ctx" top = true -> lookup "ctx" e = Some (S (length (m_results m))) -> length rs = length (m_results m) ->
  wp (defines top e xs vs) Q (MState (cells recv rs (v :: ps) ex) tr ds) ->
  wp (defines top e ("ctx" :: xs) (v :: vs)) Q (MState (cells recv rs (c :: ps) ex) tr ds).
Proof.
  intros top e xs recv rs c ps ex v vs tr ds Q Hm Hl Hr H. unfold wp. cbn [defines]. change (String.eqb "ctx" "_") with false.
  rewrite Hm, Hl. unfold gbind, store. cbn [ms_store ms_trace ms_defers]. rewrite (cells_set_first _ _ _ _ _ _ _ Hr). exact H.
Qed.

Lemma mem_ctx : mem "ctx" ("_d" :: result_names m ++ param_names m) = true.
Proof.
  destruct (wf_ctx m Hwf Hac) as (p & r & E & Hp). apply mem_In. right. apply in_or_app. right. unfold param_names. rewrite E. left. exact Hp.
Qed.

Hypothesis Hzerr : m_returnsError m = true -> last zeros VNil = VNil.
Hypothesis Herrs : forall tr args vs, w_ans W tr (OMeth (VRef base) (m_name m) args) = ARet vs -> error_like vs.

(** the rest of the method once the span was started *)
Lemma span_rest : forall mark mk fin span c' tr0 (Q : out (list val) -> trace -> Prop),
  (forall rs e tr, length rs = length (m_results m) -> m_returnsError m = true -> last rs VNil = VRef e -> error_value e -> rs <> [] ->
     wp (block W m [] L (invoke W m [] L 1) [] env [] mark)
        (played_here (cells span_recv rs (c' :: rest) [VRef span]) (mk (VRef span) (VRef e)) tr CNext)
        (MState (cells span_recv rs (c' :: rest) [VRef span]) tr [])) ->
  Q Blk (tr0 ++ [(OMeth (VRef base) (m_name m) (c' :: rest), ABlock)]) ->
  (forall a tr2 b r, a <> ABlock ->
     plays (span_after mk fin sd m (VRef span) (c' :: rest) (results zeros a)) tr2 b -> finish a b r ->
     Q r (tr0 ++ (OMeth (VRef base) (m_name m) (c' :: rest), a) :: tr2)) ->
  forall top,
  wp (block W m [] L (invoke W m [] L 2) (seq 1 (length (m_results m))) env top [span_end mark fin m; pass_embedded name])
     (body_done W m [] L Q) (MState (cells span_recv zeros (c' :: rest) [VRef span]) tr0 []).
Proof.
  intros mark mk fin span c' tr0 Q Hmark Hblk Hdone top. unfold span_end, pass_embedded, call0, Bodies.call, embedded, d_, var.
  pose proof span_frame as Hf. pose proof span_deferred_meets as Hclo.
  assert (F3 : field_of (wtext [PH name]) [(name, VRef base); ("_instance", VString inst); ("_spanDecorator", sd)] = Some (VRef base)).
  { rewrite wtext_hole. cbn [field_of]. now rewrite String.eqb_refl. }
  assert (Ha' : length (c' :: rest) = length (m_params m)) by exact Ha.
  unfold span_recv in *. set (fs := [(name, VRef base); ("_instance", VString inst); ("_spanDecorator", sd)]) in *. clearbody fs. clearbody env.
  observe Hf Hz Ha' F3 Hbase.
  - intros rs Hrs Hor. apply (Hclo mark mk fin span c' rs Hrs). intros Hfail tr.
    unfold failed in Hfail. apply andb_prop in Hfail as [He Hl].
    assert (Hne : rs <> []).
    { destruct (wf_err m Hwf He) as (r & p & E & _). intros ->. rewrite E, app_length, Nat.add_comm in Hrs. discriminate. }
    assert (exists e, last rs VNil = VRef e /\ error_value e) as (e & Ee & Hev).
    { destruct Hor as [-> | [t Ht]]; [rewrite (Hzerr He) in Hl; discriminate|].
      destruct (Herrs _ _ _ Ht He) as [E|E]; [rewrite E in Hl; discriminate | exact E]. }
    rewrite Ee. now apply Hmark.
  - intros _. exact Hblk.
  - intros a tr2 b r Hne _ Hpl Hr. eapply Hdone; eassumption.
Qed.
End SPANS.

Section TEMPLATES.
Variable W : gworld.
Variable m : method.
Variables name typ : string.
Variable L : nat.
Variable base : nat.
Variable inst : string.
Variable sd : val.
Variables (zeros : list val) (ctx : val) (rest : list val).
Hypothesis Hwf : wf_method m.
Hypothesis Hac : m_acceptsContext m = true.
Hypothesis Hz : length zeros = length (m_results m).
Hypothesis Ha : length (ctx :: rest) = length (m_params m).
Hypothesis Hbase : base_typed W m base.
Hypothesis Hsd : sd = VNil \/ exists d, sd = VRef d.
Hypothesis Hn1 : name <> "_instance".
Hypothesis Hn2 : name <> "_spanDecorator".
Hypothesis Hzerr : m_returnsError m = true -> last zeros VNil = VNil.
Hypothesis Herrs : forall tr args vs, w_ans W tr (OMeth (VRef base) (m_name m) args) = ARet vs -> error_like W m vs.

(** single results *)
Ltac single :=
  match goal with
  | E : w_ans _ _ _ = ARet ?l, H : forall tr a vs, w_ans _ tr _ = ARet vs -> exists x, vs = [x] |- wp (one ?l) _ _ =>
      destruct (H _ _ _ E) as [? ->]
  | E : w_ans _ _ _ = ARet ?l, H : error_value _ _ |- wp (one ?l) _ _ => destruct (H _ _ E) as [? ->]
  end; repeat wp1.
Ltac marking := repeat (ask; [try single | played_here | played_here]); played_here.

Theorem opencensus_meets : hygienic m ["_span"; "trace"] ->
  (forall tr a vs, w_ans W tr (OCall (VPkg "trace.StartSpan") a) = ARet vs -> exists c s, vs = [c; VRef s]) ->
  (forall tr a vs, w_ans W tr (OCall (VPkg "trace.BoolAttribute") a) = ARet vs -> exists x, vs = [x]) ->
  (forall tr a vs, w_ans W tr (OCall (VPkg "trace.StringAttribute") a) = ARet vs -> exists x, vs = [x]) ->
  let '(r, tr) := run_method W m [] L (opencensus_body name typ m) (span_recv name base inst sd) zeros (ctx :: rest) in
  observed_call (opencensus_before inst typ m ctx rest) (fun x => OMeth (VRef base) (m_name m) (snd x)) zeros
    (fun x => span_after opencensus_mark "End" sd m (fst x) (snd x)) tr r.
Proof.
  intros Hhyg Hstart Hbool Hstr. apply run_method_done. unfold opencensus_body.
  pose proof (span_rest W m name L base inst sd zeros ctx rest ["trace"] Hwf Hhyg Hz Ha Hbase Hsd Hn2 Hzerr Herrs) as Hrest.
  assert (Hf : frame m (method_env m)) by (eapply frame_start; [apply Hwf | apply Hhyg]).
  pose proof (fr_d m _ Hf) as Hd. pose proof (lookup_ctx m Hwf Hac) as Hctx. pose proof (lookup_err m Hwf) as Herr.
  pose proof (mem_ctx m Hwf Hac) as Hmem.
  assert (Htrue : lookup "true" (method_env m) = None) by (eapply lookup_predeclared; [apply Hhyg | tauto]).
  assert (Hpkg0 : lookup "trace" (method_env m) = None) by (eapply lookup_fresh; [apply Hhyg | cbn; tauto | discriminate]).
  assert (F1 : field_of "_instance" [(name, VRef base); ("_instance", VString inst); ("_spanDecorator", sd)] = Some (VString inst)).
  { cbn [field_of]. destruct (String.eqb_spec "_instance" name) as [E|_]; [symmetry in E; contradiction|]. reflexivity. }
  unfold span_recv in *. set (fs := [(name, VRef base); ("_instance", VString inst); ("_spanDecorator", sd)]) in *. clearbody fs.
  assert (Hw : (inst ++ wtext [PS "."; PH typ; PS "."; PH (m_name m)])%string = (inst ++ "." ++ typ ++ "." ++ m_name m)%string) by (cbn; now rewrite sapp_nil_r).
  unfold vctx, d_, Bodies.call, call0, var. wp1. wps. rewrite Hw. ask1.
  2:{ apply done_panic, OB_panics. plays. }
  2:{ apply done_blocked, OB_blocks. plays. }
  destruct (Hstart _ _ _ Heqa) as (c & s & ->).
  eapply wp_define_ctx; [exact Hmem | exact Hctx | exact Hz |].
  eapply wp_define; [reflexivity | eapply top_fresh; [exact Hhyg | cbn; tauto | discriminate] | exact Hz | exact Ha |].
  wps. eapply (Hrest _ opencensus_mark).
  - intros rs e tr Hrs He Hl Hev Hne. specialize (Herr He).
    assert (Hle : nth_error (cells (VRec fs) rs (c :: rest) [VRef s]) (length (m_results m)) = Some (VRef e)) by (rewrite <- Hl; now apply cells_err).
    unfold vnil, verr, d_, Bodies.call, call0, var. repeat wp1. marking.
  - rewrite <- ?app_assoc; cbn [app]. ob_hangs [(OCall (VPkg "trace.StartSpan") [ctx; VString (inst ++ "." ++ typ ++ "." ++ m_name m)], ARet [c; VRef s])] (VRef s, c :: rest).
  - intros a tr2 b r Hne Hpl Hr. rewrite <- ?app_assoc; cbn [app]. ob_done [(OCall (VPkg "trace.StartSpan") [ctx; VString (inst ++ "." ++ typ ++ "." ++ m_name m)], ARet [c; VRef s])] (VRef s, c :: rest).
Qed.

Theorem opentelemetry_meets : forall pfx, hygienic m ["_span"; "otel"; "_codes"; "attribute"] ->
  (forall tr a vs, w_ans W tr (OCall (VPkg "otel.Tracer") a) = ARet vs ->
     exists t, vs = [VRef t] /\ forall tr' a' vs', w_ans W tr' (OMeth (VRef t) "Start" a') = ARet vs' -> exists c s, vs' = [c; VRef s]) ->
  (forall tr a vs, w_ans W tr (OCall (VPkg "attribute.String") a) = ARet vs -> exists x, vs = [x]) ->
  let '(r, tr) := run_method W m [] L (opentelemetry_body name pfx m) (span_recv name base inst sd) zeros (ctx :: rest) in
  observed_call (opentelemetry_before inst pfx m ctx rest) (fun x => OMeth (VRef base) (m_name m) (snd x)) zeros
    (fun x => span_after opentelemetry_mark "End" sd m (fst x) (snd x)) tr r.
Proof.
  intros pfx Hhyg Htracer Hstr. apply run_method_done. unfold opentelemetry_body.
  pose proof (span_rest W m name L base inst sd zeros ctx rest ["otel"; "_codes"; "attribute"] Hwf Hhyg Hz Ha Hbase Hsd Hn2 Hzerr Herrs) as Hrest.
  assert (Hf : frame m (method_env m)) by (eapply frame_start; [apply Hwf | apply Hhyg]).
  pose proof (fr_d m _ Hf) as Hd. pose proof (lookup_ctx m Hwf Hac) as Hctx. pose proof (lookup_err m Hwf) as Herr.
  pose proof (mem_ctx m Hwf Hac) as Hmem.
  assert (Htrue : lookup "true" (method_env m) = None) by (eapply lookup_predeclared; [apply Hhyg | tauto]).
  assert (Hpkg0 : lookup "otel" (method_env m) = None) by (eapply lookup_fresh; [apply Hhyg | cbn; tauto | discriminate]).
  assert (Hpkg1 : lookup "_codes" (method_env m) = None) by (eapply lookup_fresh; [apply Hhyg | cbn; tauto | discriminate]).
  assert (Hpkg2 : lookup "attribute" (method_env m) = None) by (eapply lookup_fresh; [apply Hhyg | cbn; tauto | discriminate]).
  assert (F1 : field_of "_instance" [(name, VRef base); ("_instance", VString inst); ("_spanDecorator", sd)] = Some (VString inst)).
  { cbn [field_of]. destruct (String.eqb_spec "_instance" name) as [E|_]; [symmetry in E; contradiction|]. reflexivity. }
  unfold span_recv in *. set (fs := [(name, VRef base); ("_instance", VString inst); ("_spanDecorator", sd)]) in *. clearbody fs.
  assert (Hw : wtext [PH pfx; PS "."; PH (m_name m)] = (pfx ++ "." ++ m_name m)%string) by (cbn; now rewrite sapp_nil_r).
  unfold vctx, d_, Bodies.call, call0, var. wp1. wps. ask1.
  2:{ apply done_panic, OB_panics. plays. }
  2:{ apply done_blocked, OB_blocks. plays. }
  destruct (Htracer _ _ _ Heqa) as (t & -> & Hstart). wps. rewrite Hw. ask1.
  2:{ apply done_panic, OB_panics. plays. }
  2:{ apply done_blocked, OB_blocks. plays. }
  destruct (Hstart _ _ _ Heqa0) as (c & s & ->).
  eapply wp_define_ctx; [exact Hmem | exact Hctx | exact Hz |].
  eapply wp_define; [reflexivity | eapply top_fresh; [exact Hhyg | cbn; tauto | discriminate] | exact Hz | exact Ha |].
  wps. eapply (Hrest _ opentelemetry_mark).
  - intros rs e tr Hrs He Hl Hev Hne. specialize (Herr He).
    assert (Hle : nth_error (cells (VRec fs) rs (c :: rest) [VRef s]) (length (m_results m)) = Some (VRef e)) by (rewrite <- Hl; now apply cells_err).
    unfold vnil, verr, d_, Bodies.call, call0, var. repeat wp1. marking.
  - rewrite <- ?app_assoc; cbn [app]. ob_hangs [(OCall (VPkg "otel.Tracer") [VString inst], ARet [VRef t]); (OMeth (VRef t) "Start" [ctx; VString (pfx ++ "." ++ m_name m)], ARet [c; VRef s])] (VRef s, c :: rest).
  - intros a tr2 b r Hne Hpl Hr. rewrite <- ?app_assoc; cbn [app]. ob_done [(OCall (VPkg "otel.Tracer") [VString inst], ARet [VRef t]); (OMeth (VRef t) "Start" [ctx; VString (pfx ++ "." ++ m_name m)], ARet [c; VRef s])] (VRef s, c :: rest).
Qed.

Theorem opentracing_meets : hygienic m ["_span"; "opentracing"; "_ext"; "_log"] ->
  (forall tr a vs, w_ans W tr (OCall (VPkg "opentracing.StartSpanFromContext") a) = ARet vs -> exists s c, vs = [VRef s; c]) ->
  (forall tr a vs, w_ans W tr (OCall (VPkg "_log.String") a) = ARet vs -> exists x, vs = [x]) ->
  let '(r, tr) := run_method W m [] L (opentracing_body name typ m) (span_recv name base inst sd) zeros (ctx :: rest) in
  observed_call (opentracing_before inst typ m ctx rest) (fun x => OMeth (VRef base) (m_name m) (snd x)) zeros
    (fun x => span_after opentracing_mark "Finish" sd m (fst x) (snd x)) tr r.
Proof.
  intros Hhyg Hstart Hstr. apply run_method_done. unfold opentracing_body.
  pose proof (span_rest W m name L base inst sd zeros ctx rest ["opentracing"; "_ext"; "_log"] Hwf Hhyg Hz Ha Hbase Hsd Hn2 Hzerr Herrs) as Hrest.
  assert (Hf : frame m (method_env m)) by (eapply frame_start; [apply Hwf | apply Hhyg]).
  pose proof (fr_d m _ Hf) as Hd. pose proof (lookup_ctx m Hwf Hac) as Hctx. pose proof (lookup_err m Hwf) as Herr.
  pose proof (mem_ctx m Hwf Hac) as Hmem.
  assert (Htrue : lookup "true" (method_env m) = None) by (eapply lookup_predeclared; [apply Hhyg | tauto]).
  assert (Hpkg0 : lookup "opentracing" (method_env m) = None) by (eapply lookup_fresh; [apply Hhyg | cbn; tauto | discriminate]).
  assert (Hpkg1 : lookup "_ext" (method_env m) = None) by (eapply lookup_fresh; [apply Hhyg | cbn; tauto | discriminate]).
  assert (Hpkg2 : lookup "_log" (method_env m) = None) by (eapply lookup_fresh; [apply Hhyg | cbn; tauto | discriminate]).
  assert (F1 : field_of "_instance" [(name, VRef base); ("_instance", VString inst); ("_spanDecorator", sd)] = Some (VString inst)).
  { cbn [field_of]. destruct (String.eqb_spec "_instance" name) as [E|_]; [symmetry in E; contradiction|]. reflexivity. }
  unfold span_recv in *. set (fs := [(name, VRef base); ("_instance", VString inst); ("_spanDecorator", sd)]) in *. clearbody fs.
  assert (Hw : (inst ++ wtext [PS "."; PH typ; PS "."; PH (m_name m)])%string = (inst ++ "." ++ typ ++ "." ++ m_name m)%string) by (cbn; now rewrite sapp_nil_r).
  unfold vctx, d_, Bodies.call, call0, var. wp1. wps. rewrite Hw. ask1.
  2:{ apply done_panic, OB_panics. plays. }
  2:{ apply done_blocked, OB_blocks. plays. }
  destruct (Hstart _ _ _ Heqa) as (s & c & ->).
  eapply wp_define; [reflexivity | eapply top_fresh; [exact Hhyg | cbn; tauto | discriminate] | exact Hz | exact Ha |].
  eapply wp_define_ctx; [exact Hmem | exact Hctx | exact Hz |].
  wps. eapply (Hrest _ opentracing_mark).
  - intros rs e tr Hrs He Hl Hev Hne. specialize (Herr He).
    assert (Hle : nth_error (cells (VRec fs) rs (c :: rest) [VRef s]) (length (m_results m)) = Some (VRef e)) by (rewrite <- Hl; now apply cells_err).
    unfold vnil, verr, d_, Bodies.call, call0, var. repeat wp1. marking.
  - rewrite <- ?app_assoc; cbn [app]. ob_hangs [(OCall (VPkg "opentracing.StartSpanFromContext") [ctx; VString (inst ++ "." ++ typ ++ "." ++ m_name m)], ARet [VRef s; c])] (VRef s, c :: rest).
  - intros a tr2 b r Hne Hpl Hr. rewrite <- ?app_assoc; cbn [app]. ob_done [(OCall (VPkg "opentracing.StartSpanFromContext") [ctx; VString (inst ++ "." ++ typ ++ "." ++ m_name m)], ARet [VRef s; c])] (VRef s, c :: rest).
Qed.

End TEMPLATES.
