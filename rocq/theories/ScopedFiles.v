(** The statement of C77 (generated files obey Go's rules for declarations and scope: every name
    is declared, no name is declared twice in a block, every := declares a new
    variable, every variable is used, and no result is hidden at a return), and that the functions it is about are the generated ones. *)
From Verif Require Import Render TypesSpec TypesProofs PropNaming PropImplements PropClashes PropScope ScopingProofs.
Open Scope nat_scope.

(** ** Statement *)

(** the name an import declares; without a name of its own, the last element of
    the path before a major version (the names of the packages are not known
    to the model; this is how the packages the templates import are called) *)
Definition major (s : string) : bool :=
  match s with String c r => byte_eqb c "v" && digit_first r | _ => false end.
Fixpoint last_element (prev cur s : string) : string :=
  match s with
  | EmptyString => if major cur then prev else cur
  | String c r =>
      if byte_eqb c "/" then last_element cur "" r
      else if byte_eqb c """" then last_element prev cur r
      else last_element prev (cur ++ String c "") r
  end.
Definition import_name (i : importspec) : string :=
  match im_name i with Some n => n | None => last_element "" "" (im_path i) end.

(** Go spec, Predeclared identifiers *)
Definition predeclared : list string :=
  ["any"; "bool"; "byte"; "comparable"; "complex64"; "complex128"; "error"; "float32"; "float64"; "int"; "int8"; "int16"; "int32"; "int64"; "rune";
   "string"; "uint"; "uint8"; "uint16"; "uint32"; "uint64"; "uintptr"; "true"; "false"; "iota"; "nil";
   "append"; "cap"; "close"; "complex"; "copy"; "delete"; "imag"; "len"; "make"; "new"; "panic"; "print"; "println"; "real"; "recover"].

(** the names declared outside of functions, read off the tokens of the file *)
Definition file_scope (toks : list gtok) : list string := map import_name (leading_imports toks) ++ tops 0 toks ++ predeclared.

(** the functions the templates declare *)
Definition each (p : method -> bool) (t : tdata) (f : method -> gocode) : list gocode :=
  flat_map (fun m => if p m then [f m] else []) (sorted_methods t).
Definition always (m : method) : bool := true.
Inductive codes (lower : N -> N) (t : tdata) : string -> list gocode -> Prop :=
| c_retry : let dec := decorator t "WithRetry" in
    codes lower t text_retry (GFunc (plain_new dec (retry_ctor (td_name t) (td_type t))) ::
      each m_returnsError t (fun m => GMethod [] dec m (retry_body (td_name t) m)))
| c_timeout : let dec := decorator t "WithTimeout" in
    codes lower t text_timeout (GFunc (plain_new dec (timeout_ctor dec (td_name t) (td_type t))) ::
      each m_acceptsContext t (fun m => GMethod [] dec m (timeout_body (td_name t) m)))
| c_validate : let dec := decorator t "WithValidation" in
    codes lower t text_validate (GFunc (plain_new dec (base_ctor (td_name t) (td_type t))) ::
      each always t (fun m => GMethod [] dec m (validate_body (td_name t) m)))
| c_twirp_validate : let dec := decorator t "WithTwirpValidation" in
    codes lower t text_twirp_validate (GFunc (plain_new dec (base_ctor (td_name t) (td_type t))) ::
      each always t (fun m => GMethod [] dec m (twirp_validate_body (td_name t) m)))
| c_grpc_validate : let dec := decorator t "WithGRPCValidation" in
    codes lower t text_grpc_validate (GFunc (plain_new dec (base_ctor (td_name t) (td_type t))) ::
      each m_returnsError t (fun m => GMethod [] dec m (grpc_validate_body (td_name t) m)))
| c_twirp_error : let dec := decorator t "WithTwirpError" in
    codes lower t text_twirp_error (GInject :: GFunc (plain_new dec (base_ctor (td_name t) (td_type t))) ::
      each always t (fun m => GMethod [] dec m (twirp_error_body (td_name t) m)))
| c_log : let dec := decorator t "WithLog" in
    codes lower t text_log (GFunc (log_new dec (td_type t)) :: each always t (fun m => GMethod [] dec m (log_body dec m)))
| c_logrus : let dec := decorator t "WithLogrus" in
    codes lower t text_logrus (GFunc (plain_new dec (logrus_ctor (td_type t))) ::
      each always t (fun m => GMethod [] dec m (logrus_body dec m)))
| c_prometheus : let dec := decorator t "WithPrometheus" in
    codes lower t text_prometheus (GFunc (plain_new dec (prometheus_ctor (td_type t))) ::
      each always t (fun m => GMethod [] dec m (prometheus_body (go_lower lower (td_name t)) m)))
| c_opencensus : let dec := decorator t "WithTracing" in
    codes lower t text_opencensus (GFunc (tracing_new (t_span_decorator [TP "*"] "trace" "Span") dec (td_name t) (td_type t)) ::
      each m_acceptsContext t (fun m => GMethod [] dec m (opencensus_body (td_name t) (td_type t) m)))
| c_opentelemetry : let dec := decorator t "WithTracing" in
    codes lower t text_opentelemetry (GFunc (tracing_new (t_span_decorator [] "trace" "Span") dec (td_name t) (td_type t)) ::
      each m_acceptsContext t (fun m => GMethod [] dec m (opentelemetry_body (td_name t) (or_var "SpanNamePrefix" (td_vars t) (td_name t)) m)))
| c_opentracing : let dec := decorator t "WithTracing" in
    codes lower t text_opentracing (GFunc (tracing_new (t_span_decorator [] "opentracing" "Span") dec (td_name t) (td_type t)) ::
      each m_acceptsContext t (fun m => GMethod [] dec m (opentracing_body (td_name t) (td_type t) m)))
| c_elasticapm : let dec := decorator t "APMTracing" in let opt := decorator t "APMTracingOption" in
    (forall m, In m (map snd (td_methods t)) -> ctx_first m) ->
    codes lower t text_elasticapm
      (GFunc (apm_with_label dec opt) :: GFunc (apm_with_type dec opt) ::
       GFunc (apm_new dec (or_var "ComponentName" (td_vars t) (go_lower lower (td_name t))) (td_type t)) ::
       each m_acceptsContext t (fun m => GMethod [] dec m
         (elasticapm_body (toSnakeCase lower) (component_shown (td_vars t) (go_lower lower (td_name t))) m)))
| c_syncpool : let dec := decorator t "Pool" in
    codes lower t text_syncpool (GFunc (syncpool_new dec (td_type t)) :: each always t (fun m => GMethod [] dec m (syncpool_body m)))
| c_robinpool : let dec := decorator t "RoundRobinPool" in
    codes lower t text_robinpool (GFunc (robinpool_new dec (td_type t)) :: GFunc (robinpool_must_new dec (td_type t)) ::
      each always t (fun m => GMethod star dec m (robinpool_body m)))
| c_ratelimit : let dec := decorator t "WithRateLimit" in
    codes lower t text_ratelimit (GFunc (ratelimit_new dec (td_type t)) :: each always t (fun m => GMethod star dec m (ratelimit_body m)))
| c_circuitbreaker : let dec := decorator t "WithCircuitBreaker" in
    codes lower t text_circuitbreaker (GFunc (circuitbreaker_new dec (td_name t) (td_type t)) ::
      each m_returnsError t (fun m => GMethod star dec m (circuitbreaker_body (td_name t) dec m)))
| c_fallback : let dec := decorator t "WithFallback" in
    codes lower t text_fallback (GFunc (fallback_new dec (td_type t)) ::
      each always t (fun m => GFallback dec m (fallback_body (td_type t) m))).

(** what NewMethod guarantees (C01, C04) *)
Definition names (m : method) : list string := map p_name (m_params m) ++ map p_name (m_results m).
Definition well_named (m : method) : Prop :=
  NoDup (names m) /\ (m_acceptsContext m = true -> In "ctx" (map p_name (m_params m)))
  /\ (m_returnsError m = true -> In "err" (map p_name (m_results m))).

Definition C77_statement : Prop := forall lower upper t text cs toks,
  codes lower t text cs -> source_tokens lower upper text t = Some toks ->
  Forall well_named (map snd (td_methods t)) ->
  Forall (code_ok (td_type t) (file_scope toks)) cs.

(** It fails for three reasons: names of parameters and results that a body
    declares itself, packages that a template uses without importing them (the
    generator runs goimports, which is not modelled, over the file), and the
    options of elasticapm decorators with a name of their own. *)

(** the names a body declares *)
Definition locals (text : string) : list string :=
  if String.eqb text text_retry then ["_ticker"; "_i"]
  else if String.eqb text text_timeout then ["cancelFunc"]
  else if String.eqb text text_validate || String.eqb text text_twirp_validate || String.eqb text text_grpc_validate then ["_v"; "_ok"]
  else if String.eqb text text_log then ["_params"; "_results"]
  else if String.eqb text text_prometheus then ["_since"; "result"]
  else if String.eqb text text_opencensus || String.eqb text text_opentelemetry || String.eqb text text_opentracing then ["_span"]
  else if String.eqb text text_elasticapm then ["span"]
  else if String.eqb text text_syncpool then ["_impl"]
  else if String.eqb text text_robinpool then ["_counter"]
  else if String.eqb text text_circuitbreaker then ["_e"; "closesAt"]
  else if String.eqb text text_fallback then
    ["_resultStruct"; "_ch"; "_next"; "_errorsList"; "_ticker"; "_cancelFunc"; "_i"; "_impl"; "_res"]
  else [].
Definition apart (text : string) (m : method) : Prop := forall x, In x (names m) -> ~ In x ("_" :: "_d" :: locals text).

(** the packages left to goimports *)
Definition not_imported (text : string) : list string :=
  if String.eqb text text_fallback then ["context"] else if String.eqb text text_twirp_error then ["json"] else [].

(** ** The functions are the generated ones *)
Definition shown (cs : list gocode) (d : list gtok) : Prop := bodiless d \/ exists c, In c cs /\ d = code_toks c.

Lemma each_toks : forall p t f (g : method -> list gtok), (forall m, code_toks (f m) = g m) ->
  map code_toks (each p t f) = flat_map (fun m => if p m then [g m] else []) (sorted_methods t).
Proof.
  intros p t f g H. unfold each. induction (sorted_methods t) as [|m l IH]; [reflexivity|]. cbn [flat_map].
  rewrite map_app, IH. destruct (p m); cbn [map]; now rewrite ?H.
Qed.
Lemma shown_all : forall lower upper text t (head : list (list gtok)) (fs : list gocode) (tl_ : list (list gtok)) (p : method -> bool) (f : method -> gocode) (g : method -> list gtok),
  (forall m, code_toks (f m) = g m) ->
  generates lower upper text t (head ++ flat_map (fun m => if p m then [g m] else []) (sorted_methods t) ++ tl_) ->
  Forall (fun c => In (code_toks c) (head ++ tl_)) fs -> Forall (shown fs) (head ++ tl_) ->
  exists decls, generates lower upper text t decls /\ Forall (shown (fs ++ each p t f)) decls /\
                Forall (fun c => In (code_toks c) decls) (fs ++ each p t f).
Proof.
  intros lower upper text t head fs tl_ p f g E G H1 H2. eexists. split; [exact G|]. rewrite <- (each_toks p t f g E). split.
  - assert (K : Forall (shown (fs ++ each p t f)) (head ++ tl_)).
    { eapply Forall_impl; [|exact H2]. intros d [Hd | (c & Hc & Ed)]; [now left | right]. exists c. split; [apply in_or_app; now left | exact Ed]. }
    apply Forall_app in K as [K1 K2]. apply Forall_app. split; [exact K1|]. apply Forall_app. split; [|exact K2].
    apply Forall_forall. intros d Hd. apply in_map_iff in Hd as (c & <- & Hc). right. exists c. split; [apply in_or_app; now right | reflexivity].
  - apply Forall_app. split.
    + eapply Forall_impl; [|exact H1]. intros c Hc. apply in_app_or in Hc as [Hc|Hc]; apply in_or_app; [now left|].
      right. apply in_or_app. now right.
    + apply Forall_forall. intros c Hc. apply in_or_app. right. apply in_or_app. left. now apply in_map.
Qed.

Ltac body_less := left; first [eapply bl_import | eapply bl_type | eapply bl_var | vm_compute; eapply (bl_type (_ :: _))].
Ltac pick t := solve [eexists; split; [t | vm_compute; reflexivity]].
Ltac by_code := right; first [pick ltac:(left; reflexivity) | pick ltac:(right; left; reflexivity) | pick ltac:(right; right; left; reflexivity)].
Ltac show := repeat (apply Forall_cons; [first [body_less | by_code]|]); apply Forall_nil.
Ltac has_them := repeat (apply Forall_cons; [cbn [code_toks app]; in_head|]); apply Forall_nil.
(** the part of a file before the methods *)
Definition opening (head : list (list gtok)) (fs : list gocode) : Prop :=
  Forall (fun c => In (code_toks c) head) fs /\ Forall (shown fs) head.
Ltac open_ := split; [has_them | show].
Lemma retry_opens : forall dec name typ, opening (retry_head dec name typ) [GFunc (plain_new dec (retry_ctor name typ))].
Proof. intros. unfold retry_head. open_. Qed.
Lemma validate_opens : forall imports dec name typ, opening (validate_head imports dec name typ) [GFunc (plain_new dec (base_ctor name typ))].
Proof.
  intros. unfold validate_head. split.
  - apply Forall_cons; [|apply Forall_nil]. apply in_or_app. right. cbn [code_toks]. in_head.
  - apply Forall_app. split; [|show]. destruct imports; [apply Forall_nil|]. apply Forall_cons; [|apply Forall_nil]. left. unfold import_decl. apply bl_import.
Qed.
Lemma log_opens : forall dec typ, opening (log_head dec typ) [GFunc (log_new dec typ)].
Proof. intros. unfold log_head. open_. Qed.
Lemma logrus_opens : forall dec typ, opening (logrus_head dec typ) [GFunc (plain_new dec (logrus_ctor typ))].
Proof. intros. unfold logrus_head. open_. Qed.
Lemma prometheus_opens : forall dec typ dn metric, opening (prometheus_head dec typ dn metric) [GFunc (plain_new dec (prometheus_ctor typ))].
Proof. intros. unfold prometheus_head. open_. Qed.
Lemma elasticapm_opens : forall dec opt comp typ, opening (elasticapm_head dec opt comp typ) [GFunc (apm_with_label dec opt); GFunc (apm_with_type dec opt); GFunc (apm_new dec comp typ)].
Proof. intros. unfold elasticapm_head. open_. Qed.
Lemma syncpool_opens : forall dec typ, opening (syncpool_head dec typ) [GFunc (syncpool_new dec typ)].
Proof. intros. unfold syncpool_head. open_. Qed.
Lemma robinpool_opens : forall dec typ, opening (robinpool_head dec typ) [GFunc (robinpool_new dec typ); GFunc (robinpool_must_new dec typ)].
Proof. intros. unfold robinpool_head. open_. Qed.
Lemma ratelimit_opens : forall dec typ, opening (ratelimit_head dec typ) [GFunc (ratelimit_new dec typ)].
Proof. intros. unfold ratelimit_head. open_. Qed.
Lemma circuitbreaker_opens : forall dec name typ, opening (circuitbreaker_head dec name typ) [GFunc (circuitbreaker_new dec name typ)].
Proof. intros. unfold circuitbreaker_head. open_. Qed.
Lemma fallback_opens : forall dec typ, opening (fallback_head dec typ) [GFunc (fallback_new dec typ)].
Proof. intros. unfold fallback_head. open_. Qed.
Lemma timeout_opens : forall dec name typ ms, opening (timeout_head dec name typ ms) [GFunc (plain_new dec (timeout_ctor dec name typ))].
Proof.
  intros. unfold timeout_head, timeout_config. match goal with |- context [semis (flat_map ?f ms)] => generalize (semis (flat_map f ms)) end. intros. open_.
Qed.
Lemma tracing_opens : forall imports ty dec name typ, opening (tracing_head imports ty dec name typ) [GFunc (tracing_new ty dec name typ)].
Proof.
  intros. destruct (tracing_has imports ty dec name typ) as [_ H]. apply Forall_cons_iff in H as [H _]. split.
  - apply Forall_cons; [exact H | apply Forall_nil].
  - unfold tracing_head. apply Forall_cons; [left; apply bl_import|]. apply Forall_cons; [left; apply bl_type|]. apply Forall_cons; [|apply Forall_nil].
    right. eexists. split; [now left|]. unfold tracing_ctor, tracing_new, code_toks, func_toks. cbn [f_name f_params f_results f_body map fst snd commas].
    unfold dots. rewrite <- !app_assoc. reflexivity.
Qed.
Lemma opening_nil : forall head fs, opening head fs -> Forall (fun c => In (code_toks c) (head ++ [])) fs /\ Forall (shown fs) (head ++ []).
Proof. intros head fs H. now rewrite app_nil_r. Qed.
Lemma opening_inject : forall head fs, opening head fs ->
  Forall (fun c => In (code_toks c) (head ++ [inject_decl no_method])) (GInject :: fs) /\ Forall (shown (GInject :: fs)) (head ++ [inject_decl no_method]).
Proof.
  intros head fs [H K]. split.
  - apply Forall_cons; [apply in_or_app; right; now left|]. eapply Forall_impl; [|exact H]. intros c Hc. apply in_or_app. now left.
  - apply Forall_app. split.
    + eapply Forall_impl; [|exact K]. intros d [Hd | (c & Hc & E)]; [now left | right; exists c; split; [now right | exact E]].
    + apply Forall_cons; [|apply Forall_nil]. right. exists GInject. split; [now left | reflexivity].
Qed.
Ltac code_with G O := eapply shown_all; [intros; reflexivity | exact G | apply opening_nil; apply O | apply opening_nil; apply O].

Theorem C77_code : forall lower upper t text cs, codes lower t text cs ->
  exists decls, generates lower upper text t decls /\ Forall (shown cs) decls /\ Forall (fun c => In (code_toks c) decls) cs.
Proof.
  intros lower upper t text cs [].
  - change (?a :: each ?p ?b ?c) with ([a] ++ each p b c). code_with (retry_generated lower upper t) retry_opens.
  - change (?a :: each ?p ?b ?c) with ([a] ++ each p b c). code_with (timeout_generated lower upper t) timeout_opens.
  - change (?a :: each ?p ?b ?c) with ([a] ++ each p b c). code_with (validate_generated lower upper t) validate_opens.
  - change (?a :: each ?p ?b ?c) with ([a] ++ each p b c). code_with (twirp_validate_generated lower upper t) validate_opens.
  - change (?a :: each ?p ?b ?c) with ([a] ++ each p b c). code_with (grpc_validate_generated lower upper t) validate_opens.
  - change (?a :: ?b :: each ?p ?x ?c) with ([a; b] ++ each p x c). eapply shown_all; [intros; reflexivity | exact (twirp_error_generated lower upper t) | apply opening_inject; apply validate_opens | apply opening_inject; apply validate_opens].
  - change (?a :: each ?p ?b ?c) with ([a] ++ each p b c). code_with (log_generated lower upper t) log_opens.
  - change (?a :: each ?p ?b ?c) with ([a] ++ each p b c). code_with (logrus_generated lower upper t) logrus_opens.
  - change (?a :: each ?p ?b ?c) with ([a] ++ each p b c). code_with (prometheus_generated lower upper t) prometheus_opens.
  - change (?a :: each ?p ?b ?c) with ([a] ++ each p b c). code_with (opencensus_generated lower upper t) tracing_opens.
  - change (?a :: each ?p ?b ?c) with ([a] ++ each p b c). code_with (opentelemetry_generated lower upper t) tracing_opens.
  - change (?a :: each ?p ?b ?c) with ([a] ++ each p b c). code_with (opentracing_generated lower upper t) tracing_opens.
  - change (?a :: ?b :: ?c :: each ?p ?x ?y) with ([a; b; c] ++ each p x y). code_with (elasticapm_generated lower upper t H) elasticapm_opens.
  - change (?a :: each ?p ?b ?c) with ([a] ++ each p b c). code_with (syncpool_generated lower upper t) syncpool_opens.
  - change (?a :: ?b :: each ?p ?x ?c) with ([a; b] ++ each p x c). code_with (robinpool_generated lower upper t) robinpool_opens.
  - change (?a :: each ?p ?b ?c) with ([a] ++ each p b c). code_with (ratelimit_generated lower upper t) ratelimit_opens.
  - change (?a :: each ?p ?b ?c) with ([a] ++ each p b c). code_with (circuitbreaker_generated lower upper t) circuitbreaker_opens.
  - change (?a :: each ?p ?b ?c) with ([a] ++ each p b c). eapply shown_all; [intros; symmetry; apply fallback_method_tokens | exact (fallback_generated lower upper t) | apply opening_nil; apply fallback_opens | apply opening_nil; apply fallback_opens].
Qed.
