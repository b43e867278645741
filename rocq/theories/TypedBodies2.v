(** The bodies of the stock templates obey the rules of Typing.v. *)
From Verif Require Import Render TypesSpec TypesProofs PropNaming PropImplements PropClashes PropScope ScopingProofs ScopedFiles ScopedBodies.
From Verif Require Import TypedFiles TypedTactics.
Open Scope nat_scope.

Lemma opencensus_typed : forall typ methods name m P, let top := [[("trace", EPkg census_path)]; P; universe] in
  forall dec, base_name typ = name -> In m methods -> well_typed m -> m_acceptsContext m = true ->
  clear_of (map fst (sig_block m)) ["_d"; "_span"; "nil"; "true"; "string"; "trace"] -> clear_of (map fst P) ["nil"; "true"; "string"] ->
  body_typed typ methods [(dec, tracing_fields (t_span_decorator [TP "*"] "trace" "Span") typ)] [] top (TyName dec) m (flat_map (gst m) (opencensus_body name typ m)).
Proof.
  start. unfold opencensus_body, span_end, span_deferred. destruct (m_returnsError m) eqn:E; try pose proof (sig_err m H1 E); run.
Qed.

Lemma opentelemetry_typed : forall typ methods name pfx m P,
  let top := [[("context", EPkg "context"); ("_codes", EPkg otel_codes_path); ("otel", EPkg otel_path); ("attribute", EPkg otel_attribute_path); ("trace", EPkg otel_trace_path)]; P; universe] in
  forall dec, base_name typ = name -> In m methods -> well_typed m -> m_acceptsContext m = true ->
  clear_of (map fst (sig_block m)) ["_d"; "_span"; "nil"; "string"; "_codes"; "otel"; "attribute"] -> clear_of (map fst P) ["nil"; "string"] ->
  body_typed typ methods [(dec, tracing_fields (t_span_decorator [] "trace" "Span") typ)] [] top (TyName dec) m (flat_map (gst m) (opentelemetry_body name pfx m)).
Proof.
  start. unfold opentelemetry_body, span_end, span_deferred. destruct (m_returnsError m) eqn:E; try pose proof (sig_err m H1 E); run.
Qed.
Lemma opentracing_typed : forall typ methods name m P,
  let top := [[("opentracing", EPkg ot_path); ("_ext", EPkg ot_ext_path); ("_log", EPkg ot_log_path)]; P; universe] in
  forall dec, base_name typ = name -> In m methods -> well_typed m -> m_acceptsContext m = true ->
  clear_of (map fst (sig_block m)) ["_d"; "_span"; "nil"; "true"; "string"; "opentracing"; "_ext"; "_log"] -> clear_of (map fst P) ["nil"; "true"; "string"] ->
  body_typed typ methods [(dec, tracing_fields (t_span_decorator [] "opentracing" "Span") typ)] [] top (TyName dec) m (flat_map (gst m) (opentracing_body name typ m)).
Proof.
  start. unfold opentracing_body, span_end, span_deferred. destruct (m_returnsError m) eqn:E; try pose proof (sig_err m H1 E); run.
Qed.
Lemma syncpool_typed : forall typ methods m P, let top := [[]; P; universe] in
  forall dec, In m methods -> well_typed m ->
  clear_of (map fst (sig_block m)) ["_d"; "_impl"] ->
  body_typed typ methods [(dec, syncpool_fields typ)] [] top (TyName dec) m (flat_map (gst m) (syncpool_body m)).
Proof. start. unfold syncpool_body. run. Qed.
Lemma robinpool_typed : forall typ methods m P, let top := [[("atomic", EPkg "sync/atomic"); ("errors", EPkg "errors")]; P; universe] in
  forall dec, In m methods -> well_typed m ->
  clear_of (map fst (sig_block m)) ["_d"; "_counter"; "atomic"] -> clear_of (map fst P) ["uint32"] ->
  body_typed typ methods [(dec, robinpool_fields typ)] [] top (TyPtr (TyName dec)) m (flat_map (gst m) (robinpool_body m)).
Proof. start. unfold robinpool_body. run. Qed.
Lemma ratelimit_typed : forall typ methods m P, let top := [[("time", EPkg "time")]; P; universe] in
  forall dec, In m methods -> well_typed m ->
  clear_of (map fst (sig_block m)) ["_d"] ->
  body_typed typ methods [(dec, ratelimit_fields typ)] [] top (TyPtr (TyName dec)) m (flat_map (gst m) (ratelimit_body m)).
Proof.
  start. unfold ratelimit_body, ratelimit_wait. destruct (m_acceptsContext m) eqn:E1, (m_returnsError m) eqn:E2; cbn [andb];
    try pose proof (sig_err m H0 E2); try pose proof (sig_ctx m H0 E1); run.
Qed.
Lemma circuitbreaker_typed : forall typ methods name m P, let top := [[("errors", EPkg "errors"); ("sync", EPkg "sync"); ("time", EPkg "time")]; P; universe] in
  forall dec, base_name typ = name -> In m methods -> well_typed m -> m_returnsError m = true ->
  clear_of (map fst (sig_block m)) ["_d"; "_e"; "closesAt"; "nil"; "errors"; "time"] -> clear_of (map fst P) ["nil"; "int"; "error"] ->
  body_typed typ methods [(dec, circuitbreaker_fields typ)] [] top (TyPtr (TyName dec)) m (flat_map (gst m) (circuitbreaker_body name dec m)).
Proof. start. unfold circuitbreaker_body, breaker_close. run. Qed.
