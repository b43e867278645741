(** The functions that the stock templates declare beside the methods obey the rules of Typing.v. *)
From Verif Require Import Render TypesSpec TypesProofs PropNaming PropImplements PropClashes PropScope ScopingProofs ScopedFiles ScopedBodies.
From Verif Require Import TypedFiles TypedTactics TypedBodies.
Open Scope nat_scope.



Lemma opentelemetry_new_typed : forall typ methods name P,
  let top := [[("context", EPkg "context"); ("_codes", EPkg otel_codes_path); ("otel", EPkg otel_path); ("attribute", EPkg otel_attribute_path); ("trace", EPkg otel_trace_path)]; P; universe] in
  forall dec, base_name typ = name -> In (dec, EType (TyName dec)) P -> ~ In dec ["context"; "_codes"; "otel"; "attribute"; "trace"; "base"; "instance"; "spanDecorator"] ->
  ~ In name ["_instance"] -> clear_of (map fst P) ["string"; "len"; "nil"] ->
  code_typed typ methods [(dec, tracing_fields (t_span_decorator [] "trace" "Span") typ)] [] top (GFunc (tracing_new (t_span_decorator [] "trace" "Span") dec name typ)).
Proof. intros. subst top. unfold tracing_new. func. Qed.
Lemma opentracing_new_typed : forall typ methods name P,
  let top := [[("opentracing", EPkg ot_path); ("_ext", EPkg ot_ext_path); ("_log", EPkg ot_log_path)]; P; universe] in
  forall dec, base_name typ = name -> In (dec, EType (TyName dec)) P -> ~ In dec ["opentracing"; "_ext"; "_log"; "base"; "instance"; "spanDecorator"] ->
  ~ In name ["_instance"] -> clear_of (map fst P) ["string"; "len"; "nil"] ->
  code_typed typ methods [(dec, tracing_fields (t_span_decorator [] "opentracing" "Span") typ)] [] top (GFunc (tracing_new (t_span_decorator [] "opentracing" "Span") dec name typ)).
Proof. intros. subst top. unfold tracing_new. func. Qed.
Lemma syncpool_new_typed : forall typ methods P, let top := [[]; P; universe] in
  forall dec, In (dec, EType (TyName dec)) P -> ~ In dec ["impls"; "pool"] ->
  (forall x, In x (type_ids typ) -> ~ In x ["impls"]) -> clear_of (map fst P) ["len"; "make"; "panic"] ->
  code_typed typ methods [(dec, syncpool_fields typ)] [] top (GFunc (syncpool_new dec typ)).
Proof. intros. subst top. unfold syncpool_new. func. Qed.
Lemma robinpool_new_typed : forall typ methods P, let top := [[("atomic", EPkg "sync/atomic"); ("errors", EPkg "errors")]; P; universe] in
  forall dec, In (dec, EType (TyName dec)) P -> ~ In dec ["atomic"; "errors"; "pool"] -> clear_of (map fst P) ["len"; "nil"; "error"; "uint32"; "panic"] ->
  code_typed typ methods [(dec, robinpool_fields typ)] [] top (GFunc (robinpool_new dec typ)) /\
  code_typed typ methods [(dec, robinpool_fields typ)] [] top (GFunc (robinpool_must_new dec typ)).
Proof. intros. subst top. unfold robinpool_new, robinpool_must_new. split; func. Qed.
Lemma ratelimit_new_typed : forall typ methods P, let top := [[("time", EPkg "time")]; P; universe] in
  forall dec, In (dec, EType (TyName dec)) P -> ~ In dec ["time"; "base"; "burst"; "rps"] -> clear_of (map fst P) ["int"; "float64"; "make"] ->
  code_typed typ methods [(dec, ratelimit_fields typ)] [] top (GFunc (ratelimit_new dec typ)).
Proof. intros. subst top. unfold ratelimit_new. func. Qed.
Lemma circuitbreaker_new_typed : forall typ methods name P, let top := [[("errors", EPkg "errors"); ("sync", EPkg "sync"); ("time", EPkg "time")]; P; universe] in
  forall dec, base_name typ = name -> In (dec, EType (TyName dec)) P ->
  ~ In dec ["errors"; "sync"; "time"; "base"; "consecutiveErrors"; "openInterval"; "ignoreErrors"] ->
  ~ In name ["_maxConsecutiveErrors"; "_openInterval"; "_ignoreErrors"] -> clear_of (map fst P) ["int"; "error"] ->
  code_typed typ methods [(dec, circuitbreaker_fields typ)] [] top (GFunc (circuitbreaker_new dec name typ)).
Proof. intros. subst top. unfold circuitbreaker_new. func. Qed.
Lemma fallback_new_typed : forall typ methods P,
  let top := [[("errors", EPkg "errors"); ("fmt", EPkg "fmt"); ("strings", EPkg "strings"); ("time", EPkg "time"); ("context", EPkg "context")]; P; universe] in
  forall dec, In (dec, EType (TyName dec)) P -> ~ In dec ["errors"; "fmt"; "strings"; "time"; "context"; "interval"; "impls"] ->
  code_typed typ methods [(dec, fallback_fields typ)] [] top (GFunc (fallback_new dec typ)).
Proof. intros. subst top. unfold fallback_new. func. Qed.

(** ** templates/elasticapm *)
Definition option_type (dec : string) : list gtok := kw "func" ++ [TP "("] ++ kw "v" ++ [TP "*"; TW [PH dec]; TP ")"].
Lemma option_denotes : forall typ top G dec, bound G dec (EType (TyName dec)) -> denotes typ top G (option_type dec) (TyFunc [TyPtr (TyName dec)] None []).
Proof.
  intros typ top G dec B. assert (D : denotes typ top G [TP "*"; TW [PH dec]] (TyPtr (TyName dec))).
  { apply dn_ptr. apply dn_name. cbn. rewrite sapp_nil_r. exact B. }
  exact (dn_func typ top G _ _ _ _ (dp_last typ top G ["v"] _ _ D) (dr_none typ top G)).
Qed.
Ltac apm_start := intros; repeat match goal with x := _ : list (list (string * ent)) |- _ => subst x end;
  match goal with |- code_typed ?typ _ [(?dec, _)] [(?opt, _)] ?top _ =>
    destruct (apm_fields_typed typ dec top) as (F1 & F2 & F3 & F4); try bnd;
    assert (U : under typ [(opt, option_type dec)] top (TyName opt) (TyFunc [TyPtr (TyName dec)] None [])) by (eapply un_alias; [left; reflexivity | apply option_denotes; bnd])
  end.
Lemma apm_label_typed : forall typ methods P dec opt, let top := [[("context", EPkg "context"); ("apm", EPkg apm_path)]; P; universe] in
  In (dec, EType (TyName dec)) P -> In (opt, EType (TyName opt)) P -> ~ In dec ["context"; "apm"; "v"] -> ~ In opt ["context"; "apm"] -> clear_of (map fst P) ["string"; "error"] ->
  code_typed typ methods [(dec, elasticapm_fields typ)] [(opt, option_type dec)] top (GFunc (apm_with_label dec opt)).
Proof. apm_start. unfold apm_with_label. func. Qed.

Lemma apm_type_typed : forall typ methods P dec opt, let top := [[("context", EPkg "context"); ("apm", EPkg apm_path)]; P; universe] in
  In (dec, EType (TyName dec)) P -> In (opt, EType (TyName opt)) P -> ~ In dec ["context"; "apm"; "spanType"] -> ~ In opt ["context"; "apm"] -> clear_of (map fst P) ["string"; "error"] ->
  code_typed typ methods [(dec, elasticapm_fields typ)] [(opt, option_type dec)] top (GFunc (apm_with_type dec opt)).
Proof. apm_start. unfold apm_with_type. func. Qed.
Lemma apm_new_typed : forall typ methods P dec comp, let opt := (dec ++ "Option")%string in let top := [[("context", EPkg "context"); ("apm", EPkg apm_path)]; P; universe] in
  In (dec, EType (TyName dec)) P -> In (opt, EType (TyName opt)) P -> ~ In dec ["context"; "apm"; "base"; "opts"] -> ~ In opt ["context"; "apm"] -> clear_of (map fst P) ["string"; "error"] ->
  code_typed typ methods [(dec, elasticapm_fields typ)] [(opt, option_type dec)] top (GFunc (apm_new dec comp typ)).
Proof. apm_start. unfold apm_new, t_span_params. func. Qed.
