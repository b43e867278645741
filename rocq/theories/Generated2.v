(** What the logging, metrics and tracing templates generate. *)
From Verif Require Import Render.
From Verif Require Export Generated.
Open Scope nat_scope.

(** ** log *)
Definition s_log := Eval vm_compute in sections text_log.
Definition log_logger (w : string) : list gtok :=
  dotted "log" "New" ++ [TP "("] ++ kw w ++ [TP ","; TS []; TP ","] ++ dotted "log" "LstdFlags" ++ [TP ")"].
Definition log_head (dec typ : string) : list (list gtok) :=
  [import_decl [imp "io"; imp "log"];
   struct_decl dec [kw "_stdlog" ++ [TP ","] ++ kw "_errlog" ++ [TP "*"] ++ dotted "log" "Logger"; kw "_base" ++ hole typ];
   kw "func" ++ [TW [PS "New"; PH dec]; TP "("] ++ kw "base" ++ hole typ ++ [TP ","] ++ kw "stdout" ++ [TP ","]
     ++ kw "stderr" ++ dotted "io" "Writer" ++ [TP ")"; TW [PH dec]; TP "{"]
     ++ kw "return" ++ [TW [PH dec]; TP "{"]
     ++ kw "_base" ++ [TP ":"] ++ kw "base" ++ [TP ","]
     ++ kw "_stdlog" ++ [TP ":"] ++ log_logger "stdout" ++ [TP ","]
     ++ kw "_errlog" ++ [TP ":"] ++ log_logger "stderr" ++ [TP ","] ++ [TP "}"; TP "}"]].

Theorem log_generated : forall lower upper t,
  let dec := decorator t "WithLog" in
  generates lower upper text_log t
    (log_head dec (td_type t)
     ++ flat_map (fun m => [method_toks [] dec m (btoks m (log_body dec m))]) (sorted_methods t) ++ []).
Proof.
  intros lower upper t. cbv zeta.
  apply (generates_intro lower upper text_log t s_log (decorator_env t "WithLog")); cbn [s_log fst snd].
  - vm_compute. reflexivity.
  - unfold decorator_env, decorator_val, decorator. steps. decl_or.
    gen_or "DecoratorName" (td_vars t) (td_name t ++ "WithLog")%string. steps. split; [reflexivity|lx].
  - intros m _. unfold decorator_env. gen_dec t "WithLog". unfold log_body, log_deferred.
    destruct (HasParams m) eqn:E0, (HasResults m) eqn:E2, (m_returnsError m) eqn:E1; steps; lx.
  - steps. lx.
Qed.

(** ** logrus *)
Definition s_logrus := Eval vm_compute in sections text_logrus.
Definition logrus_entry : list gtok := [TP "*"] ++ dotted "logrus" "Entry".
Definition logrus_ctor (typ : string) : ctor :=
  Ctor [("base", hole typ); ("log", logrus_entry)] [(id "_base", "base"); (id "_log", "log")].
Definition logrus_head (dec typ : string) : list (list gtok) :=
  [import_decl [imp "io"; imp "github.com/sirupsen/logrus"];
   struct_decl dec [kw "_log" ++ logrus_entry; kw "_base" ++ hole typ];
   ctor_decl dec (logrus_ctor typ)].

Theorem logrus_generated : forall lower upper t,
  let dec := decorator t "WithLogrus" in
  generates lower upper text_logrus t
    (logrus_head dec (td_type t)
     ++ flat_map (fun m => [method_toks [] dec m (btoks m (logrus_body dec m))]) (sorted_methods t) ++ []).
Proof.
  intros lower upper t. cbv zeta.
  apply (generates_intro lower upper text_logrus t s_logrus (decorator_env t "WithLogrus")); cbn [s_logrus fst snd].
  - vm_compute. reflexivity.
  - unfold decorator_env, decorator_val, decorator. steps. decl_or.
    gen_or "DecoratorName" (td_vars t) (td_name t ++ "WithLogrus")%string. steps. split; [reflexivity|lx].
  - intros m _. unfold decorator_env. gen_dec t "WithLogrus". unfold logrus_body, logrus_deferred.
    destruct (HasParams m) eqn:E0, (HasResults m) eqn:E2, (m_returnsError m) eqn:E1; steps; lx.
  - steps. lx.
Qed.

(** ** prometheus *)
Definition s_prometheus := Eval vm_compute in sections text_prometheus.
Definition prometheus_ctor (typ : string) : ctor :=
  Ctor [("base", hole typ); ("instanceName", kw "string")] [(id "base", "base"); (id "instanceName", "instanceName")].
Definition comma_after (l : list (list gtok)) : list gtok := flat_map (fun x => x ++ [TP ","]) l.
Definition field_value (f : string) (v : list gtok) : list gtok := kw f ++ [TP ":"] ++ v.
Definition number (a b : string) : list gtok := kw a ++ [TP "."] ++ kw b.
Definition prometheus_head (dec typ dn metric : string) : list (list gtok) :=
  [import_decl [imp "time"; imp "github.com/prometheus/client_golang/prometheus";
                imp "github.com/prometheus/client_golang/prometheus/promauto"];
   struct_decl dec [kw "base" ++ hole typ; kw "instanceName" ++ kw "string"];
   kw "var" ++ [TW [PH dn; PS "DurationSummaryVec"]; TP "="] ++ dotted "promauto" "NewSummaryVec" ++ [TP "("]
     ++ dotted "prometheus" "SummaryOpts" ++ [TP "{"]
     ++ comma_after
          [field_value "Name" [TS [PH metric]];
           field_value "Help" [TS [PH dn; PS " runtime duration and result"]];
           field_value "MaxAge" (dotted "time" "Minute");
           field_value "Objectives" (kw "map" ++ [TP "["] ++ kw "float64" ++ [TP "]"] ++ kw "float64" ++ [TP "{"]
             ++ number "0" "5" ++ [TP ":"] ++ number "0" "05" ++ [TP ","]
             ++ number "0" "9" ++ [TP ":"] ++ number "0" "01" ++ [TP ","]
             ++ number "0" "99" ++ [TP ":"] ++ number "0" "001" ++ [TP "}"])]
     ++ [TP "}"; TP ","; TP "["; TP "]"] ++ kw "string" ++ [TP "{"]
     ++ commas [imp "instance_name"; imp "method"; imp "result"] ++ [TP "}"; TP ")"];
   ctor_decl dec (prometheus_ctor typ)].

Theorem prometheus_generated : forall lower upper t,
  let dec := decorator t "WithPrometheus" in
  let dn := go_lower lower (td_name t) in
  generates lower upper text_prometheus t
    (prometheus_head dec (td_type t) dn (or_var "MetricName" (td_vars t) (dn ++ "_duration_seconds")%string)
     ++ flat_map (fun m => [method_toks [] dec m (btoks m (prometheus_body dn m))]) (sorted_methods t) ++ []).
Proof.
  intros lower upper t. cbv zeta.
  apply (generates_intro lower upper text_prometheus t s_prometheus
    (("metric_name", or_val "MetricName" (td_vars t) (go_lower lower (td_name t) ++ "_duration_seconds")%string)
     :: decorator_env t "WithPrometheus")); cbn [s_prometheus fst snd].
  - vm_compute. reflexivity.
  - unfold decorator_env, decorator_val, decorator. steps. decl_or. steps.
    eapply walks_decl.
    { unfold eval_cmd. cbn -[first_true or_val go_lower]. now rewrite first_true_or. }
    gen_or "DecoratorName" (td_vars t) (td_name t ++ "WithPrometheus")%string.
    gen_or "MetricName" (td_vars t) (go_lower lower (td_name t) ++ "_duration_seconds")%string.
    steps. split; [reflexivity|]. generalize (go_lower lower (td_name t)). intros. lx.
  - intros m _. unfold decorator_env. gen_dec t "WithPrometheus".
    unfold prometheus_body, prometheus_deferred. destruct (m_returnsError m) eqn:E1; steps; generalize (go_lower lower (td_name t)); intros; lx.
  - steps. lx.
Qed.

(** ** opencensus, opentelemetry, opentracing *)

(** the constructor with an optional span decorator *)
Definition t_span_decorator (star : list gtok) (p t : string) : list gtok :=
  kw "func" ++ [TP "("] ++ kw "span" ++ star ++ dotted p t ++ [TP ","] ++ kw "params" ++ [TP ","] ++ kw "results"
  ++ kw "map" ++ [TP "["] ++ kw "string" ++ [TP "]"] ++ t_any ++ [TP ")"].
Definition tracing_ctor (ty : list gtok) (dec name typ : string) : list gtok :=
  kw "func" ++ [TW [PS "New"; PH dec]; TP "("] ++ kw "base" ++ hole typ ++ [TP ","] ++ kw "instance" ++ kw "string"
  ++ [TP ","] ++ kw "spanDecorator" ++ punct "..." ++ ty ++ [TP ")"; TW [PH dec]; TP "{"]
  ++ semis
      [kw "d" ++ punct ":=" ++ [TW [PH dec]; TP "{"; TW [PH name]; TP ":"] ++ kw "base" ++ [TP ","]
         ++ kw "_instance" ++ [TP ":"] ++ kw "instance" ++ [TP ","; TP "}"];
       kw "if" ++ kw "len" ++ [TP "("] ++ kw "spanDecorator" ++ punct ")>" ++ kw "0" ++ punct "&&"
         ++ kw "spanDecorator" ++ [TP "["] ++ kw "0" ++ punct "]!=" ++ kw "nil" ++ [TP "{"]
         ++ kw "d" ++ [TP "."] ++ kw "_spanDecorator" ++ [TP "="] ++ kw "spanDecorator" ++ [TP "["] ++ kw "0" ++ [TP "]"; TP "}"];
       kw "return" ++ kw "d"]
  ++ [TP "}"].
Definition tracing_head (imports : list (list gtok)) (ty : list gtok) (dec name typ : string) : list (list gtok) :=
  [import_decl imports;
   struct_decl dec [hole typ; kw "_instance" ++ kw "string"; kw "_spanDecorator" ++ ty];
   tracing_ctor ty dec name typ].

Definition s_opencensus := Eval vm_compute in sections text_opencensus.
Definition opencensus_head := tracing_head [imp "go.opencensus.io/trace"] (t_span_decorator [TP "*"] "trace" "Span").

Theorem opencensus_generated : forall lower upper t,
  let dec := decorator t "WithTracing" in
  generates lower upper text_opencensus t
    (opencensus_head dec (td_name t) (td_type t)
     ++ flat_map (fun m => if m_acceptsContext m
                           then [method_toks [] dec m (btoks m (opencensus_body (td_name t) (td_type t) m))] else [])
                 (sorted_methods t) ++ []).
Proof.
  intros lower upper t. cbv zeta.
  apply (generates_intro lower upper text_opencensus t s_opencensus (decorator_env t "WithTracing"));
    cbn [s_opencensus fst snd].
  - vm_compute. reflexivity.
  - unfold decorator_env, decorator_val, decorator. steps. decl_or.
    gen_or "DecoratorName" (td_vars t) (td_name t ++ "WithTracing")%string. steps. split; [reflexivity|lx].
  - intros m _. unfold decorator_env. gen_dec t "WithTracing". unfold opencensus_body, span_end, span_deferred.
    destruct (m_acceptsContext m) eqn:E0, (m_returnsError m) eqn:E1; steps; lx.
  - steps. lx.
Qed.

Definition s_opentelemetry := Eval vm_compute in sections text_opentelemetry.
Definition opentelemetry_head :=
  tracing_head [imp "context"; kw "_codes" ++ imp "go.opentelemetry.io/otel/codes"; imp "go.opentelemetry.io/otel";
                imp "go.opentelemetry.io/otel/attribute"; imp "go.opentelemetry.io/otel/trace"]
               (t_span_decorator [] "trace" "Span").
Theorem opentelemetry_generated : forall lower upper t,
  let dec := decorator t "WithTracing" in
  let pfx := or_var "SpanNamePrefix" (td_vars t) (td_name t) in
  generates lower upper text_opentelemetry t
    (opentelemetry_head dec (td_name t) (td_type t)
     ++ flat_map (fun m => if m_acceptsContext m
                           then [method_toks [] dec m (btoks m (opentelemetry_body (td_name t) pfx m))] else [])
                 (sorted_methods t) ++ []).
Proof.
  intros lower upper t. cbv zeta.
  apply (generates_intro lower upper text_opentelemetry t s_opentelemetry
    (("spanNameType", or_val "SpanNamePrefix" (td_vars t) (td_name t)) :: decorator_env t "WithTracing"));
    cbn [s_opentelemetry fst snd].
  - vm_compute. reflexivity.
  - unfold decorator_env, decorator_val, decorator. steps. decl_or. steps.
    eapply walks_decl.
    { unfold eval_cmd. cbn -[first_true or_val]. now rewrite first_true_or. }
    gen_or "DecoratorName" (td_vars t) (td_name t ++ "WithTracing")%string.
    gen_or "SpanNamePrefix" (td_vars t) (td_name t). steps. split; [reflexivity|lx].
  - intros m _. unfold decorator_env. gen_dec t "WithTracing". gen_or "SpanNamePrefix" (td_vars t) (td_name t).
    unfold opentelemetry_body, span_end, span_deferred.
    destruct (m_acceptsContext m) eqn:E0, (m_returnsError m) eqn:E1; steps; lx.
  - steps. lx.
Qed.

Definition s_opentracing := Eval vm_compute in sections text_opentracing.
Definition opentracing_head :=
  tracing_head [kw "opentracing" ++ imp "github.com/opentracing/opentracing-go";
                kw "_ext" ++ imp "github.com/opentracing/opentracing-go/ext";
                kw "_log" ++ imp "github.com/opentracing/opentracing-go/log"]
               (t_span_decorator [] "opentracing" "Span").
Theorem opentracing_generated : forall lower upper t,
  let dec := decorator t "WithTracing" in
  generates lower upper text_opentracing t
    (opentracing_head dec (td_name t) (td_type t)
     ++ flat_map (fun m => if m_acceptsContext m
                           then [method_toks [] dec m (btoks m (opentracing_body (td_name t) (td_type t) m))] else [])
                 (sorted_methods t) ++ []).
Proof.
  intros lower upper t. cbv zeta.
  apply (generates_intro lower upper text_opentracing t s_opentracing (decorator_env t "WithTracing"));
    cbn [s_opentracing fst snd].
  - vm_compute. reflexivity.
  - unfold decorator_env, decorator_val, decorator. steps. decl_or.
    gen_or "DecoratorName" (td_vars t) (td_name t ++ "WithTracing")%string. steps. split; [reflexivity|lx].
  - intros m _. unfold decorator_env. gen_dec t "WithTracing". unfold opentracing_body, span_end, span_deferred.
    destruct (m_acceptsContext m) eqn:E0, (m_returnsError m) eqn:E1; steps; lx.
  - steps. lx.
Qed.
