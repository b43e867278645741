(** The functions the stock templates declare beside the decorators' methods,
    in the syntax of Construct.v, and the fields of the decorators. *)
From Verif Require Import Render.
From Verif Require Export Generated4.
From Verif Require Export Construct.
Open Scope nat_scope.

Definition v_ := KVar.
Definition dots (t : list gtok) : list gtok := punct "..." ++ t.
Definition keys (l : list (word * string)) : list (word * kexpr) := map (fun f => (fst f, v_ (snd f))) l.
Definition new_ (dec : string) : word := [PS "New"; PH dec].
Definition returns_literal (addr lines : bool) (dec : string) (fs : list (word * kexpr)) : list kstmt :=
  [JReturn [KLit addr lines [PH dec] fs]].
(** New.. with a literal of parameters, a value (RenderProofs.ctor) *)
Definition plain_new (dec : string) (c : ctor) : gofunc :=
  GoFunc (new_ dec) (ct_params c) [TW [PH dec]] (returns_literal false true dec (keys (ct_fields c))).

(** ** Fields *)
(** templates/retry:8-12 *)
Definition retry_fields (typ : string) : list (list gtok) :=
  [hole typ; kw "_retryCount" ++ kw "int"; kw "_retryInterval" ++ dotted "time" "Duration"].
(** templates/timeout:9-12 *)
Definition timeout_fields (dec typ : string) : list (list gtok) := [hole typ; kw "config" ++ [TW [PH dec; PS "Config"]]].
(** templates/validate:4-6 and the like *)
Definition validate_fields (typ : string) : list (list gtok) := [hole typ].
(** templates/log:9-12 *)
Definition log_fields (typ : string) : list (list gtok) :=
  [kw "_stdlog" ++ [TP ","] ++ kw "_errlog" ++ [TP "*"] ++ dotted "log" "Logger"; kw "_base" ++ hole typ].
(** templates/logrus:9-12 *)
Definition logrus_fields (typ : string) : list (list gtok) := [kw "_log" ++ logrus_entry; kw "_base" ++ hole typ].
(** templates/prometheus:13-16 *)
Definition prometheus_fields (typ : string) : list (list gtok) := [kw "base" ++ hole typ; kw "instanceName" ++ kw "string"].
(** templates/opencensus:8-12, opentelemetry:14-18, opentracing:10-14 *)
Definition tracing_fields (ty : list gtok) (typ : string) : list (list gtok) :=
  [hole typ; kw "_instance" ++ kw "string"; kw "_spanDecorator" ++ ty].
(** templates/elasticapm:12-19 *)
Definition elasticapm_fields (typ : string) : list (list gtok) :=
  [kw "base" ++ hole typ;
   listing [CT "startSpan func(ctx context.Context, name, spanType string) (*apm.Span, context.Context) "];
   listing [CT "endSpan func(span *apm.Span) "];
   listing [CT "setLabel func(span *apm.Span, key string, value interface{}) "];
   listing [CT "captureError func(ctx context.Context, err error) "];
   kw "spanType" ++ kw "string"].
(** templates/syncpool:4-6 *)
Definition syncpool_fields (typ : string) : list (list gtok) := [listing [CT "pool chan "; CV typ; CT " "]].
(** templates/robinpool:9-13 *)
Definition robinpool_fields (typ : string) : list (list gtok) :=
  [listing [CT "pool []"; CV typ; CT " "]; kw "poolSize" ++ kw "uint32"; kw "counter" ++ kw "uint32"].
(** templates/ratelimit:8-11 *)
Definition ratelimit_fields (typ : string) : list (list gtok) := [kw "_base" ++ hole typ; listing [CT "_ticks chan time.Time "]].
(** templates/circuitbreaker:10-19 *)
Definition circuitbreaker_fields (typ : string) : list (list gtok) :=
  [hole typ; kw "_lock" ++ dotted "sync" "RWMutex"; kw "_maxConsecutiveErrors" ++ kw "int";
   kw "_consecutiveErrors" ++ kw "int"; kw "_openInterval" ++ dotted "time" "Duration";
   kw "_closesAt" ++ [TP "*"] ++ dotted "time" "Time"; kw "_ignoreErrors" ++ punct "[]" ++ kw "error"].
(** templates/fallback:11-14 *)
Definition fallback_fields (typ : string) : list (list gtok) :=
  [listing [CT "implementations []"; CV typ; CT " "]; kw "interval" ++ dotted "time" "Duration"].

(** ** Functions *)
(** templates/log:15-21 *)
Definition log_logger_ (w : string) : kexpr :=
  KCall (KSel (v_ "log") "New") [v_ w; KStr []; KSel (v_ "log") "LstdFlags"].
Definition log_new (dec typ : string) : gofunc :=
  GoFunc (new_ dec) [("base", hole typ); ("stdout", []); ("stderr", dotted "io" "Writer")] [TW [PH dec]]
    (returns_literal false true dec
       [(id "_base", v_ "base"); (id "_stdlog", log_logger_ "stdout"); (id "_errlog", log_logger_ "stderr")]).
(** templates/opencensus:15-26, opentelemetry:21-32, opentracing:17-28 *)
Definition tracing_new (ty : list gtok) (dec name typ : string) : gofunc :=
  let first := KIdx (v_ "spanDecorator") (KNum "0") in
  GoFunc (new_ dec) [("base", hole typ); ("instance", kw "string"); ("spanDecorator", dots ty)] [TW [PH dec]]
    [JDef "d" (KLit false true [PH dec] (keys [([PH name], "base"); (id "_instance", "instance")]));
     JIf (KBin "&&" (KBin ">" (KLen (v_ "spanDecorator")) (KNum "0")) (KBin "!=" first (v_ "nil")))
       [JSet "d" "_spanDecorator" first];
     JReturn [v_ "d"]].
(** templates/elasticapm:23-29 *)
Definition t_span_params : list (string * list gtok) :=
  [("span", [TP "*"] ++ dotted "apm" "Span"); ("key", kw "string"); ("value", t_any)].
Definition apm_with_label (dec opt : string) : gofunc :=
  GoFunc [PH dec; PS "WithUsingSetLabel"] [] [TW [PH opt]]
    [JReturn [KFunc [("v", [TP "*"; TW [PH dec]])]
       [JSet "v" "setLabel" (KFunc t_span_params
          [JDo (KCall (KSel (KSel (KSel (v_ "span") "SpanData") "Context") "SetLabel") [v_ "key"; v_ "value"])])]]].
(** templates/elasticapm:31-35 *)
Definition apm_with_type (dec opt : string) : gofunc :=
  GoFunc [PH dec; PS "WithSpanType"] [("spanType", kw "string")] [TW [PH opt]]
    [JReturn [KFunc [("v", [TP "*"; TW [PH dec]])] [JSet "v" "spanType" (v_ "spanType")]]].
(** templates/elasticapm:38-57 *)
Definition apm_new (dec comp typ : string) : gofunc :=
  GoFunc (new_ dec) [("base", hole typ); ("opts", dots [TW [PH dec; PS "Option"]])] [TW [PH dec]]
    [JDef "r" (KLit false true [PH dec]
       [(id "base", v_ "base");
        (id "startSpan", KSel (v_ "apm") "StartSpan");
        (id "endSpan", KFunc [("span", [TP "*"] ++ dotted "apm" "Span")] [JDo (KCall (KSel (v_ "span") "End") [])]);
        (id "setLabel", KFunc t_span_params []);
        (id "captureError", KFunc [("ctx", dotted "context" "Context"); ("err", kw "error")]
           [JDo (KCall (KSel (KCall (KSel (v_ "apm") "CaptureError") [v_ "ctx"; v_ "err"]) "Send") [])]);
        (id "spanType", KStr [PH comp])]);
     JEach "fn" (v_ "opts") [JDo (KCall (v_ "fn") [KAddr "r"])];
     JReturn [v_ "r"]].
(** templates/syncpool:10-21 *)
Definition syncpool_new (dec typ : string) : gofunc :=
  GoFunc (new_ dec) [("impls", dots (hole typ))] [TW [PH dec]]
    ([JIf (KBin "==" (KLen (v_ "impls")) (KNum "0")) [JPanic (id "empty pool")];
      JDef "pool" (KMake (hole typ) (KLen (v_ "impls")));
      JEach "i" (v_ "impls") [JSend (v_ "pool") (v_ "i")]]
     ++ returns_literal false false dec (keys [(id "pool", "pool")])).
(** templates/robinpool:17-23 *)
Definition robin_fields : list (word * kexpr) :=
  [(id "pool", v_ "pool"); (id "poolSize", KConv "" "uint32" (KLen (v_ "pool")))].
Definition robinpool_new (dec typ : string) : gofunc :=
  GoFunc (new_ dec) [("pool", dots (hole typ))] ([TP "("; TP "*"; TW [PH dec]; TP ","] ++ kw "error" ++ [TP ")"])
    [JIf (KBin "==" (KLen (v_ "pool")) (KNum "0"))
       [JReturn [v_ "nil"; KCall (KSel (v_ "errors") "New") [KStr (id "empty pool")]]];
     JReturn [KLit true false [PH dec] robin_fields; v_ "nil"]].
(** templates/robinpool:27-33 *)
Definition robinpool_must_new (dec typ : string) : gofunc :=
  GoFunc [PS "MustNew"; PH dec] [("pool", dots (hole typ))] [TP "*"; TW [PH dec]]
    ([JIf (KBin "==" (KLen (v_ "pool")) (KNum "0")) [JPanic (id "empty pool")]]
     ++ returns_literal true false dec robin_fields).
(** templates/ratelimit:14-34 *)
Definition feeder_body : list kstmt :=
  [JRange "t" (KCall (KSel (v_ "time") "Tick") [v_ "delay"]) [JSend (KSel (v_ "d") "_ticks") (v_ "t")]].
Definition ratelimit_new (dec typ : string) : gofunc :=
  GoFunc (new_ dec) [("base", hole typ); ("burst", kw "int"); ("rps", kw "float64")] [TP "*"; TW [PH dec]]
    [JDef "d" (KLit true true [PH dec]
       [(id "_base", v_ "base"); (id "_ticks", KMake (dotted "time" "Time") (v_ "burst"))]);
     JDef "now" (KCall (KSel (v_ "time") "Now") []);
     JCount "i" (v_ "burst") [JSend (KSel (v_ "d") "_ticks") (v_ "now")];
     JDef "delay" (KConv "time" "Duration" (KBin "/" (KConv "" "float64" (KSel (v_ "time") "Second")) (v_ "rps")));
     JGo feeder_body;
     JReturn [v_ "d"]].
(** templates/circuitbreaker:23-30 *)
Definition circuitbreaker_new (dec name typ : string) : gofunc :=
  GoFunc (new_ dec) [("base", hole typ); ("consecutiveErrors", kw "int"); ("openInterval", dotted "time" "Duration");
                     ("ignoreErrors", dots (kw "error"))] [TP "("; TP "*"; TW [PH dec]; TP ")"]
    (returns_literal true true dec
       (keys [([PH name], "base"); (id "_maxConsecutiveErrors", "consecutiveErrors"); (id "_openInterval", "openInterval");
              (id "_ignoreErrors", "ignoreErrors")])).
(** templates/fallback:18-20 *)
Definition fallback_new (dec typ : string) : gofunc :=
  GoFunc (new_ dec) [("interval", dotted "time" "Duration"); ("impls", dots (hole typ))] [TW [PH dec]]
    (returns_literal false false dec (keys [(id "implementations", "impls"); (id "interval", "interval")])).

(** ** The functions are the templates' *)

(** [text] declares, for [t], the type [dec] with [fields] and the functions [fs] *)
Definition declares (lower upper : N -> N) (text : string) (t : tdata) (dec : string) (fields : list (list gtok)) (fs : list gofunc) : Prop :=
  exists decls, generates lower upper text t decls /\ In (struct_decl dec fields) decls /\ forall f, In f fs -> In (func_toks f) decls.

Inductive builds (lower : N -> N) (t : tdata) : string -> string -> list (list gtok) -> list gofunc -> Prop :=
| b_retry : let dec := decorator t "WithRetry" in
    builds lower t text_retry dec (retry_fields (td_type t)) [plain_new dec (retry_ctor (td_name t) (td_type t))]
| b_timeout : let dec := decorator t "WithTimeout" in
    builds lower t text_timeout dec (timeout_fields dec (td_type t)) [plain_new dec (timeout_ctor dec (td_name t) (td_type t))]
| b_validate : let dec := decorator t "WithValidation" in
    builds lower t text_validate dec (validate_fields (td_type t)) [plain_new dec (base_ctor (td_name t) (td_type t))]
| b_twirp_validate : let dec := decorator t "WithTwirpValidation" in
    builds lower t text_twirp_validate dec (validate_fields (td_type t)) [plain_new dec (base_ctor (td_name t) (td_type t))]
| b_grpc_validate : let dec := decorator t "WithGRPCValidation" in
    builds lower t text_grpc_validate dec (validate_fields (td_type t)) [plain_new dec (base_ctor (td_name t) (td_type t))]
| b_twirp_error : let dec := decorator t "WithTwirpError" in
    builds lower t text_twirp_error dec (validate_fields (td_type t)) [plain_new dec (base_ctor (td_name t) (td_type t))]
| b_log : let dec := decorator t "WithLog" in
    builds lower t text_log dec (log_fields (td_type t)) [log_new dec (td_type t)]
| b_logrus : let dec := decorator t "WithLogrus" in
    builds lower t text_logrus dec (logrus_fields (td_type t)) [plain_new dec (logrus_ctor (td_type t))]
| b_prometheus : let dec := decorator t "WithPrometheus" in
    builds lower t text_prometheus dec (prometheus_fields (td_type t)) [plain_new dec (prometheus_ctor (td_type t))]
| b_opencensus : let dec := decorator t "WithTracing" in let ty := t_span_decorator [TP "*"] "trace" "Span" in
    builds lower t text_opencensus dec (tracing_fields ty (td_type t)) [tracing_new ty dec (td_name t) (td_type t)]
| b_opentelemetry : let dec := decorator t "WithTracing" in let ty := t_span_decorator [] "trace" "Span" in
    builds lower t text_opentelemetry dec (tracing_fields ty (td_type t)) [tracing_new ty dec (td_name t) (td_type t)]
| b_opentracing : let dec := decorator t "WithTracing" in let ty := t_span_decorator [] "opentracing" "Span" in
    builds lower t text_opentracing dec (tracing_fields ty (td_type t)) [tracing_new ty dec (td_name t) (td_type t)]
| b_elasticapm : let dec := decorator t "APMTracing" in let opt := decorator t "APMTracingOption" in
    Forall ctx_first (map snd (td_methods t)) ->
    builds lower t text_elasticapm dec (elasticapm_fields (td_type t))
      [apm_with_label dec opt; apm_with_type dec opt; apm_new dec (or_var "ComponentName" (td_vars t) (go_lower lower (td_name t))) (td_type t)]
| b_syncpool : let dec := decorator t "Pool" in
    builds lower t text_syncpool dec (syncpool_fields (td_type t)) [syncpool_new dec (td_type t)]
| b_robinpool : let dec := decorator t "RoundRobinPool" in
    builds lower t text_robinpool dec (robinpool_fields (td_type t)) [robinpool_new dec (td_type t); robinpool_must_new dec (td_type t)]
| b_ratelimit : let dec := decorator t "WithRateLimit" in
    builds lower t text_ratelimit dec (ratelimit_fields (td_type t)) [ratelimit_new dec (td_type t)]
| b_circuitbreaker : let dec := decorator t "WithCircuitBreaker" in
    builds lower t text_circuitbreaker dec (circuitbreaker_fields (td_type t)) [circuitbreaker_new dec (td_name t) (td_type t)]
| b_fallback : let dec := decorator t "WithFallback" in
    builds lower t text_fallback dec (fallback_fields (td_type t)) [fallback_new dec (td_type t)].

Ltac in_head := cbn [In app]; solve [repeat (first [left; vm_compute; reflexivity | right])].
Definition has (head : list (list gtok)) (dec : string) (fields : list (list gtok)) (fs : list gofunc) : Prop :=
  In (struct_decl dec fields) head /\ Forall (fun f => In (func_toks f) head) fs.
Lemma has_declares : forall lower upper text t dec fields fs head rest,
  has head dec fields fs -> generates lower upper text t (head ++ rest) -> declares lower upper text t dec fields fs.
Proof.
  intros lower upper text t dec fields fs head rest [H1 H2] G. exists (head ++ rest). split; [exact G|]. split.
  - apply in_or_app. now left.
  - intros f Hf. rewrite Forall_forall in H2. apply in_or_app. left. auto.
Qed.
Ltac has_all := split; [in_head | repeat (apply Forall_cons; [in_head|]); apply Forall_nil].

Lemma retry_has : forall dec name typ, has (retry_head dec name typ) dec (retry_fields typ) [plain_new dec (retry_ctor name typ)].
Proof. intros. unfold retry_head. has_all. Qed.
Lemma timeout_has : forall dec name typ ms, has (timeout_head dec name typ ms) dec (timeout_fields dec typ) [plain_new dec (timeout_ctor dec name typ)].
Proof. intros. unfold timeout_head. generalize (timeout_config dec ms). intros. has_all. Qed.
Lemma validate_has : forall imports dec name typ, has (validate_head imports dec name typ) dec (validate_fields typ) [plain_new dec (base_ctor name typ)].
Proof.
  intros. unfold validate_head. split; [|apply Forall_cons; [|apply Forall_nil]]; apply in_or_app; right; in_head.
Qed.
Lemma log_has : forall dec typ, has (log_head dec typ) dec (log_fields typ) [log_new dec typ].
Proof. intros. unfold log_head. has_all. Qed.
Lemma logrus_has : forall dec typ, has (logrus_head dec typ) dec (logrus_fields typ) [plain_new dec (logrus_ctor typ)].
Proof. intros. unfold logrus_head. has_all. Qed.
Lemma prometheus_has : forall dec typ dn metric, has (prometheus_head dec typ dn metric) dec (prometheus_fields typ) [plain_new dec (prometheus_ctor typ)].
Proof. intros. unfold prometheus_head. has_all. Qed.
Lemma tracing_has : forall imports ty dec name typ, has (tracing_head imports ty dec name typ) dec (tracing_fields ty typ) [tracing_new ty dec name typ].
Proof.
  intros. unfold tracing_head. split; [right; now left|]. apply Forall_cons; [|apply Forall_nil]. right. right. left.
  unfold tracing_ctor, tracing_new, func_toks. cbn [f_name f_params f_results f_body map fst snd commas].
  unfold dots. rewrite <- !app_assoc. reflexivity.
Qed.
Lemma elasticapm_has : forall dec opt comp typ,
  has (elasticapm_head dec opt comp typ) dec (elasticapm_fields typ) [apm_with_label dec opt; apm_with_type dec opt; apm_new dec comp typ].
Proof. intros. unfold elasticapm_head. has_all. Qed.
Lemma syncpool_has : forall dec typ, has (syncpool_head dec typ) dec (syncpool_fields typ) [syncpool_new dec typ].
Proof. intros. unfold syncpool_head. has_all. Qed.
Lemma robinpool_has : forall dec typ, has (robinpool_head dec typ) dec (robinpool_fields typ) [robinpool_new dec typ; robinpool_must_new dec typ].
Proof. intros. unfold robinpool_head. has_all. Qed.
Lemma ratelimit_has : forall dec typ, has (ratelimit_head dec typ) dec (ratelimit_fields typ) [ratelimit_new dec typ].
Proof. intros. unfold ratelimit_head. has_all. Qed.
Lemma circuitbreaker_has : forall dec name typ, has (circuitbreaker_head dec name typ) dec (circuitbreaker_fields typ) [circuitbreaker_new dec name typ].
Proof. intros. unfold circuitbreaker_head. has_all. Qed.
Lemma fallback_has : forall dec typ, has (fallback_head dec typ) dec (fallback_fields typ) [fallback_new dec typ].
Proof. intros. unfold fallback_head. has_all. Qed.

Theorem builds_declared : forall lower upper t text dec fields fs,
  builds lower t text dec fields fs -> declares lower upper text t dec fields fs.
Proof.
  intros lower upper t text dec fields fs [].
  - eapply has_declares; [apply retry_has | apply retry_generated].
  - eapply has_declares; [apply timeout_has | apply timeout_generated].
  - eapply has_declares; [apply validate_has | apply validate_generated].
  - eapply has_declares; [apply validate_has | apply twirp_validate_generated].
  - eapply has_declares; [apply validate_has | apply grpc_validate_generated].
  - eapply has_declares; [apply validate_has | apply twirp_error_generated].
  - eapply has_declares; [apply log_has | apply log_generated].
  - eapply has_declares; [apply logrus_has | apply logrus_generated].
  - eapply has_declares; [apply prometheus_has | apply prometheus_generated].
  - eapply has_declares; [apply tracing_has | apply opencensus_generated].
  - eapply has_declares; [apply tracing_has | apply opentelemetry_generated].
  - eapply has_declares; [apply tracing_has | apply opentracing_generated].
  - eapply has_declares; [apply elasticapm_has | apply elasticapm_generated]. now apply Forall_forall.
  - eapply has_declares; [apply syncpool_has | apply syncpool_generated].
  - eapply has_declares; [apply robinpool_has | apply robinpool_generated].
  - eapply has_declares; [apply ratelimit_has | apply ratelimit_generated].
  - eapply has_declares; [apply circuitbreaker_has | apply circuitbreaker_generated].
  - eapply has_declares; [apply fallback_has | apply fallback_generated].
Qed.
