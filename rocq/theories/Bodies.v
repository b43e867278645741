(** The method bodies the stock templates generate, for a method [m] of an
    interface called [name] of type [typ].  RenderProofs.v shows that they are,
    token by token, what executing the template gives. *)
From Verif Require Export MiniGo.
Open Scope nat_scope.

Definition call0 (e : gexpr) : gexpr := ECall e [] TNone.
Definition call (e : gexpr) (args : list gexpr) : gexpr := ECall e args TNone.
Definition vnil : gexpr := var "nil".
Definition verr : gexpr := var "err".
Definition vctx : gexpr := var "ctx".
Definition d_ : gexpr := var "_d".

(** [_d.Iface], the embedded interface *)
Definition embedded (name : string) : gexpr := ESel d_ [PH name].
Definition pass_embedded (name : string) : gstmt := SPass ("_d." ++ name ++ ".")%string (embedded name).

(** [interface{}] and [interface{ Validate() error}] *)
Definition t_any : list gtok := kw "interface" ++ punct "{}".
Definition t_validator : list gtok :=
  kw "interface" ++ [TP "{"] ++ kw "Validate" ++ punct "()" ++ kw "error" ++ [TP "}"].

(** parameters other than the context: templates/validate:20, twirp_error:24 *)
Definition not_ctx (m : method) (p : param) : bool :=
  negb (m_acceptsContext m && String.eqb (p_name p) "ctx").

(** ** templates/retry:26-46 *)
Definition retry_wait (m : method) : gstmt :=
  if m_acceptsContext m
  then SSelect [(call0 (vctx .: "Done"), [SReturn]); (var "_ticker" .: "C", [])]
  else SExpr (EUn "<-" (var "_ticker" .: "C")).
Definition retry_body (name : string) (m : method) : list gstmt :=
  [SResults (EMCall (embedded name));
   SIf None (EBin "||" (EBin "==" verr vnil) (EBin "<" (d_ .: "_retryCount") (EInt "1"))) [SReturn] [];
   SDefine [id "_ticker"] (call (var "time" .: "NewTicker") [d_ .: "_retryInterval"]);
   SDefer (call0 (var "_ticker" .: "Stop"));
   SFor (SDefine [id "_i"] (EInt "0"))
        (EBin "&&" (EBin "<" (var "_i") (d_ .: "_retryCount")) (EBin "!=" verr vnil))
        (SInc (var "_i"))
        [retry_wait m; SResults (EMCall (embedded name))];
   SReturn].

(** ** templates/timeout:30-37 *)
Definition timeout_field (m : method) : gexpr := ESel (d_ .: "config") [PH (m_name m); PS "Timeout"].
Definition timeout_body (name : string) (m : method) : list gstmt :=
  [SVar (id "cancelFunc") (kw "func" ++ punct "()");
   SIf None (EBin ">" (timeout_field m) (EInt "0"))
     [SAssign [vctx; var "cancelFunc"] (call (var "context" .: "WithTimeout") [vctx; timeout_field m]);
      SDefer (call0 (var "cancelFunc"))] [];
   pass_embedded name].

(** ** templates/validate:17-29, twirp_validate:21-34, grpc_validate:22-34 *)
Definition check_param (wrap : list gstmt) (p : param) : gstmt :=
  SIf (Some (SDefine [id "_v"; id "_ok"] (EAssert (EConv t_any (EVar [PH (p_name p)])) t_validator)))
      (var "_ok")
      [SIf (Some (SAssign [verr] (call0 (var "_v" .: "Validate")))) (EBin "!=" verr vnil) (wrap ++ [SReturn]) []] [].
Definition validate_with (wrap : list gstmt) (name : string) (m : method) : list gstmt :=
  (if m_returnsError m then map (check_param wrap) (filter (not_ctx m) (m_params m)) else [])
  ++ [pass_embedded name].
Definition validate_body := validate_with [].
Definition twirp_validate_body := validate_with
  [SAssign [verr] (call (var "twirp" .: "NewError") [var "twirp" .: "InvalidArgument"; call0 (verr .: "Error")])].
Definition grpc_validate_body := validate_with
  [SAssign [verr] (call (var "grpc_status" .: "Error") [var "grpc_codes" .: "InvalidArgument"; call0 (verr .: "Error")])].

(** ** templates/twirp_error:21-30 and the function of lines 33-44 *)
Definition inject : string := "injectRequestDataToError".
Definition twirp_error_body (name : string) (m : method) : list gstmt :=
  (if m_returnsError m
   then map (fun p => SDefer (call (var inject) [EVar [PH (p_name p)]; EUn "&" verr])) (filter (not_ctx m) (m_params m))
   else []) ++ [pass_embedded name].
Definition inject_body : list gstmt :=
  [SDefine [id "err"] (EUn "*" (var "perr"));
   SIf None (EBin "!=" verr vnil)
     [SDefine [id "twerr"; id "ok"] (EAssert verr (kw "twirp" ++ [TP "."] ++ kw "Error"));
      SIf None (EUn "!" (var "ok")) [SAssign [var "twerr"] (call (var "twirp" .: "InternalErrorWith") [verr])] [];
      SDefine [id "jsonReq"; id "_"] (call (var "json" .: "Marshal") [var "req"]);
      SAssign [EUn "*" (var "perr")]
              (call (var "twerr" .: "WithMeta") [EStr (id "request"); EConv (kw "string") (var "jsonReq")])] []].
Definition twirp_error_funcs : list (string * (list string * list gstmt)) := [(inject, (["req"; "perr"], inject_body))].

(** ** templates/log:26-50 *)
Definition t_any_slice : list gtok := punct "[]" ++ t_any.
Definition println (sink : string) (args : list gexpr) (t : tail) : gstmt :=
  SExpr (ECall (d_ .: sink .: "Println") args t).
Definition log_deferred (dec : string) (m : method) : list gstmt :=
  if HasResults m
  then SDefine [id "_results"] (ESliceLit t_any_slice (EStr [PH dec; PS ": "; PH (m_name m); PS " returned results:"]) false)
       :: (if m_returnsError m
           then [SIf None (EBin "!=" verr vnil) [println "_errlog" [var "_results"] TDots]
                                                [println "_stdlog" [var "_results"] TDots]]
           else [println "_stdlog" [var "_results"] TDots])
  else [println "_stdlog" [EStr [PH dec; PS ": "; PH (m_name m); PS " finished"]] TNone].
Definition log_body (dec : string) (m : method) : list gstmt :=
  (if HasParams m
   then [SDefine [id "_params"] (ESliceLit t_any_slice (EStr [PH dec; PS ": calling "; PH (m_name m); PS " with params:"]) true);
         println "_stdlog" [var "_params"] TDots]
   else [println "_stdlog" [EStr [PH dec; PS ": calling "; PH (m_name m)]] TNone])
  ++ [SDefer (call0 (EFun (log_deferred dec m))); SPass "_d._base." (d_ .: "_base")].

(** ** templates/logrus:24-47 *)
Definition with_fields (params : bool) : gexpr :=
  call (d_ .: "_log" .: "WithFields") [EConv (kw "logrus" ++ [TP "."] ++ kw "Fields") (EMap params)].
Definition logrus_deferred (dec : string) (m : method) : list gstmt :=
  if HasResults m
  then (if m_returnsError m
        then [SIf None (EBin "!=" verr vnil)
                [SExpr (call (with_fields false .: "Error") [EStr [PH dec; PS ": method "; PH (m_name m); PS " returned an error"]])]
                [SExpr (call (with_fields false .: "Debug") [EStr [PH dec; PS ": method "; PH (m_name m); PS " finished"]])]]
        else [SExpr (call (with_fields false .: "Debug") [EStr [PH dec; PS ": method "; PH (m_name m); PS " finished"]])])
  else [SExpr (call (d_ .: "_log" .: "Debug") [EStr [PH dec; PS ": "; PH (m_name m); PS " finished"]])].
Definition logrus_body (dec : string) (m : method) : list gstmt :=
  (if HasParams m
   then [SExpr (call (with_fields true .: "Debug") [EStr [PH dec; PS ": calling "; PH (m_name m)]])]
   else [SExpr (call (d_ .: "_log" .: "Debug") [EStr [PH dec; PS ": calling "; PH (m_name m)]])])
  ++ [SDefer (call0 (EFun (logrus_deferred dec m))); SPass "_d._base." (d_ .: "_base")].

(** ** templates/prometheus:36-49; [dn] is the interface name in lower case *)
Definition prometheus_deferred (dn : string) (m : method) : list gstmt :=
  SDefine [id "result"] (EStr (id "ok"))
  :: (if m_returnsError m
      then [SIf None (EBin "!=" verr vnil) [SAssign [var "result"] (EStr (id "error"))] []] else [])
  ++ [SExpr (call (call (EVar [PH dn; PS "DurationSummaryVec"] .: "WithLabelValues")
                        [d_ .: "instanceName"; EStr [PH (m_name m)]; var "result"] .: "Observe")
                  [call0 (call (var "time" .: "Since") [var "_since"] .: "Seconds")])].
Definition prometheus_body (dn : string) (m : method) : list gstmt :=
  [SDefine [id "_since"] (call0 (var "time" .: "Now"));
   SDefer (call0 (EFun (prometheus_deferred dn m)));
   SPass "_d.base." (d_ .: "base")].

(** ** The tracing templates *)

(** the deferred closure of opencensus:32-43, opentelemetry:39-52 and
    opentracing:34-46: [mark] is the branch for errors, [fin] ends the span *)
Definition span_deferred (mark : list gstmt) (fin : string) (m : method) : list gstmt :=
  let custom := [SExpr (call (d_ .: "_spanDecorator") [var "_span"; EMap true; EMap false])] in
  (if m_returnsError m
   then SElseIf (EBin "!=" (d_ .: "_spanDecorator") vnil) custom (EBin "!=" verr vnil) mark
   else SIf None (EBin "!=" (d_ .: "_spanDecorator") vnil) custom [])
  :: [SExpr (call0 (var "_span" .: fin))].
Definition span_end (mark : list gstmt) (fin : string) (m : method) : gstmt :=
  SDefer (call0 (EFun (span_deferred mark fin m))).

(** templates/opencensus:30-46 *)
Definition opencensus_body (name typ : string) (m : method) : list gstmt :=
  [SDefine [id "ctx"; id "_span"]
     (call (var "trace" .: "StartSpan") [vctx; EBin "+" (d_ .: "_instance") (EStr [PS "."; PH typ; PS "."; PH (m_name m)])]);
   span_end
     [SExpr (ECall (var "_span" .: "AddAttributes")
        [call (var "trace" .: "BoolAttribute") [EStr (id "error"); var "true"];
         call (var "trace" .: "StringAttribute") [EStr (id "event"); EStr (id "error")];
         call (var "trace" .: "StringAttribute") [EStr (id "message"); call0 (verr .: "Error")]] TComma)] "End" m;
   pass_embedded name].

(** templates/opentelemetry:37-54; [pfx] is $spanNameType *)
Definition opentelemetry_body (name pfx : string) (m : method) : list gstmt :=
  [SDefine [id "ctx"; id "_span"]
     (call (call (var "otel" .: "Tracer") [d_ .: "_instance"] .: "Start") [vctx; EStr [PH pfx; PS "."; PH (m_name m)]]);
   span_end
     [SExpr (call (var "_span" .: "RecordError") [verr]);
      SExpr (call (var "_span" .: "SetStatus") [var "_codes" .: "Error"; call0 (verr .: "Error")]);
      SExpr (ECall (var "_span" .: "SetAttributes")
        [call (var "attribute" .: "String") [EStr (id "event"); EStr (id "error")];
         call (var "attribute" .: "String") [EStr (id "message"); call0 (verr .: "Error")]] TComma)] "End" m;
   pass_embedded name].

(** templates/opentracing:32-48 *)
Definition opentracing_body (name typ : string) (m : method) : list gstmt :=
  [SDefine [id "_span"; id "ctx"]
     (call (var "opentracing" .: "StartSpanFromContext")
           [vctx; EBin "+" (d_ .: "_instance") (EStr [PS "."; PH typ; PS "."; PH (m_name m)])]);
   span_end
     [SExpr (call (var "_ext" .: "Error" .: "Set") [var "_span"; var "true"]);
      SExpr (ECall (var "_span" .: "LogFields")
        [call (var "_log" .: "String") [EStr (id "event"); EStr (id "error")];
         call (var "_log" .: "String") [EStr (id "message"); call0 (verr .: "Error")]] TComma)] "Finish" m;
   pass_embedded name].

(** templates/elasticapm:63-80; [comp] is $component, [snake] the helper *)
Definition elasticapm_deferred (m : method) : list gstmt :=
  (if m_returnsError m
   then [SIf None (EBin "!=" verr vnil) [SExpr (call (d_ .: "captureError") [vctx; verr])] []] else [])
  ++ [SExpr (call (d_ .: "endSpan") [var "span"])].
Definition elasticapm_body (snake : string -> string) (comp : string) (m : method) : list gstmt :=
  [SDefine [id "span"; id "ctx"]
     (call (d_ .: "startSpan") [vctx; EStr [PH (comp ++ "." ++ m_name m)%string]; d_ .: "spanType"]);
   SDefer (call0 (EFun (elasticapm_deferred m)))]
  ++ map (fun p => SExpr (call (d_ .: "setLabel") [var "span"; EStr [PH (snake (p_name p))]; EVar [PH (p_name p)]]))
         (filter (fun p => negb (String.eqb (p_name p) "ctx")) (m_params m))
  ++ [SPass "_d.base." (d_ .: "base")].

(** ** The pools, rate limiting and the circuit breaker *)

(** templates/syncpool:26-30 *)
Definition syncpool_body (m : method) : list gstmt :=
  [SDefine [id "_impl"] (EUn "<-" (d_ .: "pool"));
   SDefer (call0 (EFun [SSend (d_ .: "pool") (var "_impl")]));
   SPass "_impl." (var "_impl")].

(** templates/robinpool:38-39 *)
Definition robinpool_body (m : method) : list gstmt :=
  [SDefine [id "_counter"] (call (var "atomic" .: "AddUint32") [EAddr d_ (id "counter"); EInt "1"]);
   SPass "_d.pool[_counter % _d.poolSize]." (EIndex (d_ .: "pool") (EBin "%" (var "_counter") (d_ .: "poolSize")))].

(** templates/ratelimit:39-49 *)
Definition ratelimit_wait (m : method) : gstmt :=
  if m_acceptsContext m && m_returnsError m
  then SSelect [(call0 (vctx .: "Done"), [SAssign [verr] (call0 (vctx .: "Err")); SReturn]); (d_ .: "_ticks", [])]
  else SExpr (EUn "<-" (d_ .: "_ticks")).
Definition ratelimit_body (m : method) : list gstmt := [ratelimit_wait m; SPass "_d._base." (d_ .: "_base")].

(** templates/circuitbreaker:36-71 *)
Definition shared (f : string) : gexpr := EShared d_ (id f).
Definition breaker_close : list gstmt :=
  [SAssign [shared "_consecutiveErrors"] (EInt "0"); SAssign [shared "_closesAt"] vnil; SReturn].
Definition lock_call (f : string) : gexpr := call0 (d_ .: "_lock" .: f).
Definition circuitbreaker_body (name dec : string) (m : method) : list gstmt :=
  [SExpr (lock_call "RLock");
   SIf None (EBin "&&" (EBin "!=" (shared "_closesAt") vnil)
                       (call (shared "_closesAt" .: "After") [call0 (var "time" .: "Now")]))
     [SExpr (lock_call "RUnlock");
      SAssign [verr] (call (var "errors" .: "New") [EStr [PH dec; PS ": circuit is open"]]);
      SReturn] [];
   SExpr (lock_call "RUnlock");
   SResults (EMCall (embedded name));
   SExpr (lock_call "Lock");
   SDefer (lock_call "Unlock");
   SIf None (EBin "==" verr vnil) breaker_close [];
   SRange (id "_e") (d_ .: "_ignoreErrors")
     [SIf None (call (var "errors" .: "Is") [verr; var "_e"]) breaker_close []];
   SInc (shared "_consecutiveErrors");
   SIf None (EBin ">=" (shared "_consecutiveErrors") (d_ .: "_maxConsecutiveErrors"))
     [SDefine [id "closesAt"] (call (call0 (var "time" .: "Now") .: "Add") [d_ .: "_openInterval"]);
      SAssign [shared "_closesAt"] (EUn "&" (var "closesAt"))] [];
   SReturn].
