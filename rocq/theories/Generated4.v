(** What the templates of the decorators with state generate: syncpool,
    robinpool, ratelimit and circuitbreaker. *)
From Verif Require Import Render.
From Verif Require Export Generated3.
Open Scope nat_scope.

(** a pointer receiver *)
Definition star : list gtok := [TP "*"].

(** ** syncpool *)
Definition s_syncpool := Eval vm_compute in sections text_syncpool.
Definition syncpool_head (dec typ : string) : list (list gtok) :=
  [struct_decl dec [listing [CT "pool chan "; CV typ; CT " "]];
   listing [CT "func New"; CV dec; CT "(impls ..."; CV typ; CT ") "; CV dec; CT " {
     if len(impls) == 0 {
       panic(""empty pool"")
     }
     pool := make(chan "; CV typ; CT ", len(impls))
     for _, i := range impls {
       pool <- i
     }
     return "; CV dec; CT "{pool: pool}
   }"]].

Theorem syncpool_generated : forall lower upper t,
  let dec := decorator t "Pool" in
  generates lower upper text_syncpool t
    (syncpool_head dec (td_type t)
     ++ flat_map (fun m => [method_toks [] dec m (btoks m (syncpool_body m))]) (sorted_methods t) ++ []).
Proof.
  intros lower upper t. cbv zeta.
  apply (generates_intro lower upper text_syncpool t s_syncpool (decorator_env t "Pool")); cbn [s_syncpool fst snd].
  - vm_compute. reflexivity.
  - unfold decorator_env, decorator_val, decorator. steps. decl_or.
    gen_or "DecoratorName" (td_vars t) (td_name t ++ "Pool")%string. steps. split; [reflexivity|lx].
  - intros m _. unfold decorator_env. gen_dec t "Pool". steps; lx.
  - steps. lx.
Qed.

(** ** robinpool *)
Definition s_robinpool := Eval vm_compute in sections text_robinpool.
Definition robinpool_head (dec typ : string) : list (list gtok) :=
  [import_decl [imp "sync/atomic"; imp "errors"];
   struct_decl dec [listing [CT "pool []"; CV typ; CT " "]; kw "poolSize" ++ kw "uint32"; kw "counter" ++ kw "uint32"];
   listing [CT "func New"; CV dec; CT "(pool ..."; CV typ; CT ") (*"; CV dec; CT ", error) {
     if len(pool) == 0 {
       return nil, errors.New(""empty pool"")
     }
     return &"; CV dec; CT "{pool: pool, poolSize: uint32(len(pool))}, nil
   }"];
   listing [CT "func MustNew"; CV dec; CT "(pool ..."; CV typ; CT ") *"; CV dec; CT " {
     if len(pool) == 0 {
       panic(""empty pool"")
     }
     return &"; CV dec; CT "{pool: pool, poolSize: uint32(len(pool))}
   }"]].

Theorem robinpool_generated : forall lower upper t,
  let dec := decorator t "RoundRobinPool" in
  generates lower upper text_robinpool t
    (robinpool_head dec (td_type t)
     ++ flat_map (fun m => [method_toks star dec m (btoks m (robinpool_body m))]) (sorted_methods t) ++ []).
Proof.
  intros lower upper t. cbv zeta.
  apply (generates_intro lower upper text_robinpool t s_robinpool (decorator_env t "RoundRobinPool")); cbn [s_robinpool fst snd].
  - vm_compute. reflexivity.
  - unfold decorator_env, decorator_val, decorator. steps. decl_or.
    gen_or "DecoratorName" (td_vars t) (td_name t ++ "RoundRobinPool")%string. steps. split; [reflexivity|lx].
  - intros m _. unfold decorator_env. gen_dec t "RoundRobinPool". steps; lx.
  - steps. lx.
Qed.

(** ** ratelimit *)
Definition s_ratelimit := Eval vm_compute in sections text_ratelimit.
Definition ratelimit_head (dec typ : string) : list (list gtok) :=
  [import_decl [imp "time"];
   struct_decl dec [kw "_base" ++ hole typ; listing [CT "_ticks chan time.Time "]];
   listing [CT "func New"; CV dec; CT "(base "; CV typ; CT ", burst int, rps float64) *"; CV dec; CT " {
     d := &"; CV dec; CT "{
       _base: base,
       _ticks: make(chan time.Time, burst),
     }
     now := time.Now()
     for i := 0; i < burst; i++ {
       d._ticks <- now
     }
     delay := time.Duration(float64(time.Second) / rps)
     go func() {
       for t := range time.Tick(delay) {
         d._ticks <- t
       }
     }()
     return d
   }"]].

Theorem ratelimit_generated : forall lower upper t,
  let dec := decorator t "WithRateLimit" in
  generates lower upper text_ratelimit t
    (ratelimit_head dec (td_type t)
     ++ flat_map (fun m => [method_toks star dec m (btoks m (ratelimit_body m))]) (sorted_methods t) ++ []).
Proof.
  intros lower upper t. cbv zeta.
  apply (generates_intro lower upper text_ratelimit t s_ratelimit (decorator_env t "WithRateLimit")); cbn [s_ratelimit fst snd].
  - vm_compute. reflexivity.
  - unfold decorator_env, decorator_val, decorator. steps. decl_or.
    gen_or "DecoratorName" (td_vars t) (td_name t ++ "WithRateLimit")%string. steps. split; [reflexivity|lx].
  - intros m _. unfold decorator_env. gen_dec t "WithRateLimit".
    unfold ratelimit_body, ratelimit_wait. destruct (m_returnsError m) eqn:E1, (m_acceptsContext m) eqn:E2; steps; lx.
  - steps. lx.
Qed.

(** ** circuitbreaker *)
Definition s_circuitbreaker := Eval vm_compute in sections text_circuitbreaker.
Definition circuitbreaker_head (dec name typ : string) : list (list gtok) :=
  [import_decl [imp "errors"; imp "sync"; imp "time"];
   struct_decl dec
     [hole typ; kw "_lock" ++ dotted "sync" "RWMutex"; kw "_maxConsecutiveErrors" ++ kw "int";
      kw "_consecutiveErrors" ++ kw "int"; kw "_openInterval" ++ dotted "time" "Duration";
      kw "_closesAt" ++ [TP "*"] ++ dotted "time" "Time"; kw "_ignoreErrors" ++ punct "[]" ++ kw "error"];
   listing [CT "func New"; CV dec; CT "(base "; CV typ; CT ", consecutiveErrors int, openInterval time.Duration, ignoreErrors ...error) (*"; CV dec; CT ") {
     return &"; CV dec; CT "{
       "; CV name; CT ": base,
       _maxConsecutiveErrors: consecutiveErrors,
       _openInterval: openInterval,
       _ignoreErrors: ignoreErrors,
     }
   }"]].

Theorem circuitbreaker_generated : forall lower upper t,
  let dec := decorator t "WithCircuitBreaker" in
  generates lower upper text_circuitbreaker t
    (circuitbreaker_head dec (td_name t) (td_type t)
     ++ flat_map (fun m => if m_returnsError m
                           then [method_toks star dec m (btoks m (circuitbreaker_body (td_name t) dec m))] else [])
                 (sorted_methods t) ++ []).
Proof.
  intros lower upper t. cbv zeta.
  apply (generates_intro lower upper text_circuitbreaker t s_circuitbreaker (decorator_env t "WithCircuitBreaker")); cbn [s_circuitbreaker fst snd].
  - vm_compute. reflexivity.
  - unfold decorator_env, decorator_val, decorator. steps. decl_or.
    gen_or "DecoratorName" (td_vars t) (td_name t ++ "WithCircuitBreaker")%string. steps. split; [reflexivity|lx].
  - intros m _. unfold decorator_env. gen_dec t "WithCircuitBreaker".
    destruct (m_returnsError m) eqn:E1; steps; lx.
  - steps. lx.
Qed.

(** ** fallback

    The methods, as Go text by the kind of method.  A method that returns an
    error but takes no context has no return statement at its end, so Go
    rejects it ("missing return"). *)
Definition s_fallback := Eval vm_compute in sections text_fallback.
Definition fallback_head (dec typ : string) : list (list gtok) :=
  [import_decl [imp "errors"; imp "fmt"; imp "strings"; imp "time"];
   struct_decl dec [listing [CT "implementations []"; CV typ; CT " "]; kw "interval" ++ dotted "time" "Duration"];
   listing [CT "func New"; CV dec; CT "(interval time.Duration, impls ..."; CV typ; CT ") "; CV dec; CT " {
     return "; CV dec; CT "{implementations: impls, interval: interval}
   }"]].

Definition fb_launch (typ : string) (m : method) : list chunk :=
  [CT "
    go func() {
      for _i := 0; _i < len(_d.implementations); _i++ {
        go func(_impl "; CV typ; CT ") {
          "]
  ++ (if HasResults m then [CV (ResultsNames m); CT " := "] else [])
  ++ [CT "_impl."; CV (Call m); CT "
    "]
  ++ (if m_returnsError m
      then [CT "if err != nil {
              err = fmt.Errorf(""%T: %v"", _impl, err)
            }
            "] else [])
  ++ [CT "select {
            case _ch <- _resultStruct{ "; CV (ResultsNames m); CT " }:
            "; CT (if m_acceptsContext m then "case <-ctx.Done():
            " else "default:
            "); CT "}
        }(_d.implementations[_i])
        if _i < len(_d.implementations) - 1 {
          select {
          case <-_next:
          case <-_ticker.C:
          }
        }
      }
    }()
    "].

Definition fb_receive (m : method) : list chunk := (if HasResults m then [CT "_res := "] else []) ++ [CT "<-_ch"].

(** context and error: answer or next; context only: the first answer *)
Definition fb_wait (m : method) : list chunk :=
  if m_acceptsContext m then
    [CT "for {
      select {
      case "] ++ fb_receive m ++ [CT ":
      "]
    ++ (if m_returnsError m then
          [CT "if _res.err == nil {
            "; CV (ReturnStruct m "_res"); CT "
          }
          _next <- struct{}{}
          _errorsList = append(_errorsList, _res.err.Error())
          if len(_errorsList) == len(_d.implementations) {
            err = errors.New(strings.Join(_errorsList, "";""))
            return
          }
          case <-ctx.Done():
          err = fmt.Errorf(""%w: %s"", ctx.Err(), strings.Join(_errorsList, "";""))
          return
          "]
        else
          [CV (ReturnStruct m "_res"); CT "
          case <-ctx.Done():
          return
          "])
    ++ [CT "}
      }
      "]
  else
    fb_receive m ++ [CT "
    "]
    ++ (if m_returnsError m then
          [CT "if _res.err == nil {
            "; CV (ReturnStruct m "_res"); CT "
          }
          _errorsList = append(_errorsList, _res.err.Error())
          "]
        else [CV (ReturnStruct m "_res"); CT "
          "]).

Definition fallback_method (dec typ : string) (m : method) : list gtok :=
  listing ([CT "func (_d "; CV dec; CT ") "; CV (Declaration m); CT " {
    type _resultStruct "; CV (ResultsStruct m); CT "
    var _ch = make(chan _resultStruct, 0)
    var _next = make(chan struct{}, len(_d.implementations))
    "; CT (if m_returnsError m then "var _errorsList []string
    " else ""); CT "var _ticker = time.NewTicker(_d.interval)
    defer _ticker.Stop()
    "; CT (if m_acceptsContext m then "ctx, _cancelFunc := context.WithCancel(ctx)
    defer _cancelFunc()
    " else "")] ++ fb_launch typ m ++ fb_wait m ++ [CT "}"]).

Theorem fallback_generated : forall lower upper t,
  let dec := decorator t "WithFallback" in
  generates lower upper text_fallback t
    (fallback_head dec (td_type t)
     ++ flat_map (fun m => [fallback_method dec (td_type t) m]) (sorted_methods t) ++ []).
Proof.
  intros lower upper t. cbv zeta.
  apply (generates_intro lower upper text_fallback t s_fallback (decorator_env t "WithFallback")); cbn [s_fallback fst snd].
  - vm_compute. reflexivity.
  - unfold decorator_env, decorator_val, decorator. steps. decl_or.
    gen_or "DecoratorName" (td_vars t) (td_name t ++ "WithFallback")%string. steps. split; [reflexivity|lx].
  - intros m _. unfold decorator_env. gen_dec t "WithFallback".
    unfold fallback_method, fb_launch, fb_wait, fb_receive.
    destruct (m_returnsError m) eqn:E1, (m_acceptsContext m) eqn:E2, (HasResults m) eqn:E3; steps; lx.
  - steps. lx.
Qed.
