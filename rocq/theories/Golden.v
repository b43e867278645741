(** The generated files of /repo/templates_tests, produced by the real gowrap,
    as test vectors for the model: for each of them the model's own output for
    the same interface and template (Tmpl.v, Render.v, with the methods
    obtained by NewGenerator from the interface declaration) ends with the
    committed declarations, white space aside (gofmt re-indents) and up to the
    result lists gofmt rewrites: an empty one is dropped, a single unnamed one
    loses its parentheses.  The committed fallback file is older than the
    template in one place (fmt.Errorf where the template has errors.New).  The text is
    copied byte for byte from the part after the import block by a script.
    opentelemetry has no committed output. *)
From Verif Require Import Render PropNaming PropResolve.
Open Scope nat_scope.

Fixpoint strip_ws (s : string) : string :=
  match s with
  | EmptyString => EmptyString
  | String c s' => if tspace c then strip_ws s' else String c (strip_ws s')
  end.
Fixpoint is_suffix (a s : string) : bool :=
  String.eqb a s || match s with EmptyString => false | String _ s' => is_suffix a s' end.

Fixpoint replace_every (fuel : nat) (old new s : string) : string :=
  match fuel with
  | 0 => s
  | S f =>
      if has_prefix old s then (new ++ replace_every f old new (drop (String.length old) s))%string
      else match s with
           | EmptyString => EmptyString
           | String c s' => String c (replace_every f old new s')
           end
  end.
Definition gofmt (rules : list (string * string)) (s : string) : string :=
  fold_left (fun s r => replace_every (String.length s) (fst r) (snd r) s) rules (strip_ws s).
Definition empty_results : string * string := (")(){", "){").

(** templates_tests/interface.go:6-20 and the interfaces declared next to the
    tests *)
Definition gnamed (ns : list string) (t : expr) : field := Field [] [] ns t None.
Definition tctx : field := gnamed ["ctx"] (Selector (Ident "context") "Context").
Definition tF : field := gnamed ["F"]
  (FuncT [tctx; gnamed ["a1"] (Ident "string"); gnamed ["a2"] (Ellipsis (Ident "string"))]
         (Some [gnamed ["result1"; "result2"] (Ident "string"); gnamed ["err"] (Ident "error")])).
Definition tContextNoError : field := gnamed ["ContextNoError"]
  (FuncT [tctx; gnamed ["a1"] (Ident "string"); gnamed ["a2"] (Ident "string")] None).
Definition tNoError : field := gnamed ["NoError"] (FuncT [gnamed [] (Ident "string")] (Some [gnamed [] (Ident "string")])).
Definition tNoParams : field := gnamed ["NoParamsOrResults"] (FuncT [] None).
Definition tChannels : field := gnamed ["Channels"]
  (FuncT [gnamed ["chA"] (ChanT SendRecv (Ident "bool")); gnamed ["chB"] (ChanT SendOnly (Ident "bool"));
          gnamed ["chanC"] (ChanT RecvOnly (Ident "bool"))] None).
Definition tfile : gofile := GoFile
  [TypeSpec "TestInterface" None (InterfaceT (Some [tF; tContextNoError; tNoError; tNoParams; tChannels]));
   TypeSpec "AnotherTestInterface" None (InterfaceT (Some [tF; tNoError; tNoParams; tChannels]));
   TypeSpec "InterfaceWithTwirpError" None (InterfaceT (Some [gnamed ["Method"]
     (FuncT [tctx; gnamed ["r"] (Star (Ident "MethodRequest"))]
            (Some [gnamed [] (Star (Ident "MethodResponse")); gnamed [] (Ident "error")]))]));
   TypeSpec "InterfaceWithValidtableArg" None (InterfaceT (Some [gnamed ["Method"]
     (FuncT [tctx; gnamed ["r"] (Star (Ident "ValidatableRequest"))] (Some [gnamed [] (Ident "error")]))]))]
  [ImportSpec None (quote ++ "context" ++ quote)%string].
Definition tpkg : package := Package "github.com/hexdigest/gowrap/templates_tests" "templatestests" [tfile] [] None.
Definition tworld : world := World (fun _ => None) (fun _ => Ok tpkg) (fun _ p => pk_files p) (fun _ p => pk_imports p).
Definition tenv : env := Env (fun _ => None) (fun s => s) (fun m => m).

Definition generated (iface template : string) (vars : list (string * varval)) : option string :=
  match NewGenerator O0 tenv tworld 20 (Options iface [] (pk_path tpkg) (Some tpkg) "" "out.go" text_header template "") with
  | Some (Ok g) =>
      match run_template (fun n => n) (fun n => n) template (body_inputs g vars) with
      | Some (Ok s) => Some s
      | _ => None
      end
  | _ => None
  end.

Definition agrees (iface template : string) (vars : list (string * varval)) (rules : list (string * string)) (golden : string) : bool :=
  match generated iface template vars with
  | Some s => negb (String.eqb golden "") && is_suffix (strip_ws golden) (gofmt rules s)
  | None => false
  end.

(** templates_tests/interface_with_circuitbreaker.go, from line 15 *)
Definition golden_circuitbreaker : string :=
"
// TestInterfaceWithCircuitBreaker implements TestInterface instrumented with circuit breaker
type TestInterfaceWithCircuitBreaker struct {
	TestInterface

	_lock                 sync.RWMutex
	_maxConsecutiveErrors int
	_consecutiveErrors    int
	_openInterval         time.Duration
	_closesAt             *time.Time
	_ignoreErrors         []error
}

// NewTestInterfaceWithCircuitBreaker breakes a circuit after consecutiveErrors of errors and closes the circuit again after openInterval of time.
// If, after openInterval, the first method call results in error we open and close again.
func NewTestInterfaceWithCircuitBreaker(base TestInterface, consecutiveErrors int, openInterval time.Duration, ignoreErrors ...error) *TestInterfaceWithCircuitBreaker {
	return &TestInterfaceWithCircuitBreaker{
		TestInterface:         base,
		_maxConsecutiveErrors: consecutiveErrors,
		_openInterval:         openInterval,
		_ignoreErrors:         ignoreErrors,
	}
}

// F implements TestInterface
func (_d *TestInterfaceWithCircuitBreaker) F(ctx context.Context, a1 string, a2 ...string) (result1 string, result2 string, err error) {
	_d._lock.RLock()

	if _d._closesAt != nil && _d._closesAt.After(time.Now()) {
		_d._lock.RUnlock()
		err = errors.New(""TestInterfaceWithCircuitBreaker: circuit is open"")
		return
	}
	_d._lock.RUnlock()

	result1, result2, err = _d.TestInterface.F(ctx, a1, a2...)
	_d._lock.Lock()
	defer _d._lock.Unlock()

	if err == nil {
		_d._consecutiveErrors = 0
		_d._closesAt = nil
		return
	}

	for _, _e := range _d._ignoreErrors {
		if errors.Is(err, _e) {
			_d._consecutiveErrors = 0
			_d._closesAt = nil
			return
		}
	}

	_d._consecutiveErrors++

	if _d._consecutiveErrors >= _d._maxConsecutiveErrors {
		closesAt := time.Now().Add(_d._openInterval)
		_d._closesAt = &closesAt
	}

	return
}
".
Example golden_circuitbreaker_ok : agrees "TestInterface" text_circuitbreaker [] [(")(*TestInterfaceWithCircuitBreaker){", ")*TestInterfaceWithCircuitBreaker{")] golden_circuitbreaker = true.
Proof. vm_compute. reflexivity. Qed.

(** templates_tests/interface_with_elasticapm.go, from line 14 *)
Definition golden_elasticapm : string :=
"
// TestInterfaceAPMTracing implements TestInterface interface with all methods wrapped
// with go.elastic.co/apm/v2
type TestInterfaceAPMTracing struct {
	base         TestInterface
	startSpan    func(ctx context.Context, name, spanType string) (*apm.Span, context.Context)
	endSpan      func(span *apm.Span)
	setLabel     func(span *apm.Span, key string, value interface{})
	captureError func(ctx context.Context, err error)
	spanType     string
}

type TestInterfaceAPMTracingOption func(v *TestInterfaceAPMTracing)

func TestInterfaceAPMTracingWithUsingSetLabel() TestInterfaceAPMTracingOption {
	return func(v *TestInterfaceAPMTracing) {
		v.setLabel = func(span *apm.Span, key string, value interface{}) {
			span.SpanData.Context.SetLabel(key, value)
		}
	}
}

func TestInterfaceAPMTracingWithSpanType(spanType string) TestInterfaceAPMTracingOption {
	return func(v *TestInterfaceAPMTracing) {
		v.spanType = spanType
	}
}

// NewTestInterfaceAPMTracing returns an instance of the TestInterface decorated with go.elastic.co/apm/v2
func NewTestInterfaceAPMTracing(base TestInterface, opts ...TestInterfaceAPMTracingOption) TestInterfaceAPMTracing {
	r := TestInterfaceAPMTracing{
		base:      base,
		startSpan: apm.StartSpan,
		endSpan: func(span *apm.Span) {
			span.End()
		},
		setLabel: func(span *apm.Span, key string, value interface{}) {
		},
		captureError: func(ctx context.Context, err error) {
			apm.CaptureError(ctx, err).Send()
		},
		spanType: ""testinterface"",
	}

	for _, fn := range opts {
		fn(&r)
	}
	return r
}

// ContextNoError implements TestInterface
func (_d TestInterfaceAPMTracing) ContextNoError(ctx context.Context, a1 string, a2 string) {
	span, ctx := _d.startSpan(ctx, ""testinterface.ContextNoError"", _d.spanType)
	defer func() {
		_d.endSpan(span)
	}()
	_d.setLabel(span, ""a1"", a1)
	_d.setLabel(span, ""a2"", a2)

	_d.base.ContextNoError(ctx, a1, a2)
	return
}

// F implements TestInterface
func (_d TestInterfaceAPMTracing) F(ctx context.Context, a1 string, a2 ...string) (result1 string, result2 string, err error) {
	span, ctx := _d.startSpan(ctx, ""testinterface.F"", _d.spanType)
	defer func() {
		if err != nil {
			_d.captureError(ctx, err)
		}
		_d.endSpan(span)
	}()
	_d.setLabel(span, ""a1"", a1)
	_d.setLabel(span, ""a2"", a2)

	return _d.base.F(ctx, a1, a2...)
}
".
Example golden_elasticapm_ok : agrees "TestInterface" text_elasticapm [] [empty_results] golden_elasticapm = true.
Proof. vm_compute. reflexivity. Qed.

(** templates_tests/interface_with_fallback.go, from line 15 *)
Definition golden_fallback : string :=
"
// TestInterfaceWithFallback implements TestInterface interface wrapped with Prometheus metrics
type TestInterfaceWithFallback struct {
	implementations []TestInterface
	interval        time.Duration
}

// NewTestInterfaceWithFallback takes several implementations of the TestInterface and returns an instance of TestInterface
// which calls all implementations concurrently with given interval and returns first non-error response.
func NewTestInterfaceWithFallback(interval time.Duration, impls ...TestInterface) TestInterfaceWithFallback {
	return TestInterfaceWithFallback{implementations: impls, interval: interval}
}

// Channels implements TestInterface
func (_d TestInterfaceWithFallback) Channels(chA chan bool, chB chan<- bool, chanC <-chan bool) {
	type _resultStruct struct {
	}
	var _ch = make(chan _resultStruct, 0)
	var _next = make(chan struct{}, len(_d.implementations))

	var _ticker = time.NewTicker(_d.interval)
	defer _ticker.Stop()

	go func() {
		for _i := 0; _i < len(_d.implementations); _i++ {
			go func(_impl TestInterface) {
				_impl.Channels(chA, chB, chanC)

				select {
				case _ch <- _resultStruct{}:
				default:
				}

			}(_d.implementations[_i])

			if _i < len(_d.implementations)-1 {
				select {
				case <-_next:
				case <-_ticker.C:
				}
			}
		}
	}()

	<-_ch
	return

}

// ContextNoError implements TestInterface
func (_d TestInterfaceWithFallback) ContextNoError(ctx context.Context, a1 string, a2 string) {
	type _resultStruct struct {
	}
	var _ch = make(chan _resultStruct, 0)
	var _next = make(chan struct{}, len(_d.implementations))

	var _ticker = time.NewTicker(_d.interval)
	defer _ticker.Stop()
	ctx, _cancelFunc := context.WithCancel(ctx)
	defer _cancelFunc()

	go func() {
		for _i := 0; _i < len(_d.implementations); _i++ {
			go func(_impl TestInterface) {
				_impl.ContextNoError(ctx, a1, a2)

				select {
				case _ch <- _resultStruct{}:
				case <-ctx.Done():
				}

			}(_d.implementations[_i])

			if _i < len(_d.implementations)-1 {
				select {
				case <-_next:
				case <-_ticker.C:
				}
			}
		}
	}()

	for {
		select {
		case <-_ch:
			return
		case <-ctx.Done():

			return
		}
	}

}

// F implements TestInterface
func (_d TestInterfaceWithFallback) F(ctx context.Context, a1 string, a2 ...string) (result1 string, result2 string, err error) {
	type _resultStruct struct {
		result1 string
		result2 string
		err     error
	}
	var _ch = make(chan _resultStruct, 0)
	var _next = make(chan struct{}, len(_d.implementations))
	var _errorsList []string
	var _ticker = time.NewTicker(_d.interval)
	defer _ticker.Stop()
	ctx, _cancelFunc := context.WithCancel(ctx)
	defer _cancelFunc()

	go func() {
		for _i := 0; _i < len(_d.implementations); _i++ {
			go func(_impl TestInterface) {
				result1, result2, err := _impl.F(ctx, a1, a2...)
				if err != nil {
					err = fmt.Errorf(""%T: %v"", _impl, err)
				}

				select {
				case _ch <- _resultStruct{result1, result2, err}:
				case <-ctx.Done():
				}

			}(_d.implementations[_i])

			if _i < len(_d.implementations)-1 {
				select {
				case <-_next:
				case <-_ticker.C:
				}
			}
		}
	}()

	for {
		select {
		case _res := <-_ch:
			if _res.err == nil {
				return _res.result1, _res.result2, _res.err
			}
			_next <- struct{}{}
			_errorsList = append(_errorsList, _res.err.Error())
			if len(_errorsList) == len(_d.implementations) {
				err = fmt.Errorf(strings.Join(_errorsList, "";""))
				return
			}
		case <-ctx.Done():

			err = fmt.Errorf(""%w: %s"", ctx.Err(), strings.Join(_errorsList, "";""))

			return
		}
	}

}

// NoError implements TestInterface
func (_d TestInterfaceWithFallback) NoError(s1 string) (s2 string) {
	type _resultStruct struct {
		s2 string
	}
	var _ch = make(chan _resultStruct, 0)
	var _next = make(chan struct{}, len(_d.implementations))

	var _ticker = time.NewTicker(_d.interval)
	defer _ticker.Stop()

	go func() {
		for _i := 0; _i < len(_d.implementations); _i++ {
			go func(_impl TestInterface) {
				s2 := _impl.NoError(s1)

				select {
				case _ch <- _resultStruct{s2}:
				default:
				}

			}(_d.implementations[_i])

			if _i < len(_d.implementations)-1 {
				select {
				case <-_next:
				case <-_ticker.C:
				}
			}
		}
	}()

	_res := <-_ch
	return _res.s2

}

// NoParamsOrResults implements TestInterface
func (_d TestInterfaceWithFallback) NoParamsOrResults() {
	type _resultStruct struct {
	}
	var _ch = make(chan _resultStruct, 0)
	var _next = make(chan struct{}, len(_d.implementations))

	var _ticker = time.NewTicker(_d.interval)
	defer _ticker.Stop()

	go func() {
		for _i := 0; _i < len(_d.implementations); _i++ {
			go func(_impl TestInterface) {
				_impl.NoParamsOrResults()

				select {
				case _ch <- _resultStruct{}:
				default:
				}

			}(_d.implementations[_i])

			if _i < len(_d.implementations)-1 {
				select {
				case <-_next:
				case <-_ticker.C:
				}
			}
		}
	}()

	<-_ch
	return

}
".
Example golden_fallback_ok : agrees "TestInterface" text_fallback [] [empty_results; ("err=errors.New(strings", "err=fmt.Errorf(strings")] golden_fallback = true.
Proof. vm_compute. reflexivity. Qed.

(** templates_tests/interface_with_grpc_validation.go, from line 15 *)
Definition golden_grpc_validation : string :=
"
// InterfaceWithValidtableArgWithGRPCValidation implements InterfaceWithValidtableArg interface instrumented with GRPC request validation
type InterfaceWithValidtableArgWithGRPCValidation struct {
	InterfaceWithValidtableArg
}

// NewInterfaceWithValidtableArgWithGRPCValidation returns InterfaceWithValidtableArgWithGRPCValidation
func NewInterfaceWithValidtableArgWithGRPCValidation(base InterfaceWithValidtableArg) InterfaceWithValidtableArgWithGRPCValidation {
	return InterfaceWithValidtableArgWithGRPCValidation{
		InterfaceWithValidtableArg: base,
	}
}

// Method implements InterfaceWithValidtableArg
func (_d InterfaceWithValidtableArgWithGRPCValidation) Method(ctx context.Context, r *ValidatableRequest) (err error) {
	if _v, _ok := interface{}(r).(interface{ Validate() error }); _ok {
		if err = _v.Validate(); err != nil {
			err = grpc_status.Error(grpc_codes.InvalidArgument, err.Error())
			return
		}
	}

	return _d.InterfaceWithValidtableArg.Method(ctx, r)
}
".
Example golden_grpc_validation_ok : agrees "InterfaceWithValidtableArg" text_grpc_validate [] [empty_results] golden_grpc_validation = true.
Proof. vm_compute. reflexivity. Qed.

(** templates_tests/interface_with_log.go, from line 14 *)
Definition golden_log : string :=
"
// TestInterfaceWithLogger implements TestInterface that is instrumented with logging
type TestInterfaceWithLogger struct {
	_stdlog, _errlog *log.Logger
	_base            TestInterface
}

// NewTestInterfaceWithLogger instruments an implementation of the TestInterface with simple logging
func NewTestInterfaceWithLogger(base TestInterface, stdout, stderr io.Writer) TestInterfaceWithLogger {
	return TestInterfaceWithLogger{
		_base:   base,
		_stdlog: log.New(stdout, """", log.LstdFlags),
		_errlog: log.New(stderr, """", log.LstdFlags),
	}
}

// Channels implements TestInterface
func (_d TestInterfaceWithLogger) Channels(chA chan bool, chB chan<- bool, chanC <-chan bool) {
	_params := []interface{}{""TestInterfaceWithLogger: calling Channels with params:"", chA, chB, chanC}
	_d._stdlog.Println(_params...)
	defer func() {
		_d._stdlog.Println(""TestInterfaceWithLogger: Channels finished"")
	}()
	_d._base.Channels(chA, chB, chanC)
	return
}

// ContextNoError implements TestInterface
func (_d TestInterfaceWithLogger) ContextNoError(ctx context.Context, a1 string, a2 string) {
	_params := []interface{}{""TestInterfaceWithLogger: calling ContextNoError with params:"", ctx, a1, a2}
	_d._stdlog.Println(_params...)
	defer func() {
		_d._stdlog.Println(""TestInterfaceWithLogger: ContextNoError finished"")
	}()
	_d._base.ContextNoError(ctx, a1, a2)
	return
}

// F implements TestInterface
func (_d TestInterfaceWithLogger) F(ctx context.Context, a1 string, a2 ...string) (result1 string, result2 string, err error) {
	_params := []interface{}{""TestInterfaceWithLogger: calling F with params:"", ctx, a1, a2}
	_d._stdlog.Println(_params...)
	defer func() {
		_results := []interface{}{""TestInterfaceWithLogger: F returned results:"", result1, result2, err}
		if err != nil {
			_d._errlog.Println(_results...)
		} else {
			_d._stdlog.Println(_results...)
		}
	}()
	return _d._base.F(ctx, a1, a2...)
}

// NoError implements TestInterface
func (_d TestInterfaceWithLogger) NoError(s1 string) (s2 string) {
	_params := []interface{}{""TestInterfaceWithLogger: calling NoError with params:"", s1}
	_d._stdlog.Println(_params...)
	defer func() {
		_results := []interface{}{""TestInterfaceWithLogger: NoError returned results:"", s2}
		_d._stdlog.Println(_results...)
	}()
	return _d._base.NoError(s1)
}

// NoParamsOrResults implements TestInterface
func (_d TestInterfaceWithLogger) NoParamsOrResults() {
	_d._stdlog.Println(""TestInterfaceWithLogger: calling NoParamsOrResults"")
	defer func() {
		_d._stdlog.Println(""TestInterfaceWithLogger: NoParamsOrResults finished"")
	}()
	_d._base.NoParamsOrResults()
	return
}
".
Example golden_log_ok : agrees "TestInterface" text_log [("DecoratorName", VStr "TestInterfaceWithLogger")] [empty_results] golden_log = true.
Proof. vm_compute. reflexivity. Qed.

(** templates_tests/interface_with_logrus.go, from line 14 *)
Definition golden_logrus : string :=
"
// TestInterfaceWithLogrus implements TestInterface that is instrumented with logrus logger
type TestInterfaceWithLogrus struct {
	_log  *logrus.Entry
	_base TestInterface
}

// NewTestInterfaceWithLogrus instruments an implementation of the TestInterface with simple logging
func NewTestInterfaceWithLogrus(base TestInterface, log *logrus.Entry) TestInterfaceWithLogrus {
	return TestInterfaceWithLogrus{
		_base: base,
		_log:  log,
	}
}

// Channels implements TestInterface
func (_d TestInterfaceWithLogrus) Channels(chA chan bool, chB chan<- bool, chanC <-chan bool) {
	_d._log.WithFields(logrus.Fields(map[string]interface{}{
		""chA"":   chA,
		""chB"":   chB,
		""chanC"": chanC})).Debug(""TestInterfaceWithLogrus: calling Channels"")
	defer func() {
		_d._log.Debug(""TestInterfaceWithLogrus: Channels finished"")
	}()
	_d._base.Channels(chA, chB, chanC)
	return
}

// ContextNoError implements TestInterface
func (_d TestInterfaceWithLogrus) ContextNoError(ctx context.Context, a1 string, a2 string) {
	_d._log.WithFields(logrus.Fields(map[string]interface{}{
		""ctx"": ctx,
		""a1"":  a1,
		""a2"":  a2})).Debug(""TestInterfaceWithLogrus: calling ContextNoError"")
	defer func() {
		_d._log.Debug(""TestInterfaceWithLogrus: ContextNoError finished"")
	}()
	_d._base.ContextNoError(ctx, a1, a2)
	return
}

// F implements TestInterface
func (_d TestInterfaceWithLogrus) F(ctx context.Context, a1 string, a2 ...string) (result1 string, result2 string, err error) {
	_d._log.WithFields(logrus.Fields(map[string]interface{}{
		""ctx"": ctx,
		""a1"":  a1,
		""a2"":  a2})).Debug(""TestInterfaceWithLogrus: calling F"")
	defer func() {
		if err != nil {
			_d._log.WithFields(logrus.Fields(map[string]interface{}{
				""result1"": result1,
				""result2"": result2,
				""err"":     err})).Error(""TestInterfaceWithLogrus: method F returned an error"")
		} else {
			_d._log.WithFields(logrus.Fields(map[string]interface{}{
				""result1"": result1,
				""result2"": result2,
				""err"":     err})).Debug(""TestInterfaceWithLogrus: method F finished"")
		}
	}()
	return _d._base.F(ctx, a1, a2...)
}

// NoError implements TestInterface
func (_d TestInterfaceWithLogrus) NoError(s1 string) (s2 string) {
	_d._log.WithFields(logrus.Fields(map[string]interface{}{
		""s1"": s1})).Debug(""TestInterfaceWithLogrus: calling NoError"")
	defer func() {
		_d._log.WithFields(logrus.Fields(map[string]interface{}{
			""s2"": s2})).Debug(""TestInterfaceWithLogrus: method NoError finished"")
	}()
	return _d._base.NoError(s1)
}

// NoParamsOrResults implements TestInterface
func (_d TestInterfaceWithLogrus) NoParamsOrResults() {
	_d._log.Debug(""TestInterfaceWithLogrus: calling NoParamsOrResults"")
	defer func() {
		_d._log.Debug(""TestInterfaceWithLogrus: NoParamsOrResults finished"")
	}()
	_d._base.NoParamsOrResults()
	return
}
".
Example golden_logrus_ok : agrees "TestInterface" text_logrus [] [empty_results] golden_logrus = true.
Proof. vm_compute. reflexivity. Qed.

(** templates_tests/interface_with_opencensus.go, from line 14 *)
Definition golden_opencensus : string :=
"
// TestInterfaceWithOpenCensus implements TestInterface interface instrumented with opentracing spans
type TestInterfaceWithOpenCensus struct {
	TestInterface
	_instance      string
	_spanDecorator func(span *trace.Span, params, results map[string]interface{})
}

// NewTestInterfaceWithOpenCensus returns TestInterfaceWithOpenCensus
func NewTestInterfaceWithOpenCensus(base TestInterface, instance string, spanDecorator ...func(span *trace.Span, params, results map[string]interface{})) TestInterfaceWithOpenCensus {
	d := TestInterfaceWithOpenCensus{
		TestInterface: base,
		_instance:     instance,
	}

	if len(spanDecorator) > 0 && spanDecorator[0] != nil {
		d._spanDecorator = spanDecorator[0]
	}

	return d
}

// ContextNoError implements TestInterface
func (_d TestInterfaceWithOpenCensus) ContextNoError(ctx context.Context, a1 string, a2 string) {
	ctx, _span := trace.StartSpan(ctx, _d._instance+"".TestInterface.ContextNoError"")
	defer func() {
		if _d._spanDecorator != nil {
			_d._spanDecorator(_span, map[string]interface{}{
				""ctx"": ctx,
				""a1"":  a1,
				""a2"":  a2}, map[string]interface{}{})
		}
		_span.End()
	}()
	_d.TestInterface.ContextNoError(ctx, a1, a2)
	return
}

// F implements TestInterface
func (_d TestInterfaceWithOpenCensus) F(ctx context.Context, a1 string, a2 ...string) (result1 string, result2 string, err error) {
	ctx, _span := trace.StartSpan(ctx, _d._instance+"".TestInterface.F"")
	defer func() {
		if _d._spanDecorator != nil {
			_d._spanDecorator(_span, map[string]interface{}{
				""ctx"": ctx,
				""a1"":  a1,
				""a2"":  a2}, map[string]interface{}{
				""result1"": result1,
				""result2"": result2,
				""err"":     err})
		} else if err != nil {
			_span.AddAttributes(
				trace.BoolAttribute(""error"", true),
				trace.StringAttribute(""event"", ""error""),
				trace.StringAttribute(""message"", err.Error()),
			)
		}

		_span.End()
	}()
	return _d.TestInterface.F(ctx, a1, a2...)
}
".
Example golden_opencensus_ok : agrees "TestInterface" text_opencensus [("DecoratorName", VStr "TestInterfaceWithOpenCensus")] [empty_results] golden_opencensus = true.
Proof. vm_compute. reflexivity. Qed.

(** templates_tests/interface_with_opentracing.go, from line 16 *)
Definition golden_opentracing : string :=
"
// TestInterfaceWithTracing implements TestInterface interface instrumented with opentracing spans
type TestInterfaceWithTracing struct {
	TestInterface
	_instance      string
	_spanDecorator func(span opentracing.Span, params, results map[string]interface{})
}

// NewTestInterfaceWithTracing returns TestInterfaceWithTracing
func NewTestInterfaceWithTracing(base TestInterface, instance string, spanDecorator ...func(span opentracing.Span, params, results map[string]interface{})) TestInterfaceWithTracing {
	d := TestInterfaceWithTracing{
		TestInterface: base,
		_instance:     instance,
	}

	if len(spanDecorator) > 0 && spanDecorator[0] != nil {
		d._spanDecorator = spanDecorator[0]
	}

	return d
}

// ContextNoError implements TestInterface
func (_d TestInterfaceWithTracing) ContextNoError(ctx context.Context, a1 string, a2 string) {
	_span, ctx := opentracing.StartSpanFromContext(ctx, _d._instance+"".TestInterface.ContextNoError"")
	defer func() {
		if _d._spanDecorator != nil {
			_d._spanDecorator(_span, map[string]interface{}{
				""ctx"": ctx,
				""a1"":  a1,
				""a2"":  a2}, map[string]interface{}{})
		}
		_span.Finish()
	}()
	_d.TestInterface.ContextNoError(ctx, a1, a2)
	return
}

// F implements TestInterface
func (_d TestInterfaceWithTracing) F(ctx context.Context, a1 string, a2 ...string) (result1 string, result2 string, err error) {
	_span, ctx := opentracing.StartSpanFromContext(ctx, _d._instance+"".TestInterface.F"")
	defer func() {
		if _d._spanDecorator != nil {
			_d._spanDecorator(_span, map[string]interface{}{
				""ctx"": ctx,
				""a1"":  a1,
				""a2"":  a2}, map[string]interface{}{
				""result1"": result1,
				""result2"": result2,
				""err"":     err})
		} else if err != nil {
			_ext.Error.Set(_span, true)
			_span.LogFields(
				_log.String(""event"", ""error""),
				_log.String(""message"", err.Error()),
			)
		}

		_span.Finish()
	}()
	return _d.TestInterface.F(ctx, a1, a2...)
}
".
Example golden_opentracing_ok : agrees "TestInterface" text_opentracing [] [empty_results] golden_opentracing = true.
Proof. vm_compute. reflexivity. Qed.

(** templates_tests/interface_with_prometheus.go, from line 16 *)
Definition golden_prometheus : string :=
"
// TestInterfaceWithPrometheus implements TestInterface interface with all methods wrapped
// with Prometheus metrics
type TestInterfaceWithPrometheus struct {
	base         TestInterface
	instanceName string
}

var testinterfaceDurationSummaryVec = promauto.NewSummaryVec(
	prometheus.SummaryOpts{
		Name:       ""testinterface_duration_seconds"",
		Help:       ""testinterface runtime duration and result"",
		MaxAge:     time.Minute,
		Objectives: map[float64]float64{0.5: 0.05, 0.9: 0.01, 0.99: 0.001},
	},
	[]string{""instance_name"", ""method"", ""result""})

// NewTestInterfaceWithPrometheus returns an instance of the TestInterface decorated with prometheus summary metric
func NewTestInterfaceWithPrometheus(base TestInterface, instanceName string) TestInterfaceWithPrometheus {
	return TestInterfaceWithPrometheus{
		base:         base,
		instanceName: instanceName,
	}
}

// Channels implements TestInterface
func (_d TestInterfaceWithPrometheus) Channels(chA chan bool, chB chan<- bool, chanC <-chan bool) {
	_since := time.Now()
	defer func() {
		result := ""ok""
		testinterfaceDurationSummaryVec.WithLabelValues(_d.instanceName, ""Channels"", result).Observe(time.Since(_since).Seconds())
	}()
	_d.base.Channels(chA, chB, chanC)
	return
}

// ContextNoError implements TestInterface
func (_d TestInterfaceWithPrometheus) ContextNoError(ctx context.Context, a1 string, a2 string) {
	_since := time.Now()
	defer func() {
		result := ""ok""
		testinterfaceDurationSummaryVec.WithLabelValues(_d.instanceName, ""ContextNoError"", result).Observe(time.Since(_since).Seconds())
	}()
	_d.base.ContextNoError(ctx, a1, a2)
	return
}

// F implements TestInterface
func (_d TestInterfaceWithPrometheus) F(ctx context.Context, a1 string, a2 ...string) (result1 string, result2 string, err error) {
	_since := time.Now()
	defer func() {
		result := ""ok""
		if err != nil {
			result = ""error""
		}

		testinterfaceDurationSummaryVec.WithLabelValues(_d.instanceName, ""F"", result).Observe(time.Since(_since).Seconds())
	}()
	return _d.base.F(ctx, a1, a2...)
}

// NoError implements TestInterface
func (_d TestInterfaceWithPrometheus) NoError(s1 string) (s2 string) {
	_since := time.Now()
	defer func() {
		result := ""ok""
		testinterfaceDurationSummaryVec.WithLabelValues(_d.instanceName, ""NoError"", result).Observe(time.Since(_since).Seconds())
	}()
	return _d.base.NoError(s1)
}

// NoParamsOrResults implements TestInterface
func (_d TestInterfaceWithPrometheus) NoParamsOrResults() {
	_since := time.Now()
	defer func() {
		result := ""ok""
		testinterfaceDurationSummaryVec.WithLabelValues(_d.instanceName, ""NoParamsOrResults"", result).Observe(time.Since(_since).Seconds())
	}()
	_d.base.NoParamsOrResults()
	return
}
".
Example golden_prometheus_ok : agrees "TestInterface" text_prometheus [] [empty_results] golden_prometheus = true.
Proof. vm_compute. reflexivity. Qed.

(** templates_tests/interface_with_prometheus_metric_name.go, from line 16 *)
Definition golden_prometheus_metric_name : string :=
"
// AnotherTestInterfaceWithPrometheus implements AnotherTestInterface interface with all methods wrapped
// with Prometheus metrics
type AnotherTestInterfaceWithPrometheus struct {
	base         AnotherTestInterface
	instanceName string
}

var anothertestinterfaceDurationSummaryVec = promauto.NewSummaryVec(
	prometheus.SummaryOpts{
		Name:       ""custom_metric_name_seconds"",
		Help:       ""anothertestinterface runtime duration and result"",
		MaxAge:     time.Minute,
		Objectives: map[float64]float64{0.5: 0.05, 0.9: 0.01, 0.99: 0.001},
	},
	[]string{""instance_name"", ""method"", ""result""})

// NewAnotherTestInterfaceWithPrometheus returns an instance of the AnotherTestInterface decorated with prometheus summary metric
func NewAnotherTestInterfaceWithPrometheus(base AnotherTestInterface, instanceName string) AnotherTestInterfaceWithPrometheus {
	return AnotherTestInterfaceWithPrometheus{
		base:         base,
		instanceName: instanceName,
	}
}

// Channels implements AnotherTestInterface
func (_d AnotherTestInterfaceWithPrometheus) Channels(chA chan bool, chB chan<- bool, chanC <-chan bool) {
	_since := time.Now()
	defer func() {
		result := ""ok""
		anothertestinterfaceDurationSummaryVec.WithLabelValues(_d.instanceName, ""Channels"", result).Observe(time.Since(_since).Seconds())
	}()
	_d.base.Channels(chA, chB, chanC)
	return
}

// F implements AnotherTestInterface
func (_d AnotherTestInterfaceWithPrometheus) F(ctx context.Context, a1 string, a2 ...string) (result1 string, result2 string, err error) {
	_since := time.Now()
	defer func() {
		result := ""ok""
		if err != nil {
			result = ""error""
		}

		anothertestinterfaceDurationSummaryVec.WithLabelValues(_d.instanceName, ""F"", result).Observe(time.Since(_since).Seconds())
	}()
	return _d.base.F(ctx, a1, a2...)
}

// NoError implements AnotherTestInterface
func (_d AnotherTestInterfaceWithPrometheus) NoError(s1 string) (s2 string) {
	_since := time.Now()
	defer func() {
		result := ""ok""
		anothertestinterfaceDurationSummaryVec.WithLabelValues(_d.instanceName, ""NoError"", result).Observe(time.Since(_since).Seconds())
	}()
	return _d.base.NoError(s1)
}

// NoParamsOrResults implements AnotherTestInterface
func (_d AnotherTestInterfaceWithPrometheus) NoParamsOrResults() {
	_since := time.Now()
	defer func() {
		result := ""ok""
		anothertestinterfaceDurationSummaryVec.WithLabelValues(_d.instanceName, ""NoParamsOrResults"", result).Observe(time.Since(_since).Seconds())
	}()
	_d.base.NoParamsOrResults()
	return
}
".
Example golden_prometheus_metric_name_ok : agrees "AnotherTestInterface" text_prometheus [("MetricName", VStr "custom_metric_name_seconds")] [empty_results] golden_prometheus_metric_name = true.
Proof. vm_compute. reflexivity. Qed.

(** templates_tests/interface_with_ratelimit.go, from line 13 *)
Definition golden_ratelimit : string :=
"
// TestInterfaceWithRateLimit implements TestInterface
type TestInterfaceWithRateLimit struct {
	_base  TestInterface
	_ticks chan time.Time
}

// NewTestInterfaceWithRateLimit instruments an implementation of the TestInterface with rate limiting
func NewTestInterfaceWithRateLimit(base TestInterface, burst int, rps float64) *TestInterfaceWithRateLimit {
	d := &TestInterfaceWithRateLimit{
		_base:  base,
		_ticks: make(chan time.Time, burst),
	}

	now := time.Now()
	for i := 0; i < burst; i++ {
		d._ticks <- now
	}

	delay := time.Duration(float64(time.Second) / rps)

	go func() {
		for t := range time.Tick(delay) {
			d._ticks <- t
		}
	}()

	return d
}

// Channels implements TestInterface
func (_d *TestInterfaceWithRateLimit) Channels(chA chan bool, chB chan<- bool, chanC <-chan bool) {
	<-_d._ticks

	_d._base.Channels(chA, chB, chanC)
	return
}

// ContextNoError implements TestInterface
func (_d *TestInterfaceWithRateLimit) ContextNoError(ctx context.Context, a1 string, a2 string) {
	<-_d._ticks

	_d._base.ContextNoError(ctx, a1, a2)
	return
}

// F implements TestInterface
func (_d *TestInterfaceWithRateLimit) F(ctx context.Context, a1 string, a2 ...string) (result1 string, result2 string, err error) {
	select {
	case <-ctx.Done():
		err = ctx.Err()
		return
	case <-_d._ticks:
	}

	return _d._base.F(ctx, a1, a2...)
}

// NoError implements TestInterface
func (_d *TestInterfaceWithRateLimit) NoError(s1 string) (s2 string) {
	<-_d._ticks

	return _d._base.NoError(s1)
}

// NoParamsOrResults implements TestInterface
func (_d *TestInterfaceWithRateLimit) NoParamsOrResults() {
	<-_d._ticks

	_d._base.NoParamsOrResults()
	return
}
".
Example golden_ratelimit_ok : agrees "TestInterface" text_ratelimit [] [empty_results] golden_ratelimit = true.
Proof. vm_compute. reflexivity. Qed.

(** templates_tests/interface_with_retry.go, from line 13 *)
Definition golden_retry : string :=
"
// TestInterfaceWithRetry implements TestInterface interface instrumented with retries
type TestInterfaceWithRetry struct {
	TestInterface
	_retryCount    int
	_retryInterval time.Duration
}

// NewTestInterfaceWithRetry returns TestInterfaceWithRetry
func NewTestInterfaceWithRetry(base TestInterface, retryCount int, retryInterval time.Duration) TestInterfaceWithRetry {
	return TestInterfaceWithRetry{
		TestInterface:  base,
		_retryCount:    retryCount,
		_retryInterval: retryInterval,
	}
}

// F implements TestInterface
func (_d TestInterfaceWithRetry) F(ctx context.Context, a1 string, a2 ...string) (result1 string, result2 string, err error) {
	result1, result2, err = _d.TestInterface.F(ctx, a1, a2...)
	if err == nil || _d._retryCount < 1 {
		return
	}
	_ticker := time.NewTicker(_d._retryInterval)
	defer _ticker.Stop()
	for _i := 0; _i < _d._retryCount && err != nil; _i++ {
		select {
		case <-ctx.Done():
			return
		case <-_ticker.C:
		}
		result1, result2, err = _d.TestInterface.F(ctx, a1, a2...)
	}
	return
}
".
Example golden_retry_ok : agrees "TestInterface" text_retry [] [empty_results] golden_retry = true.
Proof. vm_compute. reflexivity. Qed.

(** templates_tests/interface_with_robinpool.go, from line 14 *)
Definition golden_robinpool : string :=
"
// TestInterfaceRoundRobinPool implements TestInterface that uses pool of TestInterface
type TestInterfaceRoundRobinPool struct {
	pool     []TestInterface
	poolSize uint32
	counter  uint32
}

// NewTestInterfaceRoundRobinPool takes several implementations of the TestInterface and returns an instance of the TestInterface
// that picks one of the given implementations using Round-robin algorithm and delegates method call to it
func NewTestInterfaceRoundRobinPool(pool ...TestInterface) (*TestInterfaceRoundRobinPool, error) {
	if len(pool) == 0 {
		return nil, errors.New(""empty pool"")
	}

	return &TestInterfaceRoundRobinPool{pool: pool, poolSize: uint32(len(pool))}, nil
}

// MustNewTestInterfaceRoundRobinPool takes several implementations of the TestInterface and returns an instance of the TestInterface
// that picks one of the given implementations using Round-robin algorithm and delegates method call to it.
func MustNewTestInterfaceRoundRobinPool(pool ...TestInterface) *TestInterfaceRoundRobinPool {
	if len(pool) == 0 {
		panic(""empty pool"")
	}

	return &TestInterfaceRoundRobinPool{pool: pool, poolSize: uint32(len(pool))}
}

// Channels implements TestInterface
func (_d *TestInterfaceRoundRobinPool) Channels(chA chan bool, chB chan<- bool, chanC <-chan bool) {
	_counter := atomic.AddUint32(&_d.counter, 1)
	_d.pool[_counter%_d.poolSize].Channels(chA, chB, chanC)
	return
}

// ContextNoError implements TestInterface
func (_d *TestInterfaceRoundRobinPool) ContextNoError(ctx context.Context, a1 string, a2 string) {
	_counter := atomic.AddUint32(&_d.counter, 1)
	_d.pool[_counter%_d.poolSize].ContextNoError(ctx, a1, a2)
	return
}

// F implements TestInterface
func (_d *TestInterfaceRoundRobinPool) F(ctx context.Context, a1 string, a2 ...string) (result1 string, result2 string, err error) {
	_counter := atomic.AddUint32(&_d.counter, 1)
	return _d.pool[_counter%_d.poolSize].F(ctx, a1, a2...)
}

// NoError implements TestInterface
func (_d *TestInterfaceRoundRobinPool) NoError(s1 string) (s2 string) {
	_counter := atomic.AddUint32(&_d.counter, 1)
	return _d.pool[_counter%_d.poolSize].NoError(s1)
}

// NoParamsOrResults implements TestInterface
func (_d *TestInterfaceRoundRobinPool) NoParamsOrResults() {
	_counter := atomic.AddUint32(&_d.counter, 1)
	_d.pool[_counter%_d.poolSize].NoParamsOrResults()
	return
}
".
Example golden_robinpool_ok : agrees "TestInterface" text_robinpool [] [empty_results] golden_robinpool = true.
Proof. vm_compute. reflexivity. Qed.

(** templates_tests/interface_with_syncpool.go, from line 10 *)
Definition golden_syncpool : string :=
"
// TestInterfacePool implements TestInterface that uses pool of TestInterface
type TestInterfacePool struct {
	pool chan TestInterface
}

// NewTestInterfacePool takes several implementations of the TestInterface and returns an instance of the TestInterface
// that uses sync.Pool of given implemetations
func NewTestInterfacePool(impls ...TestInterface) TestInterfacePool {
	if len(impls) == 0 {
		panic(""empty pool"")
	}

	pool := make(chan TestInterface, len(impls))
	for _, i := range impls {
		pool <- i
	}

	return TestInterfacePool{pool: pool}
}

// Channels implements TestInterface
func (_d TestInterfacePool) Channels(chA chan bool, chB chan<- bool, chanC <-chan bool) {
	_impl := <-_d.pool
	defer func() {
		_d.pool <- _impl
	}()
	_impl.Channels(chA, chB, chanC)
	return
}

// ContextNoError implements TestInterface
func (_d TestInterfacePool) ContextNoError(ctx context.Context, a1 string, a2 string) {
	_impl := <-_d.pool
	defer func() {
		_d.pool <- _impl
	}()
	_impl.ContextNoError(ctx, a1, a2)
	return
}

// F implements TestInterface
func (_d TestInterfacePool) F(ctx context.Context, a1 string, a2 ...string) (result1 string, result2 string, err error) {
	_impl := <-_d.pool
	defer func() {
		_d.pool <- _impl
	}()
	return _impl.F(ctx, a1, a2...)
}

// NoError implements TestInterface
func (_d TestInterfacePool) NoError(s1 string) (s2 string) {
	_impl := <-_d.pool
	defer func() {
		_d.pool <- _impl
	}()
	return _impl.NoError(s1)
}

// NoParamsOrResults implements TestInterface
func (_d TestInterfacePool) NoParamsOrResults() {
	_impl := <-_d.pool
	defer func() {
		_d.pool <- _impl
	}()
	_impl.NoParamsOrResults()
	return
}
".
Example golden_syncpool_ok : agrees "TestInterface" text_syncpool [] [empty_results] golden_syncpool = true.
Proof. vm_compute. reflexivity. Qed.

(** templates_tests/interface_with_timeout.go, from line 13 *)
Definition golden_timeout : string :=
"
// TestInterfaceWithTimeout implements TestInterface interface instrumented with timeouts
type TestInterfaceWithTimeout struct {
	TestInterface
	config TestInterfaceWithTimeoutConfig
}

type TestInterfaceWithTimeoutConfig struct {
	ContextNoErrorTimeout time.Duration

	FTimeout time.Duration
}

// NewTestInterfaceWithTimeout returns TestInterfaceWithTimeout
func NewTestInterfaceWithTimeout(base TestInterface, config TestInterfaceWithTimeoutConfig) TestInterfaceWithTimeout {
	return TestInterfaceWithTimeout{
		TestInterface: base,
		config:        config,
	}
}

// ContextNoError implements TestInterface
func (_d TestInterfaceWithTimeout) ContextNoError(ctx context.Context, a1 string, a2 string) {
	var cancelFunc func()
	if _d.config.ContextNoErrorTimeout > 0 {
		ctx, cancelFunc = context.WithTimeout(ctx, _d.config.ContextNoErrorTimeout)
		defer cancelFunc()
	}
	_d.TestInterface.ContextNoError(ctx, a1, a2)
	return
}

// F implements TestInterface
func (_d TestInterfaceWithTimeout) F(ctx context.Context, a1 string, a2 ...string) (result1 string, result2 string, err error) {
	var cancelFunc func()
	if _d.config.FTimeout > 0 {
		ctx, cancelFunc = context.WithTimeout(ctx, _d.config.FTimeout)
		defer cancelFunc()
	}
	return _d.TestInterface.F(ctx, a1, a2...)
}
".
Example golden_timeout_ok : agrees "TestInterface" text_timeout [] [empty_results] golden_timeout = true.
Proof. vm_compute. reflexivity. Qed.

(** templates_tests/interface_with_twirp_error.go, from line 15 *)
Definition golden_twirp_error : string :=
"
// InterfaceWithTwirpErrorWithTwirpError implements InterfaceWithTwirpError interface instrumented such that the request data is injected into twirp.Error as metadata
type InterfaceWithTwirpErrorWithTwirpError struct {
	InterfaceWithTwirpError
}

// NewInterfaceWithTwirpErrorWithTwirpError returns InterfaceWithTwirpErrorWithTwirpError
func NewInterfaceWithTwirpErrorWithTwirpError(base InterfaceWithTwirpError) InterfaceWithTwirpErrorWithTwirpError {
	return InterfaceWithTwirpErrorWithTwirpError{
		InterfaceWithTwirpError: base,
	}
}

// Method implements InterfaceWithTwirpError
func (_d InterfaceWithTwirpErrorWithTwirpError) Method(ctx context.Context, r *MethodRequest) (mp1 *MethodResponse, err error) {

	defer injectRequestDataToError(r, &err)

	return _d.InterfaceWithTwirpError.Method(ctx, r)
}

func injectRequestDataToError(req interface{}, perr *error) {
	err := *perr
	if err != nil {
		twerr, ok := err.(twirp.Error)
		if !ok {
			twerr = twirp.InternalErrorWith(err)
		}

		jsonReq, _ := json.Marshal(req)
		*perr = twerr.WithMeta(""request"", string(jsonReq))
	}
}
".
Example golden_twirp_error_ok : agrees "InterfaceWithTwirpError" text_twirp_error [] [empty_results] golden_twirp_error = true.
Proof. vm_compute. reflexivity. Qed.

(** templates_tests/interface_with_twirp_validation.go, from line 14 *)
Definition golden_twirp_validation : string :=
"
// InterfaceWithValidtableArgWithTwirpValidation implements InterfaceWithValidtableArg interface instrumented with arguments validation
type InterfaceWithValidtableArgWithTwirpValidation struct {
	InterfaceWithValidtableArg
}

// NewInterfaceWithValidtableArgWithTwirpValidation returns InterfaceWithValidtableArgWithTwirpValidation
func NewInterfaceWithValidtableArgWithTwirpValidation(base InterfaceWithValidtableArg) InterfaceWithValidtableArgWithTwirpValidation {
	return InterfaceWithValidtableArgWithTwirpValidation{
		InterfaceWithValidtableArg: base,
	}
}

// Method implements InterfaceWithValidtableArg
func (_d InterfaceWithValidtableArgWithTwirpValidation) Method(ctx context.Context, r *ValidatableRequest) (err error) {

	if _v, _ok := interface{}(r).(interface{ Validate() error }); _ok {
		if err = _v.Validate(); err != nil {
			err = twirp.NewError(twirp.InvalidArgument, err.Error())
			return
		}
	}

	return _d.InterfaceWithValidtableArg.Method(ctx, r)
}
".
Example golden_twirp_validation_ok : agrees "InterfaceWithValidtableArg" text_twirp_validate [] [empty_results] golden_twirp_validation = true.
Proof. vm_compute. reflexivity. Qed.

(** templates_tests/interface_with_validation.go, from line 10 *)
Definition golden_validation : string :=
"
// InterfaceWithValidtableArgWithValidation implements InterfaceWithValidtableArg interface instrumented with arguments validation
type InterfaceWithValidtableArgWithValidation struct {
	InterfaceWithValidtableArg
}

// NewInterfaceWithValidtableArgWithValidation returns InterfaceWithValidtableArgWithValidation
func NewInterfaceWithValidtableArgWithValidation(base InterfaceWithValidtableArg) InterfaceWithValidtableArgWithValidation {
	return InterfaceWithValidtableArgWithValidation{
		InterfaceWithValidtableArg: base,
	}
}

// Method implements InterfaceWithValidtableArg
func (_d InterfaceWithValidtableArgWithValidation) Method(ctx context.Context, r *ValidatableRequest) (err error) {

	if _v, _ok := interface{}(r).(interface{ Validate() error }); _ok {
		if err = _v.Validate(); err != nil {
			return
		}
	}

	return _d.InterfaceWithValidtableArg.Method(ctx, r)
}
".
Example golden_validation_ok : agrees "InterfaceWithValidtableArg" text_validate [] [empty_results] golden_validation = true.
Proof. vm_compute. reflexivity. Qed.
