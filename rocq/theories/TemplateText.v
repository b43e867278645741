(** The stock templates of /repo/templates and the header template of
    /repo/cmd_generate.go:303-316, byte for byte.  This file is generated from
    those files by a script; the only transformation is Coq's doubling of the
    quote character. *)
From Verif Require Import GoStr.

(** templates/circuitbreaker, lines 1-73 *)
Definition text_circuitbreaker : string :=
"import (
	""errors""
	""sync""
	""time""
)

{{ $decorator := (or .Vars.DecoratorName (printf ""%sWithCircuitBreaker"" .Interface.Name)) }}

// {{$decorator}} implements {{.Interface.Type}} instrumented with circuit breaker
type {{$decorator}} struct {
  {{.Interface.Type}}

  _lock sync.RWMutex
  _maxConsecutiveErrors int
  _consecutiveErrors int
  _openInterval time.Duration
  _closesAt *time.Time
  _ignoreErrors []error
}

// New{{$decorator}} breakes a circuit after consecutiveErrors of errors and closes the circuit again after openInterval of time.
// If, after openInterval, the first method call results in error we open and close again.
func New{{$decorator}}(base {{.Interface.Type}}, consecutiveErrors int, openInterval time.Duration, ignoreErrors ...error) (*{{$decorator}}) {
  return &{{$decorator}}{
    {{.Interface.Name}}: base, 
    _maxConsecutiveErrors: consecutiveErrors,
    _openInterval: openInterval,
    _ignoreErrors: ignoreErrors,
  }
}

{{range $method := .Interface.Methods}}
  {{- if $method.ReturnsError}}
    // {{$method.Name}} implements {{$.Interface.Type}}
    func (_d *{{$decorator}}) {{$method.Declaration}} {
      _d._lock.RLock()

      if _d._closesAt != nil && _d._closesAt.After(time.Now()) {
        _d._lock.RUnlock()
        err = errors.New(""{{$decorator}}: circuit is open"")
        return
      }
      _d._lock.RUnlock()

      {{$method.ResultsNames}} = _d.{{$.Interface.Name}}.{{$method.Call}}
      _d._lock.Lock()
      defer _d._lock.Unlock()

      if err == nil {
        _d._consecutiveErrors = 0
        _d._closesAt = nil
        return
      }

      for _, _e := range _d._ignoreErrors {
        if errors.Is(err, _e) {
          _d._consecutiveErrors = 0
          _d._closesAt = nil
          return
        }
      }

      _d._consecutiveErrors++

      if _d._consecutiveErrors >= _d._maxConsecutiveErrors {
        closesAt := time.Now().Add(_d._openInterval)
        _d._closesAt = &closesAt
      }

      return 
    }
  {{end}}
{{end}}
".

(** templates/elasticapm, lines 1-83 *)
Definition text_elasticapm : string :=
"import (
	""context""
	""go.elastic.co/apm/v2""
)

{{ $decorator := (or .Vars.DecoratorName (printf ""%sAPMTracing"" .Interface.Name)) }}
{{ $decorator_option := (or .Vars.DecoratorName (printf ""%sAPMTracingOption"" .Interface.Name)) }}
{{ $component := (or .Vars.ComponentName (printf ""%s"" (down .Interface.Name))) }}

// {{$decorator}} implements {{.Interface.Type}} interface with all methods wrapped
// with go.elastic.co/apm/v2
type {{$decorator}} struct {
    base         {{.Interface.Type}}
	startSpan    func(ctx context.Context, name, spanType string) (*apm.Span, context.Context)
	endSpan      func(span *apm.Span)
	setLabel 	 func(span *apm.Span, key string, value interface{})
	captureError func(ctx context.Context, err error)
	spanType     string
}

type {{$decorator_option}} func (v *{{$decorator}})

func {{$decorator}}WithUsingSetLabel() {{$decorator_option}} {
	return func(v *{{$decorator}}) {
		v.setLabel = func(span *apm.Span, key string, value interface{}) {
			span.SpanData.Context.SetLabel(key, value)
		}
	}
}

func {{$decorator}}WithSpanType(spanType string) {{$decorator_option}} {
	return func(v *{{$decorator}}) {
		v.spanType = spanType
	}
}

// New{{$decorator}} returns an instance of the {{.Interface.Type}} decorated with go.elastic.co/apm/v2
func New{{$decorator}}(base {{.Interface.Type}}, opts ...{{$decorator}}Option) {{$decorator}} {
    r := {{$decorator}} {
        base: base,
  		startSpan: apm.StartSpan,
  		endSpan: func(span *apm.Span) {
  		    span.End()
  		},
  		setLabel: func(span *apm.Span, key string, value interface{}) {
        },
  		captureError: func(ctx context.Context, err error) {
  			apm.CaptureError(ctx, err).Send()
  		},
  		spanType: ""{{ $component }}"",
    }

    for _, fn := range opts {
        fn(&r)
    }
    return r
}

{{range $method := .Interface.Methods}}
  {{if $method.AcceptsContext}}
    {{ $span_name := (printf ""%s.%s"" $component $method.Name) }}
    // {{$method.Name}} implements {{$.Interface.Type}}
    func (_d {{$decorator}}) {{$method.Declaration}} {
        {{- if $method.AcceptsContext }}
            span, ctx := _d.startSpan(ctx, ""{{ $span_name }}"", _d.spanType)
            defer func() {
                {{- if $method.ReturnsError -}}
                    if err != nil {
                        _d.captureError(ctx, err)
                    }
                {{- end }}
                _d.endSpan(span)
            }()
            {{- range $param := $method.Params -}}
                {{- if not (eq $param.Name ""ctx"") -}}
                    _d.setLabel(span, ""{{ (snake $param.Name) }}"", {{ $param.Name }})
                {{- end}}
            {{ end }}
        {{ end }}
        {{$method.Pass ""_d.base.""}}
    }
  {{end}}
{{end}}
".

(** templates/fallback, lines 1-106 *)
Definition text_fallback : string :=
"import (
	""errors""
	""fmt""
	""strings""
	""time""
)

{{ $decorator := (or .Vars.DecoratorName (printf ""%sWithFallback"" .Interface.Name)) }}

// {{$decorator}} implements {{.Interface.Type}} interface wrapped with Prometheus metrics
type {{$decorator}} struct {
  implementations []{{.Interface.Type}}
  interval time.Duration
}

// New{{$decorator}} takes several implementations of the {{.Interface.Type}} and returns an instance of {{.Interface.Type}}
// which calls all implementations concurrently with given interval and returns first non-error response.
func New{{$decorator}}(interval time.Duration, impls ...{{.Interface.Type}}) {{$decorator}} {
  return {{$decorator}}{implementations: impls, interval: interval}
}

{{range $method := .Interface.Methods}}
  // {{$method.Name}} implements {{$.Interface.Type}}
  func (_d {{$decorator}}) {{$method.Declaration}} {
      type _resultStruct {{$method.ResultsStruct}}
      var _ch = make(chan _resultStruct, 0)
      var _next = make(chan struct{}, len(_d.implementations))
      {{if $method.ReturnsError}}var _errorsList []string{{end}}
      var _ticker = time.NewTicker(_d.interval)
      defer _ticker.Stop()

      {{- if $method.AcceptsContext}}
        ctx, _cancelFunc := context.WithCancel(ctx)
        defer _cancelFunc()
      {{end}}

      go func() {
        for _i :=0; _i < len(_d.implementations); _i++ {
          go func(_impl {{$.Interface.Type}}) {
            {{if $method.HasResults}}{{$method.ResultsNames}} := {{end}}_impl.{{$method.Call}}
            {{- if $method.ReturnsError}}
              if err != nil {
                err = fmt.Errorf(""%T: %v"", _impl, err)
              }
            {{end}}

            {{if $method.AcceptsContext}}
              select {
                case _ch <- _resultStruct{ {{$method.ResultsNames}} }:
                case <-ctx.Done():
              }
            {{else}}
              select {
                case _ch <- _resultStruct{ {{$method.ResultsNames}} }:
                default:
              }
            {{end}}
          }(_d.implementations[_i])

          if _i < len(_d.implementations) - 1 {
            select {
              case <-_next:
              case <-_ticker.C:
            }
          }
        }
      }()

        {{if $method.AcceptsContext}}
          for {
              select {
              case {{if $method.HasResults}}_res := {{end}} <- _ch:
                {{- if $method.ReturnsError}}
                  if _res.err == nil {
                    {{ $method.ReturnStruct ""_res"" }}
                  }
                  _next <- struct{}{}
                  _errorsList = append(_errorsList, _res.err.Error())
                  if len(_errorsList) == len(_d.implementations) {
                    err =  errors.New(strings.Join(_errorsList, "";""))
                    return
                  }
                {{else}}
                  {{ $method.ReturnStruct ""_res"" }}
                {{end -}}
              {{if $method.AcceptsContext}}case <-ctx.Done():
                {{if $method.ReturnsError}}
                  err = fmt.Errorf(""%w: %s"", ctx.Err(), strings.Join(_errorsList, "";""))
                {{end}}
                return
              {{end -}}
              }
          }
        {{else}}
          {{if $method.HasResults}}_res := {{end}} <- _ch
          {{- if $method.ReturnsError}}
            if _res.err == nil {
              {{ $method.ReturnStruct ""_res"" }}
            }
            _errorsList = append(_errorsList, _res.err.Error())
          {{else}}
            {{ $method.ReturnStruct ""_res"" }}
          {{end -}}
        {{end}}
  }
{{end}}
".

(** templates/grpc_validate, lines 1-37 *)
Definition text_grpc_validate : string :=
"import (
  grpc_codes ""google.golang.org/grpc/codes""
  grpc_status ""google.golang.org/grpc/status""
)

{{ $decorator := (or .Vars.DecoratorName (printf ""%sWithGRPCValidation"" .Interface.Name)) }}

// {{$decorator}} implements {{.Interface.Type}} interface instrumented with GRPC request validation
type {{$decorator}} struct {
  {{.Interface.Type}}
}

// New{{$decorator}} returns {{$decorator}}
func New{{$decorator}} (base {{.Interface.Type}}) {{$decorator}} {
  return {{$decorator}} {
    {{.Interface.Name}}: base,
  }
}

{{range $method := .Interface.Methods}}
  {{- if $method.ReturnsError}}
  // {{$method.Name}} implements {{$.Interface.Type}}
  func (_d {{$decorator}}) {{$method.Declaration}} {
    {{- range $param := $method.Params}}
      {{- if not ( and $method.AcceptsContext (eq $param.Name ""ctx"")) -}}
        if _v, _ok := interface{}({{$param.Name}}).(interface{ Validate() error}); _ok {
          if err = _v.Validate(); err != nil {
            err = grpc_status.Error(grpc_codes.InvalidArgument, err.Error())
            return
          }
        }
      {{end}}
    {{end}}
    {{$method.Pass (printf ""_d.%s."" $.Interface.Name) }}
  }
  {{end}}
{{end}}
".

(** templates/log, lines 1-50 *)
Definition text_log : string :=
"import (
  ""io""
  ""log""
)

{{ $decorator := (or .Vars.DecoratorName (printf ""%sWithLog"" .Interface.Name)) }}

// {{$decorator}} implements {{.Interface.Type}} that is instrumented with logging
type {{$decorator}} struct {
  _stdlog, _errlog *log.Logger
  _base {{.Interface.Type}}
}

// New{{$decorator}} instruments an implementation of the {{.Interface.Type}} with simple logging
func New{{$decorator}}(base {{.Interface.Type}}, stdout, stderr io.Writer) {{$decorator}} {
  return {{$decorator}}{
    _base: base, 
    _stdlog: log.New(stdout, """", log.LstdFlags),
    _errlog: log.New(stderr, """", log.LstdFlags),
  }
}

{{range $method := .Interface.Methods}}
  // {{$method.Name}} implements {{$.Interface.Type}}
  func (_d {{$decorator}}) {{$method.Declaration}} {
      {{- if $method.HasParams}}
        _params := []interface{}{""{{$decorator}}: calling {{$method.Name}} with params:"", {{$method.ParamsNames}} }
        _d._stdlog.Println(_params...)
      {{else}}
        _d._stdlog.Println(""{{$decorator}}: calling {{$method.Name}}"")
      {{end -}}
      defer func() {
        {{- if $method.HasResults}}
          _results := []interface{}{""{{$decorator}}: {{$method.Name}} returned results:"", {{$method.ResultsNames}} }
          {{- if $method.ReturnsError}}
            if err != nil {
              _d._errlog.Println(_results...)
            } else {
              _d._stdlog.Println(_results...)
            }
          {{else}}   
            _d._stdlog.Println(_results...)
          {{end -}}
        {{else}}
          _d._stdlog.Println(""{{$decorator}}: {{$method.Name}} finished"")
        {{end -}}
      }()
      {{ $method.Pass ""_d._base."" }}
  }
{{end}}
".

(** templates/logrus, lines 1-47 *)
Definition text_logrus : string :=
"import (
  ""io""
  ""github.com/sirupsen/logrus""
)

{{ $decorator := (or .Vars.DecoratorName (printf ""%sWithLogrus"" .Interface.Name)) }}

// {{$decorator}} implements {{.Interface.Type}} that is instrumented with logrus logger
type {{$decorator}} struct {
  _log *logrus.Entry
  _base {{.Interface.Type}}
}

// New{{$decorator}} instruments an implementation of the {{.Interface.Type}} with simple logging
func New{{$decorator}}(base {{.Interface.Type}}, log *logrus.Entry) {{$decorator}} {
  return {{$decorator}}{
    _base: base,
    _log: log,
  }
}

{{range $method := .Interface.Methods}}
  // {{$method.Name}} implements {{$.Interface.Type}}
  func (_d {{$decorator}}) {{$method.Declaration}} {
      {{- if $method.HasParams}}
        _d._log.WithFields(logrus.Fields({{$method.ParamsMap}})).Debug(""{{$decorator}}: calling {{$method.Name}}"")
      {{else}}
        _d._log.Debug(""{{$decorator}}: calling {{$method.Name}}"")
      {{end -}}
      defer func() {
        {{- if $method.HasResults}}
          {{- if $method.ReturnsError}}
            if err != nil {
              _d._log.WithFields(logrus.Fields({{$method.ResultsMap}})).Error(""{{$decorator}}: method {{$method.Name}} returned an error"" )
            } else {
              _d._log.WithFields(logrus.Fields({{$method.ResultsMap}})).Debug(""{{$decorator}}: method {{$method.Name}} finished"")
            }
          {{else}}
            _d._log.WithFields(logrus.Fields({{$method.ResultsMap}})).Debug(""{{$decorator}}: method {{$method.Name}} finished"")
          {{end -}}
        {{else}}
          _d._log.Debug(""{{$decorator}}: {{$method.Name}} finished"")
        {{end -}}
      }()
      {{ $method.Pass ""_d._base."" }}
  }
{{end}}
".

(** templates/opencensus, lines 1-49 *)
Definition text_opencensus : string :=
"import (
	""go.opencensus.io/trace""
)

{{ $decorator := (or .Vars.DecoratorName (printf ""%sWithTracing"" .Interface.Name)) }}

// {{$decorator}} implements {{.Interface.Type}} interface instrumented with opentracing spans
type {{$decorator}} struct {
  {{.Interface.Type}}
  _instance string
  _spanDecorator func(span *trace.Span, params, results map[string]interface{})
}

// New{{$decorator}} returns {{$decorator}}
func New{{$decorator}} (base {{.Interface.Type}}, instance string, spanDecorator ...func(span *trace.Span, params, results map[string]interface{})) {{$decorator}} {
  d := {{$decorator}} {
    {{.Interface.Name}}: base,
    _instance: instance,
  }

  if len(spanDecorator) > 0 && spanDecorator[0] != nil {
    d._spanDecorator = spanDecorator[0]
  }

  return d
}

{{range $method := .Interface.Methods}}
  {{if $method.AcceptsContext}}
    // {{$method.Name}} implements {{$.Interface.Type}}
    func (_d {{$decorator}}) {{$method.Declaration}} {
      ctx, _span := trace.StartSpan(ctx, _d._instance + "".{{$.Interface.Type}}.{{$method.Name}}"")
      defer func() { 
        if _d._spanDecorator != nil {
          _d._spanDecorator(_span, {{$method.ParamsMap}}, {{$method.ResultsMap}})
        }{{- if $method.ReturnsError}} else if err != nil {
          _span.AddAttributes(
            trace.BoolAttribute(""error"", true),
            trace.StringAttribute(""event"", ""error""),
            trace.StringAttribute(""message"", err.Error()),
          )
        }
        {{end}}
        _span.End()
      }()
      {{$method.Pass (printf ""_d.%s."" $.Interface.Name) }}
    }
  {{end}}
{{end}}
".

(** templates/opentelemetry, lines 1-56 *)
Definition text_opentelemetry : string :=
"import (
    ""context""

    _codes ""go.opentelemetry.io/otel/codes""
    ""go.opentelemetry.io/otel""
    ""go.opentelemetry.io/otel/attribute""
    ""go.opentelemetry.io/otel/trace""
)

{{ $decorator := (or .Vars.DecoratorName (printf ""%sWithTracing"" .Interface.Name)) }}
{{ $spanNameType := (or .Vars.SpanNamePrefix .Interface.Name) }}

// {{$decorator}} implements {{.Interface.Name}} interface instrumented with open telemetry spans
type {{$decorator}} struct {
  {{.Interface.Type}}
  _instance string
  _spanDecorator func(span trace.Span, params, results map[string]interface{})
}

// New{{$decorator}} returns {{$decorator}}
func New{{$decorator}} (base {{.Interface.Type}}, instance string, spanDecorator ...func(span trace.Span, params, results map[string]interface{})) {{$decorator}} {
  d := {{$decorator}} {
    {{.Interface.Name}}: base,
    _instance: instance,
  }

  if len(spanDecorator) > 0 && spanDecorator[0] != nil {
    d._spanDecorator = spanDecorator[0]
  }

  return d
}

{{range $method := .Interface.Methods}}
  {{if $method.AcceptsContext}}
    // {{$method.Name}} implements {{$.Interface.Name}}
func (_d {{$decorator}}) {{$method.Declaration}} {
  ctx, _span := otel.Tracer(_d._instance).Start(ctx, ""{{$spanNameType}}.{{$method.Name}}"")
  defer func() {
    if _d._spanDecorator != nil {
      _d._spanDecorator(_span, {{$method.ParamsMap}}, {{$method.ResultsMap}})
    }{{- if $method.ReturnsError}} else if err != nil {
      _span.RecordError(err)
      _span.SetStatus(_codes.Error, err.Error())
      _span.SetAttributes(
        attribute.String(""event"", ""error""),
        attribute.String(""message"", err.Error()),
      )
    }
    {{end}}
    _span.End()
  }()
  {{$method.Pass (printf ""_d.%s."" $.Interface.Name) }}
}
  {{end}}
{{end}}
".

(** templates/opentracing, lines 1-51 *)
Definition text_opentracing : string :=
"import (
	opentracing ""github.com/opentracing/opentracing-go""
	_ext ""github.com/opentracing/opentracing-go/ext""
	_log ""github.com/opentracing/opentracing-go/log""
)

{{ $decorator := (or .Vars.DecoratorName (printf ""%sWithTracing"" .Interface.Name)) }}

// {{$decorator}} implements {{.Interface.Type}} interface instrumented with opentracing spans
type {{$decorator}} struct {
  {{.Interface.Type}}
  _instance string
  _spanDecorator func(span opentracing.Span, params, results map[string]interface{})
}

// New{{$decorator}} returns {{$decorator}}
func New{{$decorator}} (base {{.Interface.Type}}, instance string, spanDecorator ...func(span opentracing.Span, params, results map[string]interface{})) {{$decorator}} {
  d := {{$decorator}} {
    {{.Interface.Name}}: base,
    _instance: instance,
  }

  if len(spanDecorator) > 0 && spanDecorator[0] != nil {
    d._spanDecorator = spanDecorator[0]
  }

  return d
}

{{range $method := .Interface.Methods}}
  {{if $method.AcceptsContext}}
    // {{$method.Name}} implements {{$.Interface.Type}}
    func (_d {{$decorator}}) {{$method.Declaration}} {
      _span, ctx := opentracing.StartSpanFromContext(ctx, _d._instance + "".{{$.Interface.Type}}.{{$method.Name}}"")
      defer func() { 
        if _d._spanDecorator != nil {
          _d._spanDecorator(_span, {{$method.ParamsMap}}, {{$method.ResultsMap}})
        }{{- if $method.ReturnsError}} else if err != nil {
          _ext.Error.Set(_span, true)
          _span.LogFields(
            _log.String(""event"", ""error""),
            _log.String(""message"", err.Error()),
          )
        }
        {{end}}
        _span.Finish()
      }()
      {{$method.Pass (printf ""_d.%s."" $.Interface.Name) }}
    }
  {{end}}
{{end}}
".

(** templates/prometheus, lines 1-50 *)
Definition text_prometheus : string :=
"import (
  ""time""

  ""github.com/prometheus/client_golang/prometheus""
  ""github.com/prometheus/client_golang/prometheus/promauto""
)

{{ $decorator := (or .Vars.DecoratorName (printf ""%sWithPrometheus"" .Interface.Name)) }}
{{ $metric_name := (or .Vars.MetricName (printf ""%s_duration_seconds"" (down .Interface.Name))) }}

// {{$decorator}} implements {{.Interface.Type}} interface with all methods wrapped
// with Prometheus metrics
type {{$decorator}} struct {
  base {{.Interface.Type}}
  instanceName string
}

var {{down .Interface.Name}}DurationSummaryVec = promauto.NewSummaryVec(
  prometheus.SummaryOpts{
    Name: ""{{$metric_name}}"",
    Help: ""{{ down .Interface.Name }} runtime duration and result"",
    MaxAge: time.Minute,
    Objectives: map[float64]float64{0.5: 0.05, 0.9: 0.01, 0.99: 0.001},
  },
  []string{""instance_name"", ""method"", ""result""})

// New{{.Interface.Name}}WithPrometheus returns an instance of the {{.Interface.Type}} decorated with prometheus summary metric
func New{{$decorator}}(base {{.Interface.Type}}, instanceName string) {{$decorator}} {
  return {{$decorator}} {
    base: base,
    instanceName: instanceName,
  }
}

{{range $method := .Interface.Methods}}
  // {{$method.Name}} implements {{$.Interface.Type}}
  func (_d {{$decorator}}) {{$method.Declaration}} {
      _since := time.Now()
      defer func() {
        result := ""ok""
        {{- if $method.ReturnsError}}
          if err != nil {
            result = ""error""
          }
        {{end}}
        {{down $.Interface.Name}}DurationSummaryVec.WithLabelValues(_d.instanceName, ""{{$method.Name}}"", result).Observe(time.Since(_since).Seconds())
      }()
    {{$method.Pass ""_d.base.""}}
  }
{{end}}
".

(** templates/ratelimit, lines 1-51 *)
Definition text_ratelimit : string :=
"{{ $decorator := (or .Vars.DecoratorName (printf ""%sWithRateLimit"" .Interface.Name)) }}

import (
  ""time""
)

// {{$decorator}} implements {{.Interface.Type}}
type {{$decorator}} struct {
  _base {{.Interface.Type}}
  _ticks chan time.Time
}

// New{{$decorator}} instruments an implementation of the {{.Interface.Type}} with rate limiting
func New{{$decorator}}(base {{.Interface.Type}}, burst int, rps float64) *{{$decorator}} {
  d := &{{$decorator}}{
    _base: base,
    _ticks: make(chan time.Time, burst),
  }

  now := time.Now()
  for i := 0; i < burst; i++ {
    d._ticks <- now 
  }

  delay := time.Duration(float64(time.Second) / rps)

  go func() {
    for t := range time.Tick(delay) {
      d._ticks <- t
    }
  }()

  return d
}

{{range $method := .Interface.Methods}}
  // {{$method.Name}} implements {{$.Interface.Type}}
  func (_d *{{$decorator}}) {{$method.Declaration}} {
    {{- if (and $method.AcceptsContext $method.ReturnsError)}}
      select {
      case <-ctx.Done():
        err = ctx.Err()
        return
      case <-_d._ticks:
      }
    {{else}}
      <-_d._ticks
    {{end}}
    {{ $method.Pass ""_d._base."" }}
  }
{{end}}
".

(** templates/retry, lines 1-48 *)
Definition text_retry : string :=
"import(
  ""time""
)

{{ $decorator := (or .Vars.DecoratorName (printf ""%sWithRetry"" .Interface.Name)) }}

// {{$decorator}} implements {{.Interface.Type}} interface instrumented with retries
type {{$decorator}} struct {
  {{.Interface.Type}}
  _retryCount int
  _retryInterval time.Duration
}

// New{{$decorator}} returns {{$decorator}}
func New{{$decorator}} (base {{.Interface.Type}}, retryCount int, retryInterval time.Duration) {{$decorator}} {
  return {{$decorator}} {
    {{.Interface.Name}}: base,
    _retryCount: retryCount,
    _retryInterval: retryInterval,
  }
}

{{range $method := .Interface.Methods}}
  {{if $method.ReturnsError}}
    // {{$method.Name}} implements {{$.Interface.Type}}
    func (_d {{$decorator}}) {{$method.Declaration}} {
      {{$method.ResultsNames}} = _d.{{$.Interface.Name}}.{{$method.Call}}
      if err == nil || _d._retryCount < 1 {
        return
      }
      _ticker:= time.NewTicker(_d._retryInterval)
      defer _ticker.Stop()
      for _i := 0; _i < _d._retryCount && err != nil; _i++ {
        {{- if $method.AcceptsContext}}
          select {
          case <-ctx.Done():
            return
          case <-_ticker.C:
          }
        {{else}}
          <-_ticker.C
        {{end -}}
        {{$method.ResultsNames}} = _d.{{$.Interface.Name}}.{{$method.Call}}
      }
      return
    }
  {{end}}
{{end}}
".

(** templates/robinpool, lines 1-41 *)
Definition text_robinpool : string :=
"import (
	""sync/atomic""
	""errors""
)

{{ $decorator := (or .Vars.DecoratorName (printf ""%sRoundRobinPool"" .Interface.Name)) }}

// {{$decorator}} implements {{.Interface.Type}} that uses pool of {{.Interface.Type}}
type {{$decorator}} struct {
  pool []{{.Interface.Type}}
  poolSize uint32
  counter uint32
}

// New{{$decorator}} takes several implementations of the {{.Interface.Type}} and returns an instance of the {{.Interface.Type}} 
// that picks one of the given implementations using Round-robin algorithm and delegates method call to it
func New{{$decorator}}(pool ...{{.Interface.Type}}) (*{{$decorator}}, error) {
  if len(pool) == 0 {
    return nil, errors.New(""empty pool"")
  }
  
  return &{{$decorator}}{pool: pool, poolSize: uint32(len(pool))}, nil
}

// MustNew{{$decorator}} takes several implementations of the {{.Interface.Type}} and returns an instance of the {{.Interface.Type}} 
// that picks one of the given implementations using Round-robin algorithm and delegates method call to it.
func MustNew{{$decorator}}(pool ...{{.Interface.Type}}) *{{$decorator}} {
  if len(pool) == 0 {
    panic(""empty pool"")
  }
  
  return &{{$decorator}}{pool: pool, poolSize: uint32(len(pool))}
}

{{range $method := .Interface.Methods}}
  // {{$method.Name}} implements {{$.Interface.Type}}
  func (_d *{{$decorator}}) {{$method.Declaration}} {
    _counter := atomic.AddUint32(&_d.counter, 1)
    {{ $method.Pass ""_d.pool[_counter % _d.poolSize]."" }}
  }
{{end}}
".

(** templates/syncpool, lines 1-32 *)
Definition text_syncpool : string :=
"{{ $decorator := (or .Vars.DecoratorName (printf ""%sPool"" .Interface.Name)) }}

// {{$decorator}} implements {{.Interface.Type}} that uses pool of {{.Interface.Type}}
type {{$decorator}} struct {
  pool chan {{.Interface.Type}}
}

// New{{$decorator}} takes several implementations of the {{.Interface.Type}} and returns an instance of the {{.Interface.Type}} 
// that uses sync.Pool of given implemetations
func New{{$decorator}}(impls ...{{.Interface.Type}}) {{$decorator}} {
  if len(impls) == 0 {
    panic(""empty pool"")
  }

  pool := make(chan {{.Interface.Type}}, len(impls))
  for _, i := range impls {
    pool <- i
  }
  
  return {{$decorator}}{pool: pool}
}

{{range $method := .Interface.Methods}}
  // {{$method.Name}} implements {{$.Interface.Type}}
  func (_d {{$decorator}}) {{$method.Declaration}} {
      _impl := <-_d.pool
      defer func() {
        _d.pool <- _impl
      }()
      {{ $method.Pass ""_impl."" }}
  }
{{end}}
".

(** templates/timeout, lines 1-40 *)
Definition text_timeout : string :=
"import (
  ""context""
  ""time""
)

{{ $decorator := (or .Vars.DecoratorName (printf ""%sWithTimeout"" .Interface.Name)) }}

// {{$decorator}} implements {{.Interface.Type}} interface instrumented with timeouts
type {{$decorator}} struct {
  {{.Interface.Type}}
  config {{$decorator}}Config
}

type {{$decorator}}Config struct {
  {{range $method := .Interface.Methods}}
    {{if $method.AcceptsContext}}{{$method.Name}}Timeout time.Duration{{ end }}
  {{end}}
}

// New{{$decorator}} returns {{$decorator}}
func New{{$decorator}} (base {{.Interface.Type}}, config {{$decorator}}Config) {{$decorator}} {
  return {{$decorator}} {
    {{.Interface.Name}}: base,
    config: config,
  }
}

{{range $method := .Interface.Methods}}
  {{if $method.AcceptsContext  }}
    // {{$method.Name}} implements {{$.Interface.Type}}
    func (_d {{$decorator}}) {{$method.Declaration}} {
      var cancelFunc func()
      if _d.config.{{$method.Name}}Timeout > 0 {
        ctx, cancelFunc = context.WithTimeout(ctx, _d.config.{{$method.Name}}Timeout)
        defer cancelFunc()
      }
      {{$method.Pass (printf ""_d.%s."" $.Interface.Name) }}
    }
  {{end}}
{{end}}
".

(** templates/twirp_error, lines 1-44 *)
Definition text_twirp_error : string :=
"import (
  ""github.com/twitchtv/twirp""
)

{{ $decorator := (or .Vars.DecoratorName (printf ""%sWithTwirpError"" .Interface.Name)) }}

// {{$decorator}} implements {{.Interface.Type}} interface instrumented such that the request data is injected into twirp.Error as metadata
type {{$decorator}} struct {
  {{.Interface.Type}}
}

// New{{$decorator}} returns {{$decorator}}
func New{{$decorator}} (base {{.Interface.Type}}) {{$decorator}} {
  return {{$decorator}} {
    {{.Interface.Name}}: base,
  }
}

{{range $method := .Interface.Methods}}
  // {{$method.Name}} implements {{$.Interface.Type}}
  func (_d {{$decorator}}) {{$method.Declaration}} {
    {{- if $method.ReturnsError}}
      {{range $param := $method.Params}}
        {{if not ( and $method.AcceptsContext (eq $param.Name ""ctx"")) }}
          defer injectRequestDataToError({{$param.Name}} ,&err)
        {{end}}
      {{end}}
    {{end}}
    {{$method.Pass (printf ""_d.%s."" $.Interface.Name) }}
  }
{{end}}

func injectRequestDataToError(req interface{}, perr *error) {
	err := *perr
	if err != nil {
		twerr, ok := err.(twirp.Error)
		if !ok {
			twerr = twirp.InternalErrorWith(err)
		}

		jsonReq, _ := json.Marshal(req)
		*perr = twerr.WithMeta(""request"", string(jsonReq))
	}
}
".

(** templates/twirp_validate, lines 1-36 *)
Definition text_twirp_validate : string :=
"import (
  ""github.com/twitchtv/twirp""
)

{{ $decorator := (or .Vars.DecoratorName (printf ""%sWithTwirpValidation"" .Interface.Name)) }}

// {{$decorator}} implements {{.Interface.Type}} interface instrumented with arguments validation
type {{$decorator}} struct {
  {{.Interface.Type}}
}

// New{{$decorator}} returns {{$decorator}}
func New{{$decorator}} (base {{.Interface.Type}}) {{$decorator}} {
  return {{$decorator}} {
    {{.Interface.Name}}: base,
  }
}

{{range $method := .Interface.Methods}}
  // {{$method.Name}} implements {{$.Interface.Type}}
  func (_d {{$decorator}}) {{$method.Declaration}} {
    {{- if $method.ReturnsError}}
      {{range $param := $method.Params}}
        {{if not ( and $method.AcceptsContext (eq $param.Name ""ctx"")) }}
          if _v, _ok := interface{}({{$param.Name}}).(interface{ Validate() error}); _ok {
            if err = _v.Validate(); err != nil {
              err = twirp.NewError(twirp.InvalidArgument, err.Error())
              return
            }
          }
        {{end}}
      {{end}}
    {{end}}
    {{$method.Pass (printf ""_d.%s."" $.Interface.Name) }}
  }
{{end}}
".

(** templates/validate, lines 1-31 *)
Definition text_validate : string :=
"{{ $decorator := (or .Vars.DecoratorName (printf ""%sWithValidation"" .Interface.Name)) }}

// {{$decorator}} implements {{.Interface.Type}} interface instrumented with arguments validation
type {{$decorator}} struct {
  {{.Interface.Type}}
}

// New{{$decorator}} returns {{$decorator}}
func New{{$decorator}} (base {{.Interface.Type}}) {{$decorator}} {
  return {{$decorator}} {
    {{.Interface.Name}}: base,
  }
}

{{range $method := .Interface.Methods}}
  // {{$method.Name}} implements {{$.Interface.Type}}
  func (_d {{$decorator}}) {{$method.Declaration}} {
    {{- if $method.ReturnsError}}
      {{range $param := $method.Params}}
        {{if not ( and $method.AcceptsContext (eq $param.Name ""ctx"")) }}
          if _v, _ok := interface{}({{$param.Name}}).(interface{ Validate() error}); _ok {
            if err = _v.Validate(); err != nil {
              return
            }
          }
        {{end}}
      {{end}}
    {{end}}
    {{$method.Pass (printf ""_d.%s."" $.Interface.Name) }}
  }
{{end}}
".

(** headerTemplate, cmd_generate.go:303-316 *)
Definition text_header : string :=
"// Code generated by gowrap. DO NOT EDIT.
// template: {{.Options.HeaderVars.Template}}
// gowrap: http://github.com/hexdigest/gowrap

package {{.Package.Name}}

{{if (not .Options.HeaderVars.DisableGoGenerate)}}
//{{""go:generate""}} gowrap gen -p {{.SourcePackage.PkgPath}} -i {{.Options.InterfaceName}} -t {{.Options.HeaderVars.Template}} -o {{.Options.HeaderVars.OutputFileName}}{{.Options.HeaderVars.VarsArgs}} -l ""{{.Options.LocalPrefix}}""
{{end}}
import(
{{range $import := .Options.Imports}}{{$import}}
	{{end}}
)
".
