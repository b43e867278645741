(** C69: what the constructors of generated decorators build. *)
From Coq Require Import Floats.SpecFloat.
From Verif Require Import Render.
From Verif Require Export ConstructProofs.
Open Scope nat_scope.

(** ** Specification *)

(** memory grows, nothing else happens *)
Definition keeps (st st' : ust) : Prop :=
  (exists new, cells st' = cells st ++ new) /\ chans st' = chans st /\ tickers st' = tickers st /\
  spawned st' = spawned st /\ outs st' = outs st.
(** the call returns the struct [dec] with these fields *)
Definition returns_struct (r : ures (list uval)) (st : ust) (dec : string) (fs : list (string * uval)) : Prop :=
  exists st', r = ROk [URec dec fs] st' /\ keeps st st'.
(** the call returns values, the first of them a new pointer to such a struct *)
Definition returns_pointer (r : ures (list uval)) (st : ust) (dec : string) (fs : list (string * uval)) (others : list uval) : Prop :=
  exists a st', r = ROk (UPtr a :: others) st' /\ length (cells st) <= a /\ nth_error (cells st') a = Some (URec dec fs) /\ keeps st st'.

Section BUILD.
Variable machine : spec_float -> Z.
Variables L k : nat.                 (* 20 + k: any bound on the nesting from 20 on *)
Variables (dec name typ : string) (st : ust) (base : uval).
Notation build fields f args := (call_func machine (struct_table dec fields) L (20 + k) f args st).

(** an embedded interface is a field called by its name *)
Theorem C69_retry : forall times interval,
  unqualified typ = name -> ~ In name ["_retryCount"; "_retryInterval"] ->
  returns_struct (build (retry_fields typ) (plain_new dec (retry_ctor name typ)) [base; times; interval]) st dec
    [(name, base); ("_retryCount", times); ("_retryInterval", interval)].
Proof. intros times interval Hu HI. others HI. eexists. split; [table; crunch; reflexivity | kept]. Qed.

Theorem C69_timeout : forall config,
  unqualified typ = name -> name <> "config" ->
  returns_struct (build (timeout_fields dec typ) (plain_new dec (timeout_ctor dec name typ)) [base; config]) st dec
    [(name, base); ("config", config)].
Proof.
  intros config Hu HI. assert (HI' : ~ In name ["config"]) by (cbn; intuition congruence). others HI'.
  eexists. split; [table; crunch; reflexivity | kept].
Qed.

(** validate, twirp_validate, grpc_validate, twirp_error *)
Theorem C69_validate :
  unqualified typ = name ->
  returns_struct (build (validate_fields typ) (plain_new dec (base_ctor name typ)) [base]) st dec [(name, base)].
Proof. intros Hu. eexists. split; [table; crunch; reflexivity | kept]. Qed.

Theorem C69_logrus : forall entry,
  returns_struct (build (logrus_fields typ) (plain_new dec (logrus_ctor typ)) [base; entry]) st dec [("_log", entry); ("_base", base)].
Proof. intros entry. eexists. split; [table; crunch; reflexivity | kept]. Qed.

Theorem C69_prometheus : forall instance,
  returns_struct (build (prometheus_fields typ) (plain_new dec (prometheus_ctor typ)) [base; instance]) st dec
    [("base", base); ("instanceName", instance)].
Proof. intros entry. eexists. split; [table; crunch; reflexivity | kept]. Qed.

(** log: two loggers, made with one call of log.New for each writer *)
Theorem C69_log : forall stdout stderr,
  let call w := (USel (UPkg "log") "New", [w; UStr ""; USel (UPkg "log") "LstdFlags"]) in
  exists st', (build (log_fields typ) (log_new dec typ) [base; stdout; stderr]) =
    ROk [URec dec [("_stdlog", URes (length (outs st))); ("_errlog", URes (S (length (outs st)))); ("_base", base)]] st' /\
    outs st' = outs st ++ [call stdout; call stderr] /\
    (exists new, cells st' = cells st ++ new) /\ chans st' = chans st /\ tickers st' = tickers st /\ spawned st' = spawned st.
Proof.
  intros stdout stderr. cbv zeta. eexists. split.
  - table; crunch. rewrite app_length, Nat.add_1_r. reflexivity.
  - cbn. rewrite <- !app_assoc. repeat split. now eexists.
Qed.

(** opencensus, opentelemetry, opentracing: the first of the functions given
    decorates spans, if it is there and not nil *)
Definition chosen_decorator (ds : list uval) : uval := match ds with [] => UNil | d :: _ => d end.
Theorem C69_tracing : forall ty instance ds,
  In ty [t_span_decorator [TP "*"] "trace" "Span"; t_span_decorator [] "trace" "Span"; t_span_decorator [] "opentracing" "Span"] ->
  unqualified typ = name -> ~ In name ["_instance"; "_spanDecorator"] ->
  returns_struct (build (tracing_fields ty typ) (tracing_new ty dec name typ) ([base; instance] ++ ds)) st dec
    [(name, base); ("_instance", instance); ("_spanDecorator", chosen_decorator ds)].
Proof.
  intros ty instance ds Hty Hu HI. others HI.
  assert (Hd : forall d, exists b, binop "!=" d UNil = Some (UBool b) /\ (b = false -> d = UNil)) by (intros []; eexists; (split; [reflexivity | congruence])).
  assert (Htable : get dec (struct_table dec (tracing_fields ty typ)) = Some [(name, UNil); ("_instance", UStr ""); ("_spanDecorator", UNil)]).
  { destruct Hty as [<-|[<-|[<-|[]]]]; unfold struct_table; cbn -[String.eqb unqualified]; rewrite String.eqb_refl, sapp_nil_r, Hu; reflexivity. }
  revert Htable. generalize (struct_table dec (tracing_fields ty typ)). intros T Htable. clear Hty.
  unfold call_func. destruct ds as [|d ds].
  - eexists. split; [crunch; reflexivity | kept].
  - destruct (Hd d) as [[] [Hb Hf]]; [|specialize (Hf eq_refl); subst d]; (eexists; split; [crunch; reflexivity | kept]).
Qed.

(** The circuit breaker starts closed: no errors counted, _closesAt nil, the
    lock free. *)
Theorem C69_circuitbreaker : forall max interval ignored,
  unqualified typ = name ->
  ~ In name ["_lock"; "_maxConsecutiveErrors"; "_consecutiveErrors"; "_openInterval"; "_closesAt"; "_ignoreErrors"] ->
  returns_pointer (build (circuitbreaker_fields typ) (circuitbreaker_new dec name typ) ([base; max; interval] ++ ignored)) st dec
    [(name, base); ("_lock", UZero "sync.RWMutex"); ("_maxConsecutiveErrors", max); ("_consecutiveErrors", UNum 0);
     ("_openInterval", interval); ("_closesAt", UNil); ("_ignoreErrors", UList ignored)] [].
Proof.
  intros max interval ignored Hu HI. others HI. eexists _, _. split; [table; crunch; reflexivity|].
  split; [|split; [|kept]].
  - rewrite !app_length. lia.
  - cbn. apply nth_last.
Qed.

Theorem C69_fallback : forall interval impls,
  returns_struct (build (fallback_fields typ) (fallback_new dec typ) (interval :: impls)) st dec
    [("implementations", UList impls); ("interval", interval)].
Proof. intros interval impls. eexists. split; [table; crunch; reflexivity | kept]. Qed.

(** The round robin pool: an error for an empty pool, otherwise the pool given,
    its length modulo 2^32, and a counter of 0. *)
Theorem C69_robinpool_empty :
  exists st', (build (robinpool_fields typ) (robinpool_new dec typ) []) = ROk [UNil; URes (length (outs st))] st' /\
    outs st' = outs st ++ [(USel (UPkg "errors") "New", [UStr "empty pool"])] /\ spawned st' = spawned st.
Proof. eexists. split; [table; crunch; reflexivity | split; reflexivity]. Qed.
Theorem C69_robinpool : forall pool, pool <> [] ->
  returns_pointer (build (robinpool_fields typ) (robinpool_new dec typ) pool) st dec
    [("pool", UList pool); ("poolSize", UNum (Z.of_nat (length pool) mod 4294967296)); ("counter", UNum 0)] [UNil].
Proof.
  intros [|x pool] Hp; [congruence|]. eexists _, _. split; [table; crunch; reflexivity|].
  split; [|split; [|kept]].
  - rewrite !app_length. lia.
  - cbn -[Z.of_nat]. apply nth_last.
Qed.
Theorem C69_robinpool_must_empty : 
  exists st', (build (robinpool_fields typ) (robinpool_must_new dec typ) []) = RPanic (UStr "empty pool") st' /\ keeps st st'.
Proof. eexists. split; [table; crunch; reflexivity | kept]. Qed.
Theorem C69_robinpool_must : forall pool, pool <> [] ->
  returns_pointer (build (robinpool_fields typ) (robinpool_must_new dec typ) pool) st dec
    [("pool", UList pool); ("poolSize", UNum (Z.of_nat (length pool) mod 4294967296)); ("counter", UNum 0)] [].
Proof.
  intros [|x pool] Hp; [congruence|]. eexists _, _. split; [table; crunch; reflexivity|].
  split; [|split; [|kept]].
  - rewrite !app_length. lia.
  - cbn -[Z.of_nat]. apply nth_last.
Qed.
End BUILD.
