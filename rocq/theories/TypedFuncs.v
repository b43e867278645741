(** The functions that the stock templates declare beside the methods obey the rules of Typing.v. *)
From Verif Require Import Render TypesSpec TypesProofs PropNaming PropImplements PropClashes PropScope ScopingProofs ScopedFiles ScopedBodies.
From Verif Require Import TypedFiles TypedTactics TypedBodies.
Open Scope nat_scope.


Lemma retry_new_typed : forall typ methods name P, let top := [[("time", EPkg "time")]; P; universe] in
  forall dec, base_name typ = name -> In (dec, EType (TyName dec)) P -> ~ In dec ["time"; "base"; "retryCount"; "retryInterval"] ->
  clear_of (map fst P) ["int"] -> ~ In name ["_retryCount"; "_retryInterval"] ->
  code_typed typ methods [(dec, retry_fields typ)] [] top (GFunc (plain_new dec (retry_ctor name typ))).
Proof. intros. subst top. unfold plain_new, retry_ctor. func. Qed.

Lemma timeout_new_typed : forall typ methods name P ms, let top := [[("context", EPkg "context"); ("time", EPkg "time")]; P; universe] in
  forall dec, base_name typ = name -> In (dec, EType (TyName dec)) P -> In ((dec ++ "Config")%string, EType (TyName (dec ++ "Config"))) P ->
  ~ In dec ["context"; "time"; "base"; "config"] -> ~ In (dec ++ "Config")%string ["context"; "time"] -> ~ In name ["config"] ->
  code_typed typ methods [(dec, timeout_fields dec typ); ((dec ++ "Config")%string, config_lines ms)] [] top (GFunc (plain_new dec (timeout_ctor dec name typ))).
Proof. intros. subst top. unfold plain_new, timeout_ctor. func. Qed.
Lemma base_new_typed : forall typ methods name I P, let top := [I; P; universe] in
  forall dec, base_name typ = name -> In (dec, EType (TyName dec)) P -> ~ In dec (map fst I) -> ~ In dec ["base"] ->
  code_typed typ methods [(dec, validate_fields typ)] [] top (GFunc (plain_new dec (base_ctor name typ))).
Proof. intros. subst top. unfold plain_new, base_ctor. func. Qed.
Lemma log_new_typed : forall typ methods P, let top := [[("io", EPkg "io"); ("log", EPkg "log")]; P; universe] in
  forall dec, In (dec, EType (TyName dec)) P -> ~ In dec ["io"; "log"; "base"; "stdout"; "stderr"] ->
  code_typed typ methods [(dec, log_fields typ)] [] top (GFunc (log_new dec typ)).
Proof. intros. subst top. unfold log_new. func. Qed.
Lemma logrus_new_typed : forall typ methods P, let top := [[("io", EPkg "io"); ("logrus", EPkg logrus_path)]; P; universe] in
  forall dec, In (dec, EType (TyName dec)) P -> ~ In dec ["io"; "logrus"; "base"; "log"] ->
  code_typed typ methods [(dec, logrus_fields typ)] [] top (GFunc (plain_new dec (logrus_ctor typ))).
Proof. intros. subst top. unfold plain_new, logrus_ctor. func. Qed.
Lemma prometheus_new_typed : forall typ methods P,
  let top := [[("time", EPkg "time"); ("prometheus", EPkg prometheus_path); ("promauto", EPkg (prometheus_path ++ "/promauto"))]; P; universe] in
  forall dec, In (dec, EType (TyName dec)) P -> ~ In dec ["time"; "prometheus"; "promauto"; "base"; "instanceName"] -> clear_of (map fst P) ["string"] ->
  code_typed typ methods [(dec, prometheus_fields typ)] [] top (GFunc (plain_new dec (prometheus_ctor typ))).
Proof. intros. subst top. unfold plain_new, prometheus_ctor. func. Qed.
Lemma opencensus_new_typed : forall typ methods name P, let top := [[("trace", EPkg census_path)]; P; universe] in
  forall dec, base_name typ = name -> In (dec, EType (TyName dec)) P -> ~ In dec ["trace"; "base"; "instance"; "spanDecorator"] ->
  ~ In name ["_instance"] -> clear_of (map fst P) ["string"; "len"; "nil"] ->
  code_typed typ methods [(dec, tracing_fields (t_span_decorator [TP "*"] "trace" "Span") typ)] [] top (GFunc (tracing_new (t_span_decorator [TP "*"] "trace" "Span") dec name typ)).
Proof. intros. subst top. unfold tracing_new. func. Qed.
