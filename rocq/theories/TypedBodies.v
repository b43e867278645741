(** The bodies of the stock templates obey the rules of Typing.v. *)
From Verif Require Import Render TypesSpec TypesProofs PropNaming PropImplements PropClashes PropScope ScopingProofs ScopedFiles ScopedBodies.
From Verif Require Import TypedFiles TypedTactics.
Open Scope nat_scope.

Lemma retry_typed : forall typ methods name m P, let top := [[("time", EPkg "time")]; P; universe] in
  forall dec, base_name typ = name -> In m methods -> well_typed m ->
  clear_of (map fst (sig_block m)) ["_d"; "_ticker"; "_i"; "nil"; "time"] -> clear_of (map fst P) ["nil"; "int"] -> m_returnsError m = true ->
  body_typed typ methods [(dec, retry_fields typ)] [] top (TyName dec) m (flat_map (gst m) (retry_body name m)).
Proof.
  start. unfold retry_body, retry_wait. destruct (m_acceptsContext m) eqn:C.
  - pose proof (sig_ctx m H1 C). run.
  - run.
Qed.

(** the lines of the configuration of templates/timeout *)
Definition config_lines (ms : list method) : list (list gtok) :=
  flat_map (fun m => if m_acceptsContext m then [[TW [PH (m_name m); PS "Timeout"]] ++ dotted "time" "Duration"] else []) ms.
Lemma timeout_typed : forall typ methods name m P ms, let top := [[("context", EPkg "context"); ("time", EPkg "time")]; P; universe] in
  forall dec, base_name typ = name -> In m methods -> In m ms -> well_typed m -> In ((dec ++ "Config")%string, EType (TyName (dec ++ "Config"))) P ->
  ~ In (dec ++ "Config")%string ["context"; "time"] ->
  clear_of (map fst (sig_block m)) ["_d"; "cancelFunc"; "context"] -> m_acceptsContext m = true ->
  body_typed typ methods [(dec, timeout_fields dec typ); ((dec ++ "Config")%string, config_lines ms)] [] top (TyName dec) m (flat_map (gst m) (timeout_body name m)).
Proof.
  start. subst top.
  match goal with |- body_typed _ _ ?s _ ?top _ _ _ => assert (F : field typ s top (dec ++ "Config") (m_name m ++ "Timeout") t_duration) end.
  { eapply fd; [right; left; reflexivity | unfold config_lines; apply in_flat_map; exists m; split; [eassumption|]; rewrite H6; left; reflexivity
      | apply (lf_one _ [PH (m_name m); PS "Timeout"]); discriminate | dn]. }
  run.
Qed.

Lemma validate_typed : forall typ methods name m P, let top := [[]; P; universe] in
  forall dec, base_name typ = name -> In m methods -> well_typed m ->
  clear_of (map fst (sig_block m)) ["_d"; "_v"; "_ok"; "nil"; "error"] -> clear_of (map fst P) ["nil"; "error"] ->
  body_typed typ methods [(dec, validate_fields typ)] [] top (TyName dec) m (flat_map (gst m) (validate_body name m)).
Proof.
  start. unfold validate_body, validate_with. destruct (m_returnsError m) eqn:E.
  - pose proof (sig_err m H1 E). eexists. rewrite flat_map_app. eapply stys_app.
    + rewrite flat_map_concat_map, map_map, <- flat_map_concat_map. apply stys_each. intros p Hp. apply filter_In in Hp as [Hp _]. run.
    + run.
  - run.
Qed.
Lemma twirp_validate_typed : forall typ methods name m P, let top := [[("twirp", EPkg twirp_path)]; P; universe] in
  forall dec, base_name typ = name -> In m methods -> well_typed m ->
  clear_of (map fst (sig_block m)) ["_d"; "_v"; "_ok"; "nil"; "error"; "twirp"] -> clear_of (map fst P) ["nil"; "error"] ->
  body_typed typ methods [(dec, validate_fields typ)] [] top (TyName dec) m (flat_map (gst m) (twirp_validate_body name m)).
Proof.
  start. unfold twirp_validate_body, validate_with. destruct (m_returnsError m) eqn:E.
  - pose proof (sig_err m H1 E). eexists. rewrite flat_map_app. eapply stys_app.
    + rewrite flat_map_concat_map, map_map, <- flat_map_concat_map. apply stys_each. intros p Hp. apply filter_In in Hp as [Hp _]. run.
    + run.
  - run.
Qed.
Lemma grpc_validate_typed : forall typ methods name m P, let top := [[("grpc_codes", EPkg grpc_codes_path); ("grpc_status", EPkg status_path)]; P; universe] in
  forall dec, base_name typ = name -> In m methods -> well_typed m ->
  clear_of (map fst (sig_block m)) ["_d"; "_v"; "_ok"; "nil"; "error"; "grpc_codes"; "grpc_status"] -> clear_of (map fst P) ["nil"; "error"] ->
  body_typed typ methods [(dec, validate_fields typ)] [] top (TyName dec) m (flat_map (gst m) (grpc_validate_body name m)).
Proof.
  start. unfold grpc_validate_body, validate_with. destruct (m_returnsError m) eqn:E.
  - pose proof (sig_err m H1 E). eexists. rewrite flat_map_app. eapply stys_app.
    + rewrite flat_map_concat_map, map_map, <- flat_map_concat_map. apply stys_each. intros p Hp. apply filter_In in Hp as [Hp _]. run.
    + run.
  - run.
Qed.
Definition inject_ty : ty := TyFunc [t_empty; TyPtr t_error] None [].
Lemma twirp_error_typed : forall typ methods name m P, let top := [[("twirp", EPkg twirp_path); ("json", EPkg "encoding/json")]; P; universe] in
  forall dec, base_name typ = name -> In m methods -> well_typed m -> In (inject, EVal inject_ty) P ->
  clear_of (map fst (sig_block m)) ["_d"; inject] ->
  body_typed typ methods [(dec, validate_fields typ)] [] top (TyName dec) m (flat_map (gst m) (twirp_error_body name m)).
Proof.
  start. unfold twirp_error_body. destruct (m_returnsError m) eqn:E.
  - pose proof (sig_err m H1 E). eexists. rewrite flat_map_app. eapply stys_app.
    + rewrite flat_map_concat_map, map_map, <- flat_map_concat_map. apply stys_each. intros p Hp. apply filter_In in Hp as [Hp _]. run.
    + run.
  - run.
Qed.
Lemma inject_typed : forall typ methods structs aliases P, let top := [[("twirp", EPkg twirp_path); ("json", EPkg "encoding/json")]; P; universe] in
  clear_of (map fst P) ["nil"; "string"] ->
  code_typed typ methods structs aliases top GInject.
Proof.
  intros. split; [nodups|]. eexists. run.
Qed.
Lemma log_typed : forall typ methods m P, let top := [[("io", EPkg "io"); ("log", EPkg "log")]; P; universe] in
  forall dec, In m methods -> well_typed m ->
  clear_of (map fst (sig_block m)) ["_d"; "_params"; "_results"; "nil"] -> clear_of (map fst P) ["nil"] ->
  body_typed typ methods [(dec, log_fields typ)] [] top (TyName dec) m (flat_map (gst m) (log_body dec m)).
Proof.
  start. unfold log_body, log_deferred. destruct (HasParams m), (HasResults m), (m_returnsError m) eqn:E; try pose proof (sig_err m H0 E); run.
Qed.
Lemma logrus_typed : forall typ methods m P, let top := [[("io", EPkg "io"); ("logrus", EPkg logrus_path)]; P; universe] in
  forall dec, In m methods -> well_typed m ->
  clear_of (map fst (sig_block m)) ["_d"; "nil"; "string"; "logrus"] -> clear_of (map fst P) ["nil"; "string"] ->
  body_typed typ methods [(dec, logrus_fields typ)] [] top (TyName dec) m (flat_map (gst m) (logrus_body dec m)).
Proof.
  start. unfold logrus_body, logrus_deferred. destruct (HasParams m), (HasResults m), (m_returnsError m) eqn:E; try pose proof (sig_err m H0 E); run.
Qed.
Lemma prometheus_typed : forall typ methods m P dn,
  let top := [[("time", EPkg "time"); ("prometheus", EPkg prometheus_path); ("promauto", EPkg (prometheus_path ++ "/promauto"))]; P; universe] in
  forall dec, In m methods -> well_typed m ->
  In ((dn ++ "DurationSummaryVec")%string, EVal (TyPtr (TyQual prometheus_path "SummaryVec"))) P ->
  ~ In (dn ++ "DurationSummaryVec")%string ["result"] -> ~ In (dn ++ "DurationSummaryVec")%string ["time"; "prometheus"; "promauto"] ->
  ~ In (dn ++ "DurationSummaryVec")%string ("_since" :: "_d" :: map fst (sig_block m)) ->
  clear_of (map fst (sig_block m)) ["_d"; "_since"; "result"; "nil"; "time"] -> clear_of (map fst P) ["nil"; "string"] ->
  body_typed typ methods [(dec, prometheus_fields typ)] [] top (TyName dec) m (flat_map (gst m) (prometheus_body dn m)).
Proof.
  start. unfold prometheus_body, prometheus_deferred. destruct (m_returnsError m) eqn:E; try pose proof (sig_err m H0 E); run.
Qed.
