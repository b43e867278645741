(** C79: the functions of generated files obey Go's rules for types (Typing.v):
    every operand, argument, assigned value and returned value has a type that
    fits, given the declarations of the file, the methods of the interface and
    the packages the template uses.  With C77 (scope), C55 (terminating
    statements), C64 (syntax) and C31 (method sets) this is that the file
    compiles. *)
From Verif Require Import Render GenericsProofs TypesSpec TypesProofs PropNaming PropImplements PropClashes PropScope ScopingProofs ScopedFiles ScopedBodies PropScoping.
From Verif Require Import Typing TypedFiles TypedTactics TypedBodies TypedBodies2 TypedBodies3 TypedFallback TypedFallback2 TypedFallback3 TypedFuncs TypedFuncs2.
From Verif Require Import TypesSpec ScopedFiles.
Open Scope nat_scope.

(** ** Statement *)

(** the declarations of the file: structs, other types, and the two values that
    methods use (a variable of templates/prometheus:23 and the function of
    templates/twirp_error) *)
Inductive value_declared (decls : list (list gtok)) : string -> ty -> Prop :=
| vd_vec w r : In (kw "var" ++ [TW w; TP "="] ++ dotted "promauto" "NewSummaryVec" ++ [TP "("] ++ r) decls ->
    value_declared decls (wtext w) (TyPtr (TyQual prometheus_path "SummaryVec"))
| vd_func f p q r : In (kw "func" ++ kw f ++ [TP "("] ++ kw p ++ t_any ++ [TP ","] ++ kw q ++ [TP "*"] ++ kw "error" ++ [TP ")"; TP "{"] ++ r) decls ->
    value_declared decls f (TyFunc [t_empty; TyPtr t_error] None []).
Definition file_declares (decls : list (list gtok)) (d : decls_of) : Prop :=
  Forall (fun s => exists w, wtext w = fst s /\ In (kw "type" ++ [TW w] ++ kw "struct" ++ [TP "{"] ++ semis (snd s) ++ [TP "}"]) decls) (pd_structs d) /\
  Forall (fun a => exists w, wtext w = fst a /\ In (kw "type" ++ [TW w] ++ snd a) decls) (pd_aliases d) /\
  Forall (fun v => value_declared decls (fst v) (snd v)) (pd_values d).

(** in a package that declares what the file does and no predeclared name *)
Definition C79_ok (lower upper : N -> N) (t : tdata) (text : string) (cs : list gocode) : Prop :=
  exists decls toks d, generates lower upper text t decls /\ source_tokens lower upper text t = Some toks /\ file_declares decls d /\
    forall P, incl (package_block d) P -> clear_of (map fst P) (map fst universe) ->
    Forall (code_typed (td_type t) (map snd (td_methods t)) (pd_structs d) (pd_aliases d)
              [map import_entry (leading_imports toks ++ found_imports text); P; universe]) cs.

(** a legal signature: only the last parameter is variadic (Go spec, "Function types") *)
Definition variadic_last (ps : list Ast.field) (rs : option (list Ast.field)) : Prop :=
  (forall d e, In d (removelast (declared ps)) -> f_type (snd d) <> Ellipsis e) /\
  (forall d e, In d (declared_opt rs) -> f_type (snd d) <> Ellipsis e).
Definition made (m : method) : Prop := exists O pr gts gps name fi ps rs,
  NewMethod O pr gts gps name fi = Ok m /\ f_type fi = FuncT ps rs /\ variadic_last ps rs /\ pr (Ident "error") = Ok "error" /\ ~ In "error" (tp_names gts).

Definition C79_statement : Prop := forall lower upper t text cs, codes lower t text cs ->
  base_name (td_type t) = td_name t -> Forall made (map snd (td_methods t)) -> C79_ok lower upper t text cs.

(** It fails for names that hide what a function uses, and for contexts that
    are not those of package context.  The conditions, for each template: what
    the bodies of methods use; what the constructor uses and declares, and
    imports; the fields of the struct other than the embedded interface; and
    what functions declare before they mention the interface. *)
Record rule := Rule { r_suffix : string; r_uses : list string; r_taken : list string; r_fields : list string; r_before : list string }.
Definition rules : list (string * rule) :=
  [(text_retry, Rule "WithRetry" ["nil"; "time"] ["time"; "base"; "retryCount"; "retryInterval"] ["_retryCount"; "_retryInterval"] []);
   (text_timeout, Rule "WithTimeout" ["context"] ["context"; "time"; "base"; "config"] ["config"] []);
   (text_validate, Rule "WithValidation" ["nil"; "error"] ["base"] [] []);
   (text_twirp_validate, Rule "WithTwirpValidation" ["nil"; "error"; "twirp"] ["twirp"; "base"] [] []);
   (text_grpc_validate, Rule "WithGRPCValidation" ["nil"; "error"; "grpc_codes"; "grpc_status"] ["grpc_codes"; "grpc_status"; "base"] [] []);
   (text_twirp_error, Rule "WithTwirpError" [inject] ["twirp"; "json"; "base"] [] []);
   (text_log, Rule "WithLog" ["nil"] ["io"; "log"; "base"; "stdout"; "stderr"] [] []);
   (text_logrus, Rule "WithLogrus" ["nil"; "string"; "logrus"] ["io"; "logrus"; "base"; "log"] [] []);
   (text_prometheus, Rule "WithPrometheus" ["nil"; "time"] ["time"; "prometheus"; "promauto"; "base"; "instanceName"] [] []);
   (text_opencensus, Rule "WithTracing" ["nil"; "true"; "string"; "trace"] ["trace"; "base"; "instance"; "spanDecorator"] ["_instance"] []);
   (text_opentelemetry, Rule "WithTracing" ["nil"; "string"; "_codes"; "otel"; "attribute"] ["context"; "_codes"; "otel"; "attribute"; "trace"; "base"; "instance"; "spanDecorator"] ["_instance"] []);
   (text_opentracing, Rule "WithTracing" ["nil"; "true"; "string"; "opentracing"; "_ext"; "_log"] ["opentracing"; "_ext"; "_log"; "base"; "instance"; "spanDecorator"] ["_instance"] []);
   (text_elasticapm, Rule "APMTracing" ["nil"] ["context"; "apm"; "v"; "spanType"; "base"; "opts"] [] []);
   (text_syncpool, Rule "Pool" [] ["impls"; "pool"] [] ["impls"]);
   (text_robinpool, Rule "RoundRobinPool" ["atomic"] ["atomic"; "errors"; "pool"] [] []);
   (text_ratelimit, Rule "WithRateLimit" [] ["time"; "base"; "burst"; "rps"] [] []);
   (text_circuitbreaker, Rule "WithCircuitBreaker" ["nil"; "errors"; "time"] ["errors"; "sync"; "time"; "base"; "consecutiveErrors"; "openInterval"; "ignoreErrors"]
      ["_maxConsecutiveErrors"; "_openInterval"; "_ignoreErrors"] []);
   (text_fallback, Rule "WithFallback" ["nil"; "len"; "append"; "make"; "string"; "errors"; "fmt"; "strings"; "time"; "context"]
      ["errors"; "fmt"; "strings"; "time"; "context"; "interval"; "impls"] [] ("_d" :: fallback_locals))].
Definition rule_of (text : string) : rule :=
  match find (fun r => String.eqb (fst r) text) rules with Some (_, r) => r | None => Rule "" [] [] [] [] end.

Definition method_safe (text : string) (m : method) : Prop :=
  NoDup (names m) /\ well_typed m /\ clear_of (names m) ("_" :: "_d" :: locals text ++ r_uses (rule_of text)).
(** templates/fallback declares a struct of the results and functions of the
    interface inside of the method *)
Definition fallback_safe (typ : string) (m : method) : Prop :=
  (forall x, In x (type_ids typ) -> ~ In x (names m)) /\
  (forall p x, In p (m_results m) -> In x (type_ids (p_type p)) -> ~ In x ("_d" :: fallback_locals ++ names m)).
Definition vec (lower : N -> N) (t : tdata) : string := (go_lower lower (td_name t) ++ "DurationSummaryVec")%string.
Definition safe (lower : N -> N) (t : tdata) (text : string) : Prop :=
  let r := rule_of text in
  ~ In (decorator t (r_suffix r)) (r_taken r) /\ ~ In (td_name t) (r_fields r) /\
  (forall x, In x (type_ids (td_type t)) -> ~ In x (r_before r)) /\
  Forall (method_safe text) (map snd (td_methods t)) /\
  (text = text_elasticapm -> decorator t "APMTracingOption" = (decorator t "APMTracing" ++ "Option")%string) /\
  (text = text_prometheus -> forall m, In m (map snd (td_methods t)) -> ~ In (vec lower t) (names m)) /\
  (text = text_fallback -> Forall (fallback_safe (td_type t)) (map snd (td_methods t))).

(** ** Lemmas *)
Lemma clear_incl : forall l xs ys, clear_of l ys -> incl xs ys -> clear_of l xs.
Proof. intros l xs ys H I x Hx. apply H. now apply I. Qed.
Lemma method_code : forall typ methods structs aliases top star dec m body recv,
  recv = match star with [] => TyName dec | _ => TyPtr (TyName dec) end ->
  NoDup (names m) -> ~ In "_d" (names m) -> body_typed typ methods structs aliases top recv m (flat_map (gst m) body) ->
  code_typed typ methods structs aliases top (GMethod star dec m body).
Proof.
  intros typ methods structs aliases top star dec m body recv E N D B. cbn [code_typed]. rewrite <- E. split; [|exact B].
  change (method_block recv m) with (("_d", EVal recv) :: sig_block m). cbn [map fst]. rewrite sig_names. now apply NoDup_cons.
Qed.
Lemma fallback_code : forall typ methods structs aliases top dec m body,
  NoDup (names m) -> ~ In "_d" (names m) -> body_typed typ methods structs aliases top (TyName dec) m (flat_map (cst m) body) ->
  code_typed typ methods structs aliases top (GFallback dec m body).
Proof.
  intros typ methods structs aliases top dec m body N D B. cbn [code_typed]. split; [|exact B].
  change (method_block (TyName dec) m) with (("_d", EVal (TyName dec)) :: sig_block m). cbn [map fst]. rewrite sig_names. now apply NoDup_cons.
Qed.
Lemma each_typed : forall typ methods structs aliases top p t f, (forall m, In m (map snd (td_methods t)) -> p m = true -> code_typed typ methods structs aliases top (f m)) ->
  Forall (code_typed typ methods structs aliases top) (each p t f).
Proof.
  intros typ methods structs aliases top p t f H. apply Forall_forall. intros c Hc. unfold each in Hc. apply in_flat_map in Hc as (m & Hm & Hc).
  destruct (p m) eqn:E; [|destruct Hc]. destruct Hc as [<-|[]]. apply H; [now apply sorted_back | exact E].
Qed.

Lemma assemble79 : forall lower upper t text specs imps decls d fs p f,
  generates lower upper text t decls -> (exists toks, source_tokens lower upper text t = Some toks /\ leading_imports toks = specs) -> file_declares decls d -> map import_entry (specs ++ found_imports text) = imps ->
  (forall P, incl (package_block d) P -> clear_of (map fst P) (map fst universe) ->
    let top := [imps; P; universe] in
    Forall (code_typed (td_type t) (map snd (td_methods t)) (pd_structs d) (pd_aliases d) top) fs /\
    forall m, In m (map snd (td_methods t)) -> p m = true -> code_typed (td_type t) (map snd (td_methods t)) (pd_structs d) (pd_aliases d) top (f m)) ->
  C79_ok lower upper t text (fs ++ each p t f).
Proof.
  intros lower upper t text specs imps decls d fs p f G (toks & S & I) D EI H. exists decls, toks, d. repeat (split; [assumption|]). rewrite I, EI.
  intros P P1 P2. destruct (H P P1 P2) as [A B]. apply Forall_app. split; [exact A|]. now apply each_typed.
Qed.
Definition only (dec : string) (fields : list (list gtok)) : decls_of := DeclsOf [(dec, fields)] [] [].
Lemma struct_declared : forall decls dec fields, In (struct_decl dec fields) decls -> file_declares decls (only dec fields).
Proof.
  intros decls dec fields H. repeat split; try apply Forall_nil. apply Forall_cons; [|apply Forall_nil]. exists [PH dec]. split; [apply wtext_hole | exact H].
Qed.
Lemma assemble_only : forall lower upper t text specs imps dec fields gs fs p f,
  builds lower t text dec fields gs -> In (text, specs) stock_imports -> map import_entry (specs ++ found_imports text) = imps ->
  (forall P, In (dec, EType (TyName dec)) P -> clear_of (map fst P) (map fst universe) ->
    let top := [imps; P; universe] in
    Forall (code_typed (td_type t) (map snd (td_methods t)) [(dec, fields)] [] top) fs /\
    forall m, In m (map snd (td_methods t)) -> p m = true -> code_typed (td_type t) (map snd (td_methods t)) [(dec, fields)] [] top (f m)) ->
  C79_ok lower upper t text (fs ++ each p t f).
Proof.
  intros lower upper t text specs imps dec fields gs fs p f B I EI H. destruct (builds_declared _ upper _ _ _ _ _ B) as (decls & G & S & _).
  eapply assemble79; [exact G | apply C74_template_imports; exact I | apply struct_declared; exact S | exact EI|].
  intros P P1 P2. apply H; [apply P1; now left | exact P2].
Qed.

(** incl between concrete lists *)
Ltac member_ := solve [repeat first [left; reflexivity | right]].
Ltac inc := let x := fresh in let Hx := fresh in intros x Hx; cbn [In app map fst universe] in Hx; repeat match type of Hx with _ \/ _ => destruct Hx as [<-|Hx] end; try (destruct Hx; fail);
  cbn [In app map fst universe]; member_.
Ltac clr := match goal with H : clear_of ?l _ |- clear_of ?l _ => eapply clear_incl; [exact H | inc] end.
Ltac notin := match goal with H : ~ In ?x _ |- ~ In ?x _ => let K := fresh in intros K; apply H; revert K; cbn [In app map fst]; tauto end.
Ltac rules_ r_ l_ := match goal with S : safe _ _ ?text |- _ =>
  let R := fresh "R" in let L := fresh "L" in
  assert (R : rule_of text = r_) by (vm_compute; reflexivity); assert (L : locals text = l_) by (vm_compute; reflexivity);
  unfold safe, method_safe in S; rewrite R, L in S; cbn [r_suffix r_uses r_taken r_fields r_before app] in S; clear R L;
  let T := fresh "T" in let F := fresh "F" in let B := fresh "B" in let M := fresh "M" in let E := fresh "E" in let V := fresh "V" in let K := fresh "K" in
  destruct S as (T & F & B & M & E & V & K); rewrite Forall_forall in M end.

Lemma back_sorted : forall t m, In m (map snd (td_methods t)) -> In m (sorted_methods t).
Proof.
  intros t m H. apply in_map_iff in H as (km & <- & Hi). unfold sorted_methods. apply in_map.
  eapply Permutation.Permutation_in; [apply Permutation.Permutation_sym; apply msort_perm | exact Hi].
Qed.
Lemma not_config : forall dec, ~ In (dec ++ "Config")%string ["context"; "time"].
Proof. intros dec H. cbn [In] in H. destruct H as [H|[H|[]]]; revert H; [|by_length]. destruct dec as [|a [|b dec]]; cbn [append]; [discriminate | discriminate|]. intros E. apply (f_equal String.length) in E. cbn [String.length] in E. rewrite slength_app in E. cbn [String.length] in E. lia. Qed.
Lemma not_option : forall dec, ~ In (dec ++ "Option")%string ["context"; "apm"].
Proof. intros dec H. cbn [In] in H. destruct H as [H|[H|[]]]; revert H; [|by_length]. destruct dec as [|a [|b dec]]; cbn [append]; [discriminate | discriminate|]. intros E. apply (f_equal String.length) in E. cbn [String.length] in E. rewrite slength_app in E. cbn [String.length] in E. lia. Qed.
Ltac facts := match goal with M : forall m, In m ?ms -> _, Hm : In ?m ?ms |- _ =>
  let N := fresh "N" in let W := fresh "W" in let C := fresh "C" in destruct (M m Hm) as (N & W & C); rewrite <- sig_names in C end.
Ltac side_ := lazymatch goal with |- clear_of _ _ => clr | |- ~ In _ _ => notin | |- _ => try eassumption end.
Ltac new_ L := apply L; side_.
Ltac body_ L := facts; (eapply method_code; [reflexivity | assumption | rewrite <- sig_names; match goal with C : clear_of _ _ |- _ => apply C; member_ end | apply L; side_]).

Lemma retry_file : forall lower upper t, let dec := decorator t "WithRetry" in
  base_name (td_type t) = td_name t -> safe lower t text_retry -> C79_ok lower upper t text_retry (GFunc (plain_new dec (retry_ctor (td_name t) (td_type t))) :: each m_returnsError t (fun m => GMethod [] dec m (retry_body (td_name t) m))).
Proof.
  intros lower upper t dec HB S.
  change (?a :: each ?p ?b ?c) with ([a] ++ each p b c).
  rules_ (Rule "WithRetry" ["nil"; "time"] ["time"; "base"; "retryCount"; "retryInterval"] ["_retryCount"; "_retryInterval"] []) ["_ticker"; "_i"].
  subst dec. eapply assemble_only; [constructor | unfold stock_imports; cbn [In]; auto 30 | vm_compute; reflexivity|]. intros P P1 P2. split.
  + apply Forall_cons; [|apply Forall_nil]. new_ retry_new_typed.
  + intros m Hm E2. body_ retry_typed.
Qed.
Lemma timeout_file : forall lower upper t, let dec := decorator t "WithTimeout" in
  base_name (td_type t) = td_name t -> safe lower t text_timeout -> C79_ok lower upper t text_timeout (GFunc (plain_new dec (timeout_ctor dec (td_name t) (td_type t))) :: each m_acceptsContext t (fun m => GMethod [] dec m (timeout_body (td_name t) m))).
Proof.
  intros lower upper t dec HB S.
  change (?a :: each ?p ?b ?c) with ([a] ++ each p b c).
  rules_ (Rule "WithTimeout" ["context"] ["context"; "time"; "base"; "config"] ["config"] []) ["cancelFunc"].
  subst dec. set (dec := decorator t "WithTimeout") in *.
  assert (D : ~ In (dec ++ "Config")%string ["context"; "time"]) by (apply not_config).
  apply (assemble79 lower upper t text_timeout [plainly "context"; plainly "time"] [("context", EPkg "context"); ("time", EPkg "time")]
    _ (DeclsOf [(dec, timeout_fields dec (td_type t)); ((dec ++ "Config")%string, config_lines (sorted_methods t))] [] []) _ _ _ (timeout_generated lower upper t)).
  - apply C74_template_imports. unfold stock_imports. member_.
  - split; [|split; apply Forall_nil]. cbn [pd_structs]. apply Forall_cons; [|apply Forall_cons; [|apply Forall_nil]]; cbn [fst snd].
    + exists [PH dec]. split; [apply wtext_hole|]. apply in_or_app. left. unfold timeout_head. cbn [In]. right. left. reflexivity.
    + exists [PH dec; PS "Config"]. split; [reflexivity|]. apply in_or_app. left. unfold timeout_head. cbn [In]. right. right. left. reflexivity.
  - vm_compute. reflexivity.
  - intros P P1 P2. assert (Q1 : In (dec, EType (TyName dec)) P) by (apply P1; now left).
    assert (Q2 : In ((dec ++ "Config")%string, EType (TyName (dec ++ "Config"))) P) by (apply P1; right; now left).
    clearbody dec. cbn [pd_structs pd_aliases]. split.
    + apply Forall_cons; [|apply Forall_nil]. new_ timeout_new_typed.
    + intros m Hm E2. pose proof (back_sorted _ _ Hm) as Hs. body_ timeout_typed.
Qed.
Lemma validate_file : forall lower upper t, let dec := decorator t "WithValidation" in
  base_name (td_type t) = td_name t -> safe lower t text_validate -> C79_ok lower upper t text_validate (GFunc (plain_new dec (base_ctor (td_name t) (td_type t))) :: each always t (fun m => GMethod [] dec m (validate_body (td_name t) m))).
Proof.
  intros lower upper t dec HB S.
  change (?a :: each ?p ?b ?c) with ([a] ++ each p b c).
  rules_ (Rule "WithValidation" ["nil"; "error"] ["base"] [] []) ["_v"; "_ok"].
  subst dec. eapply assemble_only; [constructor | unfold stock_imports; cbn [In]; auto 30 | vm_compute; reflexivity|]. intros P P1 P2. split.
  + apply Forall_cons; [|apply Forall_nil]. new_ base_new_typed.
  + intros m Hm E2. body_ validate_typed.
Qed.
Lemma twirp_validate_file : forall lower upper t, let dec := decorator t "WithTwirpValidation" in
  base_name (td_type t) = td_name t -> safe lower t text_twirp_validate -> C79_ok lower upper t text_twirp_validate (GFunc (plain_new dec (base_ctor (td_name t) (td_type t))) :: each always t (fun m => GMethod [] dec m (twirp_validate_body (td_name t) m))).
Proof.
  intros lower upper t dec HB S.
  change (?a :: each ?p ?b ?c) with ([a] ++ each p b c).
  rules_ (Rule "WithTwirpValidation" ["nil"; "error"; "twirp"] ["twirp"; "base"] [] []) ["_v"; "_ok"].
  subst dec. eapply assemble_only; [constructor | unfold stock_imports; cbn [In]; auto 30 | vm_compute; reflexivity|]. intros P P1 P2. split.
  + apply Forall_cons; [|apply Forall_nil]. new_ base_new_typed.
  + intros m Hm E2. body_ twirp_validate_typed.
Qed.
Lemma grpc_validate_file : forall lower upper t, let dec := decorator t "WithGRPCValidation" in
  base_name (td_type t) = td_name t -> safe lower t text_grpc_validate -> C79_ok lower upper t text_grpc_validate (GFunc (plain_new dec (base_ctor (td_name t) (td_type t))) :: each m_returnsError t (fun m => GMethod [] dec m (grpc_validate_body (td_name t) m))).
Proof.
  intros lower upper t dec HB S.
  change (?a :: each ?p ?b ?c) with ([a] ++ each p b c).
  rules_ (Rule "WithGRPCValidation" ["nil"; "error"; "grpc_codes"; "grpc_status"] ["grpc_codes"; "grpc_status"; "base"] [] []) ["_v"; "_ok"].
  subst dec. eapply assemble_only; [constructor | unfold stock_imports; cbn [In]; auto 30 | vm_compute; reflexivity|]. intros P P1 P2. split.
  + apply Forall_cons; [|apply Forall_nil]. new_ base_new_typed.
  + intros m Hm E2. body_ grpc_validate_typed.
Qed.
Lemma twirp_error_file : forall lower upper t, let dec := decorator t "WithTwirpError" in
  base_name (td_type t) = td_name t -> safe lower t text_twirp_error -> C79_ok lower upper t text_twirp_error (GInject :: GFunc (plain_new dec (base_ctor (td_name t) (td_type t))) :: each always t (fun m => GMethod [] dec m (twirp_error_body (td_name t) m))).
Proof.
  intros lower upper t dec HB S.
  change (?a :: ?b :: each ?p ?x ?c) with ([a; b] ++ each p x c).
  rules_ (Rule "WithTwirpError" [inject] ["twirp"; "json"; "base"] [] []) (@nil string).
  subst dec. set (dec := decorator t "WithTwirpError") in *.
  apply (assemble79 lower upper t text_twirp_error [plainly "github.com/twitchtv/twirp"] [("twirp", EPkg twirp_path); ("json", EPkg "encoding/json")]
    _ (DeclsOf [(dec, validate_fields (td_type t))] [] [(inject, inject_ty)]) _ _ _ (twirp_error_generated lower upper t)).
  - apply C74_template_imports. unfold stock_imports. member_.
  - split; [|split; [apply Forall_nil|]]; cbn [pd_structs pd_values]; (apply Forall_cons; [|apply Forall_nil]); cbn [fst snd].
    + exists [PH dec]. split; [apply wtext_hole|]. apply in_or_app. left. unfold validate_head. apply in_or_app. right. left. reflexivity.
    + eapply vd_func. apply in_or_app. right. apply in_or_app. right. left. reflexivity.
  - vm_compute. reflexivity.
  - intros P P1 P2. assert (Q1 : In (dec, EType (TyName dec)) P) by (apply P1; now left).
    assert (Q2 : In (inject, EVal inject_ty) P) by (apply P1; right; now left).
    clearbody dec. cbn [pd_structs pd_aliases]. split.
    + apply Forall_cons; [apply inject_typed; clr|]. apply Forall_cons; [|apply Forall_nil]. new_ base_new_typed.
    + intros m Hm E2. body_ twirp_error_typed.
Qed.
Lemma log_file : forall lower upper t, let dec := decorator t "WithLog" in
  base_name (td_type t) = td_name t -> safe lower t text_log -> C79_ok lower upper t text_log (GFunc (log_new dec (td_type t)) :: each always t (fun m => GMethod [] dec m (log_body dec m))).
Proof.
  intros lower upper t dec HB S.
  change (?a :: each ?p ?b ?c) with ([a] ++ each p b c).
  rules_ (Rule "WithLog" ["nil"] ["io"; "log"; "base"; "stdout"; "stderr"] [] []) ["_params"; "_results"].
  subst dec. eapply assemble_only; [constructor | unfold stock_imports; cbn [In]; auto 30 | vm_compute; reflexivity|]. intros P P1 P2. split.
  + apply Forall_cons; [|apply Forall_nil]. new_ log_new_typed.
  + intros m Hm E2. body_ log_typed.
Qed.
Lemma logrus_file : forall lower upper t, let dec := decorator t "WithLogrus" in
  base_name (td_type t) = td_name t -> safe lower t text_logrus -> C79_ok lower upper t text_logrus (GFunc (plain_new dec (logrus_ctor (td_type t))) :: each always t (fun m => GMethod [] dec m (logrus_body dec m))).
Proof.
  intros lower upper t dec HB S.
  change (?a :: each ?p ?b ?c) with ([a] ++ each p b c).
  rules_ (Rule "WithLogrus" ["nil"; "string"; "logrus"] ["io"; "logrus"; "base"; "log"] [] []) (@nil string).
  subst dec. eapply assemble_only; [constructor | unfold stock_imports; cbn [In]; auto 30 | vm_compute; reflexivity|]. intros P P1 P2. split.
  + apply Forall_cons; [|apply Forall_nil]. new_ logrus_new_typed.
  + intros m Hm E2. body_ logrus_typed.
Qed.
Lemma prometheus_file : forall lower upper t, let dec := decorator t "WithPrometheus" in
  base_name (td_type t) = td_name t -> safe lower t text_prometheus -> C79_ok lower upper t text_prometheus (GFunc (plain_new dec (prometheus_ctor (td_type t))) :: each always t (fun m => GMethod [] dec m (prometheus_body (go_lower lower (td_name t)) m))).
Proof.
  intros lower upper t dec HB S.
  change (?a :: each ?p ?b ?c) with ([a] ++ each p b c).
  rules_ (Rule "WithPrometheus" ["nil"; "time"] ["time"; "prometheus"; "promauto"; "base"; "instanceName"] [] []) ["_since"; "result"].
  subst dec. set (dec := decorator t "WithPrometheus") in *. specialize (V eq_refl). unfold vec in V.
  assert (D1 : ~ In (go_lower lower (td_name t) ++ "DurationSummaryVec")%string ["result"]) by (intros K1; cbn [In] in K1; destruct K1 as [K1|[]]; revert K1; by_length).
  assert (D2 : ~ In (go_lower lower (td_name t) ++ "DurationSummaryVec")%string ["time"; "prometheus"; "promauto"])
    by (intros K1; cbn [In] in K1; destruct K1 as [K1|[K1|[K1|[]]]]; revert K1; by_length).
  assert (D3 : forall l, ~ In (go_lower lower (td_name t) ++ "DurationSummaryVec")%string l -> ~ In (go_lower lower (td_name t) ++ "DurationSummaryVec")%string ("_since" :: "_d" :: l)).
  { intros l Hl K1; cbn [In] in K1; destruct K1 as [K1|[K1|K1]]; [revert K1; by_length | revert K1; by_length | contradiction]. }
  apply (assemble79 lower upper t text_prometheus [plainly "time"; plainly "github.com/prometheus/client_golang/prometheus"; plainly "github.com/prometheus/client_golang/prometheus/promauto"]
    [("time", EPkg "time"); ("prometheus", EPkg prometheus_path); ("promauto", EPkg (prometheus_path ++ "/promauto"))]
    _ (DeclsOf [(dec, prometheus_fields (td_type t))] [] [((go_lower lower (td_name t) ++ "DurationSummaryVec")%string, TyPtr (TyQual prometheus_path "SummaryVec"))]) _ _ _ (prometheus_generated lower upper t)).
  - apply C74_template_imports. unfold stock_imports. member_.
  - split; [|split; [apply Forall_nil|]]; cbn [pd_structs pd_values]; (apply Forall_cons; [|apply Forall_nil]); cbn [fst snd].
    + exists [PH dec]. split; [apply wtext_hole|]. apply in_or_app. left. unfold prometheus_head. right. left. reflexivity.
    + change (go_lower lower (td_name t) ++ "DurationSummaryVec")%string with (wtext [PH (go_lower lower (td_name t)); PS "DurationSummaryVec"]).
      eapply vd_vec. apply in_or_app. left. unfold prometheus_head. right. right. left. reflexivity.
  - vm_compute. reflexivity.
  - intros P P1 P2. assert (Q1 : In (dec, EType (TyName dec)) P) by (apply P1; now left).
    assert (Q2 : In ((go_lower lower (td_name t) ++ "DurationSummaryVec")%string, EVal (TyPtr (TyQual prometheus_path "SummaryVec"))) P) by (apply P1; right; now left).
    clearbody dec. cbn [pd_structs pd_aliases]. split.
    + apply Forall_cons; [|apply Forall_nil]. new_ prometheus_new_typed.
    + intros m Hm E2. specialize (V m Hm). rewrite <- sig_names in V. apply D3 in V. body_ prometheus_typed.
Qed.
Lemma opencensus_file : forall lower upper t, let dec := decorator t "WithTracing" in
  base_name (td_type t) = td_name t -> safe lower t text_opencensus -> C79_ok lower upper t text_opencensus (GFunc (tracing_new (t_span_decorator [TP "*"] "trace" "Span") dec (td_name t) (td_type t)) :: each m_acceptsContext t (fun m => GMethod [] dec m (opencensus_body (td_name t) (td_type t) m))).
Proof.
  intros lower upper t dec HB S.
  change (?a :: each ?p ?b ?c) with ([a] ++ each p b c).
  rules_ (Rule "WithTracing" ["nil"; "true"; "string"; "trace"] ["trace"; "base"; "instance"; "spanDecorator"] ["_instance"] []) ["_span"].
  subst dec. eapply assemble_only; [constructor | unfold stock_imports; cbn [In]; auto 30 | vm_compute; reflexivity|]. intros P P1 P2. split.
  + apply Forall_cons; [|apply Forall_nil]. new_ opencensus_new_typed.
  + intros m Hm E2. body_ opencensus_typed.
Qed.
Lemma opentelemetry_file : forall lower upper t, let dec := decorator t "WithTracing" in
  base_name (td_type t) = td_name t -> safe lower t text_opentelemetry -> C79_ok lower upper t text_opentelemetry (GFunc (tracing_new (t_span_decorator [] "trace" "Span") dec (td_name t) (td_type t)) :: each m_acceptsContext t (fun m => GMethod [] dec m (opentelemetry_body (td_name t) (or_var "SpanNamePrefix" (td_vars t) (td_name t)) m))).
Proof.
  intros lower upper t dec HB S.
  change (?a :: each ?p ?b ?c) with ([a] ++ each p b c).
  rules_ (Rule "WithTracing" ["nil"; "string"; "_codes"; "otel"; "attribute"] ["context"; "_codes"; "otel"; "attribute"; "trace"; "base"; "instance"; "spanDecorator"] ["_instance"] []) ["_span"].
  subst dec. eapply assemble_only; [constructor | unfold stock_imports; cbn [In]; auto 30 | vm_compute; reflexivity|]. intros P P1 P2. split.
  + apply Forall_cons; [|apply Forall_nil]. new_ opentelemetry_new_typed.
  + intros m Hm E2. body_ opentelemetry_typed.
Qed.
Lemma opentracing_file : forall lower upper t, let dec := decorator t "WithTracing" in
  base_name (td_type t) = td_name t -> safe lower t text_opentracing -> C79_ok lower upper t text_opentracing (GFunc (tracing_new (t_span_decorator [] "opentracing" "Span") dec (td_name t) (td_type t)) :: each m_acceptsContext t (fun m => GMethod [] dec m (opentracing_body (td_name t) (td_type t) m))).
Proof.
  intros lower upper t dec HB S.
  change (?a :: each ?p ?b ?c) with ([a] ++ each p b c).
  rules_ (Rule "WithTracing" ["nil"; "true"; "string"; "opentracing"; "_ext"; "_log"] ["opentracing"; "_ext"; "_log"; "base"; "instance"; "spanDecorator"] ["_instance"] []) ["_span"].
  subst dec. eapply assemble_only; [constructor | unfold stock_imports; cbn [In]; auto 30 | vm_compute; reflexivity|]. intros P P1 P2. split.
  + apply Forall_cons; [|apply Forall_nil]. new_ opentracing_new_typed.
  + intros m Hm E2. body_ opentracing_typed.
Qed.
Lemma elasticapm_file : forall lower upper t, let dec := decorator t "APMTracing" in let opt := decorator t "APMTracingOption" in
  (forall m, In m (map snd (td_methods t)) -> ctx_first m) -> base_name (td_type t) = td_name t -> safe lower t text_elasticapm -> C79_ok lower upper t text_elasticapm (GFunc (apm_with_label dec opt) :: GFunc (apm_with_type dec opt) :: GFunc (apm_new dec (or_var "ComponentName" (td_vars t) (go_lower lower (td_name t))) (td_type t)) :: each m_acceptsContext t (fun m => GMethod [] dec m (elasticapm_body (toSnakeCase lower) (component_shown (td_vars t) (go_lower lower (td_name t))) m))).
Proof.
  intros lower upper t dec opt Hf HB S.
  change (?a :: ?b :: ?c :: each ?p ?x ?y) with ([a; b; c] ++ each p x y).
  rules_ (Rule "APMTracing" ["nil"] ["context"; "apm"; "v"; "spanType"; "base"; "opts"] [] []) ["span"].
  specialize (E eq_refl). pose proof (elasticapm_generated lower upper t Hf) as G. cbv zeta in G. change (or_var "DecoratorName" (td_vars t) (td_name t ++ "APMTracingOption")%string) with opt in G. fold dec opt in E. fold dec in G. rewrite E in G |- *. clear E. subst opt. subst dec. set (dec := decorator t "APMTracing") in *.
  assert (D : ~ In (dec ++ "Option")%string ["context"; "apm"]) by (apply not_option).
  eapply (assemble79 lower upper t text_elasticapm [plainly "context"; plainly "go.elastic.co/apm/v2"] [("context", EPkg "context"); ("apm", EPkg apm_path)]
    _ (DeclsOf [(dec, elasticapm_fields (td_type t))] [((dec ++ "Option")%string, option_type dec)] []) _ _ _ G).
  - now apply C74_elasticapm_imports.
  - split; [|split; [|apply Forall_nil]]; cbn [pd_structs pd_aliases]; (apply Forall_cons; [|apply Forall_nil]); cbn [fst snd].
    + exists [PH dec]. split; [apply wtext_hole|]. apply in_or_app. left. apply elasticapm_has.
    + exists [PH (dec ++ "Option")%string]. split; [apply wtext_hole|]. apply in_or_app. left. unfold elasticapm_head. clearbody dec. right. right. left. vm_compute. reflexivity.
  - vm_compute. reflexivity.
  - intros P P1 P2. assert (Q1 : In (dec, EType (TyName dec)) P) by (apply P1; now left).
    assert (Q2 : In ((dec ++ "Option")%string, EType (TyName (dec ++ "Option"))) P) by (apply P1; right; now left).
    clearbody dec. cbn [pd_structs pd_aliases]. split.
    + apply Forall_cons; [new_ apm_label_typed|]. apply Forall_cons; [new_ apm_type_typed|]. apply Forall_cons; [new_ apm_new_typed | apply Forall_nil].
    + intros m Hm E2. body_ elasticapm_typed.
Qed.
Lemma syncpool_file : forall lower upper t, let dec := decorator t "Pool" in
  base_name (td_type t) = td_name t -> safe lower t text_syncpool -> C79_ok lower upper t text_syncpool (GFunc (syncpool_new dec (td_type t)) :: each always t (fun m => GMethod [] dec m (syncpool_body m))).
Proof.
  intros lower upper t dec HB S.
  change (?a :: each ?p ?b ?c) with ([a] ++ each p b c).
  rules_ (Rule "Pool" [] ["impls"; "pool"] [] ["impls"]) ["_impl"].
  subst dec. eapply assemble_only; [constructor | unfold stock_imports; cbn [In]; auto 30 | vm_compute; reflexivity|]. intros P P1 P2. split.
  + apply Forall_cons; [|apply Forall_nil]. new_ syncpool_new_typed.
  + intros m Hm E2. body_ syncpool_typed.
Qed.
Lemma robinpool_file : forall lower upper t, let dec := decorator t "RoundRobinPool" in
  base_name (td_type t) = td_name t -> safe lower t text_robinpool -> C79_ok lower upper t text_robinpool (GFunc (robinpool_new dec (td_type t)) :: GFunc (robinpool_must_new dec (td_type t)) :: each always t (fun m => GMethod star dec m (robinpool_body m))).
Proof.
  intros lower upper t dec HB S.
  change (?a :: ?b :: each ?p ?x ?c) with ([a; b] ++ each p x c).
  rules_ (Rule "RoundRobinPool" ["atomic"] ["atomic"; "errors"; "pool"] [] []) ["_counter"].
  subst dec. eapply assemble_only; [constructor | unfold stock_imports; cbn [In]; auto 30 | vm_compute; reflexivity|]. intros P P1 P2. split.
  + destruct (robinpool_new_typed (td_type t) (map snd (td_methods t)) P (decorator t "RoundRobinPool")); [assumption | notin | clr|]. repeat (apply Forall_cons; [assumption|]). apply Forall_nil.
  + intros m Hm E2. body_ robinpool_typed.
Qed.
Lemma ratelimit_file : forall lower upper t, let dec := decorator t "WithRateLimit" in
  base_name (td_type t) = td_name t -> safe lower t text_ratelimit -> C79_ok lower upper t text_ratelimit (GFunc (ratelimit_new dec (td_type t)) :: each always t (fun m => GMethod star dec m (ratelimit_body m))).
Proof.
  intros lower upper t dec HB S.
  change (?a :: each ?p ?b ?c) with ([a] ++ each p b c).
  rules_ (Rule "WithRateLimit" [] ["time"; "base"; "burst"; "rps"] [] []) (@nil string).
  subst dec. eapply assemble_only; [constructor | unfold stock_imports; cbn [In]; auto 30 | vm_compute; reflexivity|]. intros P P1 P2. split.
  + apply Forall_cons; [|apply Forall_nil]. new_ ratelimit_new_typed.
  + intros m Hm E2. body_ ratelimit_typed.
Qed.
Lemma circuitbreaker_file : forall lower upper t, let dec := decorator t "WithCircuitBreaker" in
  base_name (td_type t) = td_name t -> safe lower t text_circuitbreaker -> C79_ok lower upper t text_circuitbreaker (GFunc (circuitbreaker_new dec (td_name t) (td_type t)) :: each m_returnsError t (fun m => GMethod star dec m (circuitbreaker_body (td_name t) dec m))).
Proof.
  intros lower upper t dec HB S.
  change (?a :: each ?p ?b ?c) with ([a] ++ each p b c).
  rules_ (Rule "WithCircuitBreaker" ["nil"; "errors"; "time"] ["errors"; "sync"; "time"; "base"; "consecutiveErrors"; "openInterval"; "ignoreErrors"] ["_maxConsecutiveErrors"; "_openInterval"; "_ignoreErrors"] []) ["_e"; "closesAt"].
  subst dec. eapply assemble_only; [constructor | unfold stock_imports; cbn [In]; auto 30 | vm_compute; reflexivity|]. intros P P1 P2. split.
  + apply Forall_cons; [|apply Forall_nil]. new_ circuitbreaker_new_typed.
  + intros m Hm E2. body_ circuitbreaker_typed.
Qed.
Lemma fallback_file : forall lower upper t, let dec := decorator t "WithFallback" in
  base_name (td_type t) = td_name t -> safe lower t text_fallback -> C79_ok lower upper t text_fallback (GFunc (fallback_new dec (td_type t)) :: each always t (fun m => GFallback dec m (fallback_body (td_type t) m))).
Proof.
  intros lower upper t dec HB S.
  change (?a :: each ?p ?b ?c) with ([a] ++ each p b c).
  rules_ (Rule "WithFallback" ["nil"; "len"; "append"; "make"; "string"; "errors"; "fmt"; "strings"; "time"; "context"] ["errors"; "fmt"; "strings"; "time"; "context"; "interval"; "impls"] [] ("_d" :: fallback_locals)) fallback_locals.
  subst dec. eapply assemble_only; [constructor | unfold stock_imports; cbn [In]; auto 30 | vm_compute; reflexivity|]. intros P P1 P2. split.
  + apply Forall_cons; [|apply Forall_nil]. new_ fallback_new_typed.
  + intros m Hm _. facts. specialize (K eq_refl). rewrite Forall_forall in K. destruct (K m Hm) as [K1 K2]. rewrite <- sig_names in K1. rewrite <- sig_names in K2.
    apply fallback_code; [assumption | rewrite <- sig_names; apply C; member_|]. apply fallback_typed; try assumption.
    * now rewrite sig_names.
    * clr.
    * intros x Hx Hy. cbn [app] in Hy. apply (in_app_or ("_d" :: fallback_locals)) in Hy as [Hy|Hy]; [exact (B x Hx Hy) | exact (K1 x Hx Hy)].
Qed.

Theorem C79_typed_partial : forall lower upper t text cs, codes lower t text cs -> base_name (td_type t) = td_name t ->
  safe lower t text -> C79_ok lower upper t text cs.
Proof.
  intros lower upper t text cs HC HB S. destruct HC as [| | | | | | | | | | | | Hf | | | | |].
  - now apply retry_file.
  - now apply timeout_file.
  - now apply validate_file.
  - now apply twirp_validate_file.
  - now apply grpc_validate_file.
  - now apply twirp_error_file.
  - now apply log_file.
  - now apply logrus_file.
  - now apply prometheus_file.
  - now apply opencensus_file.
  - now apply opentelemetry_file.
  - now apply opentracing_file.
  - now apply elasticapm_file.
  - now apply syncpool_file.
  - now apply robinpool_file.
  - now apply ratelimit_file.
  - now apply circuitbreaker_file.
  - now apply fallback_file.
Qed.

(** ** Methods of NewMethod *)
Lemma inst_same : forall gts gps s u, ~ In s (tp_names gts) -> instantiates (tp_names gts) gps s u -> u = s.
Proof. intros gts gps s u H [(i & a & E & _) | (_ & E)]; [|exact E]. exfalso. apply H. eapply nth_error_In. exact E. Qed.
Lemma both_in : forall {A B} (R : A -> B -> Prop) l r, Forall2 R l r -> forall y, In y r -> exists x, In x l /\ R x y.
Proof. intros A B R l r H. induction H as [|x y l r Hxy H IH]; intros z Hz; [destruct Hz|]. destruct Hz as [<-|Hz]; [exists x; split; [now left | exact Hxy]|]. destruct (IH z Hz) as (w & Hw & K). exists w. split; [now right | exact K]. Qed.
Lemma both_removelast : forall {A B} (R : A -> B -> Prop) l r, Forall2 R l r -> Forall2 R (removelast l) (removelast r).
Proof.
  intros A B R l r H. induction H as [|x y l r Hxy H IH]; [constructor|]. destruct H as [|x2 y2 l r H2 H]; [constructor|].
  change (removelast (x :: x2 :: l)) with (x :: removelast (x2 :: l)). change (removelast (y :: y2 :: r)) with (y :: removelast (y2 :: r)). now constructor.
Qed.
Lemma declared_field_of : forall f, exists d l, declared_field f = d :: l /\ snd d = f.
Proof. intros f. unfold declared_field. destruct (f_names f); cbn [map]; eexists; eexists; split; reflexivity. Qed.
Lemma declared_field_last : forall f, exists l d, declared_field f = l ++ [d] /\ snd d = f.
Proof.
  intros f. unfold declared_field. destruct (f_names f) as [|n ns]; [exists [], ("", f); split; reflexivity|].
  destruct (@exists_last _ (n :: ns)) as (l & k & ->); [discriminate|]. rewrite map_app. cbn [map]. eexists. eexists. split; reflexivity.
Qed.
(** a context whose type is printed as that of package context is one *)
Theorem C79_marks : forall O pr gts gps name fi m ps rs, NewMethod O pr gts gps name fi = Ok m -> f_type fi = FuncT ps rs ->
  variadic_last ps rs -> pr (Ident "error") = Ok "error" -> ~ In "error" (tp_names gts) ->
  (forall f l x, ps = f :: l -> f_type f = Selector x "Context" -> pr (f_type f) = Ok "context.Context") -> ~ In "context.Context" (tp_names gts) ->
  well_typed m.
Proof.
  intros O pr gts gps name fi m ps rs H F (V1 & V2) E1 E2 C1 C2. destruct (C02_signature _ _ _ _ _ _ _ _ _ H F) as (_ & HP & HR).
  split; [|split; [|split]].
  - intros A. destruct (C04_ctx _ _ _ _ _ _ _ _ _ H F) as [[K _] K2]. destruct (K A) as (f & l & x & -> & T). destruct (K2 A) as (p & r & E & N & _).
    specialize (C1 f l x eq_refl T). cbn [declared flat_map] in HP. destruct (declared_field_of f) as (d & dl & Ed & Es). rewrite Ed, E in HP. cbn [app] in HP.
    inversion HP as [|? ? ? ? He HP2]; subst. destruct He as ((s & Hs & Hi) & Hv & _). exists p. split; [rewrite E; now left|]. split; [exact N|].
    rewrite C1 in Hs. injection Hs as <-. split; [exact (inst_same _ _ _ _ C2 Hi)|].
    destruct (p_variadic p); [|reflexivity]. destruct (proj1 Hv eq_refl) as (e & Q). congruence.
  - intros A. destruct (C04_err _ _ _ _ _ _ _ _ _ H F) as ([K _] & K2 & _). destruct (K A) as (l & f & -> & T). destruct (K2 A) as (r & p & E & N & _).
    cbn [declared_opt] in HR. unfold declared in HR. rewrite flat_map_app in HR. cbn [flat_map] in HR. rewrite app_nil_r in HR.
    destruct (declared_field_last f) as (dl & d & Ed & Es). rewrite Ed, E, app_assoc in HR. apply Forall2_app_inv_l in HR as (r1 & r2 & _ & HR & Er).
    inversion HR as [|? q ? ? He HR2]; subst. inversion HR2; subst. apply app_inj_tail in Er as [_ <-].
    destruct He as ((s & Hs & Hi) & Hv & _). exists p. split; [rewrite E; apply in_or_app; right; now left|]. split; [exact N|].
    rewrite T, E1 in Hs. injection Hs as <-. split; [exact (inst_same _ _ _ _ E2 Hi)|].
    destruct (p_variadic p); [|reflexivity]. destruct (proj1 Hv eq_refl) as (e & Q). congruence.
  - intros p Hp. destruct (both_in _ _ _ (both_removelast _ _ _ HP) p Hp) as (d & Hd & _ & Hv & _).
    destruct (p_variadic p); [|reflexivity]. destruct (proj1 Hv eq_refl) as (e & Q). destruct (V1 d e Hd Q).
  - intros p Hp. destruct (both_in _ _ _ HR p Hp) as (d & Hd & _ & Hv & _).
    destruct (p_variadic p); [|reflexivity]. destruct (proj1 Hv eq_refl) as (e & Q). destruct (V2 d e Hd Q).
Qed.

Print Assumptions C79_typed_partial.
Print Assumptions C79_marks.
