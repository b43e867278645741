(** What each stock template generates: the declarations, token by token, for
    every interface and all variables. *)
From Verif Require Import Render.
From Verif Require Export RenderProofs.
Open Scope nat_scope.

(** the chunks [a], [o], [b] of a goal [lexes (a ++ o ++ b) _] *)
Ltac peel o c :=
  lazymatch c with
  | ?x :: ?c' => let r := peel o c' in constr:(x :: r)
  | o ++ _ => constr:(@nil chunk)
  end.
Ltac after o c := lazymatch c with _ :: ?c' => after o c' | o ++ ?b => b end.
Ltac split_mid o :=
  lazymatch goal with
  | |- lexes ?c ?l => let a := peel o c in let b := after o c in change (lexes (a ++ o ++ b) l)
  end.
Ltac mid_norm := rewrite ?rev_append_mid; cbn [rev app rev_append]; rewrite <- ?app_assoc; cbn [app].

(** the name of the generated type *)
Definition decorator (t : tdata) (suffix : string) : string :=
  or_var "DecoratorName" (td_vars t) (td_name t ++ suffix)%string.
Definition decorator_val (t : tdata) (suffix : string) : tval :=
  or_val "DecoratorName" (td_vars t) (td_name t ++ suffix)%string.
Definition decorator_env (t : tdata) (suffix : string) : tvars :=
  [("decorator", decorator_val t suffix); ("", data_of t)].

Lemma print_decorator : forall t suffix, print_val (decorator_val t suffix) = TOk (decorator t suffix).
Proof. intros. apply print_or_val. Qed.
Ltac gen_dec t suffix :=
  generalize (print_decorator t suffix); generalize (decorator_val t suffix), (decorator t suffix); intros ? ? ?.
Ltac decl_or := eapply walks_decl; [now apply eval_or|].

(** ** retry *)
Definition s_retry := Eval vm_compute in sections text_retry.
Definition retry_ctor (name typ : string) : ctor :=
  Ctor [("base", hole typ); ("retryCount", kw "int"); ("retryInterval", dotted "time" "Duration")]
       [([PH name], "base"); (id "_retryCount", "retryCount"); (id "_retryInterval", "retryInterval")].
Definition retry_head (dec name typ : string) : list (list gtok) :=
  [import_decl [imp "time"];
   struct_decl dec [hole typ; kw "_retryCount" ++ kw "int"; kw "_retryInterval" ++ dotted "time" "Duration"];
   ctor_decl dec (retry_ctor name typ)].

Theorem retry_generated : forall lower upper t,
  let dec := decorator t "WithRetry" in
  generates lower upper text_retry t
    (retry_head dec (td_name t) (td_type t)
     ++ flat_map (fun m => if m_returnsError m then [method_toks [] dec m (btoks m (retry_body (td_name t) m))] else [])
                 (sorted_methods t) ++ []).
Proof.
  intros lower upper t. cbv zeta.
  apply (generates_intro lower upper text_retry t s_retry (decorator_env t "WithRetry")); cbn [s_retry fst snd].
  - vm_compute. reflexivity.
  - unfold decorator_env, decorator_val, decorator. steps. decl_or.
    gen_or "DecoratorName" (td_vars t) (td_name t ++ "WithRetry")%string. steps. split; [reflexivity|lx].
  - intros m _. unfold decorator_env. gen_dec t "WithRetry".
    unfold retry_body, retry_wait; destruct (m_returnsError m) eqn:E1, (m_acceptsContext m) eqn:E2; steps; lx.
  - steps. lx.
Qed.

(** ** timeout *)
Definition s_timeout := Eval vm_compute in sections text_timeout.
Definition timeout_config (dec : string) (ms : list method) : list gtok :=
  kw "type" ++ [TW [PH dec; PS "Config"]] ++ kw "struct" ++ [TP "{"]
  ++ semis (flat_map (fun m => if m_acceptsContext m
                               then [[TW [PH (m_name m); PS "Timeout"]] ++ dotted "time" "Duration"] else []) ms)
  ++ [TP "}"].
Definition timeout_ctor (dec name typ : string) : ctor :=
  Ctor [("base", hole typ); ("config", [TW [PH dec; PS "Config"]])]
       [([PH name], "base"); (id "config", "config")].
Definition timeout_head (dec name typ : string) (ms : list method) : list (list gtok) :=
  [import_decl [imp "context"; imp "time"];
   struct_decl dec [hole typ; kw "config" ++ [TW [PH dec; PS "Config"]]];
   timeout_config dec ms;
   ctor_decl dec (timeout_ctor dec name typ)].

Theorem timeout_generated : forall lower upper t,
  let dec := decorator t "WithTimeout" in
  generates lower upper text_timeout t
    (timeout_head dec (td_name t) (td_type t) (sorted_methods t)
     ++ flat_map (fun m => if m_acceptsContext m then [method_toks [] dec m (btoks m (timeout_body (td_name t) m))] else [])
                 (sorted_methods t) ++ []).
Proof.
  intros lower upper t. cbv zeta.
  apply (generates_intro lower upper text_timeout t s_timeout (decorator_env t "WithTimeout")); cbn [s_timeout fst snd].
  - vm_compute. reflexivity.
  - unfold decorator_env, decorator_val, decorator. steps. decl_or.
    gen_or "DecoratorName" (td_vars t) (td_name t ++ "WithTimeout")%string. steps.
    eapply (walks_range _ _ DMethod
      (fun m => if m_acceptsContext m then [[TW [PH (m_name m); PS "Timeout"]] ++ dotted "time" "Duration"] else [])
      (sorted_methods t)).
    + apply eval_methods.
    + cbn [elements]. rewrite dsort_map, map_map. unfold sorted_methods. now rewrite map_map.
    + intros m _. destruct (m_acceptsContext m) eqn:E; steps; lx.
    + intros o Ho. steps. split; [reflexivity|]. mid_norm. split_mid o.
      unfold timeout_head, timeout_config. rewrite semis_glue.
      apply (lexes_mid _ o _ [import_decl [imp "context"; imp "time"]; struct_decl s [hole (td_type t); kw "config" ++ [TW [PH s; PS "Config"]]]]
               (kw "type" ++ [TW [PH s; PS "Config"]] ++ kw "struct" ++ [TP "{"]) _ (fun _ => [TP "}"])
               [ctor_decl s (timeout_ctor s (td_name t) (td_type t))]).
      * intros []; vm_compute; reflexivity.
      * exact Ho.
      * intros []; vm_compute; reflexivity.
  - intros m _. unfold decorator_env. gen_dec t "WithTimeout".
    destruct (m_acceptsContext m) eqn:E1; steps; lx.
  - steps. lx.
Qed.

(** ** validate, twirp_validate, grpc_validate *)
Definition base_ctor (name typ : string) : ctor := Ctor [("base", hole typ)] [([PH name], "base")].
Definition validate_head (imports : list (list gtok)) (dec name typ : string) : list (list gtok) :=
  match imports with [] => [] | _ => [import_decl imports] end
  ++ [struct_decl dec [hole typ]; ctor_decl dec (base_ctor name typ)].

(** the method up to its body *)
Definition method_open (dec : string) (m : method) : list gtok :=
  kw "func" ++ [TP "("; TW (id "_d"); TW [PH dec]; TP ")"; TW [PH (Declaration m)]; TP "{"].

(** a method whose chunks are an opening, one statement per parameter chosen by
    [p], and a last statement *)
Lemma method_mid : forall a o b dec m (f : param -> gstmt) (p : param -> bool) s,
  (forall d, lex_chunks (at_line d) a = (due d ++ method_open dec m, at_line false)) ->
  lexes o (flat_map (fun x => if p x then [stoks m (f x)] else []) (m_params m)) ->
  (forall d, lex_chunks (at_line d) b = (due d ++ stoks m s ++ [TP "}"], at_line true)) ->
  lexes (a ++ o ++ b) [method_toks [] dec m (btoks m (map f (filter p (m_params m)) ++ [s]))].
Proof.
  intros a o b dec m f p s Ha Ho Hb. rewrite flat_map_filter in Ho.
  replace [method_toks [] dec m (btoks m (map f (filter p (m_params m)) ++ [s]))]
    with ([] ++ [method_open dec m ++ glue false (map (fun x => stoks m (f x)) (filter p (m_params m)))
            ++ (fun d => due d ++ stoks m s ++ [TP "}"]) (some (map (fun x => stoks m (f x)) (filter p (m_params m))))] ++ []).
  - apply (lexes_mid a o b [] (method_open dec m) (map (fun x => stoks m (f x)) (filter p (m_params m)))
             (fun d => due d ++ stoks m s ++ [TP "}"]) []).
    + intros d. rewrite Ha. cbn. now rewrite orb_false_r.
    + exact Ho.
    + intros d. rewrite Hb. cbn [glue]. now rewrite app_nil_r.
  - cbn [app]. f_equal. unfold method_toks. rewrite btoks_app, map_map.
    change (method_open dec m) with (kw "func" ++ [TP "("; TW (id "_d"); TW [PH dec]; TP ")"; TW [PH (Declaration m)]; TP "{"]).
    rewrite <- !app_assoc. cbn [app]. do 8 f_equal. cbv beta. f_equal. f_equal. now destruct (filter p (m_params m)).
Qed.

Definition s_validate := Eval vm_compute in sections text_validate.
Definition s_twirp_validate := Eval vm_compute in sections text_twirp_validate.
Definition s_grpc_validate := Eval vm_compute in sections text_grpc_validate.
Definition s_twirp_error := Eval vm_compute in sections text_twirp_error.

Ltac params_range m ts :=
  eapply (walks_range _ _ DParam ts (m_params m)); [reflexivity | reflexivity | | ].
Ltac bool_steps := unfold not_ctx in *; steps.

Theorem validate_generated : forall lower upper t,
  let dec := decorator t "WithValidation" in
  generates lower upper text_validate t
    (validate_head [] dec (td_name t) (td_type t)
     ++ flat_map (fun m => [method_toks [] dec m (btoks m (validate_body (td_name t) m))]) (sorted_methods t) ++ []).
Proof.
  intros lower upper t. cbv zeta.
  apply (generates_intro lower upper text_validate t s_validate (decorator_env t "WithValidation")); cbn [s_validate fst snd].
  - vm_compute. reflexivity.
  - unfold decorator_env, decorator_val, decorator. steps. decl_or.
    gen_or "DecoratorName" (td_vars t) (td_name t ++ "WithValidation")%string. steps. split; [reflexivity|lx].
  - intros m _. unfold decorator_env. gen_dec t "WithValidation". unfold validate_body, validate_with.
    destruct (m_returnsError m) eqn:E1; [|steps; lx].
    steps. params_range m (fun p => if not_ctx m p then [stoks m (check_param [] p)] else []).
    + intros p _. unfold not_ctx. destruct (m_acceptsContext m) eqn:E2, (String.eqb (p_name p) "ctx") eqn:E3; steps; lx.
    + intros o Ho. steps. mid_norm. steps. mid_norm. split_mid o. eapply method_mid; [| exact Ho |]; intros []; vm_compute; reflexivity.
  - steps. lx.
Qed.

Definition twirp_imports : list (list gtok) := [imp "github.com/twitchtv/twirp"].
Theorem twirp_validate_generated : forall lower upper t,
  let dec := decorator t "WithTwirpValidation" in
  generates lower upper text_twirp_validate t
    (validate_head twirp_imports dec (td_name t) (td_type t)
     ++ flat_map (fun m => [method_toks [] dec m (btoks m (twirp_validate_body (td_name t) m))]) (sorted_methods t) ++ []).
Proof.
  intros lower upper t. cbv zeta.
  apply (generates_intro lower upper text_twirp_validate t s_twirp_validate (decorator_env t "WithTwirpValidation"));
    cbn [s_twirp_validate fst snd].
  - vm_compute. reflexivity.
  - unfold decorator_env, decorator_val, decorator. steps. decl_or.
    gen_or "DecoratorName" (td_vars t) (td_name t ++ "WithTwirpValidation")%string. steps. split; [reflexivity|lx].
  - intros m _. unfold decorator_env. gen_dec t "WithTwirpValidation". unfold twirp_validate_body, validate_with.
    destruct (m_returnsError m) eqn:E1; [|steps; lx].
    steps. match goal with |- context [check_param ?w] =>
      params_range m (fun p => if not_ctx m p then [stoks m (check_param w p)] else []) end.
    + intros p _. unfold not_ctx. destruct (m_acceptsContext m) eqn:E2, (String.eqb (p_name p) "ctx") eqn:E3; steps; lx.
    + intros o Ho. steps. mid_norm. steps. mid_norm. split_mid o. eapply method_mid; [| exact Ho |]; intros []; vm_compute; reflexivity.
  - steps. lx.
Qed.

Definition grpc_imports : list (list gtok) :=
  [kw "grpc_codes" ++ imp "google.golang.org/grpc/codes"; kw "grpc_status" ++ imp "google.golang.org/grpc/status"].
Theorem grpc_validate_generated : forall lower upper t,
  let dec := decorator t "WithGRPCValidation" in
  generates lower upper text_grpc_validate t
    (validate_head grpc_imports dec (td_name t) (td_type t)
     ++ flat_map (fun m => if m_returnsError m then [method_toks [] dec m (btoks m (grpc_validate_body (td_name t) m))] else [])
                 (sorted_methods t) ++ []).
Proof.
  intros lower upper t. cbv zeta.
  apply (generates_intro lower upper text_grpc_validate t s_grpc_validate (decorator_env t "WithGRPCValidation"));
    cbn [s_grpc_validate fst snd].
  - vm_compute. reflexivity.
  - unfold decorator_env, decorator_val, decorator. steps. decl_or.
    gen_or "DecoratorName" (td_vars t) (td_name t ++ "WithGRPCValidation")%string. steps. split; [reflexivity|lx].
  - intros m _. unfold decorator_env. gen_dec t "WithGRPCValidation". unfold grpc_validate_body, validate_with.
    destruct (m_returnsError m) eqn:E1; [|steps; lx].
    steps. match goal with |- context [check_param ?w] =>
      params_range m (fun p => if not_ctx m p then [stoks m (check_param w p)] else []) end.
    + intros p _. unfold not_ctx. destruct (m_acceptsContext m) eqn:E2, (String.eqb (p_name p) "ctx") eqn:E3; steps; lx.
    + intros o Ho. steps. mid_norm. steps. mid_norm. split_mid o. eapply method_mid; [| exact Ho |]; intros []; vm_compute; reflexivity.
  - steps. lx.
Qed.

(** ** twirp_error *)
Definition inject_decl (m : method) : list gtok :=
  kw "func" ++ kw inject ++ [TP "("] ++ kw "req" ++ t_any ++ [TP ","] ++ kw "perr" ++ [TP "*"] ++ kw "error"
  ++ [TP ")"; TP "{"] ++ btoks m inject_body ++ [TP "}"].
(** the function does not depend on a method *)
Definition no_method : method := Method [] [] "" [] [] false false.

Theorem twirp_error_generated : forall lower upper t,
  let dec := decorator t "WithTwirpError" in
  generates lower upper text_twirp_error t
    (validate_head twirp_imports dec (td_name t) (td_type t)
     ++ flat_map (fun m => [method_toks [] dec m (btoks m (twirp_error_body (td_name t) m))]) (sorted_methods t)
     ++ [inject_decl no_method]).
Proof.
  intros lower upper t. cbv zeta.
  apply (generates_intro lower upper text_twirp_error t s_twirp_error (decorator_env t "WithTwirpError"));
    cbn [s_twirp_error fst snd].
  - vm_compute. reflexivity.
  - unfold decorator_env, decorator_val, decorator. steps. decl_or.
    gen_or "DecoratorName" (td_vars t) (td_name t ++ "WithTwirpError")%string. steps. split; [reflexivity|lx].
  - intros m _. unfold decorator_env. gen_dec t "WithTwirpError". unfold twirp_error_body.
    destruct (m_returnsError m) eqn:E1; [|steps; lx].
    steps. params_range m (fun p => if not_ctx m p
      then [stoks m (SDefer (call (var inject) [EVar [PH (p_name p)]; EUn "&" verr]))] else []).
    + intros p _. unfold not_ctx. destruct (m_acceptsContext m) eqn:E2, (String.eqb (p_name p) "ctx") eqn:E3; steps; lx.
    + intros o Ho. steps. mid_norm. steps. mid_norm. split_mid o. eapply method_mid; [| exact Ho |]; intros []; vm_compute; reflexivity.
  - steps. lx.
Qed.
