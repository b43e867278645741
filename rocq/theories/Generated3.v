(** What the elasticapm template generates. *)
From Verif Require Import Render.
From Verif Require Export Generated2.
Open Scope nat_scope.

(** the tokens of Go text with inserted values *)
Definition listing (c : list chunk) : list gtok := fst (lex_chunks (at_line false) c).

Definition s_elasticapm := Eval vm_compute in sections text_elasticapm.
Definition elasticapm_head (dec opt comp typ : string) : list (list gtok) :=
  [import_decl [imp "context"; imp "go.elastic.co/apm/v2"];
   struct_decl dec
     [kw "base" ++ hole typ;
      listing [CT "startSpan func(ctx context.Context, name, spanType string) (*apm.Span, context.Context) "];
      listing [CT "endSpan func(span *apm.Span) "];
      listing [CT "setLabel func(span *apm.Span, key string, value interface{}) "];
      listing [CT "captureError func(ctx context.Context, err error) "];
      kw "spanType" ++ kw "string"];
   listing [CT "type "; CV opt; CT " func (v *"; CV dec; CT ") "];
   listing [CT "func "; CV dec; CT "WithUsingSetLabel() "; CV opt; CT " {
     return func(v *"; CV dec; CT ") {
       v.setLabel = func(span *apm.Span, key string, value interface{}) {
         span.SpanData.Context.SetLabel(key, value)
       }
     }
   }"];
   listing [CT "func "; CV dec; CT "WithSpanType(spanType string) "; CV opt; CT " {
     return func(v *"; CV dec; CT ") {
       v.spanType = spanType
     }
   }"];
   listing [CT "func New"; CV dec; CT "(base "; CV typ; CT ", opts ..."; CV dec; CT "Option) "; CV dec; CT " {
     r := "; CV dec; CT " {
       base: base,
       startSpan: apm.StartSpan,
       endSpan: func(span *apm.Span) {
         span.End()
       },
       setLabel: func(span *apm.Span, key string, value interface{}) {
       },
       captureError: func(ctx context.Context, err error) {
         apm.CaptureError(ctx, err).Send()
       },
       spanType: """; CV comp; CT """,
     }
     for _, fn := range opts {
       fn(&r)
     }
     return r
   }"]].

(** the context, when a method takes one, is its first parameter, called ctx
    (types.go:40-58; proved of every loaded method in PropNaming.v) *)
Definition ctx_first (m : method) : Prop :=
  m_acceptsContext m = true -> exists p r, m_params m = p :: r /\ p_name p = "ctx".

(** the component as [printf "%s"] shows it *)
Definition component_shown (vars : list (string * varval)) (dflt : string) : string :=
  match var_value "ComponentName" vars with
  | Some VTrue => "%!s(bool=true)"
  | _ => or_var "ComponentName" vars dflt
  end.
Lemma sprintf_component : forall vars dflt n,
  sprintf "%s.%s" [or_val "ComponentName" vars dflt; DStr n] = TOk (component_shown vars dflt ++ "." ++ n)%string.
Proof.
  intros vars dflt n. unfold component_shown, or_val. destruct (var_value "ComponentName" vars) as [[|s]|]; cbn;
  now rewrite ?sapp_nil_r.
Qed.

(** the tokens of the method: its first two statements, the labels, the call *)
Lemma elasticapm_method : forall m dec p0 r snake comp,
  m_params m = p0 :: r -> String.eqb (p_name p0) "ctx" = true ->
  [method_toks [] dec m (btoks m (elasticapm_body snake comp m))] =
  [(method_open dec m ++ btoks m (firstn 2 (elasticapm_body snake comp m)))
   ++ glue true (flat_map (fun p => if negb (String.eqb (p_name p) "ctx")
        then [stoks m (SExpr (call (d_ .: "setLabel") [var "span"; EStr [PH (snake (p_name p))]; EVar [PH (p_name p)]]))]
        else []) r)
   ++ (due true ++ [TW [PH (Pass "_d.base." m)]; TP "}"])].
Proof.
  intros m dec p0 r snake comp Hp E. f_equal. rewrite flat_map_filter. unfold elasticapm_body, elasticapm_deferred.
  rewrite Hp. cbn [filter]. rewrite E. cbn [negb].
  rewrite app_assoc, btoks_app. rewrite map_app, glue_app. unfold method_toks.
  change (method_open dec m) with (kw "func" ++ [TP "("; TW (id "_d"); TW [PH dec]; TP ")"; TW [PH (Declaration m)]; TP "{"]).
  rewrite map_map. cbn [some map app firstn]. unfold btoks. rewrite semis_glue.
  cbn [map]. rewrite <- !app_assoc. reflexivity.
Qed.

Theorem elasticapm_generated : forall lower upper t,
  (forall m, In m (map snd (td_methods t)) -> ctx_first m) ->
  let dec := decorator t "APMTracing" in
  let opt := or_var "DecoratorName" (td_vars t) (td_name t ++ "APMTracingOption")%string in
  let comp := or_var "ComponentName" (td_vars t) (go_lower lower (td_name t)) in
  generates lower upper text_elasticapm t
    (elasticapm_head dec opt comp (td_type t)
     ++ flat_map (fun m => if m_acceptsContext m
                           then [method_toks [] dec m (btoks m (elasticapm_body (toSnakeCase lower) (component_shown (td_vars t) (go_lower lower (td_name t))) m))] else [])
                 (sorted_methods t) ++ []).
Proof.
  intros lower upper t Hctx. cbv zeta.
  apply (generates_intro lower upper text_elasticapm t s_elasticapm
    (("component", or_val "ComponentName" (td_vars t) (go_lower lower (td_name t)))
     :: ("decorator_option", or_val "DecoratorName" (td_vars t) (td_name t ++ "APMTracingOption")%string)
     :: decorator_env t "APMTracing")); cbn [s_elasticapm fst snd].
  - vm_compute. reflexivity.
  - unfold decorator_env, decorator_val, decorator. steps. decl_or. steps. decl_or. steps.
    eapply walks_decl.
    { unfold eval_cmd. cbn -[first_true or_val go_lower]. rewrite first_true_or, ?sapp_nil_r. reflexivity. }
    gen_or "DecoratorName" (td_vars t) (td_name t ++ "APMTracing")%string.
    gen_or "DecoratorName" (td_vars t) (td_name t ++ "APMTracingOption")%string.
    gen_or "ComponentName" (td_vars t) (go_lower lower (td_name t)).
    steps. split; [reflexivity|lx].
  - intros m Hin. apply Hctx in Hin. unfold decorator_env. gen_dec t "APMTracing".
    destruct (m_acceptsContext m) eqn:E0; [|steps; lx].
    destruct (Hin E0) as [p0 [r [Hp Hn]]].
    steps. eapply walks_decl.
    { unfold eval_cmd. cbn -[sprintf or_val]. rewrite sprintf_component. reflexivity. }
    gen_or "ComponentName" (td_vars t) (go_lower lower (td_name t)).
    generalize (component_shown (td_vars t) (go_lower lower (td_name t))). intros comp.
    destruct (m_returnsError m) eqn:E1; steps.
    all: eapply (walks_range_cons _ _ DParam (fun p => if negb (String.eqb (p_name p) "ctx")
           then [stoks m (SExpr (call (d_ .: "setLabel") [var "span"; EStr [PH (toSnakeCase lower (p_name p))]; EVar [PH (p_name p)]]))]
           else []) p0 r); [reflexivity | now rewrite <- Hp |].
    all: assert (E3 : String.eqb (p_name p0) "ctx" = true) by now rewrite Hn.
    all: steps; (split; [ intros p _; destruct (String.eqb (p_name p) "ctx") eqn:E4; steps;
        generalize (toSnakeCase lower (p_name p)); intros; lx | intros o Ho ]).
    all: steps.
    all: mid_norm; match goal with Ho : lexes ?o _ |- _ => split_mid o end; rewrite (elasticapm_method m s p0 r) by assumption.
    all: match goal with |- lexes (?a ++ ?o ++ ?b) [?x ++ glue true ?l ++ ?y] =>
           apply (lexes_mid_due a o b [] x true l (fun d => due d ++ [TW [PH (Pass "_d.base." m)]; TP "}"]) []) end.
    all: first [assumption | intros []; vm_compute; reflexivity | idtac].
    all: unfold elasticapm_body, elasticapm_deferred; rewrite E1; intros []; vm_compute; reflexivity.
  - steps. lx.
Qed.
