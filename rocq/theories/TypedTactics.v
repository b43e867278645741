(** Tactics for the rules of Typing.v. *)
From Verif Require Import Render TypesSpec TypesProofs PropNaming PropImplements PropClashes PropScope ScopingProofs ScopedFiles ScopedBodies.
From Verif Require Import TypedFiles.
Open Scope nat_scope.

Definition clear_of (l xs : list string) : Prop := forall x, In x xs -> ~ In x l.

Lemma param_apart : forall m xs p x, clear_of (map fst (sig_block m)) xs -> In p (m_params m) -> In x xs -> x = p_name p -> False.
Proof. intros m xs p x K P Hx ->. apply (K _ Hx). apply (in_map fst _ _ (sig_param m p P)). Qed.
Lemma result_apart : forall m xs p x, clear_of (map fst (sig_block m)) xs -> In p (m_results m) -> In x xs -> x = p_name p -> False.
Proof. intros m xs p x K P Hx ->. apply (K _ Hx). apply (in_map fst _ _ (sig_result m p P)). Qed.

(** the type of span decorators (templates/opencensus:11, opentelemetry:17, opentracing:13) *)
Definition decorates (span : ty) : ty := TyFunc [span; TyMap t_string t_empty; TyMap t_string t_empty] None [].
Lemma span_decorator_denotes : forall typ top G star p n sp, denotes typ top G (star ++ dotted p n) sp -> bound G "string" (EType t_string) ->
  denotes typ top G (t_span_decorator star p n) (decorates sp).
Proof.
  intros typ top G star p n sp H S.
  pose proof (dn_map typ top G _ _ _ _ (dn_name typ top G (id "string") t_string S) (dn_empty typ top G)) as M.
  pose proof (dn_func typ top G _ _ _ _ (dp_more typ top G ["span"] _ _ _ _ H (dp_last typ top G ["params"; "results"] _ _ M)) (dr_none typ top G)) as F.
  unfold decorates. cbn in F |- *. rewrite <- !app_assoc in F. exact F.
Qed.

(** the functions of elasticapm decorators (templates/elasticapm:14-17) *)
Definition apm_span : ty := TyPtr (TyQual apm_path "Span").
Definition apm_start_ty : ty := TyFunc [t_ctx; t_string; t_string] None [apm_span; t_ctx].
Definition apm_end_ty : ty := TyFunc [apm_span] None [].
Definition apm_label_ty : ty := TyFunc [apm_span; t_string; t_empty] None [].
Definition apm_error_ty : ty := TyFunc [t_ctx; t_error] None [].
Lemma apm_fields_denote : forall typ top G, bound G "context" (EPkg "context") -> bound G "apm" (EPkg apm_path) ->
  bound G "string" (EType t_string) -> bound G "error" (EType t_error) ->
  denotes typ top G (skipn 1 (nth 1 (elasticapm_fields typ) [])) apm_start_ty /\
  denotes typ top G (skipn 1 (nth 2 (elasticapm_fields typ) [])) apm_end_ty /\
  denotes typ top G (skipn 1 (nth 3 (elasticapm_fields typ) [])) apm_label_ty /\
  denotes typ top G (skipn 1 (nth 4 (elasticapm_fields typ) [])) apm_error_ty.
Proof.
  intros typ top G HC HA HS HE.
  assert (DC : denotes typ top G (dotted "context" "Context") t_ctx) by (eapply dn_qual; [exact HC | right; right; right; left; reflexivity]).
  assert (DP : denotes typ top G (TP "*" :: dotted "apm" "Span") apm_span) by (apply dn_ptr; eapply dn_qual; [exact HA | unfold lib_types; repeat first [left; reflexivity | right]]).
  assert (DS : denotes typ top G (kw "string") t_string) by (apply (dn_name typ top G (id "string")); exact HS).
  assert (DE : denotes typ top G (kw "error") t_error) by (apply (dn_name typ top G (id "error")); exact HE).
  pose proof (dn_empty typ top G) as DA.
  pose proof (dn_func typ top G _ _ _ _ (dp_more typ top G ["ctx"] _ _ _ _ DC (dp_last typ top G ["name"; "spanType"] _ _ DS)) (dr_two typ top G _ _ _ _ DP DC)) as F1.
  pose proof (dn_func typ top G _ _ _ _ (dp_last typ top G ["span"] _ _ DP) (dr_none typ top G)) as F2.
  pose proof (dn_func typ top G _ _ _ _ (dp_more typ top G ["span"] _ _ _ _ DP (dp_more typ top G ["key"] _ _ _ _ DS (dp_last typ top G ["value"] _ _ DA))) (dr_none typ top G)) as F3.
  pose proof (dn_func typ top G _ _ _ _ (dp_more typ top G ["ctx"] _ _ _ _ DC (dp_last typ top G ["err"] _ _ DE)) (dr_none typ top G)) as F4.
  split; [exact F1|]. split; [exact F2|]. split; [exact F3 | exact F4].
Qed.
Lemma apm_fields_typed : forall typ dec top, bound top "context" (EPkg "context") -> bound top "apm" (EPkg apm_path) ->
  bound top "string" (EType t_string) -> bound top "error" (EType t_error) ->
  let fs := [(dec, elasticapm_fields typ)] in
  field typ fs top dec "startSpan" apm_start_ty /\ field typ fs top dec "endSpan" apm_end_ty /\
  field typ fs top dec "setLabel" apm_label_ty /\ field typ fs top dec "captureError" apm_error_ty.
Proof.
  intros typ dec top HC HA HS HE fs. destruct (apm_fields_denote typ top top HC HA HS HE) as (F1 & F2 & F3 & F4).
  split; [|split; [|split]].
  - eapply fd; [left; reflexivity | right; left; reflexivity | | exact F1]. apply (lf_one typ (id "startSpan") (skipn 1 (nth 1 (elasticapm_fields typ) []))); discriminate.
  - eapply fd; [left; reflexivity | do 2 right; left; reflexivity | | exact F2]. apply (lf_one typ (id "endSpan") (skipn 1 (nth 2 (elasticapm_fields typ) []))); discriminate.
  - eapply fd; [left; reflexivity | do 3 right; left; reflexivity | | exact F3]. apply (lf_one typ (id "setLabel") (skipn 1 (nth 3 (elasticapm_fields typ) []))); discriminate.
  - eapply fd; [left; reflexivity | do 4 right; left; reflexivity | | exact F4]. apply (lf_one typ (id "captureError") (skipn 1 (nth 4 (elasticapm_fields typ) []))); discriminate.
Qed.

(** ** Tactics *)
Ltac in_list := first [ eassumption | solve [ try unfold universe; repeat first [left; reflexivity | right; first [eassumption | idtac]] ] ].
Ltac mem_ := cbn [In app map fst snd]; solve [auto 40].
(** a name is not one of a block *)
Ltac absent := first [ match goal with K : ~ In ?x ?l |- ~ In ?x (map fst ?b) => let l' := eval cbn in (map fst b) in unify l l'; exact K end | absent_
  ]
with absent_ := 
  let H := fresh "H" in intros H; cbn [map fst app In val_of] in H;
  repeat match type of H with _ \/ _ => destruct H as [H|H]; [first [discriminate H | exfalso; solve [clash H]]|] end;
  first [ exact H
        | match goal with K : clear_of _ ?xs |- _ => refine (K _ _ H); mem_ end
        | destruct H ]
with clash H := match goal with
  | K : ~ In ?d ?l |- _ => lazymatch type of H with _ = d => apply K; rewrite <- H; mem_ | d = _ => apply K; rewrite H; mem_ end
  | K : clear_of (map fst (sig_block ?m)) _, P : In ?p (m_params ?m) |- _ => refine (param_apart m _ p _ K P _ H); mem_
  | K : clear_of (map fst (sig_block ?m)) _, P : In ?p (m_results ?m) |- _ => refine (result_apart m _ p _ K P _ H); mem_
  end.
Ltac bnd := lazymatch goal with
  | |- bound (?b :: ?G) _ _ => first [ eassumption | apply bound_here; solve [in_list] | apply bound_out; [solve [absent] | bnd] ]
  | |- _ => eassumption
  end.
Ltac lib := unfold lib_values, lib_types, lib_members, lib_errors; solve [ repeat first [left; reflexivity | right] ].
Ltac vis := let y := fresh in let Hy := fresh in intros y Hy; try match goal with K : forall x, In x (type_ids _) -> ~ In x _ |- _ => pose proof (K _ Hy) end;
  repeat first [apply os_top | apply os_out; [solve [absent] |]].
Ltac dn := match goal with
  | |- denotes ?typ _ _ [TW [PH ?typ]] _ => apply dn_interface; vis
  | |- denotes _ _ _ t_any _ => apply dn_empty
  | |- denotes _ _ _ (t_span_decorator _ _ _) _ => eapply span_decorator_denotes; [cbn [app]; dn | bnd]
  | |- denotes _ _ _ [TW [PS "interface"]; TP "{"; TP "}"] _ => apply dn_empty
  | |- denotes _ _ _ [TW [PS "struct"]; TP "{"; TP "}"] _ => apply dn_unit
  | |- denotes _ _ _ t_validator _ => apply (dn_iface _ _ _ "Validate" (kw "error")); dn
  | |- denotes _ _ _ (hole _) _ => apply dn_interface; vis
  | |- denotes _ _ _ (TP "*" :: ?l) _ => apply (dn_ptr _ _ _ l); dn
  | |- denotes _ _ _ (TP "[" :: TP "]" :: ?l) _ => apply (dn_slice _ _ _ l); dn
  | |- denotes _ _ _ [TW [PS "func"]; TP "("; TP ")"] _ => apply (dn_func _ _ _ [] [] [] []); [apply dp_none | apply dr_none]
  | |- denotes _ _ _ (TW [PS "chan"] :: ?l) _ => apply (dn_chan _ _ _ l); dn
  | |- denotes _ _ _ [TW [PS ?p]; TP "."; TW [PS ?n]] _ => eapply (dn_qual _ _ _ p _ n); [bnd | lib]
  | |- denotes _ _ _ [TW ?w] _ => eapply (dn_name _ _ _ w); change (wtext w) with ltac:(let x := eval cbn in (wtext w) in exact x); rewrite ?sapp_nil_r; bnd
  | |- denotes _ _ _ ?l _ => let x := eval vm_compute in l in progress change l with x; dn
  end.




Ltac line_ := first [ eapply lf_first | eapply lf_second | eapply lf_one; discriminate
  | match goal with E : base_name ?typ = ?f |- line_field _ (hole ?typ) ?f _ => rewrite <- E; apply lf_embedded end ].
Ltac pick_line := (left; reflexivity) + (right; pick_line).
Ltac fld := first [eassumption | once (eapply fd; [ solve [in_list] | pick_line | line_ | dn ])].
Ltac num := first [ apply n_int | apply n_uint32 | apply n_float | apply n_lib; lib ].
Ltac intf := first [ apply if_error | apply if_lit | apply if_typ | apply if_lib; lib ].
Ltac nilab := first [ apply nl_ptr | apply nl_slice | apply nl_chan | apply nl_map | apply nl_func | apply nl_iface; intf ].
Ltac asg := match goal with
  | |- assignable _ _ _ ?t ?t => apply as_same
  | |- assignable _ _ _ _ t_empty => apply as_empty
  | |- assignable _ _ _ _ (TyIface []) => apply as_empty
  | |- assignable _ _ _ TNil _ => apply as_nil; nilab
  | |- assignable _ _ _ TInt _ => apply as_num; num
  | |- assignable _ _ _ TString _ => apply as_str
  | |- assignable _ _ _ TBool _ => apply as_bool
  | |- _ => first [ apply as_same | apply as_error; lib
                  | apply as_to; [eassumption | constructor]
                  | apply as_from; [apply un_lib; lib | constructor] | apply as_to; [apply un_lib; lib | constructor] 
                  | apply as_from; [eapply un_alias; [solve [in_list] | dn] | constructor] | apply as_to; [eapply un_alias; [solve [in_list] | dn] | constructor] ]
  end.
Ltac mbr := match goal with |- member _ _ _ _ ?t _ _ => let u := eval hnf in t in change t with u end;
  lazymatch goal with
  | |- member _ _ _ _ (TyQual _ _) _ _ => eapply mb_lib; lib
  | |- member _ _ _ _ (TyPtr (TyQual _ _)) _ _ => eapply mb_lib_ptr; [lib | lib]
  | |- member _ _ _ _ (TyName "error") _ _ => apply mb_error
  | |- member _ _ _ _ (TyName _) _ _ => eapply mb_field; fld
  | |- member _ _ _ _ (TyPtr (TyName _)) _ _ => eapply mb_field_ptr; fld
  | |- member _ _ _ _ (TyStruct _ _) _ _ => eapply mb_local; solve [in_list]
  | |- member _ _ _ _ (TyIface _) _ _ => eapply mb_iface; solve [in_list]
  end.
Ltac rcv := first [ apply rc_chan | apply rc_recv ].
Ltac addr := first [apply ad_var | apply ad_deref | apply ad_sel; addr].
Ltac asgs := lazymatch goal with
  | |- Forall2 _ [] _ => apply Forall2_nil
  | |- Forall2 _ (_ :: _) _ => eapply Forall2_cons; [asg | asgs]
  | |- Forall _ [] => apply Forall_nil
  | |- Forall _ (_ :: _) => apply Forall_cons; [asg | asgs]
  end.
Ltac args := lazymatch goal with |- args_ok _ _ _ ?ps ?v false ?ts =>
    let k := eval cbn in (List.length ps) in
    let a := eval cbn in (firstn k ts) in let b := eval cbn in (skipn k ts) in
    exists a, b; split; [reflexivity|]; split; [asgs | first [reflexivity | asgs]]
  | |- args_ok _ _ _ _ _ true _ => eexists; split; [reflexivity|]; cbn [app]; asgs
  end.
Ltac call_ := first [ apply ca_func | apply ca_under; first [eassumption | apply un_lib; lib | eapply un_alias; [solve [in_list] | dn]] ].
Ltac ex_more := fail.
Ltac st_more := fail.
Ltac ex := lazymatch goal with
  | |- ety _ _ _ _ _ _ (MVar _) _ => eapply t_var; first [bnd | par]
  | |- ety _ _ _ _ _ _ (MSel (MVar _) _) _ => first [ eapply t_pkg; [bnd | lib] | eapply t_sel; [ex | mbr] ]
  | |- ety _ _ _ _ _ _ (MSel _ _) _ => eapply t_sel; [ex | mbr]
  | |- ety _ _ _ _ _ _ MStr _ => apply t_str
  | |- ety _ _ _ _ _ _ MNum _ => apply t_num
  | |- ety _ _ _ _ _ _ MUnit _ => apply t_unit_
  | |- ety _ _ _ _ _ _ (MBin ?op _ _) _ =>
      lazymatch op with
      | "==" => eapply t_eq; [in_list | ex | ex | asg | first [left; reflexivity | right; num]]
      | "!=" => eapply t_eq; [in_list | ex | ex | asg | first [left; reflexivity | right; num]]
      | "<" => eapply t_order; [in_list | ex | ex | asg | num]
      | ">" => eapply t_order; [in_list | ex | ex | asg | num]
      | ">=" => eapply t_order; [in_list | ex | ex | asg | num]
      | "&&" => eapply t_logic; [in_list | ex | ex | asg | asg]
      | "||" => eapply t_logic; [in_list | ex | ex | asg | asg]
      | _ => eapply t_arith; [ex | ex | asg | first [apply ar_add | apply ar_sub; num | apply ar_div; num | apply ar_mod; once constructor]]
      end
  | |- ety _ _ _ _ _ _ (MUn ?op _) _ =>
      lazymatch op with
      | "&" => eapply t_ref; [addr | ex]
      | "*" => eapply t_deref; ex
      | "!" => eapply t_not; ex
      | "<-" => eapply t_recv; [ex | rcv]
      end
  | |- ety _ _ _ _ _ _ (MCall (MVar "len") _ _) _ => eapply t_len; [bnd | ex]
  | |- ety _ _ _ _ _ _ (MCall (MVar "append") _ _) _ => eapply t_append; [bnd | ex | ex | asg]
  | |- ety _ _ _ _ _ _ (MCall (MVar "panic") _ _) _ => eapply t_panic; [bnd | ex]
  | |- ety _ _ _ _ _ _ (MCall _ _ _) _ => eapply t_call; [ex | call_ | exs | args]
  | |- ety _ _ _ _ _ _ (method_call _ _) _ => eapply method_called; [assumption | assumption | ex | params]
  | |- ety _ _ _ _ _ _ (MConv _ _) _ => eapply t_conv; [dn | ex | first [apply cv_assign; asg | apply cv_bytes | apply cv_number; num]]
  | |- ety _ _ _ _ _ _ (MAssert _ _) _ => eapply t_assert; [dn | ex | intf | intf]
  | |- ety _ _ _ _ _ _ (MFun _ _) _ => eapply t_fun; [fparams | nodups | cbn [map combine fst snd val_of]; sts]
  | |- ety _ _ _ _ _ _ (MSlice _ _) _ => eapply t_slice; [dn | exs | slice_elems]
  | |- ety _ _ _ _ _ _ (MDict _) _ => eapply t_dict; [bnd | exs]
  | |- ety _ _ _ _ _ _ (MIndex _ _) _ => eapply t_index; [ex | ex | first [left; reflexivity | right; once constructor]]
  | |- ety _ _ _ _ _ _ (MMake _ _) _ => eapply t_make; [bnd | dn | ex | first [left; reflexivity | right; once constructor]]
  | |- ety _ _ _ _ _ _ (MLit _ _ _) _ => eapply (t_lit _ _ _ _ _ _ _ _ _); [bnd | exf | flds | asgs | nodups]
  | |- _ => ex_more
  end
with exs := lazymatch goal with
  | |- Forall2 _ (names_of _) _ => apply names_typed; params
  | |- Forall2 _ [] _ => apply Forall2_nil
  | |- Forall2 _ (_ :: _) _ => eapply Forall2_cons; [ex | exs]
  end
with exf := lazymatch goal with
  | |- Forall2 _ [] _ => apply Forall2_nil
  | |- Forall2 _ (_ :: _) _ => eapply Forall2_cons; [cbn [snd fst]; ex | exf]
  end
with flds := lazymatch goal with
  | |- Forall2 _ [] _ => apply Forall2_nil
  | |- Forall2 _ (_ :: _) _ => eapply Forall2_cons; [cbn [snd fst]; fld | flds]
  end
with nodups := (cbn [map fst]; repeat (apply NoDup_cons; [absent_|]); apply NoDup_nil)
with fparams := (repeat (eapply Forall2_cons; [cbn [snd]; dn|]); apply Forall2_nil)
with slice_elems := (apply Forall_forall; intros ? _; apply as_empty)
with params := (let p := fresh "p" in let Hp := fresh "Hp" in intros p Hp; par)
with par := lazymatch goal with
  | |- bound (?b :: ?G) (p_name _) _ => first [ apply bound_here; solve [sig_in] | apply bound_out; [solve [absent] | par] ]
  | |- _ => eauto
  end
with sig_in := lazymatch goal with
  | |- In _ (sig_block _) => first [apply sig_param; assumption | apply sig_result; assumption]
  | |- In _ (_ :: _) => right; sig_in
  end
with sts := lazymatch goal with
  | |- stys _ _ _ _ _ _ _ _ [] _ => apply ss_nil
  | |- stys _ _ _ _ _ _ _ _ (_ :: _) _ => eapply ss_cons; [stm | sts]
  | |- _ => eapply passed; [assumption | assumption | ex | params]
  end
with stm := lazymatch goal with
  | |- sty _ _ _ _ _ _ _ _ (DAssign (names_of _) (method_call ?m _)) _ =>
      eapply (called _ _ _ _ _ _ _ _ m _); [assumption | assumption | assumption | ex | params | params]
  | |- sty _ _ _ _ _ _ _ _ (DAssign _ _) _ => eapply s_assign; [lhs | exs | ex | asgs]
  | |- sty _ _ _ _ _ _ _ _ (DDefine _ _) _ => eapply s_define; [ex | def]
  | |- sty _ _ _ _ _ _ _ _ (DVar _ _) _ => eapply s_var; [dn | discriminate | absent]
  | |- sty _ _ _ _ _ _ _ _ (DExpr (MUn _ _)) _ => eapply s_recv; ex
  | |- sty _ _ _ _ _ _ _ _ (DExpr _) _ => eapply s_call; [isc | ex]
  | |- sty _ _ _ _ _ _ _ _ (DBlock _) _ => eapply s_block; sts
  | |- sty _ _ _ _ _ _ _ _ (DIf _ _ _) _ => eapply s_if; [ex | asg | sts | sts]
  | |- sty _ _ _ _ _ _ _ _ (DFor None _ _) _ => eapply s_for; [discriminate | sts | sts]
  | |- sty _ _ _ _ _ _ _ _ (DFor _ _ _) _ => eapply s_for; [let E := fresh in intros ? E; injection E as <-; ex | sts | sts]
  | |- sty _ _ _ _ _ _ _ _ (DEach _ _ _) _ => eapply s_each; [ex | sts]
  | |- sty _ _ _ _ _ _ _ _ (DDrain _ _ _) _ => eapply s_drain; [ex | rcv | sts]
  | |- sty _ _ _ _ _ _ _ _ (DSelect _) _ => apply s_select; let c := fresh in let Hc := fresh in intros c Hc; cbn [In] in Hc;
      sel c Hc
  | |- sty _ _ _ _ _ _ _ _ (DInc _) _ => eapply s_inc; [addr | ex | num]
  | |- sty _ _ _ _ _ _ _ _ (DReturn (map _ _)) _ => st_more
  | |- sty _ _ _ _ _ _ _ _ (DType _ _) _ => st_more
  | |- sty _ _ _ _ _ _ _ _ (DReturn []) _ => apply s_return; first [left; reflexivity | right; reflexivity]
  | |- sty _ _ _ _ _ _ _ _ (DReturn _) _ => eapply s_return_all; [discriminate | exs | asgs]
  | |- sty _ _ _ _ _ _ _ _ (DDefer _) _ => eapply s_defer; [isc | ex]
  | |- sty _ _ _ _ _ _ _ _ (DGo _) _ => eapply s_go; [isc | ex]
  | |- sty _ _ _ _ _ _ _ _ (DSend _ _) _ => eapply s_send; [ex | ex | asg]
  end
with sel c Hc := lazymatch type of Hc with
  | False => destruct Hc
  | _ => destruct Hc as [Hc|Hc]; [subst c; cbn [fst snd]; split; [once constructor | eexists; sts] | sel c Hc]
  end
with lhs := (repeat (apply Forall_cons; [addr|]); apply Forall_nil)
with isc := (first [ apply method_is_call | constructor; discriminate ])
with def := lazymatch goal with
  | |- define _ _ _ _ [] [] _ => apply df_nil
  | |- define _ _ _ _ ("_" :: _) _ _ => eapply df_blank; [deflt | def]
  | |- _ => first [ eapply df_old; [discriminate | solve [in_list] | asg | def] | eapply df_new; [discriminate | absent | deflt | def] ]
  end
with deflt := (first [ apply de_int | apply de_str | apply de_bool | apply de_same; cbn [In]; intuition discriminate ]).

(** ** Bodies *)
Definition body_typed (typ : string) (methods : list method) (structs : list (string * list (list gtok))) (aliases : list (string * list gtok)) (top : env)
    (recv : ty) (m : method) (body : list st) : Prop :=
  exists b, stys typ methods structs aliases top (true, result_tys m) top (("_d", EVal recv) :: sig_block m) body b.
Ltac start := intros;
  match goal with W : well_typed ?m |- _ =>
    let V1 := fresh "V1" in let V2 := fresh "V2" in
    pose proof W as (_ & _ & V1 & V2);
    try match goal with E : m_acceptsContext m = true |- _ => pose proof (sig_ctx m W E) end;
    try match goal with E : m_returnsError m = true |- _ => pose proof (sig_err m W E) end end.
Ltac run := lazymatch goal with |- body_typed _ _ _ _ _ _ _ _ => eexists | |- _ => idtac end;
  repeat match goal with x := _ : list (list (string * ent)) |- _ => subst x end;
  cbn -[sig_block names_of method_call result_tys universe retry_fields t_any t_validator t_span_decorator]; rewrite ?app_nil_r, ?sapp_nil_r; sts.


(** ** Functions *)
Ltac ptys := lazymatch goal with
  | |- params_typed _ _ [] _ => apply pt_nil
  | |- params_typed _ _ ((_, []) :: _) _ => eapply pt_shared; ptys
  | |- params_typed _ _ [(_, dots _)] _ => eapply pt_dots; dn
  | |- params_typed _ _ (_ :: _) _ => eapply pt_one; [dn | ptys]
  end.
Ltac dres := lazymatch goal with
  | |- dn_results _ _ _ [TP "("; TP "*"; ?d; TP ","; ?e; TP ")"] _ => eapply (dr_two _ _ _ [TP "*"; d] _ [e]); dn
  | |- dn_results _ _ _ [TP "("; TP "*"; ?d; TP ")"] _ => eapply (dr_paren _ _ _ [TP "*"; d]); dn
  | |- dn_results _ _ _ [] _ => apply dr_none
  | |- dn_results _ _ _ _ _ => eapply dr_one; dn
  end.
Ltac func := unfold code_typed; cbn [f_params f_results f_body ct_params ct_fields]; do 2 eexists; split; [ptys|]; split; [cbn [app kw]; dres|]; split; [cbn [map fst snd val_of combine]; nodups|];
  eexists; cbn -[universe t_any t_span_decorator]; rewrite ?app_nil_r, ?sapp_nil_r; sts.
