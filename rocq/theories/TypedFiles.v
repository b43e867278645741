(** The statement of C79 (the functions of generated files obey Go's rules for
    types): the declarations of a file, and lemmas. *)
From Verif Require Import Render TypesSpec TypesProofs PropNaming PropImplements PropClashes PropScope ScopingProofs ScopedFiles ScopedBodies.
From Verif Require Export Typing.
Open Scope nat_scope.

(** ** The names of a file *)

(** predeclared identifiers that the templates use *)
Definition universe : block :=
  [("nil", EVal TNil); ("true", EVal TBool); ("string", EType t_string); ("error", EType t_error); ("bool", EType t_bool);
   ("int", EType t_int); ("uint32", EType (TyName "uint32")); ("float64", EType (TyName "float64"));
   ("len", EBuiltin); ("append", EBuiltin); ("make", EBuiltin); ("panic", EBuiltin)].

(** the types and values the package declares for the generated file *)
Record decls_of := DeclsOf {
  pd_structs : list (string * list (list gtok));
  pd_aliases : list (string * list gtok);
  pd_values : list (string * ty)
}.
Definition package_block (d : decls_of) : block :=
  map (fun n => (n, EType (TyName n))) (map fst (pd_structs d) ++ map fst (pd_aliases d)) ++ map val_of (pd_values d).

Definition unquoted (s : string) : string :=
  match s with String _ r => substring 0 (String.length r - 1) r | _ => s end.
Definition import_entry (i : importspec) : string * ent := (import_name i, EPkg (unquoted (im_path i))).
(** packages found by goimports *)
Definition found_imports (text : string) : list importspec :=
  if String.eqb text text_fallback then [plainly "context"] else if String.eqb text text_twirp_error then [plainly "encoding/json"] else [].
Definition file_env (imports : list importspec) (d : decls_of) : env := [map import_entry imports; package_block d; universe].

(** ** What NewMethod guarantees about types (C79_marks) *)
Definition well_typed (m : method) : Prop :=
  (m_acceptsContext m = true -> exists p, In p (m_params m) /\ p_name p = "ctx" /\ p_type p = "context.Context" /\ p_variadic p = false) /\
  (m_returnsError m = true -> exists p, In p (m_results m) /\ p_name p = "err" /\ p_type p = "error" /\ p_variadic p = false) /\
  (forall p, In p (removelast (m_params m)) -> p_variadic p = false) /\
  (forall p, In p (m_results m) -> p_variadic p = false).

(** ** Lemmas *)
Section LEMMAS.
Variable typ : string.
Variable methods : list method.
Variable structs : list (string * list (list gtok)).
Variable aliases : list (string * list gtok).
Variable top : env.
Notation ety := (ety typ methods structs aliases top).
Notation sty := (sty typ methods structs aliases top).
Notation stys := (stys typ methods structs aliases top).
Notation assignable := (assignable typ aliases top).

Lemma names_typed : forall G l, (forall p, In p l -> bound G (p_name p) (EVal (param_ty p))) ->
  Forall2 (fun e u => ety G e [u]) (names_of l) (map param_ty l).
Proof.
  intros G l H. unfold names_of. induction l as [|p l IH]; cbn [map]; constructor.
  - apply t_var. apply H. now left.
  - apply IH. intros q Hq. apply H. now right.
Qed.
Lemma same_all : forall l, Forall2 assignable l l.
Proof. induction l; constructor; [apply as_same | assumption]. Qed.
Lemma sig_args : forall l, (forall p, In p (removelast l) -> p_variadic p = false) ->
  let (a, v) := params_sig l in args_ok typ aliases top a v (existsb p_variadic l) (map param_ty l).
Proof.
  induction l as [|p l IH]; intros H.
  - cbn. exists [], []. repeat split; constructor.
  - destruct l as [|q l].
    + cbn [params_sig existsb map]. unfold param_ty. destruct (p_variadic p) eqn:E; cbn [orb args_ok].
      * eexists. split; [reflexivity|]. repeat constructor.
      * exists [text_ty (p_type p)], []. repeat split; repeat constructor.
    + assert (Hp : p_variadic p = false) by (apply H; cbn; now left).
      assert (K : forall x, In x (removelast (q :: l)) -> p_variadic x = false) by (intros x Hx; apply H; change (removelast (p :: q :: l)) with (p :: removelast (q :: l)); now right).
      specialize (IH K).
      change (params_sig (p :: q :: l)) with (let (a, v) := params_sig (q :: l) in (text_ty (p_type p) :: a, v)).
      change (existsb p_variadic (p :: q :: l)) with (p_variadic p || existsb p_variadic (q :: l)). rewrite Hp. cbn [orb].
      change (map param_ty (p :: q :: l)) with (param_ty p :: map param_ty (q :: l)).
      destruct (params_sig (q :: l)) as [a v]. unfold param_ty at 1. rewrite Hp. unfold args_ok in *.
      destruct (existsb p_variadic (q :: l)).
      * destruct IH as (t & -> & IH). exists t. split; [reflexivity|]. constructor; [apply as_same | exact IH].
      * destruct IH as (x & y & Exy & IH & Y). exists (text_ty (p_type p) :: x), y. rewrite Exy. repeat split; [|exact Y]. constructor; [apply as_same | exact IH].
Qed.
Lemma method_called : forall G m recv, In m methods -> (forall p, In p (removelast (m_params m)) -> p_variadic p = false) ->
  ety G recv [TyName typ] -> (forall p, In p (m_params m) -> bound G (p_name p) (EVal (param_ty p))) ->
  ety G (method_call m recv) (result_tys m).
Proof.
  intros G m recv Hm Hv Hr Hp. unfold method_call. pose proof (sig_args _ Hv) as A.
  pose proof (mb_method typ methods structs top m Hm) as M. unfold method_ty in M.
  destruct (params_sig (m_params m)) as [a v]. eapply t_call.
  - eapply t_sel; [exact Hr | exact M].
  - apply ca_func.
  - apply names_typed. exact Hp.
  - exact A.
Qed.
Lemma method_is_call : forall m recv, is_call (method_call m recv).
Proof. intros. unfold method_call. constructor; discriminate. Qed.
Lemma result_params : forall l, (forall p, In p l -> p_variadic p = false) -> map (fun r => text_ty (p_type r)) l = map param_ty l.
Proof.
  intros l H. apply map_ext_in. intros p Hp. unfold param_ty. now rewrite (H p Hp).
Qed.
Lemma all_addressable : forall l, Forall addressable (names_of l).
Proof. intros l. unfold names_of. induction l; constructor; [constructor | assumption]. Qed.
Lemma stys_app : forall R G b l1 b1 l2 b2, stys R G b l1 b1 -> stys R G b1 l2 b2 -> stys R G b (l1 ++ l2) b2.
Proof.
  intros R G b l1. revert b. induction l1 as [|s l1 IH]; intros b b1 l2 b2 H1 H2; inversion H1; subst; [exact H2|].
  cbn [app]. eapply ss_cons; [eassumption | eapply IH; eassumption].
Qed.
(** the same statement for each of a list *)
Lemma stys_each : forall {A} R G b (f : A -> list st) l, (forall x, In x l -> stys R G b (f x) b) -> stys R G b (flat_map f l) b.
Proof.
  intros A R G b f l H. induction l as [|x l IH]; cbn [flat_map]; [apply ss_nil|].
  eapply stys_app; [apply H; now left | apply IH; intros y Hy; apply H; now right].
Qed.
(** the last statement: Pass *)
Definition pass_st (m : method) (r : tm) : list st :=
  match m_results m with [] => [DExpr (method_call m r); DReturn []] | _ => [DReturn [method_call m r]] end.
Lemma passed : forall G b m r named, In m methods -> (forall p, In p (removelast (m_params m)) -> p_variadic p = false) ->
  ety (b :: G) r [TyName typ] -> (forall p, In p (m_params m) -> bound (b :: G) (p_name p) (EVal (param_ty p))) ->
  stys (named, result_tys m) G b (pass_st m r) b.
Proof.
  intros G b m r named Hm Hv Hr Hp. pose proof (method_called _ _ _ Hm Hv Hr Hp) as C. unfold pass_st.
  revert C. generalize (method_is_call m r). generalize (method_call m r). intros c I C.
  unfold result_tys in *. destruct (m_results m) as [|q rs] eqn:E.
  - eapply ss_cons; [eapply s_call; [exact I | exact C]|]. eapply ss_cons; [apply s_return; now right | apply ss_nil].
  - eapply ss_cons; [|apply ss_nil]. eapply s_return_call; [exact I | exact C | discriminate | apply same_all].
Qed.
(** ResultsNames = recv.Call *)
Lemma called : forall R G b m r, In m methods -> (forall p, In p (removelast (m_params m)) -> p_variadic p = false) ->
  (forall p, In p (m_results m) -> p_variadic p = false) ->
  ety (b :: G) r [TyName typ] -> (forall p, In p (m_params m) -> bound (b :: G) (p_name p) (EVal (param_ty p))) ->
  (forall p, In p (m_results m) -> bound (b :: G) (p_name p) (EVal (param_ty p))) ->
  sty R G b (DAssign (names_of (m_results m)) (method_call m r)) b.
Proof.
  intros R G b m r Hm Hv Hr He Hp Hq. eapply s_assign.
  - apply all_addressable.
  - apply names_typed. exact Hq.
  - apply method_called; assumption.
  - unfold result_tys. rewrite (result_params _ Hr). apply same_all.
Qed.
End LEMMAS.

(** the block of a method's parameters and results *)
Definition sig_block (m : method) : block := map param_entry (m_params m) ++ map param_entry (m_results m).
Lemma sig_names : forall m, map fst (sig_block m) = names m.
Proof. intros m. unfold sig_block, names. rewrite map_app, !map_map. reflexivity. Qed.
Lemma sig_param : forall m p, In p (m_params m) -> In (p_name p, EVal (param_ty p)) (sig_block m).
Proof. intros m p H. apply in_or_app. left. apply in_map_iff. exists p. auto. Qed.
Lemma sig_result : forall m p, In p (m_results m) -> In (p_name p, EVal (param_ty p)) (sig_block m).
Proof. intros m p H. apply in_or_app. right. apply in_map_iff. exists p. auto. Qed.
Lemma sig_ctx : forall m, well_typed m -> m_acceptsContext m = true -> In ("ctx", EVal t_ctx) (sig_block m).
Proof.
  intros m (H & _) E. destruct (H E) as (p & Hp & N & T & V). pose proof (sig_param m p Hp) as K. unfold param_ty in K. rewrite N, T, V in K. exact K.
Qed.
Lemma sig_err : forall m, well_typed m -> m_returnsError m = true -> In ("err", EVal t_error) (sig_block m).
Proof.
  intros m (_ & H & _) E. destruct (H E) as (p & Hp & N & T & V). pose proof (sig_result m p Hp) as K. unfold param_ty in K. rewrite N, T, V in K. exact K.
Qed.
