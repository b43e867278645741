(** C79: generated files that do not compile (what the conditions of
    C79_typed_partial exclude), and an example that meets them. *)
From Verif Require Import PropTyping.
From Verif Require Import Render GenericsProofs TypesSpec TypesProofs PropNaming PropImplements PropClashes PropScope ScopingProofs ScopedFiles ScopedBodies PropScoping.
From Verif Require Import Typing TypedFiles TypedTactics TypedBodies TypedBodies2 TypedBodies3 TypedFallback TypedFallback2 TypedFallback3 TypedFuncs TypedFuncs2.
From Verif Require Import TypesSpec ScopedFiles PropNaming PropScoping.
Open Scope nat_scope.
(** ** Refutations *)

(** a function of the generated file that does not compile, whatever else the
    package declares *)
Definition untypable (lower : N -> N) (t : tdata) (text : string) (more : list (string * list (list gtok))) : Prop :=
  exists cs c dec fields gs specs, codes lower t text cs /\ In c cs /\ builds lower t text dec fields gs /\ In (text, specs) stock_imports /\
    forall P, ~ In (td_type t) (map fst P) ->
    ~ code_typed (td_type t) (map snd (td_methods t)) ((dec, fields) :: more) [] [map import_entry (specs ++ found_imports text); P; universe] c.
Definition method_of (fi : Ast.field) : method := match NewMethod O0 pr0 [] [] "Do" fi with Ok m => m | _ => no_method end.
Definition doer (typ : string) (m : method) (vars : list (string * varval)) : tdata := TData (base_name typ) typ "" "" [("Do", m)] [] vars.
Ltac made_ := match goal with |- made (method_of (named _ (FuncT ?ps ?rs))) =>
  exists O0, pr0, [], [], "Do", (named ["Do"] (FuncT ps rs)), ps, rs; split; [vm_compute; reflexivity|]; split; [reflexivity|];
  split; [split; intros d e Hd; cbn in Hd; repeat destruct Hd as [<-|Hd]; try (destruct Hd; fail); discriminate | split; [vm_compute; reflexivity | intros []]] end.

(** [Do(c gin.Context)] with templates/timeout: a context is any type called
    Context (types.go:99-104) *)
Definition gin_f : Ast.field := named ["Do"] (FuncT [named ["c"] (Selector (Ident "gin") "Context")] None).
Definition gin_t : tdata := doer "pkg.Doer" (method_of gin_f) [].
Ltac inv H := inversion H; subst; clear H.
Lemma bound_split : forall b G x e, bound (b :: G) x e -> In (x, e) b \/ (~ In x (map fst b) /\ bound G x e).
Proof. intros b G x e H. inv H; auto. Qed.
Ltac entry H := unfold lib_values, lib_types in H; cbn [In] in H; repeat match type of H with _ \/ _ => destruct H as [H|H] end; try (destruct H; fail); try discriminate H; injection H; intros; subst; clear H.
Ltac lookup H := let N := fresh in apply bound_split in H as [H|[N H]]; [entry H | first [exfalso; apply N; cbn [map fst]; member_ | clear N; lookup H]].
Ltac st1 := match goal with H : stys _ _ _ _ _ _ _ _ (_ :: _) _ |- _ => inv H end.
Ltac sty1 := match goal with H : sty _ _ _ _ _ _ _ _ _ _ |- _ => inv H end.
Ltac args1 := repeat match goal with H : Forall2 _ (_ :: _) _ |- _ => inv H | H : Forall2 _ [] _ |- _ => inv H end.
Ltac vars1 := repeat match goal with H : ety _ _ _ _ _ _ (MVar _) _ |- _ => inv H end.
Theorem C79_context_refuted : made (method_of gin_f) /\
  untypable (fun x => x) gin_t text_timeout [("DoerWithTimeoutConfig", config_lines [method_of gin_f])].
Proof.
  split; [unfold gin_f; made_|]. eexists. exists (GMethod [] "DoerWithTimeout" (method_of gin_f) (timeout_body "Doer" (method_of gin_f))).
  exists "DoerWithTimeout". eexists. eexists. exists [plainly "context"; plainly "time"].
  split; [apply c_timeout|]. split; [right; left; vm_compute; reflexivity|]. split; [apply b_timeout|].
  split; [unfold stock_imports; member_|]. intros P HP (_ & b & H).
  assert (EI : map import_entry ([plainly "context"; plainly "time"] ++ found_imports text_timeout) = [("context", EPkg "context"); ("time", EPkg "time")]) by (vm_compute; reflexivity).
  rewrite EI in H. clear EI.
  cbn in H. unfold method_block, param_entry in H. cbn in H.
  match type of H with stys _ ?a ?b _ _ _ _ _ _ _ => revert H; generalize a b; intros ms ss H end.
  st1. sty1. st1. sty1. st1. sty1. st1. sty1.
  match goal with H : ety _ _ _ _ _ _ (MCall _ _ _) _ |- _ => inv H end. args1. vars1.
  match goal with H : ety _ _ _ _ _ _ (MSel (MVar _) _) _ |- _ => inv H; [|vars1; match goal with H : bound _ "context" _ |- _ => lookup H end] end.
  match goal with H : bound _ "context" _ |- _ => lookup H end.
  match goal with H : In _ lib_values |- _ => entry H end.
  match goal with H : callable _ _ _ _ _ _ _ |- _ => inv H; [|match goal with H : under _ _ _ _ _ |- _ => inv H end] end.
  match goal with H : args_ok _ _ _ _ _ _ _ |- _ => destruct H as (q1 & q2 & E & F & _) end. inv F. injection E as <- E.
  match goal with H : bound _ "ctx" (EVal y) |- _ => lookup H end.
  match goal with H : assignable _ _ _ (TyName "gin.Context") _ |- _ => inv H end; match goal with H : composite _ |- _ => inversion H end.
Qed.

(** [Do(time int) error] with templates/retry: the parameter hides the package *)
Definition time_f : Ast.field := named ["Do"] (FuncT [named ["time"] (Ident "int")] (Some [anon (Ident "error")])).
Definition time_t : tdata := doer "pkg.Doer" (method_of time_f) [].
Ltac refute_ code dec_ ctor_ build_ specs_ imps_ :=
  eexists; exists code; exists dec_; eexists; eexists; exists specs_; split; [apply ctor_|]; split; [cbn [In]; vm_compute; auto 5|]; split; [apply build_|];
  split; [unfold stock_imports; member_|]; let P := fresh "P" in let HP := fresh "HP" in let H := fresh "H" in intros P HP H;
  let EI := fresh in match type of H with code_typed _ _ _ _ [?i; _; _] _ => assert (EI : i = imps_) by (vm_compute; reflexivity); rewrite EI in H; clear EI end.
Theorem C79_hidden_refuted : made (method_of time_f) /\ untypable (fun x => x) time_t text_retry [].
Proof.
  split; [unfold time_f; made_|].
  refute_ (GMethod [] "DoerWithRetry" (method_of time_f) (retry_body "Doer" (method_of time_f))) "DoerWithRetry" c_retry b_retry [plainly "time"] [("time", EPkg "time")].
  destruct H as (_ & b & H). cbn in H. unfold method_block, param_entry in H. cbn in H.
  st1. st1. st1. sty1. sty1. sty1.
  match goal with H : ety _ _ _ _ _ _ (MCall _ _ _) _ |- _ => inv H end. args1.
  match goal with H : ety _ _ _ _ _ _ (MSel (MVar "time") _) _ |- _ => inv H; [|vars1] end.
  - match goal with H : bound _ "time" _ |- _ => lookup H end.
  - match goal with H : bound _ "time" _ |- _ => lookup H end. match goal with H : member _ _ _ _ (TyName "int") _ _ |- _ => inv H end.
    match goal with H : Typing.field _ _ _ _ _ _ |- _ => inv H end. match goal with H : In ("int", _) _ |- _ => entry H end.
Qed.

(** a decorator called like a parameter of its constructor: -v DecoratorName=base *)
Definition base_t : tdata := TData "Doer" "pkg.Doer" "" "" [] [] [("DecoratorName", VStr "base")].
Theorem C79_decorator_refuted : untypable (fun x => x) base_t text_validate [].
Proof.
  refute_ (GFunc (plain_new "base" (base_ctor "Doer" "pkg.Doer"))) "base" c_validate b_validate (@nil importspec) (@nil (string * ent)).
  destruct H as (ts & rs & H1 & _ & _ & b & H). cbn in H1. inv H1.
  match goal with H : params_typed _ _ _ _ |- _ => inv H end. cbn in H. st1. sty1.
  - match goal with H : is_call _ |- _ => inv H end.
  - args1. match goal with H : ety _ _ _ _ _ _ (MLit _ _ _) _ |- _ => inv H end. match goal with H : bound _ "base" _ |- _ => lookup H end.
Qed.

(** an interface called like a field of the decorator *)
Definition config_t : tdata := TData "config" "pkg.config" "" "" [] [] [].
Theorem C79_field_refuted : untypable (fun x => x) config_t text_timeout [("configWithTimeoutConfig", [])].
Proof.
  refute_ (GFunc (plain_new "configWithTimeout" (timeout_ctor "configWithTimeout" "config" "pkg.config"))) "configWithTimeout" c_timeout b_timeout
    [plainly "context"; plainly "time"] [("context", EPkg "context"); ("time", EPkg "time")].
  destruct H as (ts & rs & _ & _ & _ & b & H). cbn in H. st1. sty1.
  - match goal with H : is_call _ |- _ => inv H end.
  - args1. match goal with H : ety _ _ _ _ _ _ (MLit _ _ _) _ |- _ => inv H end. match goal with H : NoDup _ |- _ => cbn in H; inv H end.
    match goal with H : ~ In "config" _ |- _ => apply H; now left end.
Qed.

(** an interface of a package called like the parameter of the pool's constructor *)
Definition impls_t : tdata := TData "Doer" "impls.Doer" "" "" [] [] [].
Theorem C79_package_refuted : untypable (fun x => x) impls_t text_syncpool [].
Proof.
  refute_ (GFunc (syncpool_new "DoerPool" "impls.Doer")) "DoerPool" c_syncpool b_syncpool (@nil importspec) (@nil (string * ent)).
  destruct H as (ts & rs & H1 & _ & _ & b & H). cbn in H1.
  assert (E : exists u, ts = [u]) by (inv H1; [match goal with H : params_typed _ _ _ _ |- _ => inv H end|]; eexists; reflexivity). destruct E as (u & ->). clear H1.
  cbn in H. st1. st1. sty1. sty1.
  match goal with H : ety _ _ _ _ _ _ (MMake _ _) _ |- _ => inv H end.
  match goal with H : denotes _ _ _ _ _ |- _ => inv H end.
  - match goal with H : forall x, In x (type_ids _) -> _ |- _ => specialize (H "impls"); cbn in H; specialize (H (or_introl eq_refl)); inv H end.
    match goal with H : ~ In "impls" _ |- _ => apply H; now left end.
  - match goal with H : bound _ _ (EType _) |- _ => cbn in H; apply bound_split in H as [H|[_ H]]; [entry H|]; apply bound_split in H as [H|[_ H]]; [entry H|];
      apply bound_split in H as [H|[_ H]]; [apply HP; apply in_map_iff; eexists; split; [|exact H]; reflexivity|]; apply bound_split in H as [H|[_ H]]; [unfold universe in H; entry H | inversion H] end.
Qed.

(** [Do(user string) user.User] with templates/fallback: the body declares a
    struct with a field of type user.User, where user is the parameter *)
Definition user_f : Ast.field := named ["Do"] (FuncT [named ["user"] (Ident "string")] (Some [anon (Selector (Ident "user") "User")])).
Definition user_t : tdata := doer "pkg.Doer" (method_of user_f) [].
Theorem C79_result_refuted : made (method_of user_f) /\ untypable (fun x => x) user_t text_fallback [].
Proof.
  split; [unfold user_f; made_|].
  refute_ (GFallback "DoerWithFallback" (method_of user_f) (fallback_body "pkg.Doer" (method_of user_f))) "DoerWithFallback" c_fallback b_fallback
    [plainly "errors"; plainly "fmt"; plainly "strings"; plainly "time"]
    [("errors", EPkg "errors"); ("fmt", EPkg "fmt"); ("strings", EPkg "strings"); ("time", EPkg "time"); ("context", EPkg "context")].
  destruct H as (_ & b & H). cbn in H. unfold method_block, param_entry in H. cbn in H. st1. sty1.
  match goal with H : forall p y, _ -> _ -> _ |- _ => specialize (H _ "user" (or_introl eq_refl) (or_introl eq_refl)); destruct H as [_ H]; inv H end.
  match goal with H : ~ In "user" _ |- _ => apply H; cbn; auto end.
Qed.

(** ** Example *)

(** [Do(ctx context.Context, user string, opts ...Option) (user1 User, err error)] *)
Definition full_f : Ast.field := named ["Do"] (FuncT
  [named ["c"] (Selector (Ident "context") "Context"); named ["user"] (Ident "string"); named ["opts"] (Ellipsis (Ident "Option"))]
  (Some [anon (Ident "User"); anon (Ident "error")])).
Definition service_t : tdata := doer "pkg.Doer" (method_of full_f) [].
Example C79_nontrivial_method : well_typed (method_of full_f) /\ names (method_of full_f) = ["ctx"; "user"; "opts"; "u1"; "err"].
Proof.
  split; [|vm_compute; reflexivity].
  apply (C79_marks O0 pr0 [] [] "Do" full_f _ [named ["c"] (Selector (Ident "context") "Context"); named ["user"] (Ident "string"); named ["opts"] (Ellipsis (Ident "Option"))]
    (Some [anon (Ident "User"); anon (Ident "error")])); [vm_compute; reflexivity | reflexivity | | vm_compute; reflexivity | intros [] | | intros []].
  - split; intros d e Hd; cbn in Hd; repeat destruct Hd as [<-|Hd]; try (destruct Hd; fail); discriminate.
  - intros f l x E T. injection E as <- <-. vm_compute. reflexivity.
Qed.
Lemma not_text : forall a b : string, String.eqb a b = false -> a <> b.
Proof. intros a b H E. rewrite E, String.eqb_refl in H. discriminate H. Qed.
Ltac apart_ := let K := fresh in intros K; cbn [In] in K; repeat match type of K with _ \/ _ => destruct K as [K|K] end; try (destruct K; fail); discriminate K.
Example C79_nontrivial_fallback : C79_ok (fun x => x) (fun x => x) service_t text_fallback
  (GFunc (fallback_new "DoerWithFallback" "pkg.Doer") :: [GFallback "DoerWithFallback" (method_of full_f) (fallback_body "pkg.Doer" (method_of full_f))]).
Proof.
  apply (C79_typed_partial _ _ service_t text_fallback); [apply (c_fallback (fun x => x) service_t) | reflexivity|].
  destruct C79_nontrivial_method as [W N]. unfold safe, method_safe.
  assert (R : rule_of text_fallback = Rule "WithFallback" ["nil"; "len"; "append"; "make"; "string"; "errors"; "fmt"; "strings"; "time"; "context"]
      ["errors"; "fmt"; "strings"; "time"; "context"; "interval"; "impls"] [] ("_d" :: fallback_locals)) by (vm_compute; reflexivity).
  assert (L : locals text_fallback = fallback_locals) by (vm_compute; reflexivity). rewrite R, L. unfold fallback_locals. cbn [r_suffix r_uses r_taken r_fields r_before app]. clear R L.
  split; [apart_|]. split; [intros []|]. split; [intros x Hx; cbn in Hx; destruct Hx as [<-|[]]; apart_|]. split.
  - apply Forall_cons; [|apply Forall_nil]. cbn [snd]. rewrite N. split; [repeat (apply NoDup_cons; [apart_|]); apply NoDup_nil|]. split; [exact W|].
    intros x Hx K. cbn [In] in K. repeat match type of K with _ \/ _ => destruct K as [<-|K] end; try (destruct K; fail); revert Hx; apart_.
  - split; [intros K; exfalso; revert K; apply not_text; vm_compute; reflexivity|]. split; [intros K; exfalso; revert K; apply not_text; vm_compute; reflexivity|]. intros _.
    apply Forall_cons; [|apply Forall_nil]. cbn [snd]. split; rewrite N.
    + intros x Hx. cbn in Hx. destruct Hx as [<-|[]]. apart_.
    + intros q x Hq Hx. cbn in Hq. destruct Hq as [<-|[<-|[]]]; cbn in Hx; destruct Hx as [<-|[]]; unfold fallback_locals; cbn [app]; apart_.
Qed.

Print Assumptions C79_context_refuted.
Print Assumptions C79_hidden_refuted.
Print Assumptions C79_decorator_refuted.
Print Assumptions C79_field_refuted.
Print Assumptions C79_package_refuted.
Print Assumptions C79_result_refuted.
