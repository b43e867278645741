(** Properties C01-C07 (method naming and signatures) of generator/types.go.
    [O] is any oracle, [pr] any type printer, [gts]/[gps] any generic types and
    arguments. *)
From Verif Require Import Types TypesSpec TypesProofs GenericsProofs.
Open Scope nat_scope.

(** ** A running example:
    [Do(context.Context, a int, int, rest ...string) (string, error)] *)
Definition O0 : oracle := Oracle (fun _ => ("", None)) (fun r => r).
Definition anon (t : expr) : field := Field [] [] [] t None.
Definition named (ns : list string) (t : expr) : field := Field [] [] ns t None.
Definition pr0 : expr -> res string := PrintType O0 [] "".
Definition ex_params : list field :=
  [anon (Selector (Ident "context") "Context"); named ["a"] (Ident "int"); anon (Ident "int");
   named ["rest"] (Ellipsis (Ident "string"))].
Definition ex_results : option (list field) := Some [anon (Ident "string"); anon (Ident "error")].
Definition ex_method : field := named ["Do"] (FuncT ex_params ex_results).
Definition ex_m : method :=
  Method [] [] "Do"
    [Param [] [] "ctx" "context.Context" false; Param [] [] "a" "int" false;
     Param [] [] "i1" "int" false; Param [] [] "rest" "...string" true]
    [Param [] [] "s1" "string" false; Param [] [] "err" "error" false] true true.

Example ex_NewMethod : NewMethod O0 pr0 [] [] "Do" ex_method = Ok ex_m.
Proof. vm_compute. reflexivity. Qed.

(** ** C01 *)
Theorem C01_names_distinct : forall O pr gts gps name fi m,
  NewMethod O pr gts gps name fi = Ok m ->
  NoDup (map p_name (m_params m ++ m_results m)).
Proof. exact NewMethod_NoDup. Qed.

(** clashing user names: [F(a, b int, s1 string, ctx int) (err, a string)] *)
Example C01_nontrivial :
  let fi := named ["F"] (FuncT [named ["a"; "b"] (Ident "int"); named ["i1"; "ctx"] (Ident "string")]
                          (Some [named ["err"; "a"] (Ident "int")])) in
  match NewMethod O0 pr0 [] [] "F" fi with
  | Ok m => map p_name (m_params m ++ m_results m) = ["a"; "b"; "i1"; "ctx"; "i2"; "i3"]
  | _ => False
  end.
Proof. vm_compute. reflexivity. Qed.

(** ** C02: one entry per declared parameter, in order, with the printed type
    (type parameters instantiated), the variadic flag and the comments. *)
Definition entry_of (pr : expr -> res string) (gts : list genericType) (gps : list genericParam)
  (d : string * field) (p : param) : Prop :=
  let f := snd d in
  (exists s, pr (f_type f) = Ok s /\ instantiates (tp_names gts) gps s (p_type p)) /\
  (p_variadic p = true <-> exists t, f_type f = Ellipsis t) /\
  p_doc p = f_doc f /\ p_comment p = f_comment f.

Theorem C02_signature : forall O pr gts gps name fi m ps rs,
  NewMethod O pr gts gps name fi = Ok m -> f_type fi = FuncT ps rs ->
  m_name m = name /\
  Forall2 (entry_of pr gts gps) (declared ps) (m_params m) /\
  Forall2 (entry_of pr gts gps) (declared_opt rs) (m_results m).
Proof.
  intros O pr gts gps name fi m ps rs H Hf.
  destruct (NewMethod_sig O pr gts gps name fi m ps rs H Hf) as (Hn & HP & HR).
  assert (I : forall d p, same_sig pr gts gps d p -> entry_of pr gts gps d p).
  { intros d p ((s & Hs & Ht) & Hv & Hd & Hc). repeat split; auto.
    - exists s. split; [exact Hs|]. rewrite Ht. apply buildGenericParamsString_spec.
    - rewrite Hv. destruct (f_type (snd d)) eqn:E; try discriminate. eauto.
    - intros (t & E). rewrite Hv, E. reflexivity. }
  split; [exact Hn|]. split.
  - clear -HP I. induction HP; constructor; auto.
  - clear -HR I. induction HR; constructor; auto.
Qed.

(** arity, from the above *)
Corollary C02_arity : forall O pr gts gps name fi m ps rs,
  NewMethod O pr gts gps name fi = Ok m -> f_type fi = FuncT ps rs ->
  length (m_params m) = length (declared ps) /\ length (m_results m) = length (declared_opt rs).
Proof.
  intros O pr gts gps name fi m ps rs H Hf.
  destruct (C02_signature O pr gts gps name fi m ps rs H Hf) as (_ & HP & HR).
  split; symmetry; eapply Forall2_length; eauto.
Qed.

(** Only function types are methods; a printer failure is reported. *)
Theorem C02_only_methods : forall O pr gts gps name fi m,
  NewMethod O pr gts gps name fi = Ok m -> exists ps rs, f_type fi = FuncT ps rs.
Proof.
  intros O pr gts gps name fi m H. unfold NewMethod in H.
  destruct (f_type fi); try discriminate. eauto.
Qed.

(** ** C03: reading the forwarded call gives the method's own name and exactly
    the parameters, in order, spread exactly when variadic. *)
Theorem C03_call : forall m,
  is_ident (m_name m) = true ->
  Forall (fun p => is_ident (p_name p) = true) (m_params m) ->
  parse_call (Call m) = Some (m_name m, map (fun p => (p_name p, p_variadic p)) (m_params m)).
Proof. exact Call_parses. Qed.

Example C03_nontrivial :
  Call ex_m = "Do(ctx, a, i1, rest...)" /\
  parse_call "Do(ctx, a, i1, rest...)" =
    Some ("Do", [("ctx", false); ("a", false); ("i1", false); ("rest", true)]).
Proof. vm_compute. split; reflexivity. Qed.

(** ** C04 *)
Theorem C04_err : forall O pr gts gps name fi m ps rs,
  NewMethod O pr gts gps name fi = Ok m -> f_type fi = FuncT ps rs ->
  (m_returnsError m = true <-> last_result_is_error rs) /\
  (m_returnsError m = true ->
     exists l p, m_results m = l ++ [p] /\ p_name p = "err" /\
                 ~ In "err" (map p_name (m_params m ++ l))) /\
  (m_returnsError m = false -> rs <> None ->
     ~ In "err" (map p_name (m_params m ++ m_results m))).
Proof. exact NewMethod_err. Qed.

Theorem C04_ctx : forall O pr gts gps name fi m ps rs,
  NewMethod O pr gts gps name fi = Ok m -> f_type fi = FuncT ps rs ->
  (m_acceptsContext m = true <-> first_param_is_context ps) /\
  (m_acceptsContext m = true ->
     exists p l, m_params m = p :: l /\ p_name p = "ctx" /\
                 ~ In "ctx" (map p_name (l ++ m_results m))).
Proof. exact NewMethod_ctx. Qed.

Example C04_nontrivial : last_result_is_error ex_results /\ first_param_is_context ex_params.
Proof.
  split.
  - now exists [anon (Ident "string")], (anon (Ident "error")).
  - exists (anon (Selector (Ident "context") "Context")), (tl ex_params), (Ident "context"). now split.
Qed.

(** The selector test does not look at the package: [mypkg.Context] counts. *)
Example C04_any_package :
  match NewMethod O0 pr0 [] [] "F" (named ["F"] (FuncT [anon (Selector (Ident "gin") "Context")] None)) with
  | Ok m => m_acceptsContext m = true
  | _ => False
  end.
Proof. vm_compute. reflexivity. Qed.

(** Boundary: an explicit empty result list [F() ()] is valid Go and panics. *)
Theorem C04_empty_results_refuted : exists fi ps,
  f_type fi = FuncT ps (Some []) /\
  forall O pr gts gps name, exists msg, NewMethod O pr gts gps name fi = Panic msg.
Proof.
  exists (named ["F"] (FuncT [] (Some []))), []. split; [reflexivity|].
  intros. exists "index out of range [-1]". reflexivity.
Qed.

(** That is the only way: with identifiers that are not empty and a printer
    that does not panic, nothing else panics. *)
Theorem C04_no_other_panic : forall O pr gts gps name fi ps rs,
  f_type fi = FuncT ps rs -> rs <> Some [] ->
  (forall n f, In (n, f) (declared ps ++ declared_opt rs) ->
     Forall (fun n => n <> "") (idents (f_type f)) /\ ~ panics (pr (f_type f))) ->
  ~ panics (NewMethod O pr gts gps name fi).
Proof. exact NewMethod_no_panic. Qed.

(** ** C05 *)
Theorem C05_fresh : forall prefix used, exists k,
  genName (length used) prefix 1 used = Some (prefix ++ dec k)%string /\
  1 <= k /\ ~ In (prefix ++ dec k)%string used /\
  (forall j, 1 <= j < k -> In (prefix ++ dec j)%string used).
Proof.
  intros prefix used.
  destruct (genName (length used) prefix 1 used) as [s|] eqn:E.
  - destruct (genName_Some _ _ _ _ _ E) as (k & Hk & -> & Hn & Hj). exists k. auto.
  - now destruct (genName_total prefix 1 used).
Qed.

(** More fuel never changes the answer, so the fuel stands for Go's unbounded
    recursion. *)
Theorem C05_fuel : forall fuel prefix n used s,
  genName fuel prefix n used = Some s ->
  forall fuel', fuel <= fuel' -> genName fuel' prefix n used = Some s.
Proof.
  induction fuel as [|fuel IH]; intros prefix n used s H fuel' L; destruct fuel' as [|fuel']; try lia;
    cbn in *; destruct (mem (prefix ++ dec n)%string used); auto; try discriminate.
  apply IH; [exact H | lia].
Qed.

Example C05_nontrivial : genName 2 "s" 1 ["s1"; "s2"] = Some "s3".
Proof. vm_compute. reflexivity. Qed.

(** ** C06: full statement, refuted; what holds is the _partial theorem *)
Definition C06_statement : Prop :=
  forall O pr gts gps name fi m ps rs,
  NewMethod O pr gts gps name fi = Ok m -> f_type fi = FuncT ps rs ->
  (forall n f, In (n, f) (declared ps ++ declared_opt rs) ->
     (n = "" \/ (is_ident n = true /\ ~ In n keywords)) /\
     Forall (fun i => is_ident i = true) (idents (f_type f))) ->
  Forall (fun p => usable (p_name p)) (m_params m).

Theorem C06_refuted : ~ C06_statement.
Proof.
  intros H.
  specialize (H O0 pr0 [] [] "F" (named ["F"] (FuncT [named ["_"] (Ident "int")] None))
                (Method [] [] "F" [Param [] [] "_" "int" false] [] false false)
                [named ["_"] (Ident "int")] None eq_refl eq_refl).
  assert (A : Forall (fun p => usable (p_name p)) [Param [] [] "_" "int" false]).
  { apply H. intros n f [E|[]]. injection E as <- <-. split.
    - right. split; [reflexivity|]. cbn. intuition discriminate.
    - repeat constructor. }
  inversion A as [|? ? (_ & N & _) _]. now apply N.
Qed.

(** missing: a parameter declared as [_] (see C06_refuted) and type names whose
    first letter is not ASCII (see C06_nonascii_refuted) *)
Theorem C06_usable_names_partial : forall O pr gts gps name fi m ps rs,
  NewMethod O pr gts gps name fi = Ok m -> f_type fi = FuncT ps rs ->
  (forall n f, In (n, f) (declared ps ++ declared_opt rs) ->
     (n = "" \/ usable n) /\ Forall (fun i => is_ident i = true) (idents (f_type f))) ->
  Forall (fun p => usable (p_name p)) (m_params m ++ m_results m).
Proof. exact NewMethod_usable. Qed.

Example C06_nontrivial :
  forall n f, In (n, f) (declared ex_params ++ declared_opt ex_results) ->
     (n = "" \/ usable n) /\ Forall (fun i => is_ident i = true) (idents (f_type f)).
Proof.
  cbn. intros n f H.
  repeat (destruct H as [E|H]; [injection E as <- <-; split;
    [ first [left; reflexivity | right; repeat split; [discriminate | cbn; intuition discriminate]]
    | cbn; repeat constructor ] | ]).
  contradiction.
Qed.

(** A parameter of type [É] (bytes C3 89): the generated prefix is the lower
    case of the first byte, i.e. U+FFFD, whatever the Unicode tables say. *)
Definition type_E_acute : string := String (ascii_of_nat 195) (String (ascii_of_nat 137) "").
Theorem C06_nonascii_refuted : forall lower,
  lower RuneError = RuneError ->
  let O := Oracle (fun _ => ("", None)) lower in
  match NewMethod O (PrintType O [] "") [] [] "F" (named ["F"] (FuncT [anon (Ident type_E_acute)] None)) with
  | Ok m => map p_name (m_params m) =
      [String (ascii_of_nat 239) (String (ascii_of_nat 191) (String (ascii_of_nat 189) "1"))]
  | _ => False
  end.
Proof. intros lower H. cbn -[encode_rune]. rewrite H. vm_compute. reflexivity. Qed.

(** ** C07 *)
Theorem C07_user_names : forall O pr gts gps name fi m ps rs D1 n f D2,
  NewMethod O pr gts gps name fi = Ok m -> f_type fi = FuncT ps rs ->
  declared ps ++ declared_opt rs = D1 ++ (n, f) :: D2 -> n <> "" ->
  ~ ends_with_digit n -> ~ In n (map fst D1) ->
  ~ (n = "err" /\ rs <> None) -> ~ (n = "ctx" /\ first_param_is_selector ps) ->
  ~ (m_acceptsContext m = true /\ D1 = []) -> ~ (m_returnsError m = true /\ D2 = []) ->
  nth_error (map p_name (m_params m ++ m_results m)) (length D1) = Some n.
Proof. exact NewMethod_keeps_plain. Qed.

(** Names ending in a digit: the complete list of reasons to lose a name. *)
Theorem C07_user_names_exact : forall O pr gts gps name fi m ps rs D1 n f D2,
  NewMethod O pr gts gps name fi = Ok m -> f_type fi = FuncT ps rs ->
  declared ps ++ declared_opt rs = D1 ++ (n, f) :: D2 -> n <> "" ->
  nth_error (map p_name (m_params m ++ m_results m)) (length D1) = Some n \/
  (m_acceptsContext m = true /\ D1 = []) \/
  (m_returnsError m = true /\ D2 = []) \/
  In n (map fst D1) \/
  In n (firstn (length D1) (map p_name (m_params m ++ m_results m))) \/
  (n = "err" /\ rs <> None) \/ (n = "ctx" /\ first_param_is_selector ps) \/
  (m_acceptsContext m = true /\ exists f0 l pfx k,
      ps = f0 :: l /\ typePrefix O (f_type f0) = Ok pfx /\ n = (pfx ++ dec k)%string).
Proof. exact NewMethod_keeps. Qed.

Example C07_nontrivial :
  declared ex_params ++ declared_opt ex_results =
  [("", anon (Selector (Ident "context") "Context"))] ++ ("a", named ["a"] (Ident "int"))
    :: tl (tl (declared ex_params)) ++ declared_opt ex_results /\
  nth_error (map p_name (m_params ex_m ++ m_results ex_m)) 1 = Some "a".
Proof. split; reflexivity. Qed.

(** The last reason is real: [F(context.Context) (c1 int)] loses c1 although
    nothing in the generated signature is called c1. *)
Theorem C07_ctx_placeholder_refuted : exists fi m,
  NewMethod O0 pr0 [] [] "F" fi = Ok m /\
  fi = named ["F"] (FuncT [anon (Selector (Ident "context") "Context")] (Some [named ["c1"] (Ident "int")])) /\
  map p_name (m_params m ++ m_results m) = ["ctx"; "i1"].
Proof. eexists. eexists. split; [|split]; [|reflexivity|]; [vm_compute; reflexivity | reflexivity]. Qed.

Print Assumptions C01_names_distinct.
Print Assumptions C02_signature.
Print Assumptions C02_only_methods.
Print Assumptions C03_call.
Print Assumptions C04_err.
Print Assumptions C04_ctx.
Print Assumptions C04_empty_results_refuted.
Print Assumptions C04_no_other_panic.
Print Assumptions C05_fresh.
Print Assumptions C05_fuel.
Print Assumptions C06_refuted.
Print Assumptions C06_usable_names_partial.
Print Assumptions C06_nonascii_refuted.
Print Assumptions C07_user_names.
Print Assumptions C07_user_names_exact.
Print Assumptions C07_ctx_placeholder_refuted.
