(** Properties C16-C18 of generator/generics.go. *)
From Verif Require Import Generics GenericsProofs TypesSpec TypesProofs.
Open Scope nat_scope.

(** ** C16: a type that is exactly a type parameter is replaced by its argument *)
Theorem C16_whole_types_partial : forall g args t,
  instantiates (tp_names g) args t (buildGenericParamsString t g args).
Proof. intros. apply buildGenericParamsString_spec. Qed.

(** in particular, with distinct parameter names and enough arguments *)
Theorem C16_parameter_replaced_partial : forall g args i t a,
  NoDup (tp_names g) -> nth_error (tp_names g) i = Some t -> nth_error args i = Some a ->
  buildGenericParamsString t g args = gp_string a.
Proof.
  intros g args i t a Hd Hi Ha.
  destruct (buildGenericParamsString_spec t g args) as [(j & b & H1 & H2 & _ & ->)|(H & _)].
  - assert (j = i) as ->.
    { apply NoDup_nth_error with (l := tp_names g); auto; [apply nth_error_Some|]; congruence. }
    congruence.
  - apply H in Hi. congruence.
Qed.

Example C16_nontrivial :
  buildGenericParamsString "V" [GType "comparable" ["K"]; GType "any" ["V"; "W"]]
    [GParam "string" []; GParam "Box" [GParam "int" []; GParam "error" []]; GParam "bool" []] = "Box[int, error]".
Proof. vm_compute. reflexivity. Qed.

(** The full property fails: the occurrence inside [[]T] is not replaced. *)
Definition C16_statement : Prop :=
  forall g args i t a, NoDup (tp_names g) ->
    nth_error (tp_names g) i = Some t -> nth_error args i = Some a ->
    buildGenericParamsString ("[]" ++ t) g args = ("[]" ++ gp_string a)%string.
Theorem C16_refuted : ~ C16_statement.
Proof.
  intros H.
  specialize (H [GType "any" ["T"]] [GParam "int" []] 0 "T" (GParam "int" [])
                ltac:(constructor; [intros []|constructor]) eq_refl eq_refl).
  discriminate.
Qed.

(** ** C17 *)
Theorem C17_generics_strings : forall g, nonempty_names g ->
  buildVars g = match g with
                | [] => ("", "")
                | _ => ("[" ++ join ", " (map group_string g) ++ "]", "[" ++ join ", " (tp_names g) ++ "]")%string
                end.
Proof. exact buildVars_spec. Qed.

(** Reading the Params string back gives exactly the declared names. *)
Definition read_params (s : string) : option (list string) :=
  match s with
  | EmptyString => Some []
  | String "[" s' =>
      match strip_suffix "]" s' with
      | Some body => Some (map strip_space (split_on "," body))
      | None => None
      end
  | _ => None
  end.

Lemma split_join_idents l :
  l <> [] -> Forall (fun n => is_ident n = true) l ->
  map strip_space (split_on "," (join ", " l)) = l /\
  map strip_space (split_on "," (String " " (join ", " l))) = l.
Proof.
  intros Hne HF. induction HF as [|n l Hn HF IH]; [contradiction|].
  assert (Hs : strip_space n = n).
  { destruct n as [|c s]; [discriminate|]. cbn in Hn. apply andb_true_iff in Hn. destruct Hn as (Hc & _).
    destruct c as [[] [] [] [] [] [] [] []]; try reflexivity; discriminate. }
  assert (Hc : all_chars (fun d => negb (byte_eqb d ",")) n = true)
    by (apply (ident_chars_no ","%char); auto; reflexivity).
  destruct l as [|m l].
  - cbn [join String.concat]. split.
    + rewrite split_on_none by exact Hc. cbn. now rewrite Hs.
    + rewrite split_on_none by (cbn; exact Hc). reflexivity.
  - destruct (IH ltac:(discriminate)) as (_ & IH2).
    change (join ", " (n :: m :: l)) with (n ++ String "," (String " " (join ", " (m :: l))))%string.
    split.
    + rewrite split_on_app by exact Hc. cbn [map]. now rewrite Hs, IH2.
    + change (String " " (n ++ String "," (String " " (join ", " (m :: l)))))
        with (String " " n ++ String "," (String " " (join ", " (m :: l))))%string.
      rewrite split_on_app by (cbn; exact Hc). cbn [map]. now rewrite IH2.
Qed.

Theorem C17_params_read_back : forall g,
  nonempty_names g -> Forall (fun n => is_ident n = true) (tp_names g) ->
  read_params (snd (buildVars g)) = Some (tp_names g) /\
  (fst (buildVars g) = "" <-> g = []) /\ (snd (buildVars g) = "" <-> g = []).
Proof.
  intros g HN HI. rewrite (buildVars_spec g HN). destruct g as [|t g]; [cbn; intuition|].
  cbn [fst snd]. repeat split; try discriminate.
  change (read_params ("[" ++ join ", " (tp_names (t :: g)) ++ "]")) with
    (match strip_suffix "]" (join ", " (tp_names (t :: g)) ++ "]")%string with
      | Some body => Some (map strip_space (split_on "," body))
      | None => None
      end).
  rewrite strip_suffix_app. f_equal. apply split_join_idents; [|exact HI].
  inversion HN as [|? ? (H & _) _]; subst. cbn. intros E. apply app_eq_nil in E. now destruct E.
Qed.

Example C17_nontrivial :
  buildVars [GType "comparable" ["K"; "J"]; GType "any" ["V"]] = ("[K, J comparable, V any]", "[K, J, V]").
Proof. vm_compute. reflexivity. Qed.

(** ** C18 *)

(** What a constraint text should be. *)
Inductive constraint_text (local : string -> bool) (prefix : string) : expr -> string -> Prop :=
| ct_local n : local n = true -> constraint_text local prefix (Ident n) (prefix ++ "." ++ n)
| ct_other n : local n = false -> constraint_text local prefix (Ident n) n
| ct_sel p s : constraint_text local prefix (Selector (Ident p) s) (p ++ "." ++ s)
| ct_tilde x t : constraint_text local prefix x t -> constraint_text local prefix (UnaryE "~" x) ("~" ++ t)
| ct_union x y s t : constraint_text local prefix x s -> constraint_text local prefix y t ->
    constraint_text local prefix (BinaryE "|" x y) (s ++ " | " ++ t).

Definition local_in (types : list typespec) (prefix : string) (n : string) : bool :=
  negb (String.eqb prefix "") && existsb (fun t => String.eqb (ts_name t) n) types.

(** The constraints gowrap gets right: names, qualified names, [~name] for
    names not of the source package, and unions of these. *)
Fixpoint supported (local : string -> bool) (e : expr) : bool :=
  match e with
  | Ident _ => true
  | Selector (Ident _) _ => true
  | UnaryE op (Ident n) => String.eqb op "~" && negb (local n)
  | BinaryE op x y => String.eqb op "|" && supported local x && supported local y
  | _ => false
  end.

Theorem C18_constraints_partial : forall types prefix e,
  supported (local_in types prefix) e = true ->
  exists s, parseGenericType e types prefix = Ok s /\ constraint_text (local_in types prefix) prefix e s.
Proof.
  intros types prefix e. induction e; cbn [supported]; intros H; try discriminate.
  - cbn [parseGenericType]. eexists. split; [reflexivity|]. unfold getPrefix, local_in.
    destruct (String.eqb_spec prefix "") as [->|N].
    + now apply ct_other.
    + destruct (existsb (fun t => String.eqb (ts_name t) n) types) eqn:E.
      * replace ((prefix ++ ".") ++ n)%string with (prefix ++ "." ++ n)%string by now rewrite sapp_assoc.
        apply ct_local. unfold local_in. destruct (String.eqb_spec prefix ""); [contradiction | exact E].
      * apply ct_other. unfold local_in. destruct (String.eqb_spec prefix ""); [contradiction | exact E].
  - destruct e; try discriminate. eexists. split; [reflexivity|]. constructor.
  - destruct e; try discriminate. apply andb_true_iff in H. destruct H as (Ho & Hl).
    apply String.eqb_eq in Ho. subst. apply negb_true_iff in Hl.
    eexists. split; [reflexivity|]. constructor. now apply ct_other.
  - apply andb_true_iff in H. destruct H as (H & H2). apply andb_true_iff in H. destruct H as (Ho & H1).
    apply String.eqb_eq in Ho. subst.
    destruct (IHe1 H1) as (s & Hs & Cs). destruct (IHe2 H2) as (t & Ht & Ct).
    exists (s ++ " | " ++ t)%string. split; [|now constructor].
    cbn. rewrite Hs, Ht. reflexivity.
Qed.

Example C18_nontrivial :
  let types := [TypeSpec "Num" None (Ident "int")] in
  let e := BinaryE "|" (BinaryE "|" (Ident "Num") (UnaryE "~" (Ident "string"))) (Selector (Ident "fmt") "Stringer") in
  supported (local_in types "src") e = true /\
  parseGenericType e types "src" = Ok "src.Num | ~string | fmt.Stringer".
Proof. split; reflexivity. Qed.

(** The full property fails: [~[]E] becomes nothing, [~Num] is not qualified. *)
Definition C18_statement : Prop := forall types prefix e t,
  constraint_text (local_in types prefix) prefix e t -> parseGenericType e types prefix = Ok t.
Theorem C18_refuted : ~ C18_statement.
Proof.
  intros H.
  specialize (H [TypeSpec "Num" None (Ident "int")] "src" (UnaryE "~" (Ident "Num")) "~src.Num").
  assert (C : constraint_text (local_in [TypeSpec "Num" None (Ident "int")] "src") "src"
               (UnaryE "~" (Ident "Num")) "~src.Num")
    by exact (ct_tilde _ _ _ _ (ct_local _ "src" "Num" eq_refl)).
  specialize (H C). discriminate.
Qed.

Theorem C18_dropped_refuted : forall types prefix e i l,
  parseGenericType (UnaryE "~" (ArrayT None e)) types prefix = Ok "" /\
  parseGenericType (IndexE e i) types prefix = Ok "" /\
  parseGenericType (InterfaceT l) types prefix = Ok "".
Proof. intros. repeat split; reflexivity. Qed.

Print Assumptions C16_whole_types_partial.
Print Assumptions C16_parameter_replaced_partial.
Print Assumptions C16_refuted.
Print Assumptions C17_generics_strings.
Print Assumptions C17_params_read_back.
Print Assumptions C18_constraints_partial.
Print Assumptions C18_refuted.
Print Assumptions C18_dropped_refuted.
