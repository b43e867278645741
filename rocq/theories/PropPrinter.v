(** Properties C08, C10, C11 of printer/printer.go. *)
From Verif Require Import Printer PrinterProofs.
Open Scope nat_scope.

Definition O0 : oracle := Oracle (fun _ => ("<go/printer>", None)) (fun r => r).
Definition tspec (n : string) : typespec := TypeSpec n None (Ident "int").
Definition fld (ns : list string) (t : expr) : field := Field [] [] ns t None.

(** ** C08 *)

(** Another package: printing is qualifying every source-package type name in
    type position, then printing with no knowledge of the source package. *)
Theorem C08_qualified : forall O types prefix e,
  prefix <> "" -> type_shape e = true -> all_exported O types (type_refs e) ->
  PrintType O types prefix e = PrintType O [] "" (qualify (is_local types) prefix e).
Proof. intros. rewrite !PrintType_pt. now apply print_qualified. Qed.

(** It succeeds exactly when every referenced source type is exported; the
    failure names an unexported referenced type. *)
Theorem C08_fails_iff_unexported : forall O types prefix e,
  prefix <> "" -> Forall (fun t => ts_name t <> "") types -> type_shape e = true ->
  (exists s, PrintType O types prefix e = Ok s) /\ all_exported O types (type_refs e) \/
  exists n, In n (type_refs e) /\ is_local types n = true /\ unexported O n /\
            PrintType O types prefix e = Err (Wrapped n errUnexportedType).
Proof.
  intros O types prefix e Hp Ht Hs. rewrite PrintType_pt.
  destruct (print_outcome O types prefix e Hp Ht Hs) as [H|(n & H1 & (H2 & H3) & H4)]; [now left|].
  right. exists n. auto.
Qed.

(** "Unexported" means: the first character is not an upper-case letter. *)
Theorem C08_exported_ascii : forall O c s, (byte c < 128)%N ->
  (exported O (String c s) <-> is_upper_ascii (byte c) = true) /\
  (unexported O (String c s) <-> is_upper_ascii (byte c) = false).
Proof.
  intros O c s H. unfold exported, unexported. rewrite looks_unexported_ascii by exact H.
  destruct (is_upper_ascii (byte c)); cbn; split; split; intros E; try reflexivity; discriminate.
Qed.

(** Same package: nothing is changed, whatever the types and the expression. *)
Theorem C08_same_package : forall O types e, PrintType O types "" e = PrintType O [] "" e.
Proof. intros. rewrite !PrintType_pt. apply print_same_package. Qed.

(** [func(a Foo, b ...*pkg.Bar) (map[Key][]Foo, chan<- Box[Foo])] *)
Definition ex_type : expr :=
  FuncT [fld ["a"] (Ident "Foo"); fld ["b"] (Ellipsis (Star (Selector (Ident "pkg") "Bar")))]
    (Some [fld [] (MapT (Ident "Key") (ArrayT None (Ident "Foo")));
           fld [] (ChanT SendOnly (IndexE (Ident "Box") (Ident "Foo")))]).
Definition ex_types : list typespec := [tspec "Foo"; tspec "Box"; tspec "hidden"].

Example C08_nontrivial :
  type_shape ex_type = true /\ all_exported O0 ex_types (type_refs ex_type) /\
  PrintType O0 ex_types "src" ex_type =
    Ok "func(a src.Foo, b ...*pkg.Bar) ( map[Key][]src.Foo,  chan<- src.Box[src.Foo])" /\
  PrintType O0 ex_types "src" (Star (Ident "hidden")) = Err (Wrapped "hidden" errUnexportedType) /\
  PrintType O0 ex_types "" (Star (Ident "hidden")) = Ok "*hidden".
Proof.
  repeat split; try (vm_compute; reflexivity).
  intros n Hn Hl. cbn in Hn. repeat (destruct Hn as [<-|Hn]; [try reflexivity; vm_compute in Hl; discriminate|]).
  contradiction.
Qed.

(** What is printed depends on the declared type name only, not on scoping: a
    type parameter with the name of a source type is qualified too. *)
Example C08_type_parameter_shadowing_refuted :
  exists types prefix n, is_local types n = true /\ PrintType O0 types prefix (Ident n) = Ok (prefix ++ "." ++ n)%string.
Proof. exists [tspec "T"], "src", "T". split; reflexivity. Qed.

(** ** C10 *)
Inductive call := CPrint (node : option expr) | CPrintType (e : expr).

Definition run_call (O : oracle) (types : list typespec) (prefix : string) (c : call) : M string :=
  match c with
  | CPrint n => print_node O n
  | CPrintType e => printType O types prefix e
  end.

(** One Printer used for a whole history of calls. *)
Fixpoint run_history O types prefix (h : list call) (buf : string) : list (res string) :=
  match h with
  | [] => []
  | c :: h' => let '(r, buf') := run_call O types prefix c buf in r :: run_history O types prefix h' buf'
  end.

Theorem C10_no_memory : forall O types prefix h,
  run_history O types prefix h "" = map (fun c => fst (run_call O types prefix c "")) h.
Proof.
  intros O types prefix h. induction h as [|c h IH]; [reflexivity|]. cbn [run_history map].
  destruct (run_call O types prefix c "") as [r b] eqn:E. cbn [fst]. f_equal.
  assert (b = "") as ->; [|exact IH].
  assert (snd (run_call O types prefix c "") = "") as H.
  { destruct c; [now apply print_node_resets | apply printType_resets]. }
  now rewrite E in H.
Qed.

(** a failing print in between leaves nothing behind *)
Example C10_nontrivial :
  run_history O0 ex_types "src" [CPrintType (Ident "hidden"); CPrint (Some (Ident "x")); CPrintType (Ident "Foo")] ""
  = [Err (Wrapped "hidden" errUnexportedType); Ok "x"; Ok "src.Foo"].
Proof. reflexivity. Qed.

(** ** C11: false; what is lost exactly *)
Definition C11_statement : Prop :=
  (forall O types prefix e1 e2 s,
     PrintType O types prefix (StructT [e1]) = Ok s -> PrintType O types prefix (StructT [e2]) = Ok s ->
     f_tag e1 = f_tag e2).

Theorem C11_tags_refuted : ~ C11_statement.
Proof.
  intros H.
  specialize (H O0 [] "" (Field [] [] ["A"] (Ident "int") (Some "`json:""a""`"))
                (Field [] [] ["A"] (Ident "int") None) _ eq_refl eq_refl).
  discriminate.
Qed.

(** Tags never reach the output, anywhere inside the type. *)
Fixpoint untag (e : expr) : expr :=
  let fields := map (fun f => match f with Field d c ns t _ => Field d c ns (untag t) None end) in
  match e with
  | Star x => Star (untag x)
  | Ellipsis x => Ellipsis (untag x)
  | ArrayT l x => ArrayT l (untag x)
  | MapT k v => MapT (untag k) (untag v)
  | ChanT d v => ChanT d (untag v)
  | FuncT ps rs => FuncT (fields ps) (option_map fields rs)
  | StructT fs => StructT (fields fs)
  | IndexE x i => IndexE (untag x) (untag i)
  | IndexListE x l => IndexListE (untag x) (map untag l)
  | e => e
  end.

Theorem C11_tags_dropped_refuted : forall O types prefix e,
  PrintType O types prefix e = PrintType O types prefix (untag e).
Proof.
  intros O types prefix. setoid_rewrite PrintType_pt.
  set (P := fun e => pt O types prefix e = pt O types prefix (untag e)).
  assert (HF : forall l, Forall (Pf P) l -> pt_fields O types prefix l =
     pt_fields O types prefix (map (fun f => match f with Field d c ns t _ => Field d c ns (untag t) None end) l)).
  { induction 1 as [|f l Hf _ IH]; [reflexivity|]. cbn [pt_fields map].
    rewrite Hf, IH. now destruct f. }
  apply (expr_ind' P); unfold P; intros; try reflexivity.
  - cbn [pt untag]. now rewrite H.
  - cbn [pt untag]. now rewrite H.
  - cbn [pt untag]. now rewrite H0.
  - cbn [pt untag]. now rewrite H, H0.
  - cbn [pt untag]. now rewrite H.
  - cbn [untag]. rewrite !pt_Func, (HF _ H). destruct rs as [l|]; [|reflexivity]. cbn [option_map].
    now rewrite (HF l (H0 l eq_refl)).
  - cbn [untag]. rewrite !pt_Struct. now rewrite (HF _ H).
  - cbn [pt untag]. now rewrite H, H0.
  - cbn [untag]. rewrite !pt_IndexList, H.
    assert (E : pt_list O types prefix l = pt_list O types prefix (map untag l))
      by (clear -H0; induction H0 as [|y l Hy _ IH]; [reflexivity | cbn [pt_list map]; now rewrite Hy, IH]).
    now rewrite E.
Qed.

(** Array lengths and the inside of inline interfaces (and parenthesised types)
    are printed the same with and without the source package's types, so they
    cannot be qualified. *)
Theorem C11_lengths_unqualified_refuted : forall O types prefix n elt s,
  PrintType O types prefix elt = Ok s ->
  PrintType O types prefix (ArrayT (Some (Ident n)) elt) = Ok ("[" ++ n ++ "]" ++ s)%string.
Proof. intros O types prefix n elt s H. rewrite PrintType_pt in *. cbn [pt]. now rewrite H. Qed.

Theorem C11_interfaces_unqualified_refuted : forall O types prefix ms x,
  PrintType O types prefix (InterfaceT ms) = PrintType O [] "" (InterfaceT ms) /\
  PrintType O types prefix (ParenE x) = PrintType O [] "" (ParenE x).
Proof. intros. rewrite !PrintType_pt. split; reflexivity. Qed.

Print Assumptions C08_qualified.
Print Assumptions C08_fails_iff_unexported.
Print Assumptions C08_exported_ascii.
Print Assumptions C08_same_package.
Print Assumptions C10_no_memory.
Print Assumptions C11_tags_refuted.
Print Assumptions C11_tags_dropped_refuted.
Print Assumptions C11_lengths_unqualified_refuted.
Print Assumptions C11_interfaces_unqualified_refuted.
