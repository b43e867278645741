(** Property C09 of printer/printer.go: a printed type reads back as the type.

    Full statement: whatever type was declared, reading the text PrintType
    returns by Go's grammar gives that type with the source package's names
    qualified.  It is false (C09_tags_refuted, C09_parentheses_refuted); it is
    proved for the shapes of [plain], which leave out parenthesised types,
    interface literals with elements and array lengths that are neither a number
    nor a name: those are printed by go/printer, which is not modelled.  Comments
    and tags are no part of what is read back ([norm]). *)
From Verif Require Import Printer PrinterProofs TypeGrammar ReadBack PropPrinter.
Open Scope nat_scope.

(** go/printer prints the empty interface in one line *)
Definition prints_empty_interface (O : oracle) : Prop :=
  forall ms, ms = None \/ ms = Some [] -> o_fprint O (InterfaceT ms) = ("interface{}", None).

Theorem C09_partial : forall O types prefix e s,
  (prefix = "" \/ name prefix = true) -> prints_empty_interface O -> plain e = true ->
  PrintType O types prefix e = Ok s ->
  reads s (norm (qualify (fun n => negb (String.eqb prefix "") && is_local types n) prefix e)).
Proof. intros O types prefix e s Hp Ho H E. exact (proj1 (reads_printed O types prefix e s Hp Ho E) H). Qed.
Print Assumptions C09_partial.

(** The type of a variadic parameter, read as a parameter. *)
Theorem C09_variadic_partial : forall O types prefix e s,
  (prefix = "" \/ name prefix = true) -> prints_empty_interface O -> plain e = true ->
  PrintType O types prefix (Ellipsis e) = Ok s ->
  reads_param s (norm (qualify (fun n => negb (String.eqb prefix "") && is_local types n) prefix (Ellipsis e))).
Proof. intros O types prefix e s Hp Ho H E. exact (proj2 (reads_printed O types prefix (Ellipsis e) s Hp Ho E) H). Qed.
Print Assumptions C09_variadic_partial.

(** A text reads as one type at most. *)
Theorem C09_unambiguous : forall s e e', reads s e -> reads s e' -> e = e'.
Proof. exact reads_one. Qed.
Print Assumptions C09_unambiguous.

(** So two types are printed the same only if they are the same, up to comments,
    tags and the qualification: nothing else is lost. *)
Theorem C09_nothing_lost_partial : forall O types prefix e e' s,
  (prefix = "" \/ name prefix = true) -> prints_empty_interface O -> plain e = true -> plain e' = true ->
  PrintType O types prefix e = Ok s -> PrintType O types prefix e' = Ok s ->
  norm (qualify (fun n => negb (String.eqb prefix "") && is_local types n) prefix e)
  = norm (qualify (fun n => negb (String.eqb prefix "") && is_local types n) prefix e').
Proof. intros. eapply reads_one; eapply C09_partial; eassumption. Qed.
Print Assumptions C09_nothing_lost_partial.

(** ** A type of every shape *)

Definition O1 : oracle :=
  Oracle (fun e => match e with
                   | InterfaceT _ => ("interface{}", None)
                   | ParenE (ChanT RecvOnly (Ident n)) => (("(<-chan " ++ n ++ ")")%string, None)
                   | _ => ("<go/printer>", None)
                   end) (fun r => r).

Definition ex_read : expr :=
  FuncT [fld ["a"; "b"] (StructT [fld ["x"; "y"] (ArrayT (Some (BasicLit "5")) (Ident "Foo")); fld [] (Star (Selector (Ident "pkg") "Bar"))]);
         fld ["f"] (FuncT [fld [] (Ident "int"); fld [] (ArrayT (Some (Ident "N")) (Ident "Foo"))] None);
         fld ["rest"] (Ellipsis (MapT (IndexE (Ident "Box") (Ident "Foo")) (InterfaceT (Some []))))]
    (Some [fld [] (ChanT RecvOnly (ChanT SendOnly (IndexListE (Ident "Box") [Ident "K"; Ident "Foo"]))); fld [] (ArrayT None (Ident "error"))]).

Example C09_nontrivial :
  name "src" = true /\ prints_empty_interface O1 /\ plain ex_read = true /\
  exists s, PrintType O1 ex_types "src" ex_read = Ok s /\
    ptype 30 (lex "" false s) = Some (norm (qualify (fun n => is_local ex_types n) "src" ex_read), []) /\
    norm (qualify (fun n => is_local ex_types n) "src" ex_read) <> ex_read.
Proof.
  split; [reflexivity|]. split; [intros ms _; reflexivity|]. split; [reflexivity|].
  eexists. split; [vm_compute; reflexivity|]. split; [vm_compute; reflexivity | vm_compute; discriminate].
Qed.

Example C09_variadic_nontrivial :
  PrintType O1 ex_types "src" (Ellipsis (Ident "Foo")) = Ok "...src.Foo" /\
  pentry 5 (lex "" false "...src.Foo") = Some (ELone (Ellipsis (Selector (Ident "src") "Foo")), []).
Proof. split; vm_compute; reflexivity. Qed.

(** the reader tells apart what Go tells apart *)
Example C09_reader :
  ptype 9 (lex "" false "chan <-chan int") = Some (ChanT SendOnly (ChanT SendRecv (Ident "int")), []) /\
  ptype 9 (lex "" false "func(a, b int) error")
    = Some (FuncT [mkfield ["a"; "b"] (Ident "int")] (Some [mkfield [] (Ident "error")]), []) /\
  ptype 9 (lex "" false "func(a, b) ()") = Some (FuncT [mkfield [] (Ident "a"); mkfield [] (Ident "b")] (Some []), []) /\
  ptype 9 (lex "" false "func(a int, []string)") = None /\
  ptype 9 (lex "" false "map[string]") = None.
Proof. repeat split; vm_compute; reflexivity. Qed.

(** ** What is lost *)

(** Struct tags, which are part of a type: two different types are printed the same. *)
Theorem C09_tags_refuted : exists e e' s,
  plain e = true /\ plain e' = true /\ e <> e' /\
  PrintType O1 [] "" e = Ok s /\ PrintType O1 [] "" e' = Ok s.
Proof.
  exists (StructT [Field [] [] ["A"] (Ident "int") (Some "`json:""a""`")]).
  exists (StructT [Field [] [] ["A"] (Ident "int") (Some "`json:""b""`")]). eexists.
  split; [reflexivity|]. split; [reflexivity|]. split; [discriminate|]. split; vm_compute; reflexivity.
Qed.
Print Assumptions C09_tags_refuted.

(** A parenthesised type keeps the unqualified names of the source package: the
    text reads as a type of the wrong package (for the go/printer that prints
    [<-chan Foo] as it is written). *)
Theorem C09_parentheses_refuted : exists e s e',
  e = ChanT SendRecv (ParenE (ChanT RecvOnly (Ident "Foo"))) /\
  PrintType O1 ex_types "src" e = Ok s /\ reads s e' /\ e' = e /\
  e' <> ChanT SendRecv (ParenE (ChanT RecvOnly (Selector (Ident "src") "Foo"))).
Proof.
  do 3 eexists. split; [reflexivity|]. split; [vm_compute; reflexivity|].
  split; [exists 9; vm_compute; reflexivity|]. split; [reflexivity | discriminate].
Qed.
Print Assumptions C09_parentheses_refuted.

(** Without the parentheses the reading is another one: what [plain] excludes. *)
Theorem C09_channels_refuted : exists e s,
  PrintType O1 [] "" e = Ok s /\ ~ reads s (norm e) /\ exists e', reads s e'.
Proof.
  exists (ChanT SendRecv (ChanT RecvOnly (Ident "int"))). eexists. split; [vm_compute; reflexivity|].
  assert (R : reads "chan <-chan int" (ChanT SendOnly (ChanT SendRecv (Ident "int")))) by (exists 9; vm_compute; reflexivity).
  split; [|eexists; exact R]. intros H. discriminate (reads_one _ _ _ R H).
Qed.
Print Assumptions C09_channels_refuted.
