(** What stays the same between a run of `gowrap gen` and the run of the
    directive in the file it wrote (C78): definitions only.

    The second run happens in another directory, finds the file that the first
    run has written, and goes through Go's maps in another order. *)
From Coq Require Import Permutation.
From Verif Require Import Cmd ResolveSpec.
Open Scope nat_scope.

(** ** Packages *)

(** names of an embedded element or of its type arguments *)
Fixpoint occurs_name (n : string) (e : expr) : Prop :=
  match e with
  | Ident m => n = m
  | IndexE x i => occurs_name n x \/ occurs_name n i
  | IndexListE x l => occurs_name n x \/ (fix go l := match l with [] => False | e :: l' => occurs_name n e \/ go l' end) l
  | _ => False
  end.
(** package names of the same *)
Fixpoint occurs_qualifier (q : string) (e : expr) : Prop :=
  match e with
  | Selector (Ident m) _ => q = m
  | IndexE x i => occurs_qualifier q x \/ occurs_qualifier q i
  | IndexListE x l => occurs_qualifier q x \/ (fix go l := match l with [] => False | e :: l' => occurs_qualifier q e \/ go l' end) l
  | _ => False
  end.

Definition type_names_of (l : list gofile) : list string := map ts_name (flat_map gf_types l).

(** [p1] and [p2] are one package before and after some of its files were
    generated: both have the files [l], and generated files [ex1], [ex2]
    besides.  The other files do not embed generated types and see the same
    packages under the names they use. *)
Record same_but (W1 : world) (l ex1 ex2 : list gofile) (p1 p2 : package) : Prop := {
  sb_name : pk_name p2 = pk_name p1;
  sb_path : pk_path p2 = pk_path p1;
  sb_files1 : Permutation (pk_files p1) (l ++ ex1);
  sb_files2 : Permutation (pk_files p2) (l ++ ex2);
  sb_types1 : NoDup (type_names_of (l ++ ex1));
  sb_types2 : NoDup (type_names_of (l ++ ex2));
  sb_unused : forall f e n, In f l -> mentions f e -> occurs_name n e ->
    ~ In n (type_names_of ex1) /\ ~ In n (type_names_of ex2);
  sb_keys1 : NoDup (map fst (pk_imports p1));
  sb_keys2 : NoDup (map fst (pk_imports p2));
  sb_aliases : forall f i path, In f l -> In i (gf_imports f) -> im_name i <> None -> Generator.unquote (im_path i) = Ok path ->
    assoc path (pk_imports p1) = assoc path (pk_imports p2);
  sb_imports : forall f e q, In f l -> mentions f e -> occurs_qualifier q e ->
    forall path id b, w_pkg W1 id = Some b -> pk_name b = q ->
      (In (path, id) (pk_imports p1) <-> In (path, id) (pk_imports p2));
  sb_qualifiers : forall f e q, In f l -> mentions f e -> occurs_qualifier q e ->
    forall path id b path' id' b', In (path, id) (pk_imports p1) -> In (path', id') (pk_imports p1) ->
      w_pkg W1 id = Some b -> w_pkg W1 id' = Some b' -> pk_name b = q -> pk_name b' = q -> path = path'
}.

(** the packages of two runs, apart from the one the file was written to *)
Record same_packages (W1 W2 : world) : Prop := {
  sp_pkg : forall id, w_pkg W2 id = w_pkg W1 id;
  sp_itself : forall p, known W1 p -> same_but W1 (pk_files p) [] [] p p;
  sp_files1 : forall p path, Permutation (rnd_files W1 path p) (pk_files p);
  sp_files2 : forall p path, Permutation (rnd_files W2 path p) (pk_files p);
  sp_imports1 : forall p path, Permutation (rnd_imports W1 path p) (pk_imports p);
  sp_imports2 : forall p path, Permutation (rnd_imports W2 path p) (pk_imports p);
  (* type T q.B: [q] is imported under that name or that last path element,
     and the import paths of the file load the same packages in both runs *)
  sp_load : forall p f ts q s, known W1 p -> declared_in p f ts -> ts_type ts = Selector (Ident q) s ->
    (exists i, In i (gf_imports f) /\ guessed i q) /\
    forall i, In i (gf_imports f) -> exists path, im_path i = quoted path /\ quoteless path = true /\ w_load W2 path = w_load W1 path
}.
