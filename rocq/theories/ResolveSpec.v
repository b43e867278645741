(** Specification of method sets, independent of the resolution algorithm in
    Generator.v: it only uses the shape of packages (files, imports, type
    declarations). *)
From Coq Require Import Permutation.
From Verif Require Import Generator.
Open Scope nat_scope.

(** type declaration [ts] occurs in file [f] of package [p] *)
Definition declared_in (p : package) (f : gofile) (ts : typespec) : Prop :=
  In f (pk_files p) /\ In ts (gf_types f).

(** the generic type of an instantiation, or the type itself *)
Definition base (e : expr) : expr :=
  match e with IndexE x _ => x | IndexListE x _ => x | _ => e end.

Definition quoted (path : string) : string := String "034" (path ++ String "034" EmptyString).

(** In file [f] of [p] the qualifier [q] denotes the package [p']: an import
    spec of that file says so, by an explicit name or, without one, by the
    name of the imported package (Go spec, Import declarations). *)
Definition import_of (W : world) (p : package) (f : gofile) (q : string) (p' : package) : Prop :=
  exists i path id,
    In i (gf_imports f) /\ im_path i = quoted path /\
    (im_name i = Some q \/ (im_name i = None /\ pk_name p' = q)) /\
    assoc path (pk_imports p) = Some id /\ w_pkg W id = Some p'.

(** [path] ends in the element [q] *)
Fixpoint slashless (s : string) : bool :=
  match s with EmptyString => true | String c s' => negb (byte_eqb c "/") && slashless s' end.
Definition last_element (path q : string) : Prop :=
  slashless q = true /\ (path = q \/ exists dir, path = (dir ++ "/" ++ q)%string).
(** the import spec names its package [q], or the last element of its path does *)
Definition guessed (i : importspec) (q : string) : Prop :=
  im_name i = Some q \/ (im_name i = None /\ exists path, im_path i = quoted path /\ last_element path q).
(** an import path in double quotes *)
Fixpoint quoteless (s : string) : bool :=
  match s with EmptyString => true | String c s' => negb (byte_eqb c "034") && quoteless s' end.
Definition plain_import (i : importspec) : Prop := exists path, im_path i = quoted path /\ quoteless path = true.

Definition all_types (p : package) : list typespec := flat_map gf_types (pk_files p).
(** [n] is not a type of package [p] *)
Definition undeclared (p : package) (n : string) : Prop := ~ In n (map ts_name (all_types p)).

(** [T] of package [p] has method [m]: declared directly in its interface
    literal, through an embedded interface, or because [T] is defined as
    another type.  A name that is not declared in the package comes from a
    package imported with "." or is predeclared; [error] is the predeclared type
    with a method.  (Go spec, Interface types, Import declarations, Errors.) *)
Inductive in_set (W : world) : package -> string -> string -> Prop :=
| is_own p f ts l fd m ns ps rs :
    declared_in p f ts -> ts_type ts = InterfaceT (Some l) ->
    In fd l -> f_type fd = FuncT ps rs -> f_names fd = m :: ns ->
    in_set W p (ts_name ts) m
| is_embed p f ts l fd n m :
    declared_in p f ts -> ts_type ts = InterfaceT (Some l) ->
    In fd l -> base (f_type fd) = Ident n -> in_set W p n m ->
    in_set W p (ts_name ts) m
| is_embed_imported p f ts l fd q s p' m :
    declared_in p f ts -> ts_type ts = InterfaceT (Some l) ->
    In fd l -> base (f_type fd) = Selector (Ident q) s ->
    import_of W p f q p' -> in_set W p' s m ->
    in_set W p (ts_name ts) m
| is_def p f ts n m :
    declared_in p f ts -> base (ts_type ts) = Ident n -> in_set W p n m ->
    in_set W p (ts_name ts) m
| is_def_imported p f ts q s p' m :
    declared_in p f ts -> base (ts_type ts) = Selector (Ident q) s ->
    import_of W p f q p' -> in_set W p' s m ->
    in_set W p (ts_name ts) m
| is_embed_dot p f ts l fd n p' m :
    declared_in p f ts -> ts_type ts = InterfaceT (Some l) ->
    In fd l -> base (f_type fd) = Ident n -> undeclared p n ->
    import_of W p f "." p' -> in_set W p' n m ->
    in_set W p (ts_name ts) m
| is_def_dot p f ts n p' m :
    declared_in p f ts -> base (ts_type ts) = Ident n -> undeclared p n ->
    import_of W p f "." p' -> in_set W p' n m ->
    in_set W p (ts_name ts) m
| is_embed_error p f ts l fd :
    declared_in p f ts -> ts_type ts = InterfaceT (Some l) ->
    In fd l -> base (f_type fd) = Ident "error" -> undeclared p "error" ->
    in_set W p (ts_name ts) "Error"
| is_def_error p f ts :
    declared_in p f ts -> base (ts_type ts) = Ident "error" -> undeclared p "error" ->
    in_set W p (ts_name ts) "Error".

(** packages the resolution can meet *)
Definition known (W : world) (p : package) : Prop :=
  (exists id, w_pkg W id = Some p) \/ (exists path, w_load W path = Ok p).

(** the embedded elements and type definitions of a file *)
Definition mentions (f : gofile) (e : expr) : Prop :=
  exists ts, In ts (gf_types f) /\
    (ts_type ts = e \/ exists l fd, ts_type ts = InterfaceT (Some l) /\ In fd l /\ f_type fd = e).

(** What is assumed of the packages. *)
Record well_formed (W : world) : Prop := {
  (* type names are unique in a package (Go rule, with build tags and test
     files aside) *)
  wf_types : forall p, known W p -> NoDup (map ts_name (all_types p));
  (* maps are maps, and iterating yields their elements *)
  wf_imports : forall p, known W p -> NoDup (keys (pk_imports p));
  wf_rnd_files : forall p path, known W p -> Permutation (rnd_files W path p) (pk_files p);
  wf_rnd_imports : forall p path, known W p -> Permutation (rnd_imports W path p) (pk_imports p);
  (* qualifiers resolve in the file where they are used *)
  wf_selectors : forall p f e x s, known W p -> In f (pk_files p) -> mentions f e ->
     base e = Selector x s -> exists q p', x = Ident q /\ q <> "." /\ q <> "_" /\ import_of W p f q p';
  (* names resolve in the package, or have no methods: [error] and interfaces
     of packages imported with "." are not used *)
  wf_idents : forall p f e n, known W p -> In f (pk_files p) -> mentions f e -> base e = Ident n ->
     In n (map ts_name (all_types p)) \/ n <> "error" /\ forall p' m, import_of W p f "." p' -> ~ in_set W p' n m;
  (* all files of a package use a qualifier for one package only, and no other
     imported package has that name *)
  wf_qualifiers : forall p f f' q p', q <> "." -> q <> "_" -> known W p -> In f (pk_files p) -> In f' (pk_files p) ->
     import_of W p f q p' ->
     (forall i, In i (gf_imports f') -> im_name i = Some q ->
        exists path id, im_path i = quoted path /\ assoc path (pk_imports p) = Some id /\ w_pkg W id = Some p') /\
     (forall path id b, In (path, id) (pk_imports p) -> w_pkg W id = Some b -> pk_name b = q -> b = p');
  (* type T B: B is declared in the same file, or is not a type of the package *)
  wf_def_ident : forall p f ts n, known W p -> declared_in p f ts -> ts_type ts = Ident n ->
     In n (map ts_name (gf_types f)) \/ ~ In n (map ts_name (all_types p));
  (* type T q.B: in the files with such declarations import paths are in
     double quotes; [q] is the last path element of its import, or its name
     there; it is not of an import of another package; the path loads the
     package *)
  wf_def_selector : forall p f ts q s p', known W p -> declared_in p f ts ->
     ts_type ts = Selector (Ident q) s -> import_of W p f q p' ->
     (forall i, In i (gf_imports f) -> plain_import i) /\
     exists i path, In i (gf_imports f) /\ guessed i q /\ im_path i = quoted path /\ w_load W path = Ok p' /\
       forall i', In i' (gf_imports f) -> guessed i' q -> im_path i' = im_path i;
  (* type T B[X]: B has no methods *)
  wf_def_instance : forall p f ts m, known W p -> declared_in p f ts -> base (ts_type ts) <> ts_type ts ->
     ~ in_set W p (ts_name ts) m
}.
