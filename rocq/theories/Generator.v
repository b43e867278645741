(** Model of generator/generator.go: resolution of the source interface.

    The world consists of already parsed packages.  go/packages and go/parser
    are not modelled; a package either loads or does not ([w_load]) and its
    directory either parses or does not ([pk_ast_err]).  Iteration over Go maps
    ([pkg.Package.Files], [packages.Package.Imports]) happens in an arbitrary
    order that may differ from call to call: [rnd_files] and [rnd_imports] give
    the order for the call identified by a path in the call tree. *)
From Verif Require Export Types.
Open Scope nat_scope.

(** one *ast.File: type declarations (generator.go:454-468) and imports *)
Record gofile := GoFile { gf_types : list typespec; gf_imports : list importspec }.

(** packages.Package together with its AST (pkg/package.go:15-18, 40-56).
    [pk_imports] maps import paths to package ids. *)
Record package := Package {
  pk_path : string;
  pk_name : string;
  pk_files : list gofile;
  pk_imports : list (string * string);
  pk_ast_err : option gerr
}.

Record world := World {
  w_pkg : string -> option package;          (* package by id *)
  w_load : string -> res package;            (* pkg.Load (pkg/package.go:21-37) *)
  rnd_files : list nat -> package -> list gofile;
  rnd_imports : list nat -> package -> list (string * string)
}.

Definition methodsList := list (string * method).

(** targetProcessInput (generator.go:147-153), with the file the target was
    found in ([ast.Ident.Obj] is resolved inside one file only). *)
Record tinput := TInput {
  ti_pkg : package;
  ti_prefix : string;              (* typesPrefix = astPackage.Name *)
  ti_types : list typespec;
  ti_imports : list importspec;
  ti_file : list typespec;
  ti_gtypes : list genericType;
  ti_gparams : list genericParam
}.

Definition set_gparams (gps : list genericParam) (i : tinput) : tinput :=
  TInput (ti_pkg i) (ti_prefix i) (ti_types i) (ti_imports i) (ti_file i) (ti_gtypes i) gps.
Definition set_gtypes (gts : list genericType) (i : tinput) : tinput :=
  TInput (ti_pkg i) (ti_prefix i) (ti_types i) (ti_imports i) (ti_file i) gts (ti_gparams i).

(** processOutput (generator.go:155-159) *)
Record output := Output {
  out_gtypes : list genericType;
  out_methods : option methodsList;    (* None is a nil map *)
  out_imports : list importspec
}.

Definition errEmptyInterface := Sentinel "interface has no methods".        (* generator.go:161 *)
Definition errUnexportedMethod := Sentinel "unexported method".             (* generator.go:162 *)
Definition errTargetNotFound := Sentinel "target declaration not found".    (* generator.go:342 *)
Definition errNotAnInterface := Sentinel "embedded type is not an interface". (* generator.go:636 *)
Definition errUnknownSelector := Sentinel "unknown selector".               (* generator.go:666 *)

(** iterateFiles (generator.go:438-452): all types, and the last declaration of
    the wanted name with its file. *)
Definition iterate_step (name : string) (f : gofile) (ts : typespec)
  (acc : option (typespec * gofile) * list typespec) :=
  (if String.eqb (ts_name ts) name then Some (ts, f) else fst acc, snd acc ++ [ts]).

Definition iterate_file (name : string) (acc : option (typespec * gofile) * list typespec) (f : gofile) :=
  fold_left (fun a ts => iterate_step name f ts a) (gf_types f) acc.

Definition iterateFiles (files : list gofile) (name : string)
  : option (typespec * gofile) * list typespec :=
  fold_left (iterate_file name) files (None, []).

(** unquote (generator.go:684-694) *)
Definition unquote (s : string) : res string :=
  match s with
  | EmptyString => Panic "index out of range [0]"
  | String c s' =>
      let t := if byte_eqb c "034" then s' else s in
      match last_byte t with
      | None => Panic "index out of range [-1]"
      | Some d => if byte_eqb d "034" then Ok (drop_last t) else Ok t
      end
  end.

(** strings.Trim with a double quote as cut set (generator.go:420) *)
Fixpoint trim_quotes_l (s : string) : string :=
  match s with
  | EmptyString => EmptyString
  | String c s' => if byte_eqb c "034" then trim_quotes_l s' else s
  end.
Fixpoint trim_quotes_r (s : string) : string :=
  match s with
  | EmptyString => EmptyString
  | String c s' =>
      match trim_quotes_r s' with
      | EmptyString => if byte_eqb c "034" then EmptyString else String c EmptyString
      | t => String c t
      end
  end.
Definition trim_quotes (s : string) : string := trim_quotes_r (trim_quotes_l s).

(** the part of cleanPath after the last slash (generator.go:429-430) *)
Fixpoint after_last_slash (s : string) : string :=
  match s with
  | EmptyString => EmptyString
  | String c s' =>
      if byte_eqb c "/" then after_last_slash s'
      else if existsb (byte_eqb "/") (list_ascii_of_string s') then after_last_slash s'
      else s
  end.

(** findSourcePackage (generator.go:418-436) *)
Fixpoint findSourcePackage (name : string) (imports : list importspec) : string :=
  match imports with
  | [] => ""
  | i :: rest =>
      let cleanPath := trim_quotes (im_path i) in
      match im_name i with
      | Some n => if String.eqb name n then cleanPath else findSourcePackage name rest
      | None => if String.eqb name (after_last_slash cleanPath) then cleanPath
                else findSourcePackage name rest
      end
  end.

(** findImportPathForName (generator.go:668-682) *)
Fixpoint alias_path (name : string) (imports : list importspec) : option (res string) :=
  match imports with
  | [] => None
  | i :: rest =>
      match im_name i with
      | Some n => if String.eqb n name then Some (unquote (im_path i)) else alias_path name rest
      | None => alias_path name rest
      end
  end.

Fixpoint path_by_name (W : world) (name : string) (l : list (string * string)) : option string :=
  match l with
  | [] => None
  | (path, id) :: rest =>
      match w_pkg W id with
      | Some p => if String.eqb (pk_name p) name then Some path else path_by_name W name rest
      | None => path_by_name W name rest
      end
  end.

Definition findImportPathForName (W : world) (path : list nat) (name : string)
  (imports : list importspec) (p : package) : res string :=
  match alias_path name imports with
  | Some r => r
  | None =>
      match path_by_name W name (rnd_imports W path p) with
      | Some s => Ok s
      | None => Err (Wrapped name errUnknownSelector)
      end
  end.

(** mergeMethods (generator.go:617-634) *)
Definition merge_into (acc l : methodsList) : methodsList :=
  fold_left (fun a kv => assoc_set (fst kv) (snd kv) a) l acc.
Definition mergeMethods (methods : methodsList) (emb : option methodsList) : methodsList :=
  match emb with
  | None => methods
  | Some e => merge_into (merge_into [] e) methods
  end.

(** pkg.AST (pkg/package.go:40-56): [Ok] of the package's files, or the parse
    error *)
Definition ast_ok (p : package) : res unit :=
  match pk_ast_err p with None => Ok tt | Some e => Err e end.

(** first type with the given name (the loop of processIdent,
    generator.go:641-656) *)
Definition find_type (name : string) (types : list typespec) : option typespec :=
  find (fun t => String.eqb (ts_name t) name) types.

(** Results of the recursive functions: [None] means the fuel ran out (a
    deeper recursion than the fuel), which no Go value corresponds to. *)
Definition fres (A : Type) := option (res A).
Definition fret {A} (a : A) : fres A := Some (Ok a).
Definition ferr {A} (e : gerr) : fres A := Some (Err e).
Definition flift {A} (r : res A) : fres A := Some r.
Definition fbind {A B} (r : fres A) (k : A -> fres B) : fres B :=
  match r with
  | None => None
  | Some (Ok a) => k a
  | Some (Err e) => Some (Err e)
  | Some (Panic m) => Some (Panic m)
  end.
Notation "'let?' x := m 'in' k" := (fbind m (fun x => k))
  (at level 200, x name, m at level 100, k at level 200).
Definition fwrap {A} (msg : string) (r : fres A) : fres A :=
  match r with Some (Err e) => Some (Err (Wrapped msg e)) | r => r end.

(** the loop of processInterface over it.Methods.List (generator.go:556-583);
    [embed] is processEmbedded on the i-th element *)
Section Loop.
  Variable newMethod : string -> field -> res method.
  Variable embed : nat -> expr -> fres (genericParam * option methodsList).

  Fixpoint interface_loop (i : nat) (l : list field) (methods : methodsList) : fres methodsList :=
    match l with
    | [] => fret methods
    | f :: l' =>
        match f_type f with
        | FuncT _ _ =>
            match f_names f with
            | [] => Some (Panic "index out of range [0]")
            | n :: _ =>
                let? m := flift (newMethod n f) in
                interface_loop (S i) l' (assoc_set n m methods)
            end
        | v =>
            let? pm := embed i v in
            interface_loop (S i) l' (mergeMethods methods (snd pm))
        end
    end.

  (** the loop over type arguments of processEmbedded (generator.go:509-526) *)
  Fixpoint args_loop (i : nat) (l : list expr) : fres (list genericParam) :=
    match l with
    | [] => fret []
    | a :: l' =>
        let? pm := embed i a in
        let? rest := args_loop (S i) l' in
        fret (if String.eqb (gp_name (fst pm)) "" then rest else fst pm :: rest)
    end.
End Loop.

Section Resolve.
  Variable Or : oracle.
  Variable W : world.

  (** findTarget (generator.go:344-364), findMethods (366-391) with getMethods
      (393-416) inlined, processEmbedded (488-545) with getEmbeddedMethods
      (470-486), processSelector (587-615) and processIdent (638-664) inlined,
      processInterface (547-585). *)
  Fixpoint findTarget (fuel : nat) (path : list nat) (p : package) (astName target : string)
    (gps : list genericParam) {struct fuel} : fres output :=
    match fuel with
    | O => None
    | S fuel =>
        let '(sel, types) := iterateFiles (rnd_files W path p) target in
        match sel with
        | None => ferr (Wrapped target errTargetNotFound)
        | Some (ts, f) =>
            let? gts := flift (buildGenericTypesFromSpec ts types astName) in
            let inp := TInput p astName types (gf_imports f) (gf_types f) gts gps in
            let? ms := findMethods fuel path ts inp in
            fret (Output gts ms (gf_imports f))
        end
    end
  with findMethods (fuel : nat) (path : list nat) (ts : typespec) (inp : tinput) {struct fuel}
    : fres (option methodsList) :=
    match fuel with
    | O => None
    | S fuel =>
        match ts_type ts with
        | InterfaceT ms => processInterface fuel path ms inp
        | Selector x s =>
            match x with
            | Ident q =>
                let srcPath := findSourcePackage q (ti_imports inp) in
                let? p := fwrap ("cant load " ++ srcPath ++ " package")%string (flift (w_load W srcPath)) in
                let? _ := fwrap ("cant ast " ++ srcPath ++ " package")%string (flift (ast_ok p)) in
                let? out := fwrap ("failed to find target in " ++ srcPath ++ " package")%string
                              (findTarget fuel (0 :: path) p (pk_name p) s []) in
                fret (out_methods out)
            | _ => fret None
            end
        | Ident n =>
            match find_type n (ti_file inp) with
            | None => fret None
            | Some ts' => findMethods fuel path ts' inp
            end
        | _ => fret None
        end
    end
  with processInterface (fuel : nat) (path : list nat) (ms : option (list field)) (inp : tinput)
    {struct fuel} : fres (option methodsList) :=
    match fuel with
    | O => None
    | S fuel =>
        match ms with
        | None => fret None
        | Some l =>
            let pr := PrintType Or (ti_types inp) (ti_prefix inp) in
            let? m := interface_loop (NewMethod Or pr (ti_gtypes inp) (ti_gparams inp))
                        (fun i e => processEmbedded fuel (i :: path) e true inp) 0 l [] in
            fret (Some m)
        end
    end
  with processEmbedded (fuel : nat) (path : list nat) (t : expr) (check : bool) (inp : tinput)
    {struct fuel} : fres (genericParam * option methodsList) :=
    match fuel with
    | O => None
    | S fuel =>
        let? xg := match t with
                   | IndexE x i =>
                       let? gps := args_loop (fun k e => processEmbedded fuel (S k :: path) e false inp) 0 [i] in
                       fret (x, Some gps)
                   | IndexListE x l =>
                       let? gps := args_loop (fun k e => processEmbedded fuel (S k :: path) e false inp) 0 l in
                       fret (x, Some gps)
                   | _ => fret (t, None)
                   end in
        let x := fst xg in
        let gps := match snd xg with None => [] | Some g => g end in
        let inp' := set_gparams gps inp in
        let? name := flift (PrintType Or (ti_types inp) (ti_prefix inp) x) in
        let? ms := match x with
                   | Selector y s =>
                       match y with
                       | Ident q =>
                           let? ip := fwrap ("unable to find package " ++ q)%string
                                        (flift (findImportPathForName W path q (ti_imports inp) (ti_pkg inp))) in
                           match assoc ip (pk_imports (ti_pkg inp)) with
                           | None => ferr (Sentinel ("unable to find package " ++ q))
                           | Some id =>
                               match w_pkg W id with
                               | None => ferr (Sentinel ("unable to find package " ++ q))
                               | Some p =>
                                   let? _ := fwrap "failed to import package" (flift (ast_ok p)) in
                                   let? out := findTarget fuel (0 :: path) p (pk_name p) s gps in
                                   fret (out_methods out)
                               end
                           end
                       | _ => Some (Panic "interface conversion: ast.Expr is not *ast.Ident")
                       end
                   | Ident n =>
                       match find_type n (ti_types inp) with
                       | None => fret None
                       | Some ts =>
                           match ts_type ts with
                           | InterfaceT l =>
                               let? gts := flift (buildGenericTypesFromSpec ts (ti_types inp) (ti_prefix inp)) in
                               processInterface fuel (0 :: path) l (set_gtypes gts inp')
                           | _ => if check then ferr (Wrapped (ts_name ts) errNotAnInterface) else fret None
                           end
                       end
                   | _ => fret None
                   end in
        fret (GParam name gps, ms)
    end.
End Resolve.
