(** Model of pkg/package.go: Load, AST and Dir, over a file system whose Go
    files are already parsed, and the packages Generator.v works on. *)
From Verif Require Export NewGen Loader.
Open Scope nat_scope.

(** the fields of packages.Package used (golang.org/x/tools/go/packages) *)
Record loaded := Loaded {
  l_path : string;                     (* PkgPath *)
  l_name : string;                     (* Name *)
  l_go : list string;                  (* GoFiles, absolute paths *)
  l_other : list string;               (* OtherFiles *)
  l_imports : list (string * string);  (* Imports, by package id *)
  l_errors : list gerr                 (* Errors *)
}.

Definition errPackageNotFound := Sentinel "package not found".   (* package.go:13 *)

(** Load (package.go:21-37); [listing] is packages.Load *)
Definition Load (listing : string -> list loaded + gerr) (path : string) : res loaded :=
  match listing path with
  | inr e => Err e
  | inl [] => Err errPackageNotFound
  | inl (p :: _) => match l_errors p with e :: _ => Err e | [] => Ok p end
  end.

(** An entry of a directory.  [s_active] says whether the build constraints of
    the file (comments and name) hold; go/parser does not look at it.
    [s_parse] is the result of parser.ParseFile: the name in the package
    clause and the declarations, or the first error. *)
Inductive entry :=
| ESub
| ESource (s_active : bool) (s_parse : (string * gofile) + gerr).

(** os.ReadDir *)
Definition filesystem := string -> list (string * entry) + gerr.

(** strings.HasSuffix *)
Definition has_suffix (suf s : string) : bool :=
  (String.length suf <=? String.length s) && String.eqb (substring (String.length s - String.length suf) (String.length suf) s) suf.

Definition pkgmap := list (string * list (string * gofile)).

(** the loop of parser.ParseDir (go/parser/interface.go) with a nil filter *)
Fixpoint parse_entries (dir : string) (l : list (string * entry)) (pkgs : pkgmap) (first : option gerr) : pkgmap * option gerr :=
  match l with
  | [] => (pkgs, first)
  | (n, e) :: l' =>
      match e with
      | ESub => parse_entries dir l' pkgs first
      | ESource _ r =>
          if has_suffix ".go" n then
            match r with
            | inl (name, f) =>
                let files := match assoc name pkgs with Some fs => fs | None => [] end in
                parse_entries dir l' (assoc_set name (assoc_set (Join2 dir n) f files) pkgs) first
            | inr e => parse_entries dir l' pkgs (match first with Some e0 => Some e0 | None => Some e end)
            end
          else parse_entries dir l' pkgs first
      end
  end.

Definition ParseDir (fs : filesystem) (dir : string) : pkgmap * option gerr :=
  match fs dir with
  | inr e => ([], Some e)
  | inl l => parse_entries dir l [] None
  end.

(** Dir (package.go:59-66) *)
Definition PkgDir (p : loaded) : string :=
  match (l_go p ++ l_other p)%list with
  | [] => l_path p
  | f :: _ => Dir f
  end.

(** AST (package.go:40-56): the name and the files of the package *)
Definition AST (fs : filesystem) (p : loaded) : res (string * list (string * gofile)) :=
  match ParseDir fs (PkgDir p) with
  | (_, Some e) => Err e
  | (pkgs, None) =>
      match assoc (l_name p) pkgs with
      | Some files => Ok (l_name p, files)
      | None => Ok (l_name p, [])
      end
  end.

(** the package of Generator.v: what packages.Load says, with the result of
    pkg.AST *)
Definition package_of (fs : filesystem) (p : loaded) : package :=
  match AST fs p with
  | Ok (_, files) => Package (l_path p) (l_name p) (map snd files) (l_imports p) None
  | Err e => Package (l_path p) (l_name p) [] (l_imports p) (Some e)
  | Panic m => Package (l_path p) (l_name p) [] (l_imports p) (Some (Sentinel m))
  end.

(** the world of Generator.v: packages by id and by import path, iterated in
    the orders [of] and [oi] *)
Definition world_in (listing : string -> list loaded + gerr) (byid : string -> option loaded) (fs : filesystem)
  (of : list nat -> package -> list gofile) (oi : list nat -> package -> list (string * string)) : world :=
  World (fun id => option_map (package_of fs) (byid id))
        (fun path => match Load listing path with Ok p => Ok (package_of fs p) | Err e => Err e | Panic m => Panic m end)
        of oi.
