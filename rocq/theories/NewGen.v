(** Model of the rest of generator/generator.go: NewGenerator, Import,
    makeImports, loadDestinationPackage, makePackage, and of the parts of
    path/filepath (Unix) they use. *)
From Verif Require Export Generator Trim.
Open Scope nat_scope.

(** ** path/filepath on Unix *)

(** elements of a path between slashes *)
Fixpoint split_slash_aux (s acc : string) : list string :=
  match s with
  | EmptyString => [acc]
  | String c s' =>
      if byte_eqb c "/" then acc :: split_slash_aux s' ""
      else split_slash_aux s' (acc ++ String c "")%string
  end.
Definition split_slash (s : string) : list string := split_slash_aux s "".

Definition rooted (s : string) : bool := match s with String "/" _ => true | _ => false end.

(** filepath.Clean, component by component.  The Go code works on bytes with
    a lazy buffer; its rules are these: empty elements and "." are dropped,
    ".." removes the element before it unless there is none that can be
    removed, in which case it is dropped after a root and kept otherwise.
    [st] is the stack of kept elements, last first. *)
Fixpoint clean_stack (root : bool) (st : list string) (l : list string) : list string :=
  match l with
  | [] => rev st
  | e :: l' =>
      if String.eqb e "" || String.eqb e "." then clean_stack root st l'
      else if String.eqb e ".." then
        match st with
        | t :: st' => if String.eqb t ".." then clean_stack root (e :: st) l' else clean_stack root st' l'
        | [] => if root then clean_stack root st l' else clean_stack root [e] l'
        end
      else clean_stack root (e :: st) l'
  end.

Definition Clean (s : string) : string :=
  let l := clean_stack (rooted s) [] (split_slash s) in
  if rooted s then String "/" (join "/" l)
  else match l with [] => "." | _ => join "/" l end.

(** filepath.Dir: Clean of everything up to the last slash *)
Definition dir_part (s : string) : string := (* path[:lastSlash+1] *)
  match rev (split_slash s) with
  | [] | [_] => ""
  | _ :: r => (join "/" (rev r) ++ "/")%string
  end.
Definition Dir (s : string) : string := Clean (dir_part s).

(** filepath.Base *)
Fixpoint strip_slashes_r (s : string) : string :=
  match s with
  | EmptyString => EmptyString
  | String c s' =>
      match strip_slashes_r s' with
      | EmptyString => if byte_eqb c "/" then EmptyString else String c EmptyString
      | t => String c t
      end
  end.
Definition Base (s : string) : string :=
  match s with
  | EmptyString => "."
  | _ => match last (split_slash (strip_slashes_r s)) "" with
         | EmptyString => "/"
         | b => b
         end
  end.

(** ** sort.Strings: bytewise increasing.  Insertion sort; on lists without
    duplicates every sorting algorithm gives the same result. *)
Definition str_ltb (a b : string) : bool := match String.compare a b with Lt => true | _ => false end.
Fixpoint insert (x : string) (l : list string) : list string :=
  match l with
  | [] => [x]
  | y :: l' => if str_ltb y x then y :: insert x l' else x :: l
  end.
Definition sort_strings (l : list string) : list string := fold_right insert [] l.

(** ** TemplateInputs.Import (generator.go:48-84) *)

(** one template import: [None] when skipped (generator.go:57-72) *)
Definition template_import (i : string) : res (option string) :=
  if String.eqb i "" then Ok None
  else
    let t := trim_space i in
    match last_byte t with
    | None => Panic "index out of range [-1]"
    | Some c =>
        let t := if byte_eqb c "034" then t else (t ++ String "034" "")%string in
        match t with
        | EmptyString => Panic "index out of range [0]"
        | String d _ => Ok (Some (if byte_eqb d "034" then t else String "034" t))
        end
    end.

(** allImports: the keys of the map, in insertion order *)
Definition add_key (k : string) (m : list string) : list string := if mem k m then m else m ++ [k].
Fixpoint add_template_imports (l : list string) (m : list string) : res (list string) :=
  match l with
  | [] => Ok m
  | i :: l' =>
      do o <- template_import i;
      add_template_imports l' (match o with None => m | Some k => add_key k m end)
  end.

(** [order] is the iteration order of the map (generator.go:77-79) *)
Definition Import (order : list string -> list string) (timports imports : list string) : res string :=
  let m := fold_left (fun m i => add_key (trim_space i) m) timports [] in
  do m <- add_template_imports imports m;
  Ok ("import (" ++ nl ++ join nl (sort_strings (order m)) ++ ")" ++ nl)%string.

(** ** NewGenerator (generator.go:164-263) *)

(** What NewGenerator takes from outside: template parsing (text/template, see
    Tmpl.v for its own model), cases.Title, and the iteration order of the
    method map. *)
Record env := Env {
  e_parse : string -> option gerr;
  e_title : string -> string;
  e_order : methodsList -> methodsList
}.

Record options := Options {
  op_interface : string;
  op_imports : list string;
  op_source : string;
  op_instance : option package;
  op_alias : string;
  op_output : string;
  op_header : string;
  op_body : string;
  op_prefix : string
}.

Record generator := Generator {
  g_options : options;             (* with the extended Imports *)
  g_src : package;
  g_dst_name : string;             (* dstPackage.Name *)
  g_dst_path : string;             (* dstPackage.PkgPath *)
  g_interfaceType : string;
  g_genericTypes : string;
  g_genericParams : string;
  g_methods : methodsList
}.

(** makeImports (generator.go:265-276) *)
Definition makeImports (l : list importspec) : list string :=
  map (fun i => (match im_name i with Some n => n | None => "" end ++ " " ++ im_path i)%string) l.

Definition errNoPackageName := Sentinel "failed to determine the destination package name". (* generator.go:288 *)

(** makePackage (generator.go:290-299): name; PkgPath is empty *)
Definition makePackage (path : string) : res (string * string) :=
  let name := Base path in
  if String.eqb name "/" || String.eqb name "." then Err errNoPackageName else Ok (name, "").

(** loadDestinationPackage (generator.go:278-286): name and PkgPath *)
Definition loadDestinationPackage (W : world) (path : string) : res (string * string) :=
  match w_load W path with
  | Ok p => Ok (pk_name p, pk_path p)
  | Err _ => makePackage path
  | Panic m => Panic m
  end.

(** generator.go:197-200 *)
Definition dstPackagePath (output : string) : string :=
  let d := Dir output in
  if has_prefix "/" d || has_prefix "./" d then d else ("./" ++ d)%string.

(** the check of generator.go:241-245: first offending method in map order *)
Fixpoint check_exported (lower : N -> N) (l : methodsList) : res unit :=
  match l with
  | [] => Ok tt
  | (_, m) :: l' =>
      do u <- looks_unexported lower (m_name m);
      if u : bool then Err (Wrapped (m_name m) errUnexportedMethod) else check_exported lower l'
  end.

Definition rwrap {A} (msg : string) (r : res A) : res A :=
  match r with Err e => Err (Wrapped msg e) | _ => r end.

Definition with_imports (l : list string) (o : options) : options :=
  Options (op_interface o) l (op_source o) (op_instance o) (op_alias o) (op_output o) (op_header o) (op_body o) (op_prefix o).

Definition NewGenerator (Or : oracle) (E : env) (W : world) (fuel : nat) (o : options) : fres generator :=
  let? _ := flift (match e_parse E (op_header o) with
                   | Some e => Err (Wrapped "failed to parse header template" e) | None => Ok tt end) in
  let? _ := flift (match e_parse E (op_body o) with
                   | Some e => Err (Wrapped "failed to parse body template" e) | None => Ok tt end) in
  let? src := match op_instance o with
              | Some p => fret p
              | None => flift (rwrap "failed to load source package" (w_load W (op_source o)))
              end in
  let dpath := dstPackagePath (op_output o) in
  let? dst := flift (rwrap ("failed to load destination package: " ++ dpath)%string (loadDestinationPackage W dpath)) in
  let? _ := flift (rwrap "failed to parse source package" (ast_ok src)) in
  let same := String.eqb (pk_path src) (snd dst) in
  let astName := if same then ""
                 else if negb (String.eqb (op_alias o) "") then op_alias o
                 else ("_source" ++ e_title E (pk_name src))%string in
  let interfaceType := if same then op_interface o else (astName ++ "." ++ op_interface o)%string in
  let imports1 := if same then op_imports o
                  else op_imports o ++ [(astName ++ " " ++ quote ++ pk_path src ++ quote)%string] in
  let? out := fwrap "failed to parse interface declaration"
                (findTarget Or W fuel [] src astName (op_interface o) []) in
  let methods := match out_methods out with Some m => m | None => [] end in
  match methods with
  | [] => ferr errEmptyInterface
  | _ =>
      let? _ := flift (if negb (String.eqb astName "") then check_exported (o_lower Or) (e_order E methods) else Ok tt) in
      let imports := imports1 ++ makeImports (out_imports out) in
      let '(gt, gp) := buildVars (out_gtypes out) in
      fret (Generator (with_imports imports o) src (fst dst) (snd dst) interfaceType gt gp methods)
  end.
