(** Specification vocabulary for method naming (C01-C07): what a Go reader
    sees in the declaration, stated without the functions of the model. *)
From Verif Require Export Ast.

(** The declared parameters of a field list, one entry per parameter:
    its declared name ("" when anonymous) and the field it comes from. *)
Definition declared_field (f : field) : list (string * field) :=
  map (fun n => (n, f)) (match f_names f with [] => [""] | ns => ns end).
Definition declared (l : list field) : list (string * field) := flat_map declared_field l.
Definition declared_opt (o : option (list field)) : list (string * field) :=
  match o with None => [] | Some l => declared l end.

(** "the last declared result has type error" *)
Definition last_result_is_error (rs : option (list field)) : Prop :=
  exists l f, rs = Some (l ++ [f]) /\ f_type f = Ident "error".

(** "the first parameter has type X.Context" *)
Definition first_param_is_context (ps : list field) : Prop :=
  exists f l x, ps = f :: l /\ f_type f = Selector x "Context".

(** "the first parameter has a type X.S" *)
Definition first_param_is_selector (ps : list field) : Prop :=
  exists f l x s, ps = f :: l /\ f_type f = Selector x s.

(** All identifiers occurring in an expression (selectors included). *)
Fixpoint idents (e : expr) : list string :=
  let fields := fix go (l : list field) : list string :=
    match l with [] => [] | f :: l' => idents (f_type f) ++ go l' end in
  match e with
  | Ident n => [n]
  | Selector x s => idents x ++ [s]
  | Star x | Ellipsis x | UnaryE _ x | ParenE x | SliceE x => idents x
  | ArrayT (Some n) x => idents n ++ idents x
  | ArrayT None x => idents x
  | ChanT _ x => idents x
  | MapT k v => idents k ++ idents v
  | FuncT ps rs => fields ps ++ match rs with None => [] | Some l => fields l end
  | StructT fs => fields fs
  | InterfaceT (Some ms) => fields ms
  | InterfaceT None => []
  | IndexE x i => idents x ++ idents i
  | IndexListE x l =>
      idents x ++ (fix go (l : list expr) := match l with [] => [] | y :: l' => idents y ++ go l' end) l
  | BinaryE _ x y => idents x ++ idents y
  | BasicLit _ => []
  end.

(** Go identifiers in ASCII: a letter or underscore followed by letters, digits
    and underscores (Go spec, "Identifiers"). *)
Definition is_letter (c : ascii) : bool :=
  let b := nat_of_ascii c in
  ((65 <=? b) && (b <=? 90) || (97 <=? b) && (b <=? 122) || (b =? 95))%nat%bool.
Definition is_digit (c : ascii) : bool :=
  let b := nat_of_ascii c in ((48 <=? b) && (b <=? 57))%nat%bool.

Fixpoint all_chars (p : ascii -> bool) (s : string) : bool :=
  match s with EmptyString => true | String c s' => p c && all_chars p s' end.

Definition is_ident (s : string) : bool :=
  match s with
  | EmptyString => false
  | String c s' => is_letter c && all_chars (fun c => is_letter c || is_digit c) s'
  end.

Definition keywords : list string :=
  ["break"; "case"; "chan"; "const"; "continue"; "default"; "defer"; "else"; "fallthrough";
   "for"; "func"; "go"; "goto"; "if"; "import"; "interface"; "map"; "package"; "range";
   "return"; "select"; "struct"; "switch"; "type"; "var"].

(** usable as a value: an identifier that is neither blank nor a keyword *)
Definition usable (s : string) : Prop :=
  is_ident s = true /\ s <> "_" /\ ~ In s keywords.

Definition ends_with_digit (s : string) : Prop :=
  exists a c, s = (a ++ String c "")%string /\ is_digit c = true.

(** Reading a Go call expression whose arguments are plain names: the callee
    and, per argument, its name and whether it is spread with "...". *)
Fixpoint split_on (c : ascii) (s : string) : list string :=
  match s with
  | EmptyString => [""]
  | String d s' =>
      if byte_eqb d c then "" :: split_on c s'
      else match split_on c s' with
           | [] => [String d ""]
           | h :: t => String d h :: t
           end
  end.

Definition strip_space (s : string) : string :=
  match s with String " " s' => s' | _ => s end.

Fixpoint strip_suffix (suf s : string) : option string :=
  if String.eqb s suf then Some ""
  else match s with
       | EmptyString => None
       | String c s' => match strip_suffix suf s' with Some r => Some (String c r) | None => None end
       end.

Definition parse_arg (s : string) : string * bool :=
  match strip_suffix "..." (strip_space s) with
  | Some a => (a, true)
  | None => (strip_space s, false)
  end.

Definition parse_call (s : string) : option (string * list (string * bool)) :=
  match cut "(" s with
  | None => None
  | Some (callee, rest) =>
      match strip_suffix ")" rest with
      | None => None
      | Some body => Some (callee, if String.eqb body "" then [] else map parse_arg (split_on "," body))
      end
  end.
