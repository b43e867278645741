(** Reading Go types: a lexer and a recursive descent parser for the type grammar
    of the Go specification ("Lexical elements", "Types"), the reference against
    which the printed types of printer/printer.go are read back (C09).

    Written from the specification, not from the printer.  Left out: constant
    expressions other than numbers and names as array lengths, interface types
    with elements, struct tags; embedded fields may be any type. *)
From Verif Require Export Ast TypesSpec.
Open Scope nat_scope.

(** ** Tokens *)

(** a word (identifier, keyword or number), an operator, an automatic semicolon *)
Inductive tok := Word (s : string) | Sym (s : string) | Semi.

Definition wordc (c : ascii) : bool := is_letter c || is_digit c || (128 <=? nat_of_ascii c).
Definition spacec (c : ascii) : bool := byte_eqb c " " || byte_eqb c "009" || byte_eqb c "013".
Definition closes (c : ascii) : bool := byte_eqb c ")" || byte_eqb c "]" || byte_eqb c "}".

Definition flush (w : string) : list tok := match w with "" => [] | _ => [Word w] end.

(** [w] is the word being read; [can] says that a line end here ends the line's
    declaration ("Semicolons": after an identifier, a literal or a closing
    bracket) *)
Fixpoint lex (w : string) (can : bool) (s : string) : list tok :=
  match s with
  | "" => flush w
  | String c s' =>
      if wordc c then lex (w ++ String c "") can s'
      else
        let can := match w with "" => can | _ => true end in
        flush w ++
        (if byte_eqb c "010" then (if can then [Semi] else []) ++ lex "" false s'
         else if spacec c then lex "" can s'
         else match c, s' with
              | "<"%char, String "-" s2 => Sym "<-" :: lex "" false s2
              | "."%char, String "." (String "." s2) => Sym "..." :: lex "" false s2
              | _, _ => Sym (String c "") :: lex "" (closes c) s'
              end)
  end.

(** ** Grammar *)

Definition keyword (w : string) : bool := existsb (String.eqb w) keywords.
(** a word that starts with a digit is a number *)
Definition number (w : string) : bool := match w with String c _ => is_digit c | "" => false end.
Definition name_like (w : string) : bool := negb (keyword w) && negb (number w).

(** tokens a type starts with *)
Definition starts_type (ts : list tok) : bool :=
  match ts with
  | Word w :: _ => name_like w || existsb (String.eqb w) ["func"; "map"; "chan"; "struct"; "interface"]
  | Sym s :: _ => existsb (String.eqb s) ["*"; "["; "<-"; "("]
  | _ => false
  end.

Definition mkfield (ns : list string) (t : expr) : field := Field [] [] ns t None.

(** what stands between commas in a parameter list or a line of a struct: a name
    with a type, or something that is a name or a type depending on the others *)
Inductive entry := ENamed (n : string) (t : expr) | ELone (t : expr).
Definition named_entry (e : entry) : bool := match e with ENamed _ _ => true | ELone _ => false end.

(** "parameter names must either all be present or all be absent" *)
Fixpoint group (pending : list string) (es : list entry) : option (list field) :=
  match es with
  | [] => match pending with [] => Some [] | _ => None end
  | ELone (Ident n) :: es' => group (pending ++ [n]) es'
  | ELone _ :: _ => None
  | ENamed n t :: es' => option_map (cons (mkfield (pending ++ [n]) t)) (group [] es')
  end.
Definition lone_type (e : entry) : field := match e with ENamed n t => mkfield [n] t | ELone t => mkfield [] t end.
Definition fields_of (es : list entry) : option (list field) :=
  if existsb named_entry es then group [] es else Some (map lone_type es).

Definition index (x : expr) (args : list expr) : option expr :=
  match args with [] => None | [a] => Some (IndexE x a) | _ => Some (IndexListE x args) end.

Notation "'let?' x := r 'in' k" := (match r with Some x => k | None => None end)
  (at level 200, x pattern, r at level 100, k at level 200).

(** the rest after the operator [s] *)
Definition eat (s : string) (ts : list tok) : option (list tok) :=
  match ts with Sym s' :: r => if String.eqb s s' then Some r else None | _ => None end.
Definition eat_word (s : string) (ts : list tok) : option (list tok) :=
  match ts with Word s' :: r => if String.eqb s s' then Some r else None | _ => None end.

(** a type name: [x] or [x.y] *)
Definition qualified (x : string) (r : list tok) : expr * list tok :=
  match eat "." r with
  | Some (Word y :: r') => (Selector (Ident x) y, r')
  | _ => (Ident x, r)
  end.

Fixpoint ptype (f : nat) (ts : list tok) : option (expr * list tok) :=
  match f with
  | 0 => None
  | S f =>
      match ts with
      | Word w :: r =>
          if String.eqb w "func" then
            let? r := eat "(" r in
            let? (ps, r) := pparams f r in
            let? ps := fields_of ps in
            match eat "(" r with
            | Some r => let? (rs, r) := pparams f r in
                        let? rs := fields_of rs in Some (FuncT ps (Some rs), r)
            | None => if starts_type r
                      then let? (t, r) := ptype f r in Some (FuncT ps (Some [mkfield [] t]), r)
                      else Some (FuncT ps None, r)
            end
          else if String.eqb w "map" then
            let? r := eat "[" r in
            let? (k, r) := ptype f r in
            let? r := eat "]" r in
            let? (v, r) := ptype f r in Some (MapT k v, r)
          else if String.eqb w "chan" then
            match eat "<-" r with
            | Some r => let? (v, r) := ptype f r in Some (ChanT SendOnly v, r)
            | None => let? (v, r) := ptype f r in Some (ChanT SendRecv v, r)
            end
          else if String.eqb w "struct" then
            let? r := eat "{" r in
            let? (fs, r) := pfields f r in Some (StructT fs, r)
          else if String.eqb w "interface" then
            let? r := eat "{" r in
            let? r := eat "}" r in Some (InterfaceT (Some []), r)
          else if name_like w then
            let '(base, r) := qualified w r in
            match eat "[" r with
            | Some r => let? (args, r) := pargs f r in
                        let? t := index base args in Some (t, r)
            | None => Some (base, r)
            end
          else None
      | Sym s :: r =>
          if String.eqb s "<-" then
            let? r := eat_word "chan" r in
            let? (v, r) := ptype f r in Some (ChanT RecvOnly v, r)
          else if String.eqb s "*" then let? (t, r) := ptype f r in Some (Star t, r)
          else if String.eqb s "[" then
            match eat "]" r with
            | Some r => let? (t, r) := ptype f r in Some (ArrayT None t, r)
            | None => let? (l, r) := parg f r in
                      let? r := eat "]" r in
                      let? (t, r) := ptype f r in Some (ArrayT (Some l) t, r)
            end
          else if String.eqb s "(" then
            let? (t, r) := ptype f r in
            let? r := eat ")" r in Some (ParenE t, r)
          else None
      | _ => None
      end
  end
(** one argument of an instantiation, or an array length *)
with parg (f : nat) (ts : list tok) : option (expr * list tok) :=
  match f with
  | 0 => None
  | S f =>
      match ts with
      | Word w :: r => if number w then Some (BasicLit w, r) else ptype f ts
      | _ => ptype f ts
      end
  end
(** arguments up to the closing bracket *)
with pargs (f : nat) (ts : list tok) : option (list expr * list tok) :=
  match f with
  | 0 => None
  | S f =>
      let? (a, r) := parg f ts in
      match eat "," r with
      | Some r => let? (l, r) := pargs f r in Some (a :: l, r)
      | None => let? r := eat "]" r in Some ([a], r)
      end
  end
(** a name with a type, or one of both: [T], [n T], [n ...T], [...T]; brackets
    after a name belong to an array type if a type follows them *)
with pentry (f : nat) (ts : list tok) : option (entry * list tok) :=
  match f with
  | 0 => None
  | S f =>
      let lone := let? (t, r) := ptype f ts in Some (ELone t, r) in
      match eat "..." ts with
      | Some r => let? (t, r) := ptype f r in Some (ELone (Ellipsis t), r)
      | None =>
          match ts with
          | Word x :: r =>
              if name_like x then
                match eat "..." r, eat "[" r with
                | Some r, _ => let? (t, r) := ptype f r in Some (ENamed x (Ellipsis t), r)
                | None, Some r' =>
                    match eat "]" r' with
                    | Some _ => let? (t, r) := ptype f r in Some (ENamed x t, r)
                    | None =>
                        let? (args, r) := pargs f r' in
                        if starts_type r then
                          match args with
                          | [l] => let? (t, r) := ptype f r in Some (ENamed x (ArrayT (Some l) t), r)
                          | _ => None
                          end
                        else let? t := index (Ident x) args in Some (ELone t, r)
                    end
                | None, None =>
                    if starts_type r then let? (t, r) := ptype f r in Some (ENamed x t, r) else lone
                end
              else lone
          | _ => lone
          end
      end
  end
(** entries up to the closing parenthesis *)
with pparams (f : nat) (ts : list tok) : option (list entry * list tok) :=
  match f with
  | 0 => None
  | S f =>
      match eat ")" ts with
      | Some r => Some ([], r)
      | None =>
          let? (e, r) := pentry f ts in
          match eat "," r with
          | Some r => let? (l, r) := pparams f r in Some (e :: l, r)
          | None => let? r := eat ")" r in Some ([e], r)
          end
      end
  end
(** the entries of one line of a struct *)
with pline (f : nat) (ts : list tok) : option (list entry * list tok) :=
  match f with
  | 0 => None
  | S f =>
      let? (e, r) := pentry f ts in
      match eat "," r with
      | Some r => let? (l, r) := pline f r in Some (e :: l, r)
      | None => Some ([e], r)
      end
  end
(** fields up to the closing brace *)
with pfields (f : nat) (ts : list tok) : option (list field * list tok) :=
  match f with
  | 0 => None
  | S f =>
      match eat "}" ts with
      | Some r => Some ([], r)
      | None =>
          let? (es, r) := pline f ts in
          let? l := fields_of es in
          match l with
          | [fd] =>
              match r with
              | Semi :: r => let? (fs, r) := pfields f r in Some (fd :: fs, r)
              | _ => let? r := eat "}" r in Some ([fd], r)
              end
          | _ => None
          end
      end
  end.

(** the text reads as the type [e]; as the parameter type [e], which may be variadic *)
Definition reads (s : string) (e : expr) : Prop := exists f, ptype f (lex "" false s) = Some (e, []).
Definition reads_param (s : string) (e : expr) : Prop := exists f, pentry f (lex "" false s) = Some (ELone e, []).
