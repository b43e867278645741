(** Model of Go's text/template as far as the stock templates and gowrap's
    header template use it: lexing with trim markers, parsing of actions, if,
    else, range and variable declarations, and execution.  Anything outside
    the fragment is a distinct outcome ([None] from the parser, [TUnsup] from
    the evaluator), never a guessed result. *)
From Verif Require Export Types Helpers NewGen.
Open Scope nat_scope.

(** ** Lexing (text/template/parse/lex.go) *)

Inductive tok :=
| TkDot | TkField (s : string) | TkVar (s : string) | TkIdent (s : string) | TkStr (s : string)
| TkLP | TkRP | TkDecl | TkSpace.

Inductive seg := SgText (s : string) | SgAct (l : list tok).

(** the characters lex.go's isSpace accepts and trims *)
Definition tspace (c : ascii) : bool :=
  byte_eqb c " " || byte_eqb c "009" || byte_eqb c "013" || byte_eqb c "010".

Definition word_char (c : ascii) : bool :=
  is_upper c || is_lower c || is_digit c || byte_eqb c "_".

(** text before the next left delimiter, and what follows the delimiter *)
Fixpoint split_open (s : string) : string * option string :=
  if has_prefix "{{" s then ("", Some (drop 2 s))
  else match s with
       | EmptyString => ("", None)
       | String c s' => let '(a, b) := split_open s' in (String c a, b)
       end.

Fixpoint ltrim (s : string) : string :=
  match s with String c s' => if tspace c then ltrim s' else s | _ => s end.
Fixpoint rtrim (s : string) : string :=
  match s with
  | EmptyString => EmptyString
  | String c s' => match rtrim s' with
                   | EmptyString => if tspace c then EmptyString else String c EmptyString
                   | t => String c t
                   end
  end.

(** end of a string constant; escapes are outside the fragment *)
Fixpoint scan_str (s : string) : option (string * string) :=
  match s with
  | EmptyString => None
  | String c s' =>
      if byte_eqb c "034" then Some ("", s')
      else if byte_eqb c "092" || byte_eqb c "010" then None
      else match scan_str s' with Some (a, b) => Some (String c a, b) | None => None end
  end.

Definition snocT (r : option (list tok * bool * string)) (t : tok) : option (list tok * bool * string) :=
  match r with Some (l, trim, rest) => Some (t :: l, trim, rest) | None => None end.

(** tokens up to the right delimiter, whether it carries a trim marker, and
    the rest.  A space directly before the marker belongs to the marker. *)
Fixpoint lex_act (fuel : nat) (s : string) : option (list tok * bool * string) :=
  match fuel with
  | 0 => None
  | S f =>
      if has_prefix "}}" s then Some ([], false, drop 2 s)
      else match s with
      | EmptyString => None
      | String c s' =>
          if tspace c then
            if has_prefix "-}}" s' then Some ([], true, drop 3 s')
            else match s' with
                 | String d _ => if tspace d then lex_act f s' else snocT (lex_act f s') TkSpace
                 | EmptyString => None
                 end
          else if byte_eqb c "(" then snocT (lex_act f s') TkLP
          else if byte_eqb c ")" then snocT (lex_act f s') TkRP
          else if has_prefix ":=" s then snocT (lex_act f (drop 2 s)) TkDecl
          else if byte_eqb c "034" then
            match scan_str s' with
            | Some (a, rest) => snocT (lex_act f rest) (TkStr a)
            | None => None
            end
          else if byte_eqb c "$" then
            let '(w, rest) := span word_char s' in snocT (lex_act f rest) (TkVar w)
          else if byte_eqb c "." then
            match span word_char s' with
            | (EmptyString, rest) => snocT (lex_act f rest) TkDot
            | (w, rest) => snocT (lex_act f rest) (TkField w)
            end
          else if is_digit c then None
          else match span word_char s with
               | (EmptyString, _) => None
               | (w, rest) => snocT (lex_act f rest) (TkIdent w)
               end
      end
  end.

(** the whole input; [trim] says that the text that follows is left-trimmed *)
Fixpoint lex_all (fuel : nat) (trim : bool) (s : string) : option (list seg) :=
  match fuel with
  | 0 => None
  | S f =>
      let s := if trim then ltrim s else s in
      let '(txt, rest) := split_open s in
      match rest with
      | None => Some [SgText txt]
      | Some r =>
          let marker := match r with
                        | String d (String e _) => byte_eqb d "-" && tspace e
                        | _ => false
                        end in
          let txt := if marker then rtrim txt else txt in
          let r := if marker then drop 2 r else r in
          match lex_act (S (String.length r)) r with
          | None => None
          | Some (toks, trim', rest') =>
              match lex_all f trim' rest' with
              | Some l => Some (SgText txt :: SgAct toks :: l)
              | None => None
              end
          end
      end
  end.

(** ** Parsing (text/template/parse/parse.go) *)

Inductive arg :=
| ADot
| AStr (s : string)
| AField (l : list string)                 (* .A.B *)
| AVar (x : string) (l : list string)      (* $x.A.B; x = "" for $ *)
| AFunc (f : string)
| APipe (c : list arg) (l : list string).  (* ( ... ).A.B *)

Definition cmd := list arg.

Inductive node :=
| NText (s : string)
| NAct (c : cmd)
| NDecl (x : string) (c : cmd)
| NIf (c : cmd) (a b : list node)
| NRange (x : string) (c : cmd) (body : list node).

(** fields glued to the operand before them *)
Fixpoint fields (l : list tok) : list string * list tok :=
  match l with
  | TkField f :: l' => let '(a, b) := fields l' in (f :: a, b)
  | _ => ([], l)
  end.

(** a command: operands separated by spaces, up to the end of the input or a
    right parenthesis *)
Fixpoint parse_cmd (fuel : nat) (l : list tok) : option (list arg * list tok) :=
  match fuel with
  | 0 => None
  | S f =>
      match l with
      | [] => Some ([], [])
      | TkRP :: _ => Some ([], l)
      | TkSpace :: l' => parse_cmd f l'
      | _ =>
          let first :=
            match l with
            | TkDot :: l' => Some (ADot, l')
            | TkStr s :: l' => Some (AStr s, l')
            | TkIdent s :: l' => Some (AFunc s, l')
            | TkField _ :: _ => let '(fs, l') := fields l in Some (AField fs, l')
            | TkVar x :: l0 => let '(fs, l') := fields l0 in Some (AVar x fs, l')
            | TkLP :: l0 =>
                match parse_cmd f l0 with
                | Some (c, TkRP :: l1) => let '(fs, l') := fields l1 in Some (APipe c fs, l')
                | _ => None
                end
            | _ => None
            end in
          match first with
          | None => None
          | Some (a, l') =>
              match l' with
              | [] | TkSpace :: _ | TkRP :: _ =>
                  match parse_cmd f l' with Some (c, r) => Some (a :: c, r) | None => None end
              | _ => None
              end
          end
      end
  end.

Definition parse_full (l : list tok) : option cmd :=
  match parse_cmd (S (length l)) l with
  | Some (a :: c, []) => Some (a :: c)
  | _ => None
  end.

Fixpoint strip_sp (l : list tok) : list tok :=
  match l with TkSpace :: l' => strip_sp l' | _ => l end.

(** what an action is *)
Inductive action := AcEnd | AcElse | AcIf (c : cmd) | AcRange (x : string) (c : cmd) | AcDecl (x : string) (c : cmd) | AcOut (c : cmd).

Definition parse_decl (l : list tok) : option (string * cmd) :=
  match strip_sp l with
  | TkVar x :: l' =>
      match strip_sp l' with
      | TkDecl :: r => match parse_full (strip_sp r) with Some c => Some (x, c) | None => None end
      | _ => None
      end
  | _ => None
  end.

Definition keyword (s : string) : bool :=
  mem s ["with"; "define"; "block"; "template"; "break"; "continue"; "nil"; "true"; "false"; "if"; "else"; "end"; "range"].

Definition classify (l : list tok) : option action :=
  match strip_sp l with
  | TkIdent "end" :: r => match strip_sp r with [] => Some AcEnd | _ => None end
  | TkIdent "else" :: r => match strip_sp r with [] => Some AcElse | _ => None end
  | TkIdent "if" :: r => match parse_full (strip_sp r) with Some c => Some (AcIf c) | None => None end
  | TkIdent "range" :: r => match parse_decl r with Some (x, c) => Some (AcRange x c) | None => None end
  | TkIdent k :: r => if keyword k then None
                      else match parse_full (TkIdent k :: r) with Some c => Some (AcOut c) | None => None end
  | l' =>
      match parse_decl l' with
      | Some (x, c) => Some (AcDecl x c)
      | None => match parse_full l' with Some c => Some (AcOut c) | None => None end
      end
  end.

Inductive stop := StEOF | StEnd | StElse.

(** nodes up to an end, an else or the end of the input *)
Fixpoint parse_nodes (fuel : nat) (l : list seg) : option (list node * stop * list seg) :=
  match fuel with
  | 0 => None
  | S f =>
      match l with
      | [] => Some ([], StEOF, [])
      | SgText s :: l' =>
          match parse_nodes f l' with
          | Some (ns, st, r) => Some (if String.eqb s "" then ns else NText s :: ns, st, r)
          | None => None
          end
      | SgAct a :: l' =>
          match classify a with
          | None => None
          | Some AcEnd => Some ([], StEnd, l')
          | Some AcElse => Some ([], StElse, l')
          | Some (AcOut c) =>
              match parse_nodes f l' with Some (ns, st, r) => Some (NAct c :: ns, st, r) | None => None end
          | Some (AcDecl x c) =>
              match parse_nodes f l' with Some (ns, st, r) => Some (NDecl x c :: ns, st, r) | None => None end
          | Some (AcIf c) =>
              match parse_nodes f l' with
              | Some (a, StEnd, r) =>
                  match parse_nodes f r with Some (ns, st, r') => Some (NIf c a [] :: ns, st, r') | None => None end
              | Some (a, StElse, r) =>
                  match parse_nodes f r with
                  | Some (b, StEnd, r') =>
                      match parse_nodes f r' with Some (ns, st, r'') => Some (NIf c a b :: ns, st, r'') | None => None end
                  | _ => None
                  end
              | _ => None
              end
          | Some (AcRange x c) =>
              match parse_nodes f l' with
              | Some (a, StEnd, r) =>
                  match parse_nodes f r with Some (ns, st, r') => Some (NRange x c a :: ns, st, r') | None => None end
              | _ => None
              end
          end
      end
  end.

Definition parse (s : string) : option (list node) :=
  match lex_all (S (String.length s)) false s with
  | None => None
  | Some l => match parse_nodes (S (length l)) l with
              | Some (ns, StEOF, []) => Some ns
              | _ => None
              end
  end.

(** ** Execution (text/template/exec.go, funcs.go) *)

(** outcome: a value, a template execution error, or outside the model *)
Inductive tres (A : Type) := TOk (a : A) | TErr (m : string) | TUnsup.
Arguments TOk {A} _. Arguments TErr {A} _. Arguments TUnsup {A}.

Definition tbind {A B} (r : tres A) (k : A -> tres B) : tres B :=
  match r with TOk a => k a | TErr m => TErr m | TUnsup => TUnsup end.
Notation "'tdo' x <- r ; k" := (tbind r (fun x => k))
  (at level 200, x name, r at level 100, k at level 200).

(** the Go values templates see.  [DNone] is the invalid value of a missing map
    key; [DRec] a struct, [DMap] a map[string]T, [DList] a slice. *)
Inductive tval :=
| DNone
| DStr (s : string)
| DBool (b : bool)
| DMethod (m : method)
| DParam (p : param)
| DList (l : list tval)
| DMap (l : list (string * tval))
| DRec (l : list (string * tval)).

(** output chunks: template text and printed values *)
Inductive chunk := CT (s : string) | CV (s : string).
Definition chunk_text (c : chunk) : string := match c with CT s => s | CV s => s end.
Fixpoint text_of (l : list chunk) : string :=
  match l with [] => "" | c :: l' => (chunk_text c ++ text_of l')%string end.

Fixpoint dlookup (x : string) (l : list (string * tval)) : option tval :=
  match l with
  | [] => None
  | (y, v) :: l' => if String.eqb x y then Some v else dlookup x l'
  end.

(** map iteration is in key order (internal/fmtsort) *)
Fixpoint dinsert (k : string) (v : tval) (l : list (string * tval)) : list (string * tval) :=
  match l with
  | [] => [(k, v)]
  | (k', v') :: l' => if str_ltb k' k then (k', v') :: dinsert k v l' else (k, v) :: l
  end.
Definition dsort (l : list (string * tval)) : list (string * tval) :=
  fold_right (fun kv acc => dinsert (fst kv) (snd kv) acc) [] l.

Section EXEC.
Variable lower : N -> N.   (* unicode.ToLower above ASCII *)
Variable upper : N -> N.   (* unicode.ToUpper above ASCII *)

(** exported fields and methods of Method (types.go:14-23, 230-369) *)
Definition method_member (m : method) (f : string) (args : list tval) : tres tval :=
  match args with
  | [] =>
      if String.eqb f "Name" then TOk (DStr (m_name m))
      else if String.eqb f "Params" then TOk (DList (map DParam (m_params m)))
      else if String.eqb f "Results" then TOk (DList (map DParam (m_results m)))
      else if String.eqb f "ReturnsError" then TOk (DBool (m_returnsError m))
      else if String.eqb f "AcceptsContext" then TOk (DBool (m_acceptsContext m))
      else if String.eqb f "Call" then TOk (DStr (Call m))
      else if String.eqb f "ParamsNames" then TOk (DStr (ParamsNames m))
      else if String.eqb f "ResultsNames" then TOk (DStr (ResultsNames m))
      else if String.eqb f "ParamsStruct" then TOk (DStr (ParamsStruct m))
      else if String.eqb f "ParamPtrsStruct" then TOk (DStr (ParamPtrsStruct m))
      else if String.eqb f "ResultsStruct" then TOk (DStr (ResultsStruct m))
      else if String.eqb f "ParamsMap" then TOk (DStr (ParamsMap m))
      else if String.eqb f "ResultsMap" then TOk (DStr (ResultsMap m))
      else if String.eqb f "HasParams" then TOk (DBool (HasParams m))
      else if String.eqb f "HasResults" then TOk (DBool (HasResults m))
      else if String.eqb f "Signature" then TOk (DStr (Signature m))
      else if String.eqb f "Declaration" then TOk (DStr (Declaration m))
      else TUnsup
  | [DStr s] =>
      if String.eqb f "Pass" then TOk (DStr (Pass s m))
      else if String.eqb f "ReturnStruct" then TOk (DStr (ReturnStruct m s))
      else TUnsup
  | _ => TUnsup
  end.

(** exported fields and methods of Param (types.go:26-32, 61-66) *)
Definition param_member (p : param) (f : string) : tres tval :=
  if String.eqb f "Name" then TOk (DStr (p_name p))
  else if String.eqb f "Type" then TOk (DStr (p_type p))
  else if String.eqb f "Variadic" then TOk (DBool (p_variadic p))
  else if String.eqb f "Pass" then TOk (DStr (param_pass p))
  else TUnsup.

(** evalField *)
Definition member (v : tval) (f : string) (args : list tval) : tres tval :=
  match v with
  | DMethod m => method_member m f args
  | DParam p => match args with [] => param_member p f | _ => TUnsup end
  | DMap l => match args with
              | [] => TOk (match dlookup f l with Some x => x | None => DNone end)
              | _ => TErr "is not a method but has arguments"
              end
  | DRec l => match args with
              | [] => match dlookup f l with Some x => TOk x | None => TErr "can't evaluate field" end
              | _ => TUnsup
              end
  | DNone => TErr "nil data; no entry for key"
  | _ => TErr "can't evaluate field"
  end.

(** evalFieldChain: the arguments belong to the last field *)
Fixpoint members (v : tval) (fs : list string) (args : list tval) : tres tval :=
  match fs with
  | [] => match args with [] => TOk v | _ => TErr "can't give argument to non-function" end
  | [f] => member v f args
  | f :: fs' => tdo x <- member v f []; members x fs' args
  end.

(** truth (funcs.go) *)
Definition truth (v : tval) : bool :=
  match v with
  | DNone => false
  | DStr s => negb (String.eqb s "")
  | DBool b => b
  | DList l => match l with [] => false | _ => true end
  | DMap l => match l with [] => false | _ => true end
  | DMethod _ | DParam _ | DRec _ => true
  end.

(** fmt.Sprintf with %s verbs and string, bool and nil operands *)
Fixpoint sprintf (fmt : string) (args : list tval) : tres string :=
  match fmt with
  | EmptyString => match args with [] => TOk "" | _ => TUnsup end
  | String c r =>
      if byte_eqb c "%" then
        match r with
        | String d r' =>
            if byte_eqb d "s" then
              match args with
              | DStr s :: a => tdo t <- sprintf r' a; TOk (s ++ t)%string
              | DBool b :: a =>
                  tdo t <- sprintf r' a; TOk ("%!s(bool=" ++ (if b then "true" else "false") ++ ")" ++ t)%string
              | DNone :: a => tdo t <- sprintf r' a; TOk ("%!s(<nil>)" ++ t)%string
              | _ => TUnsup
              end
            else TUnsup
        | EmptyString => TUnsup
        end
      else tdo t <- sprintf r args; TOk (String c t)
  end.

Fixpoint first_true (v : tval) (l : list tval) : tval :=
  match l with [] => v | x :: l' => if truth v then v else first_true x l' end.
Fixpoint first_false (v : tval) (l : list tval) : tval :=
  match l with [] => v | x :: l' => if truth v then first_false x l' else v end.

(** built-in functions and those gowrap defines (cmd_generate.go:268-278); the
    other functions of sprig are outside the model *)
Definition call_fn (f : string) (args : list tval) : tres tval :=
  if String.eqb f "or" then match args with v :: l => TOk (first_true v l) | [] => TErr "wrong number of args" end
  else if String.eqb f "and" then match args with v :: l => TOk (first_false v l) | [] => TErr "wrong number of args" end
  else if String.eqb f "not" then match args with [v] => TOk (DBool (negb (truth v))) | _ => TErr "wrong number of args" end
  else if String.eqb f "eq" then
    match args with
    | [DStr a; DStr b] => TOk (DBool (String.eqb a b))
    | [DBool a; DBool b] => TOk (DBool (Bool.eqb a b))
    | _ => TUnsup
    end
  else if String.eqb f "printf" then
    match args with DStr fmt :: l => tdo s <- sprintf fmt l; TOk (DStr s) | _ => TUnsup end
  else match args with
       | [DStr s] =>
           if String.eqb f "down" then TOk (DStr (go_lower lower s))
           else if String.eqb f "snake" then TOk (DStr (toSnakeCase lower s))
           else if String.eqb f "upFirst" then
             match upFirst upper s with Ok t => TOk (DStr t) | _ => TErr "slice bounds out of range" end
           else if String.eqb f "downFirst" then
             match downFirst lower s with Ok t => TOk (DStr t) | _ => TErr "slice bounds out of range" end
           else TUnsup
       | _ => TUnsup
       end.

Definition tvars := list (string * tval).

(** an operand in argument position *)
Fixpoint eval_arg (env : tvars) (dot : tval) (a : arg) : tres tval :=
  let fix eval_args (l : list arg) : tres (list tval) :=
    match l with
    | [] => TOk []
    | x :: l' => tdo v <- eval_arg env dot x; tdo vs <- eval_args l'; TOk (v :: vs)
    end in
  match a with
  | ADot => TOk dot
  | AStr s => TOk (DStr s)
  | AField fs => members dot fs []
  | AVar x fs => match dlookup x env with Some v => members v fs [] | None => TErr "undefined variable" end
  | AFunc f => call_fn f []
  | APipe c fs =>
      match c with
      | [] => TErr "empty command"
      | a0 :: l =>
          tdo v <- match a0 with
                   | AFunc f => tdo vs <- eval_args l; call_fn f vs
                   | AField gs => tdo vs <- eval_args l; members dot gs vs
                   | AVar x gs => match dlookup x env with
                                  | Some v => tdo vs <- eval_args l; members v gs vs
                                  | None => TErr "undefined variable"
                                  end
                   | _ => match l with [] => eval_arg env dot a0 | _ => TErr "can't give argument to non-function" end
                   end;
          members v fs []
      end
  end.

(** evalPipeline *)
Definition eval_cmd (env : tvars) (dot : tval) (c : cmd) : tres tval := eval_arg env dot (APipe c []).

(** printValue *)
Definition print_val (v : tval) : tres string :=
  match v with
  | DStr s => TOk s
  | DBool true => TOk "true"
  | DBool false => TOk "false"
  | DNone => TOk "<no value>"
  | _ => TUnsup
  end.

(** the elements range visits *)
Definition elements (v : tval) : tres (list tval) :=
  match v with
  | DList l => TOk l
  | DMap l => TOk (map snd (dsort l))
  | DNone => TOk []
  | _ => TErr "range can't iterate over"
  end.

Section RANGE.
  Variable f : tval -> tres (list chunk).
  Fixpoint range_loop (l : list tval) : tres (list chunk) :=
    match l with
    | [] => TOk []
    | x :: l' => tdo a <- f x; tdo b <- range_loop l'; TOk (a ++ b)
    end.
End RANGE.

(** walk.  Variables declared inside a body are dropped after it. *)
Fixpoint walk (env : tvars) (dot : tval) (n : node) : tres (list chunk * tvars) :=
  let fix walk_list (env : tvars) (dot : tval) (l : list node) : tres (list chunk) :=
    match l with
    | [] => TOk []
    | n :: l' => tdo r <- walk env dot n; tdo b <- walk_list (snd r) dot l'; TOk (fst r ++ b)
    end in
  match n with
  | NText s => TOk ([CT s], env)
  | NAct c => tdo v <- eval_cmd env dot c; tdo s <- print_val v; TOk ([CV s], env)
  | NDecl x c => tdo v <- eval_cmd env dot c; TOk ([], (x, v) :: env)
  | NIf c a b =>
      tdo v <- eval_cmd env dot c;
      tdo o <- (if truth v then walk_list env dot a else walk_list env dot b);
      TOk (o, env)
  | NRange x c body =>
      tdo v <- eval_cmd env dot c;
      tdo l <- elements v;
      tdo o <- range_loop (fun d => walk_list ((x, d) :: env) d body) l;
      TOk (o, env)
  end.

Fixpoint walk_list (env : tvars) (dot : tval) (l : list node) : tres (list chunk) :=
  match l with
  | [] => TOk []
  | n :: l' => tdo r <- walk env dot n; tdo b <- walk_list (snd r) dot l'; TOk (fst r ++ b)
  end.

(** Template.Execute: chunks *)
Definition execute (t : list node) (data : tval) : tres (list chunk) := walk_list [("", data)] data t.

End EXEC.
