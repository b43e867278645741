(** Model of the gen and template commands: cmd_generate.go, cmd_template.go,
    errors.go, Generator.Generate (generator/generator.go:301-340), the parts of
    Go's flag package they use, and `go generate`'s reading of a directive. *)
From Verif Require Export Loader.
Open Scope nat_scope.

(** ** Variables (cmd_generate.go:214-265) *)

(** the dynamic type of varFlag.value is bool (always true) or string *)
Inductive varval := VTrue | VStr (s : string).
Definition vars := list (string * varval).

(** vars.Set (cmd_generate.go:227-237) *)
Definition vars_set (v : vars) (s : string) : vars :=
  v ++ [match cut "=" s with
        | None => (s, VTrue)
        | Some (n, x) => (n, VStr x)
        end].

(** vars.toMap (cmd_generate.go:239-246) *)
Definition toMap (v : vars) : list (string * varval) :=
  fold_left (fun m nv => assoc_set (fst nv) (snd nv) m) v [].

Definition var_arg (nv : string * varval) : string :=
  match snd nv with VStr s => (fst nv ++ "=" ++ s)%string | VTrue => fst nv end.

(** varsToArgs (cmd_generate.go:248-265) *)
Definition varsToArgs (v : vars) : string :=
  match v with
  | [] => ""
  | _ => (" -v " ++ join " -v " (map var_arg v))%string
  end.

(** ** Flags (cmd_generate.go:51-59) *)

Record flags := Flags {
  f_g : bool; f_i : string; f_p : string; f_o : string; f_t : string; f_v : vars; f_l : string
}.
Definition flags0 : flags := Flags false "" "" "" "" [] "".

(** strconv.ParseBool *)
Definition parseBool (s : string) : option bool :=
  if mem s ["1"; "t"; "T"; "TRUE"; "true"; "True"] then Some true
  else if mem s ["0"; "f"; "F"; "FALSE"; "false"; "False"] then Some false
  else None.

Definition set_g b f := Flags b (f_i f) (f_p f) (f_o f) (f_t f) (f_v f) (f_l f).
Definition set_i s f := Flags (f_g f) s (f_p f) (f_o f) (f_t f) (f_v f) (f_l f).
Definition set_p s f := Flags (f_g f) (f_i f) s (f_o f) (f_t f) (f_v f) (f_l f).
Definition set_o s f := Flags (f_g f) (f_i f) (f_p f) s (f_t f) (f_v f) (f_l f).
Definition set_t s f := Flags (f_g f) (f_i f) (f_p f) (f_o f) s (f_v f) (f_l f).
Definition set_v s f := Flags (f_g f) (f_i f) (f_p f) (f_o f) (f_t f) (vars_set (f_v f) s) (f_l f).
Definition set_l s f := Flags (f_g f) (f_i f) (f_p f) (f_o f) (f_t f) (f_v f) s.

(** what the flag set knows under a name *)
Inductive flagkind := KBool | KString (set : string -> flags -> flags) | KNone.
Definition flag_kind (name : string) : flagkind :=
  if String.eqb name "g" then KBool
  else if String.eqb name "i" then KString set_i
  else if String.eqb name "p" then KString set_p
  else if String.eqb name "o" then KString set_o
  else if String.eqb name "t" then KString set_t
  else if String.eqb name "v" then KString set_v
  else if String.eqb name "l" then KString set_l
  else KNone.

(** name and optional value of a flag written name=value: the equals sign
    cannot be the first character (flag.go, parseOne) *)
Definition name_value (s : string) : string * option string :=
  match s with
  | EmptyString => ("", None)
  | String c s' => match cut "=" s' with
                   | Some (n, v) => (String c n, Some v)
                   | None => (s, None)
                   end
  end.

Inductive lexed := NotFlag | Terminator | BadSyntax | FlagArg (s : string).
(** the beginning of FlagSet.parseOne *)
Definition lex_arg (s : string) : lexed :=
  match s with
  | String "-" (String c r) =>
      let body := if byte_eqb c "-" then r else String c r in
      if byte_eqb c "-" && String.eqb r "" then Terminator
      else match body with
           | EmptyString => BadSyntax
           | String d _ => if byte_eqb d "-" || byte_eqb d "=" then BadSyntax else FlagArg body
           end
  | _ => NotFlag
  end.

Definition errHelp := "flag: help requested".

(** FlagSet.Parse with ContinueOnError: the flags and the remaining arguments,
    or the error text.  Simplified: the %q in the message about a bad boolean
    is left out. *)
Fixpoint parse_flags (f : flags) (args : list string) : (flags * list string) + string :=
  match args with
  | [] => inl (f, [])
  | s :: rest =>
      match lex_arg s with
      | NotFlag => inl (f, args)
      | Terminator => inl (f, rest)
      | BadSyntax => inr ("bad flag syntax: " ++ s)%string
      | FlagArg body =>
          let '(name, value) := name_value body in
          match flag_kind name with
          | KNone => inr (if String.eqb name "help" || String.eqb name "h" then errHelp
                          else ("flag provided but not defined: -" ++ name)%string)
          | KBool =>
              match value with
              | None => parse_flags (set_g true f) rest
              | Some v => match parseBool v with
                          | Some b => parse_flags (set_g b f) rest
                          | None => inr ("invalid boolean value for -" ++ name)%string
                          end
              end
          | KString set =>
              match value with
              | Some v => parse_flags (set v f) rest
              | None => match rest with
                        | v :: rest' => parse_flags (set v f) rest'
                        | [] => inr ("flag needs an argument: -" ++ name)%string
                        end
              end
          end
      end
  end.

(** ** Paths *)

(** filepath.Abs on Unix *)
Definition Abs (W : io) (p : string) : string + gerr :=
  if rooted p then inl (Clean p)
  else match io_cwd W with inl d => inl (Join2 d p) | inr e => inr e end.

(** elements of a rooted clean path *)
Definition comps (p : string) : list string := clean_stack true [] (split_slash p).

Fixpoint strip_common (b t : list string) : list string * list string :=
  match b, t with
  | x :: b', y :: t' => if String.eqb x y then strip_common b' t' else (b, t)
  | _, _ => (b, t)
  end.

(** filepath.Rel for two rooted paths, which is how it is called here (both
    arguments are results of Abs); other arguments are not modelled and give
    an error. *)
Definition Rel (base targ : string) : string + gerr :=
  if rooted base && rooted targ then
    let '(b, t) := strip_common (comps base) (comps targ) in
    match b, t with
    | [], [] => inl "."
    | _, _ => inl (join "/" (map (fun _ => "..") b ++ t))
    end
  else inr (Sentinel "Rel: can't make relative").

(** ** getOptions, loadTemplate (cmd_generate.go:125-187) *)

Record headervars := HeaderVars {
  hv_disable : bool;       (* DisableGoGenerate *)
  hv_output : string;      (* OutputFileName *)
  hv_args : string;        (* VarsArgs *)
  hv_template : string     (* Template *)
}.

Record genoptions := GenOptions {
  go_options : options;
  go_vars : list (string * varval);
  go_header : headervars
}.

(** errors of a command: CommandLineError (errors.go:4) or another error *)
Inductive cerr := CLE (s : string) | GE (e : gerr).

(** the outcome of Run: nil, an error, a panic, or out of model fuel *)
Inductive outcome := Done | Fail (e : cerr) | Crash (m : string) | NoFuel.

(** what the command takes from elsewhere: text/template execution of the body
    and imports.Process *)
Record exec := Exec {
  x_body : generator -> list (string * varval) -> res string;
  x_process : string -> string -> string -> string + gerr  (* LocalPrefix, file name, source *)
}.

(** headerTemplate (cmd_generate.go:303-316) executed with the data of
    generator.go:305-310; the text of the directive (line 310) without its
    line end first *)
Definition directive (pkgPath iface template output varsArgs prefix : string) : string :=
  ("//go:generate gowrap gen -p " ++ pkgPath ++ " -i " ++ iface ++ " -t " ++ template ++ " -o " ++ output
   ++ varsArgs ++ " -l " ++ quote ++ prefix ++ quote)%string.

Definition tab : string := String "009" "".
Definition header_text (g : generator) (h : headervars) : string :=
  ("// Code generated by gowrap. DO NOT EDIT." ++ nl ++
   "// template: " ++ hv_template h ++ nl ++
   "// gowrap: http://github.com/hexdigest/gowrap" ++ nl ++ nl ++
   "package " ++ g_dst_name g ++ nl ++ nl ++
   (if hv_disable h then "" else
      nl ++ directive (pk_path (g_src g)) (op_interface (g_options g)) (hv_template h) (hv_output h)
                      (hv_args h) (op_prefix (g_options g)) ++ nl) ++ nl ++
   "import(" ++ nl ++
   join "" (map (fun i => i ++ nl ++ tab) (op_imports (g_options g))) ++ nl ++ ")" ++ nl)%string.

Section CMD.
Variable W : io.
Variable PW : world.       (* packages *)
Variable Or : oracle.
Variable E : env.
Variable X : exec.
Variable fuel : nat.

(** checkFlags (cmd_generate.go:103-123) *)
Definition checkFlags (f : flags) : option cerr :=
  if String.eqb (f_o f) "" then Some (CLE "output file is not specified")
  else if String.eqb (f_i f) "" then Some (CLE "interface name is not specified")
  else if String.eqb (f_t f) "" then Some (CLE "no template specified")
  else None.

(** loadTemplate (cmd_generate.go:168-187) *)
Definition loadTemplate (template outputFileDir : string) : M ((string * string) + gerr) :=
  r <~ localLoad W template;
  match r with
  | (_, _, Some e) => ret (inr (Wrapped "failed to load template" e))
  | (body, url, None) =>
      ret (if has_prefix "https://" url then inl (body, url)
           else match Abs W url with
                | inr e => inr e
                | inl p => match Rel outputFileDir p with
                           | inr e => inr e
                           | inl u => inl (body, u)
                           end
                end)
  end.

(** getOptions (cmd_generate.go:125-159) *)
Definition getOptions (f : flags) : M (genoptions + (cerr + string)) :=
  match Abs W (Dir (f_o f)) with
  | inr e => ret (inr (inl (GE e)))
  | inl outputFileDir =>
      let src := if String.eqb (f_p f) "" then "./" else f_p f in
      match w_load PW src with
      | Panic m => ret (inr (inr m))
      | Err e => ret (inr (inl (GE (Wrapped "failed to load source package" e))))
      | Ok p =>
          r <~ loadTemplate (f_t f) outputFileDir;
          match r with
          | inr e => ret (inr (inl (GE e)))
          | inl (body, url) =>
              ret (inl (GenOptions
                (Options (f_i f) [] (pk_path p) (Some p) "" (f_o f) "header" body (f_l f))
                (toMap (f_v f))
                (HeaderVars (f_g f) (Base (f_o f)) (varsToArgs (f_v f)) url)))
          end
      end
  end.

(** Generate (generator.go:302-340): the bytes written to the buffer *)
Definition Generate (g : generator) (o : genoptions) : res string :=
  do body <- x_body X g (go_vars o);
  let src := (header_text g (go_header o) ++ body)%string in
  match x_process X (op_prefix (g_options g)) (op_output (g_options g)) src with
  | inl out => Ok out
  | inr e => Err (Wrapped ("failed to format generated code:" ++ nl ++ src)%string e)
  end.

(** Run (cmd_generate.go:71-101) *)
Definition RunGen (args : list string) : M outcome :=
  match parse_flags flags0 args with
  | inr msg => ret (Fail (CLE msg))
  | inl (f, _) =>
      match checkFlags f with
      | Some e => ret (Fail e)
      | None =>
          r <~ getOptions f;
          match r with
          | inr (inr m) => ret (Crash m)
          | inr (inl e) => ret (Fail e)
          | inl o =>
              match NewGenerator Or E PW fuel (go_options o) with
              | None => ret NoFuel
              | Some (Panic m) => ret (Crash m)
              | Some (Err e) => ret (Fail (GE e))
              | Some (Ok g) =>
                  match Generate g o with
                  | Panic m => ret (Crash m)
                  | Err e => ret (Fail (GE e))
                  | Ok out =>
                      me <~ ask (fun t => io_mkdir W t (Dir (f_o f)));
                      emit (EMkdir (Dir (f_o f)));;
                      match me with
                      | Some e => ret (Fail (GE e))
                      | None =>
                          we <~ ask (fun t => io_write W t (f_o f) out);
                          emit (EWrite (f_o f) out);;
                          ret (match we with Some e => Fail (GE e) | None => Done end)
                      end
                  end
              end
          end
      end
  end.

(** ** cmd_template.go *)

(** list (cmd_template.go:65-81); errors of Fprint are dropped by the code *)
Fixpoint print_names (l : list string) : M unit :=
  match l with
  | [] => ret tt
  | n :: l' => emit (EPrint ("  " ++ n ++ nl)%string);; print_names l'
  end.
Definition templateList : M outcome :=
  r <~ remoteList W;
  match r with
  | (_, Some e) => ret (Fail (GE e))
  | ([], None) => ret (Fail (GE (Sentinel "no remote templates found")))
  | (l, None) =>
      emit (EPrint ("List of available remote templates:" ++ nl)%string);;
      print_names l;; ret Done
  end.

(** fetch (cmd_template.go:83-101) *)
Definition templateCopy (args : list string) : M outcome :=
  match args with
  | template :: dst :: _ =>
      r <~ remoteLoad W template;
      match r with
      | (_, _, Some e) => ret (Fail (GE e))
      | (body, url, None) =>
          we <~ ask (fun t => io_write W t dst body);
          emit (EWrite dst body);;
          match we with
          | Some e => ret (Fail (GE e))
          | None => emit (EPrint ("successfully copied from " ++ url ++ nl)%string);; ret Done
          end
      end
  | _ => ret (Fail (CLE "expected template and a local file name"))
  end.

(** Run (cmd_template.go:48-61) *)
Definition RunTemplate (args : list string) : M outcome :=
  match args with
  | [] => ret (Fail (CLE "expected subcommand"))
  | sub :: rest =>
      if String.eqb sub "list" then templateList
      else if String.eqb sub "copy" then templateCopy rest
      else ret (Fail (CLE "unknown subcommand"))
  end.
End CMD.

(** ** `go generate` reading a directive (cmd/go/internal/generate, split, and
    os.Expand) *)

Definition is_blank (c : ascii) : bool := byte_eqb c " " || byte_eqb c "009".
Fixpoint skip_blanks (s : string) : string :=
  match s with
  | String c s' => if is_blank c then skip_blanks s' else s
  | EmptyString => EmptyString
  end.

(** a word up to a blank *)
Fixpoint word (s : string) : string * string :=
  match s with
  | String c s' => if is_blank c then ("", s) else let '(a, b) := word s' in (String c a, b)
  | EmptyString => ("", "")
  end.

(** the text between double quotes, escapes included, and what follows *)
Fixpoint quoted_raw (s : string) : option (string * string) :=
  match s with
  | EmptyString => None
  | String c s' =>
      if byte_eqb c "034" then Some ("", s')
      else if byte_eqb c "\" then
        match s' with
        | EmptyString => None
        | String d s'' => match quoted_raw s'' with
                          | Some (a, b) => Some (String c (String d a), b)
                          | None => None
                          end
        end
      else match quoted_raw s' with
           | Some (a, b) => Some (String c a, b)
           | None => None
           end
  end.

(** strconv.Unquote of the text between the quotes.  Not modelled: escape
    sequences and non-ASCII text, for which the result is [None]. *)
Fixpoint unquote (s : string) : option string :=
  match s with
  | EmptyString => Some ""
  | String c s' =>
      if byte_eqb c "\" || byte_eqb c "010" || negb (nat_of_ascii c <? 128) then None
      else match unquote s' with Some r => Some (String c r) | None => None end
  end.

Definition starts_blank (s : string) : bool :=
  match s with EmptyString => true | String c _ => is_blank c end.

Fixpoint split_words (fuel : nat) (s : string) : option (list string) :=
  match fuel with
  | 0 => None
  | S f =>
      match skip_blanks s with
      | EmptyString => Some []
      | String c r =>
          if byte_eqb c "034" then
            match quoted_raw r with
            | Some (raw, rest) =>
                match unquote raw with
                | Some w => if starts_blank rest
                            then option_map (cons w) (split_words f rest) else None
                | None => None
                end
            | None => None
            end
          else let '(w, rest) := word (String c r) in option_map (cons w) (split_words f rest)
      end
  end.

(** os.Expand *)
Definition is_special (c : ascii) : bool :=
  match c with
  | "*" | "#" | "$" | "@" | "!" | "?" | "-" | "0" | "1" | "2" | "3" | "4" | "5" | "6" | "7" | "8" | "9" => true
  | _ => false
  end%char.
Definition is_alnum (c : ascii) : bool :=
  let n := nat_of_ascii c in
  (n =? 95) || ((48 <=? n) && (n <=? 57)) || ((97 <=? n) && (n <=? 122)) || ((65 <=? n) && (n <=? 90)).
Fixpoint alnums (s : string) : string :=
  match s with
  | String c s' => if is_alnum c then String c (alnums s') else ""
  | EmptyString => ""
  end.
(** getShellName: name and number of bytes consumed *)
Definition shell_name (s : string) : string * nat :=
  match s with
  | EmptyString => ("", 0)
  | String "{" r =>
      match r with
      | String c (String "}" _) => if is_special c then (String c "", 3)
          else match cut "}" r with
               | Some (EmptyString, _) => ("", 2)
               | Some (n, _) => (n, String.length n + 2)
               | None => ("", 1)
               end
      | _ => match cut "}" r with
             | Some (EmptyString, _) => ("", 2)
             | Some (n, _) => (n, String.length n + 2)
             | None => ("", 1)
             end
      end
  | String c _ => if is_special c then (String c "", 1)
                  else let n := alnums s in (n, String.length n)
  end.
Fixpoint expand (fuel : nat) (env : string -> string) (s : string) : string :=
  match fuel with
  | 0 => s
  | S f =>
      match s with
      | EmptyString => EmptyString
      | String c s' =>
          if byte_eqb c "$" && negb (String.eqb s' "") then
            let '(n, w) := shell_name s' in
            ((if String.eqb n "" then (if Nat.eqb w 0 then "$" else "") else env n)
             ++ expand f env (drop w s'))%string
          else String c (expand f env s')
      end
  end.

(** the words of a directive line (without its line end) *)
Definition go_generate_words (env : string -> string) (line : string) : option (list string) :=
  match cut " " line with
  | Some (d, rest) =>
      if String.eqb d "//go:generate" then
        option_map (map (fun w => expand (String.length w) env w)) (split_words (S (String.length rest)) rest)
      else None
  | None => None
  end.
