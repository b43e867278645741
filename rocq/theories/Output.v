(** What the gowrap binary prints: cmd/gowrap/gowrap.go and command.go, with the
    parts of the packages fmt and flag (Go 1.24) they use. *)
From Verif Require Export Main.
From Verif Require Import NewGen Utf8.
Open Scope nat_scope.

(** ** fmt.Fprintf without operands (doPrintf in fmt/print.go) *)

Definition flag_char (c : ascii) : bool :=
  byte_eqb c "#" || byte_eqb c "0" || byte_eqb c "+" || byte_eqb c "-" || byte_eqb c " ".
Fixpoint skip_flags (s : string) : string :=
  match s with
  | String c r => if flag_char c then skip_flags r else s
  | EmptyString => s
  end.
Definition digit (c : ascii) : bool := in_range 48 57 (byte c).

(** parsenum: whether there is a number, and what follows.  A number that gets
    too large counts as none and swallows the rest. *)
Fixpoint parsenum (num : N) (isnum : bool) (s : string) : bool * string :=
  match s with
  | String c r =>
      if digit c then if N.ltb 1000000 num then (false, "") else parsenum (num * 10 + (byte c - 48))%N true r
      else (isnum, s)
  | EmptyString => (isnum, "")
  end.

(** argNumber, parseArgNumber: whether an index like [3] was met (without
    operands none is good), what follows, and whether it was well formed *)
Definition argNumber (s : string) : bool * string * bool :=
  match s with
  | String c r =>
      if byte_eqb c "[" then
        if String.length s <? 3 then (true, r, false)
        else match cut "]" r with
             | None => (true, r, false)
             | Some (inside, rest) => let '(isnum, more) := parsenum 0 false inside in (true, rest, isnum && String.eqb more "")
             end
      else (false, s, false)
  | EmptyString => (false, s, false)
  end.

(** one directive, from behind the percent sign: what is printed and what
    follows.  [w], [p]: complaints about a star for width or precision. *)
Definition directive (s : string) : string * string :=
  let s1 := skip_flags s in
  let '(bad1, s2, idx1) := argNumber s1 in
  let '(w, s3, idx2) :=
    match s2 with
    | String "*" r => ("%!(BADWIDTH)", r, false)
    | _ => ("", snd (parsenum 0 false s2), idx1)
    end in
  let '(bad2, p, s4, idx3) :=
    match s3 with
    | String "." r =>
        let '(b, r1, i) := argNumber r in
        match r1 with
        | String "*" r2 => (b, "%!(BADPREC)", r2, false)
        | _ => (b, "", snd (parsenum 0 false r1), i)
        end
    | _ => (false, "", s3, idx2)
    end in
  let '(bad3, s5) := if idx3 then (false, s4) else let '(b, r, _) := argNumber s4 in (b, r) in
  match decode_rune s5 with
  | None => ((w ++ p ++ "%!(NOVERB)")%string, "")
  | Some (v, n) =>
      ((w ++ p ++ if N.eqb v 37 then "%"
                  else "%!" ++ encode_rune v ++ if bad1 || bad2 || bad3 then "(BADINDEX)" else "(MISSING)")%string,
       drop n s5)
  end.

(** the loop of doPrintf; the fuel [String.length s] is enough
    (OutputProofs.v, printf_eq) *)
Fixpoint format (fuel : nat) (s : string) : string :=
  match fuel with
  | O => ""
  | S n =>
      match s with
      | EmptyString => ""
      | String c r =>
          if byte_eqb c "%" then let '(o, rest) := directive r in (o ++ format n rest)%string
          else String c (format n r)
      end
  end.
Definition printf (s : string) : string := format (String.length s) s.

(** ** package flag: PrintDefaults *)

Inductive valuekind := VBool | VString | VOther.
Record flagdef := FlagDef { fl_name : string; fl_kind : valuekind; fl_usage : string }.

(** VisitAll: in the order of the names *)
Fixpoint by_name {A} (key : A -> string) (x : A) (l : list A) : list A :=
  match l with
  | [] => [x]
  | y :: r => if String.leb (key x) (key y) then x :: l else y :: by_name key x r
  end.
Definition sorted_by {A} (key : A -> string) (l : list A) : list A := fold_right (by_name key) [] l.

(** UnquoteUsage: a name in back quotes, else one for the type *)
Definition backquote : ascii := "`".
Definition UnquoteUsage (f : flagdef) : string * string :=
  let none := (match fl_kind f with VBool => "" | VString => "string" | VOther => "value" end, fl_usage f) in
  match cut backquote (fl_usage f) with
  | None => none
  | Some (before, r) =>
      match cut backquote r with
      | None => none
      | Some (name, after) => (name, (before ++ name ++ after)%string)
      end
  end.

Definition tab : string := String "009" "".
(** strings.ReplaceAll(usage, "\n", "\n    \t") *)
Fixpoint indent (s : string) : string :=
  match s with
  | EmptyString => ""
  | String c r => if byte_eqb c "010" then (nl ++ "    " ++ tab ++ indent r)%string else String c (indent r)
  end.

(** the paragraph of one flag.  Simplified: the part about default values is
    left out, all defaults of gowrap's flags are the zero values. *)
Definition paragraph (f : flagdef) : string :=
  let '(name, usage) := UnquoteUsage f in
  let head := ("  -" ++ fl_name f ++ match name with EmptyString => "" | _ => " " ++ name end)%string in
  (head ++ (if Nat.leb (String.length head) 4 then tab else nl ++ "    " ++ tab) ++ indent usage ++ nl)%string.
Definition PrintDefaults (l : list flagdef) : string := join "" (map paragraph (sorted_by fl_name l)).

(** ** The commands *)

Record command := Command { cm_short : string; cm_usage : string; cm_flags : option (list flagdef); cm_help : string }.

(** NewGenerateCommand (cmd_generate.go:51-65) *)
Definition gen_flags : list flagdef :=
  [FlagDef "g" VBool "don't put //go:generate instruction to the generated code";
   FlagDef "i" VString ("the source interface name, i.e. ""Reader""");
   FlagDef "p" VString ("the source package import path, i.e. ""io"", ""github.com/hexdigest/gowrap"" or" ++ nl ++ "a relative import path like ""./generator""");
   FlagDef "o" VString "the output file name";
   FlagDef "t" VString ("the template to use, it can be an HTTPS URL, local file or a" ++ nl ++ "reference to a template in gowrap repository," ++ nl ++
                        "run `gowrap template list` for details");
   FlagDef "v" VOther ("a key-value pair to parametrize the template," ++ nl ++ "arguments without an equal sign are treated as a bool values," ++ nl ++ "i.e. -v foo=bar -v disableChecks");
   FlagDef "l" VString "put imports beginning with this string after 3rd-party packages; comma-separated list"]%string.
Definition gen_command : command :=
  Command "generate decorators" "-p package -i interfaceName -t template -o output_file.go" (Some gen_flags) "".
(** NewTemplateCommand (cmd_template.go:19-36) *)
Definition template_command : command :=
  Command "manage decorators templates" "subcommand [options]" None
    (nl ++ "Subcommands are:" ++ nl ++ nl ++ "  list - list all template in gowrap repository" ++ nl ++ nl ++
     "  copy - copy remote template to a local file, i.e." ++ nl ++ nl ++ "    gowrap template copy fallback templates/fallback" ++ nl)%string.
(** the map after init (gowrap.go:14-19) *)
Definition registered : list (string * command) := [("gen", gen_command); ("template", template_command)].

(** printf "%-10s" in the usage template *)
Fixpoint spaces (n : nat) : string := match n with O => "" | S k => String " " (spaces k) end.
Definition pad (s : string) : string := (s ++ spaces (10 - length (runes s)))%string.

(** Usage (command.go:72-90); text/template visits maps in the order of keys *)
Definition Usage (version : string) (cmds : list (string * command)) : string :=
  ("GoWrap(" ++ version ++ ") is a tool for generating decorators for the Go interfaces" ++ nl ++ nl ++
   "Usage:" ++ nl ++ nl ++ tab ++ "gowrap command [arguments]" ++ nl ++ nl ++ "The commands are:" ++ nl ++
   join "" (map (fun c => nl ++ tab ++ pad (fst c) ++ cm_short (snd c) ++ nl) (sorted_by fst cmds)) ++
   nl ++ "Use ""gowrap help [command]"" for more information about a command." ++ nl)%string.

(** ** main, with what it writes itself to working streams *)

Record shown := Shown { sh_end : ending; sh_out : string; sh_err : string }.

(** die (gowrap.go:56-61) without operands: the text is a format *)
Definition die_with (code : nat) (text : string) : shown := Shown (Exit code) "" (printf (text ++ nl)%string).

Section MAIN.
Variable version : string.              (* command.go:9 *)
Variable quote : string -> string.      (* strconv.Quote, the verb %q *)

(** help (gowrap.go:63-87) *)
Definition help_io (args : list string) : shown :=
  match args with
  | [] => Shown (Exit 0) (Usage version registered) ""
  | [name] =>
      match assoc name registered with
      | None => die_with 2 ("gowrap: unknown command " ++ quote name ++ nl ++ "Run 'gowrap help' for usage")%string
      | Some c =>
          Shown (Exit 0) ("Usage: gowrap " ++ name ++ " " ++ cm_usage c ++ nl ++
            match cm_flags c with Some l => PrintDefaults l | None => "" end ++ cm_help c)%string ""
      end
  | _ => die_with 2 ("usage: gowrap help [command]" ++ nl ++ nl ++ "Too many arguments given")%string
  end.

(** what flag.Parse prints before it calls Usage (failf, parseOne in
    flag/flag.go); the flag set is empty *)
Definition flag_complaint (s : string) : string :=
  match lex_arg s with
  | BadSyntax => ("bad flag syntax: " ++ s ++ nl)%string
  | FlagArg body => let '(name, _) := name_value body in
      if String.eqb name "help" || String.eqb name "h" then "" else ("flag provided but not defined: -" ++ name ++ nl)%string
  | _ => ""
  end.
Definition run_hint : string := "Run 'gowrap help' for usage.".

(** main (gowrap.go:21-54).  What the commands print themselves is not here
    (Cmd.v, EPrint), nor what the runtime says about a panic. *)
Definition main_io (C : commands) (argv : list string) : shown :=
  match argv with
  | [] => Shown (Exit 2) "" (Usage version registered)
  | first :: _ =>
      match parse_main argv with
      | None => Shown (Exit 2) "" (flag_complaint first ++ printf (run_hint ++ nl))%string
      | Some [] => Shown (Panicked "index out of range [0] with length 0") "" ""
      | Some (name :: rest) =>
          if String.eqb name "help" then help_io rest
          else match GetCommand C name with
               | None => Shown (Exit 2) "" ("gowrap: unknown subcommand " ++ quote name ++ nl ++ run_hint ++ nl)%string
               | Some run =>
                   match run rest with
                   | Done => Shown (Exit 0) "" ""
                   | Fail (CLE m) => Shown (Exit 2) "" (m ++ nl ++ "Run 'gowrap help " ++ name ++ "' for usage." ++ nl ++ nl)%string
                   | Fail (GE e) => die_with 1 (err_text e)
                   | Crash m => Shown (Panicked m) "" ""
                   | NoFuel => Shown Unknown "" ""
                   end
               end
      end
  end.
End MAIN.
