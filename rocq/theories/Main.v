(** Model of cmd/gowrap/gowrap.go and command.go: what a process of the gowrap
    binary does with its arguments, up to its exit status. *)
From Verif Require Export Cmd.
Open Scope nat_scope.

(** A write to a standard stream either succeeds or fails; [true] = succeeds.
    Simplified: whether it fails does not depend on what is written. *)
Record streams := Streams { out_ok : bool; err_ok : bool }.

(** how the process ends: os.Exit with a status (returning from main is
    status 0), an unrecovered panic (the runtime exits with status 2), or out
    of model fuel *)
Inductive ending := Exit (code : nat) | Panicked (msg : string) | Unknown.
Definition status (e : ending) : option nat :=
  match e with Exit c => Some c | Panicked _ => Some 2 | Unknown => None end.

(** what main takes from the commands: the outcome of Run of each *)
Record commands := Commands {
  run_gen : list string -> outcome;        (* GenerateCommand.Run *)
  run_template : list string -> outcome    (* TemplateCommand.Run *)
}.

(** GetCommand (command.go:67-69) after the registrations of gowrap.go:14-19 *)
Definition GetCommand (C : commands) (name : string) : option (list string -> outcome) :=
  if String.eqb name "gen" then Some (run_gen C)
  else if String.eqb name "template" then Some (run_template C)
  else None.

(** die (gowrap.go:56-61) *)
Definition die (s : streams) (code : nat) : ending := if err_ok s then Exit code else Exit 1.

(** help (gowrap.go:63-87): [true] = nil error.  It fails with too many
    arguments, with an unknown command, or when writing fails. *)
Definition help (C : commands) (s : streams) (args : list string) : bool :=
  match args with
  | [] => out_ok s
  | [name] => match GetCommand C name with None => false | Some _ => out_ok s end
  | _ => false
  end.

(** flag.Parse on the empty flag.CommandLine (gowrap.go:29-34): the remaining
    arguments, or [None] when Usage was called, which dies with 2 *)
Definition parse_main (args : list string) : option (list string) :=
  match args with
  | [] => Some []
  | s :: rest => match lex_arg s with
                 | NotFlag => Some args
                 | Terminator => Some rest
                 | BadSyntax | FlagArg _ => None
                 end
  end.

(** main (gowrap.go:21-54); [argv] is os.Args[1:] *)
Definition main (C : commands) (s : streams) (argv : list string) : ending :=
  match argv with
  | [] => if err_ok s then Exit 2 else die s 1
  | _ =>
      match parse_main argv with
      | None => die s 2
      | Some [] => Panicked "index out of range [0] with length 0"
      | Some (name :: rest) =>
          if String.eqb name "help" then
            (if help C s rest then Exit 0 else die s 2)
          else
            match GetCommand C name with
            | None => die s 2
            | Some run =>
                match run rest with
                | Done => Exit 0
                | Fail (CLE _) => die s 2
                | Fail (GE _) => die s 1
                | Crash m => Panicked m
                | NoFuel => Unknown
                end
            end
      end
  end.
