(** Specifications for the properties of NewGen.v, stated without its helper
    functions. *)
From Verif Require Import NewGen.
From Verif Require Export TrimSpec.
Open Scope nat_scope.

(** ** Exported identifiers (Go spec): the first character is an upper case
    letter.  [upper] is Unicode class Lu on non-ASCII code points. *)
Definition go_exported (upper : N -> bool) (n : string) : Prop :=
  exists r rest, runes n = r :: rest /\
    if (r <? 128)%N then (65 <= r <= 90)%N else upper r = true.

(** ** Strings *)

(** bytewise lexicographic order *)
Inductive lex_lt : string -> string -> Prop :=
| lex_nil c s : lex_lt "" (String c s)
| lex_head c d s t : (byte c < byte d)%N -> lex_lt (String c s) (String d t)
| lex_tail c s t : lex_lt s t -> lex_lt (String c s) (String c t).

Fixpoint increasing (l : list string) : Prop :=
  match l with
  | [] => True
  | x :: l' => (forall y, In y l' -> lex_lt x y) /\ increasing l'
  end.

Definition starts_quoted (t : string) : Prop := exists r, t = (quote ++ r)%string.
Definition ends_quoted (t : string) : Prop := exists r, t = (r ++ quote)%string.

(** an import path given by a template, as it is written in the block: with the
    missing quotes added *)
Definition template_entry (i x : string) : Prop :=
  exists t l r, i <> "" /\ trimmed i t /\ x = (l ++ t ++ r)%string /\
    (starts_quoted t /\ l = "" \/ ~ starts_quoted t /\ l = quote) /\
    (ends_quoted t /\ r = "" \/ ~ ends_quoted t /\ r = quote).

(** reading an import block: the lines between "import (" and ")" *)
Fixpoint lines_aux (s acc : string) : list string :=
  match s with
  | EmptyString => [acc]
  | String c s' => if byte_eqb c "010" then acc :: lines_aux s' "" else lines_aux s' (acc ++ String c "")
  end.
Definition block_lines (s : string) : option (list string) :=
  let open := ("import (" ++ nl)%string in
  if String.prefix open s then Some (lines_aux (drop_last (drop_last (drop (String.length open) s))) "")
  else None.

(** ** Directories: where the path elements [l] lead from the root ([abs]) or
    from the working directory, as the list of directory names entered; [None]
    when they leave the working directory. *)
Inductive leads (abs : bool) : list string -> list string -> Prop :=
| leads_nil : leads abs [] []
| leads_stay l st e : leads abs l st -> e = "" \/ e = "." -> leads abs (l ++ [e]) st
| leads_up l st d : leads abs l (st ++ [d]) -> leads abs (l ++ [".."]) st
| leads_root l : abs = true -> leads abs l [] -> leads abs (l ++ [".."]) []
| leads_down l st e : leads abs l st -> e <> "" -> e <> "." -> e <> ".." -> leads abs (l ++ [e]) (st ++ [e]).

(** [path] is the file [file] in the directory given by path elements [els] *)
Definition no_slash (e : string) : Prop := ~ In "/"%char (list_ascii_of_string e).
Definition file_in (path : string) (abs : bool) (els : list string) (file : string) : Prop :=
  Forall no_slash els /\ no_slash file /\
  path = ((if abs then "/" else "") ++ join "/" (els ++ [file]))%string /\
  (abs = false -> match els with e :: _ => e <> "" | [] => True end).
