(** Go tokens of generated text.

    The text a template produces is a list of chunks (Tmpl.v): literal template
    text and inserted values.  The lexer below reads it as Go source: words,
    string literals, punctuation, automatic semicolons at line ends (Go
    specification, "Semicolons"), comments dropped.  An inserted value is kept
    as an opaque piece of the word or string it occurs in, so that the lexer
    runs on templates applied to arbitrary interfaces. *)
From Verif Require Export Tmpl.
Open Scope nat_scope.

(** a piece of a word or string literal: literal text or an inserted value *)
Inductive piece := PS (s : string) | PH (s : string).
Definition word := list piece.
Definition ptext (p : piece) : string := match p with PS s => s | PH s => s end.
Fixpoint wtext (w : word) : string :=
  match w with [] => "" | p :: w' => (ptext p ++ wtext w')%string end.

(** tokens: a word (identifier, keyword or number), a string literal, a
    punctuation character, a statement end *)
Inductive gtok := TW (w : word) | TS (w : word) | TP (c : ascii) | TSemi.

(** lexer state: where we are, whether the last token may end a statement, and
    whether a statement end is due before the next token *)
Inductive lmode := LNone | LWord (w : word) | LStr (w : word) | LSlash | LComment.
Record lstate := LState { l_mode : lmode; l_can_end : bool; l_due : bool; l_plus : bool }.

Definition add_char (c : ascii) (w : word) : word := (* [w] is reversed *)
  match w with
  | PS s :: w' => PS (s ++ String c "")%string :: w'
  | _ => PS (String c "") :: w
  end.

Definition due (b : bool) : list gtok := if b then [TSemi] else [].
Definition closing (c : ascii) : bool := byte_eqb c ")" || byte_eqb c "]" || byte_eqb c "}".

(** one character outside words, strings and comments *)
Definition lex_plain (can d plus : bool) (c : ascii) : list gtok * lstate :=
  if byte_eqb c "010" then ([], LState LNone false (d || can) false)
  else if tspace c then ([], LState LNone can d plus)
  else if word_char c then ([], LState (LWord [PS (String c "")]) can d false)
  else if byte_eqb c "034" then ([], LState (LStr []) can d false)
  else if byte_eqb c "/" then ([], LState LSlash can d false)
  else if byte_eqb c ";" then ([], LState LNone false true false)
  else
    (* a statement end directly before a closing bracket is optional; leave it out *)
    ((if closing c then [] else due d) ++ [TP c],
     LState LNone (closing c || (byte_eqb c "+" && plus)) false (byte_eqb c "+")).

Definition lex_char (st : lstate) (c : ascii) : list gtok * lstate :=
  match st with
  | LState (LWord w) can d _ =>
      if word_char c then ([], LState (LWord (add_char c w)) can d false)
      else let '(o, st') := lex_plain true false false c in
           (due d ++ [TW (rev w)] ++ o, st')
  | LState (LStr w) can d _ =>
      if byte_eqb c "034" then (due d ++ [TS (rev w)], LState LNone true false false)
      else ([], LState (LStr (add_char c w)) can d false)
  | LState LSlash can d _ =>
      if byte_eqb c "/" then ([], LState LComment can d false)
      else let '(o, st') := lex_plain false false false c in (due d ++ [TP "/"] ++ o, st')
  | LState LComment can d _ =>
      if byte_eqb c "010" then ([], LState LNone false (d || can) false) else ([], st)
  | LState LNone can d plus => lex_plain can d plus c
  end.

(** an inserted value continues a word or string and otherwise starts a word *)
Definition lex_value (st : lstate) (s : string) : list gtok * lstate :=
  match st with
  | LState (LWord w) can d _ => ([], LState (LWord (PH s :: w)) can d false)
  | LState (LStr w) can d _ => ([], LState (LStr (PH s :: w)) can d false)
  | LState LSlash can d _ => (due d ++ [TP "/"], LState (LWord [PH s]) false false false)
  | LState LComment _ _ _ => ([], st)
  | LState LNone can d _ => ([], LState (LWord [PH s]) can d false)
  end.

Fixpoint lex_text (st : lstate) (s : string) : list gtok * lstate :=
  match s with
  | EmptyString => ([], st)
  | String c s' =>
      let '(o1, st1) := lex_char st c in
      let '(o2, st2) := lex_text st1 s' in (o1 ++ o2, st2)
  end.

Fixpoint lex_chunks (st : lstate) (l : list chunk) : list gtok * lstate :=
  match l with
  | [] => ([], st)
  | CT s :: l' => let '(o1, st1) := lex_text st s in
                  let '(o2, st2) := lex_chunks st1 l' in (o1 ++ o2, st2)
  | CV s :: l' => let '(o1, st1) := lex_value st s in
                  let '(o2, st2) := lex_chunks st1 l' in (o1 ++ o2, st2)
  end.

(** at a line start, nothing due *)
Definition line_start : lstate := LState LNone false false false.
(** at a line start after a complete statement *)
Definition stmt_done : lstate := LState LNone false true false.

Lemma lex_chunks_app : forall a st b,
  lex_chunks st (a ++ b) =
  let '(o1, st1) := lex_chunks st a in let '(o2, st2) := lex_chunks st1 b in (o1 ++ o2, st2).
Proof.
  induction a as [|c a IH]; intros st b; cbn.
  - now destruct (lex_chunks st b).
  - destruct c as [s|s].
    + destruct (lex_text st s) as [o1 st1]. rewrite IH. destruct (lex_chunks st1 a) as [o2 st2].
      destruct (lex_chunks st2 b) as [o3 st3]. now rewrite app_assoc.
    + destruct (lex_value st s) as [o1 st1]. rewrite IH. destruct (lex_chunks st1 a) as [o2 st2].
      destruct (lex_chunks st2 b) as [o3 st3]. now rewrite app_assoc.
Qed.
