(** Behaviour of helpers of the model that no other theorem depends on, pinned
    down: each statement fails for a wrong variant the mutation runs had left
    alive (seeded/LOG.jsonl). *)
From Verif Require Import Types Generator Tmpl GoTok Goroutines.
From Verif Require Cmd.
Open Scope nat_scope.

(** ParamsSlice.Pass (types.go:50-57) is what Method.Call (types.go:231-238) puts
    between the parentheses, for every method. *)
Theorem C60_params_pass : forall m, Call m = (m_name m ++ "(" ++ params_pass (m_params m) ++ ")")%string.
Proof. reflexivity. Qed.
(** the names in order, separated by commas, dots after a variadic one *)
Theorem C60_params_pass_cons : forall p q l,
  params_pass (p :: q :: l) = (p_name p ++ (if p_variadic p then "..." else "") ++ ", " ++ params_pass (q :: l))%string.
Proof.
  intros p q l. unfold params_pass. cbn [map]. change (join ", " (param_pass p :: param_pass q :: ?l)) with (param_pass p ++ ", " ++ join ", " (param_pass q :: l))%string.
  unfold param_pass at 1. destruct (p_variadic p); [|reflexivity]. apply sapp_assoc.
Qed.
Example C60_params_pass_nontrivial :
  params_pass [Param [] [] "ctx" "context.Context" false; Param [] [] "xs" "...int" true] = "ctx, xs...".
Proof. reflexivity. Qed.

(** unquote (generator.go:684-694) panics on empty text and on a lone quote *)
Example unquote_panics : Generator.unquote "" = Panic "index out of range [0]" /\ Generator.unquote (String "034" "") = Panic "index out of range [-1]"
  /\ Generator.unquote """fmt""" = Ok "fmt".
Proof. repeat split. Qed.

(** go generate: an escaped quote does not end a quoted word; escapes, line ends
    and bytes above 127 are not modelled *)
Example quoted_words : Cmd.quoted_raw "a\""b"" c" = Some ("a\""b", " c") /\ Cmd.unquote "a\" = None /\ Cmd.unquote (String "010" "") = None
  /\ Cmd.unquote (String "200" "") = None /\ Cmd.unquote "ab" = Some "ab".
Proof. repeat split. Qed.

(** text/template: keywords, and the error for a field that does not exist *)
Example template_words : keyword "false" = true /\ keyword "true" = true /\ keyword "nil" = true /\ keyword "index" = false
  /\ member (DRec [("Name", DStr "A")]) "Nme" [] = TErr "can't evaluate field" /\ member (DStr "x") "Nme" [] = TErr "can't evaluate field".
Proof. repeat split. Qed.

(** a + before an inserted value is not the first half of ++ *)
Example plus_value_plus : lex_value (LState LNone false false true) "x" = ([], LState (LWord [PH "x"]) false false false)
  /\ lex_value (LState (LWord [PS "a"]) true true true) "x" = ([], LState (LWord [PH "x"; PS "a"]) true true false)
  /\ lex_value (LState (LStr [PS "a"]) true true true) "x" = ([], LState (LStr [PH "x"; PS "a"]) true true false).
Proof. repeat split. Qed.

(** fmt verbs of nil, contexts that do not exist, names of packages *)
Example goroutine_helpers : show (fun _ => "T") "s" NilV = Some "%!s(<nil>)" /\ show (fun _ => "T") "w" NilV = Some "%!w(<nil>)"
  /\ show (fun _ => "T") "v" NilV = Some "<nil>" /\ is_done [] 0 = false /\ is_done [Ctx None true] 0 = true
  /\ Goroutines.select (PkgV "strings") "Join" = Some (PkgV "strings.Join").
Proof. repeat split. Qed.

Print Assumptions C60_params_pass.
Print Assumptions C60_params_pass_cons.
