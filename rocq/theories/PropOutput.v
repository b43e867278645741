(** C75: failures are reported with the text that describes them
    (cmd/gowrap/gowrap.go:21-87). *)
From Verif Require Import Main Output OutputProofs Utf8 PrinterProofs PropLoader PropCmd PropResolve PropGenerator PropErrors PropMain.
Open Scope nat_scope.

(** ** Specification *)

(** The description of the failure a run ends with; arguments without flags of
    gowrap itself.  [quote]: a name in quotes. *)
Inductive failure (quote : string -> string) (C : commands) : list string -> string -> Prop :=
| fa_unknown name args : ~ In name ["help"; "gen"; "template"] ->
    failure quote C (name :: args) ("gowrap: unknown subcommand " ++ quote name ++ nl ++ "Run 'gowrap help' for usage.")%string
| fa_topic name : ~ In name ["gen"; "template"] ->
    failure quote C ["help"; name] ("gowrap: unknown command " ++ quote name ++ nl ++ "Run 'gowrap help' for usage")%string
| fa_topics a b l :
    failure quote C ("help" :: a :: b :: l) ("usage: gowrap help [command]" ++ nl ++ nl ++ "Too many arguments given")%string
| fa_arguments name args m : In name ["gen"; "template"] -> run_of C name args = Fail (CLE m) ->
    failure quote C (name :: args) (m ++ nl ++ "Run 'gowrap help " ++ name ++ "' for usage." ++ nl)%string
| fa_error name args e : In name ["gen"; "template"] -> run_of C name args = Fail (GE e) ->
    failure quote C (name :: args) (says e).

(** what main prints about it *)
Definition reports (version : string) (quote : string -> string) (C : commands) (argv : list string) (text : string) : Prop :=
  sh_out (main_io version quote C argv) = "" /\ sh_err (main_io version quote C argv) = (text ++ nl)%string.
Definition starts_with_word (argv : list string) : Prop := forall s, hd_error argv = Some s -> ~ looks_like_flag s.
Definition C75_statement : Prop := forall version quote C argv text,
  starts_with_word argv -> failure quote C argv text -> reports version quote C argv text.

(** without percent signs; with all of them doubled *)
Definition no_percent (s : string) : Prop := ~ has_char "%" s.
Fixpoint doubled (s : string) : string :=
  match s with
  | EmptyString => ""
  | String c r => if byte_eqb c "%" then String c (String c (doubled r)) else String c (doubled r)
  end.
Definition letter (c : ascii) : Prop := (65 <= byte c <= 90 \/ 97 <= byte c <= 122)%N.

(** ** Proof *)

Lemma printf_plain : forall s r, no_percent s -> printf (s ++ r)%string = (s ++ printf r)%string.
Proof.
  induction s as [|c s IH]; intros r H; [reflexivity|]. cbn [append]. unfold no_percent in *. cbn [has_char] in H.
  rewrite printf_char by (intros E; apply H; now left). f_equal. apply IH. tauto.
Qed.
Lemma printf_line : forall s, no_percent s -> printf (s ++ nl)%string = (s ++ nl)%string.
Proof. intros s H. now rewrite printf_plain. Qed.
Lemma says_text : forall e, says e = err_text e.
Proof. induction e as [s|m e IH]; [reflexivity|]. cbn. now rewrite IH. Qed.

Theorem C75_doubled : forall s, printf (doubled s) = s.
Proof.
  induction s as [|c s IH]; [reflexivity|]. cbn [doubled]. unfold byte_eqb. destruct (Ascii.eqb_spec c "%") as [->|N].
  - rewrite printf_percent. change (directive (String "%" (doubled s))) with ("%", doubled s). cbn [fst snd]. rewrite IH. reflexivity.
  - rewrite printf_char by exact N. now rewrite IH.
Qed.

(** A percent sign and a letter, as in the formats of generated code, become an
    error of package fmt. *)
Theorem C75_verb : forall s c r, no_percent s -> letter c ->
  printf (s ++ String "%" (String c r))%string = (s ++ "%!" ++ String c ("(MISSING)" ++ printf r))%string.
Proof.
  intros s c r H L. rewrite printf_plain by exact H. f_equal. rewrite printf_percent.
  assert (D : directive (String c r) = (("%!" ++ String c "(MISSING)")%string, r)).
  { unfold letter, byte in L. destruct c as [[] [] [] [] [] [] [] []]; try reflexivity; exfalso; cbn in L; lia. }
  rewrite D. reflexivity.
Qed.

Lemma word_parsed : forall s rest, ~ looks_like_flag s -> parse_main (s :: rest) = Some (s :: rest).
Proof. intros s rest H. cbn [parse_main]. now rewrite (proj2 (lex_not_flag s) H). Qed.
Lemma get_command : forall C name, In name ["gen"; "template"] -> String.eqb name "help" = false /\ GetCommand C name = Some (run_of C name).
Proof. intros C name [<-|[<-|[]]]; split; reflexivity. Qed.

(** Wrong command lines are reported as they are, whatever they contain. *)
Theorem C75_command_line : forall version quote C name args,
  ~ looks_like_flag name ->
  (~ In name ["help"; "gen"; "template"] -> reports version quote C (name :: args) ("gowrap: unknown subcommand " ++ quote name ++ nl ++ "Run 'gowrap help' for usage.")%string) /\
  (forall m, In name ["gen"; "template"] -> run_of C name args = Fail (CLE m) ->
     reports version quote C (name :: args) (m ++ nl ++ "Run 'gowrap help " ++ name ++ "' for usage." ++ nl)%string).
Proof.
  intros version quote C name args HW. unfold reports, main_io. rewrite word_parsed by exact HW. split.
  - intros Hn. assert (N1 : String.eqb name "help" = false) by (apply String.eqb_neq; intros ->; apply Hn; cbn; tauto). rewrite N1.
    assert (N2 : GetCommand C name = None).
    { unfold GetCommand. destruct (String.eqb_spec name "gen") as [->|]; [exfalso; apply Hn; cbn; tauto|].
      destruct (String.eqb_spec name "template") as [->|]; [exfalso; apply Hn; cbn; tauto|reflexivity]. }
    rewrite N2. cbn [sh_out sh_err]. split; [reflexivity|]. unfold run_hint. now rewrite !sapp_assoc.
  - intros m Hn Hr. destruct (get_command C name Hn) as (-> & ->). rewrite Hr. split; [reflexivity|]. cbn [sh_err]. now rewrite !sapp_assoc.
Qed.

(** What holds: a text without percent signs is reported as it is. *)
Theorem C75_reported_partial : forall version quote C argv text,
  starts_with_word argv -> failure quote C argv text -> no_percent text -> reports version quote C argv text.
Proof.
  intros version quote C argv text HW H HP.
  destruct argv as [|s rest]; [inversion H|]. specialize (HW s eq_refl).
  inversion H as [name args Hn|name Hn|a b l|name args m Hn Hr|name args e Hn Hr]; subst.
  - now apply (proj1 (C75_command_line version quote C s rest HW)).
  - unfold reports, main_io. rewrite word_parsed by exact HW. change (String.eqb "help" "help") with true. cbn iota. unfold help_io.
    assert (N : assoc name registered = None).
    { cbn. destruct (String.eqb_spec name "gen") as [->|]; [exfalso; apply Hn; cbn; tauto|].
      destruct (String.eqb_spec name "template") as [->|]; [exfalso; apply Hn; cbn; tauto|reflexivity]. }
    rewrite N. split; [reflexivity|]. cbn [die_with sh_err]. now apply printf_line.
  - split; reflexivity.
  - now apply (proj2 (C75_command_line version quote C s rest HW)).
  - unfold reports, main_io. rewrite word_parsed by exact HW.
    destruct (get_command C s Hn) as (-> & ->). rewrite Hr. split; [reflexivity|]. cbn [die_with sh_err]. rewrite <- says_text. now apply printf_line.
Qed.

(** The exit status is that of Main.v (C28). *)
Theorem C75_ending : forall version quote C argv, sh_end (main_io version quote C argv) = main C all_ok argv.
Proof.
  intros version quote C [|first rest]; [reflexivity|]. unfold main_io, main. destruct (parse_main (first :: rest)) as [[|name args]|]; [reflexivity| |reflexivity].
  destruct (String.eqb name "help").
  - destruct args as [|t [|t2 args]]; [reflexivity| |reflexivity]. cbn [help help_io]. unfold GetCommand, registered, assoc.
    destruct (String.eqb t "gen"); [reflexivity|]. destruct (String.eqb t "template"); reflexivity.
  - destruct (GetCommand C name); [|reflexivity]. destruct (o args) as [|[m|e]|m|]; reflexivity.
Qed.

(** Every failing run says something on the error stream, every succeeding one
    nothing. *)
Lemma directive_says : forall s, fst (directive s) <> "".
Proof.
  intros s. rewrite directive_eq. destruct (argNumber (skip_flags s)) as [[b1 s2] i1]. destruct (width_part s2 i1) as [[w s3] i2].
  destruct (prec_part s3 i2) as [[[b2 p] s4] i3]. destruct (if i3 then (false, s4) else _) as [b3 s5]. unfold verb_part.
  assert (X : forall a b c : string, c <> "" -> (a ++ b ++ c)%string <> "") by (intros [|? ?] [|? ?] c Hc; cbn; [exact Hc|discriminate|discriminate|discriminate]).
  destruct (decode_rune s5) as [[v n]|]; cbn [fst]; apply X; [destruct (N.eqb v 37); discriminate|discriminate].
Qed.
Lemma printf_says : forall s, s <> "" -> printf s <> "".
Proof.
  intros [|c r] H; [now elim H|]. destruct (ascii_dec c "%") as [->|N].
  - rewrite printf_percent. pose proof (directive_says r). destruct (fst (directive r)); [congruence|discriminate].
  - rewrite printf_char by exact N. discriminate.
Qed.
Lemma append_nonempty : forall a b : string, b <> "" -> (a ++ b)%string <> "".
Proof. intros [|c a] b H; [exact H|discriminate]. Qed.
Theorem C75_never_silent : forall version quote C argv n, sh_end (main_io version quote C argv) = Exit n ->
  (n = 0 <-> sh_err (main_io version quote C argv) = "").
Proof.
  intros version quote C argv n. 
  assert (D : forall c t, c <> 0 -> sh_end (die_with c t) = Exit n -> (n = 0 <-> sh_err (die_with c t) = "")).
  { intros c t Hc. cbn [die_with sh_end sh_err]. intros [= <-]. split; [contradiction|]. intros E. exfalso. revert E. apply printf_says, append_nonempty. discriminate. }
  assert (F : forall t, t <> "" -> sh_end (Shown (Exit 2) "" t) = Exit n -> (n = 0 <-> sh_err (Shown (Exit 2) "" t) = "")).
  { intros t Ht. cbn [sh_end sh_err]. intros [= <-]. split; [discriminate|contradiction]. }
  unfold main_io. destruct argv as [|first rest]; [apply F; discriminate|]. destruct (parse_main (first :: rest)) as [[|name args]|].
  - discriminate.
  - destruct (String.eqb name "help").
    + destruct args as [|t [|t2 args]]; cbn [help_io]; [cbn; intros [= <-]; tauto| |apply D; discriminate].
      destruct (assoc t registered); [cbn [sh_end sh_err]; intros [= <-]; tauto|apply D; discriminate].
    + destruct (GetCommand C name); [|apply F; discriminate]. destruct (o args) as [|[m|e]|m|]; try discriminate.
      * cbn. intros [= <-]. tauto.
      * apply F. apply append_nonempty. discriminate.
      * apply D. discriminate.
  - apply F. apply append_nonempty. apply printf_says. discriminate.
Qed.

(** ** Refutations *)

(** gowrap gen -o 'gen/100%.go': the file cannot be written *)
Definition full_disk : io := {|
  io_newreq := io_newreq http_world; io_do := io_do http_world; io_missing := io_missing http_world; io_read := io_read http_world;
  io_git := io_git http_world; io_commits := io_commits http_world; io_tree := io_tree http_world; io_cwd := io_cwd http_world;
  io_mkdir := fun _ _ => None;
  io_write := fun _ f _ => Some (Sentinel ("open " ++ f ++ ": no space left on device"))
|}.
Definition gowrap_on (W : io) (X : exec) : commands :=
  Commands (fun a => fst (RunGen W Wex Oex Eex X 20 a [])) (fun a => fst (RunTemplate W a [])).
Theorem C75_file_name_refuted : ~ C75_statement.
Proof.
  intros H. destruct (H "dev" (fun s => s) (gowrap_on full_disk demo_exec) ("gen" :: demo_args "gen/100%.go") "open gen/100%.go: no space left on device") as (_ & E).
  - intros s [= <-]. intros (c & r & X). discriminate X.
  - change "open gen/100%.go: no space left on device" with (says (Sentinel "open gen/100%.go: no space left on device")).
    apply fa_error; [cbn; tauto|]. vm_compute. reflexivity.
  - vm_compute in E. discriminate E.
Qed.
Example printed_name : sh_err (main_io "dev" (fun s => s) (gowrap_on full_disk demo_exec) ("gen" :: demo_args "gen/100%.go")) =
  ("open gen/100%!g(MISSING)o: no space left on device" ++ nl)%string.
Proof. vm_compute. reflexivity. Qed.

(** Generated code that cannot be formatted is part of the message; its own
    formats are lost. *)
Definition bad_exec : exec := Exec (fun _ _ => Ok "x := Sprintf(""%d of %s""") (fun _ _ _ => inr (Sentinel "missing ',' in argument list")).
Theorem C75_source_refuted : ~ C75_statement.
Proof.
  intros H. pose (e := match fst (RunGen http_world Wex Oex Eex bad_exec 20 (demo_args "gen/out.go") []) with Fail (GE e) => e | _ => Sentinel "" end).
  destruct (H "dev" (fun s => s) (gowrap_on http_world bad_exec) ("gen" :: demo_args "gen/out.go") (says e)) as (_ & E).
  - intros s [= <-]. intros (c & r & X). discriminate X.
  - apply fa_error; [cbn; tauto|]. vm_compute. reflexivity.
  - vm_compute in E. discriminate E.
Qed.
Example printed_source : exists before, sh_err (main_io "dev" (fun s => s) (gowrap_on http_world bad_exec) ("gen" :: demo_args "gen/out.go")) =
  (before ++ "x := Sprintf(""%!d(MISSING) of %!s(MISSING)"": missing ',' in argument list" ++ nl)%string.
Proof. exists (take 206 (sh_err (main_io "dev" (fun s => s) (gowrap_on http_world bad_exec) ("gen" :: demo_args "gen/out.go")))). vm_compute. reflexivity. Qed.
(** gowrap help 100% *)
Theorem C75_topic_refuted : ~ C75_statement.
Proof.
  intros H. destruct (H "dev" (fun s => """" ++ s ++ """")%string (gowrap_on http_world demo_exec) ["help"; "100%"] ("gowrap: unknown command ""100%""" ++ nl ++ "Run 'gowrap help' for usage")%string) as (_ & E).
  - intros s [= <-]. intros (c & r & X). discriminate X.
  - apply (fa_topic (fun s => """" ++ s ++ """")%string). cbn. intros [X|[X|[]]]; discriminate X.
  - vm_compute in E. discriminate E.
Qed.
(** the hypotheses of the positive theorem *)
Example reported_ex : reports "dev" (fun s => s) (gowrap_on full_disk demo_exec) ("gen" :: demo_args "gen/out.go") "open gen/out.go: no space left on device".
Proof.
  apply C75_reported_partial.
  - intros s [= <-]. intros (c & r & X). discriminate X.
  - change "open gen/out.go: no space left on device" with (says (Sentinel "open gen/out.go: no space left on device")).
    apply fa_error; [cbn; tauto|]. vm_compute. reflexivity.
  - unfold no_percent. cbn. intuition discriminate.
Qed.

Print Assumptions C75_reported_partial.
Print Assumptions C75_command_line.
Print Assumptions C75_doubled.
Print Assumptions C75_verb.
Print Assumptions C75_ending.
Print Assumptions C75_never_silent.
Print Assumptions C75_file_name_refuted.
Print Assumptions C75_source_refuted.
Print Assumptions C75_topic_refuted.
