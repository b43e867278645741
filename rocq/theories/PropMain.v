(** C28: exit codes. *)
From Verif Require Import Main PropLoader PropCmd PropResolve PropGenerator.
Open Scope nat_scope.

(** ** Specification *)

(** what a command line asks for, read off the arguments *)
Inductive request :=
| RHelp (topic : list string)
| RCommand (name : string) (args : list string)
| RUsageError.

(** an argument that starts with a dash and has a second character is a flag
    to the flag package *)
Definition looks_like_flag (s : string) : Prop := exists c r, s = String "-" (String c r).

Inductive asks : list string -> request -> Prop :=
| ask_none : asks [] RUsageError
| ask_flag s rest : looks_like_flag s -> s <> "--" -> asks (s :: rest) RUsageError
| ask_dashes argv r : asks_word argv r -> asks ("--" :: argv) r
| ask_word argv r : asks_word argv r -> (forall s, hd_error argv = Some s -> ~ looks_like_flag s) -> asks argv r
with asks_word : list string -> request -> Prop :=
| aw_help topic : asks_word ("help" :: topic) (RHelp topic)
| aw_cmd name args : In name ["gen"; "template"] -> asks_word (name :: args) (RCommand name args)
| aw_bad name args : ~ In name ["help"; "gen"; "template"] -> asks_word (name :: args) RUsageError.

Definition run_of (C : commands) (name : string) : list string -> outcome :=
  if String.eqb name "gen" then run_gen C else run_template C.

(** what the status should be *)
Definition expected (C : commands) (r : request) : nat -> Prop :=
  match r with
  | RUsageError => fun n => n = 2
  | RHelp [] => fun n => n = 0
  | RHelp [name] => fun n => (In name ["gen"; "template"] -> n = 0) /\ (~ In name ["gen"; "template"] -> n = 2)
  | RHelp _ => fun n => n = 2
  | RCommand name args => fun n =>
      match run_of C name args with
      | Done => n = 0
      | Fail (CLE _) => n = 2
      | Fail (GE _) => n = 1
      | Crash _ => n = 2          (* the Go runtime's status for a panic *)
      | NoFuel => False
      end
  end.

Definition all_ok : streams := Streams true true.

Lemma lex_not_flag s : lex_arg s = NotFlag <-> ~ looks_like_flag s.
Proof.
  unfold looks_like_flag. destruct s as [|c s].
  - split; [intros _ (d & r & E); discriminate | reflexivity].
  - destruct (ascii_dec c "-") as [->|N].
    + destruct s as [|d s].
      * split; [intros _ (d & r & E); discriminate | reflexivity].
      * split; [|intros H; exfalso; apply H; eauto].
        cbn. intros H. exfalso. revert H.
        repeat match goal with |- context [match ?x with _ => _ end] => destruct x end; discriminate.
    + split; [intros _ (d & r & E); congruence|].
      intros _. destruct c as [[] [] [] [] [] [] [] []]; try reflexivity. congruence.
Qed.

Lemma lex_terminator s : lex_arg s = Terminator <-> s = "--".
Proof.
  split; [|intros ->; reflexivity].
  destruct s as [|c s]; [discriminate|]. destruct (ascii_dec c "-") as [->|N].
  - destruct s as [|d s]; [discriminate|]. cbn. unfold byte_eqb. destruct (Ascii.eqb_spec d "-") as [->|Nd]; cbn [andb].
    + destruct (String.eqb_spec s "") as [->|]; [reflexivity|].
      destruct s as [|e s]; [congruence|]. destruct (Ascii.eqb e "-" || Ascii.eqb e "="); discriminate.
    + match goal with |- context [if ?b then BadSyntax else _] => destruct b end; discriminate.
  - destruct c as [[] [] [] [] [] [] [] []]; try discriminate. congruence.
Qed.

Lemma looks_dec s : looks_like_flag s \/ ~ looks_like_flag s.
Proof. destruct (lex_arg s) eqn:E; [right; now apply lex_not_flag|left..];
  destruct s as [|c [|d s]]; try discriminate; try (destruct c as [[] [] [] [] [] [] [] []]; discriminate);
  destruct (ascii_dec c "-") as [->|N]; try (unfold looks_like_flag; eauto; fail);
  destruct c as [[] [] [] [] [] [] [] []]; try discriminate; congruence.
Qed.

(** the part after the arguments are known *)
Definition dispatch (C : commands) (s : streams) (argv : list string) : ending :=
  match argv with
  | [] => Panicked "index out of range [0] with length 0"
  | name :: rest =>
      if String.eqb name "help" then (if help C s rest then Exit 0 else die s 2)
      else match GetCommand C name with
           | None => die s 2
           | Some run => match run rest with
                         | Done => Exit 0
                         | Fail (CLE _) => die s 2
                         | Fail (GE _) => die s 1
                         | Crash m => Panicked m
                         | NoFuel => Unknown
                         end
           end
  end.

Lemma dispatch_ok C argv r : asks_word argv r -> (forall name args, r = RCommand name args -> run_of C name args <> NoFuel) ->
  exists n, status (dispatch C all_ok argv) = Some n /\ expected C r n.
Proof.
  intros [topic|name args H|name args H] NF; cbn [dispatch].
  - rewrite String.eqb_refl. destruct topic as [|name [|n2 topic]].
    + cbn. eauto.
    + cbn [help]. unfold GetCommand. destruct (String.eqb_spec name "gen") as [->|N1].
      { exists 0. split; [reflexivity|]. cbn. tauto. }
      destruct (String.eqb_spec name "template") as [->|N2].
      { exists 0. split; [reflexivity|]. cbn. tauto. }
      exists 2. split; [reflexivity|]. cbn. split; [|auto]. intros [E|[E|[]]]; congruence.
    + cbn. eauto.
  - assert (N : String.eqb name "help" = false) by (cbn in H; destruct H as [<-|[<-|[]]]; reflexivity). rewrite N.
    unfold GetCommand. specialize (NF name args eq_refl).
    assert (G : (if String.eqb name "gen" then Some (run_gen C) else if String.eqb name "template" then Some (run_template C) else None)
                = Some (run_of C name)).
    { cbn in H. destruct H as [<-|[<-|[]]]; reflexivity. }
    rewrite G. cbn [expected]. destruct (run_of C name args) as [|[m|e]|m|]; try (eexists; split; [reflexivity|reflexivity]); congruence.
  - destruct (String.eqb_spec name "help") as [->|]; [exfalso; apply H; cbn; tauto|]. unfold GetCommand.
    destruct (String.eqb_spec name "gen") as [->|]; [exfalso; apply H; cbn; tauto|].
    destruct (String.eqb_spec name "template") as [->|]; [exfalso; apply H; cbn; tauto|]. cbn. eauto.
Qed.

Lemma main_dispatch C s argv : argv <> [] -> main C s argv = match parse_main argv with None => die s 2 | Some a => dispatch C s a end.
Proof. destruct argv; [congruence|]. intros _. cbn [main]. destruct (parse_main (s0 :: argv)) as [[|n r]|]; reflexivity. Qed.

(** C28, with working standard streams.  Missing: broken streams, for which
    it is false (usage_status_refuted, help_write_refuted), and the lone "--"
    (lone_dashes_refuted). *)
Theorem exit_codes_partial C argv r : asks argv r ->
  (forall name args, r = RCommand name args -> run_of C name args <> NoFuel) ->
  exists n, status (main C all_ok argv) = Some n /\ expected C r n.
Proof.
  intros H NF. destruct H as [|s rest HL HN|argv r HW|argv r HW HH].
  - exists 2. split; reflexivity.
  - exists 2. split; [|reflexivity]. rewrite main_dispatch by discriminate. cbn [parse_main].
    destruct (lex_arg s) eqn:E; try reflexivity.
    + apply lex_not_flag in E. contradiction.
    + apply lex_terminator in E. contradiction.
  - rewrite main_dispatch by discriminate. cbn [parse_main].
    rewrite (proj2 (lex_terminator "--") eq_refl). now apply dispatch_ok.
  - destruct argv as [|s rest]; [inversion HW|]. rewrite main_dispatch by discriminate. cbn [parse_main].
    rewrite (proj2 (lex_not_flag s) (HH s eq_refl)). now apply dispatch_ok.
Qed.

(** every argument vector asks for something, except for a lone "--", on which
    main indexes an empty slice *)
Theorem asks_total argv : argv <> ["--"] -> exists r, asks argv r.
Proof.
  assert (AW : forall name args, exists r, asks_word (name :: args) r).
  { intros name args. destruct (string_dec name "help") as [->|N1]; [eexists; apply aw_help|].
    destruct (string_dec name "gen") as [->|N2]; [eexists; apply aw_cmd; cbn; tauto|].
    destruct (string_dec name "template") as [->|N3]; [eexists; apply aw_cmd; cbn; tauto|].
    eexists. apply aw_bad. cbn. intros [E|[E|[E|[]]]]; congruence. }
  intros NE. destruct argv as [|s rest]; [eexists; apply ask_none|].
  destruct (string_dec s "--") as [->|N].
  - destruct rest as [|name rest]; [congruence|]. destruct (AW name rest) as (r & H). exists r. now apply ask_dashes.
  - destruct (looks_dec s) as [H|H]; [eexists; now apply ask_flag|].
    destruct (AW s rest) as (r & HA). exists r. apply ask_word; [exact HA|]. intros x E. injection E as <-. exact H.
Qed.
Theorem lone_dashes_refuted C s : main C s ["--"] = Panicked "index out of range [0] with length 0".
Proof. reflexivity. Qed.

(** the status is zero exactly when the command (or help) succeeded, whatever
    happens to the error stream *)
Theorem exit_zero_iff C s argv : status (main C s argv) = Some 0 <->
  exists r, asks argv r /\
    match r with
    | RUsageError => False
    | RHelp topic => out_ok s = true /\ (topic = [] \/ exists n, topic = [n] /\ In n ["gen"; "template"])
    | RCommand name args => run_of C name args = Done
    end.
Proof.
  assert (D2 : forall n, n <> 0 -> status (die s n) <> Some 0).
  { intros n Hn. unfold die. destruct (err_ok s); cbn; congruence. }
  assert (DW : forall argv, status (dispatch C s argv) = Some 0 <->
    exists r, asks_word argv r /\
    match r with
    | RUsageError => False
    | RHelp topic => out_ok s = true /\ (topic = [] \/ exists n, topic = [n] /\ In n ["gen"; "template"])
    | RCommand name args => run_of C name args = Done
    end).
  { clear argv. intros argv. split.
    - destruct argv as [|name rest]; [discriminate|]. cbn [dispatch].
      destruct (String.eqb_spec name "help") as [->|N].
      + intros H. exists (RHelp rest). split; [apply aw_help|].
        destruct (help C s rest) eqn:EH; [|exfalso; now apply (D2 2)].
        destruct rest as [|n [|n2 rest]]; cbn in EH |- *; [now auto | | discriminate EH].
        unfold GetCommand in EH. split.
        { destruct (String.eqb n "gen"); [exact EH|]. destruct (String.eqb n "template"); [exact EH | discriminate]. }
        right. exists n. split; [reflexivity|]. revert EH.
        destruct (String.eqb_spec n "gen") as [E1|_]; [auto|]. destruct (String.eqb_spec n "template") as [E1|_]; [auto|discriminate].
      + unfold GetCommand. destruct (String.eqb_spec name "gen") as [->|N1].
        * intros H. exists (RCommand "gen" rest). split; [apply aw_cmd; cbn; tauto|]. unfold run_of. cbn.
          destruct (run_gen C rest) as [|[m|e]|m|]; try reflexivity; exfalso; revert H; try (apply D2; lia); cbn; discriminate.
        * destruct (String.eqb_spec name "template") as [->|N2]; [|intros H; exfalso; now apply (D2 2)].
          intros H. exists (RCommand "template" rest). split; [apply aw_cmd; cbn; tauto|]. unfold run_of. cbn.
          destruct (run_template C rest) as [|[m|e]|m|]; try reflexivity; exfalso; revert H; try (apply D2; lia); cbn; discriminate.
    - intros (r & HW & HR). destruct HW as [topic|name args H|name args H]; cbn [dispatch].
      + rewrite String.eqb_refl. destruct HR as [HO [->|(n & -> & Hn)]].
        * cbn. now rewrite HO.
        * cbn [help]. unfold GetCommand. cbn in Hn. destruct Hn as [<-|[<-|[]]]; cbn; now rewrite HO.
      + cbn in H. unfold run_of in HR. destruct H as [<-|[<-|[]]]; cbn in HR |- *; now rewrite HR.
      + contradiction. }
  destruct argv as [|s0 rest].
  { cbn. split.
    - destruct (err_ok s) eqn:ES; [discriminate|]. unfold die. rewrite ES. discriminate.
    - intros (r & H & HR). inversion H; subst; [contradiction|]. match goal with X : asks_word [] _ |- _ => inversion X end. }
  rewrite main_dispatch by discriminate. cbn [parse_main].
  destruct (lex_arg s0) eqn:EL.
  - rewrite DW. split; intros (r & H & HR); exists r; (split; [|exact HR]).
    + apply ask_word; [exact H|]. intros x E. injection E as <-. now apply lex_not_flag.
    + inversion H; subst; [| |assumption].
      * exfalso. apply lex_not_flag in EL. contradiction.
      * exfalso. discriminate EL.
  - apply lex_terminator in EL. subst. rewrite DW. split; intros (r & H & HR); exists r; (split; [|exact HR]).
    + now apply ask_dashes.
    + inversion H; subst; [congruence|assumption|].
      exfalso. match goal with X : forall s, hd_error _ = Some s -> _ |- _ => apply (X "--" eq_refl) end.
      exists "-"%char, "". reflexivity.
  - split; [intros X; exfalso; now apply (D2 2)|]. intros (r & H & HR). exfalso.
    inversion H; subst; [contradiction|discriminate EL|].
    match goal with X : forall s, hd_error _ = Some s -> _ |- _ => specialize (X s0 eq_refl); apply lex_not_flag in X; congruence end.
  - split; [intros X; exfalso; now apply (D2 2)|]. intros (r & H & HR). exfalso.
    inversion H; subst; [contradiction|discriminate EL|].
    match goal with X : forall s, hd_error _ = Some s -> _ |- _ => specialize (X s0 eq_refl); apply lex_not_flag in X; congruence end.
Qed.

(** With a broken error stream usage errors give 1: the claim as worded
    (2 on every usage error) is false there. *)
Theorem usage_status_refuted C : status (main C (Streams true false) ["nosuch"]) = Some 1 /\ asks ["nosuch"] RUsageError.
Proof.
  split; [reflexivity|]. apply ask_word; [apply aw_bad; cbn; intuition discriminate|].
  intros x E. injection E as <-. intros (c & r & H). discriminate.
Qed.
(** And a failure to write help to standard output gives 2, not 1. *)
Theorem help_write_refuted C : status (main C (Streams false true) ["help"]) = Some 2.
Proof. reflexivity. Qed.

(** ** The real commands *)
Definition commands_in (W : io) (PW : world) (Or : oracle) (E : env) (X : exec) (fuel : nat) : commands :=
  Commands (fun a => fst (RunGen W PW Or E X fuel a [])) (fun a => fst (RunTemplate W a [])).

Definition demo_cmds := commands_in http_world Wex Oex Eex demo_exec 20.
Example main_ex_ok : main demo_cmds all_ok ("gen" :: demo_args "gen/out.go") = Exit 0.
Proof. vm_compute. reflexivity. Qed.
Example main_ex_run : main demo_cmds all_ok ("gen" :: demo_args "gen/bad.go") = Exit 1.
Proof. vm_compute. reflexivity. Qed.
Example main_ex_usage : main demo_cmds all_ok ["gen"; "-i"; "X"] = Exit 2.
Proof. vm_compute. reflexivity. Qed.
Example main_ex_flag : main demo_cmds all_ok ["gen"; "-zz"] = Exit 2.
Proof. vm_compute. reflexivity. Qed.
Example main_ex_list : main demo_cmds all_ok ["template"; "list"] = Exit 1.
Proof. vm_compute. reflexivity. Qed.
Example main_ex_asks : asks ("gen" :: demo_args "gen/out.go") (RCommand "gen" (demo_args "gen/out.go")) /\
  run_of demo_cmds "gen" (demo_args "gen/out.go") <> NoFuel.
Proof.
  split; [|vm_compute; discriminate]. apply ask_word; [apply aw_cmd; cbn; tauto|].
  intros x E. injection E as <-. intros (c & r & H). discriminate.
Qed.

Print Assumptions exit_codes_partial.
Print Assumptions asks_total.
Print Assumptions exit_zero_iff.
Print Assumptions lone_dashes_refuted.
Print Assumptions usage_status_refuted.
Print Assumptions help_write_refuted.
