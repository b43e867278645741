(** C76: the help texts describe what gowrap accepts (command.go:72-90,
    cmd/gowrap/gowrap.go:63-87, cmd_generate.go:51-65). *)
From Coq Require Import Permutation.
From Verif Require Import Main Output NewGen PropCmd PropMain.
Open Scope nat_scope.

(** ** Specification: reading a help text *)

Fixpoint lines (s : string) : list string :=
  match s with
  | EmptyString => [""]
  | String c r => if byte_eqb c "010" then "" :: lines r
                  else match lines r with [] => [String c ""] | l :: ls => String c l :: ls end
  end.
(** [s] without the prefix [p] *)
Fixpoint behind (p s : string) : option string :=
  match p, s with
  | EmptyString, _ => Some s
  | String c p', String d s' => if byte_eqb c d then behind p' s' else None
  | _, EmptyString => None
  end.
Record entry := Entry { e_name : string; e_value : string; e_text : list string }.

(** A line that starts with two blanks and a dash describes a flag: its name, a
    blank and a name for its value, a tab and the beginning of the description.
    Lines that start with four blanks and a tab continue the description. *)
Definition heading (h : string) (more : list string) : entry :=
  let '(front, text) := match cut "009" h with Some (a, b) => (a, b :: more) | None => (h, more) end in
  let '(n, v) := match cut " " front with Some (n, v) => (n, v) | None => (front, "") end in
  Entry n v text.
Definition read_line (line : string) (r : list string * list entry) : list string * list entry :=
  match behind ("    " ++ tab) line with
  | Some t => (t :: fst r, snd r)
  | None => match behind "  -" line with
            | Some h => ([], heading h (fst r) :: snd r)
            | None => ([], snd r)
            end
  end.
Definition read_help (s : string) : list entry := snd (fold_right read_line ([], []) (lines s)).

(** what should be read there about a flag: the description, and a name for its
    value that is one word *)
Definition word (s : string) : Prop := ~ has_char " " s /\ ~ has_char "009" s /\ ~ has_char "010" s.
Definition described (f : flagdef) (e : entry) : Prop := e_name e = fl_name f /\ e_text e = lines (fl_usage f) /\ word (e_value e).

(** ** Proof *)

Lemma lines_app : forall a b, lines (a ++ nl ++ b)%string = lines a ++ lines b.
Proof.
  induction a as [|c a IH]; intros b; [reflexivity|]. cbn [append lines]. destruct (byte_eqb c "010").
  - cbn [app]. f_equal. apply IH.
  - rewrite IH. destruct (lines a) eqn:E; [|reflexivity]. destruct a; cbn in E; [discriminate|]. destruct (byte_eqb a "010"); [discriminate|]. destruct (lines a0); discriminate.
Qed.
Lemma lines_word : forall a, ~ has_char "010" a -> lines a = [a].
Proof.
  induction a as [|c a IH]; intros H; [reflexivity|]. cbn [lines]. cbn [has_char] in H. unfold byte_eqb.
  destruct (Ascii.eqb_spec c "010") as [->|N]; [exfalso; apply H; now left|]. rewrite IH by tauto. reflexivity.
Qed.
Lemma lines_ne : forall a, exists l ls, lines a = l :: ls.
Proof. destruct a as [|c a]; cbn [lines]; [eauto|]. destruct (byte_eqb c "010"); [eauto|]. destruct (lines a); eauto. Qed.
(** a line in front *)
Lemma lines_front : forall p a, ~ has_char "010" p -> lines (p ++ a)%string = (p ++ hd "" (lines a))%string :: tl (lines a).
Proof.
  induction p as [|c p IH]; intros a H; [cbn; destruct (lines_ne a) as (l & ls & ->); reflexivity|]. cbn [append lines]. cbn [has_char] in H. unfold byte_eqb.
  destruct (Ascii.eqb_spec c "010") as [->|N]; [exfalso; apply H; now left|]. rewrite IH by tauto. reflexivity.
Qed.
Definition cont (l : string) : string := ("    " ++ tab ++ l)%string.
Lemma lines_indent : forall u, lines (indent u) = hd "" (lines u) :: map cont (tl (lines u)).
Proof.
  induction u as [|c u IH]; [reflexivity|]. cbn [indent lines]. destruct (byte_eqb c "010") eqn:E.
  - change (nl ++ "    " ++ tab ++ indent u)%string with ("" ++ nl ++ cont (indent u))%string. rewrite lines_app. cbn [lines app hd tl]. f_equal.
    unfold cont at 1. rewrite <- sapp_assoc. rewrite lines_front by (cbn; intuition discriminate). rewrite IH. cbn [hd tl].
    destruct (lines_ne u) as (l & ls & ->). reflexivity.
  - cbn [lines]. rewrite E, IH. destruct (lines_ne u) as (l & ls & ->). reflexivity.
Qed.

Lemma behind_app : forall p s, behind p (p ++ s)%string = Some s.
Proof. induction p as [|c p IH]; intros s; [destruct s; reflexivity|]. cbn. unfold byte_eqb. rewrite Ascii.eqb_refl. apply IH. Qed.
Lemma read_cont : forall ls r, fold_right read_line r (map cont ls) = (ls ++ fst r, snd r).
Proof.
  induction ls as [|l ls IH]; intros r; [destruct r; reflexivity|]. cbn [map fold_right]. rewrite IH. unfold read_line, cont. rewrite <- sapp_assoc, behind_app. reflexivity.
Qed.
Lemma not_cont : forall h, behind ("    " ++ tab) ("  -" ++ h) = None.
Proof. reflexivity. Qed.

Definition wellnamed (f : flagdef) : Prop :=
  fl_name f <> "" /\ word (fl_name f) /\ ~ has_char "009" (fst (UnquoteUsage f)) /\ ~ has_char "010" (fst (UnquoteUsage f)).
Definition printed (f : flagdef) : entry := Entry (fl_name f) (fst (UnquoteUsage f)) (lines (snd (UnquoteUsage f))).

Lemma has_char_app : forall c a b, has_char c (a ++ b)%string <-> has_char c a \/ has_char c b.
Proof. induction a as [|d a IH]; intros b; cbn; [tauto|]. rewrite IH. tauto. Qed.

Definition value_part (v : string) : string := match v with EmptyString => "" | _ => (" " ++ v)%string end.
Lemma value_part_char : forall c v, has_char c (value_part v) -> c = " "%char \/ has_char c v.
Proof. intros c [|d v]; [auto|]. cbn. intuition. Qed.
Lemma front_read : forall n v text, word n -> 
  (let '(n', v') := match cut " " (n ++ value_part v)%string with Some (n', v') => (n', v') | None => ((n ++ value_part v)%string, "") end in Entry n' v' text) = Entry n v text.
Proof.
  intros n v text (H & _). destruct v as [|c v].
  - cbn [value_part]. rewrite sapp_nil_r. rewrite (proj2 (cut_none " " n) H). reflexivity.
  - cbn [value_part]. change (" " ++ String c v)%string with (String " " (String c v)). rewrite cut_app by exact H. reflexivity.
Qed.
Lemma paragraph_eq : forall f, paragraph f =
  let head := ("  -" ++ fl_name f ++ value_part (fst (UnquoteUsage f)))%string in
  (head ++ (if Nat.leb (String.length head) 4 then tab else nl ++ "    " ++ tab) ++ indent (snd (UnquoteUsage f)) ++ nl)%string.
Proof. intros f. unfold paragraph. destruct (UnquoteUsage f) as [n u]. reflexivity. Qed.

Lemma read_paragraph : forall f rest, wellnamed f -> fst (fold_right read_line ([], []) (lines rest)) = [] ->
  fold_right read_line ([], []) (lines (paragraph f ++ rest)%string) = ([], printed f :: snd (fold_right read_line ([], []) (lines rest))).
Proof.
  intros f rest (Hne & Hw & H9 & H10) HR. rewrite paragraph_eq. cbv zeta. unfold printed. destruct (UnquoteUsage f) as [v u]. cbn [fst snd] in *.
  set (n := fl_name f) in *. rewrite !sapp_assoc. 
  assert (Hh : ~ has_char "010" (n ++ value_part v)%string).
  { rewrite has_char_app. intros [X|X]; [exact (proj2 (proj2 Hw) X)|]. apply value_part_char in X as [X|X]; [discriminate X|now apply H10]. }
  assert (Ht : ~ has_char "009" (n ++ value_part v)%string).
  { rewrite has_char_app. intros [X|X]; [exact (proj1 (proj2 Hw) X)|]. apply value_part_char in X as [X|X]; [discriminate X|now apply H9]. }
  destruct (Nat.leb_spec (String.length ("  -" ++ n ++ value_part v)) 4) as [L|L].
  - assert (v = "") as ->.
    { destruct v as [|c v]; [reflexivity|]. exfalso. rewrite slength_app in L. rewrite slength_app in L. cbn in L. destruct n; [now elim Hne|cbn in L; lia]. }
    replace ("  -" ++ n ++ value_part "" ++ tab ++ indent u ++ nl ++ rest)%string with ((("  -" ++ n ++ tab) ++ indent u) ++ nl ++ rest)%string by (rewrite !sapp_assoc; reflexivity).
    rewrite lines_app, fold_right_app. set (R := fold_right _ _ (lines rest)) in *.
    rewrite lines_front.
    2:{ rewrite !has_char_app. cbn. destruct Hw as (_ & _ & Hw). intuition discriminate. }
    rewrite lines_indent. cbn [hd tl fold_right]. rewrite read_cont, HR, app_nil_r. cbn [fst snd].
    rewrite !sapp_assoc. unfold read_line. rewrite not_cont, behind_app. cbn [fst snd]. f_equal. f_equal. unfold heading.
    change (tab ++ hd "" (lines u))%string with (String "009" (hd "" (lines u))). rewrite cut_app by exact (proj1 (proj2 Hw)). cbn [fst snd].
    pose proof (front_read n "" (hd "" (lines u) :: tl (lines u)) Hw) as FR. cbn [value_part] in FR. rewrite sapp_nil_r in FR. rewrite FR.
    f_equal. destruct (lines_ne u) as (l & ls & ->). reflexivity.
  - rewrite !sapp_assoc. replace ("  -" ++ n ++ value_part v ++ nl ++ "    " ++ tab ++ indent u ++ nl ++ rest)%string with (("  -" ++ n ++ value_part v) ++ nl ++ "    " ++ tab ++ indent u ++ nl ++ rest)%string by (rewrite !sapp_assoc; reflexivity).
    rewrite lines_app, lines_word.
    2:{ rewrite !has_char_app. rewrite has_char_app in Hh. cbn. intuition discriminate. }
    change ("    " ++ tab ++ indent u ++ nl ++ rest)%string with (("    " ++ tab) ++ indent u ++ nl ++ rest)%string.
    rewrite <- (sapp_assoc ("    " ++ tab)). rewrite lines_app, !fold_right_app. set (R := fold_right _ _ (lines rest)) in *.
    rewrite lines_front by (cbn; intuition discriminate). rewrite lines_indent. cbn [hd tl].
    change ((("    " ++ tab) ++ hd "" (lines u))%string :: map cont (tl (lines u))) with (map cont (hd "" (lines u) :: tl (lines u))).
    rewrite read_cont, HR, app_nil_r. cbn [fold_right]. unfold read_line. cbn [fst snd]. rewrite not_cont, behind_app. f_equal. f_equal. unfold heading.
    rewrite (proj2 (cut_none "009" _) Ht). rewrite front_read by exact Hw. f_equal. destruct (lines_ne u) as (l & ls & ->). reflexivity.
Qed.

Lemma read_defaults : forall l rest, (forall f, In f l -> wellnamed f) -> fst (fold_right read_line ([], []) (lines rest)) = [] ->
  fold_right read_line ([], []) (lines (join "" (map paragraph l) ++ rest)%string) = ([], map printed l ++ snd (fold_right read_line ([], []) (lines rest))).
Proof.
  induction l as [|f l IH]; intros rest H HR.
  - cbn. destruct (fold_right read_line _ _). cbn in *. now subst.
  - assert (E : join "" (map paragraph (f :: l)) = (paragraph f ++ join "" (map paragraph l))%string).
    { destruct l as [|g l]; [cbn; now rewrite sapp_nil_r|]. reflexivity. }
    rewrite E, sapp_assoc. specialize (IH rest (fun g Hg => H g (or_intror Hg)) HR).
    rewrite read_paragraph; [rewrite IH; reflexivity|apply H; now left|rewrite IH; reflexivity].
Qed.

Lemma by_name_perm : forall {A} (key : A -> string) x l, Permutation (by_name key x l) (x :: l).
Proof.
  intros A key x l. induction l as [|y l IH]; [apply Permutation_refl|]. cbn [by_name]. destruct (String.leb (key x) (key y)); [apply Permutation_refl|].
  etransitivity; [apply perm_skip, IH|apply perm_swap].
Qed.
Lemma sorted_by_perm : forall {A} (key : A -> string) l, Permutation (sorted_by key l) l.
Proof. intros A key l. induction l as [|x l IH]; [apply Permutation_refl|]. cbn [sorted_by fold_right]. etransitivity; [apply by_name_perm|]. apply perm_skip, IH. Qed.

(** What PrintDefaults prints for any set of flags can be read back: every flag
    has exactly one entry. *)
Theorem C76_read : forall l, (forall f, In f l -> wellnamed f) ->
  exists l', Permutation l' l /\ read_help (PrintDefaults l) = map printed l'.
Proof.
  intros l H. exists (sorted_by fl_name l). split; [apply sorted_by_perm|]. unfold read_help, PrintDefaults.
  rewrite <- (sapp_nil_r (join "" _)). rewrite read_defaults.
  - cbn. now rewrite app_nil_r.
  - intros f Hf. apply H. eapply Permutation_in; [apply sorted_by_perm|exact Hf].
  - reflexivity.
Qed.
(** A flag whose description has no name in back quotes is described. *)
Theorem C76_plain : forall f, ~ has_char "`" (fl_usage f) -> fl_name f <> "" -> word (fl_name f) -> wellnamed f /\ described f (printed f).
Proof.
  intros f H Hn Hw. assert (E : UnquoteUsage f = (match fl_kind f with VBool => "" | VString => "string" | VOther => "value" end, fl_usage f)).
  { unfold UnquoteUsage. unfold backquote. rewrite (proj2 (cut_none "`" _) H). reflexivity. }
  unfold wellnamed, described, printed, word. rewrite E. cbn [fst snd e_name e_text e_value].
  assert (X : forall k, word (match k with VBool => "" | VString => "string" | VOther => "value" end)) by (intros []; repeat split; cbn; intuition discriminate).
  destruct (X (fl_kind f)) as (X1 & X2 & X3). repeat split; auto; apply Hw.
Qed.

(** ** gowrap help gen *)

Definition help_gen (version : string) (quote : string -> string) (C : commands) : string := sh_out (main_io version quote C ["help"; "gen"]).
Definition C76_statement : Prop := forall version quote C f, In f gen_flags ->
  exists e, In e (read_help (help_gen version quote C)) /\ described f e.

Lemma help_gen_read : forall version quote C, read_help (help_gen version quote C) =
  map printed (sorted_by fl_name gen_flags).
Proof. intros. vm_compute. reflexivity. Qed.

(** It describes exactly the flags that gen accepts, each once; those with a
    name for a value are those that take one. *)
Theorem C76_flags : forall version quote C,
  NoDup (map e_name (read_help (help_gen version quote C))) /\
  (forall n, In n (map e_name (read_help (help_gen version quote C))) <-> flag_kind n <> KNone) /\
  (forall e, In e (read_help (help_gen version quote C)) -> (e_value e = "" <-> flag_kind (e_name e) = KBool)).
Proof.
  intros. rewrite help_gen_read. split; [|split].
  - vm_compute. repeat (apply NoDup_cons; [cbn; intuition discriminate|]). apply NoDup_nil.
  - intros n. split.
    + intros H. vm_compute in H. repeat destruct H as [<-|H]; try discriminate. destruct H.
    + intros H. unfold flag_kind in H. cbn [sorted_by fold_right gen_flags]. 
      destruct (String.eqb_spec n "g") as [e|?]; [rewrite e; clear; vm_compute; auto 12|]. destruct (String.eqb_spec n "i") as [e|?]; [rewrite e; clear; vm_compute; auto 12|].
      destruct (String.eqb_spec n "p") as [e|?]; [rewrite e; clear; vm_compute; auto 12|]. destruct (String.eqb_spec n "o") as [e|?]; [rewrite e; clear; vm_compute; auto 12|].
      destruct (String.eqb_spec n "t") as [e|?]; [rewrite e; clear; vm_compute; auto 12|]. destruct (String.eqb_spec n "v") as [e|?]; [rewrite e; clear; vm_compute; auto 12|].
      destruct (String.eqb_spec n "l") as [e|?]; [rewrite e; clear; vm_compute; auto 12|]. now elim H.
  - intros e H. cbn in H. repeat destruct H as [<-|H]; try (split; discriminate); try (split; reflexivity). destruct H.
Qed.
(** All flags but -t are described. *)
Theorem C76_described_partial : forall version quote C f, In f gen_flags -> fl_name f <> "t" ->
  exists e, In e (read_help (help_gen version quote C)) /\ described f e.
Proof.
  intros version quote C f Hf Ht. exists (printed f). split.
  - rewrite help_gen_read. apply in_map. eapply Permutation_in; [symmetry; apply sorted_by_perm|exact Hf].
  - apply C76_plain; cbn [gen_flags In] in Hf; repeat destruct Hf as [<-|Hf]; try destruct Hf; try (elim Ht; reflexivity).
    all: try discriminate. all: unfold word; cbn; intuition discriminate.
Qed.
(** The description of -t has a name in back quotes, which package flag takes
    for the name of the value: help shows "-t gowrap template list". *)
Theorem C76_template_flag_refuted : ~ C76_statement.
Proof.
  intros H. destruct (H "dev" (fun s => s) (Commands (fun _ => Done) (fun _ => Done)) (nth 4 gen_flags (FlagDef "" VBool ""))) as (e & He & (Hn & _ & (Hw & _))).
  - cbn. tauto.
  - rewrite help_gen_read in He. cbn in He. repeat destruct He as [<-|He]; try discriminate Hn; try destruct He. apply Hw. cbn. tauto.
Qed.

(** ** gowrap help *)

(** the line about a command in the usage message *)
Definition listed (text name : string) (c : command) : Prop := exists n, In (tab ++ name ++ spaces n ++ cm_short c)%string (lines text) /\ 0 < n.
Lemma usage_lines : forall version, lines (Usage version registered) =
  lines ("GoWrap(" ++ version ++ ") is a tool for generating decorators for the Go interfaces")%string ++
  lines (nl ++ "Usage:" ++ nl ++ nl ++ tab ++ "gowrap command [arguments]" ++ nl ++ nl ++ "The commands are:" ++ nl ++
     join "" (map (fun c => nl ++ tab ++ pad (fst c) ++ cm_short (snd c) ++ nl)%string (sorted_by fst registered)) ++ nl ++ "Use ""gowrap help [command]"" for more information about a command." ++ nl)%string.
Proof. intros version. rewrite <- lines_app. unfold Usage. rewrite !sapp_assoc. reflexivity. Qed.
Theorem C76_commands : forall version quote C name,
  let text := sh_out (main_io version quote C ["help"]) in
  (GetCommand C name <> None <-> exists c, In (name, c) registered) /\
  (forall c, In (name, c) registered -> listed text name c) /\
  (* asked about a command, help shows how to call it *)
  (forall c, In (name, c) registered -> hd "" (lines (sh_out (main_io version quote C ["help"; name]))) = ("Usage: gowrap " ++ name ++ " " ++ cm_usage c)%string).
Proof.
  intros version quote C name text. split; [|split].
  - unfold GetCommand. split.
    + destruct (String.eqb_spec name "gen") as [->|]; [intros _; eexists; left; reflexivity|].
      destruct (String.eqb_spec name "template") as [->|]; [intros _; eexists; right; left; reflexivity|]. intros H. now elim H.
    + intros (c & [H|[H|[]]]); injection H as <- <-; discriminate.
  - intros c Hc. change text with (Usage version registered). unfold listed. rewrite usage_lines.
    destruct Hc as [Hc|[Hc|[]]]; injection Hc as <- <-.
    + exists 7. split; [|lia]. apply in_or_app. right. vm_compute. auto 12.
    + exists 2. split; [|lia]. apply in_or_app. right. vm_compute. auto 12.
  - intros c [Hc|[Hc|[]]]; injection Hc as <- <-; vm_compute; reflexivity.
Qed.

(** the hypotheses of the general theorem: a flag set with a name in back quotes *)
Example read_ex : read_help (PrintDefaults [FlagDef "size" VOther "the `number` of bytes"; FlagDef "q" VBool ("be quiet," ++ nl ++ "say nothing")]) =
  [Entry "q" "" ["be quiet,"; "say nothing"]; Entry "size" "number" ["the number of bytes"]].
Proof. vm_compute. reflexivity. Qed.

Print Assumptions C76_read.
Print Assumptions C76_plain.
Print Assumptions C76_flags.
Print Assumptions C76_described_partial.
Print Assumptions C76_template_flag_refuted.
Print Assumptions C76_commands.
