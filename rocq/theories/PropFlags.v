(** C56: the flags of the gen command.  C57: what must be given and what has a
    default.  C58: the header of the generated source.  C59: the template
    command's output. *)
From Verif Require Import Cmd Render PropLoader PropCmd PropResolve PropGenerator.
Open Scope nat_scope.

(** ** C56 *)

(** the forms in which a flag can be written: -n v, -n=v, -g, -g=b, with one or two dashes *)
Inductive form :=
| FSep (dashes name v : string)
| FEq (dashes name v : string)
| FOn (dashes : string)
| FBool (dashes : string) (v : string).

Definition string_flags : list string := ["i"; "p"; "o"; "t"; "v"; "l"].
(** strconv.ParseBool's documentation *)
Definition bools : list (string * bool) :=
  [("1", true); ("t", true); ("T", true); ("TRUE", true); ("true", true); ("True", true);
   ("0", false); ("f", false); ("F", false); ("FALSE", false); ("false", false); ("False", false)].

Definition form_ok (t : form) : Prop :=
  match t with
  | FSep d n _ | FEq d n _ => In d ["-"; "--"] /\ In n string_flags
  | FOn d => In d ["-"; "--"]
  | FBool d v => In d ["-"; "--"] /\ In v (map fst bools)
  end.
Definition form_args (t : form) : list string :=
  match t with
  | FSep d n v => [(d ++ n)%string; v]
  | FEq d n v => [(d ++ n ++ "=" ++ v)%string]
  | FOn d => [(d ++ "g")%string]
  | FBool d v => [(d ++ "g=" ++ v)%string]
  end.
Definition args_of (l : list form) : list string := concat (map form_args l).

(** what a command line says about a flag: the last form that mentions it *)
Fixpoint said (name : string) (l : list form) : list string :=
  match l with
  | [] => []
  | (FSep _ n v | FEq _ n v) :: l' => if String.eqb n name then v :: said name l' else said name l'
  | _ :: l' => said name l'
  end.
Fixpoint said_g (l : list form) : list bool :=
  match l with
  | [] => []
  | FOn _ :: l' => true :: said_g l'
  | FBool _ v :: l' => match assoc v bools with Some b => b :: said_g l' | None => said_g l' end
  | _ :: l' => said_g l'
  end.

(** the flags [f] are what [l] says, starting from [f0] *)
Definition says (f0 : flags) (l : list form) (f : flags) : Prop :=
  f_g f = last (said_g l) (f_g f0) /\
  f_i f = last (said "i" l) (f_i f0) /\ f_p f = last (said "p" l) (f_p f0) /\ f_o f = last (said "o" l) (f_o f0) /\
  f_t f = last (said "t" l) (f_t f0) /\ f_l f = last (said "l" l) (f_l f0) /\
  f_v f = f_v f0 ++ map (fun a => match cut "=" a with None => (a, VTrue) | Some (n, x) => (n, VStr x) end) (said "v" l).

Definition apply_form (f : flags) (t : form) : flags :=
  match t with
  | FSep _ n v | FEq _ n v => match flag_kind n with KString set => set v f | _ => f end
  | FOn _ => set_g true f
  | FBool _ v => match assoc v bools with Some b => set_g b f | None => f end
  end.

Lemma parse_form : forall t f rest, form_ok t -> parse_flags f (form_args t ++ rest) = parse_flags (apply_form f t) rest.
Proof.
  intros [d n v|d n v|d|d v] f rest H.
  - destruct H as [[<-|[<-|[]]] [<-|[<-|[<-|[<-|[<-|[<-|[]]]]]]]]; reflexivity.
  - destruct H as [[<-|[<-|[]]] [<-|[<-|[<-|[<-|[<-|[<-|[]]]]]]]]; reflexivity.
  - destruct H as [<-|[<-|[]]]; reflexivity.
  - destruct H as [[<-|[<-|[]]] H]; cbn in H; repeat (destruct H as [<-|H]; [reflexivity|]); destruct H.
Qed.

Lemma parse_forms : forall l f rest, Forall form_ok l -> parse_flags f (args_of l ++ rest) = parse_flags (fold_left apply_form l f) rest.
Proof.
  induction l as [|t l IH]; intros f rest H; [reflexivity|]. inversion H as [|? ? Ht Hl]; subst.
  unfold args_of. cbn [map concat fold_left]. rewrite <- app_assoc, parse_form by exact Ht. now apply IH.
Qed.

Lemma last_cons {A} : forall (x : A) l d, last (x :: l) d = last l x.
Proof. intros x l. revert x. induction l as [|y l IH]; intros x d; [reflexivity|]. change (last (y :: l) d = last (y :: l) x). now rewrite !IH. Qed.

Lemma fold_says : forall l f, Forall form_ok l -> says f l (fold_left apply_form l f).
Proof.
  induction l as [|t l IH]; intros f H; [repeat split; cbn; now rewrite ?app_nil_r|].
  inversion H as [|? ? Ht Hl]; subst. cbn [fold_left]. specialize (IH (apply_form f t) Hl).
  destruct IH as (A & B & C & D & E & F & G). unfold says. rewrite A, B, C, D, E, F, G.
  destruct t as [d n v|d n v|d|d v]; cbn [form_ok] in Ht.
  - destruct Ht as [_ [<-|[<-|[<-|[<-|[<-|[<-|[]]]]]]]]; cbn -[last cut app];
      rewrite ?last_cons; repeat split; try reflexivity; unfold vars_set; rewrite <- app_assoc; reflexivity.
  - destruct Ht as [_ [<-|[<-|[<-|[<-|[<-|[<-|[]]]]]]]]; cbn -[last cut app];
      rewrite ?last_cons; repeat split; try reflexivity; unfold vars_set; rewrite <- app_assoc; reflexivity.
  - cbn [said said_g apply_form]. rewrite ?last_cons. repeat split; reflexivity.
  - destruct Ht as [_ Ht]. cbn in Ht. repeat (destruct Ht as [<-|Ht]; [cbn -[last cut app]; rewrite ?last_cons; repeat split; reflexivity|]). destruct Ht.
Qed.

(** every command line of such forms is accepted with exactly these values; what is left over starts at
    the first argument that is not a flag, or after "--" *)
Theorem C56_flags : forall l rest, Forall form_ok l ->
  (forall s, hd_error rest = Some s -> ~ exists c r, s = String "-" (String c r)) ->
  exists f, parse_flags flags0 (args_of l ++ rest) = inl (f, rest) /\
            parse_flags flags0 (args_of l ++ "--" :: rest) = inl (f, rest) /\ says flags0 l f.
Proof.
  intros l rest H Hr. rewrite !parse_forms by exact H. exists (fold_left apply_form l flags0).
  split; [|split; [reflexivity | now apply fold_says]].
  destruct rest as [|s rest]; [reflexivity|]. specialize (Hr s eq_refl). cbn [parse_flags].
  replace (lex_arg s) with NotFlag; [reflexivity|]. symmetry.
  destruct s as [|c [|c' r]]; [reflexivity|destruct c as [[] [] [] [] [] [] [] []]; reflexivity|].
  destruct (ascii_dec c "-") as [->|N]; [elim Hr; eauto|].
  destruct c as [[] [] [] [] [] [] [] []]; try reflexivity. now elim N.
Qed.

(** the name in a flag argument: not empty, without '=', and not starting with a dash *)
Definition flag_name (n : string) : Prop := n <> "" /\ ~ has_char "=" n /\ (forall r, n <> String "-" r).
Definition as_flag (d n : string) (v : option string) : string :=
  match v with None => (d ++ n)%string | Some x => (d ++ n ++ "=" ++ x)%string end.

Lemma name_value_none : forall n, ~ has_char "=" n -> name_value n = (n, None).
Proof. intros [|c n] H; [reflexivity|]. cbn. rewrite (proj2 (cut_none "=" n)); [reflexivity|]. intros X. apply H. now right. Qed.
Lemma name_value_some : forall n x, n <> "" -> ~ has_char "=" n -> name_value (n ++ "=" ++ x) = (n, Some x).
Proof.
  intros [|c n] x Hn H; [now elim Hn|]. cbn [append name_value].
  change ("=" ++ x)%string with (String "=" x). rewrite cut_app; [reflexivity|]. intros X. apply H. now right.
Qed.

Lemma lex_flag : forall d n v, In d ["-"; "--"] -> flag_name n ->
  exists body, lex_arg (as_flag d n v) = FlagArg body /\ name_value body = (n, v).
Proof.
  intros d n v Hd (Hn & He & Hm). exists (match v with None => n | Some x => n ++ "=" ++ x end)%string. split.
  - destruct n as [|c n]; [now elim Hn|].
    assert (Hc : byte_eqb c "-" = false).
    { unfold byte_eqb. destruct (Ascii.eqb_spec c "-") as [->|]; [now elim (Hm n) | reflexivity]. }
    assert (Hq : byte_eqb c "=" = false).
    { unfold byte_eqb. destruct (Ascii.eqb_spec c "=") as [->|]; [elim He; now left | reflexivity]. }
    destruct Hd as [<- | [<- | []]]; destruct v as [x|]; cbn [as_flag append lex_arg];
      change (byte_eqb "-" "-") with true; rewrite ?Hc; cbn [andb String.eqb]; rewrite ?Hc, ?Hq; reflexivity.
  - destruct v as [x|]; [now apply name_value_some | now apply name_value_none].
Qed.

(** an unknown flag is an error after whatever comes before it; -h and -help ask for help *)
Theorem C56_unknown : forall l d n v rest, Forall form_ok l -> In d ["-"; "--"] -> flag_name n ->
  ~ In n ("g" :: string_flags) ->
  parse_flags flags0 (args_of l ++ as_flag d n v :: rest) =
  inr (if in_dec string_dec n ["h"; "help"] then "flag: help requested" else ("flag provided but not defined: -" ++ n)%string).
Proof.
  intros l d n v rest H Hd Hn Hk. rewrite parse_forms by exact H. cbn [parse_flags].
  destruct (lex_flag d n v Hd Hn) as (body & -> & ->).
  replace (flag_kind n) with KNone.
  - destruct (in_dec string_dec n ["h"; "help"]) as [[<- | [<- | []]] | N]; [reflexivity | reflexivity |].
    destruct (String.eqb_spec n "help") as [->|]; [elim N; cbn; tauto|].
    destruct (String.eqb_spec n "h") as [->|]; [elim N; cbn; tauto|]. reflexivity.
  - symmetry. unfold flag_kind. cbn in Hk.
    repeat match goal with |- context [String.eqb n ?k] => destruct (String.eqb_spec n k) as [->|]; [elim Hk; tauto|] end. reflexivity.
Qed.

(** a string flag at the end of the line lacks its value *)
Theorem C56_no_value : forall l d n, Forall form_ok l -> In d ["-"; "--"] -> In n string_flags ->
  parse_flags flags0 (args_of l ++ [(d ++ n)%string]) = inr ("flag needs an argument: -" ++ n)%string.
Proof.
  intros l d n H Hd Hn. rewrite parse_forms by exact H.
  destruct Hd as [<- | [<- | []]]; destruct Hn as [<-|[<-|[<-|[<-|[<-|[<-|[]]]]]]]; reflexivity.
Qed.

(** -g takes no other value *)
Theorem C56_bad_bool : forall l d v rest, Forall form_ok l -> In d ["-"; "--"] -> ~ In v (map fst bools) ->
  parse_flags flags0 (args_of l ++ (d ++ "g=" ++ v)%string :: rest) = inr "invalid boolean value for -g".
Proof.
  intros l d v rest H Hd Hv. rewrite parse_forms by exact H.
  assert (Hp : parseBool v = None).
  { unfold parseBool, mem. cbn in Hv |- *.
    repeat match goal with |- context [String.eqb ?k v] => destruct (String.eqb_spec k v); [elim Hv; tauto|] end.
    repeat match goal with |- context [String.eqb v ?k] => destruct (String.eqb_spec v k); [subst; elim Hv; tauto|] end. reflexivity. }
  destruct Hd as [<- | [<- | []]]; cbn -[parseBool]; rewrite Hp; reflexivity.
Qed.

(** ** C57 *)

Section C57.
Variables (W : io) (PW : world) (Or : oracle) (E : env) (X : exec) (fuel : nat).
Let run := RunGen W PW Or E X fuel.

(** the value a command line gives to a string flag; not given is the empty string *)
Definition value (n : string) (l : list form) : string := last (said n l) "".

Lemma run_forms : forall l, Forall form_ok l ->
  exists f, parse_flags flags0 (args_of l) = inl (f, []) /\ says flags0 l f.
Proof.
  intros l H. destruct (C56_flags l [] H) as (f & Hp & _ & Hs); [discriminate|]. rewrite app_nil_r in Hp. eauto.
Qed.

(** without an output file, an interface or a template nothing is done at all, and the message names the
    first of them that is missing *)
Theorem C57_required : forall l t, Forall form_ok l ->
  (value "o" l = "" -> run (args_of l) t = (Fail (CLE "output file is not specified"), t)) /\
  (value "o" l <> "" -> value "i" l = "" -> run (args_of l) t = (Fail (CLE "interface name is not specified"), t)) /\
  (value "o" l <> "" -> value "i" l <> "" -> value "t" l = "" -> run (args_of l) t = (Fail (CLE "no template specified"), t)) /\
  (value "o" l <> "" -> value "i" l <> "" -> value "t" l <> "" -> forall s, fst (run (args_of l) t) <> Fail (CLE s)).
Proof.
  intros l t H. destruct (run_forms l H) as (f & Hp & _ & Hi & _ & Ho & Ht & _ & _). cbn in Hi, Ho, Ht.
  fold (value "i" l) in Hi. fold (value "o" l) in Ho. fold (value "t" l) in Ht.
  unfold run, RunGen. rewrite Hp. unfold checkFlags. rewrite Hi, Ho, Ht.
  split; [intros ->; reflexivity|].
  split; [intros N ->; apply String.eqb_neq in N; rewrite N; reflexivity|].
  split; [intros N1 N2 ->; apply String.eqb_neq in N1, N2; rewrite N1, N2; reflexivity|].
  intros N1 N2 N3 s. apply String.eqb_neq in N1, N2, N3. rewrite N1, N2, N3. unfold bind at 1.
  destruct (getOptions W PW f t) as [r t1] eqn:Eg. destruct r as [o | [e | m]].
  - destruct (NewGenerator Or E PW fuel (go_options o)) as [[g|e|m]|]; try discriminate.
    destruct (Generate X g o) as [out|e|m]; try discriminate. unfold bind, ask, emit, ret.
    cbn.
    destruct (io_mkdir W t1 (Dir (value "o" l))); cbn; [discriminate|]. destruct (io_write _ _ _ _); discriminate.
  - cbn. intros X0. injection X0 as ->. revert Eg. unfold getOptions.
    destruct (Abs W (Dir (f_o f))) as [dir|]; [|unfold ret; congruence]. destruct (w_load PW _); try (unfold ret; congruence).
    unfold bind, ret. destruct (loadTemplate W (f_t f) dir t) as [[[b u]|e] t2]; congruence.
  - discriminate.
Qed.

(** a wrong command line does nothing either *)
Theorem C57_wrong_flags : forall args msg t, parse_flags flags0 args = inr msg -> run args t = (Fail (CLE msg), t).
Proof. intros args msg t H. unfold run, RunGen. now rewrite H. Qed.

(** the source package defaults to the current directory *)
Theorem C57_default_package : forall l t, Forall form_ok l -> value "p" l = "" ->
  run (args_of l) t = run (args_of (l ++ [FSep "-" "p" "./"])) t.
Proof.
  intros l t H Hv. assert (H2 : Forall form_ok (l ++ [FSep "-" "p" "./"])).
  { apply Forall_app. split; [exact H|]. constructor; [cbn; tauto | constructor]. }
  assert (Ep : forall k, Forall form_ok k -> parse_flags flags0 (args_of k) = inl (fold_left apply_form k flags0, [])).
  { intros k Hk. rewrite <- (app_nil_r (args_of k)), parse_forms by exact Hk. reflexivity. }
  unfold run, RunGen. rewrite !Ep by assumption. rewrite fold_left_app. cbn [fold_left].
  set (f := fold_left apply_form l flags0).
  assert (Hf : f_p f = "") by (destruct (fold_says l flags0 H) as (_ & _ & Hp & _); exact (eq_trans Hp Hv)).
  assert (Hg : getOptions W PW (apply_form f (FSep "-" "p" "./")) = getOptions W PW f).
  { unfold getOptions. cbn. now rewrite Hf. }
  change (checkFlags (apply_form f (FSep "-" "p" "./"))) with (checkFlags f).
  change (f_o (apply_form f (FSep "-" "p" "./"))) with (f_o f). rewrite Hg. reflexivity.
Qed.
End C57.

(** ** C58 *)

(** the text handed to imports.Process is the executed header template followed by the executed body *)
Theorem C58_source : forall lower upper X g o, exists hdr,
  run_template lower upper text_header (header_inputs g (go_header o)) = Some (Ok hdr) /\
  Generate X g o =
    match x_body X g (go_vars o) with
    | Ok body =>
        match x_process X (op_prefix (g_options g)) (op_output (g_options g)) (hdr ++ body) with
        | inl out => Ok out
        | inr e => Err (Wrapped ("failed to format generated code:" ++ String "010" (hdr ++ body)) e)
        end
    | Err e => Err e
    | Panic m => Panic m
    end.
Proof.
  intros lower upper X g o. exists (header_text g (go_header o)). split; [apply header_rendered|].
  unfold Generate. destruct (x_body X g (go_vars o)) as [body|e|m]; cbn [rbind]; reflexivity.
Qed.

(** it starts with the marker of generated code and the template's name, then the package clause, and has
    the directive exactly when -g was not given *)
Theorem C58_header : forall lower upper g h, exists rest,
  run_template lower upper text_header (header_inputs g h) = Some (Ok (
    "// Code generated by gowrap. DO NOT EDIT." ++ String "010" ("// template: " ++ hv_template h ++ String "010"
    ("// gowrap: http://github.com/hexdigest/gowrap" ++ String "010" (String "010" ("package " ++ g_dst_name g ++ String "010" rest))))))%string /\
  rest = (String "010" (if hv_disable h then "" else
            String "010" ("//go:generate gowrap gen -p " ++ pk_path (g_src g) ++ " -i " ++ op_interface (g_options g) ++ " -t " ++ hv_template h
                          ++ " -o " ++ hv_output h ++ hv_args h ++ " -l """ ++ op_prefix (g_options g) ++ """" ++ String "010" ""))
          ++ String "010" ("import(" ++ String "010" (join "" (map (fun i => i ++ String "010" (String "009" "")) (op_imports (g_options g)))
          ++ String "010" (")" ++ String "010" ""))))%string.
Proof.
  intros lower upper g h. eexists. split; [|reflexivity]. rewrite header_rendered. do 2 f_equal.
  unfold header_text, directive, nl, quote, tab. rewrite ?sapp_assoc. cbn [append].
  repeat (rewrite ?sapp_assoc; cbn [append]). destruct (hv_disable h); [reflexivity|].
  repeat (rewrite ?sapp_assoc; cbn [append]). reflexivity.
Qed.

(** ** C59 *)

Fixpoint printed (d : list eff) : string :=
  match d with EPrint s :: r => (s ++ printed r)%string | _ :: r => printed r | [] => "" end.
Definition only_prints (d : list eff) : Prop := forall e, In e d -> exists s, e = EPrint s.

Fixpoint lines (names : list string) : string :=
  match names with [] => "" | n :: r => ("  " ++ n ++ String "010" (lines r))%string end.

Lemma print_names_prints : forall l t, exists d,
  print_names l t = (tt, t ++ d) /\ only_prints d /\ printed d = lines l.
Proof.
  induction l as [|n l IH]; intros t; cbn [print_names].
  - exists []. rewrite app_nil_r. repeat split. intros e [].
  - unfold bind, emit. destruct (IH (t ++ [EPrint ("  " ++ n ++ nl)%string])) as (d & -> & Ho & Hp).
    exists (EPrint ("  " ++ n ++ nl)%string :: d). split; [now rewrite <- app_assoc|]. split.
    + intros e [<- | He]; [eauto | now apply Ho].
    + cbn. rewrite Hp. unfold nl. now rewrite !sapp_assoc.
Qed.

(** template list prints its heading and every name on a line of its own, or fails and prints nothing *)
Theorem C59_list : forall W t rest,
  let '(r, t1) := remoteList W t in
  match r with
  | (_, Some e) => RunTemplate W ("list" :: rest) t = (Fail (GE e), t1)
  | ([], None) => RunTemplate W ("list" :: rest) t = (Fail (GE (Sentinel "no remote templates found")), t1)
  | (names, None) => exists d, RunTemplate W ("list" :: rest) t = (Done, t1 ++ d) /\ only_prints d /\
      printed d = ("List of available remote templates:" ++ String "010" (lines names))%string
  end.
Proof.
  intros W t rest. cbn [RunTemplate]. change (String.eqb "list" "list") with true. cbv iota. unfold templateList, bind.
  destruct (remoteList W t) as [[l [e|]] t1]; [destruct l; reflexivity|]. destruct l as [|n l]; [reflexivity|].
  unfold emit, ret.
  destruct (print_names_prints (n :: l) (t1 ++ [EPrint ("List of available remote templates:" ++ nl)%string])) as (d & -> & Ho & Hp).
  exists (EPrint ("List of available remote templates:" ++ nl)%string :: d). split; [now rewrite <- app_assoc|]. split.
  - intros x [<- | Hx]; [eauto | now apply Ho].
  - cbn [printed]. rewrite Hp. unfold nl. now rewrite sapp_assoc.
Qed.

(** the subcommands *)
Theorem C59_subcommands : forall W t,
  RunTemplate W [] t = (Fail (CLE "expected subcommand"), t) /\
  (forall rest, RunTemplate W ("copy" :: rest) t = templateCopy W rest t) /\
  (forall sub rest, ~ In sub ["list"; "copy"] -> RunTemplate W (sub :: rest) t = (Fail (CLE "unknown subcommand"), t)).
Proof.
  intros W t. repeat split. intros sub rest N. cbn [RunTemplate].
  destruct (String.eqb_spec sub "list") as [->|]; [elim N; cbn; tauto|].
  destruct (String.eqb_spec sub "copy") as [->|]; [elim N; cbn; tauto|]. reflexivity.
Qed.

(** a copied template is reported with the URL it came from *)
Theorem C59_copy : forall W t template dst rest body url t1, remoteLoad W template t = ((body, url, None), t1) ->
  io_write W t1 dst body = None ->
  exists d, templateCopy W (template :: dst :: rest) t = (Done, t1 ++ d) /\
    printed d = ("successfully copied from " ++ url ++ String "010" "")%string.
Proof.
  intros W t template dst rest body url t1 H Hw. unfold templateCopy, bind. rewrite H. unfold ask, emit, ret. rewrite Hw.
  exists [EWrite dst body; EPrint ("successfully copied from " ++ url ++ nl)%string].
  split; [now rewrite <- app_assoc|]. cbn. now rewrite sapp_nil_r.
Qed.

(** ** Non-vacuity *)

Definition forms_ex : list form :=
  [FSep "-" "i" "Old"; FEq "--" "i" "Reader"; FOn "-"; FBool "--" "F"; FEq "-" "v" "a=b=c"; FSep "--" "o" "out/x.go"; FSep "-" "t" "log"].
Example forms_ex_ok : Forall form_ok forms_ex /\ value "p" forms_ex = "" /\ value "i" forms_ex = "Reader" /\
  parse_flags flags0 (args_of forms_ex ++ ["extra"; "-g"])
  = inl (Flags false "Reader" "" "out/x.go" "log" [("a", VStr "b=c")] "", ["extra"; "-g"]).
Proof. split; [|repeat split]. unfold forms_ex. repeat apply Forall_cons; try apply Forall_nil; cbn; tauto. Qed.
Example unknown_ex : parse_flags flags0 (args_of forms_ex ++ ["--x=1"; "-i"]) = inr "flag provided but not defined: -x".
Proof.
  apply (C56_unknown forms_ex "--" "x" (Some "1") ["-i"]); [apply forms_ex_ok | cbn; tauto | | cbn; intuition discriminate].
  split; [discriminate|]. split; [cbn; intuition discriminate | discriminate].
Qed.
Example list_prints_ex : exists d, RunTemplate demo ["list"] [] = (Done, d) /\
  printed d = ("List of available remote templates:" ++ nl ++ "  retry" ++ nl ++ "  templates/x" ++ nl)%string.
Proof. eexists. split; vm_compute; reflexivity. Qed.
Example required_ex : fst (RunGen demo Wex Oex Eex (Exec (fun _ _ => Ok "") (fun _ _ s => inl s)) 5
                             (args_of [FSep "-" "i" "Reader"; FSep "-" "t" "log"]) []) = Fail (CLE "output file is not specified").
Proof. vm_compute. reflexivity. Qed.

(** `go generate`: words, quoting and variables, as documented *)
Definition genv (n : string) : string := if String.eqb n "GOFILE" then "f.go" else if String.eqb n "DOLLAR" then "$" else "".
Example go_generate_ex1 : go_generate_words genv "//go:generate cmd -o $GOFILE ${GOFILE}x  ""a b"" $DOLLAR $_z9.t"
  = Some ["cmd"; "-o"; "f.go"; "f.gox"; "a b"; "$"; ".t"].
Proof. vm_compute. reflexivity. Qed.
Example go_generate_ex2 : go_generate_words genv "//go:generatex cmd" = None /\ go_generate_words genv "//go:generate ""a""b" = None
  /\ go_generate_words genv "//go:generate ""a" = None /\ go_generate_words genv "//go:generate ""a\" = None.
Proof. repeat split; vm_compute; reflexivity. Qed.
(** the bytes that can be in a variable's name, and the special one-character names *)
Example name_bytes : filter is_alnum (map ascii_of_nat (seq 0 256))
  = list_ascii_of_string "0123456789ABCDEFGHIJKLMNOPQRSTUVWXYZ_abcdefghijklmnopqrstuvwxyz".
Proof. vm_compute. reflexivity. Qed.
Example special_bytes : filter is_special (map ascii_of_nat (seq 0 256)) = list_ascii_of_string "!#$*-0123456789?@".
Proof. vm_compute. reflexivity. Qed.
Example expand_ex : map (expand 20 (fun n => ("<" ++ n ++ ">")%string))
    ["$"; "a$"; "$$x"; "${ab}c"; "${}x"; "${a"; "${*}c"; "$1a"; "${12}"; "$a-b"; "$.x"; "a$bc$d"; "$ x"; "${$}"]
  = ["$"; "a$"; "<$>x"; "<ab>c"; "x"; "a"; "<*>c"; "<1>a"; "<12>"; "<a>-b"; "$.x"; "a<bc><d>"; "$ x"; "<$>"].
Proof. vm_compute. reflexivity. Qed.

Print Assumptions C56_flags.
Print Assumptions C56_unknown.
Print Assumptions C56_no_value.
Print Assumptions C56_bad_bool.
Print Assumptions C57_required.
Print Assumptions C57_wrong_flags.
Print Assumptions C57_default_package.
Print Assumptions C58_source.
Print Assumptions C58_header.
Print Assumptions C59_list.
Print Assumptions C59_subcommands.
Print Assumptions C59_copy.
