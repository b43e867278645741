(** C22, C23, C24, C54: command line variables, the go:generate directive, the
    order of effects of the gen and template copy commands. *)
From Verif Require Import Cmd NewGenSpec PathProofs PropResolve PropGenerator.
Open Scope nat_scope.

(** ** C22: variables *)

Fixpoint has_char (c : ascii) (s : string) : Prop :=
  match s with EmptyString => False | String d s' => d = c \/ has_char c s' end.

(** what one -v argument says *)
Inductive assigns : string -> string -> varval -> Prop :=
| as_value n x : ~ has_char "=" n -> assigns (n ++ "=" ++ x)%string n (VStr x)
| as_true n : ~ has_char "=" n -> assigns n n VTrue.

(** the last assignment to [n] in a list of arguments *)
Definition last_assignment (l : list string) (n : string) (x : varval) : Prop :=
  exists l1 a l2, l = l1 ++ a :: l2 /\ assigns a n x /\ forall b y, In b l2 -> ~ assigns b n y.

(** the arguments given to -v (in any of the forms the flag package accepts)
    in a command line; the other string flags may be anywhere in between *)
Inductive tok := TSep (dashes name v : string) | TEq (dashes name v : string).
Definition tok_ok (t : tok) : Prop :=
  match t with TSep d n _ | TEq d n _ => In d ["-"; "--"] /\ In n ["i"; "p"; "o"; "t"; "v"; "l"] end.
Definition tok_args (t : tok) : list string :=
  match t with
  | TSep d n v => [(d ++ n)%string; v]
  | TEq d n v => [(d ++ n ++ "=" ++ v)%string]
  end.
Fixpoint v_args (l : list tok) : list string :=
  match l with
  | [] => []
  | (TSep _ n v | TEq _ n v) :: l' => if String.eqb n "v" then v :: v_args l' else v_args l'
  end.
(** value of a string flag given by a command line: the last one wins *)
Fixpoint last_value (name : string) (dflt : string) (l : list tok) : string :=
  match l with
  | [] => dflt
  | (TSep _ n v | TEq _ n v) :: l' => last_value name (if String.eqb n name then v else dflt) l'
  end.

Definition set_all (v : vars) (l : list string) : vars := fold_left vars_set l v.
Definition apply_tok (f : flags) (t : tok) : flags :=
  match t with TSep _ n v | TEq _ n v =>
    match flag_kind n with KString set => set v f | _ => f end end.

Lemma parse_tok t f rest : tok_ok t ->
  parse_flags f (tok_args t ++ rest) = parse_flags (apply_tok f t) rest.
Proof.
  destruct t as [d n v|d n v]; intros [[<-|[<-|[]]] [<-|[<-|[<-|[<-|[<-|[<-|[]]]]]]]]; reflexivity.
Qed.

Lemma parse_toks l : forall f rest, Forall tok_ok l ->
  parse_flags f (concat (map tok_args l) ++ rest) = parse_flags (fold_left apply_tok l f) rest.
Proof.
  induction l as [|t l IH]; intros f rest H; [reflexivity|].
  inversion H as [|t' l' Ht Hl]; subst. cbn [map concat]. rewrite <- app_assoc, parse_tok by exact Ht.
  cbn [fold_left]. now apply IH.
Qed.

Lemma apply_fields l : forall f, Forall tok_ok l ->
  let f' := fold_left apply_tok l f in
  f_v f' = set_all (f_v f) (v_args l) /\ f_g f' = f_g f /\
  f_i f' = last_value "i" (f_i f) l /\ f_p f' = last_value "p" (f_p f) l /\
  f_o f' = last_value "o" (f_o f) l /\ f_t f' = last_value "t" (f_t f) l /\
  f_l f' = last_value "l" (f_l f) l.
Proof.
  induction l as [|t l IH]; intros f H; [repeat split|].
  inversion H as [|t' l' Ht Hl]; subst. cbn [fold_left]. specialize (IH (apply_tok f t) Hl). cbv zeta in IH |- *.
  destruct IH as (A & B & C & D & F & G & K). rewrite A, B, C, D, F, G, K.
  destruct t as [d n v|d n v]; destruct Ht as [_ [<-|[<-|[<-|[<-|[<-|[<-|[]]]]]]]]; repeat split; reflexivity.
Qed.

(** every command line made of string flags parses, with the last value of
    each flag and all values of -v in order *)
Theorem parse_command_line l rest : Forall tok_ok l ->
  (match rest with [] => True | s :: _ => lex_arg s = NotFlag end) ->
  exists f, parse_flags flags0 (concat (map tok_args l) ++ rest) = inl (f, rest) /\
    f_v f = set_all [] (v_args l) /\ f_g f = false /\
    f_i f = last_value "i" "" l /\ f_p f = last_value "p" "" l /\ f_o f = last_value "o" "" l /\
    f_t f = last_value "t" "" l /\ f_l f = last_value "l" "" l.
Proof.
  intros H R. rewrite parse_toks by exact H. exists (fold_left apply_tok l flags0).
  split; [|apply (apply_fields l flags0 H)].
  destruct rest as [|s rest]; [reflexivity|]. cbn [parse_flags]. now rewrite R.
Qed.

Lemma cut_some c s a b : cut c s = Some (a, b) -> s = (a ++ String c b)%string /\ ~ has_char c a.
Proof.
  revert a b; induction s as [|d s IH]; cbn; intros a b H; [discriminate|].
  unfold byte_eqb in H. destruct (Ascii.eqb_spec d c) as [->|N].
  - injection H as <- <-. split; [reflexivity | tauto].
  - destruct (cut c s) as [[a' b']|]; [|discriminate]. injection H as <- <-.
    destruct (IH a' b' eq_refl) as [-> NA]. split; [reflexivity|]. cbn. tauto.
Qed.
Lemma cut_none c s : cut c s = None <-> ~ has_char c s.
Proof.
  induction s as [|d s IH]; cbn; [tauto|]. unfold byte_eqb. destruct (Ascii.eqb_spec d c) as [->|N].
  - split; [discriminate | tauto].
  - destruct (cut c s) as [[a b]|].
    + split; [discriminate|]. intros H. destruct IH as [_ IH]. assert (X : Some (a, b) = None) by (apply IH; tauto). discriminate.
    + split; [|reflexivity]. intros _ [E|E]; [contradiction|]. now apply IH in E.
Qed.
Lemma cut_app c a b : ~ has_char c a -> cut c (a ++ String c b)%string = Some (a, b).
Proof.
  induction a as [|d a IH]; cbn; intros H; unfold byte_eqb.
  - now rewrite Ascii.eqb_refl.
  - destruct (Ascii.eqb_spec d c) as [->|N]; [tauto|]. rewrite IH by tauto. reflexivity.
Qed.

Lemma assigns_set a n x : assigns a n x <-> (match cut "=" a with None => (a, VTrue) | Some (m, y) => (m, VStr y) end) = (n, x).
Proof.
  split.
  - intros [n' x' H|n' H].
    + change (n' ++ "=" ++ x')%string with (n' ++ String "=" x')%string. now rewrite cut_app.
    + now rewrite (proj2 (cut_none "=" n') H).
  - destruct (cut "=" a) as [[m y]|] eqn:E; intros H; injection H as <- <-.
    + destruct (cut_some _ _ _ _ E) as [-> NA]. now apply (as_value m y).
    + apply as_true. now apply cut_none.
Qed.

Lemma assigns_fun a n x n' x' : assigns a n x -> assigns a n' x' -> n = n' /\ x = x'.
Proof. rewrite !assigns_set. intros -> H. now injection H. Qed.

Lemma assigns_total a : exists n x, assigns a n x.
Proof.
  destruct (match cut "=" a with None => (a, VTrue) | Some (m, y) => (m, VStr y) end) as [n x] eqn:E.
  exists n, x. now apply assigns_set.
Qed.

Lemma set_all_snoc v l a : set_all v (l ++ [a]) = vars_set (set_all v l) a.
Proof. unfold set_all. now rewrite fold_left_app. Qed.

Lemma toMap_set v a : toMap (vars_set v a) =
  let '(n, x) := match cut "=" a with None => (a, VTrue) | Some (m, y) => (m, VStr y) end in assoc_set n x (toMap v).
Proof.
  unfold toMap, vars_set. rewrite fold_left_app. cbn [fold_left]. now destruct (cut "=" a) as [[m y]|].
Qed.

Lemma toMap_NoDup v : NoDup (keys (toMap v)).
Proof.
  unfold toMap. assert (H : NoDup (keys (@nil (string * varval)))) by constructor. revert H.
  generalize (@nil (string * varval)) as m. induction v as [|[n x] v IH]; intros m H; [exact H|].
  cbn. apply IH. now apply keys_assoc_set_NoDup.
Qed.

Theorem vars_last_wins l n x : assoc n (toMap (set_all [] l)) = Some x <-> last_assignment l n x.
Proof.
  induction l as [|a l IH] using rev_ind.
  { cbn. split; [discriminate|]. intros (l1 & a & l2 & E & _). now destruct l1. }
  rewrite set_all_snoc, toMap_set. destruct (assigns_total a) as (m & y & A). pose proof A as A'.
  apply assigns_set in A'. rewrite A'.
  destruct (string_dec n m) as [->|N].
  - rewrite assoc_set_same. split.
    + intros E. injection E as <-. exists l, a, []. repeat split; auto.
    + intros (l1 & b & l2 & E & B & NB).
      destruct l2 as [|c l2 _] using rev_ind.
      * apply app_inj_tail in E. destruct E as [_ <-]. destruct (assigns_fun _ _ _ _ _ A B) as [_ ->]. reflexivity.
      * exfalso. rewrite app_comm_cons, app_assoc in E. apply app_inj_tail in E. destruct E as [_ <-].
        apply (NB a y); [rewrite in_app_iff; right; now left | exact A].
  - rewrite assoc_set_other by exact N. rewrite IH. split.
    + intros (l1 & b & l2 & -> & B & NB). exists l1, b, (l2 ++ [a]). split; [now rewrite <- app_assoc|].
      split; [exact B|]. intros c z Hc. rewrite in_app_iff in Hc. destruct Hc as [Hc|[<-|[]]]; [now apply NB|].
      intros C. destruct (assigns_fun _ _ _ _ _ A C). congruence.
    + intros (l1 & b & l2 & E & B & NB). destruct l2 as [|c l2 _] using rev_ind.
      * apply app_inj_tail in E. destruct E as [_ <-]. destruct (assigns_fun _ _ _ _ _ A B). congruence.
      * rewrite app_comm_cons, app_assoc in E. apply app_inj_tail in E. destruct E as [-> _].
        exists l1, b, l2. split; [reflexivity|]. split; [exact B|]. intros d z Hd. apply NB. rewrite in_app_iff. now left.
Qed.

(** the map given to templates has each name once *)
Theorem vars_map_functional v : NoDup (keys (toMap v)).
Proof. exact (toMap_NoDup v). Qed.

Example vars_ex : toMap (set_all [] ["a=1"; "flag"; "a=b=c"; "=x"]) = [("a", VStr "b=c"); ("flag", VTrue); ("", VStr "x")].
Proof. reflexivity. Qed.
Example vars_ex_last : last_assignment ["a=1"; "flag"; "a=b=c"; "=x"] "a" (VStr "b=c").
Proof. apply vars_last_wins. reflexivity. Qed.
Example cmdline_ex : exists f,
  parse_flags flags0 ["-v"; "a=1"; "--o=x.go"; "-i"; "Reader"; "-v=b"; "extra"] = inl (f, ["extra"]) /\
  f_v f = [("a", VStr "1"); ("b", VTrue)] /\ f_o f = "x.go" /\ f_i f = "Reader".
Proof. eexists. repeat split. Qed.

(** ** C23: the directive *)

(** A word that survives `go generate`: not empty, no blank, no line end, no
    dollar sign (which would be expanded), and not starting with a quote. *)
Definition plain_word (w : string) : Prop :=
  w <> "" /\ (forall c, has_char c w -> c <> " "%char /\ c <> "009"%char /\ c <> "010"%char /\ c <> "$"%char) /\
  (forall r, w <> String "034" r).
(** the local prefix is emitted in quotes, so blanks are harmless *)
Definition plain_quoted (w : string) : Prop :=
  forall c, has_char c w -> c <> "034"%char /\ c <> "\"%char /\ c <> "010"%char /\ c <> "$"%char /\ nat_of_ascii c < 128.

Lemma is_blank_false c : c <> " "%char -> c <> "009"%char -> is_blank c = false.
Proof. intros A B. unfold is_blank, byte_eqb. destruct (Ascii.eqb_spec c " "), (Ascii.eqb_spec c "009"); cbn; congruence. Qed.

Lemma word_blank w b rest : (forall c, has_char c w -> is_blank c = false) -> is_blank b = true ->
  word (w ++ String b rest)%string = (w, String b rest).
Proof.
  intros H Hb. induction w as [|c w IH]; cbn.
  - now rewrite Hb.
  - rewrite (H c) by (cbn; auto). rewrite IH by (intros d Hd; apply H; cbn; auto). reflexivity.
Qed.

Lemma split_word f w rest : plain_word w ->
  split_words (S f) (" " ++ w ++ " " ++ rest)%string = option_map (cons w) (split_words f (" " ++ rest)%string).
Proof.
  intros (NE & PC & NQ). destruct w as [|c w]; [congruence|].
  assert (B : forall d, has_char d (String c w) -> is_blank d = false).
  { intros d Hd. destruct (PC d Hd) as (A1 & A2 & _). now apply is_blank_false. }
  cbn [split_words append skip_blanks is_blank byte_eqb].
  change (is_blank " ") with true. cbn iota.
  rewrite (B c) by (cbn; auto).
  assert (Q : byte_eqb c "034" = false).
  { unfold byte_eqb. destruct (Ascii.eqb_spec c "034") as [->|]; [|reflexivity]. exfalso. now apply (NQ w). }
  rewrite Q. pose proof (word_blank (String c w) " " rest B eq_refl) as WB.
  change (String c (w ++ String " " rest)%string) with (String c w ++ String " " rest)%string.
  rewrite WB. reflexivity.
Qed.

Fixpoint spaced (ws : list string) : string :=
  match ws with [] => "" | w :: ws' => (" " ++ w ++ spaced ws')%string end.

Lemma quoted_raw_plain w rest : (forall c, has_char c w -> c <> "034"%char /\ c <> "\"%char) ->
  quoted_raw (w ++ String "034" rest)%string = Some (w, rest).
Proof.
  induction w as [|c w IH]; intros H; [reflexivity|]. cbn [append quoted_raw].
  destruct (H c) as [A B]; [cbn; auto|]. unfold byte_eqb.
  destruct (Ascii.eqb_spec c "034"); [contradiction|]. destruct (Ascii.eqb_spec c "\"); [contradiction|].
  rewrite IH by (intros d Hd; apply H; cbn; auto). reflexivity.
Qed.
Lemma unquote_plain w : (forall c, has_char c w -> c <> "\"%char /\ c <> "010"%char /\ nat_of_ascii c < 128) -> unquote w = Some w.
Proof.
  induction w as [|c w IH]; intros H; [reflexivity|]. cbn [unquote].
  destruct (H c) as (A & B & C); [cbn; auto|]. unfold byte_eqb.
  destruct (Ascii.eqb_spec c "\"); [contradiction|]. destruct (Ascii.eqb_spec c "010"); [contradiction|].
  apply Nat.ltb_lt in C. rewrite C. cbn [orb negb]. rewrite IH by (intros d Hd; apply H; cbn; auto). reflexivity.
Qed.

Lemma split_quoted f p : plain_quoted p ->
  split_words (S f) (String " " (String "034" (p ++ String "034" ""))) = option_map (cons p) (split_words f "").
Proof.
  intros HP. assert (R : quoted_raw (p ++ String "034" "")%string = Some (p, ""))
    by (apply quoted_raw_plain; intros c Hc; destruct (HP c Hc); tauto).
  assert (U : unquote p = Some p) by (apply unquote_plain; intros c Hc; destruct (HP c Hc); tauto).
  remember (p ++ String "034" "")%string as q. cbn. rewrite R. now rewrite U.
Qed.

Lemma split_all ws p : Forall plain_word ws -> plain_quoted p -> forall f, length ws + 1 < f ->
  split_words f (spaced ws ++ " " ++ quote ++ p ++ quote)%string = Some (ws ++ [p]).
Proof.
  intros HW HP. induction HW as [|w ws Hw HW IH]; intros f L.
  - destruct f as [|[|f]]; [cbn in L; lia|cbn in L; lia|].
    change (split_words (S (S f)) (String " " (String "034" (p ++ String "034" ""))) = Some [p]).
    rewrite split_quoted by exact HP. reflexivity.
  - destruct f as [|f]; [cbn in L; lia|]. cbn [spaced].
    assert (T : exists r, (spaced ws ++ " " ++ quote ++ p ++ quote)%string = (" " ++ r)%string).
    { destruct ws as [|w' ws]; [eexists; reflexivity|]. eexists. cbn [spaced]. now rewrite sapp_assoc. }
    rewrite !sapp_assoc. cbn [length] in L. specialize (IH f ltac:(lia)).
    destruct T as (r & T). rewrite T in *. rewrite split_word by exact Hw. rewrite IH. reflexivity.
Qed.

Lemma expand_plain env w : (forall c, has_char c w -> c <> "$"%char) -> forall f, expand f env w = w.
Proof.
  induction w as [|c w IH]; intros H f; destruct f; try reflexivity. cbn [expand].
  unfold byte_eqb. destruct (Ascii.eqb_spec c "$") as [E|_]; [exfalso; apply (H c); cbn; auto|].
  cbn [andb]. f_equal. apply IH. intros d Hd. apply H. cbn; auto.
Qed.

Lemma slength_spaced ws : length ws <= String.length (spaced ws).
Proof. induction ws as [|w ws IH]; cbn; [lia|]. rewrite slength_app. lia. Qed.

Lemma join_spaced vs : vs <> [] ->
  (" -v " ++ join " -v " vs)%string = spaced (concat (map (fun v => ["-v"; v]) vs)).
Proof.
  induction vs as [|v vs IH]; [congruence|]. intros _. destruct vs as [|v2 vs].
  - cbn. now rewrite sapp_nil_r.
  - specialize (IH ltac:(discriminate)).
    change (join " -v " (v :: v2 :: vs)) with (v ++ " -v " ++ join " -v " (v2 :: vs))%string.
    rewrite IH. reflexivity.
Qed.

Lemma var_arg_assigns a n x : assigns a n x -> var_arg (n, x) = a.
Proof. now intros [n' x' _|n' _]. Qed.

Lemma set_all_args l : map var_arg (set_all [] l) = l.
Proof.
  induction l as [|a l IH] using rev_ind; [reflexivity|].
  rewrite set_all_snoc. unfold vars_set. rewrite map_app, IH. cbn [map]. do 2 f_equal.
  destruct (assigns_total a) as (n & x & A). pose proof A as A'. apply assigns_set in A'. rewrite A'.
  now apply var_arg_assigns.
Qed.

Lemma varsToArgs_spaced l : varsToArgs (set_all [] l) = spaced (concat (map (fun v => ["-v"; v]) l)).
Proof.
  destruct l as [|a l]; [reflexivity|]. unfold varsToArgs.
  pose proof (set_all_args (a :: l)) as E. destruct (set_all [] (a :: l)) as [|x r] eqn:S; [discriminate|].
  rewrite E. apply join_spaced. discriminate.
Qed.

Lemma spaced_app a b : spaced (a ++ b) = (spaced a ++ spaced b)%string.
Proof. induction a as [|x a IH]; [reflexivity|]. cbn. now rewrite IH, sapp_assoc. Qed.

Lemma plain_lit w : In w ["gowrap"; "gen"; "-p"; "-i"; "-t"; "-o"; "-v"; "-l"] -> plain_word w.
Proof.
  intros H. split; [|split].
  - intros ->. cbn in H. intuition discriminate.
  - cbn in H. intros c Hc.
    repeat (destruct H as [<-|H]; [cbn in Hc; repeat (destruct Hc as [<-|Hc]; [repeat split; discriminate|]); contradiction|]).
    contradiction.
  - cbn in H. intros r ->. intuition discriminate.
Qed.

Definition directive_args (pkgPath iface template output : string) (vs : list string) (prefix : string) : list string :=
  ["gowrap"; "gen"; "-p"; pkgPath; "-i"; iface; "-t"; template; "-o"; output]
  ++ concat (map (fun v => ["-v"; v]) vs) ++ ["-l"; prefix].

(** The directive written for the -v arguments [vs] is read by `go generate`
    as exactly the corresponding command ... *)
Theorem directive_words env pkgPath iface template output vs prefix :
  plain_word pkgPath -> plain_word iface -> plain_word template -> plain_word output ->
  Forall plain_word vs -> plain_quoted prefix ->
  go_generate_words env (directive pkgPath iface template output (varsToArgs (set_all [] vs)) prefix)
  = Some (directive_args pkgPath iface template output vs prefix).
Proof.
  intros H1 H2 H3 H4 HV HP.
  set (ws := ["gowrap"; "gen"; "-p"; pkgPath; "-i"; iface; "-t"; template; "-o"; output]
             ++ concat (map (fun v => ["-v"; v]) vs) ++ ["-l"]).
  assert (HW : Forall plain_word ws).
  { unfold ws. apply Forall_app. split.
    - repeat (apply Forall_cons; [first [assumption | (apply plain_lit; cbn; tauto)]|]); apply Forall_nil.
    - apply Forall_app. split; [|apply Forall_cons; [apply plain_lit; cbn; tauto | apply Forall_nil]].
      clear -HV. induction HV as [|v vs Hv HV IH]; [constructor|]. cbn.
      constructor; [apply plain_lit; cbn; tauto|]. now constructor. }
  assert (D : directive pkgPath iface template output (varsToArgs (set_all [] vs)) prefix
            = ("//go:generate" ++ spaced ws ++ " " ++ quote ++ prefix ++ quote)%string).
  { unfold directive, ws. rewrite varsToArgs_spaced, !spaced_app.
    generalize (spaced (concat (map (fun v => ["-v"; v]) vs))) as V. intros V. cbn [spaced append].
    repeat (rewrite !sapp_assoc; cbn [append]). reflexivity. }
  rewrite D. unfold go_generate_words.
  assert (T : exists r, (spaced ws ++ " " ++ quote ++ prefix ++ quote)%string = String " " r).
  { unfold ws. cbn. eexists. reflexivity. }
  destruct T as (r & T). rewrite T.
  rewrite (cut_app " " "//go:generate" r) by (cbn; intuition discriminate).
  rewrite (String.eqb_refl "//go:generate").
  assert (S1 : split_words (S (String.length r)) r = Some (ws ++ [prefix])).
  { pose proof (split_all ws prefix HW HP (S (String.length r))) as SA. rewrite T in SA.
    assert (Q : split_words (S (String.length r)) (String " " r) = split_words (S (String.length r)) r) by reflexivity.
    rewrite <- Q. apply SA. assert (L : String.length (String " " r) = String.length (spaced ws ++ " " ++ quote ++ prefix ++ quote)%string) by now rewrite T.
    rewrite !slength_app in L. pose proof (slength_spaced ws).
    change (String.length (String " " r)) with (S (String.length r)) in L.
    change (String.length " ") with 1 in L. change (String.length quote) with 1 in L. lia. }
  rewrite S1. cbn [option_map]. f_equal.
  assert (EX : map (fun w => expand (String.length w) env w) (ws ++ [prefix]) = ws ++ [prefix]).
  { rewrite <- (map_id (ws ++ [prefix])) at 2. apply map_ext_in. intros w Hw.
    apply expand_plain. rewrite in_app_iff in Hw. destruct Hw as [Hw|[<-|[]]].
    - rewrite Forall_forall in HW. destruct (HW w Hw) as (_ & PC & _). intros c Hc. apply (PC c Hc).
    - intros c Hc. apply (HP c Hc). }
  rewrite EX. unfold ws, directive_args. now rewrite <- !app_assoc.
Qed.

(** ... whose flags are those of the original run.  Missing from the full
    statement (C23_statement below): arguments with a dollar sign, for which it
    is false. *)
Theorem directive_reproduces_partial env pkgPath iface template output vs prefix :
  plain_word pkgPath -> plain_word iface -> plain_word template -> plain_word output ->
  Forall plain_word vs -> plain_quoted prefix ->
  exists args,
    go_generate_words env (directive pkgPath iface template output (varsToArgs (set_all [] vs)) prefix)
      = Some ("gowrap" :: "gen" :: args) /\
    parse_flags flags0 args =
      inl (Flags false iface pkgPath output template (set_all [] vs) prefix, []).
Proof.
  intros H1 H2 H3 H4 HV HP. eexists. split; [now apply directive_words|].
  set (toks := [TSep "-" "p" pkgPath; TSep "-" "i" iface; TSep "-" "t" template; TSep "-" "o" output]
               ++ map (TSep "-" "v") vs ++ [TSep "-" "l" prefix]).
  assert (E : ["-p"; pkgPath; "-i"; iface; "-t"; template; "-o"; output] ++ concat (map (fun v => ["-v"; v]) vs) ++ ["-l"; prefix]
            = concat (map tok_args toks) ++ []).
  { unfold toks. rewrite app_nil_r, !map_app, !concat_app. f_equal. f_equal. rewrite map_map. reflexivity. }
  change (parse_flags flags0 (["-p"; pkgPath; "-i"; iface; "-t"; template; "-o"; output] ++ concat (map (fun v => ["-v"; v]) vs) ++ ["-l"; prefix])
    = inl (Flags false iface pkgPath output template (set_all [] vs) prefix, [])).
  assert (OK : Forall tok_ok toks).
  { unfold toks. apply Forall_app. split; [repeat constructor; cbn; tauto|].
    apply Forall_app. split; [|repeat constructor; cbn; tauto].
    apply Forall_forall. intros t Ht. apply in_map_iff in Ht. destruct Ht as (v & <- & _). cbn. tauto. }
  rewrite E, parse_toks by exact OK.
  destruct (apply_fields toks flags0 OK) as (A & B & C & D & F & G & K).
  set (f := fold_left apply_tok toks flags0) in *. clearbody f. cbn [parse_flags].
  assert (VA : v_args toks = vs).
  { unfold toks. cbn. clear. induction vs as [|v vs IH]; cbn; [reflexivity | now rewrite IH]. }
  assert (LV : forall n d, n <> "v" -> last_value n d (map (TSep "-" "v") vs ++ [TSep "-" "l" prefix])
                 = if String.eqb "l" n then prefix else d).
  { clear. intros n d N. induction vs as [|v vs IH]; [reflexivity|]. cbn [map app last_value].
    destruct (String.eqb_spec "v" n); [congruence | exact IH]. }
  unfold toks in C, D, F, G, K. cbn [app last_value String.eqb Ascii.eqb Bool.eqb] in C, D, F, G, K.
  rewrite LV in C, D, F, G, K by discriminate. cbn in B, C, D, F, G, K. rewrite VA in A. cbn in A.
  destruct f as [fg fi fp fo ft fv fl].
  cbn [f_g f_i f_p f_o f_t f_v f_l] in A, B, C, D, F, G, K.
  clear -A B C D F G K. subst fg fi fp fo ft fv fl. reflexivity.
Qed.

(** The -t argument of the directive: for a file it is relative to the
    directory of the output file, where `go generate` runs; made absolute from
    there it is the original file again. *)
Definition is_comp (e : string) : Prop := e <> "" /\ e <> "." /\ e <> ".." /\ no_slash e.

Lemma clean_stack_app root l1 : forall st l2,
  clean_stack root st (l1 ++ l2) = clean_stack root (rev (clean_stack root st l1)) l2.
Proof.
  induction l1 as [|e l1 IH]; intros st l2; cbn [app clean_stack]; [now rewrite rev_involutive|].
  destruct (String.eqb e "" || String.eqb e "."); [apply IH|].
  destruct (String.eqb e ".."); [|apply IH].
  destruct st as [|t st]; [destruct root; apply IH|]. destruct (String.eqb t ".."); apply IH.
Qed.

Lemma split_aux_no_slash s : forall acc, no_slash acc -> Forall no_slash (split_slash_aux s acc).
Proof.
  induction s as [|c s IH]; intros acc H; cbn; [now constructor|].
  unfold byte_eqb. destruct (Ascii.eqb_spec c "/") as [->|N].
  - constructor; [exact H|]. apply IH. unfold no_slash. cbn. tauto.
  - apply IH. apply no_slash_app. split; [exact H|]. apply no_slash_cons. split; [exact N|]. unfold no_slash. cbn. tauto.
Qed.

Lemma clean_comps l : forall st, Forall no_slash l -> Forall is_comp st -> Forall is_comp (clean_stack true st l).
Proof.
  induction l as [|e l IH]; intros st H HS; cbn [clean_stack]; [now apply Forall_rev|].
  inversion H as [|e' l' He Hl]; subst.
  destruct (String.eqb_spec e "") as [->|N1]; [now apply IH|]. destruct (String.eqb_spec e ".") as [->|N2]; [now apply IH|].
  cbn [orb]. destruct (String.eqb_spec e "..") as [->|N3].
  - destruct st as [|t st]; [now apply IH|]. inversion HS as [|t' s' Ht Hs]; subst.
    destruct (String.eqb_spec t "..") as [->|]; [destruct Ht as (_ & _ & Q & _); now destruct Q | now apply IH].
  - apply IH; [exact Hl|]. constructor; [repeat split; auto | exact HS].
Qed.

Lemma comps_ok p : Forall is_comp (comps p).
Proof. unfold comps. apply clean_comps; [|constructor]. apply split_aux_no_slash. unfold no_slash. cbn. tauto. Qed.

Lemma clean_push l : forall st, Forall is_comp l -> clean_stack true st l = rev st ++ l.
Proof.
  induction l as [|e l IH]; intros st H; cbn [clean_stack]; [now rewrite app_nil_r|].
  inversion H as [|e' l' (A & B & C & _) Hl]; subst.
  destruct (String.eqb_spec e ""); [contradiction|]. destruct (String.eqb_spec e "."); [contradiction|].
  destruct (String.eqb_spec e ".."); [contradiction|]. cbn [orb]. rewrite IH by exact Hl. cbn. now rewrite <- app_assoc.
Qed.

Lemma clean_up b : forall st l, Forall is_comp b ->
  clean_stack true (rev b ++ st) (map (fun _ => "..") b ++ l) = clean_stack true st l.
Proof.
  induction b as [|e b IH] using rev_ind; intros st l H; [reflexivity|].
  apply Forall_app in H. destruct H as [Hb He]. inversion He as [|e' l' (_ & _ & C & _) _]; subst.
  rewrite rev_app_distr, map_app. cbn [rev app map].
  assert (S : forall n (x : list string), map (fun _ : string => "..") n ++ ".." :: x = ".." :: map (fun _ => "..") n ++ x).
  { clear. induction n as [|y n IH]; intros x; cbn; [reflexivity | now rewrite IH]. }
  rewrite <- app_assoc. cbn [app]. rewrite S. cbn [clean_stack].
  change (String.eqb ".." "" || String.eqb ".." ".") with false. cbn iota. rewrite String.eqb_refl.
  destruct (String.eqb_spec e ".."); [contradiction|]. now apply IH.
Qed.

Lemma strip_spec b : forall t b' t', strip_common b t = (b', t') -> exists p, b = p ++ b' /\ t = p ++ t'.
Proof.
  induction b as [|x b IH]; intros t b' t' H.
  - cbn in H. injection H as <- <-. now exists [].
  - destruct t as [|y t]; [cbn in H; injection H as <- <-; now exists []|].
    cbn in H. destruct (String.eqb_spec x y) as [->|N].
    + destruct (IH t b' t' H) as (p & -> & ->). now exists (y :: p).
    + injection H as <- <-. now exists [].
Qed.

Lemma split_slash_app a b : split_slash (a ++ "/" ++ b)%string = split_slash a ++ split_slash b.
Proof.
  unfold split_slash. assert (G : forall acc, split_slash_aux (a ++ "/" ++ b) acc = split_slash_aux a acc ++ split_slash_aux b "").
  { induction a as [|c a IH]; intros acc; [reflexivity|]. cbn [append split_slash_aux].
    destruct (byte_eqb c "/"); [cbn [app]; f_equal|]; apply IH. }
  apply G.
Qed.

Lemma rooted_app a b : rooted a = true -> rooted (a ++ b)%string = true.
Proof. destruct a as [|c a]; [discriminate|]. cbn. auto. Qed.

Lemma Clean_rooted p : rooted p = true -> Clean p = String "/" (join "/" (comps p)).
Proof. intros H. unfold Clean, comps. now rewrite H. Qed.

Theorem relative_template base targ : rooted base = true -> rooted targ = true ->
  exists rel, Rel base targ = inl rel /\ rooted rel = false /\ rel <> "" /\
    Clean (base ++ "/" ++ rel)%string = Clean targ.
Proof.
  intros HB HT. unfold Rel. rewrite HB, HT. cbn [andb].
  destruct (strip_common (comps base) (comps targ)) as [b t] eqn:E.
  destruct (strip_spec _ _ _ _ E) as (p & EB & ET).
  pose proof (comps_ok base) as OB. pose proof (comps_ok targ) as OT. rewrite EB in OB. rewrite ET in OT.
  apply Forall_app in OB. destruct OB as [OP Ob]. apply Forall_app in OT. destruct OT as [_ Ot].
  assert (CL : forall rel els, split_slash rel = els ->
     clean_stack true (rev (p ++ b)) els = p ++ t -> Clean (base ++ "/" ++ rel)%string = Clean targ).
  { intros rel els HS HC. rewrite !Clean_rooted by (try apply rooted_app; assumption). do 2 f_equal.
    rewrite ET. unfold comps. rewrite split_slash_app, clean_stack_app, HS. unfold comps in EB. now rewrite EB. }
  set (els := map (fun _ : string => "..") b ++ t).
  assert (NS : Forall no_slash els).
  { unfold els. apply Forall_app. split.
    - apply Forall_forall. intros x Hx. apply in_map_iff in Hx. destruct Hx as (y & <- & _). unfold no_slash. cbn. intuition discriminate.
    - eapply Forall_impl; [|exact Ot]. intros x (_ & _ & _ & Hx). exact Hx. }
  assert (NE : b <> [] \/ t <> [] ->
    exists rel, inl (join "/" els) = @inl string gerr rel /\ rooted rel = false /\ rel <> "" /\ Clean (base ++ "/" ++ rel)%string = Clean targ).
  { intros HN. assert (HE : els <> []) by (unfold els; destruct b, t; cbn; intuition congruence).
    exists (join "/" els). split; [reflexivity|].
    assert (H0 : match els with e :: _ => e <> "" | [] => True end).
    { unfold els. destruct b as [|x b]; cbn; [|discriminate]. destruct t as [|y t]; [exact I|]. inversion Ot as [|y' t' Hy _]; subst. apply Hy. }
    split; [apply rooted_join; assumption|]. split.
    - destruct els as [|x els']; [congruence|]. destruct els' as [|y els'].
      + cbn. exact H0.
      + rewrite join_cons2. destruct x; [congruence|discriminate].
    - apply (CL _ els); [now apply split_join|]. unfold els. rewrite rev_app_distr.
      rewrite clean_up by exact Ob. rewrite clean_push by exact Ot. now rewrite rev_involutive. }
  destruct b as [|x b], t as [|y t].
  - exists ".". split; [reflexivity|]. split; [reflexivity|]. split; [discriminate|].
    apply (CL "." ["."]); [reflexivity|]. cbn [clean_stack String.eqb]. cbn. now rewrite rev_involutive.
  - apply NE. right. discriminate.
  - apply NE. left. discriminate.
  - apply NE. left. discriminate.
Qed.

Definition with_cwd (W : io) (d : string) : io :=
  IO (io_newreq W) (io_do W) (io_missing W) (io_read W) (io_git W) (io_commits W) (io_tree W) (inl d) (io_mkdir W) (io_write W).

Lemma Clean_root p : rooted p = true -> rooted (Clean p) = true.
Proof. intros H. rewrite Clean_rooted by exact H. reflexivity. Qed.
Lemma Abs_rooted W p a : (match io_cwd W with inl d => rooted d = true | inr _ => True end) -> Abs W p = inl a -> rooted a = true.
Proof.
  unfold Abs. intros HC H. destruct (rooted p) eqn:R.
  - injection H as <-. now apply Clean_root.
  - destruct (io_cwd W) as [d|]; [|discriminate]. injection H as <-. unfold Join2.
    destruct d as [|c d]; [discriminate|]. destruct p as [|c' p]; [now apply Clean_root|].
    apply Clean_root. now apply rooted_app.
Qed.

Lemma bind_eq {A B} (m : M A) (k : A -> M B) t a t' : m t = (a, t') -> bind m k t = k a t'.
Proof. unfold bind. now intros ->. Qed.

(** the template named in the directive, seen from the output directory, is
    the template that was loaded: the same URL, or the same file *)
Theorem directive_template W template outdir t body u t' :
  (match io_cwd W with inl d => rooted d = true | inr _ => True end) -> rooted outdir = true ->
  loadTemplate W template outdir t = (inl (body, u), t') ->
  exists url, fst (localLoad W template t) = (body, url, None) /\
    ((has_prefix "https://" url = true /\ u = url) \/
     (has_prefix "https://" url = false /\ u <> "" /\ exists a, Abs W url = inl a /\ Abs (with_cwd W outdir) u = inl (Clean a))).
Proof.
  intros HC HO H. unfold loadTemplate, bind in H.
  destruct (localLoad W template t) as [[[b url] oe] t1] eqn:E. destruct oe as [e|]; [discriminate|].
  unfold ret in H. destruct (has_prefix "https://" url) eqn:HP.
  - injection H as <- <- <-. exists url. split; [reflexivity|]. left. auto.
  - destruct (Abs W url) as [a|e] eqn:EA; [|discriminate].
    pose proof (Abs_rooted W url a HC EA) as RA.
    destruct (relative_template outdir a HO RA) as (rel & ER & RR & NE & CL).
    rewrite ER in H. injection H as <- <- <-. exists url. split; [reflexivity|]. right. split; [exact HP|].
    split; [exact NE|]. exists a. split; [exact EA|]. unfold Abs. rewrite RR. cbn [io_cwd with_cwd].
    unfold Join2. destruct outdir as [|c o]; [discriminate|]. destruct rel as [|c' rel]; [congruence|]. now rewrite CL.
Qed.

(** What goes wrong outside these conditions.  The conditions stated in
    properties.jsonl do not mention the dollar sign; with it the property is
    false as well. *)
Definition no_env (_ : string) : string := "".
Definition reparsed (vs : list string) (prefix : string) : option ((flags * list string) + string) :=
  match go_generate_words no_env (directive "io" "Reader" "log" "x.go" (varsToArgs (set_all [] vs)) prefix) with
  | Some (_ :: _ :: args) => Some (parse_flags flags0 args)
  | _ => None
  end.
Definition same_run (vs : list string) (prefix : string) : Prop :=
  exists rest, reparsed vs prefix = Some (inl (Flags false "Reader" "io" "x.go" "log" (set_all [] vs) prefix, rest)).
(** blank in a value: the run is cut short; empty name; leading quote; dollar sign; quote in the prefix *)
Theorem directive_refuted :
  ~ same_run ["msg=hello world"] "" /\ ~ same_run [""] "" /\ ~ same_run ["""q"""] "" /\
  ~ same_run ["price=$5"] "" /\ ~ same_run [] "a""b".
Proof. repeat split; intros (rest & H); vm_compute in H; discriminate H. Qed.

(** the claim with the conditions of properties.jsonl *)
Definition C23_statement : Prop := forall env pkgPath iface template output vs prefix,
  (forall w, In w (pkgPath :: iface :: template :: output :: prefix :: vs) ->
     forall c, has_char c w -> c <> " "%char /\ c <> "009"%char /\ c <> "010"%char /\ c <> "034"%char) ->
  (forall w, In w (pkgPath :: iface :: template :: output :: vs) -> w <> "") ->
  exists args,
    go_generate_words env (directive pkgPath iface template output (varsToArgs (set_all [] vs)) prefix)
      = Some ("gowrap" :: "gen" :: args) /\
    parse_flags flags0 args =
      inl (Flags false iface pkgPath output template (set_all [] vs) prefix, []).
Theorem C23_refuted : ~ C23_statement.
Proof.
  intros H. destruct (H no_env "io" "Reader" "log" "x.go" ["price=$5"] "") as (args & HG & HP).
  - intros w Hw c Hc. cbn in Hw.
    repeat (destruct Hw as [<-|Hw]; [cbn in Hc; repeat (destruct Hc as [<-|Hc]; [repeat split; discriminate|]); contradiction|]).
    contradiction.
  - intros w Hw ->. cbn in Hw. intuition discriminate.
  - vm_compute in HG. injection HG as <-. vm_compute in HP. discriminate.
Qed.

Example directive_ex : same_run ["name=svc"; "debug"; "k=a=b"] "github.com/x, github.com/y".
Proof. exists []. vm_compute. reflexivity. Qed.

(** http:// templates are treated as a file path: the directive does not name the template *)
Definition http_world : io := {|
  io_newreq := fun _ => None;
  io_do := fun _ _ => inl (Resp 200 ("tmpl", None) None);
  io_missing := fun _ _ => true;
  io_read := fun _ _ => FNotExist (Sentinel "no such file");
  io_git := fun _ => inr (Sentinel "no git");
  io_commits := fun _ => inl [];
  io_tree := fun _ => inl [];
  io_cwd := inl "/work";
  io_mkdir := fun _ _ => None;
  io_write := fun _ _ _ => None
|}.
Theorem http_template_refuted :
  fst (loadTemplate http_world "http://h/t" "/work/out" []) = inl ("tmpl", "../http:/h/t").
Proof. vm_compute. reflexivity. Qed.

(** ** C24: nothing is written before everything else has succeeded *)

Definition is_write (e : eff) : bool := match e with EMkdir _ | EWrite _ _ => true | _ => false end.
Definition writes (d : list eff) : list eff := filter is_write d.

Definition no_writes {A} (m : M A) : Prop := forall t, exists d, snd (m t) = t ++ d /\ writes d = [].

Lemma nw_ret {A} (a : A) : no_writes (ret a).
Proof. intros t. exists []. split; [cbn; now rewrite app_nil_r | reflexivity]. Qed.
Lemma nw_ask {A} (f : list eff -> A) : no_writes (ask f).
Proof. intros t. exists []. split; [cbn; now rewrite app_nil_r | reflexivity]. Qed.
Lemma nw_emit e : is_write e = false -> no_writes (emit e).
Proof. intros H t. exists [e]. split; [reflexivity|]. cbn. now rewrite H. Qed.
Lemma writes_app a b : writes (a ++ b) = writes a ++ writes b.
Proof. apply filter_app. Qed.
Lemma nw_bind {A B} (m : M A) (k : A -> M B) : no_writes m -> (forall a, no_writes (k a)) -> no_writes (bind m k).
Proof.
  intros Hm Hk t. destruct (Hm t) as (d & E & Wd). unfold bind. destruct (m t) as [a t'] eqn:Em.
  cbn in E. subst t'. destruct (Hk a (t ++ d)) as (d2 & E2 & Wd2).
  exists (d ++ d2). split; [rewrite E2; now rewrite app_assoc|]. now rewrite writes_app, Wd, Wd2.
Qed.
Ltac nw := repeat first [apply nw_ret | apply nw_ask | (apply nw_emit; reflexivity) | (apply nw_bind; [|intros]) |
  match goal with |- no_writes (match ?x with _ => _ end) => destruct x end |
  match goal with |- no_writes (if ?x then _ else _) => destruct x end].
Lemma nw_get W u : no_writes (get W u).
Proof. unfold get. nw. Qed.
Lemma nw_remoteLoad W p : no_writes (remoteLoad W p).
Proof. unfold remoteLoad, absGitPath, readFile, fetchFromGithub. nw; apply nw_get. Qed.
Lemma nw_localLoad W p : no_writes (localLoad W p).
Proof. unfold localLoad, readFile. nw; try apply nw_remoteLoad. Qed.
Lemma nw_getOptions W PW f : no_writes (getOptions W PW f).
Proof.
  unfold getOptions. destruct (Abs W (Dir (f_o f))); [|apply nw_ret].
  destruct (w_load PW _); [|apply nw_ret|apply nw_ret].
  apply nw_bind; [unfold loadTemplate; apply nw_bind; [apply nw_localLoad|]|]; intros; nw.
Qed.

Section RUN.
Variables (W : io) (PW : world) (Or : oracle) (E : env) (X : exec) (fuel : nat).

(** all stages before the file system is touched succeed, giving the output
    file name and its contents; [t'] is the trace up to there *)
Definition prepared (t : list eff) (args : list string) (file out : string) (t' : list eff) : Prop :=
  exists f rest o g, parse_flags flags0 args = inl (f, rest) /\ checkFlags f = None /\
    getOptions W PW f t = (inl o, t') /\ NewGenerator Or E PW fuel (go_options o) = Some (Ok g) /\
    Generate X g o = Ok out /\ file = f_o f.

Theorem run_nothing_written t args :
  (forall file out t', ~ prepared t args file out t') ->
  exists d, snd (RunGen W PW Or E X fuel args t) = t ++ d /\ writes d = [] /\
    fst (RunGen W PW Or E X fuel args t) <> Done.
Proof.
  intros NP. unfold RunGen.
  assert (Z : forall oc, oc <> Done -> exists d, snd (ret oc t) = t ++ d /\ writes d = [] /\ fst (ret oc t) <> Done).
  { intros oc H. exists []. cbn. rewrite app_nil_r. auto. }
  destruct (parse_flags flags0 args) as [[f rest]|msg] eqn:EP; [|apply Z; discriminate].
  destruct (checkFlags f) as [e|] eqn:EC; [apply Z; discriminate|].
  destruct (nw_getOptions W PW f t) as (d & ED & WD).
  destruct (getOptions W PW f t) as [r t1] eqn:EG. cbn in ED. subst t1.
  rewrite (bind_eq _ _ _ _ _ EG).
  assert (Z1 : forall oc, oc <> Done -> exists d', snd (ret oc (t ++ d)) = t ++ d' /\ writes d' = [] /\ fst (ret oc (t ++ d)) <> Done).
  { intros oc H. exists d. cbn. auto. }
  destruct r as [o|[e|m]]; [|apply Z1; discriminate|apply Z1; discriminate].
  destruct (NewGenerator Or E PW fuel (go_options o)) as [[g|e|m]|] eqn:EN; try (apply Z1; discriminate).
  destruct (Generate X g o) as [out|e|m] eqn:EX; try (apply Z1; discriminate).
  exfalso. apply (NP (f_o f) out (t ++ d)). exists f, rest, o, g. auto 10.
Qed.

Theorem run_prepared t args file out t' : prepared t args file out t' ->
  (exists d0, t' = t ++ d0 /\ writes d0 = []) /\
  RunGen W PW Or E X fuel args t =
    match io_mkdir W t' (Dir file) with
    | Some e => (Fail (GE e), t' ++ [EMkdir (Dir file)])
    | None =>
        (match io_write W (t' ++ [EMkdir (Dir file)]) file out with
         | Some e => Fail (GE e)
         | None => Done
         end, t' ++ [EMkdir (Dir file); EWrite file out])
    end.
Proof.
  intros (f & rest & o & g & EP & EC & EG & EN & EX & ->). split.
  - destruct (nw_getOptions W PW f t) as (d & ED & WD). rewrite EG in ED. cbn in ED. eauto.
  - unfold RunGen. rewrite EP, EC, (bind_eq _ _ _ _ _ EG), EN, EX. unfold bind, ask, emit, ret.
    destruct (io_mkdir W t' (Dir (f_o f))); [reflexivity|].
    rewrite <- app_assoc. cbn [app]. reflexivity.
Qed.

(** success exactly when everything succeeded; the file then has exactly the
    processed text *)
Theorem run_done_iff t args :
  fst (RunGen W PW Or E X fuel args t) = Done <->
  exists file out t', prepared t args file out t' /\ io_mkdir W t' (Dir file) = None /\
    io_write W (t' ++ [EMkdir (Dir file)]) file out = None.
Proof.
  split.
  - intros H. unfold RunGen in H.
    destruct (parse_flags flags0 args) as [[f rest]|msg] eqn:EP; [|discriminate].
    destruct (checkFlags f) as [e|] eqn:EC; [discriminate|].
    destruct (getOptions W PW f t) as [r t1] eqn:EG. rewrite (bind_eq _ _ _ _ _ EG) in H.
    destruct r as [o|[e|m]]; try discriminate.
    destruct (NewGenerator Or E PW fuel (go_options o)) as [[g|e|m]|] eqn:EN; try discriminate.
    destruct (Generate X g o) as [out|e|m] eqn:EX; try discriminate.
    assert (P : prepared t args (f_o f) out t1) by (exists f, rest, o, g; auto 10).
    exists (f_o f), out, t1. split; [exact P|]. unfold bind, ask, emit, ret in H.
    destruct (io_mkdir W t1 (Dir (f_o f))); [discriminate|]. split; [reflexivity|].
    cbn in H. destruct (io_write W (t1 ++ [EMkdir (Dir (f_o f))]) (f_o f) out); [discriminate | reflexivity].
  - intros (file & out & t' & P & HM & HW). destruct (run_prepared t args file out t' P) as [_ ->].
    now rewrite HM, HW.
Qed.
End RUN.

(** a complete run: packages of PropResolve.v, an executor that lists the
    methods and an import processor that fails on one file name *)
Definition demo_exec : exec := Exec
  (fun g _ => Ok (join " " (map fst (g_methods g))))
  (fun _ file src => if String.eqb file "gen/bad.go" then inr (Sentinel "syntax error") else inl src).
Definition demo_args (out : string) : list string :=
  ["-p"; "x/main"; "-i"; "Store"; "-t"; "http://h/t"; "-o"; out; "-v"; "a=1"; "-g"].
Example run_ex_done : exists d text,
  RunGen http_world Wex Oex Eex demo_exec 20 (demo_args "gen/out.go") [] =
    (Done, d ++ [EMkdir "gen"; EWrite "gen/out.go" text]) /\ writes d = [] /\
  has_prefix "// Code generated by gowrap. DO NOT EDIT." text = true.
Proof.
  eexists [_; _; _; _; _], _. split; [vm_compute; reflexivity|]. split; vm_compute; reflexivity.
Qed.
Example run_ex_prepared : exists out t', prepared http_world Wex Oex Eex demo_exec 20 [] (demo_args "gen/out.go") "gen/out.go" out t'.
Proof.
  assert (H : fst (RunGen http_world Wex Oex Eex demo_exec 20 (demo_args "gen/out.go") []) = Done) by (vm_compute; reflexivity).
  apply run_done_iff in H. destruct H as (file & out & t' & P & _). exists out, t'.
  assert (file = "gen/out.go") by (destruct P as (f & rest & o & g & EP & _ & _ & _ & _ & ->); vm_compute in EP; injection EP as <- _; reflexivity).
  now subst.
Qed.
Example run_ex_fail :
  writes (snd (RunGen http_world Wex Oex Eex demo_exec 20 (demo_args "gen/bad.go") [])) = [] /\
  exists e, fst (RunGen http_world Wex Oex Eex demo_exec 20 (demo_args "gen/bad.go") []) = Fail (GE e).
Proof. split; [|eexists]; vm_compute; reflexivity. Qed.

(** ** C54: template copy *)

Theorem copy_writes_after_load W t template dst rest :
  exists d, snd (templateCopy W (template :: dst :: rest) t) = t ++ d /\
    match fst (remoteLoad W template t) with
    | (body, url, None) =>
        writes d = [EWrite dst body] /\
        (fst (templateCopy W (template :: dst :: rest) t) = Done <-> io_write W (snd (remoteLoad W template t)) dst body = None)
    | (_, _, Some e) => writes d = [] /\ fst (templateCopy W (template :: dst :: rest) t) = Fail (GE e)
    end.
Proof.
  destruct (nw_remoteLoad W template t) as (d & ED & WD). unfold templateCopy.
  destruct (remoteLoad W template t) as [[[body url] oe] t1] eqn:EL. cbn in ED. subst t1.
  rewrite (bind_eq _ _ _ _ _ EL). cbn [fst snd]. destruct oe as [e|].
  - exists d. cbn. auto.
  - unfold bind, ask, emit, ret. destruct (io_write W (t ++ d) dst body) as [e|] eqn:EW; cbn.
    + exists (d ++ [EWrite dst body]). rewrite writes_app, WD, <- app_assoc. split; [reflexivity|].
      split; [reflexivity|]. split; discriminate.
    + exists (d ++ [EWrite dst body; EPrint ("successfully copied from " ++ url ++ nl)%string]).
      rewrite writes_app, WD, <- !app_assoc. split; [reflexivity|]. split; [reflexivity|]. split; auto.
Qed.
Theorem copy_usage W t args : length args < 2 ->
  templateCopy W args t = (Fail (CLE "expected template and a local file name"), t).
Proof. destruct args as [|a [|b args]]; cbn; intros H; try reflexivity. lia. Qed.

Example copy_ex : templateCopy http_world ["http://h/t"; "dst"] [] =
  (Done, [EGet "http://h/t"; EResp 0; ERead 0; EClose 0; EWrite "dst" "tmpl"; EPrint ("successfully copied from http://h/t" ++ nl)%string]).
Proof. vm_compute. reflexivity. Qed.

Print Assumptions parse_command_line.
Print Assumptions vars_last_wins.
Print Assumptions vars_map_functional.
Print Assumptions directive_words.
Print Assumptions directive_reproduces_partial.
Print Assumptions relative_template.
Print Assumptions directive_template.
Print Assumptions directive_refuted.
Print Assumptions C23_refuted.
Print Assumptions http_template_refuted.
Print Assumptions run_nothing_written.
Print Assumptions run_prepared.
Print Assumptions run_done_iff.
Print Assumptions copy_writes_after_load.
