(** C80: a file generated by a stock template compiles.  The rules of C31
    (method sets), C55 (terminating statements), C67 (fields and methods), C68
    (declarations of the file), C77 (scope) and C79 (types), for one file and
    under conditions on the interface's source that can be read off it: names of
    parameters that are not reserved (none, for parameters without names),
    exported interfaces and methods. *)
From Verif Require Import PropTyping.
From Verif Require Import Render GenericsProofs TypesSpec TypesProofs PropNaming PropImplements PropClashes PropScope ScopingProofs ScopedFiles ScopedBodies PropScoping.
From Verif Require Import Typing TypedFiles TypedTactics.
From Verif Require Import TypesSpec FieldName PropImplements PropClashes ScopedFiles PropNaming PropScoping.
Open Scope nat_scope.

(** ** Statement *)

(** the rules, for the functions [cs] of the file *)
Definition compiles (lower upper : N -> N) (t : tdata) (text suffix : string) (cs : list gocode) : Prop :=
  let dec := decorator t suffix in let ms := map snd (td_methods t) in
  exists toks, source_tokens lower upper text t = Some toks /\
    (* no name is declared twice in the file *)
    NoDup (tops 0 toks) /\
    (* no method has the name of a field *)
    (exists fs, fields_of dec toks = Some fs /\ forall m, In m ms -> ~ In (m_name m) fs) /\
    (* the decorator is assignable to the interface; functions end in terminating statements *)
    (exists decls, generates lower upper text t decls /\ implements dec (td_type t) ms decls /\ methods_end dec ms decls) /\
    (* [cs] are all functions of the file *)
    (exists decls, generates lower upper text t decls /\ Forall (shown cs) decls /\ Forall (fun c => In (code_toks c) decls) cs) /\
    (* declarations and scope *)
    Forall (code_ok (td_type t) (file_scope toks ++ not_imported text)) cs /\
    (* types *)
    C79_ok lower upper t text cs.

(** names that the methods of a template use *)
Definition reserved_names (text : string) : list string := "_" :: "_d" :: locals text ++ r_uses (rule_of text).

(** a method as it is declared: legal, types error and context.Context mean the
    predeclared type and that of package context, no name is reserved *)
Definition declares_plainly (lower : N -> N) (t : tdata) (text : string) (m : method) : Prop :=
  exists O pr gts gps name fi ps rs, NewMethod O pr gts gps name fi = Ok m /\ f_type fi = FuncT ps rs /\ variadic_last ps rs /\
    pr (Ident "error") = Ok "error" /\ ~ In "error" (tp_names gts) /\
    (forall f l x, ps = f :: l -> f_type f = Selector x "Context" -> pr (f_type f) = Ok "context.Context") /\ ~ In "context.Context" (tp_names gts) /\
    (forall n f, In (n, f) (declared ps ++ declared_opt rs) -> ~ In n (reserved_names text) /\ (text = text_prometheus -> n <> vec lower t)).

(** [name] or [pkg.name] *)
Definition names_interface (name typ : string) : Prop :=
  TypesSpec.is_ident name = true /\ unexported name = false /\ (typ = name \/ exists pkg, TypesSpec.is_ident pkg = true /\ typ = (pkg ++ "." ++ name)%string).

Definition plainly_named (lower : N -> N) (t : tdata) (text suffix : string) : Prop :=
  names_interface (td_name t) (td_type t) /\
  (forall m, In m (map snd (td_methods t)) -> unexported (m_name m) = false /\ m_name m <> td_name t) /\
  unexported (decorator t suffix) = false /\
  (text = text_prometheus -> vec lower t <> decorator t suffix /\ vec lower t <> ("New" ++ decorator t suffix)%string) /\
  (text = text_elasticapm -> var_value "DecoratorName" (td_vars t) = None) /\
  (* the interface's package is not called like a parameter of the constructor or a name of the body *)
  (forall x, In x (type_ids (td_type t)) -> ~ In x (r_before (rule_of text))).

(** what templates/elasticapm and templates/fallback need of methods *)
Definition fits (text typ : string) (m : method) : Prop :=
  (text = text_elasticapm -> m_acceptsContext m = true) /\
  (text = text_fallback -> (m_acceptsContext m = true \/ m_returnsError m = false) /\ fallback_safe typ m).

(** ** Lemmas *)

Definition ends_digit (s : string) : bool := match list_ascii_of_string s with [] => false | l => TypesSpec.is_digit (last l "000"%char) end.
Lemma list_ascii_app : forall a b, list_ascii_of_string (a ++ b) = list_ascii_of_string a ++ list_ascii_of_string b.
Proof. induction a as [|c a IH]; intros b; cbn; [reflexivity | now rewrite IH]. Qed.
Lemma ends_digit_spec : forall s, ends_with_digit s -> ends_digit s = true.
Proof.
  intros s (a & c & -> & H). unfold ends_digit. rewrite list_ascii_app. cbn [list_ascii_of_string].
  destruct (list_ascii_of_string a ++ [c]) eqn:E; [now destruct (list_ascii_of_string a)|]. rewrite <- E, last_last. exact H.
Qed.
Definition texts : list string := map fst rules.
Lemma codes_text : forall lower t text cs, codes lower t text cs -> In text texts.
Proof. intros lower t text cs H. unfold texts, rules. destruct H; cbn [map fst]; solve [repeat first [left; reflexivity | right]]. Qed.
Lemma reserved_plain : forall text x, In text texts -> In x (reserved_names text) -> ends_digit x = false /\ x <> "ctx" /\ x <> "err" /\ x <> "".
Proof.
  assert (A : forallb (fun text => forallb (fun x => negb (ends_digit x) && negb (String.eqb x "ctx") && negb (String.eqb x "err") && negb (String.eqb x "")) (reserved_names text)) texts = true)
    by (vm_compute; reflexivity).
  intros text x Ht Hx. rewrite forallb_forall in A. specialize (A text Ht). rewrite forallb_forall in A. specialize (A x Hx).
  repeat (apply andb_prop in A as [A ?]). repeat match goal with H : negb _ = true |- _ => apply Bool.negb_true_iff in H end.
  repeat match goal with H : String.eqb _ _ = false |- _ => apply String.eqb_neq in H end. auto.
Qed.
Lemma origin : forall O pr gts gps name fi m ps rs x, NewMethod O pr gts gps name fi = Ok m -> f_type fi = FuncT ps rs -> In x (names m) ->
  x = "ctx" \/ x = "err" \/ (exists n f, In (n, f) (declared ps ++ declared_opt rs) /\ x = n) \/ ends_with_digit x.
Proof.
  intros O pr gts gps name fi m ps rs x H F Hx. unfold names in Hx. rewrite <- map_app in Hx. apply In_nth_error in Hx as (j & Hj).
  destruct (NewMethod_name_origin _ _ _ _ _ _ _ _ _ _ _ H F Hj) as [(E & _) | [(E & _) | (n & f & En & K)]]; [auto | auto |].
  right. right. destruct K as [(E & _) | (pfx & k & _ & ->)].
  - left. exists n, f. split; [eapply nth_error_In; exact En | exact E].
  - right. apply app_ends_digit, dec_last.
Qed.
Lemma vec_digit : forall lower t, ends_digit (vec lower t) = false.
Proof.
  intros lower t. unfold vec, ends_digit. rewrite list_ascii_app. change (list_ascii_of_string "DurationSummaryVec") with (list_ascii_of_string "DurationSummaryVe" ++ ["c"%char]).
  rewrite app_assoc. destruct (_ ++ ["c"%char]) eqn:E; [reflexivity|]. rewrite <- E, last_last. reflexivity.
Qed.
Lemma vec_long : forall lower t, 18 <= String.length (vec lower t).
Proof. intros. unfold vec. rewrite slength_app. cbn [String.length]. lia. Qed.

Lemma plain_method : forall lower t text m, In text texts -> declares_plainly lower t text m ->
  method_safe text m /\ well_named m /\ apart text m /\ ctx_first m /\ (text = text_prometheus -> ~ In (vec lower t) (names m)).
Proof.
  intros lower t text m Ht (O & pr & gts & gps & name & fi & ps & rs & H & F & V & E1 & E2 & C1 & C2 & N).
  assert (R : clear_of (names m) (reserved_names text)).
  { intros x K Hx. destruct (reserved_plain _ _ Ht K) as (R1 & R2 & R3 & _).
    destruct (origin _ _ _ _ _ _ _ _ _ _ H F Hx) as [E | [E | [(n & f & Hn & ->) | E]]]; [contradiction | contradiction | |].
    - now destruct (N n f Hn).
    - apply ends_digit_spec in E. congruence. }
  pose proof (C77_well_named _ _ _ _ _ _ _ H) as W. pose proof (C79_marks _ _ _ _ _ _ _ _ _ H F V E1 E2 C1 C2) as T.
  split; [split; [apply W | split; [exact T | exact R]]|]. split; [exact W|]. split; [|split].
  - intros x Hx K. apply (fun q => R x q Hx). unfold reserved_names. change ("_" :: "_d" :: locals text ++ r_uses (rule_of text)) with (("_" :: "_d" :: locals text) ++ r_uses (rule_of text)).
    apply in_or_app. now left.
  - intros A. destruct (proj2 (C04_ctx _ _ _ _ _ _ _ _ _ H F) A) as (p & l & E & K & _). exists p, l. auto.
  - intros Hp Hx. destruct (origin _ _ _ _ _ _ _ _ _ _ H F Hx) as [E | [E | [(n & f & Hn & E) | E]]].
    + pose proof (vec_long lower t) as L. rewrite E in L. cbn in L. lia.
    + pose proof (vec_long lower t) as L. rewrite E in L. cbn in L. lia.
    + destruct (N n f Hn) as [_ K]. now apply K.
    + apply ends_digit_spec in E. now rewrite vec_digit in E.
Qed.

Definition no_mark (c : ascii) : bool := negb (byte_eqb c "[") && negb (byte_eqb c ".").
Lemma ident_no_mark : forall s, TypesSpec.is_ident s = true -> all_chars no_mark s = true.
Proof.
  intros s H. assert (K : all_chars (fun c => TypesSpec.is_letter c || TypesSpec.is_digit c) s = true).
  { destruct s as [|c s]; [reflexivity|]. cbn in H |- *. apply andb_prop in H as [H1 H2]. now rewrite H1, H2. }
  revert K. apply all_chars_impl. intros c H1. unfold no_mark. apply andb_true_intro. split; apply Bool.negb_true_iff; apply Ascii.eqb_neq; intros ->; vm_compute in H1; discriminate H1.
Qed.
Lemma base_plain : forall s cur, all_chars no_mark s = true -> Typing.after_dot cur s = (cur ++ s)%string.
Proof.
  induction s as [|c s IH]; intros cur H; cbn; [now rewrite sapp_nil_r|]. cbn in H. apply andb_prop in H as [H1 H2]. apply andb_prop in H1 as [H1 H3].
  apply Bool.negb_true_iff in H1, H3. rewrite H1, H3, (IH _ H2). rewrite sapp_assoc. reflexivity.
Qed.
Lemma base_qualified : forall p s cur, all_chars no_mark p = true -> all_chars no_mark s = true -> Typing.after_dot cur (p ++ "." ++ s) = s.
Proof.
  induction p as [|c p IH]; intros s cur Hp Hs.
  - cbn. now rewrite base_plain.
  - cbn in Hp |- *. apply andb_prop in Hp as [H1 H2]. apply andb_prop in H1 as [H1 H3]. apply Bool.negb_true_iff in H1, H3. rewrite H1, H3. now apply IH.
Qed.
Lemma bracket_plain : forall s, all_chars no_mark s = true -> before_bracket s = s.
Proof.
  induction s as [|c s IH]; intros H; cbn; [reflexivity|]. cbn in H. apply andb_prop in H as [H1 H2]. apply andb_prop in H1 as [H1 H3].
  apply Bool.negb_true_iff in H1. now rewrite H1, IH.
Qed.
Lemma bracket_qualified : forall p s, all_chars no_mark p = true -> all_chars no_mark s = true -> before_bracket (p ++ "." ++ s) = (p ++ "." ++ s)%string.
Proof.
  induction p as [|c p IH]; intros s Hp Hs; cbn; [now rewrite bracket_plain|]. cbn in Hp. apply andb_prop in Hp as [H1 H2]. apply andb_prop in H1 as [H1 H3].
  apply Bool.negb_true_iff in H1. rewrite H1. f_equal. now apply IH.
Qed.
Lemma dot_plain : forall s, all_chars no_mark s = true -> FieldName.after_dot s = "".
Proof.
  induction s as [|c s IH]; intros H; cbn; [reflexivity|]. cbn in H. apply andb_prop in H as [H1 H2]. apply andb_prop in H1 as [H1 H3].
  apply Bool.negb_true_iff in H3. now rewrite H3, IH.
Qed.
Lemma dot_qualified : forall p s, all_chars no_mark p = true -> FieldName.after_dot (p ++ "." ++ s) = s.
Proof.
  induction p as [|c p IH]; intros s Hp; cbn; [reflexivity|]. cbn in Hp. apply andb_prop in Hp as [H1 H2]. apply andb_prop in H1 as [H1 H3].
  apply Bool.negb_true_iff in H3. rewrite H3. cbn in IH. rewrite IH by exact H2. now destruct s.
Qed.
Lemma interface_named : forall name typ, names_interface name typ -> base_name typ = name /\ unqualified typ = name.
Proof.
  intros name typ (H & _ & K). pose proof (ident_no_mark _ H) as N. unfold base_name, unqualified. destruct K as [-> | (pkg & Hp & ->)].
  - rewrite base_plain, bracket_plain, dot_plain by exact N. auto.
  - pose proof (ident_no_mark _ Hp) as P. rewrite base_qualified, bracket_qualified, dot_qualified by assumption. split; [reflexivity|]. destruct name; [discriminate H | reflexivity].
Qed.

Lemma all_lower : forall text x, In text texts -> In x (r_taken (rule_of text)) \/ In x (r_fields (rule_of text)) -> unexported x = true.
Proof.
  assert (A : forallb (fun text => forallb unexported (r_taken (rule_of text) ++ r_fields (rule_of text))) texts = true) by (vm_compute; reflexivity).
  intros text x Ht Hx. rewrite forallb_forall in A. specialize (A text Ht). rewrite forallb_forall in A. apply A. apply in_or_app. exact Hx.
Qed.
Lemma stock_of : forall text, In text texts -> text = text_elasticapm \/ (In (text, r_suffix (rule_of text)) stock /\ text <> text_elasticapm).
Proof.
  assert (A : forallb (fun text => String.eqb text text_elasticapm || existsb (fun e => String.eqb (fst e) text && String.eqb (snd e) (r_suffix (rule_of text))) stock) texts = true)
    by (vm_compute; reflexivity).
  intros text Ht. rewrite forallb_forall in A. specialize (A text Ht). destruct (String.eqb_spec text text_elasticapm) as [E|E]; [now left|]. right. split; [|exact E].
  cbn [orb] in A. apply existsb_exists in A as ([a b] & Hi & K). apply andb_prop in K as [K1 K2]. apply String.eqb_eq in K1, K2. cbn in K1, K2. now subst.
Qed.
Lemma apm_suffix : r_suffix (rule_of text_elasticapm) = "APMTracing".
Proof. vm_compute. reflexivity. Qed.
Lemma apm_option : forall t, var_value "DecoratorName" (td_vars t) = None -> decorator t "APMTracingOption" = (decorator t "APMTracing" ++ "Option")%string.
Proof. intros t H. unfold decorator, or_var. rewrite H. rewrite sapp_assoc. reflexivity. Qed.
Lemma same_tokens : forall lower upper text t (a b : list gtok), source_tokens lower upper text t = Some a -> source_tokens lower upper text t = Some b -> a = b.
Proof. intros. congruence. Qed.

Theorem C80_compiles : forall lower upper t text cs, let suffix := r_suffix (rule_of text) in
  codes lower t text cs -> plainly_named lower t text suffix ->
  (forall m, In m (map snd (td_methods t)) -> declares_plainly lower t text m /\ fits text (td_type t) m) ->
  compiles lower upper t text suffix cs.
Proof.
  intros lower upper t text cs suffix HC (HI & HM & HD & HV & HA & HB) H.
  pose proof (codes_text _ _ _ _ HC) as Ht. destruct (interface_named _ _ HI) as [EB EU].
  assert (M : forall m, In m (map snd (td_methods t)) -> method_safe text m /\ well_named m /\ apart text m /\ ctx_first m /\ (text = text_prometheus -> ~ In (vec lower t) (names m))).
  { intros m Hm. destruct (H m Hm) as [P _]. exact (plain_method _ _ _ _ Ht P). }
  assert (X : text = text_elasticapm -> decorator t "APMTracingOption" = (decorator t "APMTracing" ++ "Option")%string) by (intros E; apply apm_option; auto).
  assert (S : safe lower t text).
  { unfold safe. fold suffix. split; [|split; [|split; [exact HB|split; [|split; [exact X|split]]]]].
    - intros K. rewrite (all_lower text _ Ht (or_introl K)) in HD. discriminate HD.
    - intros K. destruct HI as (_ & U & _). rewrite (all_lower text _ Ht (or_intror K)) in U. discriminate U.
    - apply Forall_forall. intros m Hm. now apply M.
    - intros E m Hm. now apply M.
    - intros E. apply Forall_forall. intros m Hm. destruct (H m Hm) as [_ [_ F]]. now apply F. }
  assert (U : var_value "DecoratorName" (td_vars t) <> Some (VStr "_")).
  { intros E. unfold decorator, or_var in HD. rewrite E in HD. discriminate HD. }
  assert (W : Forall well_named (map snd (td_methods t))) by (apply Forall_forall; intros m Hm; now apply M).
  assert (A : Forall (apart text) (map snd (td_methods t))) by (apply Forall_forall; intros m Hm; now apply M).
  destruct (C77_scoped_partial lower upper t text cs HC U X W A) as (toks & ST & SC).
  exists toks. split; [exact ST|].
  assert (CF : text = text_elasticapm -> forall m, In m (map snd (td_methods t)) -> ctx_first m) by (intros _ m Hm; now apply M).
  assert (XM : forall m, In m (map snd (td_methods t)) -> unexported (m_name m) = false /\ m_name m <> unqualified (td_type t)) by (intros m Hm; rewrite EU; now apply HM).
  assert (In_ : In (text, suffix) ((text_elasticapm, "APMTracing") :: stock)).
  { unfold suffix. destruct (stock_of text Ht) as [-> | [K _]]; [left; now rewrite apm_suffix | now right]. }
  split; [|split; [|split; [|split; [|split]]]].
  - unfold suffix in *. destruct (stock_of text Ht) as [-> | [K _]].
    + destruct (C68_elasticapm_partial lower upper t (CF eq_refl) (HA eq_refl)) as (toks2 & S2 & N). now rewrite (same_tokens _ _ _ _ _ _ ST S2).
    + destruct (C68_within_partial text (r_suffix (rule_of text)) lower upper t K HV) as (toks2 & S2 & N); [|now rewrite (same_tokens _ _ _ _ _ _ ST S2)].
      intros _ E. rewrite E in HD. discriminate HD.
  - destruct (C67_exported_partial text suffix lower upper t In_ CF XM) as (toks2 & fs & S2 & F & N). exists fs. rewrite (same_tokens _ _ _ _ _ _ ST S2). auto.
  - destruct (stock_of text Ht) as [E | [K _]].
    + unfold suffix. subst text. rewrite apm_suffix. apply C55_elasticapm_partial; [apply CF; reflexivity|]. intros m Hm. destruct (H m Hm) as [_ [F _]]. now apply F.
    + destruct (String.eqb_spec text text_fallback) as [E|E].
      * assert (Es : suffix = "WithFallback") by (unfold suffix; rewrite E; vm_compute; reflexivity). rewrite Es, E. apply C55_fallback_partial.
        intros m Hm. destruct (H m Hm) as [_ [_ F]]. now apply F.
      * apply C55_terminating_partial. unfold ending. apply filter_In. split; [exact K|]. cbn [fst]. apply Bool.negb_true_iff. now apply String.eqb_neq.
  - now apply C77_code.
  - exact SC.
  - now apply C79_typed_partial.
Qed.

(** the default name of the decorator meets the conditions *)
Lemma last_of : forall a b (x y : ascii), (a ++ String x "")%string = (b ++ String y "")%string -> x = y.
Proof.
  intros a b x y H. apply (f_equal list_ascii_of_string) in H. rewrite !list_ascii_app in H. cbn [list_ascii_of_string] in H. now apply app_inj_tail in H as [_ H].
Qed.
Lemma default_named : forall lower t text, let suffix := r_suffix (rule_of text) in In text texts -> unexported (td_name t) = false -> td_name t <> "" ->
  var_value "DecoratorName" (td_vars t) = None ->
  unexported (decorator t suffix) = false /\
  (text = text_prometheus -> vec lower t <> decorator t suffix /\ vec lower t <> ("New" ++ decorator t suffix)%string).
Proof.
  intros lower t text suffix Ht U N V. unfold decorator, or_var. rewrite V. split.
  - destruct (td_name t) as [|c s]; [now elim N | exact U].
  - intros E. assert (Es : suffix = ("WithPrometheu" ++ "s")%string) by (unfold suffix; rewrite E; vm_compute; reflexivity). rewrite Es. unfold vec.
    change "DurationSummaryVec" with ("DurationSummaryVe" ++ "c")%string.
    split; intros K; rewrite <- !sapp_assoc in K; apply last_of in K; discriminate K.
Qed.

(** parameters without names need no condition *)
Definition declares_unnamed (m : method) : Prop :=
  exists O pr gts gps name fi ps rs, NewMethod O pr gts gps name fi = Ok m /\ f_type fi = FuncT ps rs /\ variadic_last ps rs /\
    pr (Ident "error") = Ok "error" /\ ~ In "error" (tp_names gts) /\
    (forall f l x, ps = f :: l -> f_type f = Selector x "Context" -> pr (f_type f) = Ok "context.Context") /\ ~ In "context.Context" (tp_names gts) /\
    forall n f, In (n, f) (declared ps ++ declared_opt rs) -> n = "".
Theorem C80_unnamed : forall lower upper t text cs, let suffix := r_suffix (rule_of text) in
  codes lower t text cs -> ~ In text [text_fallback; text_elasticapm; text_syncpool] ->
  names_interface (td_name t) (td_type t) -> var_value "DecoratorName" (td_vars t) = None ->
  (forall m, In m (map snd (td_methods t)) -> unexported (m_name m) = false /\ m_name m <> td_name t /\ declares_unnamed m) ->
  compiles lower upper t text suffix cs.
Proof.
  intros lower upper t text cs suffix HC HT HI V H. pose proof (codes_text _ _ _ _ HC) as Ht.
  assert (N : td_name t <> "") by (destruct HI as (K & _); intros E; rewrite E in K; discriminate K).
  destruct (default_named lower t text Ht (proj1 (proj2 HI)) N V) as [D1 D2].
  apply C80_compiles; [exact HC | |].
  - split; [exact HI|]. split; [intros m Hm; destruct (H m Hm) as (A & B & _); auto|]. split; [exact D1|]. split; [exact D2|]. split; [auto|].
    intros x _. replace (r_before (rule_of text)) with (@nil string); [intros []|].
    assert (A : forallb (fun t => existsb (String.eqb t) [text_fallback; text_syncpool] || match r_before (rule_of t) with [] => true | _ => false end) texts = true) by (vm_compute; reflexivity).
    rewrite forallb_forall in A. specialize (A text Ht). apply orb_prop in A as [A|A].
    + exfalso. apply existsb_exists in A as (y & Hy & E). apply String.eqb_eq in E. subst y. apply HT. cbn [In] in Hy |- *. tauto.
    + now destruct (r_before (rule_of text)).
  - intros m Hm. destruct (H m Hm) as (_ & _ & O & pr & gts & gps & name & fi & ps & rs & K). split.
    + exists O, pr, gts, gps, name, fi, ps, rs. destruct K as (K1 & K2 & K3 & K4 & K5 & K6 & K7 & K8). repeat (split; [assumption|]).
      intros n f Hn. rewrite (K8 n f Hn). split.
      * intros R. now destruct (reserved_plain _ _ Ht R) as (_ & _ & _ & R4).
      * intros _ E. pose proof (vec_long lower t) as L. rewrite <- E in L. cbn in L. lia.
    + split; intros E; exfalso; apply HT; cbn [In]; auto.
Qed.

(** ** Examples *)

(** [type Doer interface { Do(c context.Context, user string, opts ...Option) (User, error); Ping(context.Context, int) error }]
    in package pkg, with every template *)
Definition method_called (name : string) (fi : Ast.field) : method := match NewMethod O0 pr0 [] [] name fi with Ok m => m | _ => no_method end.
Definition do_f : Ast.field := named ["Do"] (FuncT
  [named ["c"] (Selector (Ident "context") "Context"); named ["user"] (Ident "string"); named ["opts"] (Ellipsis (Ident "Option"))]
  (Some [anon (Ident "User"); anon (Ident "error")])).
Definition ping_f : Ast.field := named ["Ping"] (FuncT [anon (Selector (Ident "context") "Context"); anon (Ident "int")] (Some [anon (Ident "error")])).
Definition doer_t : tdata := TData "Doer" "pkg.Doer" "" "" [("Do", method_called "Do" do_f); ("Ping", method_called "Ping" ping_f)] [] [].
Definition clear_b (l forbidden : list string) : bool := forallb (fun x => negb (existsb (String.eqb x) forbidden)) l.
Lemma clear_b_spec : forall l forbidden x, clear_b l forbidden = true -> In x l -> ~ In x forbidden.
Proof.
  intros l forbidden x H Hx K. unfold clear_b in H. rewrite forallb_forall in H. specialize (H x Hx). apply Bool.negb_true_iff in H.
  enough (existsb (String.eqb x) forbidden = true) by congruence. apply existsb_exists. exists x. split; [exact K | apply String.eqb_refl].
Qed.
Lemma clear_all : forall l (f : string -> list string), forallb (fun text => clear_b l (f text)) texts = true ->
  forall text x, In text texts -> In x l -> ~ In x (f text).
Proof. intros l f H text x Ht Hx. rewrite forallb_forall in H. exact (clear_b_spec _ _ _ (H text Ht) Hx). Qed.
Ltac plainly_ fi_ := match eval unfold fi_ in fi_ with named _ (FuncT ?ps ?rs) =>
  exists O0, pr0, [], [], (hd "" (f_names fi_)), fi_, ps, rs end; split; [vm_compute; reflexivity|]; split; [reflexivity|];
  split; [split; intros d e Hd; cbn in Hd; repeat destruct Hd as [<-|Hd]; try (destruct Hd; fail); discriminate|];
  split; [vm_compute; reflexivity|]; split; [intros []|]; split; [intros f l x E T; injection E as <- <-; vm_compute; reflexivity|]; split; [intros []|].

Example C80_nontrivial : forall text, In text texts ->
  plainly_named (fun x => x) doer_t text (r_suffix (rule_of text)) /\
  (forall m, In m (map snd (td_methods doer_t)) -> declares_plainly (fun x => x) doer_t text m /\ fits text (td_type doer_t) m).
Proof.
  intros text Ht. split.
  - split; [|split; [|split; [|split; [|split]]]].
    + split; [reflexivity|]. split; [reflexivity|]. right. exists "pkg". split; reflexivity.
    + intros m [<-|[<-|[]]]; split; try reflexivity; discriminate.
    + apply (default_named (fun x => x) doer_t text Ht); try reflexivity; discriminate.
    + apply (default_named (fun x => x) doer_t text Ht); try reflexivity; discriminate.
    + reflexivity.
    + intros x Hx. apply (clear_all (type_ids "pkg.Doer") (fun text => r_before (rule_of text))); [vm_compute; reflexivity | exact Ht | exact Hx].
  - assert (R : forall x, In x [""; "c"; "user"; "opts"] -> ~ In x (reserved_names text) /\ (text = text_prometheus -> x <> vec (fun x => x) doer_t)).
    { intros x Hx. split.
      - apply (clear_all [""; "c"; "user"; "opts"] reserved_names); [vm_compute; reflexivity | exact Ht | exact Hx].
      - intros _ E. pose proof (vec_long (fun x => x) doer_t) as L. rewrite <- E in L. cbn [In] in Hx. repeat destruct Hx as [<-|Hx]; try (destruct Hx; fail); cbn in L; lia. }
    intros m Hm. split.
    + destruct Hm as [<-|[<-|[]]].
      * plainly_ do_f. intros n f Hn. apply R. cbn in Hn. cbn [In]. repeat destruct Hn as [E|Hn]; try (destruct Hn; fail); injection E as <- _; tauto.
      * plainly_ ping_f. intros n f Hn. apply R. cbn in Hn. cbn [In]. repeat destruct Hn as [E|Hn]; try (destruct Hn; fail); injection E as <- _; tauto.
    + split; [intros _; destruct Hm as [<-|[<-|[]]]; reflexivity|]. intros _. split; [left; destruct Hm as [<-|[<-|[]]]; reflexivity|]. split.
      * intros x Hx. cbn in Hx. destruct Hx as [<-|[]]. destruct Hm as [<-|[<-|[]]]; vm_compute; intuition discriminate.
      * intros p x Hp Hx. destruct Hm as [<-|[<-|[]]]; vm_compute in Hp; repeat destruct Hp as [<-|Hp]; try (destruct Hp; fail);
          vm_compute in Hx; destruct Hx as [<-|[]]; vm_compute; intuition discriminate.
Qed.

(** the file of templates/circuitbreaker for that interface *)
Example C80_circuitbreaker : exists cs, codes (fun x => x) doer_t text_circuitbreaker cs /\ List.length cs = 3 /\
  compiles (fun x => x) (fun x => x) doer_t text_circuitbreaker "WithCircuitBreaker" cs.
Proof.
  eexists. split; [apply (c_circuitbreaker (fun x => x) doer_t)|]. split; [vm_compute; reflexivity|].
  replace "WithCircuitBreaker" with (r_suffix (rule_of text_circuitbreaker)) at 3 by (vm_compute; reflexivity).
  assert (Ht : In text_circuitbreaker texts) by (unfold texts, rules; cbn [map fst]; solve [repeat first [left; reflexivity | right]]).
  destruct (C80_nontrivial text_circuitbreaker Ht) as [H1 H2]. apply C80_compiles; [apply (c_circuitbreaker (fun x => x) doer_t) | exact H1 | exact H2].
Qed.

Print Assumptions C80_compiles.
Print Assumptions C80_unnamed.
