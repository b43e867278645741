(** C77: the functions of generated files obey Go's rules for declarations and
    scope: every name is declared, no name is declared twice in a block, every
    := declares a new variable, every variable is used, and no result is hidden
    at a return.  The statement is in ScopedFiles.v. *)
From Verif Require Import Render TypesSpec TypesProofs PropNaming PropImplements PropClashes PropScope ScopingProofs ScopedFiles ScopedBodies.
Open Scope nat_scope.

(** ** Constructors *)
(** the identifiers of a type, inserted ones too *)
Fixpoint words_of (sel : bool) (l : list gtok) : list string :=
  match l with
  | [] => []
  | TW w :: r => (if sel || match r with x :: _ => paren x | [] => false end then [] else [wtext w]) ++ words_of (next_dot r) r
  | x :: r => words_of (sel && dot x) r
  end.
Lemma type_names_words : forall typ l sel x, In x (type_names typ sel l) -> In x (words_of sel l) /\ ~ In x (typ :: keywords).
Proof.
  intros typ l. induction l as [|t l IH]; intros sel x H; [destruct H|]. destruct t as [w|w|c|]; try (apply IH; exact H).
  cbn [type_names words_of] in *. apply in_app_or in H as [H|H].
  - destruct sel; [destruct H|]. cbn [orb] in *. destruct (existsb _ _) eqn:E; [destruct H|]. cbn [orb] in H.
    split; [apply in_or_app; now left|]. intros K. destruct (match l with [] => false | y :: _ => paren y end); [destruct H|]. destruct H as [<-|[]].
    enough (existsb (String.eqb (wtext w)) (typ :: keywords) = true) by congruence. apply existsb_exists. exists (wtext w). split; [exact K | apply String.eqb_refl].
  - apply IH in H as [H1 H2]. split; [apply in_or_app; now right | exact H2].
Qed.
Lemma names_in_words : forall typ l x, In x (names_in typ l) ->
  In x (qualifiers false l) \/ (existsb is_func l = false /\ In x (words_of false l) /\ ~ In x (typ :: keywords)).
Proof. intros typ l x H. unfold names_in in H. destruct (existsb is_func l); [now left | right]. split; [reflexivity | now apply type_names_words]. Qed.
Lemma wtext_hole : forall s, wtext [PH s] = s.
Proof. intros. cbn. apply sapp_nil_r. Qed.

Ltac type_ := let x := fresh "x" in let Hx := fresh in let Hf := fresh in let Hk := fresh in
  apply Forall_forall; intros x Hx; apply names_in_words in Hx as [Hx | (Hf & Hx & Hk)];
  cbn in Hx; rewrite ?sapp_nil_r in Hx; cbn [In] in Hx;
  repeat match type of Hx with _ \/ _ => destruct Hx as [Hx|Hx] end; try (destruct Hx; fail); subst x;
  first [ vis | exfalso; apply Hk; cbn; solve [auto 10] | cbn in Hf; discriminate Hf ].
Ltac fitem_ := first [ item_ | define_ | match goal with
  | |- items_ok _ _ (uses (names_in _ _) ++ _) => apply ok_uses; [type_|]
  end ].
Ltac fscope := repeat fitem_.

Lemma func_intro : forall typ G f, NoDup (map fst (f_params f)) -> ~ In "_" (map fst (f_params f)) ->
  (forall p, In p (f_params f) -> Forall (visible [G]) (names_in typ (snd p))) -> Forall (visible [G]) (names_in typ (f_results f)) ->
  items_ok [map fst (f_params f); G] 0 (flat_map (jitems typ) (f_body f)) -> code_ok typ G (GFunc f).
Proof.
  intros typ G f H1 H2 H3 H4 H5. cbn [code_ok]. split.
  - apply Forall_app. split; [|exact H4]. apply Forall_forall. intros x Hx. apply in_flat_map in Hx as (p & Hp & Hx).
    specialize (H3 p Hp). rewrite Forall_forall in H3. now apply H3.
  - unfold function_ok. rewrite app_nil_r. auto.
Qed.
Ltac nodup_ := repeat (apply NoDup_cons; [cbn; intuition discriminate|]); apply NoDup_nil.
Ltac func_ := intros; match goal with HG : incl _ _ |- _ => needs HG end; apply func_intro;
  [ nodup_ | cbn; intuition discriminate
  | let p := fresh in let Hp := fresh in intros p Hp; cbn in Hp; repeat match type of Hp with _ \/ _ => destruct Hp as [<-|Hp] end; try (destruct Hp; fail); cbn [snd]; type_
  | cbn [f_results]; type_ | ].

Lemma retry_new_scoped : forall G dec name typ, incl [dec; "int"; "time"] G -> dec <> "_" ->
  code_ok typ G (GFunc (plain_new dec (retry_ctor name typ))).
Proof. func_. cbn -[items_ok]. rewrite ?sapp_nil_r. fscope. Qed.
Lemma uses_app : forall a b, uses (a ++ b) = uses a ++ uses b.
Proof. intros. apply map_app. Qed.
Ltac newfn := func_; cbn -[items_ok names_in uses]; rewrite ?uses_app, ?app_nil_r, ?sapp_nil_r; rewrite <- ?app_assoc; cbn [app]; fscope.
Lemma timeout_new_scoped : forall G dec name typ, incl [dec; (dec ++ "Config")%string] G -> dec <> "_" -> (dec ++ "Config")%string <> "_" ->
  code_ok typ G (GFunc (plain_new dec (timeout_ctor dec name typ))).
Proof. newfn. Qed.
Lemma base_new_scoped : forall G dec name typ, incl [dec] G -> dec <> "_" -> code_ok typ G (GFunc (plain_new dec (base_ctor name typ))).
Proof. newfn. Qed.
Lemma log_new_scoped : forall G dec typ, incl [dec; "io"; "log"] G -> dec <> "_" -> code_ok typ G (GFunc (log_new dec typ)).
Proof. newfn. Qed.
Lemma logrus_new_scoped : forall G dec typ, incl [dec; "logrus"] G -> dec <> "_" -> code_ok typ G (GFunc (plain_new dec (logrus_ctor typ))).
Proof. newfn. Qed.
Lemma prometheus_new_scoped : forall G dec typ, incl [dec; "string"] G -> dec <> "_" -> code_ok typ G (GFunc (plain_new dec (prometheus_ctor typ))).
Proof. newfn. Qed.
Lemma tracing_new_scoped : forall G star pkg dec name typ, In (star, pkg) [([TP "*"], "trace"); ([], "trace"); ([], "opentracing")] ->
  incl [dec; "string"; "len"; "nil"; pkg] G -> dec <> "_" ->
  code_ok typ G (GFunc (tracing_new (t_span_decorator star pkg "Span") dec name typ)).
Proof. intros G star pkg dec name typ H. cbn [In] in H. repeat destruct H as [H|H]; try (now destruct H); injection H as <- <-; newfn. Qed.
Lemma apm_with_label_scoped : forall G dec opt typ, incl [dec; opt; "string"; "apm"] G -> dec <> "_" -> opt <> "_" ->
  code_ok typ G (GFunc (apm_with_label dec opt)).
Proof. newfn. Qed.
Lemma apm_with_type_scoped : forall G dec opt typ, incl [dec; opt; "string"] G -> dec <> "_" -> opt <> "_" ->
  code_ok typ G (GFunc (apm_with_type dec opt)).
Proof. newfn. Qed.
Lemma apm_new_scoped : forall G dec comp typ, incl [dec; (dec ++ "Option")%string; "string"; "error"; "apm"; "context"] G -> dec <> "_" -> (dec ++ "Option")%string <> "_" ->
  code_ok typ G (GFunc (apm_new dec comp typ)).
Proof. newfn. Qed.
Lemma syncpool_new_scoped : forall G dec typ, incl [dec; "len"; "make"; "panic"] G -> dec <> "_" -> code_ok typ G (GFunc (syncpool_new dec typ)).
Proof. newfn. Qed.
Lemma robinpool_new_scoped : forall G dec typ, incl [dec; "len"; "nil"; "uint32"; "error"; "errors"] G -> dec <> "_" -> code_ok typ G (GFunc (robinpool_new dec typ)).
Proof. newfn. Qed.
Lemma robinpool_must_new_scoped : forall G dec typ, incl [dec; "len"; "panic"; "uint32"] G -> dec <> "_" -> code_ok typ G (GFunc (robinpool_must_new dec typ)).
Proof. newfn. Qed.
Lemma ratelimit_new_scoped : forall G dec typ, incl [dec; "make"; "int"; "float64"; "time"] G -> dec <> "_" -> code_ok typ G (GFunc (ratelimit_new dec typ)).
Proof. newfn. Qed.
Lemma circuitbreaker_new_scoped : forall G dec name typ, incl [dec; "int"; "error"; "time"] G -> dec <> "_" -> code_ok typ G (GFunc (circuitbreaker_new dec name typ)).
Proof. newfn. Qed.
Lemma fallback_new_scoped : forall G dec typ, incl [dec; "time"] G -> dec <> "_" -> code_ok typ G (GFunc (fallback_new dec typ)).
Proof. newfn. Qed.

(** ** Files *)
Lemma sorted_back : forall t m, In m (sorted_methods t) -> In m (map snd (td_methods t)).
Proof.
  intros t m H. unfold sorted_methods in H. apply in_map_iff in H as (km & <- & Hi). apply in_map.
  eapply Permutation.Permutation_in; [apply msort_perm | exact Hi].
Qed.
Lemma each_ok : forall typ G p t f, (forall m, In m (map snd (td_methods t)) -> p m = true -> code_ok typ G (f m)) -> Forall (code_ok typ G) (each p t f).
Proof.
  intros typ G p t f H. apply Forall_forall. intros c Hc. unfold each in Hc. apply in_flat_map in Hc as (m & Hm & Hc).
  destruct (p m) eqn:E; [|destruct Hc]. destruct Hc as [<-|[]]. apply H; [now apply sorted_back | exact E].
Qed.
Lemma scope_of : forall text suffix specs lower upper t, In (text, suffix) stock -> In (text, specs) stock_imports ->
  exists toks, source_tokens lower upper text t = Some toks /\
    file_scope toks = map import_name specs ++ top_names lower text t (decorator t suffix) ++ predeclared.
Proof.
  intros text suffix specs lower upper t H1 H2. destruct (C68_names _ _ lower upper t H1) as (toks & S1 & E1).
  destruct (C74_template_imports _ _ lower upper t H2) as (toks2 & S2 & E2). rewrite S1 in S2. injection S2 as <-.
  exists toks. split; [exact S1|]. unfold file_scope. now rewrite E1, E2.
Qed.
Lemma dec_top : forall lower text t dec, In dec (top_names lower text t dec).
Proof.
  intros. unfold top_names. destruct (String.eqb text text_timeout); [now left|]. destruct (String.eqb text text_robinpool); [now left|].
  destruct (String.eqb text text_prometheus); [now left|]. destruct (String.eqb text text_twirp_error); now left.
Qed.
Lemma dec_named : forall t suffix, var_value "DecoratorName" (td_vars t) <> Some (VStr "_") -> 1 < String.length suffix -> decorator t suffix <> "_".
Proof.
  intros t suffix H L E. unfold decorator, or_var in E. destruct (var_value "DecoratorName" (td_vars t)) as [[|s]|].
  - discriminate E.
  - destruct (String.eqb s "").
    + apply (f_equal String.length) in E. rewrite slength_app in E. cbn [String.length] in E. lia.
    + subst s. now apply H.
  - apply (f_equal String.length) in E. rewrite slength_app in E. cbn [String.length] in E. lia.
Qed.

Definition C77_ok (lower upper : N -> N) (t : tdata) (text : string) (cs : list gocode) : Prop :=
  exists toks, source_tokens lower upper text t = Some toks /\ Forall (code_ok (td_type t) (file_scope toks ++ not_imported text)) cs.
Lemma assemble : forall lower upper t text suffix specs ns ls fs p f,
  In (text, suffix) stock -> In (text, specs) stock_imports -> map import_name specs ++ not_imported text = ns -> locals text = ls ->
  Forall well_named (map snd (td_methods t)) -> Forall (apart text) (map snd (td_methods t)) ->
  (forall G, incl ns G -> incl predeclared G -> In (decorator t suffix) G -> incl (top_names lower text t (decorator t suffix)) G ->
    Forall (code_ok (td_type t) G) fs /\ forall m, well_named m -> avoids m ls -> p m = true -> code_ok (td_type t) G (f m)) ->
  C77_ok lower upper t text (fs ++ each p t f).
Proof.
  intros lower upper t text suffix specs ns ls fs p f H1 H2 H3 H4 W A H. destruct (scope_of _ _ _ lower upper t H1 H2) as (toks & S & E).
  exists toks. split; [exact S|].
  assert (I : forall x, In x ns \/ In x predeclared \/ In x (top_names lower text t (decorator t suffix)) -> In x (file_scope toks ++ not_imported text)).
  { intros x Hx. rewrite E. rewrite <- H3 in Hx. rewrite !in_app_iff in *. tauto. }
  destruct (H (file_scope toks ++ not_imported text)) as [F B].
  - intros x Hx. apply I. now left.
  - intros x Hx. apply I. right. now left.
  - apply I. right. right. apply dec_top.
  - intros x Hx. apply I. right. now right.
  - apply Forall_app. split; [exact F|]. apply each_ok. intros m Hm. rewrite Forall_forall in W, A. apply B; [now apply W|].
    specialize (A m Hm). unfold apart in A. rewrite H4 in A. exact A.
Qed.
Lemma incl_pre : forall l G, incl predeclared G -> forallb (fun x => existsb (String.eqb x) predeclared) l = true -> incl l G.
Proof.
  intros l G H K x Hx. apply H. rewrite forallb_forall in K. specialize (K x Hx). apply existsb_exists in K as (y & Hy & E). now apply String.eqb_eq in E as <-.
Qed.
Ltac known := let x := fresh in let Hx := fresh in intros x Hx; cbn [In] in Hx;
  repeat match type of Hx with _ \/ _ => destruct Hx as [<-|Hx] end; try (destruct Hx; fail);
  first [ assumption | match goal with H : incl predeclared _ |- _ => apply H; solve [cbn [predeclared In]; auto 50] end
        | match goal with H : incl ?l _ |- _ => apply H; solve [cbn [In app]; auto 10] end ].
Ltac assembled suffix_ specs_ ns_ ls_ := eapply (assemble _ _ _ _ suffix_ specs_ ns_ ls_);
  [ unfold stock; cbn [In]; auto 30 | unfold stock_imports; cbn [In]; auto 30 | vm_compute; reflexivity | vm_compute; reflexivity | assumption | assumption | ].

Lemma not_eqb : forall a b : string, String.eqb a b = false -> forall (A : Type) (x y : A), (if String.eqb a b then x else y) = y.
Proof. intros a b H A x y. now rewrite H. Qed.
Lemma top_twirp_error : forall lower t dec G, incl (top_names lower text_twirp_error t dec) G -> incl [inject] G.
Proof.
  intros lower t dec G H x [<-|[]]. apply H. unfold top_names. rewrite !not_eqb by (vm_compute; reflexivity). rewrite String.eqb_refl. cbn [In]. auto.
Qed.
Lemma top_prometheus : forall lower t dec G, incl ["time"; "prometheus"; "promauto"] G -> incl predeclared G -> incl (top_names lower text_prometheus t dec) G ->
  incl ["nil"; "time"; (go_lower lower (td_name t) ++ "DurationSummaryVec")%string] G.
Proof.
  intros lower t dec G H1 H2 H x Hx. cbn [In] in Hx. destruct Hx as [<-|[<-|[<-|[]]]].
  - apply H2. cbn [predeclared In]. auto 50.
  - apply H1. now left.
  - apply H. unfold top_names. rewrite !not_eqb by (vm_compute; reflexivity). rewrite String.eqb_refl. cbn [In]. auto.
Qed.
Lemma elasticapm_file : forall lower upper t (Hf : forall m, In m (map snd (td_methods t)) -> ctx_first m) (dec := decorator t "APMTracing") (opt := decorator t "APMTracingOption") comp snake shown_,
  var_value "DecoratorName" (td_vars t) <> Some (VStr "_") ->
  (text_elasticapm = text_elasticapm -> opt = (dec ++ "Option")%string) ->
  Forall well_named (map snd (td_methods t)) -> Forall (apart text_elasticapm) (map snd (td_methods t)) ->
  C77_ok lower upper t text_elasticapm ([GFunc (apm_with_label dec opt); GFunc (apm_with_type dec opt); GFunc (apm_new dec comp (td_type t))] ++
    each m_acceptsContext t (fun m => GMethod [] dec m (elasticapm_body snake shown_ m))).
Proof.
  intros lower upper t Hf dec opt comp snake shown_ HV HE W A. specialize (HE eq_refl).
  assert (D : dec <> "_") by (apply dec_named; [exact HV | cbn; lia]).
  assert (D2 : opt <> "_") by (apply dec_named; [exact HV | cbn; lia]). clear HV.
  destruct (C68_elasticapm_names lower upper t Hf) as (toks & S1 & E1).
  destruct (C74_elasticapm_imports lower upper t Hf) as (toks2 & S2 & E2). rewrite S1 in S2. injection S2 as <-.
  change (or_var "DecoratorName" (td_vars t) (td_name t ++ "APMTracingOption")%string) with opt in E1. fold dec in E1.
  exists toks. split; [exact S1|]. clear S1 Hf.
  assert (I1 : incl ["context"; "apm"] (file_scope toks ++ not_imported text_elasticapm)).
  { intros x Hx. apply in_or_app. left. unfold file_scope. apply in_or_app. left. rewrite E2. exact Hx. }
  assert (I2 : incl predeclared (file_scope toks ++ not_imported text_elasticapm)).
  { intros x Hx. apply in_or_app. left. unfold file_scope. apply in_or_app. right. apply in_or_app. now right. }
  assert (I3 : incl [dec; opt] (file_scope toks ++ not_imported text_elasticapm)).
  { intros x Hx. apply in_or_app. left. unfold file_scope. apply in_or_app. right. apply in_or_app. left. rewrite E1. revert Hx. cbn [In]. tauto. }
  assert (L : locals text_elasticapm = ["span"]) by (vm_compute; reflexivity).
  revert I1 I2 I3. generalize (file_scope toks ++ not_imported text_elasticapm). intros G I1 I2 I3. clear E1 E2.
  assert (I4 : In dec G) by (apply I3; now left). assert (I5 : In opt G) by (apply I3; right; now left). clear I3.
  assert (I6 : In (dec ++ "Option")%string G) by (rewrite <- HE; exact I5). assert (D3 : (dec ++ "Option")%string <> "_") by (rewrite <- HE; exact D2).
  apply Forall_app. split.
  - clear W A. clearbody dec opt. apply Forall_cons; [apply apm_with_label_scoped; [known | assumption | assumption]|].
    apply Forall_cons; [apply apm_with_type_scoped; [known | assumption | assumption]|].
    apply Forall_cons; [apply apm_new_scoped; [known | assumption | assumption]|]. apply Forall_nil.
  - apply each_ok. intros m Hm M. rewrite Forall_forall in W, A. apply elasticapm_scoped; [known | now apply W | | exact M].
    specialize (A m Hm). unfold apart in A. rewrite L in A. exact A.
Qed.

Theorem C77_scoped_partial : forall lower upper t text cs, codes lower t text cs ->
  var_value "DecoratorName" (td_vars t) <> Some (VStr "_") ->
  (text = text_elasticapm -> decorator t "APMTracingOption" = (decorator t "APMTracing" ++ "Option")%string) ->
  Forall well_named (map snd (td_methods t)) -> Forall (apart text) (map snd (td_methods t)) ->
  exists toks, source_tokens lower upper text t = Some toks /\ Forall (code_ok (td_type t) (file_scope toks ++ not_imported text)) cs.
Proof.
  intros lower upper t text cs HC HV HE W A. change (C77_ok lower upper t text cs).
  destruct HC as [| | | | | | | | | | | | Hf | | | | |].
  - change (?a :: each ?p ?b ?c) with ([a] ++ each p b c).
    assert (D : dec <> "_") by (apply dec_named; [exact HV | cbn; lia]). clear HE HV.
    assembled "WithRetry" [plainly "time"] ["time"] ["_ticker"; "_i"].
    intros G I1 I2 I3 I4. split.
    + apply Forall_cons; [|apply Forall_nil]. apply retry_new_scoped; [known | exact D].
    + intros m M1 M2 M3. apply retry_scoped; [known | exact M1 | exact M2 | exact M3].
  - change (?a :: each ?p ?b ?c) with ([a] ++ each p b c).
    assert (D : dec <> "_") by (apply dec_named; [exact HV | cbn; lia]). clear HE HV.
    assembled "WithTimeout" [plainly "context"; plainly "time"] ["context"; "time"] ["cancelFunc"].
    intros G I1 I2 I3 I4. split.
    + apply Forall_cons; [|apply Forall_nil]. apply timeout_new_scoped; [|exact D | by_length].
      intros x Hx. apply I4. unfold top_names. rewrite String.eqb_refl. revert Hx. cbn [In]. fold dec. tauto.
    + intros m M1 M2 M3. apply timeout_scoped; [known | exact M1 | exact M2 | exact M3].
  - change (?a :: each ?p ?b ?c) with ([a] ++ each p b c).
    assert (D : dec <> "_") by (apply dec_named; [exact HV | cbn; lia]). clear HE HV.
    assembled "WithValidation" (@nil importspec) (@nil string) ["_v"; "_ok"].
    intros G I1 I2 I3 I4. split.
    + apply Forall_cons; [|apply Forall_nil]. apply base_new_scoped; [known | exact D].
    + intros m M1 M2 M3. apply validate_scoped; [known | exact M1 | exact M2].
  - change (?a :: each ?p ?b ?c) with ([a] ++ each p b c).
    assert (D : dec <> "_") by (apply dec_named; [exact HV | cbn; lia]). clear HE HV.
    assembled "WithTwirpValidation" [plainly "github.com/twitchtv/twirp"] ["twirp"] ["_v"; "_ok"].
    intros G I1 I2 I3 I4. split.
    + apply Forall_cons; [|apply Forall_nil]. apply base_new_scoped; [known | exact D].
    + intros m M1 M2 M3. apply twirp_validate_scoped; [known | exact M1 | exact M2].
  - change (?a :: each ?p ?b ?c) with ([a] ++ each p b c).
    assert (D : dec <> "_") by (apply dec_named; [exact HV | cbn; lia]). clear HE HV.
    assembled "WithGRPCValidation" [as_name "grpc_codes" "google.golang.org/grpc/codes"; as_name "grpc_status" "google.golang.org/grpc/status"] ["grpc_codes"; "grpc_status"] ["_v"; "_ok"].
    intros G I1 I2 I3 I4. split.
    + apply Forall_cons; [|apply Forall_nil]. apply base_new_scoped; [known | exact D].
    + intros m M1 M2 M3. apply grpc_validate_scoped; [known | exact M1 | exact M2].
  - change (?a :: ?b :: each ?p ?x ?y) with ([a; b] ++ each p x y).
    assert (D : dec <> "_") by (apply dec_named; [exact HV | cbn; lia]). clear HE HV.
    assembled "WithTwirpError" [plainly "github.com/twitchtv/twirp"] ["twirp"; "json"] (@nil string).
    intros G I1 I2 I3 I4. split.
    + apply Forall_cons; [|apply Forall_cons; [apply base_new_scoped; [known | exact D] | apply Forall_nil]]. apply inject_scoped. known.
    + intros m M1 M2 M3. apply twirp_error_scoped; [apply (top_twirp_error lower t dec G I4) | exact M1 | exact M2].
  - change (?a :: each ?p ?b ?c) with ([a] ++ each p b c).
    assert (D : dec <> "_") by (apply dec_named; [exact HV | cbn; lia]). clear HE HV.
    assembled "WithLog" [plainly "io"; plainly "log"] ["io"; "log"] ["_params"; "_results"].
    intros G I1 I2 I3 I4. split.
    + apply Forall_cons; [|apply Forall_nil]. apply log_new_scoped; [known | exact D].
    + intros m M1 M2 M3. apply log_scoped; [known | exact M1 | exact M2].
  - change (?a :: each ?p ?b ?c) with ([a] ++ each p b c).
    assert (D : dec <> "_") by (apply dec_named; [exact HV | cbn; lia]). clear HE HV.
    assembled "WithLogrus" [plainly "io"; plainly "github.com/sirupsen/logrus"] ["io"; "logrus"] (@nil string).
    intros G I1 I2 I3 I4. split.
    + apply Forall_cons; [|apply Forall_nil]. apply logrus_new_scoped; [known | exact D].
    + intros m M1 M2 M3. apply logrus_scoped; [known | exact M1 | exact M2].
  - change (?a :: each ?p ?b ?c) with ([a] ++ each p b c).
    assert (D : dec <> "_") by (apply dec_named; [exact HV | cbn; lia]). clear HE HV.
    assembled "WithPrometheus" [plainly "time"; plainly "github.com/prometheus/client_golang/prometheus"; plainly "github.com/prometheus/client_golang/prometheus/promauto"] ["time"; "prometheus"; "promauto"] ["_since"; "result"].
    intros G I1 I2 I3 I4. split.
    + apply Forall_cons; [|apply Forall_nil]. apply prometheus_new_scoped; [known | exact D].
    + intros m M1 M2 M3. apply prometheus_scoped; [apply (top_prometheus lower t dec G I1 I2 I4) | exact M1 | exact M2].
  - change (?a :: each ?p ?b ?c) with ([a] ++ each p b c).
    assert (D : dec <> "_") by (apply dec_named; [exact HV | cbn; lia]). clear HE HV.
    assembled "WithTracing" [plainly "go.opencensus.io/trace"] ["trace"] ["_span"].
    intros G I1 I2 I3 I4. split.
    + apply Forall_cons; [|apply Forall_nil]. apply tracing_new_scoped; [cbn [In]; auto | known | exact D].
    + intros m M1 M2 M3. apply opencensus_scoped; [known | exact M1 | exact M2 | exact M3].
  - change (?a :: each ?p ?b ?c) with ([a] ++ each p b c).
    assert (D : dec <> "_") by (apply dec_named; [exact HV | cbn; lia]). clear HE HV.
    assembled "WithTracing" [plainly "context"; as_name "_codes" "go.opentelemetry.io/otel/codes"; plainly "go.opentelemetry.io/otel"; plainly "go.opentelemetry.io/otel/attribute"; plainly "go.opentelemetry.io/otel/trace"] ["context"; "_codes"; "otel"; "attribute"; "trace"] ["_span"].
    intros G I1 I2 I3 I4. split.
    + apply Forall_cons; [|apply Forall_nil]. apply tracing_new_scoped; [cbn [In]; auto | known | exact D].
    + intros m M1 M2 M3. apply opentelemetry_scoped; [known | exact M1 | exact M2 | exact M3].
  - change (?a :: each ?p ?b ?c) with ([a] ++ each p b c).
    assert (D : dec <> "_") by (apply dec_named; [exact HV | cbn; lia]). clear HE HV.
    assembled "WithTracing" [as_name "opentracing" "github.com/opentracing/opentracing-go"; as_name "_ext" "github.com/opentracing/opentracing-go/ext"; as_name "_log" "github.com/opentracing/opentracing-go/log"] ["opentracing"; "_ext"; "_log"] ["_span"].
    intros G I1 I2 I3 I4. split.
    + apply Forall_cons; [|apply Forall_nil]. apply tracing_new_scoped; [cbn [In]; auto | known | exact D].
    + intros m M1 M2 M3. apply opentracing_scoped; [known | exact M1 | exact M2 | exact M3].
  - change (?a :: ?b :: ?c :: each ?p ?x ?y) with ([a; b; c] ++ each p x y). now apply elasticapm_file.
  - change (?a :: each ?p ?b ?c) with ([a] ++ each p b c).
    assert (D : dec <> "_") by (apply dec_named; [exact HV | cbn; lia]). clear HE HV.
    assembled "Pool" (@nil importspec) (@nil string) ["_impl"].
    intros G I1 I2 I3 I4. split.
    + apply Forall_cons; [|apply Forall_nil]. apply syncpool_new_scoped; [known | exact D].
    + intros m M1 M2 M3. apply syncpool_scoped; [known | exact M1 | exact M2].
  - change (?a :: ?b :: each ?p ?x ?y) with ([a; b] ++ each p x y).
    assert (D : dec <> "_") by (apply dec_named; [exact HV | cbn; lia]). clear HE HV.
    assembled "RoundRobinPool" [plainly "sync/atomic"; plainly "errors"] ["atomic"; "errors"] ["_counter"].
    intros G I1 I2 I3 I4. split.
    + apply Forall_cons; [|apply Forall_cons; [apply robinpool_must_new_scoped; [known | exact D] | apply Forall_nil]]. apply robinpool_new_scoped; [known | exact D].
    + intros m M1 M2 M3. apply robinpool_scoped; [known | exact M1 | exact M2].
  - change (?a :: each ?p ?b ?c) with ([a] ++ each p b c).
    assert (D : dec <> "_") by (apply dec_named; [exact HV | cbn; lia]). clear HE HV.
    assembled "WithRateLimit" [plainly "time"] ["time"] (@nil string).
    intros G I1 I2 I3 I4. split.
    + apply Forall_cons; [|apply Forall_nil]. apply ratelimit_new_scoped; [known | exact D].
    + intros m M1 M2 M3. apply ratelimit_scoped; [known | exact M1 | exact M2].
  - change (?a :: each ?p ?b ?c) with ([a] ++ each p b c).
    assert (D : dec <> "_") by (apply dec_named; [exact HV | cbn; lia]). clear HE HV.
    assembled "WithCircuitBreaker" [plainly "errors"; plainly "sync"; plainly "time"] ["errors"; "sync"; "time"] ["_e"; "closesAt"].
    intros G I1 I2 I3 I4. split.
    + apply Forall_cons; [|apply Forall_nil]. apply circuitbreaker_new_scoped; [known | exact D].
    + intros m M1 M2 M3. apply circuitbreaker_scoped; [known | exact M1 | exact M2 | exact M3].
  - change (?a :: each ?p ?b ?c) with ([a] ++ each p b c).
    assert (D : dec <> "_") by (apply dec_named; [exact HV | cbn; lia]). clear HE HV.
    assembled "WithFallback" [plainly "errors"; plainly "fmt"; plainly "strings"; plainly "time"] ["errors"; "fmt"; "strings"; "time"; "context"] ["_resultStruct"; "_ch"; "_next"; "_errorsList"; "_ticker"; "_cancelFunc"; "_i"; "_impl"; "_res"].
    intros G I1 I2 I3 I4. split.
    + apply Forall_cons; [|apply Forall_nil]. apply fallback_new_scoped; [known | exact D].
    + intros m M1 M2 M3. apply fallback_scoped; [known | exact M1 | exact M2].
Qed.

(** ** Methods of NewMethod *)
Theorem C77_well_named : forall O pr gts gps name fi m, NewMethod O pr gts gps name fi = Ok m -> well_named m.
Proof.
  intros O pr gts gps name fi m H. pose proof (C01_names_distinct _ _ _ _ _ _ _ H) as N. rewrite map_app in N.
  assert (F : exists ps rs, f_type fi = FuncT ps rs).
  { unfold NewMethod in H. destruct (f_type fi); try discriminate H. eauto. }
  destruct F as (ps & rs & F). split; [exact N|]. split; intros E.
  - destruct (proj2 (C04_ctx _ _ _ _ _ _ _ _ _ H F) E) as (p & l & -> & <- & _). now left.
  - destruct (proj1 (proj2 (C04_err _ _ _ _ _ _ _ _ _ H F)) E) as (l & p & -> & <- & _). rewrite map_app. apply in_or_app. right. now left.
Qed.

(** ** Refutations *)
Ltac split_all := repeat match goal with H : _ /\ _ |- _ => destruct H end.
Ltac not_there := match goal with H : visible _ _ |- _ => destruct H as (_ & ?b & ?Hb & ?Hx); cbn [In] in Hb;
  repeat match type of Hb with _ \/ _ => destruct Hb as [<-|Hb] | False => destruct Hb end; cbn [In app] in Hx;
  repeat match type of Hx with _ \/ _ => destruct Hx as [Hx|Hx] | False => destruct Hx end; discriminate Hx end.

(** templates/twirp_error uses encoding/json without importing it *)
Theorem C77_imports_refuted : ~ C77_statement.
Proof.
  intros H. destruct (scope_of text_twirp_error "WithTwirpError" [plainly "github.com/twitchtv/twirp"] (fun x => x) (fun x => x) ex_t) as (toks & S & E);
    [unfold stock; cbn [In]; auto 30 | unfold stock_imports; cbn [In]; auto 30|].
  specialize (H (fun x => x) (fun x => x) ex_t _ _ toks (c_twirp_error _ ex_t) S). clear S.
  assert (E2 : file_scope toks = ["twirp"; "DoerWithTwirpError"; "NewDoerWithTwirpError"; "injectRequestDataToError"] ++ predeclared) by (rewrite E; vm_compute; reflexivity). clear E.
  rewrite E2 in H. clear E2. assert (W : Forall well_named (map snd (td_methods ex_t))).
  { repeat constructor; cbn; intuition discriminate. }
  specialize (H W). apply Forall_cons_iff in H as [H _]. destruct H as (_ & _ & H). clear W.
  cbn -[visible predeclared used fresh filter] in H. unfold predeclared in H. split_all.
  match goal with H : visible ?l "json" |- _ => clear - H end. not_there.
Qed.

(** [Do(ctx context.Context, cancelFunc int)]: the body of the timeout decorator
    declares [cancelFunc] in the block of its parameters *)
Definition clash_m : method :=
  Method [] [] "Do" [Param [] [] "ctx" "context.Context" false; Param [] [] "cancelFunc" "int" false] [] false true.
Definition clash_t : tdata := TData "Doer" "pkg.Doer" "" "" [("Do", clash_m)] [] [].
Theorem C77_locals_refuted : ~ C77_statement.
Proof.
  intros H. destruct (scope_of text_timeout "WithTimeout" [plainly "context"; plainly "time"] (fun x => x) (fun x => x) clash_t) as (toks & S & E);
    [unfold stock; cbn [In]; auto 30 | unfold stock_imports; cbn [In]; auto 30|]. clear E.
  specialize (H (fun x => x) (fun x => x) clash_t _ _ toks (c_timeout _ clash_t) S). clear S.
  assert (W : Forall well_named (map snd (td_methods clash_t))).
  { apply Forall_cons; [|apply Forall_nil]. split; [cbn; nodup_ | cbn; split; intros K; [auto | discriminate K]]. }
  specialize (H W). apply Forall_cons_iff in H as [_ H]. clear W.
  assert (H2 : code_ok (td_type clash_t) (file_scope toks) (GMethod [] "DoerWithTimeout" clash_m (timeout_body "Doer" clash_m))).
  { rewrite Forall_forall in H. apply H. now left. }
  clear H. destruct H2 as (_ & _ & H2). revert H2. generalize (file_scope toks). intros G H2.
  cbn -[visible used] in H2. split_all.
  match goal with H : fresh _ "cancelFunc" |- _ => destruct H as [_ H]; apply H; cbn; auto end.
Qed.

(** a decorator of elasticapm with a name of its own: its constructor takes
    options of a type that is not declared *)
Definition named_t : tdata := TData "Doer" "pkg.Doer" "" "" [] [] [("DecoratorName", VStr "D")].
Theorem C77_options_refuted : ~ C77_statement.
Proof.
  intros H. assert (Hf : forall m, In m (map snd (td_methods named_t)) -> ctx_first m) by (intros m []).
  destruct (C68_elasticapm_names (fun x => x) (fun x => x) named_t Hf) as (toks & S1 & E1).
  destruct (C74_elasticapm_imports (fun x => x) (fun x => x) named_t Hf) as (toks2 & S2 & E2). rewrite S1 in S2. injection S2 as <-.
  specialize (H (fun x => x) (fun x => x) named_t _ _ toks (c_elasticapm _ named_t Hf) S1). clear S1 Hf.
  assert (E : file_scope toks = ["context"; "apm"; "D"; "D"; "DWithUsingSetLabel"; "DWithSpanType"; "NewD"] ++ predeclared).
  { unfold file_scope. rewrite E1, E2. vm_compute. reflexivity. }
  rewrite E in H. clear E E1 E2. specialize (H (Forall_nil _)).
  apply Forall_cons_iff in H as [_ H]. apply Forall_cons_iff in H as [_ H]. apply Forall_cons_iff in H as [H _].
  destruct H as [H _]. rewrite Forall_forall in H. specialize (H "DOption").
  assert (K : visible [["context"; "apm"; "D"; "D"; "DWithUsingSetLabel"; "DWithSpanType"; "NewD"] ++ predeclared] "DOption") by (apply H; vm_compute; auto).
  clear H. unfold predeclared in K. not_there.
Qed.

(** ** Examples *)

(** [Do(ctx context.Context, x int) (n int, err error)] *)
Definition full_m : method :=
  Method [] [] "Do" [Param [] [] "ctx" "context.Context" false; Param [] [] "x" "int" false]
    [Param [] [] "n" "int" false; Param [] [] "err" "error" false] true true.
Definition full_t : tdata := TData "Doer" "pkg.Doer" "" "" [("Do", full_m)] [] [].
Lemma full_named : Forall well_named (map snd (td_methods full_t)).
Proof. apply Forall_cons; [|apply Forall_nil]. split; [cbn; nodup_ | cbn; auto]. Qed.
Example C77_nontrivial_fallback : exists toks, source_tokens (fun x => x) (fun x => x) text_fallback full_t = Some toks /\
  code_ok (td_type full_t) (file_scope toks ++ ["context"]) (GFallback "DoerWithFallback" full_m (fallback_body "pkg.Doer" full_m)).
Proof.
  destruct (C77_scoped_partial (fun x => x) (fun x => x) full_t _ _ (c_fallback _ full_t)) as (toks & H & K).
  - discriminate.
  - intros E. exfalso. revert E. assert (String.eqb text_fallback text_elasticapm = false) as F by (vm_compute; reflexivity).
    intros E. rewrite E, String.eqb_refl in F. discriminate F.
  - exact full_named.
  - apply Forall_cons; [|apply Forall_nil]. unfold apart.
    assert (locals text_fallback = ["_resultStruct"; "_ch"; "_next"; "_errorsList"; "_ticker"; "_cancelFunc"; "_i"; "_impl"; "_res"]) as -> by (vm_compute; reflexivity).
    cbn [In names full_m map m_params m_results p_name app snd]. intros x Hx Hl.
    repeat destruct Hx as [<-|Hx]; try (destruct Hx); repeat destruct Hl as [Hl|Hl]; try discriminate Hl; destruct Hl.
  - exists toks. split; [exact H|]. rewrite Forall_forall in K. apply K. right. now left.
Qed.
(** the rules are not vacuous: each of them fails for a function that breaks it *)
Definition breaks (body : list item) : Prop := ~ function_ok ["nil"] ["p"] ["r"] body.
Ltac broken := let H := fresh in intros (_ & _ & H); cbn -[visible] in H; split_all;
  first [ contradiction | not_there
        | match goal with H : fresh _ _ |- _ => destruct H as [_ H]; cbn in H; tauto end
        | match goal with H : used _ [] |- _ => destruct H as (? & [] & _) end
        | match goal with H : exists x, _ /\ fresh _ x |- _ => destruct H as (?x & ?Hx & _ & ?Hf); cbn in *; intuition (subst; tauto) end ].
Example C77_rules_undeclared : breaks [IUse "q"]. Proof. broken. Qed.
Example C77_rules_twice : breaks [IVar "p"; IUse "p"]. Proof. broken. Qed.
Example C77_rules_no_new : breaks [IDefine ["p"]]. Proof. broken. Qed.
Example C77_rules_unused : breaks [IVar "v"; IAssign "v"]. Proof. intros (_ & _ & H). cbn -[visible] in H. split_all. match goal with H : used _ _ |- _ => destruct H as (i & [<-|[]] & K); destruct K end. Qed.
Example C77_rules_hidden : breaks [IBlock [IVar "r"; IUse "r"; IReturn ["r"]]].
Proof. intros (_ & _ & H). destruct H as [H _]. apply block_ok in H. cbn -[visible used] in H. split_all. match goal with H : forall r b, _ |- _ => refine (H "r" ["r"] _ _ _); cbn; auto end. Qed.
Example C77_rules_met : function_ok ["nil"] ["p"] ["r"] [IVar "v"; IBlock [IDefine ["p"; "r"]; IUse "p"; IUse "r"; IUse "v"]; IReturn ["r"]].
Proof.
  split; [|split]; [nodup_ | cbn; intuition discriminate|]. scope.
Qed.

Print Assumptions C77_code.
Print Assumptions C77_scoped_partial.
Print Assumptions C77_well_named.
Print Assumptions C77_imports_refuted.
Print Assumptions C77_locals_refuted.
Print Assumptions C77_options_refuted.
