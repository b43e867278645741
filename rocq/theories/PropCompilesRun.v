(** C80, for a run of gowrap gen: what a successful run hands to
    imports.Process compiles (PropCompiles.v), under conditions on the
    declarations of the interface's methods in the source. *)
From Coq Require Import Permutation.
From Verif Require Import Cmd Render PropLoader PropCmd PropResolve PropGenerator PropFlags.
From Verif Require Import ResolveSpec ResolveProofs GeneratorProofs NewGenProofs PropSource PropErrors RenderProofs Generated4 PropImplements PropEndToEnd.
From Verif Require Import PropTyping Typing TypesSpec TypesProofs ScopedFiles PropNaming PropScoping PropClashes PropCompiles.
From Verif Require Import ResolveSpec.
Open Scope nat_scope.

Section RUN.
Variables (lower upper : N -> N).                  (* unicode.ToLower, unicode.ToUpper *)
Variables (W : io) (PW : world) (Or : oracle) (E : env) (X : Cmd.exec) (fuel : nat).

(** ** Statement *)

(** a method is declared so that a template's names do not matter to it *)
Definition declaration_ok (text I : string) (p : package) (k : string) (fd : Ast.field) : Prop :=
  unexported k = false /\ k <> I /\ undeclared p "error" /\
  exists ps rs, f_type fd = FuncT ps rs /\ variadic_last ps rs /\
    (forall f l x, ps = f :: l -> f_type f = Selector x "Context" -> x = Ident "context") /\
    (forall n f, In (n, f) (declared ps ++ declared_opt rs) ->
       ~ In n (reserved_names text) /\ (text = text_prometheus -> n <> (go_lower lower I ++ "DurationSummaryVec")%string)).

Definition vars_of (l : list form) : list (string * varval) :=
  toMap (map (fun a => match cut "=" a with None => (a, VTrue) | Some (n, x) => (n, VStr x) end) (said "v" l)).

(** ** Lemmas *)
Lemma codes_exist : forall t text, In text texts -> (text = text_elasticapm -> forall m, In m (map snd (td_methods t)) -> ctx_first m) ->
  exists cs, codes lower t text cs.
Proof.
  intros t text Ht Hc. unfold texts, rules in Ht. cbn [map fst] in Ht.
  repeat destruct Ht as [<-|Ht]; try (destruct Ht; fail); eexists.
  - apply c_retry. - apply c_timeout. - apply c_validate. - apply c_twirp_validate. - apply c_grpc_validate. - apply c_twirp_error.
  - apply c_log. - apply c_logrus. - apply c_prometheus. - apply c_opencensus. - apply c_opentelemetry. - apply c_opentracing.
  - apply c_elasticapm. now apply Hc.
  - apply c_syncpool. - apply c_robinpool. - apply c_ratelimit. - apply c_circuitbreaker. - apply c_fallback.
Qed.
Lemma error_printed : forall types a, ~ In "error" (map ts_name types) -> PrintType Or types a (Ident "error") = Ok "error".
Proof.
  intros types a H. rewrite PrinterProofs.PrintType_pt. cbn [PrinterProofs.pt]. unfold PrinterProofs.ident_res.
  destruct (existsb _ types) eqn:Ex; [|reflexivity]. exfalso. apply existsb_exists in Ex as (ts & Hi & Hn). apply String.eqb_eq in Hn. apply H. rewrite Hn. now apply in_map.
Qed.
Lemma context_printed : forall types a, PrintType Or types a (Selector (Ident "context") "Context") = Ok "context.Context".
Proof. intros. reflexivity. Qed.

Lemma id_bytes : forall s, TypesSpec.is_ident s = true -> all_chars id_byte s = true.
Proof.
  intros s H. assert (K : all_chars (fun c => TypesSpec.is_letter c || TypesSpec.is_digit c) s = true).
  { destruct s as [|c s]; [reflexivity|]. cbn in H |- *. apply andb_prop in H as [H1 H2]. now rewrite H1, H2. }
  revert K. apply all_chars_impl. intros c. destruct c as [[] [] [] [] [] [] [] []]; vm_compute; congruence.
Qed.
Lemma ids_plain : forall s dot cur, all_chars id_byte s = true -> ids_from dot cur s = if dot || String.eqb (cur ++ s) "" then [] else [(cur ++ s)%string].
Proof.
  induction s as [|c s IH]; intros dot cur H; cbn [ids_from]; [now rewrite sapp_nil_r|]. cbn in H. apply andb_prop in H as [H1 H2]. rewrite H1, (IH _ _ H2), sapp_assoc. reflexivity.
Qed.
Lemma ids_qualified : forall p s cur, all_chars id_byte p = true -> all_chars id_byte s = true -> ids_from false cur (p ++ "." ++ s) = if String.eqb (cur ++ p) "" then [] else [(cur ++ p)%string].
Proof.
  induction p as [|c p IH]; intros s cur Hp Hs.
  - cbn [append ids_from]. change (id_byte ".") with false. cbv iota. change (byte_eqb "." ".") with true. rewrite (ids_plain _ _ _ Hs), sapp_nil_r. cbn [orb]. apply app_nil_r.
  - cbn in Hp. apply andb_prop in Hp as [H1 H2]. cbn [append ids_from]. rewrite H1. rewrite (IH s _ H2 Hs), sapp_assoc. reflexivity.
Qed.
Lemma before_names : forall text x, In text texts -> In x (r_before (rule_of text)) -> unexported x = true /\ String.prefix "_source" x = false.
Proof.
  assert (A : forallb (fun text => forallb (fun x => unexported x && negb (String.prefix "_source" x)) (r_before (rule_of text))) texts = true) by (vm_compute; reflexivity).
  intros text x Ht Hx. rewrite forallb_forall in A. specialize (A text Ht). rewrite forallb_forall in A. specialize (A x Hx). apply andb_prop in A as [A1 A2].
  split; [exact A1 | now apply Bool.negb_true_iff].
Qed.
Lemma prefix_source : forall s, String.prefix "_source" ("_source" ++ s) = true.
Proof. intros s. cbn. now destruct s. Qed.

(** ** Proof *)

(** A run of gen with a stock template that reports success has written what
    imports.Process made of the header and a text [text_of c] that compiles. *)
Theorem C80_run : forall l t t' text p, let suffix := r_suffix (rule_of text) in let I := value "i" l in
  template_package lower upper E X -> well_formed PW -> not_generic PW -> Forall form_ok l -> In text texts ->
  (forall s u t1, localLoad W (value "t" l) t = ((s, u, None), t1) -> s = text) ->
  var_value "DecoratorName" (vars_of l) = None ->
  w_load PW (source_flag l) = Ok p ->
  TypesSpec.is_ident I = true -> unexported I = false -> TypesSpec.is_ident ("_source" ++ e_title E (pk_name p)) = true ->
  (forall a k p' a' fd, decl_of PW p a I k p' a' fd -> declaration_ok text I p' k fd) ->
  (forall a k m typ, made_of Or PW p a I k m -> names_interface I typ -> fits text typ m) ->
  RunGen W PW Or E X fuel (args_of l) t = (Done, t') ->
  exists g h t1 file hdr ns c cs,
    t' = t1 ++ [EMkdir (Dir (value "o" l)); EWrite (value "o" l) file] /\
    x_process X (value "l" l) (value "o" l) (hdr ++ text_of c)%string = inl file /\
    run_template lower upper text_header (header_inputs g h) = Some (Ok hdr) /\
    (forall k, In k (map fst (g_methods g)) <-> in_set PW p I k) /\
    (let d := data_from g (vars_of l) in
     parse text = Some ns /\ execute lower upper ns (data_of d) = TOk c /\ codes lower d text cs /\ compiles lower upper d text suffix cs).
Proof.
  intros l t t' text p suffix I HT WF NG Hl Ht Hload HV Hsp HI1 HI2 HI3 HD HF H.
  destruct (PropFlags.run_forms l Hl) as (f & Hp & Hsays). pose proof Hsays as (_ & Hi & Hpk & Ho & Htt & Hlp & Hv). cbn in Hi, Hpk, Ho, Htt, Hlp, Hv.
  fold (value "i" l) in Hi. fold (value "p" l) in Hpk. fold (value "o" l) in Ho. fold (value "t" l) in Htt. fold (value "l" l) in Hlp.
  unfold RunGen in H. rewrite Hp in H. destruct (checkFlags f); [discriminate|].
  unfold bind at 1 in H. unfold getOptions in H.
  destruct (Abs W (Dir (f_o f))) as [dir|e]; [|discriminate].
  rewrite Hpk in H. fold (source_flag l) in H. rewrite Hsp in H.
  unfold bind at 1 in H. unfold loadTemplate in H. unfold bind at 1 in H. rewrite Htt in H.
  destruct (localLoad W (value "t" l) t) as [[[s u] [e|]] t1] eqn:El; [discriminate|].
  pose proof (Hload s u t1 eq_refl) as ->. clear Hload.
  set (lu := if has_prefix "https://" u then inl (text, u) else _) in H.
  destruct lu as [[b u']|e] eqn:Elu; [|discriminate]. cbn [ret] in H. unfold ret at 1 in H.
  assert (b = text) as ->.
  { subst lu. destruct (has_prefix "https://" u); [congruence|]. destruct (Abs W u) as [q|]; [|discriminate].
    destruct (Rel dir q); congruence. }
  clear lu Elu.
  set (o := GenOptions _ _ _) in H. unfold ret at 1 in H.
  destruct (NewGenerator Or E PW fuel (go_options o)) as [[g|e|m]|] eqn:Eg; try discriminate.
  destruct (Generate X g o) as [out|e|m] eqn:Egen; try discriminate.
  destruct (new_options _ _ _ _ _ _ Eg) as (imps & Eopt).
  assert (Hbody : op_body (g_options g) = text) by (rewrite Eopt; reflexivity).
  pose proof (NewGenerator_inv _ _ _ _ _ _ Eg) as (ou & _ & _ & Hsrc & _ & _ & Hft & Hms & Hne & _ & _ & _ & HTy).
  assert (g_src g = p) as Hgp by (destruct Hsrc as [Hsrc|(Hsrc & _)]; cbn in Hsrc; congruence).
  rewrite Hgp in Hft, HTy. cbn [op_interface go_options o] in Hft, HTy. rewrite Hi in Hft, HTy. fold I in Hft, HTy.
  assert (K : known PW p) by (right; eauto).
  set (d := data_from g (vars_of l)).
  assert (Nd : td_name d = I) by (subst d; cbn [td_name data_from]; rewrite Eopt; cbn [op_interface with_imports go_options o]; exact Hi).
  assert (NI : names_interface I (td_type d)).
  { split; [exact HI1|]. split; [exact HI2|]. subst d. cbn [td_type data_from]. rewrite HTy. destruct (String.eqb (pk_path p) (g_dst_path g)) eqn:Ep; [now left|]. right.
    unfold ast_name. rewrite Ep. cbn [op_alias go_options o]. eexists. split; [|reflexivity]. exact HI3. }
  assert (HM : forall m, In m (map snd (td_methods d)) -> exists k a, m_name m = k /\ made_of Or PW p a I k m).
  { intros m Hm. subst d. cbn [td_methods data_from] in Hm. apply in_map_iff in Hm as ([k m'] & <- & Hkm). exists k, (ast_name E (go_options o) p (g_dst_path g)). cbn [snd]. split.
    - pose proof (proj1 (results_named Or PW fuel) _ _ _ _ _ _ Hft) as HN. rewrite Hms in HN. cbn in HN.
      unfold NewGenProofs.named in HN. rewrite Forall_forall in HN. symmetry. exact (HN _ Hkm).
    - eapply C63_sourced; eauto. }
  assert (HP : forall m, In m (map snd (td_methods d)) -> unexported (m_name m) = false /\ m_name m <> I /\ declares_plainly lower d text m).
  { intros m Hm. destruct (HM m Hm) as (k & a & Ek & p' & a' & fd & types & gts & gps & Hdecl & HPm & HN & HG). destruct (HG NG) as (-> & ->).
    destruct (HD _ _ _ _ _ Hdecl) as (D1 & D2 & D3 & ps & rs & D4 & D5 & D6 & D7). rewrite Ek. split; [exact D1|]. split; [exact D2|].
    exists Or, (PrintType Or types a'), [], [], k, fd, ps, rs. split; [exact HN|]. split; [exact D4|]. split; [exact D5|]. split; [|split; [intros []|split; [|split; [intros []|]]]].
    - apply error_printed. intros Hx. apply D3. apply in_map_iff in Hx as (ts & Hts & Hit). apply in_map_iff. exists ts. split; [exact Hts|]. eapply Permutation_in; eassumption.
    - intros f0 l0 x E1 E2. rewrite E2. rewrite (D6 _ _ _ E1 E2). apply context_printed.
    - unfold vec. rewrite Nd. exact D7. }
  assert (HC : exists cs, codes lower d text cs).
  { apply codes_exist; [exact Ht|]. intros _ m Hm. exact (proj1 (proj2 (proj2 (proj2 (plain_method _ _ _ _ Ht (proj2 (proj2 (HP m Hm)))))))). }
  destruct HC as (cs & HC).
  assert (CO : compiles lower upper d text suffix cs).
  { apply C80_compiles; [exact HC | |].
    - assert (N0 : td_name d <> "") by (rewrite Nd; intros E0; rewrite E0 in HI1; discriminate HI1).
      assert (V0 : var_value "DecoratorName" (td_vars d) = None) by exact HV.
      destruct (default_named lower d text Ht ltac:(rewrite Nd; exact HI2) N0 V0) as [DN1 DN2].
      split; [rewrite Nd; exact NI|]. split; [intros m Hm; rewrite Nd; destruct (HP m Hm) as (A & B & _); auto|]. split; [exact DN1|]. split; [exact DN2|]. split; [auto|].
      intros x Hx Hb. destruct (before_names _ _ Ht Hb) as [B1 B2]. subst d. cbn [td_type data_from] in Hx. rewrite HTy in Hx.
      destruct (String.eqb (pk_path p) (g_dst_path g)) eqn:Ep.
      + unfold type_ids in Hx. rewrite (ids_plain _ _ _ (id_bytes _ HI1)) in Hx. cbn [orb append] in Hx. destruct (String.eqb I ""); [destruct Hx|]. destruct Hx as [<-|[]]. congruence.
      + unfold ast_name in Hx. rewrite Ep in Hx. cbn [op_alias go_options o] in Hx. change (negb (String.eqb "" "")) with false in Hx. cbv iota in Hx.
        unfold type_ids in Hx. rewrite (ids_qualified _ _ _ (id_bytes _ HI3) (id_bytes _ HI1)) in Hx. rewrite (eq_refl : ("" ++ ("_source" ++ e_title E (pk_name p)) = "_source" ++ e_title E (pk_name p))%string) in Hx.
        destruct (String.eqb _ "") in Hx; [destruct Hx|]. destruct Hx as [<-|[]]. rewrite prefix_source in B2. discriminate B2.
    - intros m Hm. split; [now apply HP|]. destruct (HM m Hm) as (k & a & _ & Hmade). exact (HF a k m (td_type d) Hmade NI). }
  destruct CO as (toks & ST & CO). unfold source_tokens in ST. destruct (parse text) as [ns|] eqn:Epa; [|discriminate ST].
  destruct (execute lower upper ns (data_of d)) as [c|e|] eqn:Eex; try discriminate ST.
  assert (Hc : x_body X g (vars_of l) = Ok (text_of c)).
  { destruct HT as (_ & _ & HX). apply HX. unfold run_template. rewrite Hbody, Epa. change (body_inputs g (vars_of l)) with (data_of d). now rewrite Eex. }
  unfold Generate in Egen. assert (Hgv : go_vars o = vars_of l) by (cbn [go_vars o]; unfold vars_of; now rewrite <- Hv).
  rewrite Hgv, Hc in Egen. cbn [rbind] in Egen.
  destruct (x_process X _ _ _) as [file|e] eqn:Ex in Egen; [|discriminate]. injection Egen as <-.
  unfold bind, ask, emit, ret in H. cbn in H.
  destruct (io_mkdir W t1 (Dir (f_o f))) as [e|] eqn:Em; [discriminate|].
  destruct (io_write W (t1 ++ [EMkdir (Dir (f_o f))]) (f_o f) file) as [e|] eqn:Ew; [discriminate|].
  injection H as <-. rewrite Ho in *.
  exists g, (go_header o), t1, file, (header_text g (go_header o)), ns, c, cs.
  split; [now rewrite <- app_assoc|]. split. { rewrite Eopt in Ex. cbn [with_imports op_prefix op_output go_options o] in Ex. rewrite Hlp, Ho in Ex. exact Ex. }
  split; [apply header_rendered|].
  split. { intros k. pose proof (C12_method_set_partial _ _ _ _ _ _ _ _ _ WF K Hft k) as Hk. rewrite Hms in Hk. exact Hk. }
  split; [reflexivity|]. split; [exact Eex|]. split; [exact HC|]. exists toks. split; [|exact CO]. unfold source_tokens. rewrite Epa. fold d. now rewrite Eex.
Qed.
End RUN.

(** ** Example *)

(** [gowrap gen -p io -i ReadCloser --t=tpl -o ./out/rc.go] with templates/log,
    where ReadCloser embeds Reader and Closer of the same package *)
Definition Wio : world := world_of [("io", pio)].
Definition io_cmd : list form := [FSep "-" "p" "io"; FSep "-" "i" "ReadCloser"; FEq "--" "t" "tpl"; FSep "-" "o" "./out/rc.go"].
Lemma known_io : forall p, known Wio p -> p = pio.
Proof. intros p [(id & H)|(path & H)]; cbn in H; [destruct (String.eqb id "io") | destruct (String.eqb path "io")]; congruence. Qed.
Lemma no_import_io : forall f q p', In f (pk_files pio) -> import_of Wio pio f q p' -> False.
Proof. intros f q p' Hf (i & path & id & Hi & _). cbn in Hf. or_inv. contradiction. Qed.
Lemma well_formed_io : well_formed Wio.
Proof.
  constructor.
  - intros p K. rewrite (known_io p K). vm_compute. nodup.
  - intros p K. rewrite (known_io p K). vm_compute. nodup.
  - intros. apply Permutation_refl.
  - intros. apply Permutation_refl.
  - intros p f e x s K Hf (ts & Hts & He) Hb. rewrite (known_io p K) in *. cbn in Hf. or_inv; cbn in Hts; or_inv; try discriminate;
      destruct H as (l & fd & Eq & Hfd & Et); cbn in Eq; try discriminate; injection Eq as <-; cbn in Hfd; or_inv; discriminate.
  - intros p f e n K Hf (ts & Hts & He) Hb. left. rewrite (known_io p K) in *. cbn in Hf. or_inv; cbn in Hts; or_inv; try discriminate;
      try (destruct H as (l & fd & Eq & Hfd & Et); cbn in Eq; try discriminate; injection Eq as <-; cbn in Hfd; or_inv; try discriminate);
      injection Hb as <-; cbn; auto 10.
  - intros p f f' q p' _ _ K Hf Hf' HI. rewrite (known_io p K) in *. destruct (no_import_io _ _ _ Hf HI).
  - intros p f ts n K D Eq. rewrite (known_io p K) in *. decl_cases D; discriminate.
  - intros p f ts q s p' K D Eq HI. rewrite (known_io p K) in *. decl_cases D; discriminate.
  - intros p f ts m K D Eq. rewrite (known_io p K) in *. decl_cases D; now destruct Eq.
Qed.
Lemma decl_io : forall p a T k p' a' fd, decl_of Wio p a T k p' a' fd -> p = pio ->
  p' = pio /\ (k = "Read" /\ fd = meth "Read" [Ident "int"] [Ident "error"] \/ k = "Close" /\ fd = meth "Close" [] [Ident "error"]).
Proof.
  intros p a T k p' a' fd D. induction D as [p a f ts l fd k ns ps rs H1 H2 H3 H4 H5|p a f ts l e n k p' a' fd H1 H2 H3 H4 D IH|p a f ts l e q s p1 k p' a' fd H1 H2 H3 H4 H5 D IH
    |p a f ts n k p' a' fd H1 H2 D IH|p a f ts q s p1 k p' a' fd H1 H2 H3 D IH]; intros ->.
  - split; [reflexivity|]. decl_cases H1; cbn in H2; injection H2 as <-; cbn in H3; or_inv; try discriminate; cbn in H5; injection H5 as <- _; auto.
  - now apply IH.
  - destruct H1 as [Hf _]. destruct (no_import_io _ _ _ Hf H5).
  - now apply IH.
  - destruct H1 as [Hf _]. destruct (no_import_io _ _ _ Hf H3).
Qed.

Example C80_run_nontrivial : exists t', RunGen Wrun Wio Oex Erun Xrun 20 (args_of io_cmd) [] = (Done, t') /\ List.length t' = 3 /\
  well_formed Wio /\ not_generic Wio /\ template_package (fun n => n) (fun n => n) Erun Xrun /\ Forall form_ok io_cmd /\ In text_log texts /\
  (forall s u t1, localLoad Wrun (value "t" io_cmd) [] = ((s, u, None), t1) -> s = text_log) /\
  var_value "DecoratorName" (vars_of io_cmd) = None /\ w_load Wio (source_flag io_cmd) = Ok pio /\
  TypesSpec.is_ident (value "i" io_cmd) = true /\ unexported (value "i" io_cmd) = false /\ TypesSpec.is_ident ("_source" ++ e_title Erun (pk_name pio)) = true /\
  (forall a k p' a' fd, decl_of Wio pio a (value "i" io_cmd) k p' a' fd -> declaration_ok (fun n => n) text_log (value "i" io_cmd) p' k fd) /\
  (forall a k m typ, made_of Oex Wio pio a (value "i" io_cmd) k m -> names_interface (value "i" io_cmd) typ -> fits text_log typ m).
Proof.
  eexists. split; [vm_compute; reflexivity|]. split; [reflexivity|]. split; [exact well_formed_io|]. split; [apply C63_not_generic|]. split; [apply Xrun_package|].
  split. { repeat (apply Forall_cons; [repeat split; try discriminate; cbn; auto 10|]). apply Forall_nil. }
  split. { unfold texts, rules. cbn [map fst]. solve [repeat first [left; reflexivity | right]]. }
  split. { intros s u t1 H. vm_compute in H. injection H as <- _ _. vm_compute. reflexivity. }
  split; [vm_compute; reflexivity|]. split; [vm_compute; reflexivity|]. split; [vm_compute; reflexivity|]. split; [vm_compute; reflexivity|]. split; [vm_compute; reflexivity|]. split.
  - intros a k p' a' fd D. destruct (decl_io _ _ _ _ _ _ _ D eq_refl) as (-> & [(-> & ->)|(-> & ->)]); split; try reflexivity; split; try discriminate;
      (split; [intros Hx; cbn in Hx; intuition discriminate|]); eexists; eexists; (split; [reflexivity|]); (split; [split; intros d e Hd; cbn in Hd; or_inv; discriminate|]);
      (split; [intros f l x Eq; try discriminate Eq; injection Eq as <- <-; discriminate|]); intros n f Hn; cbn in Hn; or_inv; try (match goal with H : _ = (n, f) |- _ => injection H as <- _ end);
      (split; [intros K; vm_compute in K; intuition discriminate | intros K; vm_compute in K; discriminate K]).
  - intros a k m typ _ _. split; intros K; vm_compute in K; discriminate K.
Qed.

Print Assumptions C80_run.
