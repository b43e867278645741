(** C67: no field of a generated decorator has the name of one of its methods.
    C68: the declarations of generated files have different names. *)
From Coq Require Import Permutation.
From Verif Require Import Render Generated4 PropImplements.
From Verif Require Export FieldName.
Open Scope nat_scope.

(** ** Specification, over the tokens of the generated body *)

(** the tokens of what template [text] gives for [t] *)
Definition source_tokens (lower upper : N -> N) (text : string) (t : tdata) : option (list gtok) :=
  match parse text with
  | Some ns => match execute lower upper ns (data_of t) with TOk c => Some (fst (lex_chunks (at_line false) c)) | _ => None end
  | None => None
  end.

(** what stands between the braces of [type dec struct { .. }] *)
Fixpoint struct_of (dec : string) (l : list gtok) : option (list gtok) :=
  match l with
  | [] => None
  | x :: r =>
      match x, r with
      | TW [PS k], TW [PH n] :: TW [PS s] :: TP b :: r' =>
          if String.eqb k "type" && String.eqb n dec && String.eqb s "struct" && byte_eqb b "{" then until_close 0 r' else struct_of dec r
      | _, _ => struct_of dec r
      end
  end.
(** cut at the semicolons outside of braces *)
Fixpoint field_decls (d : nat) (cur l : list gtok) : list (list gtok) :=
  match l with
  | [] => [rev cur]
  | TSemi :: r => if Nat.eqb d 0 then rev cur :: field_decls 0 [] r else field_decls d (TSemi :: cur) r
  | TP c :: r => field_decls (if byte_eqb c "{" then S d else if byte_eqb c "}" then pred d else d) (TP c :: cur) r
  | x :: r => field_decls d (x :: cur) r
  end.
Definition fields_of (dec : string) (l : list gtok) : option (list string) :=
  option_map (fun b => flat_map declared_fields (field_decls 0 [] b)) (struct_of dec l).

(** an identifier that is not exported, ASCII only *)
Definition unexported (s : string) : bool :=
  match s with String c _ => byte_eqb c "_" || ((97 <=? nat_of_ascii c) && (nat_of_ascii c <=? 122)) | _ => false end.

(** names declared outside of all braces; methods declare none *)
Fixpoint tops (d : nat) (l : list gtok) : list string :=
  match l with
  | [] => []
  | TP c :: r => tops (if byte_eqb c "{" then S d else if byte_eqb c "}" then pred d else d) r
  | TW [PS k] :: r =>
      if Nat.eqb d 0 && mem k ["type"; "func"; "var"; "const"]
      then match r with TW w :: _ => wtext w :: tops d r | _ => tops d r end else tops d r
  | _ :: r => tops d r
  end.

(** ** Proofs *)
Lemma source_generates : forall lower upper text t decls, generates lower upper text t decls -> source_tokens lower upper text t = Some (glue false decls).
Proof. intros lower upper text t decls (ns & c & Hp & He & Hl). unfold source_tokens. rewrite Hp, He, (Hl false). reflexivity. Qed.

Lemma until_close_nested : forall p k r, nested k p = true -> until_close k (p ++ TP "}" :: r) = Some p.
Proof.
  induction p as [|x p IH]; intros k r H; cbn [nested] in H.
  - apply Nat.eqb_eq in H as ->. reflexivity.
  - destruct x as [w|w|c|]; cbn [app until_close]; try (now rewrite IH).
    destruct (byte_eqb c "{"); [now rewrite IH|]. destruct (byte_eqb c "}"); [|now rewrite IH]. destruct k; [discriminate|]. now rewrite IH.
Qed.

Definition not_type (x : gtok) : bool := match x with TW [PS k] => negb (String.eqb k "type") | _ => true end.
Lemma struct_skip : forall dec p q, forallb not_type p = true -> struct_of dec (p ++ q) = struct_of dec q.
Proof.
  intros dec p q. induction p as [|x p IH]; intros H; [reflexivity|]. cbn [forallb] in H. apply andb_prop in H as [Hx Hp]. cbn [app struct_of].
  destruct x as [[|[k|h] [|]]| | |]; try (now apply IH). cbn in Hx. apply negb_true_iff in Hx. rewrite Hx. cbn [andb].
  destruct (p ++ q) as [|[[|[|n] [|]]| | |] [|[[|[s|] [|]]| | |] [|[| |b|] r]]] eqn:E; rewrite <- E; try (now apply IH); try (rewrite E in *; now apply IH).
Qed.

Lemma struct_here : forall dec fs r, nested 0 (semis fs) = true -> struct_of dec (struct_decl dec fs ++ r) = Some (semis fs).
Proof.
  intros dec fs r H. unfold struct_decl. rewrite <- !app_assoc. cbn [kw id app struct_of]. rewrite !String.eqb_refl. cbn [andb byte_eqb]. now apply until_close_nested.
Qed.

Fixpoint level (d : nat) (l : list gtok) : nat :=
  match l with
  | [] => d
  | TP c :: r => level (if byte_eqb c "{" then S d else if byte_eqb c "}" then pred d else d) r
  | _ :: r => level d r
  end.
Lemma tops_split : forall p d q, q = [] \/ (exists q', q = TSemi :: q') -> tops d (p ++ q) = tops d p ++ tops (level d p) q.
Proof.
  intros p d q Hq. revert d. induction p as [|x p IH]; intros d; [reflexivity|].
  destruct x as [[|[k|h] [|]]| | |]; cbn [app tops level]; try apply IH.
  destruct (Nat.eqb d 0 && mem k ["type"; "func"; "var"; "const"])%bool; [|apply IH]. destruct p as [|y p].
  - cbn [app level tops]. destruct Hq as [-> | (q' & ->)]; reflexivity.
  - cbn [app] in *. destruct y; try apply IH. cbn [app]. f_equal. apply IH.
Qed.
Lemma tops_in : forall p k d r, nested k p = true -> tops (S (k + d)) (p ++ r) = tops (S d) r.
Proof.
  induction p as [|x p IH]; intros k d r H; cbn [nested] in H.
  - apply Nat.eqb_eq in H as ->. reflexivity.
  - destruct x as [[|[s|s] [|]]|w|c|]; cbn [app tops]; try (now apply IH).
    destruct (byte_eqb c "{"); [now apply (IH (S k))|]. destruct (byte_eqb c "}"); [|now apply IH]. destruct k; [discriminate|]. now apply (IH k).
Qed.

(** [d] declares a method *)
Definition a_method (dec : string) (m : method) (d : list gtok) : Prop :=
  exists star body, (star = [] \/ star = [TP "*"]) /\
    d = [TW [PS "func"]; TP "("; TW [PS "_d"]] ++ star ++ [TW [PH dec]; TP ")"; TW [PH (Declaration m)]; TP "{"] ++ body ++ [TP "}"] /\
    nested 0 body = true.
Lemma tops_method : forall dec m d r, a_method dec m d -> tops 0 (d ++ r) = tops 0 r.
Proof.
  intros dec m d r (st & body & Hst & -> & Hn). destruct Hst as [-> | ->].
  all: cbn; rewrite <- app_assoc; rewrite (tops_in body 0 0) by exact Hn; reflexivity.
Qed.
Lemma tops_methods : forall dec (f : method -> list (list gtok)) ms r b, (forall m d, In m ms -> In d (f m) -> a_method dec m d) ->
  tops 0 (glue b (flat_map f ms) ++ r) = tops 0 r.
Proof.
  intros dec f ms r b H. assert (G : forall l b, (forall d, In d l -> exists m, a_method dec m d) -> tops 0 (glue b l ++ r) = tops 0 r).
  { clear. induction l as [|d l IH]; intros b H; [reflexivity|]. cbn [glue]. rewrite <- !app_assoc. destruct (H d (or_introl eq_refl)) as (m & Hm).
    assert (tops 0 (due b ++ d ++ glue true l ++ r) = tops 0 (d ++ glue true l ++ r)) as -> by now destruct b.
    rewrite (tops_method _ _ _ _ Hm). apply IH. intros d' Hd. apply H. now right. }
  apply G. intros d Hd. apply in_flat_map in Hd as (m & Hm & Hd). eauto.
Qed.
Lemma tops_file : forall lower upper text t dec hd f ts,
  generates lower upper text t (hd ++ flat_map f (sorted_methods t) ++ ts) -> hd <> [] -> level 0 (glue false hd) = 0 ->
  (forall m d, In d (f m) -> a_method dec m d) ->
  exists toks, source_tokens lower upper text t = Some toks /\ tops 0 toks = tops 0 (glue false hd) ++ tops 0 (glue true ts).
Proof.
  intros lower upper text t dec hd f ts H Hh Hl Hf. eexists. split; [eapply source_generates; exact H|].
  rewrite !glue_app. assert (some hd = true) as -> by now destruct hd. cbn [orb].
  rewrite tops_split.
  - rewrite Hl. f_equal. apply (tops_methods dec). intros; now apply Hf.
  - destruct (flat_map f (sorted_methods t)) as [|x l]; [destruct ts as [|y ts]; [now left|]|]; right; eexists; reflexivity.
Qed.
Lemma method_a_method : forall st dec m body, st = [] \/ st = star -> Forall (fun s => neutral (stoks m s)) body -> a_method dec m (method_toks st dec m (btoks m body)).
Proof. intros st dec m body Hst Hn. exists st, (btoks m body). split; [exact Hst|]. split; [reflexivity|]. now apply neutral_nested, neutral_body. Qed.
Lemma fallback_a_method : forall dec typ m, a_method dec m (fallback_method dec typ m).
Proof.
  intros dec typ m. exists [], (removelast (skipn 7 (fallback_method dec typ m))). split; [now left|].
  destruct m as [doc com name ps rs e c]. unfold fallback_method, fb_launch, fb_wait, fb_receive, HasResults. cbn [m_acceptsContext m_returnsError m_results].
  split; destruct e, c, rs; vm_compute; reflexivity.
Qed.

(** the fields of the struct a file declares after [pre] *)
Lemma fields_file : forall lower upper text t dec pre fs rest,
  generates lower upper text t (pre ++ struct_decl dec fs :: rest) -> forallb not_type (glue false pre) = true -> nested 0 (semis fs) = true ->
  exists toks, source_tokens lower upper text t = Some toks /\ fields_of dec toks = Some (flat_map declared_fields (field_decls 0 [] (semis fs))).
Proof.
  intros lower upper text t dec pre fs rest H Hp Hn. eexists. split; [eapply source_generates; exact H|]. unfold fields_of.
  rewrite glue_app, struct_skip by exact Hp. cbn [glue]. rewrite struct_skip by (now destruct (false || some pre)). now rewrite struct_here.
Qed.

Definition hidden_fields (typ : string) (fs : list string) : Prop := Forall (fun x => unexported x = true \/ x = unqualified typ) fs.

Lemma wtext_hole : forall s, wtext [PH s] = s.
Proof. intros s. cbn. apply sapp_nil_r. Qed.
Ltac heads G := cbv zeta in G; cbn [app retry_head timeout_head validate_head log_head logrus_head prometheus_head tracing_head opencensus_head opentelemetry_head
  opentracing_head syncpool_head robinpool_head ratelimit_head circuitbreaker_head fallback_head elasticapm_head twirp_imports grpc_imports] in G.
(** the words of the fields, and whether each is unexported *)
Ltac fields_at G :=
  heads G;
  match type of G with
  | generates _ _ _ _ (import_decl ?i :: struct_decl ?d ?fs :: ?r) => apply (fields_file _ _ _ _ d [import_decl i] fs r) in G
  | generates _ _ _ _ (struct_decl ?d ?fs :: ?r) => apply (fields_file _ _ _ _ d [] fs r) in G
  end;
  [ let a := fresh in let b := fresh in destruct G as (toks & a & b); exists toks; eexists; split; [exact a|]; split; [exact b|];
    cbv -[wtext unqualified unexported td_type];
    repeat (apply Forall_cons; [first [left; vm_compute; reflexivity | right; f_equal; apply wtext_hole] |]); apply Forall_nil
  | vm_compute; reflexivity | vm_compute; reflexivity ].

Theorem C67_fields_partial : forall text suffix lower upper t,
  In (text, suffix) stock ->
  exists toks fs, source_tokens lower upper text t = Some toks /\ fields_of (decorator t suffix) toks = Some fs /\
                  Forall (fun x => unexported x = true \/ x = unqualified (td_type t)) fs.
Proof.
  intros text suffix lower upper t H. unfold stock in H. cbn [In] in H.
  repeat destruct H as [H|H]; try (now destruct H); injection H as <- <-.
  - pose proof (circuitbreaker_generated lower upper t) as G. fields_at G.
  - pose proof (fallback_generated lower upper t) as G. fields_at G.
  - pose proof (grpc_validate_generated lower upper t) as G. fields_at G.
  - pose proof (log_generated lower upper t) as G. fields_at G.
  - pose proof (logrus_generated lower upper t) as G. fields_at G.
  - pose proof (opencensus_generated lower upper t) as G. fields_at G.
  - pose proof (opentelemetry_generated lower upper t) as G. fields_at G.
  - pose proof (opentracing_generated lower upper t) as G. fields_at G.
  - pose proof (prometheus_generated lower upper t) as G. fields_at G.
  - pose proof (ratelimit_generated lower upper t) as G. fields_at G.
  - pose proof (retry_generated lower upper t) as G. fields_at G.
  - pose proof (robinpool_generated lower upper t) as G. fields_at G.
  - pose proof (syncpool_generated lower upper t) as G. fields_at G.
  - pose proof (timeout_generated lower upper t) as G. fields_at G.
  - pose proof (twirp_error_generated lower upper t) as G. fields_at G.
  - pose proof (twirp_validate_generated lower upper t) as G. fields_at G.
  - pose proof (validate_generated lower upper t) as G. fields_at G.
Qed.

(** elasticapm; its theorem asks that the context of a method is its first parameter (C37) *)
Theorem C67_elasticapm_partial : forall lower upper t,
  (forall m, In m (map snd (td_methods t)) -> ctx_first m) ->
  exists toks fs, source_tokens lower upper text_elasticapm t = Some toks /\ fields_of (decorator t "APMTracing") toks = Some fs /\
                  Forall (fun x => unexported x = true \/ x = unqualified (td_type t)) fs.
Proof. intros lower upper t Hc. pose proof (elasticapm_generated lower upper t Hc) as G. fields_at G. Qed.

(** so an exported method clashes with no field unless the interface has its name *)
Theorem C67_exported_partial : forall text suffix lower upper t,
  In (text, suffix) ((text_elasticapm, "APMTracing") :: stock) ->
  (text = text_elasticapm -> forall m, In m (map snd (td_methods t)) -> ctx_first m) ->
  (forall m, In m (map snd (td_methods t)) -> unexported (m_name m) = false /\ m_name m <> unqualified (td_type t)) ->
  exists toks fs, source_tokens lower upper text t = Some toks /\ fields_of (decorator t suffix) toks = Some fs /\
                  (forall m, In m (map snd (td_methods t)) -> ~ In (m_name m) fs).
Proof.
  intros text suffix lower upper t Hin Hc Hm.
  assert (exists toks fs, source_tokens lower upper text t = Some toks /\ fields_of (decorator t suffix) toks = Some fs /\
                  Forall (fun x => unexported x = true \/ x = unqualified (td_type t)) fs) as (toks & fs & H1 & H2 & H3).
  { destruct Hin as [E | Hin]; [injection E as <- <-; now apply C67_elasticapm_partial, Hc | now apply C67_fields_partial]. }
  exists toks, fs. split; [exact H1|]. split; [exact H2|]. intros m Hi Hf. rewrite Forall_forall in H3.
  destruct (H3 _ Hf) as [E | E]; destruct (Hm m Hi) as [E1 E2]; [congruence | now elim E2].
Qed.

Definition C67_statement : Prop := forall text suffix lower upper t toks fs,
  In (text, suffix) ((text_elasticapm, "APMTracing") :: stock) ->
  source_tokens lower upper text t = Some toks -> fields_of (decorator t suffix) toks = Some fs ->
  forall m, In m (map snd (td_methods t)) -> ~ In (m_name m) fs.

(** [type Doer interface { Doer(err error) }] of a package pkg *)
Definition ex_same : tdata := TData "Doer" "pkg.Doer" "" "" [("Doer", Method [] [] "Doer" [] [Param [] [] "err" "error" false] true false)] [] [].
(** retry: the struct embeds pkg.Doer and has a method Doer *)
Theorem C67_refuted : ~ C67_statement.
Proof.
  intros H. specialize (H text_retry "WithRetry" (fun n => n) (fun n => n) ex_same _ _ ltac:(cbn [In stock]; do 11 right; now left)
    ltac:(vm_compute; reflexivity) ltac:(vm_compute; reflexivity) _ ltac:(now left)).
  apply H. vm_compute. now left.
Qed.

(** even when no method has the interface's name: [type Store interface { base() string }], prometheus, same package *)
Definition ex_base : tdata := TData "Store" "Store" "" "" [("base", Method [] [] "base" [] [Param [] [] "s1" "string" false] false false)] [] [].
Theorem C67_unexported_refuted : ~ (forall text suffix lower upper t toks fs,
  In (text, suffix) stock -> (forall m, In m (map snd (td_methods t)) -> m_name m <> unqualified (td_type t)) ->
  source_tokens lower upper text t = Some toks -> fields_of (decorator t suffix) toks = Some fs ->
  forall m, In m (map snd (td_methods t)) -> ~ In (m_name m) fs).
Proof.
  intros H. specialize (H text_prometheus "WithPrometheus" (fun n => n) (fun n => n) ex_base _ _ ltac:(cbn [In stock]; do 8 right; now left)
    ltac:(intros m [<- | []]; discriminate) ltac:(vm_compute; reflexivity) ltac:(vm_compute; reflexivity) _ ltac:(now left)).
  apply H. vm_compute. now left.
Qed.

(** ** C68 *)
(** the declarations a file makes *)
Definition top_names (lower : N -> N) (text : string) (t : tdata) (dec : string) : list string :=
  if String.eqb text text_timeout then [dec; (dec ++ "Config")%string; ("New" ++ dec)%string]
  else if String.eqb text text_robinpool then [dec; ("New" ++ dec)%string; ("MustNew" ++ dec)%string]
  else if String.eqb text text_prometheus then [dec; (go_lower lower (td_name t) ++ "DurationSummaryVec")%string; ("New" ++ dec)%string]
  else if String.eqb text text_twirp_error then [dec; ("New" ++ dec)%string; "injectRequestDataToError"%string]
  else [dec; ("New" ++ dec)%string].

Lemma level_in : forall p k d r, nested k p = true -> level (S (k + d)) (p ++ r) = level (S d) r.
Proof.
  induction p as [|x p IH]; intros k d r H; cbn [nested] in H.
  - apply Nat.eqb_eq in H as ->. reflexivity.
  - destruct x as [w|w|c|]; cbn [app level]; try (now apply IH).
    destruct (byte_eqb c "{"); [now apply (IH (S k))|]. destruct (byte_eqb c "}"); [|now apply IH]. destruct k; [discriminate|]. now apply (IH k).
Qed.
Lemma config_nested : forall ms, nested 0 (semis (flat_map (fun m => if m_acceptsContext m
  then [[TW [PH (m_name m); PS "Timeout"]] ++ dotted "time" "Duration"] else []) ms)) = true.
Proof.
  intros ms. apply neutral_nested, neutral_semis. apply Forall_forall. intros x H. apply in_flat_map in H as (m & _ & H).
  destruct (m_acceptsContext m); [|easy]. destruct H as [<- | []]. intros d r. reflexivity.
Qed.

(** the two structs of timeout *)
Lemma level_app : forall p d q, level d (p ++ q) = level (level d p) q.
Proof. induction p as [|x p IH]; intros d q; [reflexivity|]. destruct x; cbn [app level]; apply IH. Qed.
Lemma tops_struct : forall a b body r, nested 0 body = true ->
  tops 0 (kw "type" ++ [TW [a; b]] ++ kw "struct" ++ [TP "{"] ++ body ++ TP "}" :: r) = wtext [a; b] :: tops 0 r.
Proof. intros a b body r Hb. cbn -[wtext]. rewrite (tops_in body 0 0) by exact Hb. destruct a; reflexivity. Qed.
Lemma level_struct : forall w body r, nested 0 body = true ->
  level 0 (kw "type" ++ [TW w] ++ kw "struct" ++ [TP "{"] ++ body ++ TP "}" :: r) = level 0 r.
Proof. intros w body r Hb. cbn. rewrite (level_in body 0 0) by exact Hb. reflexivity. Qed.
Lemma timeout_parts : forall dec name typ ms, glue false (timeout_head dec name typ ms) =
  glue false (firstn 2 (timeout_head dec name typ ms)) ++ TSemi :: kw "type" ++ [TW [PH dec; PS "Config"]] ++ kw "struct" ++ [TP "{"]
  ++ semis (flat_map (fun m => if m_acceptsContext m
                               then [[TW [PH (m_name m); PS "Timeout"]] ++ dotted "time" "Duration"] else []) ms)
  ++ TP "}" :: glue true [ctor_decl dec (timeout_ctor dec name typ)].
Proof.
  intros. unfold timeout_head, timeout_config. cbn [firstn glue due].
  match goal with |- context [semis (flat_map ?f ms)] => generalize (semis (flat_map f ms)) end. intros body.
  rewrite <- ?app_assoc. cbn [app]. rewrite <- ?app_assoc. reflexivity.
Qed.
Lemma timeout_head_tops : forall dec name typ ms, tops 0 (glue false (timeout_head dec name typ ms)) = [dec; (dec ++ "Config")%string; ("New" ++ dec)%string].
Proof.
  intros dec name typ ms. rewrite timeout_parts, tops_split by (right; eexists; reflexivity).
  replace (level 0 _) with 0 by (vm_compute; reflexivity). change (tops 0 (TSemi :: ?l)) with (tops 0 l).
  rewrite tops_struct by apply config_nested. cbv -[wtext String.append]. cbn [wtext ptext]. rewrite !sapp_nil_r. reflexivity.
Qed.
Lemma timeout_head_level : forall dec name typ ms, level 0 (glue false (timeout_head dec name typ ms)) = 0.
Proof.
  intros dec name typ ms. rewrite timeout_parts, level_app. replace (level 0 (glue _ _)) with 0 by (vm_compute; reflexivity).
  change (level 0 (TSemi :: ?l)) with (level 0 l). rewrite level_struct by apply config_nested. vm_compute. reflexivity.
Qed.

Ltac tops_at G d :=
  let H := fresh in
  pose proof G as H; cbv zeta in H;
  apply (tops_file _ _ _ _ d) in H;
  [ let a := fresh in let b := fresh in destruct H as (toks & a & b); exists toks; split; [exact a|]; rewrite b; clear; unfold top_names;
    match goal with |- context [go_lower ?l (td_name ?x)] => generalize (go_lower l (td_name x)) end; intros low; generalize d; intros dec;
    match goal with |- ?l = ?r =>
      let l' := eval cbv -[wtext] in l in
      let r' := eval cbv -[String.append] in r in
      transitivity l'; [vm_compute; reflexivity|]; transitivity r'; [cbn [wtext ptext]; rewrite ?sapp_nil_r; reflexivity | vm_compute; reflexivity] end
  | discriminate | vm_compute; reflexivity
  | intros m d0; generalize I; revert m d0; one; first [apply fallback_a_method | apply method_a_method; [now (left + right) | neut]] ].

Theorem C68_names : forall text suffix lower upper t,
  In (text, suffix) stock ->
  exists toks, source_tokens lower upper text t = Some toks /\ tops 0 toks = top_names lower text t (decorator t suffix).
Proof.
  intros text suffix lower upper t H. unfold stock in H. cbn [In] in H.
  repeat destruct H as [H|H]; try (now destruct H); injection H as <- <-.
  - tops_at (circuitbreaker_generated lower upper t) (decorator t "WithCircuitBreaker").
  - tops_at (fallback_generated lower upper t) (decorator t "WithFallback").
  - tops_at (grpc_validate_generated lower upper t) (decorator t "WithGRPCValidation").
  - tops_at (log_generated lower upper t) (decorator t "WithLog").
  - tops_at (logrus_generated lower upper t) (decorator t "WithLogrus").
  - tops_at (opencensus_generated lower upper t) (decorator t "WithTracing").
  - tops_at (opentelemetry_generated lower upper t) (decorator t "WithTracing").
  - tops_at (opentracing_generated lower upper t) (decorator t "WithTracing").
  - tops_at (prometheus_generated lower upper t) (decorator t "WithPrometheus").
  - tops_at (ratelimit_generated lower upper t) (decorator t "WithRateLimit").
  - tops_at (retry_generated lower upper t) (decorator t "WithRetry").
  - tops_at (robinpool_generated lower upper t) (decorator t "RoundRobinPool").
  - tops_at (syncpool_generated lower upper t) (decorator t "Pool").
  - pose proof (timeout_generated lower upper t) as G. cbv zeta in G. apply (tops_file _ _ _ _ (decorator t "WithTimeout")) in G.
    + destruct G as (toks & H1 & H2). exists toks. split; [exact H1|]. rewrite H2, timeout_head_tops. reflexivity.
    + discriminate.
    + apply timeout_head_level.
    + intros m d0; generalize I; revert m d0; one. apply method_a_method; [now left | neut].
  - tops_at (twirp_error_generated lower upper t) (decorator t "WithTwirpError").
  - tops_at (twirp_validate_generated lower upper t) (decorator t "WithTwirpValidation").
  - tops_at (validate_generated lower upper t) (decorator t "WithValidation").
Qed.

(** *** within a file *)
Lemma sapp_inj : forall p a b : string, (p ++ a)%string = (p ++ b)%string -> a = b.
Proof. induction p as [|c p IH]; cbn; intros a b H; [exact H|]. injection H as H. now apply IH. Qed.
Lemma slength_app : forall a b, String.length (a ++ b) = String.length a + String.length b.
Proof. induction a as [|c a IH]; intros b; cbn; [reflexivity | now rewrite IH]. Qed.
Ltac by_length := let E := fresh in intros E; apply (f_equal String.length) in E; rewrite ?slength_app in E; cbn [String.length] in E; lia.

(** the two names the templates prometheus and twirp_error make up are not those made of the decorator's *)
Theorem C68_within_partial : forall text suffix lower upper t,
  In (text, suffix) stock ->
  let dec := decorator t suffix in
  (text = text_prometheus -> (go_lower lower (td_name t) ++ "DurationSummaryVec")%string <> dec /\
                             (go_lower lower (td_name t) ++ "DurationSummaryVec")%string <> ("New" ++ dec)%string) ->
  (text = text_twirp_error -> dec <> "injectRequestDataToError"%string) ->
  exists toks, source_tokens lower upper text t = Some toks /\ NoDup (tops 0 toks).
Proof.
  intros text suffix lower upper t Hin dec Hp Ht. destruct (C68_names text suffix lower upper t Hin) as (toks & H1 & H2).
  exists toks. split; [exact H1|]. rewrite H2. fold dec. unfold top_names.
  assert (N1 : dec <> ("New" ++ dec)%string) by by_length.
  destruct (String.eqb_spec text text_timeout) as [E|_]; [|destruct (String.eqb_spec text text_robinpool) as [E|_];
    [|destruct (String.eqb_spec text text_prometheus) as [E|_]; [|destruct (String.eqb_spec text text_twirp_error) as [E|_]]]].
  - assert (dec <> (dec ++ "Config")%string) by by_length. assert ((dec ++ "Config")%string <> ("New" ++ dec)%string) by by_length.
    clear - N1 H H0.
    repeat constructor; cbn [In]; intuition congruence.
  - assert (dec <> ("MustNew" ++ dec)%string) by by_length. assert (("New" ++ dec)%string <> ("MustNew" ++ dec)%string) by by_length. clear - N1 H H0.
    repeat constructor; cbn [In]; intuition congruence.
  - destruct (Hp E). clear - N1 H H0. repeat constructor; cbn [In]; intuition congruence.
  - specialize (Ht E). assert (("New" ++ dec)%string <> "injectRequestDataToError"%string) by (intros X; discriminate X). clear - N1 H Ht.
    repeat constructor; cbn [In]; intuition congruence.
  - clear - N1. repeat constructor; cbn [In]; intuition congruence.
Qed.

(** *** between files: decorator names that do not begin with New or MustNew and do not end in Config *)
Definition begins (p s : string) : Prop := exists r, s = (p ++ r)%string.
Definition ends_in (p s : string) : Prop := exists r, s = (r ++ p)%string.
Definition plain (dec : string) : Prop := ~ begins "New" dec /\ ~ begins "MustNew" dec /\ ~ ends_in "Config" dec.

Lemma plain_names : forall d1 d2 x, plain d1 -> plain d2 -> d1 <> d2 ->
  In x [d1; (d1 ++ "Config")%string; ("New" ++ d1)%string; ("MustNew" ++ d1)%string] ->
  In x [d2; (d2 ++ "Config")%string; ("New" ++ d2)%string; ("MustNew" ++ d2)%string] -> False.
Proof.
  intros d1 d2 x (A1 & A2 & A3) (B1 & B2 & B3) Hd H1 H2.
  assert (Hn : forall d e, ~ begins "New" d -> (d ++ "Config")%string <> ("New" ++ e)%string).
  { clear. intros d e H E. destruct d as [|c1 [|c2 [|c3 d]]]; cbn in E; try discriminate E. injection E as -> -> -> E. apply H. now exists d. }
  assert (Hm : forall d e, ~ begins "MustNew" d -> (d ++ "Config")%string <> ("MustNew" ++ e)%string).
  { clear. intros d e H E. destruct d as [|c1 [|c2 [|c3 [|c4 [|c5 [|c6 [|c7 d]]]]]]]; cbn in E; try discriminate E. injection E as -> -> -> -> -> -> -> E. apply H. now exists d. }
  assert (Hs : forall d e : string, (d ++ "Config")%string = (e ++ "Config")%string -> d = e).
  { clear. induction d as [|c d IH]; intros e E.
    - destruct e as [|c e]; [reflexivity|]. apply (f_equal String.length) in E. cbn in E. rewrite slength_app in E. cbn in E. lia.
    - destruct e as [|c' e]; [apply (f_equal String.length) in E; cbn in E; rewrite slength_app in E; cbn in E; lia|].
      cbn in E. injection E as -> E. now rewrite (IH e E). }
  cbn [In] in H1, H2.
  destruct H1 as [<-|[<-|[<-|[<-|[]]]]]; destruct H2 as [E|[E|[E|[E|[]]]]]; try (cbn in E; discriminate E).
  all: first
    [ elim Hd; symmetry; exact E
    | elim A3; eexists; symmetry; exact E | elim A1; eexists; symmetry; exact E | elim A2; eexists; symmetry; exact E
    | elim B3; eexists; exact E | elim B1; eexists; exact E | elim B2; eexists; exact E
    | elim Hd; symmetry; apply Hs; exact E | elim Hd; symmetry; eapply sapp_inj; exact E
    | eapply Hn; [|exact E]; assumption | eapply Hn; [|symmetry; exact E]; assumption
    | eapply Hm; [|exact E]; assumption | eapply Hm; [|symmetry; exact E]; assumption ].
Qed.

Theorem C68_apart_partial : forall text1 suffix1 text2 suffix2 lower upper t1 t2,
  In (text1, suffix1) stock -> In (text2, suffix2) stock ->
  ~ In text1 [text_prometheus; text_twirp_error] -> ~ In text2 [text_prometheus; text_twirp_error] ->
  let d1 := decorator t1 suffix1 in let d2 := decorator t2 suffix2 in
  plain d1 -> plain d2 -> d1 <> d2 ->
  exists toks1 toks2, source_tokens lower upper text1 t1 = Some toks1 /\ source_tokens lower upper text2 t2 = Some toks2 /\
    forall x, In x (tops 0 toks1) -> ~ In x (tops 0 toks2).
Proof.
  intros text1 suffix1 text2 suffix2 lower upper t1 t2 H1 H2 N1 N2 d1 d2 P1 P2 Hd.
  destruct (C68_names text1 suffix1 lower upper t1 H1) as (toks1 & S1 & T1), (C68_names text2 suffix2 lower upper t2 H2) as (toks2 & S2 & T2).
  exists toks1, toks2. split; [exact S1|]. split; [exact S2|]. fold d1 in T1. fold d2 in T2.
  assert (G : forall text t d x, ~ In text [text_prometheus; text_twirp_error] -> In x (top_names lower text t d) ->
    In x [d; (d ++ "Config")%string; ("New" ++ d)%string; ("MustNew" ++ d)%string]).
  { clear. intros text t d x N H. unfold top_names in H.
    destruct (String.eqb text text_timeout); [cbn [In] in *; tauto|]. destruct (String.eqb text text_robinpool); [cbn [In] in *; tauto|].
    destruct (String.eqb_spec text text_prometheus) as [E|_]; [elim N; left; now symmetry|].
    destruct (String.eqb_spec text text_twirp_error) as [E|_]; [elim N; right; left; now symmetry|]. cbn [In] in *; tauto. }
  intros x X1 X2. rewrite T1 in X1. rewrite T2 in X2. apply G in X1; [|exact N1]. apply G in X2; [|exact N2].
  now apply (plain_names d1 d2 x).
Qed.

(** *** elasticapm *)
Theorem C68_elasticapm_names : forall lower upper t,
  (forall m, In m (map snd (td_methods t)) -> ctx_first m) ->
  let dec := decorator t "APMTracing" in
  exists toks, source_tokens lower upper text_elasticapm t = Some toks /\
    tops 0 toks = [dec; or_var "DecoratorName" (td_vars t) (td_name t ++ "APMTracingOption")%string;
                   (dec ++ "WithUsingSetLabel")%string; (dec ++ "WithSpanType")%string; ("New" ++ dec)%string].
Proof.
  intros lower upper t Hc dec. pose proof (elasticapm_generated lower upper t Hc) as G. cbv zeta in G. fold dec in G.
  revert G. generalize (or_var "DecoratorName" (td_vars t) (td_name t ++ "APMTracingOption")%string). intros opt G.
  apply (tops_file _ _ _ _ dec) in G.
  - destruct G as (toks & H1 & H2). exists toks. split; [exact H1|]. rewrite H2. clear.
    clearbody dec. match goal with |- ?l = _ => let l' := eval cbv -[wtext] in l in transitivity l' end; [vm_compute; reflexivity|].
    cbn [wtext ptext]. rewrite ?sapp_nil_r. reflexivity.
  - discriminate.
  - vm_compute. reflexivity.
  - intros m d0; generalize I; revert m d0; one. apply method_a_method; [now left | neut].
Qed.

Theorem C68_elasticapm_partial : forall lower upper t,
  (forall m, In m (map snd (td_methods t)) -> ctx_first m) -> var_value "DecoratorName" (td_vars t) = None ->
  exists toks, source_tokens lower upper text_elasticapm t = Some toks /\ NoDup (tops 0 toks).
Proof.
  intros lower upper t Hc Hv. destruct (C68_elasticapm_names lower upper t Hc) as (toks & H1 & H2). exists toks. split; [exact H1|]. rewrite H2.
  unfold decorator, or_var. rewrite Hv. clear. generalize (td_name t). intros n.
  repeat (apply NoDup_cons; [cbn [In]; intros H; repeat destruct H as [H|H]; try contradiction; revert H; by_length|]). apply NoDup_nil.
Qed.

(** *** the full statements, and why they fail *)
Definition C68_within_statement : Prop := forall text suffix lower upper t toks,
  In (text, suffix) ((text_elasticapm, "APMTracing") :: stock) -> source_tokens lower upper text t = Some toks -> NoDup (tops 0 toks).
Definition C68_apart_statement : Prop := forall text1 suffix1 text2 suffix2 lower upper t1 t2 toks1 toks2,
  In (text1, suffix1) ((text_elasticapm, "APMTracing") :: stock) -> In (text2, suffix2) ((text_elasticapm, "APMTracing") :: stock) ->
  plain (decorator t1 suffix1) -> plain (decorator t2 suffix2) -> decorator t1 suffix1 <> decorator t2 suffix2 ->
  source_tokens lower upper text1 t1 = Some toks1 -> source_tokens lower upper text2 t2 = Some toks2 ->
  forall x, In x (tops 0 toks1) -> ~ In x (tops 0 toks2).

(** [-v DecoratorName=Traced -t elasticapm]: the file declares type Traced twice *)
Definition ex_named (name dec : string) : tdata := TData name ("pkg." ++ name) "" "" [] [] (match dec with "" => [] | _ => [("DecoratorName", VStr dec)] end)%string.
Theorem C68_within_refuted : ~ C68_within_statement.
Proof.
  intros H. specialize (H text_elasticapm "APMTracing" (fun n => n) (fun n => n) (ex_named "Doer" "Traced") _ (or_introl eq_refl) ltac:(vm_compute; reflexivity)).
  vm_compute in H. inversion H as [|? ? Hn _]. apply Hn. now left.
Qed.

Ltac not_plain := repeat split; intros (r & E); vm_compute in E; repeat (destruct r as [|? r]; try discriminate E).
(** twirp_error for two interfaces of one package: both files declare injectRequestDataToError *)
Theorem C68_apart_refuted : ~ C68_apart_statement.
Proof.
  intros H. specialize (H text_twirp_error "WithTwirpError" text_twirp_error "WithTwirpError" (fun n => n) (fun n => n) (ex_named "Reader" "") (ex_named "Writer" "") _ _
    ltac:(right; cbn [In stock]; do 14 right; now left) ltac:(right; cbn [In stock]; do 14 right; now left) ltac:(not_plain) ltac:(not_plain) ltac:(discriminate)
    ltac:(vm_compute; reflexivity) ltac:(vm_compute; reflexivity) "injectRequestDataToError"%string).
  vm_compute in H. apply H; do 2 right; now left.
Qed.
(** prometheus for interfaces of one name with different decorator names: both files declare the same variable *)
Theorem C68_prometheus_refuted : ~ C68_apart_statement.
Proof.
  intros H. specialize (H text_prometheus "WithPrometheus" text_prometheus "WithPrometheus" (fun n => n) (fun n => n) (ex_named "store" "A") (ex_named "store" "B") _ _
    ltac:(right; cbn [In stock]; do 8 right; now left) ltac:(right; cbn [In stock]; do 8 right; now left) ltac:(not_plain) ltac:(not_plain) ltac:(discriminate)
    ltac:(vm_compute; reflexivity) ltac:(vm_compute; reflexivity) "storeDurationSummaryVec"%string).
  vm_compute in H. apply H; right; now left.
Qed.

(** ** Examples *)
(** circuitbreaker: what the spec reads off the generated text *)
Example ex_breaker_fields : option_map (fields_of "StoreWithCircuitBreaker") (source_tokens (fun n => n) (fun n => n) text_circuitbreaker (ex_named "Store" "")) =
  Some (Some ["Store"; "_lock"; "_maxConsecutiveErrors"; "_consecutiveErrors"; "_openInterval"; "_closesAt"; "_ignoreErrors"]%string).
Proof. vm_compute. reflexivity. Qed.
Example ex_log_fields : option_map (fields_of "StoreWithLog") (source_tokens (fun n => n) (fun n => n) text_log (ex_named "Store" "")) =
  Some (Some ["_stdlog"; "_errlog"; "_base"]%string).
Proof. vm_compute. reflexivity. Qed.
(** [type Doer interface { Do(err error) }] meets the hypotheses of C67_exported_partial *)
Example ex_exported : forall m, In m (map snd (td_methods ex_terr)) -> unexported (m_name m) = false /\ m_name m <> unqualified (td_type ex_terr).
Proof. intros m [<- | []]. split; [reflexivity | discriminate]. Qed.
Example ex_timeout_tops : option_map (tops 0) (source_tokens (fun n => n) (fun n => n) text_timeout ex_terr) =
  Some ["DoerWithTimeout"; "DoerWithTimeoutConfig"; "NewDoerWithTimeout"]%string.
Proof. vm_compute. reflexivity. Qed.
Example ex_elasticapm_tops : option_map (tops 0) (source_tokens (fun n => n) (fun n => n) text_elasticapm (ex_named "Store" "")) =
  Some ["StoreAPMTracing"; "StoreAPMTracingOption"; "StoreAPMTracingWithUsingSetLabel"; "StoreAPMTracingWithSpanType"; "NewStoreAPMTracing"]%string.
Proof. vm_compute. reflexivity. Qed.
(** two files of one package that C68_apart_partial is about *)
Example ex_apart : plain (decorator ex_terr "WithTimeout") /\ plain (decorator ex_terr "RoundRobinPool") /\ decorator ex_terr "WithTimeout" <> decorator ex_terr "RoundRobinPool".
Proof. split; [not_plain|]. split; [not_plain | discriminate]. Qed.
(** the default names of two interfaces, one called as the decorator of the other: NewStore's own type is Store's constructor *)
Example ex_not_apart : In "NewStoreWithRetry"%string (top_names (fun n => n) text_retry (ex_named "Store" "") "StoreWithRetry") /\
  In "NewStoreWithRetry"%string (top_names (fun n => n) text_retry (ex_named "NewStore" "") (decorator (ex_named "NewStore" "") "WithRetry")).
Proof. vm_compute. split; [right; now left | now left]. Qed.

Print Assumptions C67_fields_partial.
Print Assumptions C67_elasticapm_partial.
Print Assumptions C67_exported_partial.
Print Assumptions C67_refuted.
Print Assumptions C67_unexported_refuted.
Print Assumptions C68_names.
Print Assumptions C68_within_partial.
Print Assumptions C68_apart_partial.
Print Assumptions C68_elasticapm_names.
Print Assumptions C68_elasticapm_partial.
Print Assumptions C68_within_refuted.
Print Assumptions C68_apart_refuted.
Print Assumptions C68_prometheus_refuted.
