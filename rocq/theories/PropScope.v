(** C74: the package names in generated signatures mean in the generated file
    what they mean where the method is declared (generator.go:208-225, 248,
    265-276; cmd_generate.go:312-315; the imports of templates/). *)
From Coq Require Import Permutation.
From Verif Require Import Generator PrinterProofs GeneratorProofs NewGen ResolveSpec QualifierProofs ResolveProofs NewGenProofs PropResolve PropSource PropQualifiers PropGenerator.
From Verif Require Import GoTok MiniGo TemplateText RenderProofs Generated Generated2 Generated3 Generated4 PropImplements PropClashes.
Open Scope nat_scope.

(** ** Specification *)

(** The imports of the generated file.  The header has one import per line,
    which is a name, a blank and a path, without a name a blank and a path. *)
Fixpoint read_line (name line : string) : importspec :=
  match line with
  | EmptyString => ImportSpec None name
  | String c r => if byte_eqb c " " then ImportSpec (match name with EmptyString => None | _ => Some name end) r
                  else read_line (name ++ String c "")%string r
  end.
Definition header_imports (g : generator) : list importspec := map (read_line "") (op_imports (g_options g)).

(** What the template adds: the declaration at the start of its text. *)
Fixpoint read_specs (l : list gtok) : list importspec :=
  match l with
  | TSemi :: r => read_specs r
  | TS p :: r => ImportSpec None (quoted (wtext p)) :: read_specs r
  | TW n :: TS p :: r => ImportSpec (Some (wtext n)) (quoted (wtext p)) :: read_specs r
  | _ => []
  end.
Definition leading_imports (toks : list gtok) : list importspec :=
  match toks with
  | TW w :: TP c :: r => if String.eqb (wtext w) "import" && byte_eqb c "(" then read_specs r else []
  | _ => []
  end.
Definition file_imports (g : generator) (toks : list gtok) : list importspec := header_imports g ++ leading_imports toks.

(** an import gives the name [q] to package [p] (Go spec, Import declarations) *)
Definition binds (W : world) (i : importspec) (q : string) (p : package) : Prop :=
  exists path, im_path i = quoted path /\ w_load W path = Ok p /\ (im_name i = Some q \/ im_name i = None /\ pk_name p = q).
(** with these imports, [q] means [p] and nothing else *)
Definition means (W : world) (specs : list importspec) (q : string) (p : package) : Prop :=
  (exists i, In i specs /\ binds W i q p) /\ forall i p', In i specs -> binds W i q p' -> p' = p.

(** the type [e] is made with [x]; a qualified name has no parts *)
Inductive part (x : expr) : expr -> Prop :=
| pa_self : part x x
| pa_star e : part x e -> part x (Star e)
| pa_ellipsis e : part x e -> part x (Ellipsis e)
| pa_array n e : part x e -> part x (ArrayT n e)
| pa_key k v : part x k -> part x (MapT k v)
| pa_value k v : part x v -> part x (MapT k v)
| pa_chan d e : part x e -> part x (ChanT d e)
| pa_param ps rs f : In f ps -> part x (f_type f) -> part x (FuncT ps rs)
| pa_result ps rs f : In f rs -> part x (f_type f) -> part x (FuncT ps (Some rs))
| pa_field fs f : In f fs -> part x (f_type f) -> part x (StructT fs)
| pa_generic e i : part x e -> part x (IndexE e i)
| pa_index e i : part x i -> part x (IndexE e i)
| pa_generics e is : part x e -> part x (IndexListE e is)
| pa_indices e i is : In i is -> part x i -> part x (IndexListE e is)
| pa_paren e : part x e -> part x (ParenE e).

(** the element [fd] stands in an interface of file [f] of [p] *)
Definition element_of (p : package) (f : gofile) (fd : field) : Prop :=
  exists ts l, declared_in p f ts /\ ts_type ts = InterfaceT (Some l) /\ In fd l.

(** [m] is made of [fd] of file [f'] of package [p'], whose own types are
    written with [a'] *)
Definition comes_from (Or : oracle) (W : world) (p : package) (a T k : string) (m : method) (p' : package) (a' : string) (f' : gofile) (fd : field) : Prop :=
  decl_of W p a T k p' a' fd /\ element_of p' f' fd /\
  exists types gts gps, Permutation types (all_types p') /\ NewMethod Or (PrintType Or types a') gts gps k fd = Ok m.
Definition qualifiers_kept (W : world) (specs : list importspec) (p' : package) (f' : gofile) (fd : field) : Prop :=
  forall q s p2, part (Selector (Ident q) s) (f_type fd) -> q <> "." -> q <> "_" -> import_of W p' f' q p2 -> means W specs q p2.
Definition types_found (W : world) (specs : list importspec) (p' : package) (a' : string) (fd : field) : Prop :=
  forall n, part (Ident n) (f_type fd) -> In n (map ts_name (all_types p')) -> a' <> "" -> means W specs a' p'.

(** no blank, not empty *)
Fixpoint blankless (s : string) : bool :=
  match s with EmptyString => true | String c r => negb (byte_eqb c " ") && blankless r end.
Definition name_like (s : string) : Prop := s <> "" /\ blankless s = true.
(** packages as Go wants them: resolvable imports with distinct names that are
    names, packages found under their paths *)
Record go_world (W : world) : Prop := {
  gw_files : forall p f, known W p -> In f (pk_files p) -> go_file W p f;
  gw_names : forall p f i n, known W p -> In f (pk_files p) -> In i (gf_imports f) -> im_name i = Some n -> name_like n;
  gw_paths : forall p, known W p -> w_load W (pk_path p) = Ok p
}.
Definition C74_statement : Prop := forall Or E W fuel o g text suffix lower upper t toks,
  well_formed W -> go_world W -> NewGenerator Or E W fuel o = Some (Ok g) -> known W (g_src g) -> op_imports o = [] ->
  In (text, suffix) stock -> source_tokens lower upper text t = Some toks ->
  exists a, g_interfaceType g = (if String.eqb a "" then op_interface o else a ++ "." ++ op_interface o)%string /\
  forall k m, In (k, m) (g_methods g) -> exists p' a' f' fd, comes_from Or W (g_src g) a (op_interface o) k m p' a' f' fd /\
    qualifiers_kept W (file_imports g toks) p' f' fd /\ types_found W (file_imports g toks) p' a' fd.

(** ** Proof *)

Lemma read_line_name : forall n pre path, blankless n = true -> n <> "" \/ pre <> "" ->
  read_line pre (n ++ " " ++ path)%string = ImportSpec (Some (pre ++ n)%string) path.
Proof.
  induction n as [|c n IH]; intros pre path Hb Hn.
  - cbn [append read_line]. change (byte_eqb " " " ") with true. cbn iota. rewrite sapp_nil_r. destruct pre; [|reflexivity]. destruct Hn as [Hn|Hn]; elim Hn; reflexivity.
  - cbn [append read_line]. cbn [blankless] in Hb. apply andb_prop in Hb as (Hc & Hb). apply Bool.negb_true_iff in Hc. rewrite Hc.
    change (n ++ String " " path)%string with (n ++ " " ++ path)%string. rewrite IH; [|exact Hb|].
    + f_equal. f_equal. rewrite sapp_assoc. reflexivity.
    + right. destruct pre; discriminate.
Qed.
Lemma read_made : forall l, (forall i n, In i l -> im_name i = Some n -> name_like n) -> map (read_line "") (makeImports l) = l.
Proof.
  induction l as [|i l IH]; intros H; [reflexivity|]. cbn [makeImports map]. f_equal; [|apply IH; intros j n Hj; apply (H j n); right; exact Hj].
  destruct i as [[n|] path]; cbn [im_name im_path]; [|reflexivity]. destruct (H _ n (or_introl eq_refl) eq_refl) as (H1 & H2).
  now rewrite read_line_name by auto.
Qed.

Lemma decl_element : forall W p a T k p' a' fd, decl_of W p a T k p' a' fd -> exists f', element_of p' f' fd.
Proof. intros W p a T k p' a' fd D. induction D; [|assumption|assumption|assumption|assumption]. exists f, ts, l. auto. Qed.

Lemma import_known : forall W p f q p', import_of W p f q p' -> known W p'.
Proof. intros W p f q p' (i & path & id & _ & _ & _ & _ & P). left. eauto. Qed.
Lemma decl_known : forall W p a T k p' a' fd, decl_of W p a T k p' a' fd -> known W p -> known W p'.
Proof. intros W p a T k p' a' fd D. induction D; intros K; auto; apply IHD; eapply import_known; eauto. Qed.

Lemma target_imports : forall Or W fuel path p a T g out, well_formed W -> known W p ->
  findTarget Or W fuel path p a T g = Some (Ok out) -> exists f ts, declared_in p f ts /\ ts_name ts = T /\ out_imports out = gf_imports f.
Proof.
  intros Or W [|fuel] path p a T g out WF K H; [discriminate|]. cbn [findTarget] in H. rewrite iterateFiles_eq in H.
  destruct (fold_left _ _ _) as [[ts f]|] eqn:Es; [|discriminate].
  apply fbind_ok in H. destruct H as (gts & _ & H). apply fbind_ok in H. destruct H as (ms & Hm & H).
  injection H as <-. cbn [out_imports].
  destruct (sel_Some _ _ _ _ _ Es) as [(Hf & Ht & <-)|]; [|discriminate].
  apply (Permutation_in _ (wf_rnd_files W WF p path K)) in Hf. exists f, ts. split; [now split|auto].
Qed.

Lemma bound_import : forall W p f i q p', go_file W p f -> In i (gf_imports f) -> binds W i q p' -> import_of W p f q p'.
Proof.
  intros W p f i q p' GF Hi (path & E & L & Hq). destruct (gf_resolved _ _ _ GF i Hi) as (path' & id & p1 & E1 & _ & A & P & L1).
  rewrite E in E1. apply quoted_inj in E1. subst path'. rewrite L in L1. injection L1 as <-. exists i, path, id. auto.
Qed.
Lemma import_bound : forall W p f q p', go_file W p f -> import_of W p f q p' -> exists i, In i (gf_imports f) /\ binds W i q p'.
Proof.
  intros W p f q p' GF (i & path & id & Hi & E & Hq & A & P). exists i. split; [exact Hi|].
  destruct (gf_resolved _ _ _ GF i Hi) as (path' & id' & p1 & E1 & _ & A1 & P1 & L1).
  rewrite E in E1. apply quoted_inj in E1. subst path'. rewrite A in A1. injection A1 as <-. rewrite P in P1. injection P1 as <-.
  exists path. auto.
Qed.
Lemma import_one : forall W p f q p1 p2, q <> "." -> q <> "_" -> go_file W p f -> import_of W p f q p1 -> import_of W p f q p2 -> p1 = p2.
Proof.
  intros W p f q p1 p2 Nd Nb GF (i & path & id & Hi & E & Hq & A & P) (i' & path' & id' & Hi' & E' & Hq' & A' & P').
  assert (path = path') by (eapply (gf_distinct _ _ _ GF i i'); eauto). subst path'. congruence.
Qed.

Lemma header_of : forall Or E W fuel o g, well_formed W -> go_world W -> NewGenerator Or E W fuel o = Some (Ok g) -> known W (g_src g) -> op_imports o = [] ->
  let a := ast_name E o (g_src g) (g_dst_path g) in
  g_interfaceType g = (if String.eqb a "" then op_interface o else a ++ "." ++ op_interface o)%string /\
  (forall k m, In (k, m) (g_methods g) -> exists p' a' f' fd, comes_from Or W (g_src g) a (op_interface o) k m p' a' f' fd) /\
  exists f ts, declared_in (g_src g) f ts /\ ts_name ts = op_interface o /\
    (blankless a = true -> header_imports g = (if String.eqb a "" then [] else [ImportSpec (Some a) (quoted (pk_path (g_src g)))]) ++ gf_imports f).
Proof.
  intros Or E W fuel o g WF GW H K Ho a. destruct (NewGenerator_inv _ _ _ _ _ _ H) as (out & _ & _ & _ & _ & _ & HT & HM & _ & _ & _ & HI & HN).
  fold a in HT, HI, HN. assert (Ea : String.eqb (pk_path (g_src g)) (g_dst_path g) = String.eqb a "").
  { destruct (String.eqb_spec (pk_path (g_src g)) (g_dst_path g)) as [e|e], (String.eqb_spec a "") as [e'|e']; try reflexivity; exfalso.
    - apply e'. unfold a. now apply ast_name_empty.
    - apply e. now apply (ast_name_empty E o). }
  rewrite Ea in HI, HN. split; [exact HN|]. split.
  - intros k m Hi. destruct (C63_sourced Or W [] (g_src g) a (op_interface o) fuel out k m WF K HT) as (p' & a' & fd & types & gts & gps & D & P & N & _); [eauto|].
    destruct (decl_element _ _ _ _ _ _ _ _ D) as (f' & HE). exists p', a', f', fd. split; [exact D|]. split; [exact HE|]. eauto.
  - destruct (target_imports _ _ _ _ _ _ _ _ _ WF K HT) as (f & ts & D & Hn & Hi). exists f, ts. split; [exact D|]. split; [exact Hn|].
    intros Hb. unfold header_imports. rewrite HI, Ho, Hi. cbn [app]. rewrite map_app. f_equal.
    + destruct (String.eqb_spec a "") as [|N]; [reflexivity|]. cbn [map]. f_equal. change quote with (String "034" ""). 
      rewrite read_line_name by auto. reflexivity.
    + apply read_made. intros i n Hi' Hn'. eapply gw_names; eauto. exact (proj1 D).
Qed.

(** What holds.  Each method comes from a declaration in some file [f'] of some
    package [p']; [f] is the file of the interface that was asked for.
    Qualifiers: if [f'] imports no more than [f] does (it may be [f] itself) they
    keep their meaning, unless the template imports another package of the same
    name.  Own types: those of the source package are found, and (last part, with
    the package's name for [q]) those of a package that [f] imports under its own
    name. *)
Theorem C74_scope_partial : forall Or E W fuel o g toks,
  well_formed W -> go_world W -> NewGenerator Or E W fuel o = Some (Ok g) -> known W (g_src g) -> op_imports o = [] ->
  exists a f ts, g_interfaceType g = (if String.eqb a "" then op_interface o else a ++ "." ++ op_interface o)%string /\
  declared_in (g_src g) f ts /\ ts_name ts = op_interface o /\
  (blankless a = true -> (forall p', ~ import_of W (g_src g) f a p') ->
  (forall k m, In (k, m) (g_methods g) -> exists p' a' f' fd, comes_from Or W (g_src g) a (op_interface o) k m p' a' f' fd /\
    ((forall i, In i (gf_imports f') -> In i (gf_imports f)) ->
     (forall q p2 p3 i, import_of W p' f' q p2 -> In i (leading_imports toks) -> binds W i q p3 -> p3 = p2) ->
     qualifiers_kept W (file_imports g toks) p' f' fd)) /\
  (a <> "" -> (forall i p3, In i (leading_imports toks) -> binds W i a p3 -> p3 = g_src g) -> means W (file_imports g toks) a (g_src g)) /\
  (forall q p2, q <> "." -> q <> "_" -> import_of W (g_src g) f q p2 ->
     (forall i p3, In i (leading_imports toks) -> binds W i q p3 -> p3 = p2) -> means W (file_imports g toks) q p2)).
Proof.
  intros Or E W fuel o g toks WF GW H K Ho. destruct (header_of Or E W fuel o g WF GW H K Ho) as (HN & HM & f & ts & D & Hn & HH).
  set (a := ast_name _ _ _ _) in *. exists a, f, ts. split; [exact HN|]. split; [exact D|]. split; [exact Hn|]. intros Hb Ha. specialize (HH Hb).
  assert (GF : go_file W (g_src g) f) by (eapply gw_files; eauto; exact (proj1 D)).
  assert (HF : forall q p2, q <> "." -> q <> "_" -> import_of W (g_src g) f q p2 ->
     (forall i p3, In i (leading_imports toks) -> binds W i q p3 -> p3 = p2) -> means W (file_imports g toks) q p2).
  { intros q p2 Nd Nb HI HL. unfold file_imports. rewrite HH. split.
    - destruct (import_bound _ _ _ _ _ GF HI) as (i & Hi & HB). exists i. split; [|exact HB]. rewrite !in_app_iff. auto.
    - intros i p' Hi HB. rewrite !in_app_iff in Hi. destruct Hi as [[Hi|Hi]|Hi].
      + destruct (String.eqb a ""); [destruct Hi|]. destruct Hi as [<-|[]]. destruct HB as (path & _ & _ & [HB|[HB _]]); cbn in HB; [|discriminate].
        injection HB as <-. now elim (Ha p2).
      + eapply import_one; [exact Nd|exact Nb|exact GF| |exact HI]. eapply bound_import; eauto.
      + eauto. }
  split; [|split].
  - intros k m Hi. destruct (HM k m Hi) as (p' & a' & f' & fd & C). exists p', a', f', fd. split; [exact C|].
    intros HI HL q s p2 _ Nd Nb HQ. apply HF; [exact Nd|exact Nb| |intros; eapply HL; eauto].
    assert (K' : known W p').
    { destruct C as (DD & _). exact (decl_known _ _ _ _ _ _ _ _ DD K). }
    assert (GF' : go_file W p' f') by (eapply gw_files; eauto; destruct C as (_ & (ts' & l & (Hf' & _) & _) & _); exact Hf').
    destruct (import_bound _ _ _ _ _ GF' HQ) as (i & Hin & HB). eapply bound_import; eauto.
  - intros Hne HL. unfold file_imports. rewrite HH. destruct (String.eqb_spec a ""); [contradiction|]. split.
    + eexists. split; [left; reflexivity|]. exists (pk_path (g_src g)). split; [reflexivity|]. split; [now apply gw_paths|]. now left.
    + intros i p' Hi HB. cbn [app In] in Hi. rewrite in_app_iff in Hi. destruct Hi as [<-|[Hi|Hi]].
      * destruct HB as (path & HB & HL' & _). cbn in HB. apply quoted_inj in HB. subst path. rewrite gw_paths in HL' by auto. congruence.
      * elim (Ha p'). eapply bound_import; eauto.
      * eauto.
  - exact HF.
Qed.

(** An interface without embedded elements: its names keep their meaning, but
    for packages of the template with the same name. *)
Theorem C74_plain_partial : forall Or E W fuel o g toks f ts l,
  well_formed W -> go_world W -> NewGenerator Or E W fuel o = Some (Ok g) -> known W (g_src g) -> op_imports o = [] ->
  declared_in (g_src g) f ts -> ts_name ts = op_interface o -> ts_type ts = InterfaceT (Some l) -> (forall fd, In fd l -> exists ps rs, f_type fd = FuncT ps rs) ->
  exists a, g_interfaceType g = (if String.eqb a "" then op_interface o else a ++ "." ++ op_interface o)%string /\
  (blankless a = true -> (forall p', ~ import_of W (g_src g) f a p') ->
   (forall q p2 p3 i, q = a /\ p2 = g_src g \/ import_of W (g_src g) f q p2 -> In i (leading_imports toks) -> binds W i q p3 -> p3 = p2) ->
   forall k m, In (k, m) (g_methods g) -> exists fd, In fd l /\ comes_from Or W (g_src g) a (op_interface o) k m (g_src g) a f fd /\
     qualifiers_kept W (file_imports g toks) (g_src g) f fd /\ types_found W (file_imports g toks) (g_src g) a fd).
Proof.
  intros Or E W fuel o g toks f ts l WF GW H K Ho D Hn T HL.
  destruct (C74_scope_partial Or E W fuel o g toks WF GW H K Ho) as (a & f0 & ts0 & HN & D0 & Hn0 & HS). exists a. split; [exact HN|].
  destruct (unique_decl W _ _ _ _ _ WF K D D0 ltac:(congruence)) as (<- & <-).
  intros Hb Ha HC k m Hi. destruct (HS Hb Ha) as (H1 & H2 & H3). destruct (H1 k m Hi) as (p' & a' & f' & fd & (DD & HE & types & gts & gps & HP & HM) & _).
  assert (E0 : p' = g_src g /\ a' = a /\ In fd l).
  { rewrite <- Hn in DD. remember (ts_name ts) as n0 eqn:En. destruct DD;
      match goal with X : declared_in _ ?g0 ?t0 |- _ => destruct (unique_decl W _ _ _ _ _ WF K D X (eq_sym En)) as (<- & <-) end; rewrite T in *;
      match goal with
      | X : InterfaceT _ = InterfaceT _ |- _ => injection X as <-
      | X : base (InterfaceT _) = _ |- _ => discriminate X
      end; auto;
      match goal with X : In ?e l, Y : base (f_type ?e) = _ |- _ => destruct (HL _ X) as (? & ? & EF); rewrite EF in Y; discriminate Y end. }
  destruct E0 as (-> & -> & Hfd). assert (HE' : element_of (g_src g) f fd) by (exists ts, l; auto).
  exists fd. split; [exact Hfd|]. split; [split; [exact DD|]; split; [exact HE'|eauto]|]. split.
  - intros q s p2 _ Nd Nb HQ.
    apply H3; auto. intros i p3 Hin HB. eapply HC; eauto.
  - intros n _ _ Hne. apply H2; [exact Hne|]. intros i p3 Hin HB. eapply HC; eauto.
Qed.

(** The packages each stock template imports. *)
Definition plainly (path : string) : importspec := ImportSpec None (quoted path).
Definition as_name (n path : string) : importspec := ImportSpec (Some n) (quoted path).
Definition stock_imports : list (string * list importspec) :=
  [(text_circuitbreaker, [plainly "errors"; plainly "sync"; plainly "time"]);
   (text_fallback, [plainly "errors"; plainly "fmt"; plainly "strings"; plainly "time"]);
   (text_grpc_validate, [as_name "grpc_codes" "google.golang.org/grpc/codes"; as_name "grpc_status" "google.golang.org/grpc/status"]);
   (text_log, [plainly "io"; plainly "log"]);
   (text_logrus, [plainly "io"; plainly "github.com/sirupsen/logrus"]);
   (text_opencensus, [plainly "go.opencensus.io/trace"]);
   (text_opentelemetry, [plainly "context"; as_name "_codes" "go.opentelemetry.io/otel/codes"; plainly "go.opentelemetry.io/otel"; plainly "go.opentelemetry.io/otel/attribute"; plainly "go.opentelemetry.io/otel/trace"]);
   (text_opentracing, [as_name "opentracing" "github.com/opentracing/opentracing-go"; as_name "_ext" "github.com/opentracing/opentracing-go/ext"; as_name "_log" "github.com/opentracing/opentracing-go/log"]);
   (text_prometheus, [plainly "time"; plainly "github.com/prometheus/client_golang/prometheus"; plainly "github.com/prometheus/client_golang/prometheus/promauto"]);
   (text_ratelimit, [plainly "time"]);
   (text_retry, [plainly "time"]);
   (text_robinpool, [plainly "sync/atomic"; plainly "errors"]);
   (text_syncpool, []);
   (text_timeout, [plainly "context"; plainly "time"]);
   (text_twirp_error, [plainly "github.com/twitchtv/twirp"]);
   (text_twirp_validate, [plainly "github.com/twitchtv/twirp"]);
   (text_validate, [])].
Lemma leading_decl : forall l rest, leading_imports (glue false (import_decl l :: rest)) = read_specs (semis l ++ [TP ")"] ++ glue true rest).
Proof. intros l rest. unfold import_decl. cbn [glue due]. rewrite <- !app_assoc. reflexivity. Qed.
Lemma leading_struct : forall d l rest, leading_imports (glue false (struct_decl d l :: rest)) = [].
Proof. intros. reflexivity. Qed.
Ltac lead G :=
  apply source_generates in G; heads G; eexists; split; [exact G|];
  match goal with
  | |- leading_imports (glue false (import_decl ?l :: ?r)) = _ => rewrite leading_decl; generalize (glue true r); intros; vm_compute; reflexivity
  | |- leading_imports (glue false (struct_decl ?l ?d :: ?r)) = _ => apply leading_struct
  end.
Theorem C74_template_imports : forall text specs lower upper t, In (text, specs) stock_imports ->
  exists toks, source_tokens lower upper text t = Some toks /\ leading_imports toks = specs.
Proof.
  intros text specs lower upper t H. unfold stock_imports in H. cbn [In] in H.
  repeat destruct H as [H|H]; try (now destruct H); injection H as <- <-.
  - pose proof (circuitbreaker_generated lower upper t) as G. lead G.
  - pose proof (fallback_generated lower upper t) as G. lead G.
  - pose proof (grpc_validate_generated lower upper t) as G. lead G.
  - pose proof (log_generated lower upper t) as G. lead G.
  - pose proof (logrus_generated lower upper t) as G. lead G.
  - pose proof (opencensus_generated lower upper t) as G. lead G.
  - pose proof (opentelemetry_generated lower upper t) as G. lead G.
  - pose proof (opentracing_generated lower upper t) as G. lead G.
  - pose proof (prometheus_generated lower upper t) as G. lead G.
  - pose proof (ratelimit_generated lower upper t) as G. lead G.
  - pose proof (retry_generated lower upper t) as G. lead G.
  - pose proof (robinpool_generated lower upper t) as G. lead G.
  - pose proof (syncpool_generated lower upper t) as G. lead G.
  - pose proof (timeout_generated lower upper t) as G. lead G.
  - pose proof (twirp_error_generated lower upper t) as G. lead G.
  - pose proof (twirp_validate_generated lower upper t) as G. lead G.
  - pose proof (validate_generated lower upper t) as G. lead G.
Qed.

Theorem C74_elasticapm_imports : forall lower upper t, (forall m, In m (map snd (td_methods t)) -> ctx_first m) ->
  exists toks, source_tokens lower upper text_elasticapm t = Some toks /\ leading_imports toks = [plainly "context"; plainly "go.elastic.co/apm/v2"].
Proof. intros lower upper t H. pose proof (elasticapm_generated lower upper t H) as G. lead G. Qed.

(** ** Refutations *)

Lemma known_of : forall ps p, known (world_of ps) p -> In p (map snd ps).
Proof.
  intros ps p [(id & H)|(path & H)]; cbn in H.
  - apply assoc_In in H. apply in_map_iff. exists (id, p). auto.
  - destruct (assoc path ps) as [p1|] eqn:E; [|discriminate]. injection H as ->. apply assoc_In in E. apply in_map_iff. exists (path, p). auto.
Qed.
Ltac packages K := apply known_of in K; cbn [map snd In] in K; destruct_or K; subst
with destruct_or K := repeat match type of K with _ \/ _ => destruct K as [K|K] | False => destruct K end.
Ltac elements := repeat match goal with
  | H : In _ (pk_files _) |- _ => cbn in H; or_inv
  | H : In _ (gf_types _) |- _ => cbn in H; or_inv
  | H : In _ (gf_imports _) |- _ => cbn in H; or_inv
  | H : mentions _ _ |- _ => destruct H as (? & ? & [H|(? & ? & ? & ? & H)]); subst
  | H : ts_type _ = InterfaceT _ |- _ => cbn in H; try discriminate H; injection H as <-
  | H : In _ [_] |- _ => cbn in H; or_inv
  | H : In _ (_ :: _) |- _ => cbn in H; or_inv
  end.

(** file 1: type T interface { Base }; file 2: import "x/dep";
    type Base interface { Do(dep.Arg) } *)
Definition parg : package := Package "x/dep" "dep" [GoFile [TypeSpec "Arg" None (StructT [])] []] [] None.
Definition psplit : package := Package "m" "m" [GoFile [iface "T" [emb (Ident "Base")]] [];
   GoFile [iface "Base" [meth "Do" [Selector (Ident "dep") "Arg"] []]] [plainly "x/dep"]] [("x/dep", "x/dep")] None.
Definition Wsplit : world := world_of [("x/dep", parg); ("m", psplit)].

Ltac distinct_names := repeat (apply NoDup_cons; [cbn; intuition discriminate|]); apply NoDup_nil.
(** a world of packages with methods and embedded elements only *)
Ltac small_world selectors :=
  constructor;
  [ intros p K; packages K; vm_compute; distinct_names
  | intros p K; packages K; vm_compute; distinct_names
  | intros; apply Permutation_refl
  | intros; apply Permutation_refl
  | intros p f e x s K Hf Hm Hb; packages K; elements; try discriminate Hb; selectors Hb
  | intros p f e n K Hf Hm Hb; packages K; elements; try discriminate Hb; injection Hb as <-; left; cbn; auto
  | intros p f f' q p' Nd Nb K Hf Hf' (i & path & id & Hi & Hp & Hq & Ha & Hw); packages K; elements;
    cbn in Hp; apply quoted_inj in Hp; subst path; cbn in Ha; injection Ha as <-; cbn in Hw; injection Hw as <-;
    (split; [intros j Hj Hn; cbn in Hj; or_inv; try discriminate; (eexists _, _; (split; [reflexivity|]); split; reflexivity) |
      intros path id b Hi Hb Hn; destruct Hi as [Hi|[]]; injection Hi as <- <-; cbn in Hb; congruence])
  | intros p f ts n K (Hf & Ht) Et; packages K; elements; discriminate Et
  | intros p f ts q s p' K (Hf & Ht) Et; packages K; elements; discriminate Et
  | intros p f ts m K (Hf & Ht) Et; packages K; elements; now elim Et ].
Ltac small_go :=
  constructor;
  [ intros p f K Hf; packages K; elements; (constructor;
    [ vm_compute; distinct_names | intros; apply Permutation_refl
    | intros i Hi; cbn in Hi; or_inv; eexists _, _, _; (split; [reflexivity|]); vm_compute; auto
    | intros i i' path path' q p1 p1' id id' Nd Nb Hi Hi' Hp Ha Hw Hq Hp' Ha' Hw' Hq'; cbn in Hi, Hi'; or_inv; cbn in Hp, Hp';
      apply quoted_inj in Hp; apply quoted_inj in Hp'; congruence ])
  | intros p f i n K Hf Hi Hn; packages K; elements; try discriminate Hn; injection Hn as <-; (split; [discriminate|reflexivity])
  | intros p K; packages K; reflexivity ].
Definition outside (T : string) : options := Options T [] "m" None "" "gen/out.go" "" "" "".

Example well_formed_split : well_formed Wsplit.
Proof. small_world ltac:(fun H => idtac). Qed.
Example go_world_split : go_world Wsplit.
Proof. small_go. Qed.
Definition psrc (W : world) : package := match w_load W "m" with Ok p => p | _ => parg end.
Definition ran (W : world) : generator :=
  match NewGenerator Oex Eex W 20 (outside "T") with Some (Ok g) => g | _ => Generator (outside "T") (psrc W) "" "" "" "" "" [] end.

(** import foo "x/bar"; type T interface { foo.Doer }, where package bar has
    type Doer interface { Do(Arg) } *)
Definition pbar : package := Package "x/bar" "bar" [GoFile [iface "Doer" [meth "Do" [Ident "Arg"] []]; TypeSpec "Arg" None (StructT [])] []] [] None.
Definition palias : package := Package "m" "m" [GoFile [iface "T" [emb (Selector (Ident "foo") "Doer")]] [as_name "foo" "x/bar"]] [("x/bar", "x/bar")] None.
Definition Walias : world := world_of [("x/bar", pbar); ("m", palias)].
Example well_formed_alias : well_formed Walias.
Proof. small_world ltac:(fun Hb => injection Hb as <- <-; exists "foo", pbar; (split; [reflexivity|]); (split; [discriminate|]); (split; [discriminate|]); eexists _, _, _; (split; [left; reflexivity|]); (split; [reflexivity|]); (split; [left; reflexivity|]); split; reflexivity). Qed.
Example go_world_alias : go_world Walias.
Proof. small_go. Qed.

(** import "x/errors"; type T interface { Do(errors.Kind) } *)
Definition pkind : package := Package "x/errors" "errors" [GoFile [TypeSpec "Kind" None (StructT [])] []] [] None.
Definition perrors : package := Package "errors" "errors" [GoFile [] []] [] None.
Definition pclash : package := Package "m" "m" [GoFile [iface "T" [meth "Do" [Selector (Ident "errors") "Kind"] []]] [plainly "x/errors"]] [("x/errors", "x/errors")] None.
Definition Wclash : world := world_of [("x/errors", pkind); ("errors", perrors); ("m", pclash)].
Example well_formed_clash : well_formed Wclash.
Proof. small_world ltac:(fun H => idtac). Qed.
Example go_world_clash : go_world Wclash.
Proof. small_go. Qed.

(** every declaration of T.Do leads to a violation *)
Lemma refute : forall W text suffix specs (lower upper : N -> N) (t : tdata),
  well_formed W -> go_world W -> NewGenerator Oex Eex W 20 (outside "T") = Some (Ok (ran W)) -> w_load W "m" = Ok (g_src (ran W)) ->
  In (text, suffix) stock -> In (text, specs) stock_imports ->
  (exists m, In ("Do", m) (g_methods (ran W))) ->
  (forall a p' a' f' fd, decl_of W (g_src (ran W)) a "T" "Do" p' a' fd -> element_of p' f' fd ->
     qualifiers_kept W (header_imports (ran W) ++ specs) p' f' fd -> types_found W (header_imports (ran W) ++ specs) p' a' fd -> False) ->
  ~ C74_statement.
Proof.
  intros W text suffix specs lower upper t WF GW HG HK HS HI (m & Hm) HR C. assert (K : known W (g_src (ran W))) by (right; eauto).
  destruct (C74_template_imports text specs lower upper t HI) as (toks & HT & HL).
  destruct (C Oex Eex W 20 (outside "T") (ran W) text suffix lower upper t toks WF GW HG K eq_refl HS HT) as (a & _ & HC).
  destruct (HC "Do" m Hm) as (p' & a' & f' & fd & (D & HE & _) & HQ & HF). unfold file_imports in HQ, HF. rewrite HL in HQ, HF.
  exact (HR a p' a' f' fd D HE HQ HF).
Qed.
Lemma no_meaning : forall W specs q p, means W specs q p -> (forall i, In i specs -> ~ binds W i q p) -> False.
Proof. intros W specs q p ((i & Hi & HB) & _) H. exact (H i Hi HB). Qed.

Lemma decl_step : forall W p a T k p' a' fd, decl_of W p a T k p' a' fd -> exists f ts, In f (pk_files p) /\ In ts (gf_types f) /\ ts_name ts = T /\
  ((exists l, ts_type ts = InterfaceT (Some l) /\
      ((In fd l /\ p' = p /\ a' = a /\ exists ps rs, f_type fd = FuncT ps rs) \/
       (exists e n, In e l /\ base (f_type e) = Ident n /\ decl_of W p a n k p' a' fd) \/
       (exists e q s p1, In e l /\ base (f_type e) = Selector (Ident q) s /\ import_of W p f q p1 /\ decl_of W p1 (pk_name p1) s k p' a' fd))) \/
   (exists n, base (ts_type ts) = Ident n) \/ (exists q s, base (ts_type ts) = Selector (Ident q) s)).
Proof.
  intros W p a T k p' a' fd D. destruct D as [p a f ts l fd k ns ps rs (H1 & H2) H3 H4 H5 H6|p a f ts l e n k p' a' fd (H1 & H2) H3 H4 H5 H6|
    p a f ts l e q s p1 k p' a' fd (H1 & H2) H3 H4 H5 H6 H7|p a f ts n k p' a' fd (H1 & H2) H3 H4|p a f ts q s p1 k p' a' fd (H1 & H2) H3 H4 H5];
    exists f, ts; (split; [exact H1|]); (split; [exact H2|]); (split; [reflexivity|]).
  - left. exists l. split; [exact H3|]. left. eauto 8.
  - left. exists l. split; [exact H3|]. right; left. eauto 8.
  - left. exists l. split; [exact H3|]. right; right. exists e, q, s, p1. auto.
  - right; left. eauto.
  - right; right. eauto.
Qed.
(** one step of the definition of a method in a small world *)
Ltac step D :=
  let f := fresh "f" in let ts := fresh "ts" in let Hf := fresh "Hf" in let Ht := fresh "Ht" in let Hn := fresh "Hn" in
  apply decl_step in D; destruct D as (f & ts & Hf & Ht & Hn & D); revert D; cbn in Hf; or_inv; cbn in Ht; or_inv; try discriminate Hn; clear Hn;
  intros D; destruct D as [(?l & ?Et & D)|[(?n & D)|(?q & ?s & D)]]; try (cbn in D; discriminate D);
  match goal with Et : _ = InterfaceT (Some _) |- _ => try discriminate Et; injection Et as <- end;
  destruct D as [(D & ?Ep & ?Ea & ?ps & ?rs & ?HF)|[(?e & ?n & ?He & ?Hb & D)|(?e & ?q & ?s & ?p1 & ?He & ?Hb & ?HI & D)]];
  try match goal with He : In ?e _, Hb : base (f_type ?e) = _ |- _ => destruct He as [<-|[]]; cbn in Hb; try discriminate Hb; injection Hb; clear Hb; intros; subst end;
  try match goal with HF : f_type _ = FuncT _ _ |- _ => destruct D as [<-|[]]; try discriminate HF; clear HF end.

Lemma split_decl : forall a p' a' fd, decl_of Wsplit psplit a "T" "Do" p' a' fd -> p' = psplit /\ fd = meth "Do" [Selector (Ident "dep") "Arg"] [].
Proof. intros a p' a' fd D. step D. step D. auto. Qed.
Lemma alias_decl : forall a p' a' fd, decl_of Walias palias a "T" "Do" p' a' fd -> p' = pbar /\ a' = "bar" /\ fd = meth "Do" [Ident "Arg"] [].
Proof.
  intros a p' a' fd D. step D. destruct HI as (i & path & id & Hi & Hp & _ & Ha & Hw). destruct Hi as [<-|[]]. cbn in Hp. apply quoted_inj in Hp. subst path.
  cbn in Ha. injection Ha as <-. cbn in Hw. injection Hw as <-. step D. auto.
Qed.
Lemma clash_decl : forall a p' a' fd, decl_of Wclash pclash a "T" "Do" p' a' fd -> p' = pclash /\ fd = meth "Do" [Selector (Ident "errors") "Kind"] [].
Proof. intros a p' a' fd D. step D. auto. Qed.

(** the generated file does not import the package of Do's parameter *)
Theorem C74_other_file_refuted : ~ C74_statement.
Proof.
  apply (refute Wsplit text_syncpool "Pool" [] (fun s => s) (fun s => s) ex_t well_formed_split go_world_split).
  - vm_compute; reflexivity.
  - vm_compute; reflexivity.
  - unfold stock. cbn [In]. auto 20.
  - unfold stock_imports. cbn [In]. auto 20.
  - eexists. vm_compute. left. reflexivity.
  - change (g_src (ran Wsplit)) with psplit. replace (header_imports (ran Wsplit) ++ []) with [as_name "_sourcem" "m"] by (vm_compute; reflexivity).
    intros a p' a' f' fd D HE HQ _. apply split_decl in D as (-> & ->). destruct HE as (ts & l & (Hf & Ht) & Et & Hfd).
    elements; try discriminate. apply (no_meaning Wsplit [as_name "_sourcem" "m"] "dep" parg).
    + apply (HQ "dep" "Arg"); [|discriminate|discriminate|].
      * eapply pa_param; [left; reflexivity|apply pa_self].
      * eexists _, _, _. split; [left; reflexivity|]. split; [reflexivity|]. split; [right; split; [reflexivity|]|split; reflexivity]. auto.
    + intros i [<-|[]] (path & _ & _ & [HX|[HX _]]); discriminate HX.
Qed.

(** Do's parameter is bar.Arg, but the generated file calls the package foo *)
Theorem C74_alias_refuted : ~ C74_statement.
Proof.
  apply (refute Walias text_syncpool "Pool" [] (fun s => s) (fun s => s) ex_t well_formed_alias go_world_alias).
  - vm_compute; reflexivity.
  - vm_compute; reflexivity.
  - unfold stock. cbn [In]. auto 20.
  - unfold stock_imports. cbn [In]. auto 20.
  - eexists. vm_compute. left. reflexivity.
  - change (g_src (ran Walias)) with palias. replace (header_imports (ran Walias) ++ []) with [as_name "_sourcem" "m"; as_name "foo" "x/bar"] by (vm_compute; reflexivity).
    intros a p' a' f' fd D HE _ HT. apply alias_decl in D as (-> & -> & ->).
    apply (no_meaning Walias [as_name "_sourcem" "m"; as_name "foo" "x/bar"] "bar" pbar).
    + apply (HT "Arg"); [|cbn; auto|discriminate]. eapply pa_param; [left; reflexivity|apply pa_self].
    + intros i [<-|[<-|[]]] (path & _ & _ & [HX|[HX _]]); discriminate HX.
Qed.

(** errors has two meanings in the generated file *)
Theorem C74_template_clash_refuted : ~ C74_statement.
Proof.
  apply (refute Wclash text_circuitbreaker "WithCircuitBreaker" [plainly "errors"; plainly "sync"; plainly "time"] (fun s => s) (fun s => s) ex_t well_formed_clash go_world_clash).
  - vm_compute; reflexivity.
  - vm_compute; reflexivity.
  - unfold stock. cbn [In]. auto 20.
  - unfold stock_imports. cbn [In]. auto 20.
  - eexists. vm_compute. left. reflexivity.
  - change (g_src (ran Wclash)) with pclash. replace (header_imports (ran Wclash)) with [as_name "_sourcem" "m"; plainly "x/errors"] by (vm_compute; reflexivity).
    intros a p' a' f' fd D HE HQ _. apply clash_decl in D as (-> & ->). destruct HE as (ts & l & (Hf & Ht) & Et & Hfd).
    elements. destruct (HQ "errors" "Kind" pkind) as (_ & HM); [|discriminate|discriminate| |].
    + eapply pa_param; [left; reflexivity|apply pa_self].
    + eexists _, _, _. split; [left; reflexivity|]. split; [reflexivity|]. split; [right; split; [reflexivity|]|split; reflexivity]. auto.
    + assert (X : perrors = pkind); [|discriminate X]. apply (HM (plainly "errors")); [cbn; auto|]. exists "errors". split; [reflexivity|]. split; [reflexivity|]. auto.
Qed.

(** The hypotheses of the positive theorems: the source of the last refutation
    with a template that does not import errors. *)
Definition fclash : gofile := hd (GoFile [] []) (pk_files pclash).
Definition do_kind : field := meth "Do" [Selector (Ident "errors") "Kind"] [].
Lemma prefix_inj : forall r s a : string, (s ++ r = a ++ r)%string -> s = a.
Proof.
  intros r. induction s as [|c s IH]; intros [|d a] HN; cbn in HN.
  - reflexivity.
  - exfalso. apply (f_equal String.length) in HN. cbn in HN. rewrite slength_app in HN. lia.
  - exfalso. apply (f_equal String.length) in HN. cbn in HN. rewrite slength_app in HN. lia.
  - injection HN as -> HN. f_equal. eauto.
Qed.
Example scope_ex : exists toks, source_tokens (fun s => s) (fun s => s) text_ratelimit ex_t = Some toks /\ leading_imports toks = [plainly "time"] /\
  forall k m, In (k, m) (g_methods (ran Wclash)) -> exists fd, In fd [do_kind] /\ comes_from Oex Wclash pclash "_sourcem" "T" k m pclash "_sourcem" fclash fd /\
  qualifiers_kept Wclash (file_imports (ran Wclash) toks) pclash fclash fd /\ types_found Wclash (file_imports (ran Wclash) toks) pclash "_sourcem" fd.
Proof.
  destruct (C74_template_imports text_ratelimit [plainly "time"] (fun s => s) (fun s => s) ex_t) as (toks & HT & HL); [unfold stock_imports; cbn [In]; auto 20|].
  exists toks. split; [exact HT|]. split; [exact HL|].
  assert (HG : NewGenerator Oex Eex Wclash 20 (outside "T") = Some (Ok (ran Wclash))) by (vm_compute; reflexivity).
  assert (ES : g_src (ran Wclash) = pclash) by (vm_compute; reflexivity).
  assert (K : known Wclash (g_src (ran Wclash))) by (rewrite ES; right; exists "m"; reflexivity).
  destruct (C74_plain_partial Oex Eex Wclash 20 (outside "T") (ran Wclash) toks fclash (iface "T" [do_kind]) [do_kind]
    well_formed_clash go_world_clash HG K eq_refl) as (a & HN & H).
  - rewrite ES. split; cbn; auto.
  - reflexivity.
  - reflexivity.
  - intros fd [<-|[]]. cbn. eauto.
  - assert (a = "_sourcem") as ->.
    { change (g_interfaceType (ran Wclash)) with ("_sourcem" ++ ".T")%string in HN. destruct (String.eqb a "") eqn:Ea; [discriminate HN|]. symmetry. exact (prefix_inj _ _ _ HN). }
    rewrite ES in H. apply H.
    + reflexivity.
    + intros p' (i & path & id & Hi & Hp & Hq & Ha & Hw). destruct Hi as [<-|[]]. cbn in Hp. apply quoted_inj in Hp. subst path.
      cbn in Ha. injection Ha as <-. cbn in Hw. injection Hw as <-. cbn in Hq. destruct Hq as [Hq|[_ Hq]]; discriminate Hq.
    + intros q p2 p3 i _ Hi (path & Hp & Hw & _). rewrite HL in Hi. destruct Hi as [<-|[]]. cbn in Hp. apply quoted_inj in Hp. subst path. discriminate Hw.
Qed.

Print Assumptions C74_scope_partial.
Print Assumptions C74_plain_partial.
Print Assumptions C74_template_imports.
Print Assumptions C74_elasticapm_imports.
Print Assumptions C74_other_file_refuted.
Print Assumptions C74_alias_refuted.
Print Assumptions C74_template_clash_refuted.
