(** C51: what the user's parameter and result names can do to the generated
    bodies.

    A method with renamed parameters and results gets the same behaviour as long
    as the renaming leaves the identifiers of the template alone; a name that is
    one of these identifiers changes what the body does. *)
From Verif Require Import TypesSpec TypesProofs PropNaming Alike Sem.
Open Scope nat_scope.

Section RENAMING.
Variable ren : string -> string.

Definition rename_param (p : param) : param := Param (p_doc p) (p_comment p) (ren (p_name p)) (p_type p) (p_variadic p).
Definition rename (m : method) : method :=
  Method (m_doc m) (m_comment m) (m_name m) (map rename_param (m_params m)) (map rename_param (m_results m))
         (m_returnsError m) (m_acceptsContext m).
End RENAMING.

Definition injective (ren : string -> string) : Prop := forall x y, ren x = ren y -> x = y.
Definition fixes (ren : string -> string) (l : list string) : Prop := Forall (fun x => ren x = x) l.

(** worlds that give like answers to like questions *)
Definition worlds_agree (ren : string -> string) (W1 W2 : gworld) : Prop :=
  (forall t1 t2 o1 o2, trel ren t1 t2 -> oprel ren o1 o2 -> ansrel ren (w_ans W1 t1 o1) (w_ans W2 t2 o2)) /\
  (forall v v' t, vrel ren v v' -> w_has W1 v t = w_has W2 v' t).

(** identifiers every template uses: the receiver, the names NewMethod gives the
    context and the error (types.go:95-123), predeclared identifiers *)
Definition own : list string := ["_d"; "_"; "nil"; "true"; "ctx"; "err"].

(** behaviour does not depend on names other than [uses], for the methods
    accepted by [ok] *)
Definition names_free (uses : list string) (funcs : list (string * (list string * list gstmt)))
    (body : method -> list gstmt) (ok : (string -> string) -> method -> Prop) : Prop :=
  forall ren m, injective ren -> fixes ren (own ++ uses) -> ok ren m ->
  forall W1 W2 L recv recv' zeros zeros' args args', worlds_agree ren W1 W2 ->
  vrel ren recv recv' -> vsrel ren zeros zeros' -> vsrel ren args args' ->
  let x := run_method W1 m funcs L (body m) recv zeros args in
  let y := run_method W2 (rename ren m) funcs L (body (rename ren m)) recv' zeros' args' in
  outrel ren (vsrel ren) (fst x) (fst y) /\ trel ren (snd x) (snd y).
Definition any (ren : string -> string) (m : method) : Prop := True.

(** ** Proof *)

Lemma rename_mren : forall ren m, mren ren m (rename ren m).
Proof.
  intros ren m. unfold mren, param_names, result_names, rename. cbn. rewrite !map_map. repeat split.
Qed.

Lemma names_free_intro : forall uses funcs body (ok : (string -> string) -> method -> Prop),
  (forall ren m, injective ren -> fixes ren (own ++ uses) -> ok ren m ->
     map (fun f => (fst f, (map ren (fst (snd f)), map (rstmt ren) (snd (snd f))))) funcs = funcs /\
     Forall (fun f => fixes ren (fst (snd f) ++ flat_map snames (snd (snd f)))) funcs /\
     body (rename ren m) = map (rstmt ren) (body m) /\
     settled ren (method_env m) (flat_map snames (body m))) ->
  names_free uses funcs body ok.
Proof.
  intros uses funcs body ok H ren m Hi Hf Hok W1 W2 L recv recv' zeros zeros' args args' [Ha Hh] Hr Hz Hargs.
  destruct (H ren m Hi Hf Hok) as (E1 & E2 & E3 & E4). cbv zeta. rewrite E3.
  assert (Hb : ren "_" = "_" /\ ren "_d" = "_d").
  { unfold fixes in Hf. apply Forall_app in Hf as [Hf _]. inversion Hf as [|? ? Hd Hf2]; subst. inversion Hf2; subst. now split. }
  destruct (run_method_alike ren Hi (proj1 Hb) W1 W2 m (rename ren m) (rename_mren ren m) funcs funcs (eq_sym E1) E2 L False
    (fun t1 t2 o1 o2 Ht Ho => or_intror (Ha t1 t2 o1 o2 Ht Ho)) Hh (proj2 Hb) (body m) recv recv' zeros zeros' args args' Hr Hz Hargs E4)
    as [[[] _]|K]. exact K.
Qed.

Lemma rword_fix : forall ren x, ren (wtext x) = wtext x -> rword ren x = x.
Proof. intros ren x E. unfold rword. now rewrite E, String.eqb_refl. Qed.
Lemma rword_hole : forall ren p, rword ren [PH p] = [PH (ren p)].
Proof.
  intros ren p. unfold rword. cbn. rewrite sapp_nil_r. destruct (String.eqb_spec (ren p) p) as [->|]; reflexivity.
Qed.

(** the hypotheses about single names *)
Ltac fixed H := unfold fixes, own in H; cbn [app] in H;
  repeat match type of H with
  | Forall _ (_ :: _) => let K := fresh "K" in apply Forall_cons_iff in H as [K H]
  end.
Ltac words := repeat match goal with |- context [rword ?r ?w] => rewrite (rword_fix r w) by (cbn; rewrite ?sapp_nil_r; assumption) end.
Ltac names := repeat (apply Forall_cons; [left; cbn; rewrite ?sapp_nil_r; assumption|]); apply Forall_nil.
Ltac plain := intros ren m Hi Hf _; fixed Hf; (split; [reflexivity|]); (split; [constructor|]).
Ltac finish := split;
  [ cbn -[rword id]; words; reflexivity
  | unfold settled; cbn -[wtext id]; names ].

Lemma retry_free : forall name, names_free ["time"; "_ticker"; "_i"] [] (retry_body name) any.
Proof.
  intros name. apply names_free_intro. plain. unfold retry_body, retry_wait. cbn [rename m_acceptsContext].
  destruct (m_acceptsContext m); finish.
Qed.

Lemma timeout_free : forall name, names_free ["context"; "cancelFunc"] [] (timeout_body name) any.
Proof. intros name. apply names_free_intro. plain. unfold timeout_body. finish. Qed.

Lemma lookup_combine : forall x l n, In x l -> lookup x (combine l (seq n (length l))) <> None.
Proof.
  intros x. induction l as [|y l IH]; intros n [] ; cbn.
  - subst. rewrite String.eqb_refl. discriminate.
  - destruct (String.eqb x y); [discriminate | now apply IH].
Qed.

Lemma param_in_env : forall m p, In p (m_params m) -> lookup (p_name p) (method_env m) <> None.
Proof.
  intros m p H. unfold method_env. cbn. destruct (String.eqb (p_name p) "_d"); [discriminate|].
  apply lookup_combine. apply in_or_app. right. now apply in_map.
Qed.

Lemma filter_rename : forall ren m, injective ren -> ren "ctx" = "ctx" ->
  filter (not_ctx (rename ren m)) (m_params (rename ren m)) = map (rename_param ren) (filter (not_ctx m) (m_params m)).
Proof.
  intros ren m Hi Hc. cbn [rename m_params]. induction (m_params m) as [|p l IH]; [reflexivity|]. cbn [map filter].
  replace (not_ctx (rename ren m) (rename_param ren p)) with (not_ctx m p).
  - destruct (not_ctx m p); cbn [map]; now rewrite IH.
  - unfold not_ctx. cbn. f_equal. f_equal. destruct (String.eqb_spec (p_name p) "ctx") as [->|N]; [now rewrite Hc|].
    destruct (String.eqb_spec (ren (p_name p)) "ctx") as [E|]; [|reflexivity]. rewrite <- Hc in E. now apply Hi in E.
Qed.

Lemma settled_flat : forall {A} ren env (f : A -> gstmt) l, (forall x, In x l -> settled ren env (snames (f x))) ->
  settled ren env (flat_map snames (map f l)).
Proof.
  intros A ren env f. induction l as [|x l IH]; intros H; [constructor|]. cbn [map flat_map]. apply Forall_app.
  split; [apply H; now left | apply IH; intros; apply H; now right].
Qed.

(** a list of checks, one per parameter *)
Lemma checks : forall ren m (f : param -> gstmt) (rest : list gstmt), injective ren -> ren "ctx" = "ctx" ->
  (forall p, f (rename_param ren p) = rstmt ren (f p)) ->
  (forall p, In p (m_params m) -> settled ren (method_env m) (snames (f p))) ->
  map (rstmt ren) rest = rest -> settled ren (method_env m) (flat_map snames rest) ->
  let b m := (if m_returnsError m then map f (filter (not_ctx m) (m_params m)) else []) ++ rest in
  b (rename ren m) = map (rstmt ren) (b m) /\ settled ren (method_env m) (flat_map snames (b m)).
Proof.
  intros ren m f rest Hi Hc Hf Hs Hr Hsr. cbv beta zeta. rewrite filter_rename by assumption. cbn [rename m_returnsError]. split.
  - rewrite map_app, Hr. f_equal. destruct (m_returnsError m); [|reflexivity]. rewrite !map_map. apply map_ext. exact Hf.
  - rewrite flat_map_app. apply Forall_app. split; [|exact Hsr]. destruct (m_returnsError m); [|constructor].
    apply settled_flat. intros p Hp. apply Hs. now apply filter_In in Hp.
Qed.

Ltac names' := repeat (apply Forall_cons; [first [left; cbn; rewrite ?sapp_nil_r; assumption |
    right; cbn [wtext map concat]; cbn; rewrite ?sapp_nil_r; now apply param_in_env]|]); apply Forall_nil.
Ltac per_param := apply checks;
  [ assumption | assumption
  | intros p; cbn -[rword id]; rewrite ?rword_hole; words; reflexivity
  | intros p Hp; unfold settled; cbn -[wtext id method_env]; names'
  | cbn -[rword id]; words; reflexivity
  | unfold settled; cbn -[wtext id]; names ].

Lemma validate_free : forall name, names_free ["_v"; "_ok"; "error"] [] (validate_body name) any.
Proof. intros name. apply names_free_intro. plain. per_param. Qed.
Lemma twirp_validate_free : forall name, names_free ["_v"; "_ok"; "error"; "twirp"] [] (twirp_validate_body name) any.
Proof. intros name. apply names_free_intro. plain. per_param. Qed.
Lemma grpc_validate_free : forall name, names_free ["_v"; "_ok"; "error"; "grpc_status"; "grpc_codes"] [] (grpc_validate_body name) any.
Proof. intros name. apply names_free_intro. plain. per_param. Qed.

Lemma twirp_error_free : forall name,
  names_free [inject; "req"; "perr"; "twerr"; "ok"; "jsonReq"; "twirp"; "json"] twirp_error_funcs (twirp_error_body name) any.
Proof.
  intros name. apply names_free_intro. intros ren m Hi Hf _. fixed Hf.
  split; [cbn -[rword id]; repeat match goal with K : ren ?x = ?x |- context [ren ?x] => rewrite K end; words; reflexivity|].
  split; [constructor; [|constructor]; unfold fixes; cbn -[id]; repeat (apply Forall_cons; [assumption|]); apply Forall_nil|].
  per_param.
Qed.

Lemma has_params_rename : forall ren m, HasParams (rename ren m) = HasParams m.
Proof. intros. unfold HasParams. cbn. now destruct (m_params m). Qed.
Lemma has_results_rename : forall ren m, HasResults (rename ren m) = HasResults m.
Proof. intros. unfold HasResults. cbn. now destruct (m_results m). Qed.

Lemma log_free : forall dec, names_free ["_params"; "_results"] [] (log_body dec) any.
Proof.
  intros name. apply names_free_intro. plain. unfold log_body, log_deferred. rewrite has_params_rename, has_results_rename.
  cbn [rename m_returnsError m_name]. destruct (HasParams m), (HasResults m), (m_returnsError m); finish.
Qed.

Lemma logrus_free : forall dec, names_free ["logrus"] [] (logrus_body dec) any.
Proof.
  intros name. apply names_free_intro. plain. unfold logrus_body, logrus_deferred. rewrite has_params_rename, has_results_rename.
  cbn [rename m_returnsError m_name]. destruct (HasParams m), (HasResults m), (m_returnsError m); finish.
Qed.

Lemma prometheus_free : forall dn, names_free ["time"; "_since"; "result"; (dn ++ "DurationSummaryVec")%string] [] (prometheus_body dn) any.
Proof.
  intros dn. apply names_free_intro. plain. unfold prometheus_body, prometheus_deferred.
  cbn [rename m_returnsError m_name]. destruct (m_returnsError m); finish.
Qed.

Lemma opencensus_free : forall name typ, names_free ["_span"; "trace"] [] (opencensus_body name typ) any.
Proof.
  intros name typ. apply names_free_intro. plain. unfold opencensus_body, span_end, span_deferred.
  cbn [rename m_returnsError m_name]. destruct (m_returnsError m); finish.
Qed.

Lemma opentelemetry_free : forall name pfx, names_free ["_span"; "otel"; "_codes"; "attribute"] [] (opentelemetry_body name pfx) any.
Proof.
  intros name pfx. apply names_free_intro. plain. unfold opentelemetry_body, span_end, span_deferred.
  cbn [rename m_returnsError m_name]. destruct (m_returnsError m); finish.
Qed.

Lemma opentracing_free : forall name typ, names_free ["_span"; "opentracing"; "_ext"; "_log"] [] (opentracing_body name typ) any.
Proof.
  intros name typ. apply names_free_intro. plain. unfold opentracing_body, span_end, span_deferred.
  cbn [rename m_returnsError m_name]. destruct (m_returnsError m); finish.
Qed.

(** elasticapm makes label strings of the parameter names: only the results may be renamed *)
Definition keeps_params (ren : string -> string) (m : method) : Prop := fixes ren (param_names m).

Lemma keeps_filter : forall ren m, keeps_params ren m -> map (rename_param ren) (m_params m) = m_params m.
Proof.
  intros ren m H. unfold keeps_params, param_names, fixes in H. rewrite Forall_map in H. induction H as [|p l E _ IH]; [reflexivity|].
  cbn. rewrite IH. f_equal. unfold rename_param. rewrite E. now destruct p.
Qed.

Lemma elasticapm_free : forall snake comp, names_free ["span"] [] (elasticapm_body snake comp) keeps_params.
Proof.
  intros snake comp. apply names_free_intro. intros ren m Hi Hf Hk. fixed Hf. (split; [reflexivity|]); (split; [constructor|]).
  pose proof (keeps_filter ren m Hk) as E. unfold elasticapm_body, elasticapm_deferred.
  cbn [rename m_returnsError m_name m_params]. rewrite E.
  assert (Hp : forall p, In p (m_params m) -> ren (p_name p) = p_name p).
  { unfold keeps_params, fixes, param_names in Hk. rewrite Forall_map in Hk. now apply Forall_forall. }
  set (label := fun p : param => SExpr _) in *.
  assert (E1 : forall l, incl l (m_params m) -> map (rstmt ren) (map label l) = map label l).
  { induction l as [|p l IH]; intros Hl; [reflexivity|]. cbn [map]. rewrite IH by (intros q Hq; apply Hl; now right). f_equal.
    unfold label. cbn -[rword id]. rewrite rword_hole, (Hp p) by (apply Hl; now left). words. reflexivity. }
  assert (Hl : incl (filter (fun p => negb (String.eqb (p_name p) "ctx")) (m_params m)) (m_params m))
    by (intros q Hq; now apply filter_In in Hq).
  split.
  - rewrite !map_app, (E1 _ Hl). cbn -[rword id label]. words. destruct (m_returnsError m); cbn -[rword id label]; words; reflexivity.
  - rewrite !flat_map_app. apply Forall_app. split; [destruct (m_returnsError m); unfold settled; cbn -[wtext id]; names|].
    apply Forall_app. split; [|unfold settled; cbn -[wtext id]; names].
    apply settled_flat. intros p Hin. unfold settled, label. cbn -[wtext id method_env].
    apply Forall_cons; [left; assumption|]. apply Forall_cons; [left; assumption|].
    apply Forall_cons; [|constructor]. left. cbn. rewrite sapp_nil_r. apply Hp, Hl, Hin.
Qed.

Lemma syncpool_free : names_free ["_impl"] [] syncpool_body any.
Proof. apply names_free_intro. plain. unfold syncpool_body. finish. Qed.
Lemma robinpool_free : names_free ["_counter"; "atomic"] [] robinpool_body any.
Proof. apply names_free_intro. plain. unfold robinpool_body. finish. Qed.
Lemma ratelimit_free : names_free [] [] ratelimit_body any.
Proof.
  apply names_free_intro. plain. unfold ratelimit_body, ratelimit_wait. cbn [rename m_returnsError m_acceptsContext].
  destruct (m_acceptsContext m && m_returnsError m); finish.
Qed.
Lemma breaker_free : forall name dec, names_free ["errors"; "time"; "closesAt"; "_e"] [] (circuitbreaker_body name dec) any.
Proof. intros. apply names_free_intro. plain. unfold circuitbreaker_body. finish. Qed.

(** ** The stock templates *)

(** template, the identifiers its method bodies use (beside [own]), the
    functions it declares, the body; [error] and [logrus] occur in types, which
    the interpreter does not resolve, so they are listed without being needed *)
Definition stock (name typ dec dn pfx : string) : list (string * list string * list (string * (list string * list gstmt)) * (method -> list gstmt)) :=
  [("retry", ["time"; "_ticker"; "_i"], [], retry_body name);
   ("timeout", ["context"; "cancelFunc"], [], timeout_body name);
   ("validate", ["_v"; "_ok"; "error"], [], validate_body name);
   ("twirp_validate", ["_v"; "_ok"; "error"; "twirp"], [], twirp_validate_body name);
   ("grpc_validate", ["_v"; "_ok"; "error"; "grpc_status"; "grpc_codes"], [], grpc_validate_body name);
   ("twirp_error", [inject; "req"; "perr"; "twerr"; "ok"; "jsonReq"; "twirp"; "json"], twirp_error_funcs, twirp_error_body name);
   ("log", ["_params"; "_results"], [], log_body dec);
   ("logrus", ["logrus"], [], logrus_body dec);
   ("prometheus", ["time"; "_since"; "result"; (dn ++ "DurationSummaryVec")%string], [], prometheus_body dn);
   ("opencensus", ["_span"; "trace"], [], opencensus_body name typ);
   ("opentelemetry", ["_span"; "otel"; "_codes"; "attribute"], [], opentelemetry_body name pfx);
   ("opentracing", ["_span"; "opentracing"; "_ext"; "_log"], [], opentracing_body name typ);
   ("syncpool", ["_impl"], [], syncpool_body);
   ("robinpool", ["_counter"; "atomic"], [], robinpool_body);
   ("ratelimit", [], [], ratelimit_body);
   ("circuitbreaker", ["errors"; "time"; "closesAt"; "_e"], [], circuitbreaker_body name dec)].

(** missing: names among the template's identifiers (see the refutations below),
    parameter names of elasticapm, which become label strings, and the fallback
    template *)
Theorem C51_partial : forall name typ dec dn pfx,
  Forall (fun t => let '(_, uses, funcs, body) := t in names_free uses funcs body any) (stock name typ dec dn pfx).
Proof.
  intros. unfold stock. repeat apply Forall_cons; try apply Forall_nil;
    auto using retry_free, timeout_free, validate_free, twirp_validate_free, grpc_validate_free, twirp_error_free, log_free, logrus_free,
      prometheus_free, opencensus_free, opentelemetry_free, opentracing_free, syncpool_free, robinpool_free, ratelimit_free, breaker_free.
Qed.

Theorem C51_elasticapm_partial : forall snake comp, names_free ["span"] [] (elasticapm_body snake comp) keeps_params.
Proof. exact elasticapm_free. Qed.

(** ** Any two choices of names are one renaming apart *)

(** the two lists pair names one to one *)
Definition one_to_one (l : list (string * string)) : Prop :=
  forall x y x' y', In (x, y) l -> In (x', y') l -> (x = x' <-> y = y').

Definition swap (a b x : string) : string := if String.eqb x a then b else if String.eqb x b then a else x.
Lemma swap_inj : forall a b, injective (swap a b).
Proof.
  intros a b x y. unfold swap.
  destruct (String.eqb_spec x a), (String.eqb_spec y a), (String.eqb_spec x b), (String.eqb_spec y b); subst; congruence.
Qed.

Lemma extends : forall l, one_to_one l -> exists ren, injective ren /\ Forall (fun p => ren (fst p) = snd p) l.
Proof.
  induction l as [|[x y] l IH]; intros H.
  - exists (fun x => x). split; [intros a b E; exact E | constructor].
  - destruct IH as (ren & Hi & Hl).
    { intros a b a' b' H1 H2. apply H; now right. }
    exists (fun z => swap (ren x) y (ren z)). split.
    + intros a b E. apply Hi. now apply swap_inj in E.
    + constructor; [cbn; unfold swap; now rewrite String.eqb_refl|].
      apply Forall_forall. intros [a b] Hin. cbn. rewrite Forall_forall in Hl. specialize (Hl _ Hin). cbn in Hl.
      destruct (H x y a b (or_introl eq_refl) (or_intror Hin)) as [F1 F2]. unfold swap. rewrite Hl.
      destruct (String.eqb_spec b (ren x)) as [E|N].
      * rewrite <- Hl in E. apply Hi in E. symmetry in E. now apply F1.
      * destruct (String.eqb_spec b y) as [E|]; [|reflexivity].
        exfalso. apply N. rewrite <- Hl. f_equal. symmetry. now apply F2.
Qed.

Definition all_names (m : method) : list string := map p_name (m_params m ++ m_results m).
(** the same method apart from names *)
Definition anonymous (p : param) := (p_doc p, p_comment p, p_type p, p_variadic p).
Definition same_but_names (m1 m2 : method) : Prop :=
  m_doc m2 = m_doc m1 /\ m_comment m2 = m_comment m1 /\ m_name m2 = m_name m1 /\
  map anonymous (m_params m2) = map anonymous (m_params m1) /\ map anonymous (m_results m2) = map anonymous (m_results m1) /\
  m_returnsError m2 = m_returnsError m1 /\ m_acceptsContext m2 = m_acceptsContext m1.

Theorem C51_renaming_exists : forall m1 m2 uses, same_but_names m1 m2 ->
  one_to_one (combine (all_names m1) (all_names m2) ++ map (fun x => (x, x)) (own ++ uses)) ->
  exists ren, injective ren /\ fixes ren (own ++ uses) /\ m2 = rename ren m1.
Proof.
  intros m1 m2 uses (E1 & E2 & E3 & E4 & E5 & E6 & E7) H. destruct (extends _ H) as (ren & Hi & Hl). exists ren.
  split; [exact Hi|]. apply Forall_app in Hl as [Hn Hu]. split.
  - unfold fixes. rewrite Forall_map in Hu. exact Hu.
  - assert (P : forall l1 l2, map anonymous l2 = map anonymous l1 ->
      Forall (fun p => ren (fst p) = snd p) (combine (map p_name l1) (map p_name l2)) -> l2 = map (rename_param ren) l1).
    { induction l1 as [|p l1 IH]; intros [|q l2] E F; try discriminate; [reflexivity|]. cbn in *. 
      inversion F as [|? ? F1 F2]; subst. injection E as A1 A2 A3 A4 A5. f_equal; [|now apply IH].
      unfold rename_param. cbn in F1. rewrite F1. destruct q; cbn in *. congruence. }
    assert (Hlen : length (map p_name (m_params m1)) = length (map p_name (m_params m2))).
    { apply (f_equal (@length _)) in E4. rewrite !map_length in *. congruence. }
    unfold all_names in Hn. rewrite !map_app in Hn.
    assert (C : combine (map p_name (m_params m1) ++ map p_name (m_results m1)) (map p_name (m_params m2) ++ map p_name (m_results m2))
        = combine (map p_name (m_params m1)) (map p_name (m_params m2)) ++ combine (map p_name (m_results m1)) (map p_name (m_results m2))).
    { revert Hlen. generalize (map p_name (m_params m1)) (map p_name (m_params m2)). clear.
      induction l as [|x l IH]; intros [|y l'] E; try discriminate; [reflexivity|]. cbn. f_equal. apply IH. now injection E. }
    rewrite C in Hn. apply Forall_app in Hn as [Hp Hr]. 
    unfold rename. destruct m1, m2; cbn in *. rewrite <- (P _ _ E4 Hp), <- (P _ _ E5 Hr). now subst.
Qed.

(** ** Which names can clash *)

Fixpoint final (s : string) : option ascii :=
  match s with EmptyString => None | String c "" => Some c | String _ s' => final s' end.
Lemma final_app : forall a s, s <> "" -> final (a ++ s) = final s.
Proof.
  induction a as [|c a IH]; intros s H; [reflexivity|]. cbn [append final]. rewrite IH by assumption.
  destruct a; cbn [append]; [destruct s; [congruence | reflexivity] | reflexivity].
Qed.
Lemma final_digit : forall s, ends_with_digit s -> exists c, final s = Some c /\ TypesSpec.is_digit c = true.
Proof. intros s (a & c & -> & D). exists c. split; [|exact D]. now rewrite final_app by discriminate. Qed.

(** the names NewMethod makes up for unnamed parameters never clash: a clash is
    a name the user wrote *)
Theorem C51_only_written_names : forall O pr gts gps mname fi m ps rs name typ dec dn pfx t uses funcs body x j,
  NewMethod O pr gts gps mname fi = Ok m -> f_type fi = FuncT ps rs ->
  In (t, uses, funcs, body) (stock name typ dec dn pfx) -> In x (own ++ uses) ->
  nth_error (all_names m) j = Some x ->
  x = "ctx" /\ m_acceptsContext m = true /\ j = 0 \/
  x = "err" /\ m_returnsError m = true \/
  exists f, nth_error (declared ps ++ declared_opt rs) j = Some (x, f).
Proof.
  intros O pr gts gps mname fi m ps rs name typ dec dn pfx t uses funcs body x j Hm Hf Ht Hx Hj.
  destruct (NewMethod_name_origin O pr gts gps mname fi m ps rs j x Hm Hf Hj) as [H|[H|(n & f & Hn & [(-> & _)|(p & k & _ & E)])]];
    [now left | right; now left | right; right; now exists f |].
  exfalso. destruct (final_digit x) as (c & Fc & Dc); [subst x; apply app_ends_digit, dec_last|]. clear E.
  assert (K : forall y, In y (own ++ uses) -> exists c', final y = Some c' /\ TypesSpec.is_digit c' = false).
  { clear - Ht. intros y Hy. unfold stock in Ht.
    repeat (destruct Ht as [Ht|Ht]; [injection Ht as _ Hu _ _; rewrite <- Hu in Hy; cbn in Hy;
      repeat (destruct Hy as [<-|Hy]; [first [eexists; split; [reflexivity|]; reflexivity
              | eexists; split; [rewrite final_app by discriminate; reflexivity|]; reflexivity] |]); contradiction|]).
    contradiction. }
  destruct (K x Hx) as (c' & F' & D'). congruence.
Qed.

(** ** Names that clash *)

(** Func(ctx, x) err *)
Definition one_param (x : string) : method :=
  Method [] [] "Do" [Param [] [] "ctx" "context.Context" false; Param [] [] x "T" false]
    [Param [] [] "err" "error" false] true true.

(** a world that answers every question with two references *)
Definition dull : gworld := GWorld (fun _ _ => ARet [VRef 7; VRef 8]) (fun _ _ => false).
Lemma dull_agrees : forall ren, worlds_agree ren dull dull.
Proof. intros ren. split; [|reflexivity]. intros. repeat constructor. Qed.
(** the same, one result *)
Definition dull1 : gworld := GWorld (fun _ _ => ARet [VRef 7]) (fun _ _ => false).
Lemma dull1_agrees : forall ren, worlds_agree ren dull1 dull1.
Proof. intros ren. split; [|reflexivity]. intros. repeat constructor. Qed.

(** the claim without sparing the template's identifiers *)
Definition names_free_fully (funcs : list (string * (list string * list gstmt))) (body : method -> list gstmt) : Prop :=
  names_free [] funcs body any.

(** [rename] as the method with another name *)
Lemma one_param_swap : forall x y, ~ In x own -> ~ In y own ->
  fixes (swap x y) own /\ rename (swap x y) (one_param x) = one_param y.
Proof.
  intros x y Hx Hy. assert (F : forall z, In z own -> swap x y z = z).
  { intros z Hz. unfold swap. destruct (String.eqb_spec z x); [now subst|]. destruct (String.eqb_spec z y); [now subst | reflexivity]. }
  split; [unfold fixes; apply Forall_forall; exact F|].
  unfold rename, one_param. cbn [m_doc m_comment m_name m_params m_results m_returnsError m_acceptsContext map rename_param p_doc p_comment p_name p_type p_variadic].
  unfold rename_param. cbn. rewrite (F "ctx"), (F "err") by (cbn; tauto). unfold swap at 1. now rewrite String.eqb_refl.
Qed.


(** the two runs ask like questions at every point *)
Definition same_question (t1 t2 : trace) (n : nat) : Prop :=
  match nth_error t1 n, nth_error t2 n with
  | Some (o1, _), Some (o2, _) => exists ren, oprel ren o1 o2
  | None, None => True
  | _, _ => False
  end.
Lemma trel_question : forall ren t1 t2 n, trel ren t1 t2 -> same_question t1 t2 n.
Proof.
  intros ren t1 t2 n H. unfold same_question. revert n. induction H as [|[o1 a1] [o2 a2] t1 t2 [Ho _] Ht IH]; intros [|n]; cbn;
    try exact I; [now exists ren | apply IH].
Qed.

(** two choices for a parameter name that make the [n]th questions different *)
Lemma clash : forall W x y body rc (n : nat), (forall ren, worlds_agree ren W W) -> ~ In x own -> ~ In y own ->
  vrel (swap x y) rc rc ->
  ~ same_question (snd (run_method W (one_param x) [] 5 (body (one_param x)) rc [VNil] [VRef 1; VRef 2]))
                  (snd (run_method W (one_param y) [] 5 (body (one_param y)) rc [VNil] [VRef 1; VRef 2])) n ->
  ~ names_free_fully [] body.
Proof.
  intros W x y body rc n HW Hx Hy Hrc N Hall. destruct (one_param_swap x y Hx Hy) as [Hf Hr].
  specialize (Hall (swap x y) (one_param x) (swap_inj x y) Hf I W W 5 rc rc [VNil] [VNil] [VRef 1; VRef 2] [VRef 1; VRef 2] (HW _) Hrc).
  rewrite Hr in Hall. cbv zeta in Hall. destruct Hall as [_ Ht]; try (repeat constructor). apply N. now apply (trel_question (swap x y)).
Qed.
Ltac clashes W HW x y rc n := apply (clash W x y _ rc n HW);
  [cbn; intuition discriminate | cbn; intuition discriminate | repeat constructor |];
  unfold same_question;
  match goal with |- context [run_method ?W ?m ?f ?L ?b ?r ?z ?a] => let E := fresh in
    remember (snd (run_method W m f L b r z a)) as t1 eqn:E; vm_compute in E end;
  match goal with |- context [run_method ?W ?m ?f ?L ?b ?r ?z ?a] => let E := fresh in
    remember (snd (run_method W m f L b r z a)) as t2 eqn:E; vm_compute in E end;
  subst; cbn [nth_error]; intros [ren Ho]; inversion Ho; subst;
  match goal with H : vrel _ _ _ |- _ => now inversion H end.

(** A parameter called [time]: prometheus, retry and circuitbreaker call a method
    of the argument instead of the function of the package. *)
Theorem C51_time_refuted : ~ names_free_fully [] (prometheus_body "doer").
Proof. clashes dull1 dull1_agrees "a" "time" (VRec [("base", VRef 0); ("instanceName", VString "i")]) 0. Qed.
Theorem C51_retry_refuted : ~ names_free_fully [] (retry_body "Doer").
Proof. clashes dull1 dull1_agrees "a" "time" (VRec [("Doer", VRef 0); ("_retryCount", VInt 1); ("_retryInterval", VInt 1)]) 1. Qed.
Theorem C51_breaker_refuted : ~ names_free_fully [] (circuitbreaker_body "Doer" "DoerWithCircuitBreaker").
Proof. clashes dull1 dull1_agrees "a" "time" (VRec [("Doer", VRef 0); ("_lock", VRef 3); ("_closesAt", VRef 4)]) 3. Qed.
(** [context], [trace], [otel], [opentracing], [atomic]: the same *)
Theorem C51_timeout_refuted : ~ names_free_fully [] (timeout_body "Doer").
Proof. clashes dull dull_agrees "a" "context" (VRec [("Doer", VRef 0); ("config", VRec [("DoTimeout", VInt 5)])]) 0. Qed.
Theorem C51_opencensus_refuted : ~ names_free_fully [] (opencensus_body "Doer" "pkg.Doer").
Proof. clashes dull dull_agrees "a" "trace" (VRec [("Doer", VRef 0); ("_instance", VString "i"); ("_spanDecorator", VNil)]) 0. Qed.
Theorem C51_opentelemetry_refuted : ~ names_free_fully [] (opentelemetry_body "Doer" "Doer").
Proof. clashes dull1 dull1_agrees "a" "otel" (VRec [("Doer", VRef 0); ("_instance", VString "i"); ("_spanDecorator", VNil)]) 0. Qed.
Theorem C51_opentracing_refuted : ~ names_free_fully [] (opentracing_body "Doer" "pkg.Doer").
Proof. clashes dull dull_agrees "a" "opentracing" (VRec [("Doer", VRef 0); ("_instance", VString "i"); ("_spanDecorator", VNil)]) 0. Qed.
Theorem C51_robinpool_refuted : ~ names_free_fully [] robinpool_body.
Proof. clashes dull1 dull1_agrees "a" "atomic" (VRec [("counter", VRef 4); ("pool", VSlice [VRef 0]); ("poolSize", VInt 1)]) 0. Qed.

(** The source method behind the refutations: NewMethod keeps the name. *)
Example C51_time_method :
  NewMethod O0 pr0 [] [] "Do"
    (named ["Do"] (FuncT [named ["c"] (Selector (Ident "context") "Context"); named ["time"] (Ident "T")] (Some [anon (Ident "error")])))
  = Ok (one_param "time").
Proof. vm_compute. reflexivity. Qed.

(** A renaming the theorem speaks about, and a world in which the decorator does
    something: a retry that ends at the first attempt. *)
Example C51_nontrivial :
  let ren := swap "a" "b" in
  injective ren /\ fixes ren (own ++ ["time"; "_ticker"; "_i"]) /\ rename ren (one_param "a") = one_param "b" /\
  worlds_agree ren dull1 dull1 /\
  run_method dull1 (one_param "b") [] 5 (retry_body "Doer" (one_param "b"))
    (VRec [("Doer", VRef 0); ("_retryCount", VInt 0); ("_retryInterval", VInt 1)]) [VNil] [VRef 1; VRef 2]
  = (Val [VRef 7], [(OMeth (VRef 0) "Do" [VRef 1; VRef 2], ARet [VRef 7])]).
Proof.
  cbv zeta. split; [apply swap_inj|]. split; [unfold fixes; repeat apply Forall_cons; try apply Forall_nil; reflexivity|].
  split; [reflexivity|]. split; [apply dull1_agrees | vm_compute; reflexivity].
Qed.
Example C51_one_to_one :
  same_but_names (one_param "a") (one_param "b") /\
  one_to_one (combine (all_names (one_param "a")) (all_names (one_param "b")) ++ map (fun x => (x, x)) (own ++ ["time"])).
Proof.
  split; [repeat split|]. intros x y x' y' H H'. cbn in H, H'.
  repeat (destruct H as [H|H]; [injection H as <- <-;
    repeat (destruct H' as [H'|H']; [injection H' as <- <-; split; intros E; first [reflexivity | discriminate E]|]); contradiction|]).
  contradiction.
Qed.

Print Assumptions C51_partial.
Print Assumptions C51_elasticapm_partial.
Print Assumptions C51_renaming_exists.
Print Assumptions C51_only_written_names.
Print Assumptions C51_time_refuted.
Print Assumptions C51_retry_refuted.
Print Assumptions C51_breaker_refuted.
Print Assumptions C51_timeout_refuted.
Print Assumptions C51_opencensus_refuted.
Print Assumptions C51_opentelemetry_refuted.
Print Assumptions C51_opentracing_refuted.
Print Assumptions C51_robinpool_refuted.
