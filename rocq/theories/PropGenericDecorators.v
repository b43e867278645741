(** C72: decorators of generic interfaces have the type parameters of the
    interface. *)
From Verif Require Import Render Generated4 PropImplements PropClashes PropResolve.
Open Scope nat_scope.

(** ** Specification, over the tokens of the generated body *)

(** [type dec struct {] is among the tokens: a declaration without type
    parameters *)
Definition declares_plain (dec : string) (toks : list gtok) : Prop :=
  exists a b, toks = a ++ TW [PS "type"] :: TW [PH dec] :: TW [PS "struct"] :: TP "{" :: b.
(** [type dec \[] is: a declaration with type parameters *)
Definition declares_generic (dec : string) (toks : list gtok) : Prop :=
  exists a b, toks = a ++ TW [PS "type"] :: TW [PH dec] :: TP "[" :: b.

Definition every : list (string * string) := (text_elasticapm, "APMTracing") :: stock.
Definition allowed (text : string) (t : tdata) : Prop :=
  text = text_elasticapm -> forall m, In m (map snd (td_methods t)) -> ctx_first m.

Definition C72_statement : Prop := forall text suffix lower upper t toks, In (text, suffix) every -> allowed text t ->
  source_tokens lower upper text t = Some toks -> td_gtypes t <> "" -> declares_generic (decorator t suffix) toks.

(** ** Proofs *)

(** the same interface with other type parameters *)
Definition with_generics (types params : string) (t : tdata) : tdata :=
  TData (td_name t) (td_type t) types params (td_methods t) (td_imports t) (td_vars t).

Ltac same G := 
  match goal with |- source_tokens ?l ?u _ ?t' = source_tokens _ _ _ ?t =>
    rewrite (source_generates _ _ _ _ _ (G l u t)), (source_generates _ _ _ _ _ (G l u t')); reflexivity end.

(** Type parameters make no difference to what is generated. *)
Theorem C72_generics_ignored : forall text suffix lower upper t types params, In (text, suffix) every -> allowed text t ->
  source_tokens lower upper text (with_generics types params t) = source_tokens lower upper text t.
Proof.
  intros text suffix lower upper t types params [E|H] HA.
  - injection E as <- <-. specialize (HA eq_refl).
    rewrite (source_generates _ _ _ _ _ (elasticapm_generated lower upper t HA)),
      (source_generates _ _ _ _ _ (elasticapm_generated lower upper (with_generics types params t) HA)). reflexivity.
  - unfold stock in H. cbn [In] in H. repeat destruct H as [H|H]; try (now destruct H); injection H as <- <-.
    + same circuitbreaker_generated.
    + same fallback_generated.
    + same grpc_validate_generated.
    + same log_generated.
    + same logrus_generated.
    + same opencensus_generated.
    + same opentelemetry_generated.
    + same opentracing_generated.
    + same prometheus_generated.
    + same ratelimit_generated.
    + same retry_generated.
    + same robinpool_generated.
    + same syncpool_generated.
    + same timeout_generated.
    + same twirp_error_generated.
    + same twirp_validate_generated.
    + same validate_generated.
Qed.

Lemma struct_of_plain : forall dec l b, struct_of dec l = Some b -> declares_plain dec l.
Proof.
  intros dec. induction l as [|x r IH]; intros b H; [discriminate|].
  assert (REC : struct_of dec r = Some b -> declares_plain dec (x :: r)).
  { intros H'. destruct (IH b H') as (p & q & ->). now exists (x :: p), q. }
  cbn in H. destruct x as [[|[k|?] [|? ?]]|?|?|]; auto.
  destruct r as [|[[|[?|n] [|? ?]]|?|?|] [|[[|[s|?] [|? ?]]|?|?|] [|[?|?|c|] r']]]; auto.
  destruct (String.eqb_spec k "type") as [->|]; [|auto]. destruct (String.eqb_spec n dec) as [->|]; [|auto].
  destruct (String.eqb_spec s "struct") as [->|]; [|auto]. cbn [andb] in H.
  destruct (byte_eqb c "{") eqn:Ec; [|auto]. apply Ascii.eqb_eq in Ec. subst c. now exists [], r'.
Qed.

(** Every decorator is declared without type parameters. *)
Theorem C72_plain : forall text suffix lower upper t, In (text, suffix) every -> allowed text t ->
  exists toks, source_tokens lower upper text t = Some toks /\ declares_plain (decorator t suffix) toks.
Proof.
  intros text suffix lower upper t H HA.
  assert (exists toks fs, source_tokens lower upper text t = Some toks /\ fields_of (decorator t suffix) toks = Some fs) as (toks & fs & H1 & H2).
  { destruct H as [E|H]; [injection E as <- <-; destruct (C67_elasticapm_partial lower upper t (HA eq_refl)) as (a & b & ? & ? & _); eauto|].
    destruct (C67_fields_partial text suffix lower upper t H) as (a & b & ? & ? & _); eauto. }
  exists toks. split; [exact H1|]. unfold fields_of in H2. destruct (struct_of (decorator t suffix) toks) eqn:E; [|discriminate].
  eapply struct_of_plain; exact E.
Qed.

(** ** Refutation *)

Fixpoint generic_in (dec : string) (l : list gtok) : bool :=
  match l with
  | [] => false
  | x :: r =>
      match x, r with
      | TW [PS k], TW [PH n] :: TP b :: _ => (String.eqb k "type" && String.eqb n dec && byte_eqb b "[") || generic_in dec r
      | _, _ => generic_in dec r
      end
  end.
Lemma generic_in_spec : forall dec l, declares_generic dec l -> generic_in dec l = true.
Proof.
  intros dec l (a & b & ->). induction a as [|x a IH]; [cbn; now rewrite String.eqb_refl|].
  cbn [app]. set (r := a ++ _) in *. cbn [generic_in].
  destruct x as [[|[k|?] [|? ?]]|?|?|]; auto. destruct r as [|[[|[?|n] [|? ?]]|?|?|] [|[?|?|c|] r']]; auto.
  rewrite IH. apply orb_true_r.
Qed.

(** [type Store\[T any\] interface { Get(context.Context, string) (T, error) }], read and
    given to the templates as NewGenerator does *)
Definition pgen : package := Package "m" "m" [GoFile [giface "Store" ["T"] [meth "Get" [Selector (Ident "context") "Context"; Ident "string"] [Ident "T"; Ident "error"]]] []] [] None.
Definition gen_data : option tdata :=
  match findTarget Oex (world_of [("m", pgen)]) 20 [] pgen "" "Store" [] with
  | Some (Ok (Output gts (Some ms) _)) => let '(types, params) := buildVars gts in Some (TData "Store" "Store" types params ms [] [])
  | _ => None
  end.
Definition decl_T : string := "Get(ctx context.Context, s1 string) (t1 T, err error)".
Definition is_T (x : gtok) : bool := match x with TW [PH n] => String.eqb n decl_T | _ => false end.
Definition undeclared_T (t : tdata) (ts : string * string) : bool :=
  match source_tokens (fun n => n) (fun n => n) (fst ts) t with
  | Some toks => negb (generic_in (decorator t (snd ts)) toks) && existsb is_T toks && negb (mem "T" (tops 0 toks))
  | None => false
  end.
Lemma retry_every : In (text_retry, "WithRetry") every.
Proof. unfold every, stock. do 11 right. left. reflexivity. Qed.
Lemma retry_allowed : forall t, allowed text_retry t.
Proof.
  intros t E. exfalso. assert (H : String.eqb text_retry text_elasticapm = false) by (vm_compute; reflexivity).
  apply String.eqb_neq in H. exact (H E).
Qed.
(** The decorator is declared without type parameters, so that the T of its
    methods is declared nowhere in the file. *)
Theorem C72_refuted : ~ C72_statement /\ exists t, gen_data = Some t /\ td_gtypes t = "[T any]" /\ td_gparams t = "[T]" /\
  forall text suffix, In (text, suffix) every ->
    exists toks, source_tokens (fun n => n) (fun n => n) text t = Some toks /\ ~ declares_generic (decorator t suffix) toks /\
      In (TW [PH decl_T]) toks /\ ~ In "T" (tops 0 toks).
Proof.
  assert (exists t, gen_data = Some t /\ td_gtypes t = "[T any]" /\ td_gparams t = "[T]" /\
  forall text suffix, In (text, suffix) every ->
    exists toks, source_tokens (fun n => n) (fun n => n) text t = Some toks /\ ~ declares_generic (decorator t suffix) toks /\
      In (TW [PH decl_T]) toks /\ ~ In "T" (tops 0 toks)) as H.
  { eexists. split; [vm_compute; reflexivity|]. split; [reflexivity|]. split; [reflexivity|].
    match goal with |- forall text suffix, _ -> exists toks, source_tokens _ _ text ?t = _ /\ _ => remember t as t0 eqn:Et end.
    assert (HC : forallb (undeclared_T t0) every = true) by (subst t0; vm_compute; reflexivity).
    intros text suffix Hi. pose proof (proj1 (forallb_forall _ _) HC _ Hi) as HT. unfold undeclared_T in HT. cbn [fst snd] in HT.
    destruct (source_tokens (fun n => n) (fun n => n) text t0) as [toks|]; [|discriminate].
    rewrite !andb_true_iff, !negb_true_iff in HT. destruct HT as ((H1 & H2) & H3). exists toks. split; [reflexivity|]. split; [|split].
    - intros HG. apply generic_in_spec in HG. congruence.
    - apply existsb_exists in H2. destruct H2 as (x & H2 & Hx). destruct x as [[|[?|n] [|? ?]]|?|?|]; try discriminate Hx.
      apply String.eqb_eq in Hx. rewrite <- Hx. exact H2.
    - intros C. apply mem_In in C. congruence. }
  split; [|exact H]. intros C. destruct H as (t & _ & Hg & _ & H).
  destruct (H text_retry "WithRetry" retry_every) as (toks & H1 & H2 & _).
  apply H2. apply (C text_retry "WithRetry" (fun n => n) (fun n => n) t toks); [exact retry_every|apply retry_allowed|exact H1|rewrite Hg; intros E; discriminate E].
Qed.

(** ** Examples *)
Example C72_allowed_ex : exists t, gen_data = Some t /\ allowed text_retry t /\ td_gtypes t <> "" /\
  source_tokens (fun n => n) (fun n => n) text_retry (with_generics "" "" t) = source_tokens (fun n => n) (fun n => n) text_retry t.
Proof. eexists. split; [vm_compute; reflexivity|]. split; [apply retry_allowed|]. split; [discriminate|]. vm_compute. reflexivity. Qed.
(** a template that does use them *)
Example C72_custom_ex : exists t toks, gen_data = Some t /\
  source_tokens (fun n => n) (fun n => n) "type X{{.Interface.Generics.Types}} struct { base {{.Interface.Type}}{{.Interface.Generics.Params}} }" t = Some toks /\
  toks <> [] /\ source_tokens (fun n => n) (fun n => n) "type X{{.Interface.Generics.Types}} struct { base {{.Interface.Type}}{{.Interface.Generics.Params}} }" (with_generics "" "" t) <> Some toks.
Proof. eexists _, _. split; [vm_compute; reflexivity|]. split; [vm_compute; reflexivity|]. split; [discriminate|]. vm_compute. discriminate. Qed.

Print Assumptions C72_generics_ignored.
Print Assumptions C72_plain.
Print Assumptions C72_refuted.
