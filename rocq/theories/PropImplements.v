(** C31: the type generated by a stock template has a method for every method
    of the interface.  C55: the body of a generated method that has results
    ends in a terminating statement. *)
From Coq Require Import Permutation.
From Verif Require Import Render Generated4.
Open Scope nat_scope.

(** ** Statement *)

(** the declaration [d] is [func (_d Dec) Declaration { .. }], for a value or pointer receiver *)
Definition declares (dec : string) (m : method) (d : list gtok) : Prop :=
  exists star body, (star = [] \/ star = [TP "*"]) /\
    d = [TW [PS "func"]; TP "("; TW [PS "_d"]] ++ star ++ [TW [PH dec]; TP ")"; TW [PH (Declaration m)]; TP "{"] ++ body.

(** the declaration [d] is [type Dec struct { .. }] with the interface type as a field without a name *)
Definition embeds (dec typ : string) (d : list gtok) : Prop :=
  exists fields1 fields2,
    d = [TW [PS "type"]; TW [PH dec]; TW [PS "struct"]; TP "{"] ++ fields1 ++ [TW [PH typ]] ++ fields2 ++ [TP "}"] /\
    (fields1 = [] \/ exists l, fields1 = l ++ [TSemi]) /\ (fields2 = [] \/ exists l, fields2 = TSemi :: l).

(** every method is declared, or promoted from the embedded interface *)
Definition implements (dec typ : string) (ms : list method) (decls : list (list gtok)) : Prop :=
  (forall m, In m ms -> exists d, In d decls /\ declares dec m d) \/ exists d, In d decls /\ embeds dec typ d.

(** the stock templates (templates/) with the suffix of the decorator's default name; all but elasticapm *)
Definition stock : list (string * string) :=
  [(text_circuitbreaker, "WithCircuitBreaker"); (text_fallback, "WithFallback"); (text_grpc_validate, "WithGRPCValidation");
   (text_log, "WithLog"); (text_logrus, "WithLogrus"); (text_opencensus, "WithTracing"); (text_opentelemetry, "WithTracing");
   (text_opentracing, "WithTracing"); (text_prometheus, "WithPrometheus"); (text_ratelimit, "WithRateLimit"); (text_retry, "WithRetry");
   (text_robinpool, "RoundRobinPool"); (text_syncpool, "Pool"); (text_timeout, "WithTimeout");
   (text_twirp_error, "WithTwirpError"); (text_twirp_validate, "WithTwirpValidation"); (text_validate, "WithValidation")].

Lemma sorted_in : forall t m, In m (map snd (td_methods t)) -> In m (sorted_methods t).
Proof.
  intros t m H. unfold sorted_methods. apply in_map_iff in H as (km & <- & Hi). apply in_map.
  eapply Permutation_in; [symmetry; apply msort_perm | exact Hi].
Qed.

Lemma imp_methods : forall t dec hd f ts, (forall m, declares dec m (f m)) ->
  implements dec (td_type t) (map snd (td_methods t)) (hd ++ flat_map (fun m => [f m]) (sorted_methods t) ++ ts).
Proof.
  intros t dec hd f ts Hf. left. intros m Hm. exists (f m). split; [|apply Hf].
  apply in_or_app. right. apply in_or_app. left. apply in_flat_map. exists m. split; [now apply sorted_in | now left].
Qed.

Lemma imp_embedding : forall dec typ ms d hd ts, In d hd -> embeds dec typ d -> implements dec typ ms (hd ++ ts).
Proof. intros dec typ ms d hd ts Hi He. right. exists d. split; [|exact He]. apply in_or_app. now left. Qed.

Lemma declares_method : forall st dec m b, st = [] \/ st = star -> declares dec m (method_toks st dec m b).
Proof. intros st dec m b H. exists st, (b ++ [TP "}"]). split; [exact H | reflexivity]. Qed.

Lemma embeds_struct : forall dec typ fs, embeds dec typ (struct_decl dec (hole typ :: fs)).
Proof.
  intros dec typ fs. unfold struct_decl. destruct fs as [|f fs].
  - exists [], []. cbn. repeat split; now left.
  - exists [], (TSemi :: semis (f :: fs)). split; [reflexivity|]. split; [now left|]. right. eexists. reflexivity.
Qed.

Lemma declares_fallback : forall dec typ m, declares dec m (fallback_method dec typ m).
Proof.
  intros dec typ m. unfold fallback_method, fb_launch, fb_wait, fb_receive.
  destruct (m_returnsError m), (m_acceptsContext m), (HasResults m); exists []; eexists; (split; [now left | vm_compute; reflexivity]).
Qed.

Theorem C31_implements_partial : forall text suffix lower upper t,
  In (text, suffix) stock ->
  exists decls, generates lower upper text t decls /\
                implements (decorator t suffix) (td_type t) (map snd (td_methods t)) decls.
Proof.
  intros text suffix lower upper t H. unfold stock in H. cbn [In] in H.
  repeat destruct H as [H|H]; try (now destruct H); injection H as <- <-.
  - eexists; split; [apply circuitbreaker_generated | eapply imp_embedding; [right; now left | apply embeds_struct]].
  - eexists; split; [apply fallback_generated | apply imp_methods; intros; apply declares_fallback].
  - eexists; split; [apply grpc_validate_generated | eapply imp_embedding; [cbn -[struct_decl import_decl ctor_decl]; right; left; reflexivity | apply embeds_struct]].
  - eexists; split; [apply log_generated | apply imp_methods; intros; apply declares_method; now left].
  - eexists; split; [apply logrus_generated | apply imp_methods; intros; apply declares_method; now left].
  - eexists; split; [apply opencensus_generated | eapply imp_embedding; [right; now left | apply embeds_struct]].
  - eexists; split; [apply opentelemetry_generated | eapply imp_embedding; [right; now left | apply embeds_struct]].
  - eexists; split; [apply opentracing_generated | eapply imp_embedding; [right; now left | apply embeds_struct]].
  - eexists; split; [apply prometheus_generated | apply imp_methods; intros; apply declares_method; now left].
  - eexists; split; [apply ratelimit_generated | apply imp_methods; intros; apply declares_method; now right].
  - eexists; split; [apply retry_generated | eapply imp_embedding; [right; now left | apply embeds_struct]].
  - eexists; split; [apply robinpool_generated | apply imp_methods; intros; apply declares_method; now right].
  - eexists; split; [apply syncpool_generated | apply imp_methods; intros; apply declares_method; now left].
  - eexists; split; [apply timeout_generated | eapply imp_embedding; [right; now left | apply embeds_struct]].
  - eexists; split; [apply twirp_error_generated | eapply imp_embedding; [cbn -[struct_decl import_decl ctor_decl]; right; left; reflexivity | apply embeds_struct]].
  - eexists; split; [apply twirp_validate_generated | eapply imp_embedding; [cbn -[struct_decl import_decl ctor_decl]; right; left; reflexivity | apply embeds_struct]].
  - eexists; split; [apply validate_generated | eapply imp_embedding; [cbn -[struct_decl import_decl ctor_decl]; left; reflexivity | apply embeds_struct]].
Qed.

(** elasticapm emits only methods with a context *)
Theorem C31_elasticapm_partial : forall lower upper t,
  (forall m, In m (map snd (td_methods t)) -> ctx_first m) ->
  (forall m, In m (map snd (td_methods t)) -> m_acceptsContext m = true) ->
  exists decls, generates lower upper text_elasticapm t decls /\
                implements (decorator t "APMTracing") (td_type t) (map snd (td_methods t)) decls.
Proof.
  intros lower upper t Hc Ha. eexists. split; [apply elasticapm_generated; exact Hc|]. left. intros m Hm.
  eexists. split; [|apply declares_method; now left].
  apply in_or_app. right. apply in_or_app. left. apply in_flat_map. exists m. split; [now apply sorted_in|].
  rewrite Ha by exact Hm. now left.
Qed.

Definition C31_statement : Prop := forall text suffix lower upper t,
  In (text, suffix) ((text_elasticapm, "APMTracing") :: stock) ->
  exists decls, generates lower upper text t decls /\
                implements (decorator t suffix) (td_type t) (map snd (td_methods t)) decls.

(** [type Doer interface { Do(x int) }] *)
Definition ex_plain : method := Method [] [] "Do" [Param [] [] "x" "int" false] [] false false.
Definition ex_t : tdata := TData "Doer" "pkg.Doer" "" "" [("Do", ex_plain)] [] [].

Lemma in_glue : forall l d b, In d l -> exists p q, glue b l = p ++ d ++ q.
Proof.
  induction l as [|x l IH]; intros d b H; [destruct H|]. destruct H as [->|H].
  - exists (due b), (glue true l). reflexivity.
  - destruct (IH d true H) as (p & q & E). exists (due b ++ x ++ p), q. cbn [glue]. rewrite E. now rewrite <- !app_assoc.
Qed.

(** where a word that is one inserted value occurs *)
Definition is_hole (s : string) (t : gtok) : bool := match t with TW [PH x] => String.eqb x s | _ => false end.
Definition opens (t : gtok) : bool := match t with TSemi => true | TP c => byte_eqb c "{" | _ => false end.
Fixpoint opened_hole (s : string) (l : list gtok) : bool :=
  match l with a :: ((b :: _) as l') => (opens a && is_hole s b) || opened_hole s l' | _ => false end.

Lemma opened_hole_app : forall s p a b q, opens a = true -> is_hole s b = true -> opened_hole s (p ++ a :: b :: q) = true.
Proof.
  intros s p a b q Ha Hb. induction p as [|x p IH]; [cbn; now rewrite Ha, Hb|].
  cbn [app]. destruct (p ++ a :: b :: q) as [|y l] eqn:E; [now destruct p|]. change ((opens x && is_hole s y) || opened_hole s (y :: l) = true). rewrite IH. apply orb_true_r.
Qed.

Lemma generated_tokens : forall lower upper text t decls, generates lower upper text t decls ->
  match parse text with
  | Some ns => match execute lower upper ns (data_of t) with
               | TOk c => fst (lex_chunks (at_line false) c) = glue false decls
               | _ => False
               end
  | None => False
  end.
Proof.
  intros lower upper text t decls (ns & c & Hp & He & Hl). rewrite Hp, He, (Hl false). reflexivity.
Qed.

Lemma embeds_opened : forall dec typ d decls, In d decls -> embeds dec typ d -> opened_hole typ (glue false decls) = true.
Proof.
  intros dec typ d decls Hd (f1 & f2 & Ed & Hf1 & _). destruct (in_glue _ _ false Hd) as (p & q & ->). rewrite Ed.
  assert (Hh : is_hole typ (TW [PH typ]) = true) by (cbn; apply String.eqb_refl).
  destruct Hf1 as [-> | [l ->]].
  - cbn [app]. match goal with |- opened_hole _ (p ++ ?a :: ?b :: ?c :: ?r) = _ => change (p ++ a :: b :: c :: r) with (p ++ [a; b; c] ++ r) end.
    rewrite app_assoc. now apply opened_hole_app.
  - rewrite <- !app_assoc. cbn [app].
    match goal with |- opened_hole _ (p ++ ?a :: ?b :: ?c :: ?d0 :: l ++ TSemi :: ?r) = _ =>
      change (p ++ a :: b :: c :: d0 :: l ++ TSemi :: r) with (p ++ ([a; b; c; d0] ++ l) ++ TSemi :: r) end.
    rewrite app_assoc. now apply opened_hole_app.
Qed.

Theorem C31_elasticapm_refuted : ~ C31_statement.
Proof.
  intros H. destruct (H text_elasticapm "APMTracing" (fun x => x) (fun x => x) ex_t (or_introl eq_refl)) as (decls & Hg & Hi).
  apply generated_tokens in Hg. remember (glue false decls) as toks eqn:Et. vm_compute in Hg. rewrite Et in Hg. clear Et toks.
  destruct Hi as [Hm | (d & Hd & He)].
  - destruct (Hm ex_plain) as (d & Hd & st & body & _ & Ed); [now left|].
    destruct (in_glue _ _ false Hd) as (p & q & E). rewrite <- Hg in E.
    assert (Hh : existsb (is_hole (Declaration ex_plain)) (p ++ d ++ q) = true).
    { rewrite Ed, !existsb_app. cbn [existsb is_hole]. rewrite String.eqb_refl. now rewrite !orb_true_r. }
    rewrite <- E in Hh. vm_compute in Hh. discriminate Hh.
  - apply (embeds_opened _ _ _ _ Hd) in He. rewrite <- Hg in He. vm_compute in He. discriminate He.
Qed.

(** ** C55 *)

(** the nesting of braces in [l] never goes below where it starts, and ends there *)
Fixpoint nested (d : nat) (l : list gtok) : bool :=
  match l with
  | [] => Nat.eqb d 0
  | TP c :: r => if byte_eqb c "{" then nested (S d) r
                 else if byte_eqb c "}" then match d with S e => nested e r | 0 => false end
                 else nested d r
  | _ :: r => nested d r
  end.

(** the last statement of [body] is a return statement, or a [for] loop without a condition: the forms of
    the Go specification's "Terminating statements" that occur *)
Definition terminating (body : list gtok) : Prop :=
  exists pre st : list gtok, body = (pre ++ st)%list /\ (pre = [] \/ exists l, pre = l ++ [TSemi]) /\
    ((exists w rest, st = TW w :: rest /\ String.prefix "return" (wtext w) = true /\ ~ In TSemi rest) \/
     (exists rest, st = [TW [PS "for"]; TP "{"] ++ rest ++ [TP "}"] /\ nested 0 rest = true)).

(** a declared method with results has such a body *)
Definition ends_well (dec : string) (m : method) (d : list gtok) : Prop :=
  exists star body, (star = [] \/ star = [TP "*"]) /\
    d = [TW [PS "func"]; TP "("; TW [PS "_d"]] ++ star ++ [TW [PH dec]; TP ")"; TW [PH (Declaration m)]; TP "{"] ++ body ++ [TP "}"] /\
    nested 0 body = true /\ (m_results m <> [] -> terminating body).


(** [d] declares a method *)
Definition is_method (d : list gtok) : bool :=
  match d with TW [PS f] :: TP c :: TW [PS r] :: _ => String.eqb f "func" && byte_eqb c "(" && String.eqb r "_d" | _ => false end.

Definition methods_end (dec : string) (ms : list method) (decls : list (list gtok)) : Prop :=
  forall d, In d decls -> is_method d = true -> exists m, In m ms /\ ends_well dec m d.

Definition a_return (s : gstmt) : Prop := match s with SReturn | SPass _ _ => True | _ => False end.

Lemma semis_snoc : forall l x, exists pre : list gtok,
  semis (l ++ [x]) = (pre ++ x)%list /\ (pre = [] \/ exists k, pre = k ++ [TSemi]).
Proof.
  induction l as [|a l IH]; intros x; [exists []; split; [reflexivity | now left]|].
  destruct (IH x) as (pre & E & Hp). cbn [app]. exists (a ++ TSemi :: pre). split.
  - destruct (l ++ [x]) eqn:El; [now destruct l|]. cbn [semis]. change (a ++ TSemi :: semis (l0 :: l1) = (a ++ TSemi :: pre) ++ x).
    rewrite E. now rewrite <- app_assoc.
  - right. destruct Hp as [-> | [k ->]]; [now exists a|]. exists (a ++ TSemi :: k). now rewrite <- app_assoc.
Qed.

Lemma terminating_return : forall m l s, a_return s -> m_results m <> [] -> terminating (btoks m (l ++ [s])).
Proof.
  intros m l s Hs Hr. unfold btoks. rewrite map_app. cbn [map]. destruct (semis_snoc (map (stoks m) l) (stoks m s)) as (pre & -> & Hp).
  exists pre, (stoks m s). split; [reflexivity|]. split; [exact Hp|]. left. destruct s as [| | | | | | | | | | |pfx r| | |]; try destruct Hs.
  - exists (id "return"), []. repeat split. intros [].
  - exists [PH (Pass pfx m)], []. repeat split; [|intros []]. unfold Pass. destruct (m_results m); [now elim Hr|]. reflexivity.
Qed.

(** balanced wherever it is put *)
Definition neutral (l : list gtok) : Prop := forall d r, nested d (l ++ r) = nested d r.
Lemma neutral_app : forall a b, neutral a -> neutral b -> neutral (a ++ b).
Proof. intros a b Ha Hb d r. rewrite <- app_assoc. now rewrite (Ha d). Qed.
Lemma neutral_semis : forall l, Forall neutral l -> neutral (semis l).
Proof.
  induction l as [|x l IH]; intros H; [intros d r; reflexivity|]. inversion H as [|? ? Hx Hl]; subst.
  destruct l as [|y l]; [exact Hx|]. change (neutral (x ++ TSemi :: semis (y :: l))). apply neutral_app; [exact Hx|].
  intros d r. cbn [app nested]. apply (IH Hl).
Qed.
Lemma neutral_nested : forall l, neutral l -> nested 0 l = true.
Proof. intros l H. rewrite <- (app_nil_r l). now rewrite H. Qed.

Lemma neutral_body : forall m body, Forall (fun s => neutral (stoks m s)) body -> neutral (btoks m body).
Proof. intros m body H. apply neutral_semis. now apply Forall_map. Qed.

Lemma ends_method : forall st dec m body, st = [] \/ st = star -> a_return (last body (SInc vnil)) ->
  Forall (fun s => neutral (stoks m s)) body ->
  ends_well dec m (method_toks st dec m (btoks m body)).
Proof.
  intros st dec m body Hst Hs Hn. exists st, (btoks m body). split; [exact Hst|]. split; [reflexivity|].
  split; [now apply neutral_nested, neutral_body|].
  intros Hr. destruct body as [|x b]; [destruct Hs|].
  rewrite (app_removelast_last (SInc vnil) (l := x :: b)) by discriminate. now apply terminating_return.
Qed.

Lemma all_end : forall lower upper text t dec hd f ts,
  generates lower upper text t (hd ++ flat_map f (sorted_methods t) ++ ts) ->
  forallb (fun d => negb (is_method d)) hd = true -> forallb (fun d => negb (is_method d)) ts = true ->
  implements dec (td_type t) (map snd (td_methods t)) (hd ++ flat_map f (sorted_methods t) ++ ts) ->
  (forall m d, In m (map snd (td_methods t)) -> In d (f m) -> ends_well dec m d) ->
  exists decls, generates lower upper text t decls /\ implements dec (td_type t) (map snd (td_methods t)) decls /\
                methods_end dec (map snd (td_methods t)) decls.
Proof.
  intros lower upper text t dec hd f ts H Hh Ht Hi Hf. eexists. split; [exact H|]. split; [exact Hi|]. clear Hi. intros d Hd Hm.
  rewrite forallb_forall in Hh, Ht.
  apply in_app_or in Hd as [Hd | Hd]; [specialize (Hh _ Hd); now rewrite Hm in Hh|].
  apply in_app_or in Hd as [Hd | Hd]; [|specialize (Ht _ Hd); now rewrite Hm in Ht].
  apply in_flat_map in Hd as (m & Hi & Hd).
  assert (Hi' : In m (map snd (td_methods t))).
  { unfold sorted_methods in Hi. apply in_map_iff in Hi as (km & <- & Hi). apply in_map.
    eapply Permutation_in; [apply msort_perm | exact Hi]. }
  exists m. split; [exact Hi'|]. now apply Hf.
Qed.

(** the templates whose generated methods all end so *)
Definition ending : list (string * string) :=
  filter (fun x => negb (String.eqb (fst x) text_fallback)) stock.

Ltac impl := first
  [ apply imp_methods; intros; apply declares_method; now (left + right)
  | apply imp_methods; intros; apply declares_fallback
  | eapply imp_embedding; [right; now left | apply embeds_struct]
  | eapply imp_embedding; [cbn -[struct_decl import_decl ctor_decl]; right; left; reflexivity | apply embeds_struct]
  | eapply imp_embedding; [cbn -[struct_decl import_decl ctor_decl]; left; reflexivity | apply embeds_struct] ].
Ltac ends G := eapply all_end; [apply G | vm_compute; reflexivity | vm_compute; reflexivity | impl |].
Ltac one := intros m0 d0 _ Hin; cbv beta in Hin; try match type of Hin with In _ (if ?b then _ else _) => destruct b end;
  cbn [In] in Hin; try (now destruct Hin); destruct Hin as [<- | []].

Lemma last_app_cons {A} : forall (l : list A) x r d, last (l ++ x :: r) d = last (x :: r) d.
Proof. induction l as [|a l IH]; intros x r d; [reflexivity|]. rewrite <- (IH x r d). cbn [app]. destruct (l ++ x :: r) eqn:E; [now destruct l | reflexivity]. Qed.
Ltac last_stmt := first [exact I |
  unfold grpc_validate_body, twirp_validate_body, validate_body, validate_with, twirp_error_body, log_body, logrus_body;
  rewrite last_app_cons; exact I].

Ltac stmt_neutral := cbv beta; let d := fresh in let r := fresh in intros d r; cbn; reflexivity.
Ltac neut :=
  do 2 unfold grpc_validate_body, twirp_validate_body, validate_body, validate_with, twirp_error_body, log_body, logrus_body, elasticapm_body,
         log_deferred, logrus_deferred, prometheus_deferred, elasticapm_deferred, retry_wait, ratelimit_wait,
         opencensus_body, opentelemetry_body, opentracing_body, span_end, span_deferred,
         prometheus_body, ratelimit_body, retry_body;
  repeat first
    [ apply Forall_nil
    | apply Forall_app; split
    | apply Forall_cons; [|]
    | match goal with |- Forall _ (map _ _) => rewrite Forall_map; apply Forall_forall; intros ? _ end
    | stmt_neutral
    | match goal with |- context [if ?b then _ else _] => destruct b end ].

Theorem C55_terminating_partial : forall text suffix lower upper t,
  In (text, suffix) ending ->
  exists decls, generates lower upper text t decls /\ implements (decorator t suffix) (td_type t) (map snd (td_methods t)) decls /\
                methods_end (decorator t suffix) (map snd (td_methods t)) decls.
Proof.
  intros text suffix lower upper t H. unfold ending in H.
  apply filter_In in H as [H Hn]. cbn [fst] in Hn. unfold stock in H. cbn [In] in H.
  repeat match type of H with _ \/ _ => destruct H as [H | H] | False => destruct H end; injection H as <- <-.
  - ends circuitbreaker_generated. one. apply ends_method; [now right | exact I | neut].
  - discriminate.
  - ends grpc_validate_generated. one. apply ends_method; [now left | last_stmt | neut].
  - ends log_generated. one. apply ends_method; [now left | last_stmt | neut].
  - ends logrus_generated. one. apply ends_method; [now left | last_stmt | neut].
  - ends opencensus_generated. one. apply ends_method; [now left | last_stmt | neut].
  - ends opentelemetry_generated. one. apply ends_method; [now left | last_stmt | neut].
  - ends opentracing_generated. one. apply ends_method; [now left | last_stmt | neut].
  - ends prometheus_generated. one. apply ends_method; [now left | last_stmt | neut].
  - ends ratelimit_generated. one. apply ends_method; [now right | last_stmt | neut].
  - ends retry_generated. one. apply ends_method; [now left | last_stmt | neut].
  - ends robinpool_generated. one. apply ends_method; [now right | last_stmt | neut].
  - ends syncpool_generated. one. apply ends_method; [now left | last_stmt | neut].
  - ends timeout_generated. one. apply ends_method; [now left | last_stmt | neut].
  - ends twirp_error_generated. one. apply ends_method; [now left | last_stmt | neut].
  - ends twirp_validate_generated. one. apply ends_method; [now left | last_stmt | neut].
  - ends validate_generated. one. apply ends_method; [now left | last_stmt | neut].
Qed.

Theorem C55_elasticapm_partial : forall lower upper t,
  (forall m, In m (map snd (td_methods t)) -> ctx_first m) ->
  (forall m, In m (map snd (td_methods t)) -> m_acceptsContext m = true) ->
  exists decls, generates lower upper text_elasticapm t decls /\
                implements (decorator t "APMTracing") (td_type t) (map snd (td_methods t)) decls /\
                methods_end (decorator t "APMTracing") (map snd (td_methods t)) decls.
Proof.
  intros lower upper t Hc Ha. eapply all_end; [apply elasticapm_generated; exact Hc | vm_compute; reflexivity | vm_compute; reflexivity | |].
  { left. intros m Hm. eexists. split; [|apply declares_method; now left].
    apply in_or_app. right. apply in_or_app. left. apply in_flat_map. exists m. split; [now apply sorted_in|].
    rewrite Ha by exact Hm. now left. }
  one. apply ends_method; [now left | unfold elasticapm_body; rewrite app_assoc, last_app_cons; exact I | neut].
Qed.

(** a decision procedure for [terminating] *)
Definition semi_free (l : list gtok) : bool := forallb (fun t => match t with TSemi => false | _ => true end) l.
Definition ends_semi (l : list gtok) : bool := match rev l with [] => true | TSemi :: _ => true | _ => false end.
Definition is_return (st : list gtok) : bool :=
  match st with TW w :: rest => String.prefix "return" (wtext w) && semi_free rest | _ => false end.
Definition is_for (st : list gtok) : bool :=
  match st with
  | TW [PS f] :: TP b :: r =>
      String.eqb f "for" && byte_eqb b "{" && match rev r with TP c :: r' => byte_eqb c "}" && nested 0 (rev r') | _ => false end
  | _ => false
  end.
Definition ends_at (body : list gtok) (k : nat) : bool :=
  ends_semi (firstn k body) && (is_return (skipn k body) || is_for (skipn k body)).

Lemma ends_at_terminating : forall body k, ends_at body k = true -> terminating body.
Proof.
  intros body k H. apply andb_prop in H as [Hp Hs]. exists (firstn k body), (skipn k body). split; [now rewrite firstn_skipn|]. split.
  { unfold ends_semi in Hp. destruct (rev (firstn k body)) as [|x r] eqn:E.
    - left. apply (f_equal (@rev gtok)) in E. now rewrite rev_involutive in E.
    - right. exists (rev r). apply (f_equal (@rev gtok)) in E. rewrite rev_involutive in E. rewrite E. cbn. now destruct x. }
  apply orb_prop in Hs as [Hs | Hs].
  - left. unfold is_return in Hs. destruct (skipn k body) as [|[w| | | ] rest]; try discriminate. apply andb_prop in Hs as [H1 H2].
    exists w, rest. repeat split; [exact H1|]. intros Hin. unfold semi_free in H2. rewrite forallb_forall in H2. now apply H2 in Hin.
  - right. unfold is_for in Hs. destruct (skipn k body) as [|[[|[f|] [|]]| | |] [|[| |b|] r]]; try discriminate.
    apply andb_prop in Hs as [H1 H2]. apply andb_prop in H1 as [H1 H3].
    apply String.eqb_eq in H1 as ->. apply Ascii.eqb_eq in H3 as ->.
    destruct (rev r) as [|[| |c|] r'] eqn:E; try discriminate. apply andb_prop in H2 as [H2 H4]. apply Ascii.eqb_eq in H2 as ->.
    exists (rev r'). split; [|exact H4]. apply (f_equal (@rev gtok)) in E. rewrite rev_involutive in E. rewrite E. reflexivity.
Qed.

Definition fb_ok (m : method) : bool := m_acceptsContext m || negb (m_returnsError m).

Lemma ends_fallback : forall dec typ m, fb_ok m = true -> ends_well dec m (fallback_method dec typ m).
Proof.
  intros dec typ m H. exists [], (removelast (skipn 7 (fallback_method dec typ m))). split; [now left|].
  destruct m as [doc com name ps rs e c]. unfold fb_ok in H. cbn [m_acceptsContext m_returnsError] in H.
  unfold fallback_method, fb_launch, fb_wait, fb_receive, HasResults. cbn [m_acceptsContext m_returnsError m_results].
  split; [destruct e, c, rs; try discriminate H; vm_compute; reflexivity|].
  split.
  - destruct e, c, rs; try discriminate H; vm_compute; reflexivity.
  - intros Hr. cbn [m_results] in Hr. destruct rs as [|r rs]; [now elim Hr|]. clear Hr.
    assert (Hx : existsb (ends_at (removelast (skipn 7 (fallback_method dec typ (Method doc com name ps (r :: rs) e c))))) (seq 0 400) = true).
    { unfold fallback_method, fb_launch, fb_wait, fb_receive, HasResults. cbn [m_acceptsContext m_returnsError m_results].
      destruct e, c; try discriminate H; vm_compute; reflexivity. }
    apply existsb_exists in Hx as (k & _ & Hk). apply ends_at_terminating in Hk. exact Hk.
Qed.

Theorem C55_fallback_partial : forall lower upper t,
  (forall m, In m (map snd (td_methods t)) -> m_acceptsContext m = true \/ m_returnsError m = false) ->
  exists decls, generates lower upper text_fallback t decls /\
                implements (decorator t "WithFallback") (td_type t) (map snd (td_methods t)) decls /\
                methods_end (decorator t "WithFallback") (map snd (td_methods t)) decls.
Proof.
  intros lower upper t Hc. ends fallback_generated.
  intros m d Hm [<- | []]. apply ends_fallback. unfold fb_ok. destruct (Hc m Hm) as [-> | ->]; [reflexivity | apply orb_true_r].
Qed.

Definition C55_statement : Prop := forall text suffix lower upper t,
  In (text, suffix) stock ->
  exists decls, generates lower upper text t decls /\ implements (decorator t suffix) (td_type t) (map snd (td_methods t)) decls /\
                methods_end (decorator t suffix) (map snd (td_methods t)) decls.

(** [type Doer interface { Do(x int) (err error) }] *)
Definition ex_err : method := Method [] [] "Do" [Param [] [] "x" "int" false] [Param [] [] "err" "error" false] true false.
Definition ex_terr : tdata := TData "Doer" "pkg.Doer" "" "" [("Do", ex_err)] [] [].

(** [body] for every [s { body }] where [s] is an inserted value *)
Fixpoint until_close (d : nat) (l : list gtok) : option (list gtok) :=
  match l with
  | [] => None
  | TP c :: r =>
      if byte_eqb c "{" then option_map (cons (TP c)) (until_close (S d) r)
      else if byte_eqb c "}" then match d with S e => option_map (cons (TP c)) (until_close e r) | 0 => Some [] end
      else option_map (cons (TP c)) (until_close d r)
  | x :: r => option_map (cons x) (until_close d r)
  end.
Fixpoint bodies_of (s : string) (l : list gtok) : list (option (list gtok)) :=
  match l with
  | a :: ((b :: r) as l') => (if is_hole s a then [until_close 0 r] else []) ++ bodies_of s l'
  | _ => []
  end.

Lemma until_close_nested : forall body d q, nested d body = true -> until_close d (body ++ TP "}" :: q) = Some body.
Proof.
  induction body as [|x body IH]; intros d q H.
  - cbn in H |- *. apply Nat.eqb_eq in H. now subst d.
  - destruct x as [w|w|c|]; cbn [nested until_close app] in *; try (now rewrite IH).
    destruct (byte_eqb c "{"); [now rewrite IH|]. destruct (byte_eqb c "}"); [|now rewrite IH].
    destruct d as [|e]; [discriminate|]. now rewrite IH.
Qed.
Lemma bodies_of_in : forall s p a body q, is_hole s a = true -> nested 0 body = true ->
  In (Some body) (bodies_of s (p ++ a :: TP "{" :: body ++ TP "}" :: q)).
Proof.
  intros s p a body q Ha Hb. induction p as [|x p IH].
  - cbn [app]. change (In (Some body) ((if is_hole s a then [until_close 0 (body ++ TP "}" :: q)] else [])
                                       ++ bodies_of s (TP "{" :: body ++ TP "}" :: q))).
    rewrite Ha, until_close_nested by exact Hb. now left.
  - cbn [app]. destruct (p ++ a :: TP "{" :: body ++ TP "}" :: q) as [|y l] eqn:E; [now destruct p|].
    change (In (Some body) ((if is_hole s x then [until_close 0 l] else []) ++ bodies_of s (y :: l))). apply in_or_app. right. exact IH.
Qed.

Lemma terminating_ends_at : forall body, terminating body -> existsb (ends_at body) (seq 0 (S (length body))) = true.
Proof.
  intros body (pre & st & -> & Hp & Hs). apply existsb_exists. exists (length pre). split.
  { apply in_seq. rewrite app_length. lia. }
  unfold ends_at. rewrite firstn_app, firstn_all, Nat.sub_diag, skipn_app, skipn_all, Nat.sub_diag. cbn [firstn skipn app]. rewrite app_nil_r.
  apply andb_true_intro. split.
  { unfold ends_semi. destruct Hp as [-> | [l ->]]; [reflexivity|]. now rewrite rev_app_distr. }
  apply orb_true_iff. destruct Hs as [(w & rest & -> & Hw & Hn) | (rest & -> & Hn)].
  - left. cbn [is_return]. rewrite Hw. cbn [andb]. apply forallb_forall. intros x Hx. destruct x; try reflexivity. now elim Hn.
  - right. cbn [is_for app]. rewrite rev_app_distr. cbn [rev app]. rewrite rev_involutive. cbn. exact Hn.
Qed.

(** the fallback decorator for it does not end in a return, and has a result: it does not compile *)
Theorem C55_fallback_refuted : ~ C55_statement.
Proof.
  intros H. destruct (H text_fallback "WithFallback" (fun x => x) (fun x => x) ex_terr (or_intror (or_introl eq_refl))) as (decls & Hg & Hi & He).
  apply generated_tokens in Hg. remember (glue false decls) as toks eqn:Et. vm_compute in Hg. rewrite Et in Hg. clear Et toks.
  destruct Hi as [Hm | (d & Hd & Hemb)].
  - destruct (Hm ex_err) as (d & Hd & st & b & Hst & Ed); [now left|].
    destruct (He d Hd) as (m & [<- | []] & st' & body & Hst' & Ed' & Hn & Ht); [rewrite Ed; reflexivity|].
    specialize (Ht ltac:(discriminate)). clear Ed b st Hst Hm He.
    destruct (in_glue _ _ false Hd) as (p & q & E).
    assert (Hb : In (Some body) (bodies_of (Declaration ex_err) (glue false decls))).
    { rewrite E, Ed'. rewrite <- !app_assoc. rewrite (app_assoc p), (app_assoc _ st').
      match goal with |- In _ (bodies_of _ (?x ++ ([?a; ?b; ?c; ?d0] ++ body ++ [?e] ++ q))) =>
        change (x ++ ([a; b; c; d0] ++ body ++ [e] ++ q)) with (x ++ [a; b] ++ c :: d0 :: body ++ e :: q) end.
      rewrite app_assoc. apply bodies_of_in; [cbn [is_hole]; apply String.eqb_refl | exact Hn]. }
    rewrite <- Hg in Hb. vm_compute in Hb. destruct Hb as [Hb | []]. injection Hb as <-.
    apply terminating_ends_at in Ht. vm_compute in Ht. discriminate Ht.
  - apply (embeds_opened _ _ _ _ Hd) in Hemb. rewrite <- Hg in Hemb. vm_compute in Hemb. discriminate Hemb.
Qed.

(** ** Non-vacuity *)

(** [type Doer interface { Do(x int) (err error); Get(ctx context.Context) (s string, err error) }] *)
Definition ex_get : method :=
  Method [] [] "Get" [Param [] [] "ctx" "context.Context" false] [Param [] [] "s" "string" false; Param [] [] "err" "error" false] true true.
Definition ex_two : tdata := TData "Doer" "pkg.Doer" "" "" [("Do", ex_err); ("Get", ex_get)] [] [].

Example C31_two : exists decls, generates (fun x => x) (fun x => x) text_log ex_two decls /\
  implements "DoerWithLog" "pkg.Doer" [ex_err; ex_get] decls.
Proof. apply (C31_implements_partial text_log "WithLog" _ _ ex_two). cbn; tauto. Qed.
Example C31_apm : exists decls, generates (fun x => x) (fun x => x) text_elasticapm (TData "Doer" "pkg.Doer" "" "" [("Get", ex_get)] [] []) decls /\
  implements "DoerAPMTracing" "pkg.Doer" [ex_get] decls.
Proof.
  apply (C31_elasticapm_partial _ _ (TData "Doer" "pkg.Doer" "" "" [("Get", ex_get)] [] [])).
  - intros m [<- | []] _. do 2 eexists. split; reflexivity.
  - intros m [<- | []]. reflexivity.
Qed.
Example C55_two : exists decls, generates (fun x => x) (fun x => x) text_log ex_two decls /\
  implements "DoerWithLog" "pkg.Doer" [ex_err; ex_get] decls /\ methods_end "DoerWithLog" [ex_err; ex_get] decls.
Proof. apply (C55_terminating_partial text_log "WithLog" _ _ ex_two). unfold ending. apply filter_In. split; [cbn; tauto | reflexivity]. Qed.
Example C55_fallback : exists decls,
  generates (fun x => x) (fun x => x) text_fallback (TData "Doer" "pkg.Doer" "" "" [("Get", ex_get)] [] []) decls /\
  implements "DoerWithFallback" "pkg.Doer" [ex_get] decls /\ methods_end "DoerWithFallback" [ex_get] decls.
Proof. apply (C55_fallback_partial _ _ (TData "Doer" "pkg.Doer" "" "" [("Get", ex_get)] [] [])). intros m [<- | []]. now left. Qed.

Print Assumptions C31_implements_partial.
Print Assumptions C31_elasticapm_partial.
Print Assumptions C31_elasticapm_refuted.
Print Assumptions C55_terminating_partial.
Print Assumptions C55_elasticapm_partial.
Print Assumptions C55_fallback_partial.
Print Assumptions C55_fallback_refuted.
