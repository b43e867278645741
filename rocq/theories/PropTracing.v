(** C49: the tracing decorators. *)
From Verif Require Import Tracing Apm PropLog Honest PropNaming.
Open Scope nat_scope.

(** ** Statement *)

(** how a tracing library is used: the spans an event starts (context it is started from, name,
    span, derived context), the operation that ends a span, and what marks it as failed *)
Record tracing := Tracing {
  tg_started : op * ans -> list (val * val * val * val);
  tg_end : val -> op;
  tg_marked : val -> val -> trace -> Prop      (* span, derived context *)
}.
Definition spans (T : tracing) (tr : trace) : list (val * val * val * val) := flat_map (tg_started T) tr.
Definition ended (T : tracing) (span : val) (tr : trace) : Prop := exists a, In (tg_end T span, a) tr.

(** One span is started, from the caller's context; the base is called once with the context of the span;
    when it is done the span is ended, as the last thing the call does; it is marked iff the method
    returned an error and there is no span decorator [sd]; if there is one, it is called with the span, the
    parameters and the results. *)
Definition C49_call (T : tracing) (m : method) (b : nat) (sd : val) (zeros : list val) (name ctx : val) (rest : list val)
    (tr : trace) (r : out (list val)) : Prop :=
  exists pre span c a post,
    tr = pre ++ (OMeth (VRef b) (m_name m) (c :: rest), a) :: post /\
    spans T pre = [(ctx, name, span, c)] /\ spans T post = [] /\
    base_calls b (m_name m) pre = [] /\ base_calls b (m_name m) post = [] /\
    ~ ended T span pre /\ ends a r /\
    (a = ABlock -> post = []) /\
    (a <> ABlock -> exists post' x,
       post = post' ++ [(tg_end T span, ARet x)] /\ ~ ended T span post' /\
       (tg_marked T span c post' <-> returned_error m a /\ sd = VNil) /\
       (sd <> VNil -> exists y, post' = [(OCall sd [span; VMap (combine (param_names m) (c :: rest));
                                                    VMap (combine (result_names m) (match a with ARet vs => vs | _ => zeros end))], ARet y)])).

Definition opencensus : tracing :=
  Tracing (fun e => match e with
                    | (OCall (VPkg f) [ctx; name], ARet [c; s]) => if String.eqb f "trace.StartSpan" then [(ctx, name, s, c)] else []
                    | _ => []
                    end)
          (fun s => OMeth s "End" [])
          (fun s _ tr => exists x l y, In (OCall (VPkg "trace.BoolAttribute") [VString "error"; VBool true], ARet [x]) tr /\
                                       In (OMeth s "AddAttributes" l, ARet y) tr /\ In x l).

Definition opentelemetry : tracing :=
  Tracing (fun e => match e with
                    | (OMeth (VRef _) f [ctx; name], ARet [c; s]) => if String.eqb f "Start" then [(ctx, name, s, c)] else []
                    | _ => []
                    end)
          (fun s => OMeth s "End" [])
          (fun s _ tr => exists t y, In (OMeth s "SetStatus" [VPkg "_codes.Error"; t], ARet y) tr).

Definition opentracing : tracing :=
  Tracing (fun e => match e with
                    | (OCall (VPkg f) [ctx; name], ARet [s; c]) => if String.eqb f "opentracing.StartSpanFromContext" then [(ctx, name, s, c)] else []
                    | _ => []
                    end)
          (fun s => OMeth s "Finish" [])
          (fun s _ tr => exists y, In (OCall (VPkg "_ext.Error.Set") [s; VBool true], ARet y) tr).

Definition elasticapm (f : apm) : tracing :=
  Tracing (fun e => match e with
                    | (OCall (VRef k) [ctx; name; _], ARet [s; c]) => if k =? ap_start f then [(ctx, name, s, c)] else []
                    | _ => []
                    end)
          (fun s => OCall (VRef (ap_end f)) [s])
          (fun s c tr => exists e y, e <> VNil /\ In (OCall (VRef (ap_capture f)) [c; e], ARet y) tr).

(** the outside world: what the functions return has their Go types; spans, tracers and errors are not the base *)
Definition base_errors (W : gworld) (m : method) (b : nat) : Prop :=
  forall tr args vs, w_ans W tr (OMeth (VRef b) (m_name m) args) = ARet vs -> m_returnsError m = true ->
  last vs VNil = VNil \/ exists e, last vs VNil = VRef e /\ e <> b /\ error_value W e.
Definition one_result (W : gworld) (f : string) : Prop :=
  forall tr a vs, w_ans W tr (OCall (VPkg f) a) = ARet vs -> exists x, vs = [x].

Record opencensus_world (W : gworld) (m : method) (b : nat) : Prop := {
  oc_base : base_typed W m b;
  oc_errors : base_errors W m b;
  oc_start : forall tr a vs, w_ans W tr (OCall (VPkg "trace.StartSpan") a) = ARet vs -> exists c s, vs = [c; VRef s] /\ s <> b;
  oc_bool : one_result W "trace.BoolAttribute";
  oc_string : one_result W "trace.StringAttribute"
}.
Record opentelemetry_world (W : gworld) (m : method) (b : nat) : Prop := {
  ot_base : base_typed W m b;
  ot_errors : base_errors W m b;
  ot_tracer : forall tr a vs, w_ans W tr (OCall (VPkg "otel.Tracer") a) = ARet vs -> exists t, vs = [VRef t] /\ t <> b /\
    forall tr' a' vs', w_ans W tr' (OMeth (VRef t) "Start" a') = ARet vs' -> exists c s, vs' = [c; VRef s] /\ s <> b;
  ot_string : one_result W "attribute.String"
}.
Record opentracing_world (W : gworld) (m : method) (b : nat) : Prop := {
  og_base : base_typed W m b;
  og_errors : base_errors W m b;
  og_start : forall tr a vs, w_ans W tr (OCall (VPkg "opentracing.StartSpanFromContext") a) = ARet vs -> exists s c, vs = [VRef s; c] /\ s <> b;
  og_string : one_result W "_log.String"
}.
Record apm_world (W : gworld) (m : method) (b : nat) (f : apm) : Prop := {
  ap_base : base_typed W m b;
  ap_different : NoDup [ap_start f; ap_end f; ap_label f; ap_capture f];
  ap_started : forall tr a vs, w_ans W tr (OCall (VRef (ap_start f)) a) = ARet vs -> exists s c, vs = [s; c]
}.

(** ** Proofs *)
Lemma base_error_like : forall W m b, base_errors W m b ->
  forall tr args vs, w_ans W tr (OMeth (VRef b) (m_name m) args) = ARet vs -> error_like W m vs.
Proof. intros W m b H tr args vs E He. destruct (H _ _ _ E He) as [|(e & ? & _ & ?)]; eauto. Qed.

Lemma span_after_avoids : forall W m b mk fin sd s ps rs,
  (forall e, e <> b -> error_value W e -> avoids W (is_call b (m_name m)) (mk (VRef s) (VRef e))) -> s <> b ->
  (failed m rs = true -> exists e, last rs VNil = VRef e /\ e <> b /\ error_value W e) ->
  avoids W (is_call b (m_name m)) (span_after mk fin sd m (VRef s) ps rs).
Proof.
  intros W m b mk fin sd s ps rs Hmk Hs Hf. unfold span_after. apply avoids_andthen.
  - destruct (is_nil sd); [destruct (failed m rs) eqn:E|].
    + destruct (Hf eq_refl) as (e & -> & He & Hv). now apply Hmk.
    + apply avoids_done.
    + apply avoids_ask; [no_call | intros; apply avoids_done].
  - intros _. apply avoids_ask; [no_call | intros; apply avoids_done].
Qed.

Lemma plays_andthen_split : forall {A B} (sc : script A) (k : A -> script B) tr b,
  plays (andthen sc k) tr (Val b) -> exists a t1 t2, plays sc t1 (Val a) /\ plays (k a) t2 (Val b) /\ tr = t1 ++ t2.
Proof.
  intros A B sc k. induction sc as [a|o c IH]; cbn; intros tr b H.
  - exists a, [], tr. split; [constructor | split; [exact H | reflexivity]].
  - inversion H as [| | |o' k' l tr' r' H']; subst. destruct (IH _ _ _ H') as (a & t1 & t2 & Hp & Hk & ->).
    exists a, ((o, ARet l) :: t1), t2. split; [now constructor | split; [exact Hk | reflexivity]].
Qed.

Lemma span_after_ends : forall mk fin sd m sp ps rs post,
  plays (span_after mk fin sd m sp ps rs) post (Val tt) ->
  exists post' x, post = post' ++ [(OMeth sp fin [], ARet x)] /\
    (sd = VNil -> failed m rs = true -> plays (mk sp (last rs VNil)) post' (Val tt)) /\
    (sd = VNil -> failed m rs = false -> post' = []) /\
    (sd <> VNil -> exists y, post' = [(OCall sd [sp; VMap (combine (param_names m) ps); VMap (combine (result_names m) rs)], ARet y)]).
Proof.
  intros mk fin sd m sp ps rs post H. unfold span_after in H. apply plays_andthen_split in H as ([] & t1 & t2 & H1 & H2 & ->). unplay.
  exists t1, l. split; [reflexivity|]. destruct (is_nil sd) eqn:Es.
  - apply is_nil_spec in Es as ->. split; [|split; [|congruence]]; intros _ E; rewrite E in H1; [exact H1 | now unplay].
  - assert (sd <> VNil) by (intros ->; discriminate). split; [congruence | split; [congruence|]]. intros _. unplay. eauto.
Qed.

(** the errors a trace shows *)
Lemma shown_error : forall W m b zeros pre args a post, base_errors W m b -> (m_returnsError m = true -> last zeros VNil = VNil) ->
  told W (pre ++ (OMeth (VRef b) (m_name m) args, a) :: post) -> failed m (results zeros a) = true ->
  exists e, last (results zeros a) VNil = VRef e /\ e <> b /\ error_value W e.
Proof.
  intros W m b zeros pre args a post Hb Hz Ht Hf. unfold failed in Hf. apply andb_prop in Hf as [He Hl].
  destruct a as [vs| |]; cbn [results] in *; try (rewrite (Hz He) in Hl; discriminate).
  destruct (Ht (OMeth (VRef b) (m_name m) args) (ARet vs)) as [t E]; [apply in_or_app; right; now left|].
  destruct (Hb _ _ _ E He) as [E2|H]; [rewrite E2 in Hl; discriminate | exact H].
Qed.

Lemma told_method : forall W m funcs L body recv zeros args, told W (snd (run_method W m funcs L body recv zeros args)).
Proof. intros W m funcs L body recv zeros args o a H. eapply answered_in; [apply run_method_answered | exact H]. Qed.

(** events of a played mark *)
Ltac nospan :=
  unfold spans; cbn; repeat (match goal with |- context [match ?x with _ => _ end] => is_var x; destruct x; cbn end); reflexivity.

(** what follows the base call *)
Lemma span_tail : forall W T mk fin sd m b zeros span c rest a post,
  (sd = VNil \/ exists d, sd = VRef d) -> (m_returnsError m = true -> last zeros VNil = VNil) -> a <> ABlock ->
  tg_end T span = OMeth span fin [] ->
  (forall y, tg_started T (OMeth span fin [], ARet y) = []) ->
  (forall d l y, tg_started T (OCall (VRef d) l, ARet y) = []) ->
  (forall tr, (tr = [] \/ exists d l y, tr = [(OCall (VRef d) l, ARet y)]) -> ~ tg_marked T span c tr) ->
  (forall post', failed m (results zeros a) = true -> told W post' -> plays (mk span (last (results zeros a) VNil)) post' (Val tt) ->
     spans T post' = [] /\ ~ ended T span post' /\ tg_marked T span c post') ->
  told W post -> Forall (fun e => ~ is_call b (m_name m) (fst e)) post ->
  plays (span_after mk fin sd m span (c :: rest) (results zeros a)) post (Val tt) ->
  spans T post = [] /\ base_calls b (m_name m) post = [] /\
  exists post' x,
    post = post' ++ [(tg_end T span, ARet x)] /\ ~ ended T span post' /\
    (tg_marked T span c post' <-> returned_error m a /\ sd = VNil) /\
    (sd <> VNil -> exists y, post' = [(OCall sd [span; VMap (combine (param_names m) (c :: rest));
                                                 VMap (combine (result_names m) (match a with ARet vs => vs | _ => zeros end))], ARet y)]).
Proof.
  intros W T mk fin sd m b zeros span c rest a post Hsd Hze Hne Hend Hs1 Hs2 Hm Hmk Ht Hn Hp.
  pose proof (failed_returned m zeros a Hne Hze) as Hret.
  apply span_after_ends in Hp as (post' & x & -> & P1 & P2 & P3).
  apply told_app in Ht as [Ht _].
  assert (Hall : spans T post' = [] /\ ~ ended T span post' /\ (tg_marked T span c post' <-> returned_error m a /\ sd = VNil)).
  { destruct Hsd as [-> | [d ->]].
    - destruct (failed m (results zeros a)) eqn:Ef.
      + destruct (Hmk post' eq_refl Ht (P1 eq_refl eq_refl)) as (A & B & C). split; [exact A|]. split; [exact B|]. split; [|intros _; exact C]. intros _. split; [now apply Hret | reflexivity].
      + rewrite (P2 eq_refl eq_refl). split; [reflexivity|]. split; [intros [? []]|]. split.
        * intros H. exfalso. eapply Hm; [|exact H]. now left.
        * intros [H _]. apply Hret in H. discriminate.
    - destruct P3 as [y ->]; [discriminate|]. split; [cbn; now rewrite Hs2|]. split.
      { rewrite <- (app_nil_l [_]). intros [z [E|[]]]. rewrite Hend in E. discriminate. }
      split; [|intros [_ E]; discriminate]. intros H. exfalso. eapply Hm; [|exact H]. right. eauto. }
  destruct Hall as (A & B & C). split; [unfold spans in *; rewrite flat_map_app, A; cbn; now rewrite Hs1|].
  split; [now apply no_base_calls|]. exists post', x. rewrite Hend. auto.
Qed.

Theorem C49_opencensus_partial : forall W m name typ L b inst sd zeros ctx rest,
  wf_method m -> hygienic m ["_span"; "trace"] -> m_acceptsContext m = true -> name <> "_instance" -> name <> "_spanDecorator" ->
  length zeros = length (m_results m) -> (m_returnsError m = true -> last zeros VNil = VNil) ->
  length (ctx :: rest) = length (m_params m) -> (sd = VNil \/ exists d, sd = VRef d) -> opencensus_world W m b ->
  let '(r, tr) := run_method W m [] L (opencensus_body name typ m) (span_recv name b inst sd) zeros (ctx :: rest) in
  all_return (is_call b (m_name m)) tr ->
  C49_call opencensus m b sd zeros (VString (inst ++ "." ++ typ ++ "." ++ m_name m)) ctx rest tr r.
Proof.
  intros W m name typ L b inst sd zeros ctx rest Hwf Hh Hac Hn1 Hn2 Hz Hze Ha Hsd [Wb We Ws Wbo Wst].
  assert (Ws' : forall tr a vs, w_ans W tr (OCall (VPkg "trace.StartSpan") a) = ARet vs -> exists c s, vs = [c; VRef s]).
  { intros tr a vs E. destruct (Ws _ _ _ E) as (c & s & -> & _). eauto. }
  pose proof (opencensus_meets W m name typ L b inst sd zeros ctx rest Hwf Hac Hz Ha Wb Hsd Hn1 Hn2 Hze (base_error_like _ _ _ We) Hh Ws' Wbo Wst) as H.
  pose proof (told_method W m [] L (opencensus_body name typ m) (span_recv name b inst sd) zeros (ctx :: rest)) as Ht.
  destruct (run_method _ _ _ _ _ _ _ _) as [r tr]. cbn [snd] in Ht. intros Hr.
  assert (Hb : forall t x, told W t -> plays (opencensus_before inst typ m ctx rest) t (Val x) ->
            exists s c, t = [(OCall (VPkg "trace.StartSpan") [ctx; VString (inst ++ "." ++ typ ++ "." ++ m_name m)], ARet [c; VRef s])] /\
                        x = (VRef s, c :: rest) /\ s <> b).
  { intros t x Ht' Hp. unfold opencensus_before in Hp. unplay. destruct (Ht' _ _ (or_introl eq_refl)) as [t' E].
    destruct (Ws _ _ _ E) as (c & s & -> & Hs). exists s, c. repeat split; assumption. }
  destruct (observed_calm W (is_call b (m_name m)) _ _ _ _ _ _ H Ht Hr) as (pre & x & a & post & -> & Hp & N1 & N2 & He & Hpost).
  { unfold opencensus_before. apply avoids_ask; [no_call | intros; apply avoids_done]. }
  { intros x a t t2 -> Hp. apply told_app in Ht as Ht'. destruct (Hb _ _ (proj1 Ht') Hp) as (s & c & -> & -> & Hs). cbn [fst snd].
    apply span_after_avoids; [|exact Hs|].
    - intros e Hne Hv. unfold opencensus_mark. repeat (apply avoids_ask; [no_call | intros]). apply avoids_done.
    - intros Hf. eapply shown_error; [exact We | exact Hze | exact Ht | exact Hf]. }
  apply told_app in Ht as Ht12. destruct Ht12 as [Ht1 Ht2]. destruct (Hb _ _ Ht1 Hp) as (s & c & -> & -> & Hs). cbn [fst snd] in *.
  eexists _, (VRef s), c, a, post. split; [reflexivity|]. split; [reflexivity|].
  destruct Hpost as [[-> ->]|[Hne Hpl]].
  - repeat split; auto using no_base_calls; try contradiction. intros [? [E|[]]]. discriminate.
  - eapply (span_tail W opencensus opencensus_mark "End" sd m b zeros (VRef s) c rest a) in Hpl as (A & B & C); try assumption; try reflexivity.
    + repeat split; auto using no_base_calls; try contradiction. intros [? [E|[]]]. discriminate.
    + intros tr' Htr (x & l & y & H1 & H2 & _). destruct Htr as [->|(d & l' & y' & ->)]; [destruct H1|]. destruct H1 as [E|[]]. discriminate.
    + intros post' Hf Ht' Hm. destruct (shown_error W m b zeros _ _ _ _ We Hze Ht Hf) as (e & El & Hne' & Hv).
      rewrite El in Hm. unfold opencensus_mark in Hm. unplay. split; [nospan|]. split.
      * intros [z Hz']. cbn in Hz'. intuition discriminate.
      * destruct (Ht' _ _ (or_introl eq_refl)) as [t E]. destruct (Wbo _ _ _ E) as [x ->]. cbn [hd].
        eexists x, _, _. split; [now left|]. split; [do 4 right; now left | now left].
    + now apply told_tail in Ht2.
Qed.

Theorem C49_opentelemetry_partial : forall W m name pfx L b inst sd zeros ctx rest,
  wf_method m -> hygienic m ["_span"; "otel"; "_codes"; "attribute"] -> m_acceptsContext m = true -> name <> "_instance" -> name <> "_spanDecorator" ->
  length zeros = length (m_results m) -> (m_returnsError m = true -> last zeros VNil = VNil) ->
  length (ctx :: rest) = length (m_params m) -> (sd = VNil \/ exists d, sd = VRef d) -> opentelemetry_world W m b ->
  let '(r, tr) := run_method W m [] L (opentelemetry_body name pfx m) (span_recv name b inst sd) zeros (ctx :: rest) in
  all_return (is_call b (m_name m)) tr ->
  C49_call opentelemetry m b sd zeros (VString (pfx ++ "." ++ m_name m)) ctx rest tr r.
Proof.
  intros W m name pfx L b inst sd zeros ctx rest Hwf Hh Hac Hn1 Hn2 Hz Hze Ha Hsd [Wb We Ws Wst].
  assert (Ws' : forall tr a vs, w_ans W tr (OCall (VPkg "otel.Tracer") a) = ARet vs -> exists t, vs = [VRef t] /\
            forall tr' a' vs', w_ans W tr' (OMeth (VRef t) "Start" a') = ARet vs' -> exists c s, vs' = [c; VRef s]).
  { intros tr a vs E. destruct (Ws _ _ _ E) as (t & -> & _ & Hs). exists t. split; [reflexivity|]. intros tr' a' vs' E'.
    destruct (Hs _ _ _ E') as (c & s & -> & _). eauto. }
  pose proof (opentelemetry_meets W m name L b inst sd zeros ctx rest Hwf Hac Hz Ha Wb Hsd Hn1 Hn2 Hze (base_error_like _ _ _ We) pfx Hh Ws' Wst) as H.
  pose proof (told_method W m [] L (opentelemetry_body name pfx m) (span_recv name b inst sd) zeros (ctx :: rest)) as Ht.
  destruct (run_method _ _ _ _ _ _ _ _) as [r tr]. cbn [snd] in Ht. intros Hr.
  assert (Hb : forall t x, told W t -> plays (opentelemetry_before inst pfx m ctx rest) t (Val x) ->
            exists k s c, t = [(OCall (VPkg "otel.Tracer") [VString inst], ARet [VRef k]);
                               (OMeth (VRef k) "Start" [ctx; VString (pfx ++ "." ++ m_name m)], ARet [c; VRef s])] /\
                        x = (VRef s, c :: rest) /\ s <> b).
  { intros t x Ht' Hp. unfold opentelemetry_before in Hp. unplay. destruct (Ht' _ _ (or_introl eq_refl)) as [t' E].
    destruct (Ws _ _ _ E) as (k & -> & Hk & Hst). destruct (Ht' _ _ (or_intror (or_introl eq_refl))) as [t2 E2].
    destruct (Hst _ _ _ E2) as (c & s & -> & Hs). exists k, s, c. repeat split; assumption. }
  destruct (observed_calm W (is_call b (m_name m)) _ _ _ _ _ _ H Ht Hr) as (pre & x & a & post & -> & Hp & N1 & N2 & He & Hpost).
  { unfold opentelemetry_before. apply avoids_ask; [no_call|]. intros t vs E. destruct (Ws _ _ _ E) as (k & -> & Hk & _). cbn [hd].
    apply avoids_ask; [no_call | intros; apply avoids_done]. }
  { intros x a t t2 -> Hp. apply told_app in Ht as Ht'. destruct (Hb _ _ (proj1 Ht') Hp) as (k & s & c & -> & -> & Hs). cbn [fst snd].
    apply span_after_avoids; [|exact Hs|].
    - intros e Hne Hv. unfold opentelemetry_mark. repeat (apply avoids_ask; [no_call | intros]). apply avoids_done.
    - intros Hf. eapply shown_error; [exact We | exact Hze | exact Ht | exact Hf]. }
  apply told_app in Ht as Ht12. destruct Ht12 as [Ht1 Ht2]. destruct (Hb _ _ Ht1 Hp) as (k & s & c & -> & -> & Hs). cbn [fst snd] in *.
  eexists _, (VRef s), c, a, post. split; [reflexivity|]. split; [reflexivity|].
  destruct Hpost as [[-> ->]|[Hne Hpl]].
  - repeat split; auto using no_base_calls; try contradiction. intros [? Hi]. cbn in Hi. intuition discriminate.
  - eapply (span_tail W opentelemetry opentelemetry_mark "End" sd m b zeros (VRef s) c rest a) in Hpl as (A & B & C); try assumption; try reflexivity.
    + repeat split; auto using no_base_calls; try contradiction. intros [? Hi]. cbn in Hi. intuition discriminate.
    + intros tr' Htr (x & y & H1). destruct Htr as [->|(d & l' & y' & ->)]; [destruct H1|]. destruct H1 as [E|[]]. discriminate.
    + intros post' Hf Ht' Hm. destruct (shown_error W m b zeros _ _ _ _ We Hze Ht Hf) as (e & El & Hne' & Hv).
      rewrite El in Hm. unfold opentelemetry_mark in Hm. unplay. split; [nospan|]. split.
      * intros [z Hz']. cbn in Hz'. intuition discriminate.
      * eexists _, _. right. right. now left.
    + now apply told_tail in Ht2.
Qed.

Theorem C49_opentracing_partial : forall W m name typ L b inst sd zeros ctx rest,
  wf_method m -> hygienic m ["_span"; "opentracing"; "_ext"; "_log"] -> m_acceptsContext m = true -> name <> "_instance" -> name <> "_spanDecorator" ->
  length zeros = length (m_results m) -> (m_returnsError m = true -> last zeros VNil = VNil) ->
  length (ctx :: rest) = length (m_params m) -> (sd = VNil \/ exists d, sd = VRef d) -> opentracing_world W m b ->
  let '(r, tr) := run_method W m [] L (opentracing_body name typ m) (span_recv name b inst sd) zeros (ctx :: rest) in
  all_return (is_call b (m_name m)) tr ->
  C49_call opentracing m b sd zeros (VString (inst ++ "." ++ typ ++ "." ++ m_name m)) ctx rest tr r.
Proof.
  intros W m name typ L b inst sd zeros ctx rest Hwf Hh Hac Hn1 Hn2 Hz Hze Ha Hsd [Wb We Ws Wst].
  assert (Ws' : forall tr a vs, w_ans W tr (OCall (VPkg "opentracing.StartSpanFromContext") a) = ARet vs -> exists s c, vs = [VRef s; c]).
  { intros tr a vs E. destruct (Ws _ _ _ E) as (s & c & -> & _). eauto. }
  pose proof (opentracing_meets W m name typ L b inst sd zeros ctx rest Hwf Hac Hz Ha Wb Hsd Hn1 Hn2 Hze (base_error_like _ _ _ We) Hh Ws' Wst) as H.
  pose proof (told_method W m [] L (opentracing_body name typ m) (span_recv name b inst sd) zeros (ctx :: rest)) as Ht.
  destruct (run_method _ _ _ _ _ _ _ _) as [r tr]. cbn [snd] in Ht. intros Hr.
  assert (Hb : forall t x, told W t -> plays (opentracing_before inst typ m ctx rest) t (Val x) ->
            exists s c, t = [(OCall (VPkg "opentracing.StartSpanFromContext") [ctx; VString (inst ++ "." ++ typ ++ "." ++ m_name m)], ARet [VRef s; c])] /\
                        x = (VRef s, c :: rest) /\ s <> b).
  { intros t x Ht' Hp. unfold opentracing_before in Hp. unplay. destruct (Ht' _ _ (or_introl eq_refl)) as [t' E].
    destruct (Ws _ _ _ E) as (s & c & -> & Hs). exists s, c. repeat split; assumption. }
  destruct (observed_calm W (is_call b (m_name m)) _ _ _ _ _ _ H Ht Hr) as (pre & x & a & post & -> & Hp & N1 & N2 & He & Hpost).
  { unfold opentracing_before. apply avoids_ask; [no_call | intros; apply avoids_done]. }
  { intros x a t t2 -> Hp. apply told_app in Ht as Ht'. destruct (Hb _ _ (proj1 Ht') Hp) as (s & c & -> & -> & Hs). cbn [fst snd].
    apply span_after_avoids; [|exact Hs|].
    - intros e Hne Hv. unfold opentracing_mark. repeat (apply avoids_ask; [no_call | intros]). apply avoids_done.
    - intros Hf. eapply shown_error; [exact We | exact Hze | exact Ht | exact Hf]. }
  apply told_app in Ht as Ht12. destruct Ht12 as [Ht1 Ht2]. destruct (Hb _ _ Ht1 Hp) as (s & c & -> & -> & Hs). cbn [fst snd] in *.
  eexists _, (VRef s), c, a, post. split; [reflexivity|]. split; [reflexivity|].
  destruct Hpost as [[-> ->]|[Hne Hpl]].
  - repeat split; auto using no_base_calls; try contradiction. intros [? [E|[]]]. discriminate.
  - eapply (span_tail W opentracing opentracing_mark "Finish" sd m b zeros (VRef s) c rest a) in Hpl as (A & B & C); try assumption; try reflexivity.
    + repeat split; auto using no_base_calls; try contradiction. intros [? [E|[]]]. discriminate.
    + intros tr' Htr (y & H1). destruct Htr as [->|(d & l' & y' & ->)]; [destruct H1|]. destruct H1 as [E|[]]. discriminate.
    + intros post' Hf Ht' Hm. destruct (shown_error W m b zeros _ _ _ _ We Hze Ht Hf) as (e & El & Hne' & Hv).
      rewrite El in Hm. unfold opentracing_mark in Hm. unplay. split; [nospan|]. split.
      * intros [z Hz']. cbn in Hz'. intuition discriminate.
      * eexists. now left.
    + now apply told_tail in Ht2.
Qed.

(** elasticapm: labels are set once the span is started *)
Lemma apm_labels_avoid : forall W b nm f snake sp l, avoids W (is_call b nm) (apm_labels f snake sp l).
Proof. intros W b nm f snake sp l. induction l as [|[x v] l IH]; cbn; [apply avoids_done | apply avoids_ask; [no_call | intros; exact IH]]. Qed.

Lemma apm_labels_events : forall f snake sp l tr r, plays (apm_labels f snake sp l) tr r ->
  forall e, In e tr -> exists x v a, e = (OCall (VRef (ap_label f)) [sp; x; v], a).
Proof.
  intros f snake sp l. induction l as [|[x v] l IH]; cbn; intros tr r H e He; inversion H; subst; cbn in He;
  repeat match goal with H : _ \/ _ |- _ => destruct H | H : False |- _ => destruct H end; subst; eauto.
Qed.

Theorem C49_elasticapm_partial : forall W m snake comp L b f zeros ctx rest,
  wf_method m -> hygienic m ["span"] -> m_acceptsContext m = true ->
  length zeros = length (m_results m) -> (m_returnsError m = true -> last zeros VNil = VNil) ->
  length (ctx :: rest) = length (m_params m) -> apm_world W m b f ->
  let '(r, tr) := run_method W m [] L (elasticapm_body snake comp m) (VRec (apm_fields b f)) zeros (ctx :: rest) in
  all_return (is_call b (m_name m)) tr ->
  C49_call (elasticapm f) m b VNil zeros (VString (comp ++ "." ++ m_name m)) ctx rest tr r.
Proof.
  intros W m snake comp L b f zeros ctx rest Hwf Hh Hac Hz Hze Ha [Wb Wd Ws].
  pose proof (apm_meets W m snake comp L b f zeros ctx rest Hwf Hh Hac Hz Ha Wb Ws) as H.
  pose proof (told_method W m [] L (elasticapm_body snake comp m) (VRec (apm_fields b f)) zeros (ctx :: rest)) as Ht.
  destruct (run_method _ _ _ _ _ _ _ _) as [r tr]. cbn [snd] in Ht. intros Hr.
  assert (D : ap_start f <> ap_end f /\ ap_start f <> ap_label f /\ ap_start f <> ap_capture f /\ ap_end f <> ap_capture f).
  { inversion Wd as [|? ? N1 Wd1]; inversion Wd1 as [|? ? N2 Wd2]; subst. cbn in N1, N2. repeat split; intros E; rewrite ?E in *; tauto. }
  destruct D as (D1 & D2 & D3 & D4).
  assert (Ab : avoids W (is_call b (m_name m)) (apm_before f comp m ctx rest)).
  { unfold apm_before. apply avoids_ask; [no_call | intros; apply avoids_done]. }
  assert (Aa : forall s c rs, avoids W (is_call b (m_name m)) (apm_after f m s c rs)).
  { intros s c rs. unfold apm_after. apply avoids_andthen.
    - destruct (failed m rs); [apply avoids_ask; [no_call | intros] |]; apply avoids_done.
    - intros _. apply avoids_ask; [no_call | intros; apply avoids_done]. }
  assert (Hpre : forall t x t1, told W t -> plays (apm_before f comp m ctx rest) t (Val x) ->
            plays (apm_labels f snake (fst x) (combine (tl (param_names m)) rest)) t1 (Val tt) -> told W t1 ->
            spans (elasticapm f) (t ++ t1) = [(ctx, VString (comp ++ "." ++ m_name m), fst x, snd x)] /\
            base_calls b (m_name m) (t ++ t1) = [] /\ ~ ended (elasticapm f) (fst x) (t ++ t1)).
  { intros t x t1 Ht' Hp Hl Ht1. pose proof (apm_labels_events _ _ _ _ _ _ Hl) as Hev.
    pose proof (plays_avoids _ _ _ _ _ Hp Ab Ht') as Na. pose proof (plays_avoids _ _ _ _ _ Hl (apm_labels_avoid W b (m_name m) _ _ _ _) Ht1) as Nl.
    assert (Hsl : spans (elasticapm f) t1 = []).
    { unfold spans. clear - Hev D2. induction t1 as [|e t1 IH]; [reflexivity|]. cbn [flat_map]. rewrite IH by (intros; apply Hev; now right).
      destruct (Hev e (or_introl eq_refl)) as (y & v & a & ->). destruct a as [[|s [|c [|? ?]]]| |]; try reflexivity.
      cbn. destruct (Nat.eqb_spec (ap_label f) (ap_start f)); [congruence | reflexivity]. }
    unfold apm_before in Hp. unplay. destruct (Ht' _ _ (or_introl eq_refl)) as [t' E]. destruct (Ws _ _ _ E) as (s & c & ->). cbn [nth fst snd] in *.
    split; [|split].
    - unfold spans in *. rewrite flat_map_app, Hsl. cbn. now rewrite Nat.eqb_refl.
    - rewrite base_calls_app. now rewrite !no_base_calls.
    - intros [a [E1|Hi]]; [discriminate E1|]. cbn in Hi. destruct (Hev _ Hi) as (y & v & a' & E1). discriminate E1. }
  destruct H as [t v Hp|t Hp|t x t1 v t2 bo r Hp Hl _ _|t x t1 Hp Hl|t x t1 Hp Hl|t x t1 a t2 bo r Hp Hl Hne Hpa Hf].
  - destruct (plays_calm _ _ _ _ _ Hp Ab Ht Hr). discriminate.
  - destruct (plays_calm _ _ _ _ _ Hp Ab Ht Hr). discriminate.
  - exfalso. apply all_return_app in Hr as [_ Hr]. apply all_return_app in Hr as [Hr _]. apply told_app in Ht as [_ Ht]. apply told_app in Ht as [Ht _].
    destruct (plays_calm _ _ _ _ _ Hl (apm_labels_avoid W b (m_name m) _ _ _ _) Ht Hr). discriminate.
  - exfalso. apply all_return_app in Hr as [_ Hr]. apply told_app in Ht as [_ Ht].
    destruct (plays_calm _ _ _ _ _ Hl (apm_labels_avoid W b (m_name m) _ _ _ _) Ht Hr). discriminate.
  - apply told_app in Ht as [Ht1 Ht2]. apply told_app in Ht2 as [Ht2 _]. destruct (Hpre t x t1 Ht1 Hp Hl Ht2) as (A & B & C).
    exists (t ++ t1), (fst x), (snd x), ABlock, []. rewrite <- app_assoc. repeat split; auto. intros E; contradiction.
  - apply told_app in Ht as [Ht1 Ht2]. apply told_app in Ht2 as [Ht2 Ht3]. apply told_tail in Ht3. destruct (Hpre t x t1 Ht1 Hp Hl Ht2) as (A & B & C).
    apply all_return_app in Hr as [_ Hr]. apply all_return_app in Hr as [_ Hr]. assert (Hr3 : all_return (is_call b (m_name m)) t2) by (now inversion Hr).
    destruct (plays_calm _ _ _ _ _ Hpa (Aa _ _ _) Ht3 Hr3) as [[] ->].
    pose proof (plays_avoids _ _ _ _ _ Hpa (Aa _ _ _) Ht3) as N2.
    pose proof (failed_returned m zeros a Hne Hze) as Hret.
    exists (t ++ t1), (fst x), (snd x), a, t2. rewrite <- app_assoc. do 2 (split; [first [reflexivity | exact A]|]).
    unfold apm_after in Hpa. apply plays_andthen_split in Hpa as ([] & u1 & u2 & H1 & H2 & ->).
    assert (Hs1 : forall l y, tg_started (elasticapm f) (OCall (VRef (ap_capture f)) l, ARet y) = []).
    { intros l y. cbn. destruct l as [|? [|? [|? [|? ?]]]]; try reflexivity. destruct y as [|? [|? [|? ?]]]; try reflexivity.
      destruct (Nat.eqb_spec (ap_capture f) (ap_start f)); [congruence | reflexivity]. }
    assert (Hs2 : forall l y, tg_started (elasticapm f) (OCall (VRef (ap_end f)) l, ARet y) = []).
    { intros l y. cbn. destruct l as [|? [|? [|? [|? ?]]]]; try reflexivity. destruct y as [|? [|? [|? ?]]]; try reflexivity.
      destruct (Nat.eqb_spec (ap_end f) (ap_start f)); [congruence | reflexivity]. }
    split; [|split; [exact B | split; [now apply no_base_calls | split; [exact C | split; [exact Hf | split; [intros E; contradiction|]]]]]].
    + unfold spans. rewrite flat_map_app. unplay. destruct (failed m (results zeros a)); unplay; unfold flat_map; now rewrite ?Hs1, ?Hs2.
    + intros _. unplay. exists u1, l. split; [reflexivity|].
      destruct (failed m (results zeros a)) eqn:Ef; unplay.
      * split; [|split; [|congruence]].
        { intros [? [E|[]]]. cbn in E. injection E as E _. congruence. }
        split; [intros _; split; [now apply Hret | reflexivity]|]. intros _. eexists _, _. split; [|now left].
        unfold failed in Ef. apply andb_prop in Ef as [_ Ef]. intros E. rewrite E in Ef. discriminate.
      * split; [intros [? []]|]. split; [|congruence]. split; [intros (? & ? & _ & [])|]. intros [E _]. apply Hret in E. discriminate.
Qed.

(** ** Examples: 0 is the base, 20 the span, 21 its context, 22 the tracer, 30 to 33 the functions of elasticapm,
    40 a span decorator, 100 an error whose text can be read and 101 one whose text cannot *)
Definition ex_trace_world (a : ans) : gworld :=
  GWorld (fun tr o => match o with
    | OMeth (VRef 0) "Do" _ => a
    | OCall (VPkg "trace.StartSpan") _ => ARet [VRef 21; VRef 20]
    | OCall (VPkg "otel.Tracer") _ => ARet [VRef 22]
    | OCall (VPkg "opentracing.StartSpanFromContext") _ => ARet [VRef 20; VRef 21]
    | OCall (VPkg "_ext.Error.Set") _ => ARet []
    | OCall (VPkg _) _ => ARet [VString "attribute"]
    | OCall (VRef 30) _ => ARet [VRef 20; VRef 21]
    | OCall (VRef _) _ => ARet []
    | OMeth (VRef _) "Start" _ => ARet [VRef 21; VRef 20]
    | OMeth (VRef n) "Error" _ => if n =? 101 then APan (VString "no text") else ARet [VString "text"]
    | OMeth (VRef _) _ _ => ARet []
    | _ => ABlock
    end) (fun _ _ => false).
Definition ex_fns : apm := Apm 30 31 32 33 "custom".
Definition ex_zeros : list val := [VString ""; VNil].
Definition ex_opencensus_run (sd : val) (a : ans) : out (list val) * trace :=
  run_method (ex_trace_world a) ex_m [] 0 (opencensus_body "Doer" "Doer" ex_m) (span_recv "Doer" 0 "i" sd) ex_zeros ex_args.
Definition ex_opentelemetry_run (sd : val) (a : ans) : out (list val) * trace :=
  run_method (ex_trace_world a) ex_m [] 0 (opentelemetry_body "Doer" "Doer" ex_m) (span_recv "Doer" 0 "i" sd) ex_zeros ex_args.
Definition ex_opentracing_run (sd : val) (a : ans) : out (list val) * trace :=
  run_method (ex_trace_world a) ex_m [] 0 (opentracing_body "Doer" "Doer" ex_m) (span_recv "Doer" 0 "i" sd) ex_zeros ex_args.
Definition ex_elasticapm_run (a : ans) : out (list val) * trace :=
  run_method (ex_trace_world a) ex_m [] 0 (elasticapm_body (fun x => x) "Doer" ex_m) (VRec (apm_fields 0 ex_fns)) ex_zeros ex_args.

Example C49_nontrivial :
  wf_method ex_m /\ hygienic ex_m ["_span"; "trace"] /\ hygienic ex_m ["_span"; "otel"; "_codes"; "attribute"] /\
  hygienic ex_m ["_span"; "opentracing"; "_ext"; "_log"] /\ hygienic ex_m ["span"] /\
  m_acceptsContext ex_m = true /\
  (forall a, (forall l, a = ARet l -> exists s, l = [s; VNil] \/ exists e, l = [s; VRef e] /\ 100 <= e) ->
     opencensus_world (ex_trace_world a) ex_m 0 /\ opentelemetry_world (ex_trace_world a) ex_m 0 /\
     opentracing_world (ex_trace_world a) ex_m 0 /\ apm_world (ex_trace_world a) ex_m 0 ex_fns).
Proof.
  split; [eapply NewMethod_wf, ex_NewMethod|].
  do 4 (split; [intros x Hx Hin; cbn in Hx, Hin; intuition (subst; discriminate)|]).
  split; [reflexivity|]. intros a H.
  assert (Hb : base_typed (ex_trace_world a) ex_m 0).
  { intros tr l vs E. cbn in E. destruct (H vs E) as [s [->|[e [-> _]]]]; reflexivity. }
  assert (He : base_errors (ex_trace_world a) ex_m 0).
  { intros tr l vs E _. cbn in E. destruct (H vs E) as [s [->|[e [-> Hle]]]]; [now left|]. right. exists e. split; [reflexivity|]. split; [lia|].
    intros tr' vs' E'. destruct e as [|e]; [lia|]. cbn -[Nat.eqb] in E'. destruct (S e =? 101); [discriminate|]. injection E' as <-. eauto. }
  repeat split; try assumption.
  - intros tr args vs E. injection E as <-. exists (VRef 21), 20. now split.
  - intros tr args vs E. injection E as <-. eauto.
  - intros tr args vs E. injection E as <-. eauto.
  - intros tr args vs E. injection E as <-. exists 22. split; [reflexivity|]. split; [discriminate|].
    intros tr' a' vs' E'. injection E' as <-. exists (VRef 21), 20. now split.
  - intros tr args vs E. injection E as <-. eauto.
  - intros tr args vs E. injection E as <-. exists 20, (VRef 21). now split.
  - intros tr args vs E. injection E as <-. eauto.
  - repeat constructor; cbn; intuition discriminate.
  - intros tr args vs E. injection E as <-. eauto.
Qed.

Example C49_runs :
  ex_opencensus_run VNil (ARet [VString "s"; VRef 100]) =
    (Val [VString "s"; VRef 100],
     [(OCall (VPkg "trace.StartSpan") [VRef 3; VString "i.Doer.Do"], ARet [VRef 21; VRef 20]);
      (OMeth (VRef 0) "Do" (VRef 21 :: tl ex_args), ARet [VString "s"; VRef 100]);
      (OCall (VPkg "trace.BoolAttribute") [VString "error"; VBool true], ARet [VString "attribute"]);
      (OCall (VPkg "trace.StringAttribute") [VString "event"; VString "error"], ARet [VString "attribute"]);
      (OMeth (VRef 100) "Error" [], ARet [VString "text"]);
      (OCall (VPkg "trace.StringAttribute") [VString "message"; VString "text"], ARet [VString "attribute"]);
      (OMeth (VRef 20) "AddAttributes" [VString "attribute"; VString "attribute"; VString "attribute"], ARet []);
      (OMeth (VRef 20) "End" [], ARet [])]) /\
  ex_opentracing_run (VRef 40) (APan (VInt 1)) =
    (Pan (VInt 1),
     [(OCall (VPkg "opentracing.StartSpanFromContext") [VRef 3; VString "i.Doer.Do"], ARet [VRef 20; VRef 21]);
      (OMeth (VRef 0) "Do" (VRef 21 :: tl ex_args), APan (VInt 1));
      (OCall (VRef 40) [VRef 20; VMap (combine ["ctx"; "a"; "i1"; "rest"] (VRef 21 :: tl ex_args)); VMap [("s1", VString ""); ("err", VNil)]], ARet []);
      (OMeth (VRef 20) "Finish" [], ARet [])]) /\
  ex_opentelemetry_run VNil (ARet [VString "s"; VNil]) =
    (Val [VString "s"; VNil],
     [(OCall (VPkg "otel.Tracer") [VString "i"], ARet [VRef 22]);
      (OMeth (VRef 22) "Start" [VRef 3; VString "Doer.Do"], ARet [VRef 21; VRef 20]);
      (OMeth (VRef 0) "Do" (VRef 21 :: tl ex_args), ARet [VString "s"; VNil]);
      (OMeth (VRef 20) "End" [], ARet [])]) /\
  ex_elasticapm_run (ARet [VString "s"; VRef 100]) =
    (Val [VString "s"; VRef 100],
     [(OCall (VRef 30) [VRef 3; VString "Doer.Do"; VString "custom"], ARet [VRef 20; VRef 21]);
      (OCall (VRef 32) [VRef 20; VString "a"; VInt 7], ARet []);
      (OCall (VRef 32) [VRef 20; VString "i1"; VInt 8], ARet []);
      (OCall (VRef 32) [VRef 20; VString "rest"; VSlice []], ARet []);
      (OMeth (VRef 0) "Do" (VRef 21 :: tl ex_args), ARet [VString "s"; VRef 100]);
      (OCall (VRef 33) [VRef 21; VRef 100], ARet []);
      (OCall (VRef 31) [VRef 20], ARet [])]).
Proof. vm_compute. repeat split; reflexivity. Qed.

(** Full statement, for opencensus: whatever the helpers do, the span is ended when the base is done. *)
Definition C49_statement : Prop :=
  forall W m name typ L b inst sd zeros ctx rest,
  wf_method m -> hygienic m ["_span"; "trace"] -> m_acceptsContext m = true -> name <> "_instance" -> name <> "_spanDecorator" ->
  length zeros = length (m_results m) -> (m_returnsError m = true -> last zeros VNil = VNil) ->
  length (ctx :: rest) = length (m_params m) -> (sd = VNil \/ exists d, sd = VRef d) -> opencensus_world W m b ->
  let '(r, tr) := run_method W m [] L (opencensus_body name typ m) (span_recv name b inst sd) zeros (ctx :: rest) in
  forall span c a, In (OCall (VPkg "trace.StartSpan") [ctx; VString (inst ++ "." ++ typ ++ "." ++ m_name m)], ARet [c; span]) tr ->
    In (OMeth (VRef b) (m_name m) (c :: rest), a) tr -> a <> ABlock -> ended opencensus span tr.

(** The deferred function calls err.Error() before End: if that panics the span is never ended. *)
Theorem C49_error_text_panics_refuted : ~ C49_statement.
Proof.
  intros H. destruct C49_nontrivial as (Hwf & Hh & _ & _ & _ & Hac & HW).
  destruct (HW (ARet [VString "s"; VRef 101])) as [Ho _].
  { intros l E. injection E as <-. exists (VString "s"). right. exists 101. split; [reflexivity | lia]. }
  assert (E1 : "Doer" <> "_instance") by discriminate. assert (E2 : "Doer" <> "_spanDecorator") by discriminate.
  specialize (H _ ex_m "Doer" "Doer" 0 0 "i" VNil ex_zeros (VRef 3) (tl ex_args) Hwf Hh Hac E1 E2 eq_refl (fun _ => eq_refl) eq_refl (or_introl eq_refl) Ho).
  vm_compute in H. specialize (H (VRef 20) (VRef 21) (ARet [VString "s"; VRef 101])).
  destruct H as [x Hx]; [now left | right; now left | discriminate|]. cbn in Hx. intuition discriminate.
Qed.

(** So does a span decorator that panics; the panic also replaces that of the base. *)
Definition ex_bad_decorator : gworld :=
  GWorld (fun tr o => match o with OCall (VRef _) _ => APan (VString "decorator") | _ => w_ans (ex_trace_world (APan (VInt 1))) tr o end) (fun _ _ => false).
Example C49_decorator_panics :
  run_method ex_bad_decorator ex_m [] 0 (opentracing_body "Doer" "Doer" ex_m) (span_recv "Doer" 0 "i" (VRef 40)) ex_zeros ex_args =
    (Pan (VString "decorator"),
     [(OCall (VPkg "opentracing.StartSpanFromContext") [VRef 3; VString "i.Doer.Do"], ARet [VRef 20; VRef 21]);
      (OMeth (VRef 0) "Do" (VRef 21 :: tl ex_args), APan (VInt 1));
      (OCall (VRef 40) [VRef 20; VMap (combine ["ctx"; "a"; "i1"; "rest"] (VRef 21 :: tl ex_args)); VMap [("s1", VString ""); ("err", VNil)]],
       APan (VString "decorator"))]).
Proof. vm_compute. reflexivity. Qed.

Print Assumptions C49_opencensus_partial.
Print Assumptions C49_opentelemetry_partial.
Print Assumptions C49_opentracing_partial.
Print Assumptions C49_elasticapm_partial.
Print Assumptions C49_nontrivial.
Print Assumptions C49_error_text_panics_refuted.
