(** C50: the decorators that only observe a call, bound it in time or choose
    an implementation make the caller's call, once, and end as it ended. *)
From Verif Require Import Timeout Log Prometheus Tracing Apm Honest Pools PropLog PropPrometheus PropTimeout PropTracing PropNaming.
Open Scope nat_scope.

(** ** Statement *)

(** the same arguments, but for the context of a method that has one *)
Definition same_args (m : method) (args args' : list val) : Prop :=
  args' = args \/ m_acceptsContext m = true /\ exists c c' rest, args = c :: rest /\ args' = c' :: rest.

(** one call of the method on [b], made with the caller's arguments, decides how the call ends *)
Definition C50_call (m : method) (b : nat) (args : list val) (tr : trace) (r : out (list val)) : Prop :=
  exists args' a, base_calls b (m_name m) tr = [(args', a)] /\ same_args m args args' /\ ends a r.

(** the same for a set of implementations *)
Definition C50_pool_call (m : method) (impl : nat -> Prop) (args : list val) (tr : trace) (r : out (list val)) : Prop :=
  exists i a, impl i /\ base_calls i (m_name m) tr = [(args, a)] /\ ends a r /\
    forall j, impl j -> j <> i -> base_calls j (m_name m) tr = [].

Lemma base_calls_mid : forall b nm pre args a post, base_calls b nm pre = [] -> base_calls b nm post = [] ->
  base_calls b nm (pre ++ (OMeth (VRef b) nm args, a) :: post) = [(args, a)].
Proof.
  intros b nm pre args a post H1 H2. rewrite base_calls_app, H1. cbn. rewrite Nat.eqb_refl, String.eqb_refl. cbn.
  fold (base_calls b nm post). now rewrite H2.
Qed.

(** ** Logging and metrics *)

Theorem C50_log : forall W m dec L base std errl zeros args,
  wf_method m -> hygienic m ["_params"; "_results"] ->
  length zeros = length (m_results m) -> (m_returnsError m = true -> last zeros VNil = VNil) ->
  length args = length (m_params m) -> log_world W m base std errl ->
  let '(r, tr) := run_method W m [] L (log_body dec m)
      (VRec [("_stdlog", VRef std); ("_errlog", VRef errl); ("_base", VRef base)]) zeros args in
  C50_call m base args tr r.
Proof.
  intros W m dec L base std errl zeros args H1 H2 H3 H4 H5 H6.
  pose proof (C47_log W m dec L base std errl zeros args H1 H2 H3 H4 H5 H6) as H.
  destruct (run_method _ _ _ _ _ _ _ _) as [r tr]. destruct H as [pre a post r e _ _ _ B1 B2 _ He|pre _ B1]; exists args.
  - exists a. split; [now apply base_calls_mid|]. split; [now left | exact He].
  - exists ABlock. split; [now apply base_calls_mid|]. split; [now left | reflexivity].
Qed.

Theorem C50_logrus : forall W m dec typ L base log zeros args,
  wf_method m -> hygienic m [] ->
  length zeros = length (m_results m) -> (m_returnsError m = true -> last zeros VNil = VNil) ->
  length args = length (m_params m) -> logrus_world W m base log ->
  let '(r, tr) := run_method W m [] L (logrus_body dec m) (construct (logrus_ctor typ) [VRef base; VRef log]) zeros args in
  C50_call m base args tr r.
Proof.
  intros W m dec typ L base log zeros args H1 H2 H3 H4 H5 H6.
  pose proof (C47_logrus W m dec typ L base log zeros args H1 H2 H3 H4 H5 H6) as H.
  destruct (run_method _ _ _ _ _ _ _ _) as [r tr]. destruct H as [pre a post r e _ _ _ B1 B2 _ He|pre _ B1]; exists args.
  - exists a. split; [now apply base_calls_mid|]. split; [now left | exact He].
  - exists ABlock. split; [now apply base_calls_mid|]. split; [now left | reflexivity].
Qed.

Theorem C50_prometheus : forall W m dn typ L base inst zeros args,
  wf_method m -> hygienic m ["time"; "_since"; "result"; summary dn] ->
  length zeros = length (m_results m) -> (m_returnsError m = true -> last zeros VNil = VNil) ->
  length args = length (m_params m) -> prometheus_world W (dn ++ "DurationSummaryVec") m base ->
  let '(r, tr) := run_method W m [] L (prometheus_body dn m) (construct (prometheus_ctor typ) [VRef base; VString inst]) zeros args in
  C50_call m base args tr r.
Proof.
  intros W m dn typ L base inst zeros args H1 H2 H3 H4 H5 H6.
  pose proof (C48_prometheus W m dn typ L base inst zeros args H1 H2 H3 H4 H5 H6) as H.
  destruct (run_method _ _ _ _ _ _ _ _) as [r tr].
  destruct H as [t pre a post r label v _ _ _ _ _ B1 B2 _ He|pre _ B1]; exists args.
  - exists a. split; [now apply base_calls_mid|]. split; [now left | exact He].
  - exists ABlock. split; [now apply base_calls_mid|]. split; [now left | reflexivity].
Qed.

(** ** timeout, when context.WithTimeout returns *)

Theorem C50_timeout : forall W m dec name typ config t base L zeros c rest,
  wf_method m -> hygienic m ["context"; "cancelFunc"] -> m_acceptsContext m = true ->
  length zeros = length (m_results m) -> length (VRef c :: rest) = length (m_params m) ->
  name <> "config" -> field_of (m_name m ++ "Timeout") config = Some (VInt t) ->
  timeout_world W m base c ->
  (forall tr p, exists vs, w_ans W tr (with_timeout (VRef c) p) = ARet vs) ->
  let '(r, tr) := run_method W m [] L (timeout_body name m)
                    (construct (timeout_ctor dec name typ) [VRef base; VRec config]) zeros (VRef c :: rest) in
  C50_call m base (VRef c :: rest) tr r.
Proof.
  intros W m dec name typ config t base L zeros c rest H1 H2 Hac H3 H4 H5 H6 H7 Hret.
  pose proof (C44_timeout W m dec name typ config t base L zeros c rest (fun _ => None) (fun _ => 0%Z) H1 H2 Hac H3 H4 H5 H6 H7) as H.
  pose proof (run_method_answered W m [] L (timeout_body name m) (construct (timeout_ctor dec name typ) [VRef base; VRec config]) zeros (VRef c :: rest)) as Hans.
  destruct (run_method _ _ _ _ _ _ _ _) as [r tr]. cbn [snd] in Hans.
  assert (Hin : forall o a, In (o, a) tr -> exists t, w_ans W t o = a) by (intros o a; now apply answered_in with (tr := [])).
  destruct H as [a r _ He|a r _ Hf|k a r before after _ He B1 B2 _ _ _ _].
  - exists (VRef c :: rest), a. split; [now apply (base_calls_mid base (m_name m) [])|]. split; [now left | exact He].
  - destruct (Hin _ _ (or_introl eq_refl)) as [t' E]. destruct (Hret t' t) as [vs E2]. rewrite E in E2. rewrite E2 in Hf. destruct Hf.
  - exists (VRef k :: rest), a. split; [now apply base_calls_mid|]. split; [|exact He]. right. split; [exact Hac|]. now exists (VRef c), (VRef k), rest.
Qed.

(** ** Tracing, when the calls of the tracing library and of the error return *)

Lemma C49_C50 : forall T m b sd zeros name ctx rest tr r, m_acceptsContext m = true ->
  C49_call T m b sd zeros name ctx rest tr r -> C50_call m b (ctx :: rest) tr r.
Proof.
  intros T m b sd zeros name ctx rest tr r Hac (pre & span & c & a & post & -> & _ & _ & B1 & B2 & _ & He & _).
  exists (c :: rest), a. split; [now apply base_calls_mid|]. split; [|exact He]. right. split; [exact Hac|]. now exists ctx, c, rest.
Qed.

Theorem C50_opencensus_partial : forall W m name typ L b inst sd zeros ctx rest,
  wf_method m -> hygienic m ["_span"; "trace"] -> m_acceptsContext m = true -> name <> "_instance" -> name <> "_spanDecorator" ->
  length zeros = length (m_results m) -> (m_returnsError m = true -> last zeros VNil = VNil) ->
  length (ctx :: rest) = length (m_params m) -> (sd = VNil \/ exists d, sd = VRef d) -> opencensus_world W m b ->
  let '(r, tr) := run_method W m [] L (opencensus_body name typ m) (span_recv name b inst sd) zeros (ctx :: rest) in
  all_return (is_call b (m_name m)) tr -> C50_call m b (ctx :: rest) tr r.
Proof.
  intros W m name typ L b inst sd zeros ctx rest H1 H2 Hac H3 H4 H5 H6 H7 H8 H9.
  pose proof (C49_opencensus_partial W m name typ L b inst sd zeros ctx rest H1 H2 Hac H3 H4 H5 H6 H7 H8 H9) as H.
  destruct (run_method _ _ _ _ _ _ _ _) as [r tr]. intros Hr. eapply C49_C50; [exact Hac | exact (H Hr)].
Qed.

Theorem C50_opentelemetry_partial : forall W m name pfx L b inst sd zeros ctx rest,
  wf_method m -> hygienic m ["_span"; "otel"; "_codes"; "attribute"] -> m_acceptsContext m = true -> name <> "_instance" -> name <> "_spanDecorator" ->
  length zeros = length (m_results m) -> (m_returnsError m = true -> last zeros VNil = VNil) ->
  length (ctx :: rest) = length (m_params m) -> (sd = VNil \/ exists d, sd = VRef d) -> opentelemetry_world W m b ->
  let '(r, tr) := run_method W m [] L (opentelemetry_body name pfx m) (span_recv name b inst sd) zeros (ctx :: rest) in
  all_return (is_call b (m_name m)) tr -> C50_call m b (ctx :: rest) tr r.
Proof.
  intros W m name pfx L b inst sd zeros ctx rest H1 H2 Hac H3 H4 H5 H6 H7 H8 H9.
  pose proof (C49_opentelemetry_partial W m name pfx L b inst sd zeros ctx rest H1 H2 Hac H3 H4 H5 H6 H7 H8 H9) as H.
  destruct (run_method _ _ _ _ _ _ _ _) as [r tr]. intros Hr. eapply C49_C50; [exact Hac | exact (H Hr)].
Qed.

Theorem C50_opentracing_partial : forall W m name typ L b inst sd zeros ctx rest,
  wf_method m -> hygienic m ["_span"; "opentracing"; "_ext"; "_log"] -> m_acceptsContext m = true -> name <> "_instance" -> name <> "_spanDecorator" ->
  length zeros = length (m_results m) -> (m_returnsError m = true -> last zeros VNil = VNil) ->
  length (ctx :: rest) = length (m_params m) -> (sd = VNil \/ exists d, sd = VRef d) -> opentracing_world W m b ->
  let '(r, tr) := run_method W m [] L (opentracing_body name typ m) (span_recv name b inst sd) zeros (ctx :: rest) in
  all_return (is_call b (m_name m)) tr -> C50_call m b (ctx :: rest) tr r.
Proof.
  intros W m name typ L b inst sd zeros ctx rest H1 H2 Hac H3 H4 H5 H6 H7 H8 H9.
  pose proof (C49_opentracing_partial W m name typ L b inst sd zeros ctx rest H1 H2 Hac H3 H4 H5 H6 H7 H8 H9) as H.
  destruct (run_method _ _ _ _ _ _ _ _) as [r tr]. intros Hr. eapply C49_C50; [exact Hac | exact (H Hr)].
Qed.

Theorem C50_elasticapm_partial : forall W m snake comp L b f zeros ctx rest,
  wf_method m -> hygienic m ["span"] -> m_acceptsContext m = true ->
  length zeros = length (m_results m) -> (m_returnsError m = true -> last zeros VNil = VNil) ->
  length (ctx :: rest) = length (m_params m) -> apm_world W m b f ->
  let '(r, tr) := run_method W m [] L (elasticapm_body snake comp m) (VRec (apm_fields b f)) zeros (ctx :: rest) in
  all_return (is_call b (m_name m)) tr -> C50_call m b (ctx :: rest) tr r.
Proof.
  intros W m snake comp L b f zeros ctx rest H1 H2 Hac H3 H4 H5 H6.
  pose proof (C49_elasticapm_partial W m snake comp L b f zeros ctx rest H1 H2 Hac H3 H4 H5 H6) as H.
  destruct (run_method _ _ _ _ _ _ _ _) as [r tr]. intros Hr. eapply C49_C50; [exact Hac | exact (H Hr)].
Qed.

(** ** Pools *)

(** a channel of implementations from which one is received and to which it is sent back *)
Record syncpool_world (W : gworld) (m : method) (pool : nat) (impl : nat -> Prop) : Prop := {
  sw_take : forall tr, exists i, w_ans W tr (OSelect [VRef pool]) = ARet [VInt 0; VRef i] /\ impl i;
  sw_give : forall tr v, exists vs, w_ans W tr (OSend (VRef pool) v) = ARet vs;
  sw_impl : forall i, impl i -> base_typed W m i
}.

Theorem C50_syncpool : forall W m L pool impl zeros args,
  wf_method m -> hygienic m ["_impl"] -> length zeros = length (m_results m) -> length args = length (m_params m) ->
  syncpool_world W m pool impl ->
  let '(r, tr) := run_method W m [] L (syncpool_body m) (VRec [("pool", VRef pool)]) zeros args in
  C50_pool_call m impl args tr r.
Proof.
  intros W m L pool impl zeros args Hwf Hh Hz Ha [Wt Wg Wi].
  assert (Ht : forall tr vs, w_ans W tr (OSelect [VRef pool]) = ARet vs -> exists i, vs = [VInt 0; VRef i] /\ base_typed W m i).
  { intros tr vs E. destruct (Wt tr) as (i & E2 & Hi). rewrite E in E2. injection E2 as ->. exists i. split; [reflexivity | now apply Wi]. }
  pose proof (syncpool_meets W m L pool zeros args Hwf Hh Hz Ha Ht) as H.
  pose proof (run_method_answered W m [] L (syncpool_body m) (VRec [("pool", VRef pool)]) zeros args) as Hans.
  destruct (run_method _ _ _ _ _ _ _ _) as [r tr]. cbn [snd] in Hans.
  assert (Hin : forall o a, In (o, a) tr -> exists t, w_ans W t o = a) by (intros o a; now apply answered_in with (tr := [])).
  assert (Hb : forall t x, (forall o a, In (o, a) t -> exists t', w_ans W t' o = a) -> plays (syncpool_before (VRef pool)) t x ->
            exists i, impl i /\ x = Val i /\ t = [(OSelect [VRef pool], ARet [VInt 0; VRef i])]).
  { intros t x Hi Hp. inversion Hp; subst.
    - destruct (Hi _ _ (or_introl eq_refl)) as [t' E]. destruct (Wt t') as (i & E2 & _). congruence.
    - destruct (Hi _ _ (or_introl eq_refl)) as [t' E]. destruct (Wt t') as (i & E2 & _). congruence.
    - destruct (Hi _ _ (or_introl eq_refl)) as [t' E]. destruct (Wt t') as (i & E2 & Himp). rewrite E in E2. injection E2 as ->.
      match goal with Hp' : plays (Done _) _ _ |- _ => inversion Hp'; subst end. now exists i. }
  destruct H as [t v Hp|t Hp|t x Hp|t x a t2 b r Hp Hne Hpa Hr].
  - destruct (Hb _ _ Hin Hp) as (i & _ & E & _). discriminate.
  - destruct (Hb _ _ Hin Hp) as (i & _ & E & _). discriminate.
  - destruct (Hb t (Val x)) as (i & Hi & E & ->); [intros o a Ho; apply Hin, in_or_app; now left | exact Hp|]. injection E as ->.
    exists i, ABlock. split; [exact Hi|]. split; [|split; [reflexivity|]].
    + cbn. now rewrite Nat.eqb_refl, String.eqb_refl.
    + intros j _ Hj. cbn. destruct (Nat.eqb_spec i j); [congruence | reflexivity].
  - destruct (Hb t (Val x)) as (i & Hi & E & ->); [intros o a' Ho; apply Hin, in_or_app; now left | exact Hp|]. injection E as ->.
    assert (Ht2 : exists l, t2 = [(OSend (VRef pool) (VRef i), ARet l)] /\ b = Val tt).
    { inversion Hpa; subst.
      - destruct (Hin (OSend (VRef pool) (VRef i)) (APan v)) as [t' E]; [apply in_or_app; right; right; now left|].
        destruct (Wg t' (VRef i)) as [vs E2]. congruence.
      - destruct (Hin (OSend (VRef pool) (VRef i)) ABlock) as [t' E]; [apply in_or_app; right; right; now left|].
        destruct (Wg t' (VRef i)) as [vs E2]. congruence.
      - match goal with Hp' : plays (Done _) _ _ |- _ => inversion Hp'; subst end. now exists l. }
    destruct Ht2 as (l & -> & ->). exists i, a. split; [exact Hi|]. split; [|split; [exact Hr|]].
    + cbn. now rewrite Nat.eqb_refl, String.eqb_refl.
    + intros j _ Hj. cbn. destruct (Nat.eqb_spec i j); [congruence | reflexivity].
Qed.

(** a slice of implementations and a counter *)
Record robinpool_world (W : gworld) (m : method) (counter : nat) (impls : list nat) : Prop := {
  rw_add : forall tr, exists c, w_ans W tr (OCall (VPkg "atomic.AddUint32") [VRef counter; VInt 1]) = ARet [VInt c] /\ (0 <= c)%Z;
  rw_impl : forall i, In i impls -> base_typed W m i
}.

(** the fields as the constructor sets them, for a pool shorter than 2^32 *)
Definition robinpool_recv (counter : nat) (impls : list nat) : val :=
  VRec [("pool", VSlice (map VRef impls)); ("poolSize", VInt (Z.of_nat (length impls))); ("counter", VRef counter)].

Theorem C50_robinpool : forall W m L counter impls zeros args,
  wf_method m -> hygienic m ["_counter"; "atomic"] -> length zeros = length (m_results m) -> length args = length (m_params m) ->
  impls <> [] -> robinpool_world W m counter impls ->
  let '(r, tr) := run_method W m [] L (robinpool_body m) (robinpool_recv counter impls) zeros args in
  C50_pool_call m (fun i => In i impls) args tr r.
Proof.
  intros W m L counter impls zeros args Hwf Hh Hz Ha Hne [Wa Wi].
  assert (Hp : forall v, In v (map VRef impls) -> exists i, v = VRef i /\ base_typed W m i).
  { intros v Hv. apply in_map_iff in Hv as (i & <- & Hi). exists i. split; [reflexivity | now apply Wi]. }
  assert (Hadd : forall tr vs, w_ans W tr (add_uint32 counter) = ARet vs -> exists c, vs = [VInt c] /\ (0 <= c)%Z).
  { intros tr vs E. destruct (Wa tr) as (c & E2 & Hc). unfold add_uint32 in E. rewrite E in E2. injection E2 as ->. now exists c. }
  pose proof (robinpool_meets W m L (map VRef impls) (Z.of_nat (length impls)) counter zeros args Hwf Hh Hz Ha Hp (Nat2Z.is_nonneg _) Hadd) as H.
  pose proof (run_method_answered W m [] L (robinpool_body m) (robinpool_recv counter impls) zeros args) as Hans.
  unfold robinpool_recv in *. destruct (run_method _ _ _ _ _ _ _ _) as [r tr]. cbn [snd] in Hans.
  assert (Hin : forall o a, In (o, a) tr -> exists t, w_ans W t o = a) by (intros o a; now apply answered_in with (tr := [])).
  assert (Hlen : 0 < length impls) by (destruct impls; [contradiction | cbn; lia]).
  destruct H as [a r Hf|c Es|c Es Hl|c i a r Es Hn He].
  - destruct (Hin _ _ (or_introl eq_refl)) as [t E]. destruct (Wa t) as (c & E2 & _). unfold add_uint32 in E. rewrite E in E2. rewrite E2 in Hf. destruct Hf.
  - lia.
  - destruct (Hin _ _ (or_introl eq_refl)) as [t E]. destruct (Hadd _ _ E) as (c' & Ec & Hc). injection Ec as <-.
    rewrite map_length in Hl. assert (Hr := Z.rem_bound_pos c (Z.of_nat (length impls)) Hc ltac:(lia)). lia.
  - assert (Hi : In i impls).
    { apply nth_error_In in Hn. apply in_map_iff in Hn as (j & E & Hj). injection E as ->. exact Hj. }
    exists i, a. split; [exact Hi|]. split; [|split; [exact He|]].
    + cbn. now rewrite Nat.eqb_refl, String.eqb_refl.
    + intros j _ Hj. cbn. destruct (Nat.eqb_spec i j); [congruence | reflexivity].
Qed.

(** ** Full statement for the tracing decorators, and why it is false *)

Definition C50_statement : Prop :=
  forall W m name typ L b inst sd zeros ctx rest,
  wf_method m -> hygienic m ["_span"; "trace"] -> m_acceptsContext m = true -> name <> "_instance" -> name <> "_spanDecorator" ->
  length zeros = length (m_results m) -> (m_returnsError m = true -> last zeros VNil = VNil) ->
  length (ctx :: rest) = length (m_params m) -> (sd = VNil \/ exists d, sd = VRef d) -> opencensus_world W m b ->
  let '(r, tr) := run_method W m [] L (opencensus_body name typ m) (span_recv name b inst sd) zeros (ctx :: rest) in
  C50_call m b (ctx :: rest) tr r.

(** The deferred function asks the returned error for its text; an error whose Error method panics (a nil pointer of an
    error type, say) makes the decorated call panic although the base returned. *)
Theorem C50_error_text_panics_refuted : ~ C50_statement.
Proof.
  intros H. destruct C49_nontrivial as (Hwf & Hh & _ & _ & _ & Hac & HW).
  destruct (HW (ARet [VString "s"; VRef 101])) as [Ho _].
  { intros l E. injection E as <-. exists (VString "s"). right. exists 101. split; [reflexivity | lia]. }
  assert (E1 : "Doer" <> "_instance") by discriminate. assert (E2 : "Doer" <> "_spanDecorator") by discriminate.
  specialize (H _ ex_m "Doer" "Doer" 0 0 "i" VNil ex_zeros (VRef 3) (tl ex_args) Hwf Hh Hac E1 E2 eq_refl (fun _ => eq_refl) eq_refl (or_introl eq_refl) Ho).
  vm_compute in H. destruct H as (args' & a & E & _ & He). injection E as _ <-. discriminate He.
Qed.

(** ** Examples *)

Definition ex_pool_world (a : ans) : gworld :=
  GWorld (fun tr o => match o with
    | OSelect [VRef _] => ARet [VInt 0; VRef 11]
    | OSend _ _ => ARet []
    | OCall (VPkg _) _ => ARet [VInt 7]
    | OMeth (VRef _) _ _ => a
    | _ => ABlock
    end) (fun _ _ => false).

Example C50_nontrivial :
  wf_method ex_m /\ hygienic ex_m ["_impl"] /\ hygienic ex_m ["_counter"; "atomic"] /\
  (forall a, (forall l, a = ARet l -> length l = 2) ->
     syncpool_world (ex_pool_world a) ex_m 5 (fun i => In i [10; 11]) /\ robinpool_world (ex_pool_world a) ex_m 6 [10; 11; 12]) /\
  run_method (ex_pool_world (APan (VInt 1))) ex_m [] 0 (syncpool_body ex_m) (VRec [("pool", VRef 5)]) ex_zeros ex_args =
    (Pan (VInt 1), [(OSelect [VRef 5], ARet [VInt 0; VRef 11]); (OMeth (VRef 11) "Do" ex_args, APan (VInt 1)); (OSend (VRef 5) (VRef 11), ARet [])]) /\
  run_method (ex_pool_world (ARet [VString "s"; VNil])) ex_m [] 0 (robinpool_body ex_m) (robinpool_recv 6 [10; 11; 12]) ex_zeros ex_args =
    (Val [VString "s"; VNil], [(OCall (VPkg "atomic.AddUint32") [VRef 6; VInt 1], ARet [VInt 7]); (OMeth (VRef 11) "Do" ex_args, ARet [VString "s"; VNil])]) /\
  (forall a, (forall l, a = ARet l -> length l = 2) ->
     forall tr p, exists vs, w_ans (ex_timeout_world a) tr (with_timeout (VRef 3) p) = ARet vs).
Proof.
  split; [apply C49_nontrivial|]. do 2 (split; [intros x Hx Hin; cbn in Hx, Hin; intuition (subst; discriminate)|]).
  split; [|split; [vm_compute; reflexivity | split; [vm_compute; reflexivity|]]].
  - intros a Ha. split; constructor.
    + intros tr. exists 11. split; [reflexivity | cbn; tauto].
    + intros tr v. now exists [].
    + intros i _ tr args vs E. cbn in E. now apply Ha.
    + intros tr. exists 7%Z. split; [reflexivity | lia].
    + intros i _ tr args vs E. cbn in E. now apply Ha.
  - intros a _ tr p. eexists. reflexivity.
Qed.

(** an empty pool: the division panics, no implementation is called *)
Example C50_empty_pool :
  run_method (ex_pool_world ABlock) ex_m [] 0 (robinpool_body ex_m) (robinpool_recv 6 []) ex_zeros ex_args =
    (Pan zero_division, [(OCall (VPkg "atomic.AddUint32") [VRef 6; VInt 1], ARet [VInt 7])]).
Proof. vm_compute. reflexivity. Qed.

Print Assumptions C50_log.
Print Assumptions C50_logrus.
Print Assumptions C50_prometheus.
Print Assumptions C50_timeout.
Print Assumptions C50_opencensus_partial.
Print Assumptions C50_opentelemetry_partial.
Print Assumptions C50_opentracing_partial.
Print Assumptions C50_elasticapm_partial.
Print Assumptions C50_syncpool.
Print Assumptions C50_robinpool.
Print Assumptions C50_error_text_panics_refuted.
Print Assumptions C50_nontrivial.
