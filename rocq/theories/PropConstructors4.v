(** C69, continued: the constructors are declared in what the templates generate,
    the names of embedded fields, the states the pools start in, examples. *)
From Coq Require Import Floats.SpecFloat.
From Verif Require Import Render NewGen NewGenProofs.
From Verif Require Export PropConstructors3.
From Verif Require RobinPool SyncPool PropSyncPool Breaker.
Open Scope nat_scope.

(** the structs and functions of this property are in the generated source *)
Theorem C69_declared : forall lower upper t text dec fields fs, builds lower t text dec fields fs -> declares lower upper text t dec fields fs.
Proof. exact builds_declared. Qed.

(** ** The name of an embedded interface *)
Fixpoint dotless (s : string) : bool :=
  match s with EmptyString => true | String c s' => negb (byte_eqb c ".") && negb (byte_eqb c "[") && dotless s' end.
Lemma bracketless : forall s r, dotless s = true -> before_bracket (s ++ r) = (s ++ before_bracket r)%string.
Proof.
  induction s as [|c s IH]; intros r H; [reflexivity|]. cbn in *. apply andb_true_iff in H. destruct H as [H1 H2].
  apply andb_true_iff in H1. destruct H1 as [_ H1]. destruct (byte_eqb c "["); [discriminate|]. now rewrite IH.
Qed.
Lemma undotted : forall s r, dotless s = true -> after_dot (s ++ r) = after_dot r.
Proof.
  induction s as [|c s IH]; intros r H; [reflexivity|]. cbn in *. apply andb_true_iff in H. destruct H as [H1 H2].
  apply andb_true_iff in H1. destruct H1 as [H1 _]. destruct (byte_eqb c "."); [discriminate|]. rewrite IH by exact H2. now destruct (after_dot r).
Qed.
Lemma unqualified_plain : forall s, dotless s = true -> unqualified s = s.
Proof.
  intros s H. pose proof (bracketless s "" H) as H1. pose proof (undotted s "" H) as H2. rewrite sapp_nil_r in H1, H2. cbn in H1, H2. rewrite sapp_nil_r in H1.
  unfold unqualified. now rewrite H1, H2.
Qed.
Lemma unqualified_dotted : forall p s, dotless p = true -> dotless s = true -> s <> "" -> unqualified (p ++ "." ++ s) = s.
Proof.
  intros p s Hp Hs Hn. unfold unqualified. rewrite bracketless by exact Hp.
  change ("." ++ s)%string with (String "." s). cbn [before_bracket]. change (byte_eqb "." "[") with false. cbn [negb].
  pose proof (bracketless s "" Hs) as H1. rewrite sapp_nil_r in H1. cbn in H1. rewrite sapp_nil_r in H1. cbv iota. rewrite H1.
  rewrite undotted by exact Hp. cbn [after_dot]. change (byte_eqb "." ".") with true. cbv iota. destruct s; [congruence|reflexivity].
Qed.
(** The type the generator hands to the templates is, as an embedded field,
    called by the name of the interface. *)
Theorem C69_embedded_name : forall Or E W fuel o g, NewGenerator Or E W fuel o = Some (Ok g) ->
  op_interface o <> "" -> dotless (op_interface o) = true -> dotless (op_alias o) = true -> dotless (e_title E (pk_name (g_src g))) = true ->
  unqualified (g_interfaceType g) = op_interface o.
Proof.
  intros Or E W fuel o g H Hne Hi Ha Ht. destruct (NewGenerator_inv _ _ _ _ _ _ H) as (out & H0). decompose [and] H0. clear H0.
  match goal with H : g_interfaceType g = _ |- _ => rewrite H end. unfold ast_name.
  destruct (String.eqb (pk_path (g_src g)) (g_dst_path g)); [now apply unqualified_plain|].
  apply unqualified_dotted; auto. destruct (negb _); [exact Ha|]. exact Ht.
Qed.

(** ** What the models of the pools and of the circuit breaker start from *)
Section START.
Variable machine : spec_float -> Z.
Variables L k : nat.
Variables (dec name typ : string) (st : ust) (base : uval).
Notation build fields f args := (call_func machine (struct_table dec fields) L (20 + k) f args st).
Lemma map_nth_seq : forall {A} (l : list A) d, map (fun i => nth i l d) (seq 0 (length l)) = l.
Proof.
  induction l as [|x l IH]; intros d; [reflexivity|]. cbn [length seq map nth]. f_equal. rewrite <- seq_shift, map_map. apply IH.
Qed.
(** the instances are numbered by their positions *)
Theorem C69_syncpool_starts : forall impls c, SyncPool.new_pool (length impls) = Some c ->
  exists st', (build (syncpool_fields typ) (syncpool_new dec typ) impls) = ROk [URec dec [("pool", UChan (length (chans st)))]] st' /\
    chans st' = chans st ++ [UCh (SyncPool.cap c) (map (fun i => nth i impls UNil) (SyncPool.items c))].
Proof.
  intros impls c H. destruct (PropSyncPool.new_pool_inv _ _ H) as [-> Hpos].
  destruct (C69_syncpool machine L k dec typ st impls) as (st' & H1 & H2 & _); [now destruct impls; [cbn in Hpos; lia|]|].
  exists st'. split; [exact H1|]. rewrite H2. cbn [SyncPool.cap SyncPool.items]. do 3 f_equal.
  now rewrite map_nth_seq.
Qed.
Theorem C69_robinpool_starts : forall pool size, RobinPool.new_pool (length pool) = Some size ->
  returns_pointer (build (robinpool_fields typ) (robinpool_new dec typ) pool) st dec
    [("pool", UList pool); ("poolSize", UNum size); ("counter", UNum (RobinPool.counter RobinPool.init))] [UNil].
Proof.
  intros pool size H. unfold RobinPool.new_pool in H. destruct pool as [|x pool]; [discriminate|]. injection H as <-.
  apply C69_robinpool. discriminate.
Qed.
Theorem C69_robinpool_must_starts : forall pool size, RobinPool.must_new_pool (length pool) = Some size ->
  returns_pointer (build (robinpool_fields typ) (robinpool_must_new dec typ) pool) st dec
    [("pool", UList pool); ("poolSize", UNum size); ("counter", UNum (RobinPool.counter RobinPool.init))] [].
Proof.
  intros pool size H. unfold RobinPool.must_new_pool in H. destruct pool as [|x pool]; [discriminate|]. injection H as <-.
  apply C69_robinpool_must. discriminate.
Qed.
(** a time.Time pointer as the breaker's model sees it *)
Definition closes_at (c : option Z) : uval := match c with None => UNil | Some t => UNum t end.
Theorem C69_breaker_starts : forall max interval ignored now,
  unqualified typ = name ->
  ~ In name ["_lock"; "_maxConsecutiveErrors"; "_consecutiveErrors"; "_openInterval"; "_closesAt"; "_ignoreErrors"] ->
  returns_pointer (build (circuitbreaker_fields typ) (circuitbreaker_new dec name typ) ([base; max; interval] ++ ignored)) st dec
    [(name, base); ("_lock", UZero "sync.RWMutex"); ("_maxConsecutiveErrors", max);
     ("_consecutiveErrors", UNum (Z.of_nat (Breaker.errs (Breaker.init now))));
     ("_openInterval", interval); ("_closesAt", closes_at (Breaker.closesAt (Breaker.init now))); ("_ignoreErrors", UList ignored)] [] /\
  Breaker.readers (Breaker.init now) = 0 /\ Breaker.writer (Breaker.init now) = false.
Proof. intros. split; [now apply C69_circuitbreaker | split; reflexivity]. Qed.
End START.

(** ** Examples *)
Definition ex_run (dec : string) (fields : list (list gtok)) (f : gofunc) (args : list uval) (st : ust) :=
  call_func (fun _ => 0%Z) (struct_table dec fields) 100 30 f args st.
Definition ex_base : uval := UGiven 7.

Example ex_retry_new : ex_run "DoerWithRetry" (retry_fields "app.Doer") (plain_new "DoerWithRetry" (retry_ctor "Doer" "app.Doer")) [ex_base; UNum 3; UNum 1000] empty
  = ROk [URec "DoerWithRetry" [("Doer", ex_base); ("_retryCount", UNum 3); ("_retryInterval", UNum 1000)]] (USt [ex_base; UNum 3; UNum 1000] [] [] [] []).
Proof. vm_compute. reflexivity. Qed.
Example ex_retry_name : unqualified "app.Doer" = "Doer" /\ ~ In "Doer" ["_retryCount"; "_retryInterval"].
Proof. split; [vm_compute; reflexivity | cbn; intuition congruence]. Qed.
Example ex_log_new : ex_run "DoerWithLog" (log_fields "Doer") (log_new "DoerWithLog" "Doer") [ex_base; UGiven 1; UGiven 2] empty
  = ROk [URec "DoerWithLog" [("_stdlog", URes 0); ("_errlog", URes 1); ("_base", ex_base)]]
      (USt [ex_base; UGiven 1; UGiven 2] [] [] []
         [(USel (UPkg "log") "New", [UGiven 1; UStr ""; USel (UPkg "log") "LstdFlags"]); (USel (UPkg "log") "New", [UGiven 2; UStr ""; USel (UPkg "log") "LstdFlags"])]).
Proof. vm_compute. reflexivity. Qed.
Definition ex_dec : list gtok := t_span_decorator [TP "*"] "trace" "Span".
Example ex_tracing_new : forall ds, In ds [[]; [UNil]; [UGiven 1]; [UGiven 1; UGiven 2]] ->
  exists st, ex_run "DoerWithTracing" (tracing_fields ex_dec "Doer") (tracing_new ex_dec "DoerWithTracing" "Doer" "Doer") ([ex_base; UStr "main"] ++ ds) empty
  = ROk [URec "DoerWithTracing" [("Doer", ex_base); ("_instance", UStr "main"); ("_spanDecorator", hd UNil ds)]] st.
Proof. intros ds [<-|[<-|[<-|[<-|[]]]]]; eexists; vm_compute; reflexivity. Qed.
Example ex_robinpool_new : exists st, ex_run "DoerRoundRobinPool" (robinpool_fields "Doer") (robinpool_new "DoerRoundRobinPool" "Doer") [UGiven 1; UGiven 2] empty = ROk [UPtr 1; UNil] st /\
  nth_error (cells st) 1 = Some (URec "DoerRoundRobinPool" [("pool", UList [UGiven 1; UGiven 2]); ("poolSize", UNum 2); ("counter", UNum 0)]).
Proof. eexists. split; vm_compute; reflexivity. Qed.
Example ex_syncpool_new : exists st, ex_run "DoerPool" (syncpool_fields "Doer") (syncpool_new "DoerPool" "Doer") [UGiven 1; UGiven 2] empty = ROk [URec "DoerPool" [("pool", UChan 0)]] st /\
  chans st = [UCh 2 [UGiven 1; UGiven 2]].
Proof. eexists. split; vm_compute; reflexivity. Qed.
Example ex_pools_empty :
  (exists st, ex_run "P" (syncpool_fields "Doer") (syncpool_new "P" "Doer") [] empty = RPanic (UStr "empty pool") st) /\
  (exists st, ex_run "P" (robinpool_fields "Doer") (robinpool_must_new "P" "Doer") [] empty = RPanic (UStr "empty pool") st) /\
  (exists st, ex_run "P" (robinpool_fields "Doer") (robinpool_new "P" "Doer") [] empty = ROk [UNil; URes 0] st).
Proof. split; [|split]; eexists; vm_compute; reflexivity. Qed.
(** four requests a second, bursts of two *)
Definition ex_rps : spec_float := S754_finite false 4503599627370496 (-50).
Example ex_ratelimit_new : exists st env, ex_run "DoerWithRateLimit" (ratelimit_fields "Doer") (ratelimit_new "DoerWithRateLimit" "Doer") [ex_base; UNum 2; UFloat ex_rps] empty = ROk [UPtr 3] st /\
  nth_error (cells st) 3 = Some (URec "DoerWithRateLimit" [("_base", ex_base); ("_ticks", UChan 0)]) /\ chans st = [UCh 2 [URes 0; URes 0]] /\
  spawned st = [(env, feeder_body)] /\ delay_of (fun _ => 0%Z) ex_rps = 250000000%Z.
Proof. eexists _, _. split; [vm_compute; reflexivity|]. split; [vm_compute; reflexivity|]. split; [vm_compute; reflexivity|]. split; vm_compute; reflexivity. Qed.
(** a tick, its receipt, and the token put into the channel that a call has taken one from *)
Definition ex_fed : ust :=
  match ex_run "R" (ratelimit_fields "Doer") (ratelimit_new "R" "Doer") [ex_base; UNum 2; UFloat ex_rps] empty with ROk _ st => st | _ => empty end.
Example ex_feeder : forall env, spawned ex_fed = [(env, feeder_body)] -> exists t st,
  Lts.run (gstep (fun _ => 0%Z) [] 0 30) (TStmts env feeder_body [], ex_fed) [GTau; GTick 1 (UGiven 5); GRecv 1 (UGiven 5); GTake 0 (URes 0); GSend 0 (UGiven 5); GTau] (t, st) /\
  chans st = [UCh 2 [URes 0; UGiven 5]; UCh 1 []].
Proof.
  intros env H. vm_compute in H. injection H as <-.
  eexists _, _. split.
  - eapply Lts.run_cons; [eapply g_range; vm_compute; reflexivity|].
    eapply Lts.run_cons; [eapply g_tick; [vm_compute; auto | vm_compute; reflexivity]|].
    eapply Lts.run_cons; [eapply g_recv; vm_compute; reflexivity|].
    eapply Lts.run_cons; [eapply g_take; [vm_compute; intuition discriminate | vm_compute; reflexivity]|].
    eapply Lts.run_cons; [eapply g_send; vm_compute; reflexivity|].
    eapply Lts.run_one. apply g_again.
  - vm_compute. reflexivity.
Qed.
Definition ex_option (f : gofunc) (args : list uval) (st : ust) : option (uval * ust) :=
  match ex_run "DoerAPMTracing" (elasticapm_fields "Doer") f args st with ROk [v] st' => Some (v, st') | _ => None end.
(** WithSpanType("db"), WithUsingSetLabel(), WithSpanType("cache") *)
Example ex_elasticapm_new : exists f1 st1 f2 st2 f3 st3 lab end_ cap st4,
  ex_option (apm_with_type "DoerAPMTracing" "DoerAPMTracingOption") [UStr "db"] empty = Some (f1, st1) /\
  ex_option (apm_with_label "DoerAPMTracing" "DoerAPMTracingOption") [] st1 = Some (f2, st2) /\
  ex_option (apm_with_type "DoerAPMTracing" "DoerAPMTracingOption") [UStr "cache"] st2 = Some (f3, st3) /\
  ex_run "DoerAPMTracing" (elasticapm_fields "Doer") (apm_new "DoerAPMTracing" "doer" "Doer") [ex_base; f1; f2; f3] st3 =
    ROk [URec "DoerAPMTracing" [("base", ex_base); ("startSpan", USel (UPkg "apm") "StartSpan"); ("endSpan", end_); ("setLabel", lab); ("captureError", cap); ("spanType", UStr "cache")]] st4 /\
  label_value true lab /\ option_value (cells st3) f1 (SetsType (UStr "db")).
Proof.
  eexists _, _, _, _, _, _, _, _, _, _.
  split; [vm_compute; reflexivity|]. split; [vm_compute; reflexivity|]. split; [vm_compute; reflexivity|]. split; [vm_compute; reflexivity|].
  split; [eexists; reflexivity|]. eapply ov_type; reflexivity.
Qed.
Example ex_declared : builds (fun n => n) (TData "Doer" "Doer" "" "" [] [] []) text_retry "DoerWithRetry" (retry_fields "Doer")
   [plain_new "DoerWithRetry" (retry_ctor "Doer" "Doer")].
Proof. exact (b_retry (fun n => n) (TData "Doer" "Doer" "" "" [] [] [])). Qed.
Example ex_embedded_name : unqualified ("_sourceApp" ++ "." ++ "Doer") = "Doer".
Proof. apply unqualified_dotted; [reflexivity|reflexivity|discriminate]. Qed.

Print Assumptions C69_declared.
Print Assumptions C69_embedded_name.
Print Assumptions C69_retry.
Print Assumptions C69_tracing.
Print Assumptions C69_syncpool_starts.
Print Assumptions C69_robinpool_starts.
Print Assumptions C69_breaker_starts.
Print Assumptions C69_ratelimit_starts.
Print Assumptions C69_feeder.
Print Assumptions C69_feeder_keeps_up.
Print Assumptions C69_elasticapm.
Print Assumptions C69_set_label.
Print Assumptions C69_timeout.
Print Assumptions C69_validate.
Print Assumptions C69_logrus.
Print Assumptions C69_prometheus.
Print Assumptions C69_log.
Print Assumptions C69_circuitbreaker.
Print Assumptions C69_fallback.
Print Assumptions C69_robinpool_empty.
Print Assumptions C69_robinpool.
Print Assumptions C69_robinpool_must_empty.
Print Assumptions C69_robinpool_must.
Print Assumptions C69_syncpool_empty.
Print Assumptions C69_syncpool.
Print Assumptions C69_ratelimit_negative.
Print Assumptions C69_ratelimit.
Print Assumptions C69_with_label.
Print Assumptions C69_with_type.
Print Assumptions C69_end_span.
Print Assumptions C69_capture_error.
Print Assumptions C69_robinpool_must_starts.
