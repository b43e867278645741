(** Property C81, for the templates whose decorators have no variables that
    calls change: whatever the calls are answered and however they interleave,
    they access nothing in common, robinpool's counter aside, which only
    atomic.AddUint32 touches. *)
From Verif Require Import Quiet.
Open Scope nat_scope.

(** ** The bodies, for every method and all names *)
Inductive unshared : list (string * (list string * list gstmt)) -> method -> list gstmt -> Prop :=
| u_retry name m : unshared [] m (retry_body name m)
| u_timeout name m : unshared [] m (timeout_body name m)
| u_validate name m : unshared [] m (validate_body name m)
| u_twirp_validate name m : unshared [] m (twirp_validate_body name m)
| u_grpc_validate name m : unshared [] m (grpc_validate_body name m)
| u_twirp_error name m : unshared twirp_error_funcs m (twirp_error_body name m)
| u_log dec m : unshared [] m (log_body dec m)
| u_logrus dec m : unshared [] m (logrus_body dec m)
| u_prometheus dn m : unshared [] m (prometheus_body dn m)
| u_opencensus name typ m : unshared [] m (opencensus_body name typ m)
| u_opentelemetry name pfx m : unshared [] m (opentelemetry_body name pfx m)
| u_opentracing name typ m : unshared [] m (opentracing_body name typ m)
| u_elasticapm snake comp m : unshared [] m (elasticapm_body snake comp m)
| u_syncpool m : unshared [] m (syncpool_body m)
| u_robinpool m : unshared [] m (robinpool_body m)
| u_ratelimit m : unshared [] m (ratelimit_body m).

(** ** Specification *)

(** operation [o] may happen in a call of one of these methods *)
Definition may_do (o : op) : Prop := exists W funcs m L body recv zeros args a,
  unshared funcs m body /\ ok_answers W /\ okv recv = true /\ okvs zeros = true /\ okvs args = true /\
  In (o, a) (snd (run_method W m funcs L body recv zeros args)).

(** events of calls of these methods, in any order whatsoever *)
Definition of_calls {H} (tr : list (event H)) : Prop := forall i o a, In (EvDo i o a) tr -> may_do o.

(** ** Proof *)
Lemma quiet_app : forall a b, quiet a = true -> quiet b = true -> quiet (a ++ b) = true.
Proof. intros a b A B. unfold quiet in *. now rewrite forallb_app, A, B. Qed.
Lemma quiet_map : forall {A} (f : A -> gstmt) l, (forall x, quiet_s (f x) = true) -> quiet (map f l) = true.
Proof. intros A f l H. induction l; cbn; [reflexivity|]. now rewrite H. Qed.

Lemma unshared_quiet : forall funcs m body, unshared funcs m body ->
  quiet body = true /\ forallb (fun f : string * (list string * list gstmt) => quiet (snd (snd f))) funcs = true.
Proof.
  intros funcs m body U; split; [|destruct U; reflexivity].
  destruct U;
    unfold retry_body, retry_wait, ratelimit_body, ratelimit_wait, log_body, log_deferred, logrus_body, logrus_deferred, prometheus_body, prometheus_deferred,
      opencensus_body, opentelemetry_body, opentracing_body, span_end, span_deferred, validate_body, twirp_validate_body, grpc_validate_body, validate_with,
      twirp_error_body, elasticapm_body, elasticapm_deferred;
    repeat match goal with |- context [if ?b then _ else _] => destruct b end; repeat match goal with |- quiet (_ ++ _) = true => apply quiet_app | |- quiet (map _ _) = true => apply quiet_map end; try reflexivity.
Qed.

Lemma may_do_quiet : forall o, may_do o -> access o = None.
Proof.
  intros o (W & funcs & m & L & body & recv & zeros & args & a & U & HW & R & Z & A & H).
  destruct (unshared_quiet _ _ _ U) as [Q F]. exact (quiet_run W m funcs L HW F body recv zeros args Q R Z A o a H).
Qed.

Theorem C81_unshared : forall H lock (tr : list (event H)), of_calls tr -> race_free lock tr.
Proof.
  intros H lock tr C i j _ (t & t' & o & o' & x & w & w' & (a & Ha) & _ & _ & A & _). apply nth_error_In in Ha.
  rewrite (may_do_quiet o (C _ _ _ Ha)) in A. discriminate.
Qed.

(** ** Fields are annotated as they are used *)

(** [fields_e f e]: [f] holds of the way (shared, assigned) every field of the
    receiver is used; an [EAddr] counts as use by atomic.AddUint32 if it is that
    function's first argument, and as assignment otherwise *)
Inductive way := Read | Shared | Atomic | Escapes.
(** what is assigned: a variable of the call, what a variable points to, or a
    shared field *)
Definition target (f : way -> word -> bool) (e : gexpr) : bool :=
  match e with EVar _ => true | EUn _ (EVar _) => true | EShared _ g => f Shared g | _ => false end.
Fixpoint fields_e (f : way -> word -> bool) (e : gexpr) : bool :=
  match e with
  | EVar _ | EStr _ | EInt _ | EMap _ => true
  | ESel (EVar x) g => if String.eqb (wtext x) "_d" then f Read g else true
  | ESel e _ | EUn _ e | EConv _ e | EAssert e _ | ESliceLit _ e _ | EMCall e => fields_e f e
  | EBin _ a b | EIndex a b => fields_e f a && fields_e f b
  | ECall (ESel (EVar p) g) (EAddr _ h :: args) _ =>
      (if String.eqb (wtext p) "atomic" && String.eqb (wtext g) "AddUint32" then f Atomic h else f Escapes h) && forallb (fields_e f) args
  | ECall g args _ => fields_e f g && forallb (fields_e f) args
  | EFun body => forallb (fields_s f) body
  | EShared _ g => f Shared g
  | EAddr _ g => f Escapes g
  end
with fields_s (f : way -> word -> bool) (s : gstmt) : bool :=
  match s with
  | SAssign lhs rhs => forallb (target f) lhs && fields_e f rhs
  | SResults e | SDefine _ e | SExpr e | SPass _ e | SDefer e => fields_e f e
  | SInc e => target f e
  | SVar _ _ | SReturn => true
  | SIf init c a b => match init with Some i => fields_s f i | None => true end && fields_e f c && forallb (fields_s f) a && forallb (fields_s f) b
  | SElseIf c a c2 b => fields_e f c && forallb (fields_s f) a && fields_e f c2 && forallb (fields_s f) b
  | SFor init c post body => fields_s f init && fields_e f c && fields_s f post && forallb (fields_s f) body
  | SSelect cases => forallb (fun c => fields_e f (fst c) && forallb (fields_s f) (snd c)) cases
  | SSend ch e => fields_e f ch && fields_e f e
  | SRange _ e body => fields_e f e && forallb (fields_s f) body
  end.

(** ** robinpool: the counter is touched by atomic.AddUint32 only, and nothing is
    assigned but variables of the call *)
Definition plain (w : way) (g : word) : bool := match w with Read => true | _ => false end.
Definition atomic_counter (w : way) (g : word) : bool :=
  match w with Read => negb (String.eqb (wtext g) "counter") | Atomic => String.eqb (wtext g) "counter" | _ => false end.
(** circuitbreaker: the fields that calls change are always treated as shared *)
Definition breaker_fields : list string := ["_consecutiveErrors"; "_closesAt"].
Definition locked_fields (name : string) (w : way) (g : word) : bool :=
  match w with
  | Read => negb (existsb (String.eqb (wtext g)) breaker_fields) || String.eqb (wtext g) name
  | Shared => existsb (String.eqb (wtext g)) breaker_fields
  | _ => false
  end.
Definition uses_fields (f : way -> word -> bool) (body : list gstmt) : bool := forallb (fields_s f) body.

Lemma fields_app : forall f a b, uses_fields f a = true -> uses_fields f b = true -> uses_fields f (a ++ b) = true.
Proof. intros f a b A B. unfold uses_fields in *. now rewrite forallb_app, A, B. Qed.
Lemma fields_map : forall {A} f (g : A -> gstmt) l, (forall x, fields_s f (g x) = true) -> uses_fields f (map g l) = true.
Proof. intros A f g l H. unfold uses_fields. induction l; cbn; [reflexivity|]. now rewrite H. Qed.

Theorem C81_fields : forall funcs m body, unshared funcs m body ->
  uses_fields plain body = true \/ body = robinpool_body m /\ uses_fields atomic_counter body = true.
Proof.
  intros funcs m body U.
  destruct U;
    unfold retry_body, retry_wait, ratelimit_body, ratelimit_wait, log_body, log_deferred, logrus_body, logrus_deferred, prometheus_body, prometheus_deferred,
      opencensus_body, opentelemetry_body, opentracing_body, span_end, span_deferred, validate_body, twirp_validate_body, grpc_validate_body, validate_with,
      twirp_error_body, elasticapm_body, elasticapm_deferred;
    try (right; split; reflexivity);
    left; repeat match goal with |- context [if ?b then _ else _] => destruct b end;
    repeat match goal with |- uses_fields _ (_ ++ _) = true => apply fields_app | |- uses_fields _ (map _ _) = true => apply fields_map end; try reflexivity;
    cbn; match goal with |- context [if ?b then _ else _] => destruct b end; reflexivity.
Qed.

Theorem C81_breaker_fields : forall name dec m, uses_fields (locked_fields name) (circuitbreaker_body name dec m) = true.
Proof.
  intros name dec m.
  assert (E : locked_fields name Read [PH name] = true).
  { unfold locked_fields. replace (wtext [PH name]) with name by (cbn; clear; induction name; cbn; congruence). rewrite String.eqb_refl. apply orb_true_r. }
  unfold uses_fields, circuitbreaker_body. cbn [forallb fields_s fields_e embedded d_ var]. change (String.eqb (wtext (id "_d")) "_d") with true.
  cbv iota. rewrite E. reflexivity.
Qed.

(** ** Examples *)

(** two calls of robinpool's Get, interleaved: both add to the counter *)
Definition ex_get : method := Method [] [] "Get" [] [Param [] [] "n" "int" false] false false.
Definition ex_pool : gworld := GWorld
  (fun tr o => match o with OCall _ _ => ARet [VInt 1] | _ => ARet [VInt 7] end) (fun _ _ => false).
Definition ex_recv : val := VRec [("counter", VRef 5); ("pool", VSlice [VRef 0; VRef 1]); ("poolSize", VInt 2)].
Definition ex_run := run_method ex_pool ex_get [] 5 (robinpool_body ex_get) ex_recv [VInt 0] [].
Definition ex_add : op := OCall (VPkg "atomic.AddUint32") [VRef 5; VInt 1].
Example C81_unshared_nontrivial : exists o2 a1 a2, snd ex_run = [(ex_add, a1); (o2, a2)] /\
  race_free 9 [@EvCall unit; EvCall; EvDo 0 ex_add a1; EvDo 1 ex_add a1; EvDo 1 o2 a2; EvDo 0 o2 a2].
Proof.
  do 3 eexists. split; [vm_compute; reflexivity|]. apply C81_unshared. intros i o a H.
  exists ex_pool, [], ex_get, 5, (robinpool_body ex_get), ex_recv, [VInt 0], [].
  assert (P : forall a', In (o, a') (snd ex_run) -> exists a, unshared [] ex_get (robinpool_body ex_get) /\ ok_answers ex_pool /\ okv ex_recv = true /\
    okvs [VInt 0] = true /\ okvs [] = true /\ In (o, a) (snd (run_method ex_pool ex_get [] 5 (robinpool_body ex_get) ex_recv [VInt 0] []))).
  { intros a' Ha. exists a'. split; [constructor|]. split; [intros tr []; reflexivity|]. repeat split. exact Ha. }
  cbn in H. apply (P a). vm_compute.
  repeat (destruct H as [H|H]; [try discriminate; injection H as <- <- <-; tauto|]). destruct H.
Qed.

(** a closure that counts calls in a field would not pass *)
Example C81_fields_race : uses_fields plain [SInc (d_ .: "calls")] = false /\ uses_fields plain [SInc (shared "calls")] = false
  /\ quiet [SDefer (call0 (EFun [SInc (shared "calls")]))] = false
  /\ uses_fields atomic_counter [SDefine [id "p"] (EAddr d_ (id "counter"))] = false.
Proof. repeat split. Qed.

Print Assumptions C81_unshared.
Print Assumptions C81_fields.
Print Assumptions C81_breaker_fields.
