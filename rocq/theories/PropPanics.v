(** Property C83: decorators swallow no panic of the implementations and
    libraries they call, and make up none but Go's own.  fallback, which calls
    implementations in goroutines of their own, is not among the decorators. *)
From Verif Require Import PropRaces2 PropNaming PropLog Loud.
Open Scope nat_scope.

(** ** The bodies: all stock templates but fallback *)
Inductive decorator_body : list (string * (list string * list gstmt)) -> method -> list gstmt -> Prop :=
| db_unshared funcs m body : unshared funcs m body -> decorator_body funcs m body
| db_breaker name dec m : decorator_body [] m (circuitbreaker_body name dec m).

(** ** recover is not called: in the interpreter it would be an operation of
    the outside, which ends no panic *)
Definition is_recover (f : gexpr) : bool := match f with EVar x => String.eqb (wtext x) "recover" | _ => false end.
Fixpoint plain_e (e : gexpr) : bool :=
  match e with
  | EVar _ | EStr _ | EInt _ | EMap _ => true
  | ESel e _ | EUn _ e | EConv _ e | EAssert e _ | ESliceLit _ e _ | EMCall e | EAddr e _ | EShared e _ => plain_e e
  | EBin _ a b | EIndex a b => plain_e a && plain_e b
  | ECall f args _ => negb (is_recover f) && plain_e f && forallb plain_e args
  | EFun body => forallb plain_s body
  end
with plain_s (s : gstmt) : bool :=
  match s with
  | SAssign lhs rhs => forallb plain_e lhs && plain_e rhs
  | SResults e | SDefine _ e | SExpr e | SInc e | SPass _ e | SDefer e => plain_e e
  | SVar _ _ | SReturn => true
  | SIf init c a b => match init with Some i => plain_s i | None => true end && plain_e c && forallb plain_s a && forallb plain_s b
  | SElseIf c a c2 b => plain_e c && forallb plain_s a && plain_e c2 && forallb plain_s b
  | SFor init c post body => plain_s init && plain_e c && plain_s post && forallb plain_s body
  | SSelect cases => forallb (fun c => plain_e (fst c) && forallb plain_s (snd c)) cases
  | SSend ch e => plain_e ch && plain_e e
  | SRange _ e body => plain_e e && forallb plain_s body
  end.
Definition no_recover (body : list gstmt) : bool := forallb plain_s body.

Lemma plain_app : forall a b, no_recover a = true -> no_recover b = true -> no_recover (a ++ b) = true.
Proof. intros a b A B. unfold no_recover in *. now rewrite forallb_app, A, B. Qed.
Lemma plain_map : forall {A} (f : A -> gstmt) l, (forall x, plain_s (f x) = true) -> no_recover (map f l) = true.
Proof. intros A f l H. induction l; cbn; [reflexivity|]. now rewrite H. Qed.

Theorem C83_no_recover : forall funcs m body, decorator_body funcs m body ->
  no_recover body = true /\ forallb (fun f : string * (list string * list gstmt) => no_recover (snd (snd f))) funcs = true.
Proof.
  intros funcs m body D; split; [|destruct D as [? ? ? U|]; [destruct U|]; reflexivity].
  destruct D as [? ? ? U|]; [destruct U|];
    unfold retry_body, retry_wait, ratelimit_body, ratelimit_wait, log_body, log_deferred, logrus_body, logrus_deferred, prometheus_body, prometheus_deferred,
      opencensus_body, opentelemetry_body, opentracing_body, span_end, span_deferred, validate_body, twirp_validate_body, grpc_validate_body, validate_with,
      twirp_error_body, elasticapm_body, elasticapm_deferred, circuitbreaker_body;
    repeat match goal with |- context [if ?b then _ else _] => destruct b end;
    repeat match goal with |- no_recover (_ ++ _) = true => apply plain_app | |- no_recover (map _ _) = true => apply plain_map end; try reflexivity.
Qed.

(** ** Panics.  The interpreter has no recover; by the theorem above its
    executions of these bodies are Go's in that respect. *)

(** A call that returns was answered every time. *)
Theorem C83_not_swallowed : forall W funcs m L body recv zeros args rs tr, decorator_body funcs m body ->
  run_method W m funcs L body recv zeros args = (Val rs, tr) -> forall o a, In (o, a) tr -> exists l, a = ARet l.
Proof.
  intros W funcs m L body recv zeros args rs tr _ H o a Hin. apply run_fits in H. cbn in H.
  exact (proj1 (Forall_forall _ _) H _ Hin).
Qed.

(** A call that panics does so with the value of the last operation that did,
    or with an error of Go: a nil pointer, a division by zero, an index. *)
Theorem C83_not_invented : forall W funcs m L body recv zeros args v tr, decorator_body funcs m body ->
  run_method W m funcs L body recv zeros args = (Pan v, tr) ->
  go_panic v \/ exists tr1 o tr2, tr = tr1 ++ (o, APan v) :: tr2 /\ forall o' w, ~ In (o', APan w) tr2.
Proof.
  intros W funcs m L body recv zeros args v tr _ H. apply run_fits in H. destruct H as [_ [H|H]]; [right|now left].
  induction tr as [|[o a] tr IH]; [discriminate|]. cbn in H. destruct (last_panic tr) as [w|] eqn:E.
  - injection H as ->. destruct (IH eq_refl) as (tr1 & o1 & tr2 & -> & N). now exists ((o, a) :: tr1), o1, tr2.
  - destruct a as [l|w|]; try discriminate. injection H as ->. exists [], o, tr. split; [reflexivity|].
    intros o' w Hin. clear -E Hin. induction tr as [|[p b] tr IH]; [exact Hin|]. cbn in E. destruct (last_panic tr); [discriminate|].
    destruct Hin as [Heq|Hin]; [injection Heq as -> ->; discriminate | now apply IH].
Qed.

(** If one operation panics, say the implementation, and no other does, its value
    reaches the caller, unless a deferred operation blocks or Go itself panics
    in deferred code. *)
Theorem C83_reaches : forall W funcs m L body recv zeros args r tr o v, decorator_body funcs m body ->
  run_method W m funcs L body recv zeros args = (r, tr) -> In (o, APan v) tr -> (forall o' w, In (o', APan w) tr -> w = v) ->
  r = Pan v \/ (exists w, r = Pan w /\ go_panic w) \/ (r = Blk /\ exists o', In (o', ABlock) tr) \/ r = NoFuel \/ r = Stuck.
Proof.
  intros W funcs m L body recv zeros args r tr o v D H Hin Hone. destruct r as [rs|w| | |]; auto.
  - destruct (C83_not_swallowed _ _ _ _ _ _ _ _ _ _ D H _ _ Hin) as (l & E). discriminate.
  - destruct (C83_not_invented _ _ _ _ _ _ _ _ _ _ D H) as [G|(tr1 & o1 & tr2 & E & _)]; [right; left; now exists w|].
    left. f_equal. apply (Hone o1). rewrite E. apply in_or_app. right. now left.
  - right. right. left. split; [reflexivity|]. apply run_fits in H. destruct H as (tr' & o' & -> & _). exists o'. apply in_or_app. right. now left.
Qed.

(** A call that never ends waits for its last operation, and no other. *)
Theorem C83_blocked : forall W funcs m L body recv zeros args tr, decorator_body funcs m body ->
  run_method W m funcs L body recv zeros args = (Blk, tr) -> exists tr' o, tr = tr' ++ [(o, ABlock)] /\ forall o', ~ In (o', ABlock) tr'.
Proof.
  intros W funcs m L body recv zeros args tr _ H. apply run_fits in H. destruct H as (tr' & o & -> & H). exists tr', o. split; [reflexivity|].
  intros o' Hin. apply (proj1 (Forall_forall _ _) H) in Hin. now apply Hin.
Qed.

(** ** Examples: the implementation panics; then the line after the call is
    logged, and the caller gets the panic *)
Example C83_nontrivial : decorator_body [] ex_m (log_body "DoerWithLog" ex_m) /\ fst (ex_log_run (APan (VInt 1))) = Pan (VInt 1) /\
  length (snd (ex_log_run (APan (VInt 1)))) = 3 /\ In (OMeth (VRef 0) "Do" ex_args, APan (VInt 1)) (snd (ex_log_run (APan (VInt 1)))) /\
  fst (ex_log_run (ARet [VString "s"; VNil])) = Val [VString "s"; VNil] /\ fst (ex_log_run ABlock) = Blk.
Proof. split; [apply db_unshared, u_log|]. vm_compute. repeat split; auto. Qed.

(** The panic of the implementation is not always the one the caller gets: a
    logger that panics in the deferred function replaces it. *)
Definition bad_logger : gworld :=
  GWorld (fun tr o => match o with
    | OMeth (VRef 0) "Do" _ => APan (VInt 1)
    | OMeth (VRef _) _ _ => if Nat.ltb 1 (length tr) then APan (VInt 2) else ARet []
    | _ => ABlock
    end) (fun _ _ => false).
Theorem C83_same_value_refuted : exists W body recv zeros args o tr,
  decorator_body [] ex_m body /\ run_method W ex_m [] 0 body recv zeros args = (Pan (VInt 2), tr) /\ In (o, APan (VInt 1)) tr.
Proof.
  exists bad_logger, (log_body "DoerWithLog" ex_m), (VRec [("_stdlog", VRef 1); ("_errlog", VRef 2); ("_base", VRef 0)]), [VString ""; VNil], ex_args,
    (OMeth (VRef 0) "Do" ex_args). eexists. split; [apply db_unshared, u_log|]. split; [vm_compute; reflexivity | vm_compute; auto].
Qed.

(** Go's own panics happen: a pool of no implementations divides by zero *)
Definition counting : gworld := GWorld (fun _ _ => ARet [VInt 1]) (fun _ _ => false).
Example C83_go_panic : fst (run_method counting ex_m [] 0 (robinpool_body ex_m)
  (VRec [("pool", VSlice []); ("poolSize", VInt 0); ("counter", VRef 7)]) [VString ""; VNil] ex_args) = Pan zero_division.
Proof. vm_compute. reflexivity. Qed.

(** a deferred call of recover would be seen *)
Example C83_recover_seen : no_recover [SDefer (call0 (EFun [SExpr (call0 (var "recover"))]))] = false.
Proof. reflexivity. Qed.

Print Assumptions C83_no_recover.
Print Assumptions C83_not_swallowed.
Print Assumptions C83_not_invented.
Print Assumptions C83_reaches.
Print Assumptions C83_blocked.
Print Assumptions C83_same_value_refuted.
