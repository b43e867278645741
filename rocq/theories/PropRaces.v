(** Property C81, for templates/circuitbreaker: calls of generated methods that
    run at the same time have no data race (Races.v) on the decorator's fields. *)
From Verif Require Import Races PropBreakerCalls BreakerCall.
Open Scope nat_scope.

Section BREAKER.
Variables base lock errs closes : nat.
Variables (msg : string) (max : Z) (interval : val) (ignored : list val).
Hypothesis Hbl : base <> lock.

Ltac dname := cbn; intuition discriminate.
Lemma other_call : forall f args, ~ is_lock_op lock (OCall f args).
Proof. intros f args (g & _ & E). discriminate. Qed.
Lemma other_name : forall v f args, ~ In f lock_names -> ~ is_lock_op lock (OMeth v f args).
Proof. intros v f args N (g & Hg & E). unfold lock_op in E. injection E as _ -> _. contradiction. Qed.
Lemma other_recv : forall f args, ~ is_lock_op lock (OMeth (VRef base) f args).
Proof. intros f args (g & Hg & E). unfold lock_op in E. injection E as E _ _. contradiction. Qed.

Notation disc := (disc lock).

Lemma disc_lift_other : forall {A} h o (k : list val -> script A) fail go, ~ is_lock_op lock o -> access o = None ->
  (forall l, disc h (lift (k l) fail go)) -> (forall v, disc h (fail v)) -> disc h (lift (Ask o k) fail go).
Proof. intros A h o k fail go N A0 H F. cbn. apply D_other; [exact N | exact A0|]. intros [l|v|]; [apply H | apply F | apply D_ret]. Qed.
Lemma disc_lift_get : forall {A} h x (k : list val -> script A) fail go, h <> HN ->
  (forall l, disc h (lift (k l) fail go)) -> (forall v, disc h (fail v)) -> disc h (lift (Ask (OGet x) k) fail go).
Proof. intros A h x k fail go N H F. cbn. apply D_get; [exact N|]. intros [l|v|]; [apply H | apply F | apply D_ret]. Qed.
Lemma disc_lift_set : forall {A} x v (k : list val -> script A) fail go,
  (forall l, disc HW (lift (k l) fail go)) -> (forall v, disc HW (fail v)) -> disc HW (lift (Ask (OSet x v) k) fail go).
Proof. intros A x v k fail go H F. cbn. apply D_set. intros [l|w|]; [apply H | apply F | apply D_ret]. Qed.

Lemma disc_unlock_with : forall r, disc HW (unlock_with lock r).
Proof. intros r. apply D_unlock. intros l. apply D_ret. Qed.

Lemma disc_reset : forall vs, disc HW (locked lock vs (breaker_reset errs closes)).
Proof.
  intros vs. unfold locked, breaker_reset. apply disc_lift_set; [|intros; apply disc_unlock_with]. intros _.
  apply disc_lift_set; [|intros; apply disc_unlock_with]. intros _. apply disc_unlock_with.
Qed.

Lemma disc_count : forall vs, disc HW (locked lock vs (breaker_count errs closes max interval)).
Proof.
  intros vs. unfold locked, breaker_count. apply disc_lift_get; [discriminate | | intros; apply disc_unlock_with]. intros n.
  apply disc_lift_set; [|intros; apply disc_unlock_with]. intros _.
  apply disc_lift_get; [discriminate | | intros; apply disc_unlock_with]. intros n2.
  destruct (max <=? number n2)%Z; [|apply disc_unlock_with].
  apply disc_lift_other; [apply other_call | reflexivity | | intros; apply disc_unlock_with]. intros t.
  apply disc_lift_other; [apply other_name; dname | reflexivity | | intros; apply disc_unlock_with]. intros u.
  apply disc_lift_set; [|intros; apply disc_unlock_with]. intros _. apply disc_unlock_with.
Qed.

Lemma disc_update : forall vs e, disc HW (locked lock vs (breaker_update errs closes max interval ignored e)).
Proof.
  intros vs e. unfold breaker_update. destruct (is_nil e); [apply disc_reset|].
  induction ignored as [|x l IH]; [apply disc_count|]. cbn [breaker_ignores andthen]. unfold locked.
  apply disc_lift_other; [apply other_call | reflexivity | | intros; apply disc_unlock_with]. intros b.
  destruct (truth b); [exact (disc_reset vs) | exact IH].
Qed.

Lemma disc_entered : forall nm args zeros x,
  disc HN (entered lock errs closes max interval ignored (OMeth (VRef base) nm args) zeros x).
Proof.
  intros nm args zeros [e|]; cbn [entered]; [apply D_ret|].
  apply D_other; [apply other_recv | reflexivity|]. intros [vs|v|]; try apply D_ret.
  unfold after_base. apply (D_lock lock). intros l. apply disc_update.
Qed.

Lemma disc_breaker : forall nm args zeros,
  disc HN (breaker_prog lock errs closes msg max interval ignored (OMeth (VRef base) nm args) zeros).
Proof.
  intros nm args zeros. unfold breaker_prog, breaker_check.
  set (go := entered _ _ _ _ _ _ _ _).
  assert (G : forall x, disc HN (go x)) by apply disc_entered.
  assert (P : disc HR (lift (Ask (on_lock lock "RUnlock") (fun _ => Done None)) give_up go)).
  { cbn [lift]. apply (D_runlock lock). intros l. apply G. }
  apply (D_rlock lock). intros l0. apply disc_lift_get; [discriminate | | intros; apply D_ret]. intros c.
  destruct (is_nil (single c)); [exact P|].
  apply disc_lift_get; [discriminate | | intros; apply D_ret]. intros c2.
  apply disc_lift_other; [apply other_call | reflexivity | | intros; apply D_ret]. intros n.
  apply disc_lift_other; [apply other_name; dname | reflexivity | | intros; apply D_ret]. intros b.
  destruct (truth b); [|exact P].
  cbn [lift]. apply (D_runlock lock). intros l. apply D_other; [apply other_call | reflexivity|].
  intros [l1|v|]; [apply G | apply D_ret ..].
Qed.
End BREAKER.

(** Any calls of methods of one circuit breaker, their operations interleaved in
    any order the lock permits, whatever else is answered. *)
Definition breaker_calls (base lock errs closes : nat) (msg : string) (max : Z) (interval : val) (ignored : list val) (p : prog) : Prop :=
  exists nm args zeros, p = breaker_prog lock errs closes msg max interval ignored (OMeth (VRef base) nm args) zeros.
Definition nothing {S} (s : S) (_ : unit) (s' : S) : Prop := s' = s.

Theorem C81_circuitbreaker : forall base lock errs closes msg max interval ignored, base <> lock ->
  forall tr c, run (sys_step (lock_sem lock) nothing (breaker_calls base lock errs closes msg max interval ignored)) (Conf (false, 0) []) tr c ->
  race_free lock tr.
Proof.
  intros base lock errs closes msg max interval ignored N tr c H. eapply disciplined_race_free; [| |exact H].
  - intros s e s' E. exact E.
  - intros p (nm & args & zeros & ->). now apply disc_breaker.
Qed.

(** The executions C62 speaks of, in which reads yield what was written last,
    are among them: there the Go memory model promises just that. *)
Theorem C81_circuitbreaker_executions : forall base lock errs closes msg max d ignored arity inst matches, base <> lock ->
  forall t0 tr c, run (sys_step (breaker_sem base lock errs closes arity inst matches) breaker_env
                        (breaker_entry base lock errs closes msg max d ignored arity)) (fresh t0) tr c ->
  race_free lock tr.
Proof.
  intros base lock errs closes msg max d ignored arity inst matches N t0 tr c H.
  apply (C81_circuitbreaker base lock errs closes msg max (VInt d) ignored N tr (Conf (k_writer (cf_shared c), k_readers (cf_shared c)) (cf_calls c))).
  unfold fresh in H. induction H as [|tr c1 e c2 HR IH HS]; [apply run_nil|].
  eapply Lts.run_snoc; [exact IH|]. destruct HS as [s e s' ps He|s ps p Hp|s ps i o k a s' Hi Hs]; cbn [cf_shared cf_calls] in *.
  - destruct He. apply y_env. reflexivity.
  - apply y_call. destruct Hp as (m & zeros & args & _ & _ & _ & _ & _ & _ & ->). now exists (m_name m), args, zeros.
  - eapply y_do; [exact Hi|]. destruct Hs; cbn [k_writer k_readers]; try (apply ls_other; first [intros (f & Hf & E); discriminate E | apply other_name; cbn; intuition discriminate | now apply other_recv]).
    + apply (ls_rlock lock).
    + apply (ls_runlock lock).
    + apply (ls_lock lock).
    + apply (ls_unlock lock).
Qed.

(** ** Example: in the execution of C62_breaker_nontrivial call 0 writes
    _closesAt at position 13 and call 1 reads it at position 17 *)
Definition ex_events : list (event unit) := ex_breaker_events ++ ex_breaker_rest.
Example C81_nontrivial :
  (exists c, run (sys_step (breaker_sem 1 2 3 4 (fun _ => 2) ex_inst (fun _ _ => false)) breaker_env
      (breaker_entry 1 2 3 4 "D: circuit is open" 1 100 [VRef 8] (fun _ => 2))) (fresh 0) ex_events c) /\
  conflicting ex_events 13 17 /\ race_free 2 ex_events.
Proof.
  destruct C62_breaker_nontrivial as ((c & H & _) & _). split; [now exists c|]. split.
  - exists 0, 1, (OSet 4 (VRef 210)), (OGet 4), 4, true, false. repeat split; try discriminate; eexists; reflexivity.
  - eapply (C81_circuitbreaker_executions 1 2 3 4); [|exact H]; discriminate.
Qed.

(** The definitions do find races: two calls that write without the lock. *)
Example C81_race : ~ race_free 2 [@EvCall unit; EvCall; EvDo 0 (OSet 4 VNil) (ARet []); EvDo 1 (OSet 4 VNil) (ARet [])].
Proof.
  intros H.
  assert (C : happens_before 2 [@EvCall unit; EvCall; EvDo 0 (OSet 4 VNil) (ARet []); EvDo 1 (OSet 4 VNil) (ARet [])] 2 3).
  { apply H; [lia|]. exists 0, 1, (OSet 4 VNil), (OSet 4 VNil), 4, true, true. repeat split; try discriminate; eexists; reflexivity. }
  assert (G : forall i j, happens_before 2 [@EvCall unit; EvCall; EvDo 0 (OSet 4 VNil) (ARet []); EvDo 1 (OSet 4 VNil) (ARet [])] i j -> False).
  { intros i j K. induction K as [i j t o o' L (a & A) (b & B)|i j t t' o o' L (a & A) (b & B) S|]; [| |assumption].
    - destruct i as [|[|[|[|[|i]]]]]; cbn in A; try discriminate; destruct j as [|[|[|[|[|j]]]]]; cbn in B; try discriminate; try lia. congruence.
    - destruct i as [|[|[|[|[|i]]]]]; cbn in A; try discriminate; injection A as <- <- <-; inversion S. }
  exact (G _ _ C).
Qed.

Print Assumptions C81_circuitbreaker.
Print Assumptions C81_circuitbreaker_executions.
