(** Property C62, for templates/circuitbreaker: the transition system of
    Breaker.v has an execution for every execution of generated calls, so that
    C32 holds of the generated code itself. *)
From Verif Require Import Threads BreakerCall PropNaming.
From Verif Require Breaker PropBreaker.
Open Scope nat_scope.

(** ** One call: lines 35-71 of /repo/templates/circuitbreaker *)
Section TREE.
Variables (lock errs closes : nat) (msg : string) (max : Z) (interval : val) (ignored : list val).
Variables (base : op) (zeros : list val).

Definition unlock_with (r : out (list val)) : prog :=
  Do (on_lock lock "Unlock") (fun a => Ret (match a with ARet _ => r | _ => outcome_of a end)).
(** while the write lock is held: its release is deferred *)
Definition locked (vs : list val) (s : script unit) : prog :=
  lift s (fun v => unlock_with (Pan v)) (fun _ => unlock_with (Val vs)).
Definition after_base (vs : list val) : prog :=
  Do (on_lock lock "Lock") (fun a =>
    match a with
    | ARet _ => locked vs (breaker_update errs closes max interval ignored (last vs VNil))
    | _ => Ret (outcome_of a)
    end).
Definition entered (x : option val) : prog :=
  match x with
  | Some e => Ret (Val (removelast zeros ++ [e]))
  | None => Do base (fun a => match a with ARet vs => after_base vs | _ => Ret (outcome_of a) end)
  end.
Definition breaker_prog : prog := lift (breaker_check lock closes msg) give_up entered.

Lemma breaker_follows : forall tr r, breaker_call lock errs closes msg base zeros max interval ignored tr r -> follows breaker_prog tr r.
Proof.
  intros tr r H. unfold follows, breaker_prog.
  destruct H as [tr v H|tr H|tr e H|tr a r H Hf|tr vs a r H Hf|tr vs ls tr2 H H2|tr vs ls tr2 b a r H H2 Hb].
  - exact (lift_pan _ give_up _ _ _ H).
  - exact (lift_blk _ give_up _ _ H).
  - exact (lift_val _ give_up entered _ _ H).
  - eapply reaches_trans; [exact (lift_val _ give_up entered _ _ H)|]. apply fails_outcome in Hf. destruct Hf as [-> Hf].
    apply R_do. destruct a; [now destruct (Hf l) | apply R_here | apply R_here].
  - eapply reaches_trans; [exact (lift_val _ give_up entered _ _ H)|]. apply fails_outcome in Hf. destruct Hf as [-> Hf].
    apply R_do, R_do. destruct a; [now destruct (Hf l) | apply R_here | apply R_here].
  - eapply reaches_trans; [exact (lift_val _ give_up entered _ _ H)|]. apply R_do, R_do.
    exact (lift_blk _ (fun v => unlock_with (Pan v)) (fun _ => unlock_with (Val vs)) _ H2).
  - eapply reaches_trans; [exact (lift_val _ give_up entered _ _ H)|]. apply R_do, R_do.
    destruct b as [u|v| | |]; try contradiction.
    + eapply reaches_trans; [exact (lift_val _ (fun v => unlock_with (Pan v)) (fun _ => unlock_with (Val vs)) _ _ H2)|].
      apply ends_outcome in Hb. subst r. apply R_do. destruct a; apply R_here.
    + eapply reaches_trans; [exact (lift_pan _ (fun v => unlock_with (Pan v)) (fun _ => unlock_with (Val vs)) _ _ H2)|].
      apply ends_outcome in Hb. subst r. apply R_do. destruct a; apply R_here.
Qed.
End TREE.

Section ONE.
Variable W : gworld.
Variable m : method.
Variable L : nat.
Variables (name dec : string) (base lock errs closes : nat) (max : Z) (interval : val) (ignored : list val).
Variables (zeros args : list val).
Hypothesis Hwf : wf_method m.
Hypothesis Hhyg : hygienic m ["errors"; "time"; "closesAt"; "_e"].
Hypothesis He : m_returnsError m = true.
Hypothesis Hz : length zeros = length (m_results m).
Hypothesis Ha : length args = length (m_params m).
Hypothesis Hbase : base_typed W m base.
Let fs := [(name, VRef base); ("_lock", VRef lock); ("_maxConsecutiveErrors", VInt max); ("_consecutiveErrors", VRef errs);
           ("_openInterval", interval); ("_closesAt", VRef closes); ("_ignoreErrors", VSlice ignored)].
Hypothesis Hname : NoDup (map fst fs).
Hypothesis Hcloses : forall tr vs, w_ans W tr (OGet closes) = ARet vs -> vs = [VNil] \/ exists t, t <> base /\ vs = [VRef t].
Hypothesis Hagain : forall ls t vs, let tr := [(on_lock lock "RLock", ARet ls)] in
  w_ans W tr (OGet closes) = ARet [VRef t] -> w_ans W (tr ++ [(OGet closes, ARet [VRef t])]) (OGet closes) = ARet vs ->
  exists u, u <> base /\ vs = [VRef u].
Hypothesis Herrs : forall tr vs, w_ans W tr (OGet errs) = ARet vs -> exists z, vs = [VInt z].
Hypothesis Hnow : forall tr vs, w_ans W tr time_now = ARet vs -> exists t, t <> base /\ vs = [VRef t].
Hypothesis Hafter : forall tr t x vs, t <> base -> w_ans W tr (OMeth (VRef t) "After" [x]) = ARet vs -> exists b, vs = [VBool b].
Hypothesis Hadd : forall tr t x vs, t <> base -> w_ans W tr (OMeth (VRef t) "Add" [x]) = ARet vs -> exists u, vs = [VRef u].
Hypothesis Hnew : forall tr x vs, w_ans W tr (OCall (VPkg "errors.New") [x]) = ARet vs -> exists e, vs = [e].
Hypothesis His : forall tr x y vs, w_ans W tr (OCall (VPkg "errors.Is") [x; y]) = ARet vs -> exists b, vs = [VBool b].

(** The generated body plays this tree. *)
Theorem C62_breaker_call :
  run_method W m [] L (circuitbreaker_body name dec m) (VRec fs) zeros args
  = play W [] (breaker_prog lock errs closes (dec ++ ": circuit is open") max interval ignored (OMeth (VRef base) (m_name m) args) zeros).
Proof.
  apply follows_play.
  pose proof (circuitbreaker_meets W m L name dec base lock errs closes max interval ignored zeros args
    Hwf Hhyg He Hz Ha Hbase Hname Hcloses Hagain Herrs Hnow Hafter Hadd Hnew His) as H. fold fs in H.
  destruct (run_method W m [] L (circuitbreaker_body name dec m) (VRec fs) zeros args) as [r tr].
  now apply breaker_follows.
Qed.
End ONE.

(** ** Many calls *)

(** the clock, _lock, _consecutiveErrors and _closesAt (lines 14-20) *)
Record breaker := Brk { k_now : Z; k_readers : nat; k_writer : bool; k_errs : Z; k_closes : option nat }.

Definition pointer (c : option nat) : val := match c with Some t => VRef t | None => VNil end.

Section MANY.
Variables base lock errs closes : nat.
Variables (msg : string) (max d : Z) (ignored : list val).
Variable arity : string -> nat.
(** the instant a time.Time stands for; [None] for a reference that is not one *)
Variable inst : nat -> option Z.
(** errors.Is *)
Variable matches : val -> val -> bool.
Hypothesis Hbl : base <> lock.
Hypothesis Hbt : inst base = None.
Hypothesis Hec : errs <> closes.

Notation interval := (VInt d).
Notation rlock := (on_lock lock "RLock").
Notation runlock := (on_lock lock "RUnlock").
Notation wlock := (on_lock lock "Lock").
Notation wunlock := (on_lock lock "Unlock").
Notation new_error := (OCall (VPkg "errors.New") [VString msg]).

Inductive breaker_sem : breaker -> op -> ans -> breaker -> Prop :=
| ks_rlock n r e c : breaker_sem (Brk n r false e c) rlock (ARet []) (Brk n (S r) false e c)
| ks_runlock n r w e c : breaker_sem (Brk n (S r) w e c) runlock (ARet []) (Brk n r w e c)
| ks_lock n e c : breaker_sem (Brk n 0 false e c) wlock (ARet []) (Brk n 0 true e c)
| ks_unlock n r e c : breaker_sem (Brk n r true e c) wunlock (ARet []) (Brk n r false e c)
| ks_closes s : breaker_sem s (OGet closes) (ARet [pointer (k_closes s)]) s
| ks_errs s : breaker_sem s (OGet errs) (ARet [VInt (k_errs s)]) s
| ks_set_errs n r w e c z : breaker_sem (Brk n r w e c) (OSet errs (VInt z)) (ARet []) (Brk n r w z c)
| ks_set_closes n r w e c c' : breaker_sem (Brk n r w e c) (OSet closes (pointer c')) (ARet []) (Brk n r w e c')
| ks_now s t : inst t = Some (k_now s) -> breaker_sem s time_now (ARet [VRef t]) s
| ks_add s t x u y : inst t = Some x -> inst u = Some (x + y)%Z -> breaker_sem s (OMeth (VRef t) "Add" [VInt y]) (ARet [VRef u]) s
| ks_after s t x u y : inst t = Some x -> inst u = Some y ->
    breaker_sem s (OMeth (VRef t) "After" [VRef u]) (ARet [VBool (Z.ltb y x)]) s
| ks_new s v e : breaker_sem s (OCall (VPkg "errors.New") [v]) (ARet [e]) s
| ks_is s e x : breaker_sem s (OCall (VPkg "errors.Is") [e; x]) (ARet [VBool (matches e x)]) s
| ks_base s nm args vs : length vs = arity nm -> breaker_sem s (OMeth (VRef base) nm args) (ARet vs) s
| ks_base_panics s nm args v : breaker_sem s (OMeth (VRef base) nm args) (APan v) s.

(** time passes *)
Inductive breaker_env : breaker -> unit -> breaker -> Prop :=
| ke_clock n r w e c n' : (n <= n')%Z -> breaker_env (Brk n r w e c) tt (Brk n' r w e c).

Notation tree nm zeros args := (breaker_prog lock errs closes msg max interval ignored (OMeth (VRef base) nm args) zeros).

Definition breaker_entry (p : prog) : Prop := exists m zeros args,
  wf_method m /\ hygienic m ["errors"; "time"; "closesAt"; "_e"] /\ m_returnsError m = true /\
  length zeros = length (m_results m) /\ length args = length (m_params m) /\
  length (m_results m) = arity (m_name m) /\ p = tree (m_name m) zeros args.

Notation breaker_step := (sys_step breaker_sem breaker_env breaker_entry).
Definition fresh (t0 : Z) : conf breaker := Conf (Brk t0 0 false 0 None) [].
Notation step := (Breaker.step max d).

(** what a returned error counts as *)
Definition verdict (e : val) : Breaker.outcome :=
  if is_nil e then Breaker.Success else if existsb (matches e) ignored then Breaker.Ignored else Breaker.Counted.

(** the answers of the base in a history *)
Definition of_base (x : op * ans) : list ans :=
  match x with (OMeth (VRef b) _ _, a) => if Nat.eqb b base then [a] else [] | _ => [] end.
Definition based (h : trace) : list ans := flat_map of_base h.

Lemma based_snoc : forall h x, based (h ++ [x]) = based h ++ of_base x.
Proof. intros. unfold based. rewrite flat_map_app. cbn. now rewrite app_nil_r. Qed.

(** *** Specification: the completed calls, in the order of their releases of
    the write lock, with what the base's error counts as; a call that read the
    clock just before the three last steps completed at that instant *)
Inductive done_calls : list (event unit) -> list (Breaker.outcome * Z) -> Prop :=
| dc_nil : done_calls [] []
| dc_other tr h e : done_calls tr h -> (forall i a, e <> EvDo i wunlock a) -> done_calls (tr ++ [e]) h
| dc_done tr h i a vs t : done_calls tr h -> based (history i tr) = [ARet vs] ->
    (forall h0 u x y, history i tr = h0 ++ [(time_now, ARet [VRef u]); x; y] -> inst u = Some t) ->
    done_calls (tr ++ [EvDo i wunlock a]) (h ++ [(verdict (last vs VNil), t)]).

(** *** The steps of the transition system that stand for an event *)
Inductive breaker_means : event unit -> list Breaker.label -> Prop :=
| km_clock : breaker_means (EvEnv tt) [Breaker.Clock]
| km_call : breaker_means EvCall [Breaker.Call]
| km_rlock i a : breaker_means (EvDo i rlock a) [Breaker.Internal i]
| km_reject i a : breaker_means (EvDo i runlock a) [Breaker.Internal i]
| km_pass i a : breaker_means (EvDo i runlock a) [Breaker.Base i]
| km_lock i a : breaker_means (EvDo i wlock a) [Breaker.Internal i]
| km_unlock i a : breaker_means (EvDo i wunlock a) [Breaker.Internal i]
| km_closed i t : breaker_means (EvDo i (OGet closes) (ARet [VNil])) [Breaker.Check i t false]
| km_closes i t : breaker_means (EvDo i (OGet closes) (ARet [VRef t])) []
| km_check i t x b : inst t = Some x -> breaker_means (EvDo i time_now (ARet [VRef t])) [Breaker.Check i x b]
| km_trip i t x : inst t = Some x -> breaker_means (EvDo i time_now (ARet [VRef t])) [Breaker.Complete i Breaker.Counted x]
| km_after i t u a : breaker_means (EvDo i (OMeth (VRef t) "After" [VRef u]) a) []
| km_add i t a : breaker_means (EvDo i (OMeth (VRef t) "Add" [interval]) a) []
| km_new i e a : breaker_means (EvDo i (OCall (VPkg "errors.New") [e]) a) []
| km_is i e x a : breaker_means (EvDo i (OCall (VPkg "errors.Is") [e; x]) a) []
| km_base i nm args vs : breaker_means (EvDo i (OMeth (VRef base) nm args) (ARet vs)) [Breaker.BaseDone i (verdict (last vs VNil))]
| km_base_panics i nm args v : breaker_means (EvDo i (OMeth (VRef base) nm args) (APan v)) [Breaker.BaseDone i Breaker.Panicked]
| km_reset i o t a : o <> Breaker.Counted -> breaker_means (EvDo i (OSet errs (VInt 0)) a) [Breaker.Complete i o t]
| km_incr i z a : breaker_means (EvDo i (OSet errs (VInt z)) a) [Breaker.Internal i]
| km_errs i a : breaker_means (EvDo i (OGet errs) a) []
| km_notrip i z t : (z < max)%Z -> breaker_means (EvDo i (OGet errs) (ARet [VInt z])) [Breaker.Complete i Breaker.Counted t]
| km_set_closes i v a : breaker_means (EvDo i (OSet closes v) a) [].

(** *** Positions *)
Definition check_pass : script (option val) := Ask runlock (fun _ => Done None).
Definition check_new : script (option val) := Ask new_error (fun e => Done (Some (single e))).
Definition check_reject : script (option val) := Ask runlock (fun _ => check_new).
Definition check4 (c n : val) : script (option val) :=
  Ask (OMeth c "After" [n]) (fun b => if truth b then check_reject else check_pass).
Definition check3 (c : val) : script (option val) := Ask time_now (fun n => check4 c (single n)).
Definition check2 : script (option val) := Ask (OGet closes) (fun c => check3 (single c)).
Definition check1 : script (option val) := Ask (OGet closes) (fun c => if is_nil (single c) then check_pass else check2).

Definition reset2 : script unit := Ask (OSet closes VNil) (fun _ => Done tt).
Definition count6 (t : val) : script unit := Ask (OSet closes t) (fun _ => Done tt).
Definition count5 (t : val) : script unit := Ask (OMeth t "Add" [interval]) (fun t => count6 (single t)).
Definition count4 : script unit := Ask time_now (fun t => count5 (single t)).
Definition count3 : script unit := Ask (OGet errs) (fun n => if Z.leb max (number n) then count4 else Done tt).
Definition count2 (z : Z) : script unit := Ask (OSet errs (VInt (z + 1))) (fun _ => count3).
Definition search (e : val) (l : list val) : script unit :=
  andthen (breaker_ignores e l) (fun b => if b then breaker_reset errs closes else breaker_count errs closes max interval).

(** what a call knows about the shared fields *)
Inductive mark :=
| Clean
| Sees                                   (* _closesAt is not nil *)
| SeesRef (r : nat)                      (* _closesAt is this *)
| SeesErrs (z : Z)                       (* _consecutiveErrors is this *)
| Trips                                  (* the maximum is reached *)
| Pend (c : option Z) (tm : option Z)    (* about to make _closesAt this *)
| Leaving (tm : option Z).

Definition time_of (m : mark) : option (option Z) := match m with Pend _ tm | Leaving tm => Some tm | _ => None end.

Definition holds (m : mark) (q : breaker) (s : Breaker.state) : Prop :=
  match m with
  | Clean | Leaving _ => True
  | Sees => exists r, k_closes q = Some r
  | SeesRef r => k_closes q = Some r
  | SeesErrs z => k_errs q = z
  | Trips => (max <= Z.of_nat (Breaker.errs s))%Z
  | Pend c _ => Breaker.closesAt s = c
  end.

Notation checking nm zeros args s := (lift s give_up (entered lock errs closes max interval ignored (OMeth (VRef base) nm args) zeros)).
Notation updating vs s := (locked lock vs s).

Inductive at_pc : trace -> Breaker.pc -> prog -> mark -> Prop :=
| a_enter nm zeros args : at_pc [] Breaker.AtRLock (tree nm zeros args) Clean
| a_check1 h nm zeros args : based h = [] -> at_pc h Breaker.AtCheck (checking nm zeros args check1) Clean
| a_check2 h nm zeros args : based h = [] -> at_pc h Breaker.AtCheck (checking nm zeros args check2) Sees
| a_check3 h nm zeros args r : based h = [] -> at_pc h Breaker.AtCheck (checking nm zeros args (check3 (VRef r))) (SeesRef r)
| a_check4 h nm zeros args r x t y : based h = [] -> inst r = Some x -> inst t = Some y ->
    at_pc h (if Z.ltb y x then Breaker.AtRUnlockReject else Breaker.AtRUnlockPass) (checking nm zeros args (check4 (VRef r) (VRef t))) (SeesRef r)
| a_reject h nm zeros args : based h = [] -> at_pc h Breaker.AtRUnlockReject (checking nm zeros args check_reject) Clean
| a_new h nm zeros args : based h = [] -> at_pc h Breaker.Rejected (checking nm zeros args check_new) Clean
| a_rejected h zeros e : based h = [] -> at_pc h Breaker.Rejected (Ret (Val (removelast zeros ++ [e]))) Clean
| a_pass h nm zeros args : based h = [] -> at_pc h Breaker.AtRUnlockPass (checking nm zeros args check_pass) Clean
| a_base h nm zeros args : based h = [] ->
    at_pc h Breaker.AtBase (entered lock errs closes max interval ignored (OMeth (VRef base) nm args) zeros None) Clean
| a_panicked h v : based h = [APan v] -> at_pc h (Breaker.Returned Breaker.Panicked) (Ret (Pan v)) Clean
| a_back h vs : based h = [ARet vs] ->
    at_pc h (Breaker.AtLock (verdict (last vs VNil))) (after_base lock errs closes max interval ignored vs) Clean
| a_reset h vs : based h = [ARet vs] -> verdict (last vs VNil) <> Breaker.Counted ->
    at_pc h (Breaker.AtUpdate (verdict (last vs VNil))) (updating vs (breaker_reset errs closes)) Clean
| a_search h vs l : based h = [ARet vs] -> is_nil (last vs VNil) = false ->
    existsb (matches (last vs VNil)) ignored = existsb (matches (last vs VNil)) l ->
    at_pc h (Breaker.AtUpdate (verdict (last vs VNil))) (updating vs (search (last vs VNil) l)) Clean
| a_count2 h vs z : based h = [ARet vs] -> verdict (last vs VNil) = Breaker.Counted ->
    at_pc h (Breaker.AtUpdate Breaker.Counted) (updating vs (count2 z)) (SeesErrs z)
| a_count3 h vs : based h = [ARet vs] -> verdict (last vs VNil) = Breaker.Counted ->
    at_pc h Breaker.AtIncremented (updating vs count3) Clean
| a_count4 h vs : based h = [ARet vs] -> verdict (last vs VNil) = Breaker.Counted ->
    at_pc h Breaker.AtIncremented (updating vs count4) Trips
| a_count5 h vs u x : based (h ++ [(time_now, ARet [VRef u])]) = [ARet vs] -> verdict (last vs VNil) = Breaker.Counted -> inst u = Some x ->
    at_pc (h ++ [(time_now, ARet [VRef u])]) (Breaker.AtUnlock Breaker.Counted) (updating vs (count5 (VRef u))) (Pend (Some (x + d)%Z) (Some x))
| a_count6 h vs u x y w : based (h ++ [(time_now, ARet [VRef u]); y]) = [ARet vs] -> verdict (last vs VNil) = Breaker.Counted ->
    inst u = Some x -> inst w = Some (x + d)%Z ->
    at_pc (h ++ [(time_now, ARet [VRef u]); y]) (Breaker.AtUnlock Breaker.Counted) (updating vs (count6 (VRef w))) (Pend (Some (x + d)%Z) (Some x))
| a_reset2 h vs : based h = [ARet vs] -> verdict (last vs VNil) <> Breaker.Counted ->
    at_pc h (Breaker.AtUnlock (verdict (last vs VNil))) (updating vs reset2) (Pend None None)
| a_unlock h vs tm : based h = [ARet vs] ->
    (forall x, tm = Some x -> exists h0 u y z, h = h0 ++ [(time_now, ARet [VRef u]); y; z] /\ inst u = Some x) ->
    at_pc h (Breaker.AtUnlock (verdict (last vs VNil))) (unlock_with lock (Val vs)) (Leaving tm)
| a_done h vs : based h = [ARet vs] -> at_pc h (Breaker.Returned (verdict (last vs VNil))) (Ret (Val vs)) Clean.

(** a call that knows something holds the lock *)
Lemma at_clean : forall h pc p m, at_pc h pc p m -> PropBreaker.reading pc = false -> PropBreaker.writing pc = false -> m = Clean.
Proof. intros h pc p m H. destruct H; cbn; intros; try discriminate; try reflexivity. destruct (Z.ltb y x); discriminate. Qed.

Lemma at_pending : forall h pc p c tm, at_pc h pc p (Pend c tm) -> PropBreaker.writing pc = true.
Proof. intros h pc p c tm H. inversion H; reflexivity. Qed.

Lemma at_leaving : forall h o p m, at_pc h (Breaker.AtUnlock o) p m -> exists tm, time_of m = Some tm.
Proof. intros h o p m H. inversion H; try (destruct (Z.ltb _ _); discriminate); cbn; eauto. Qed.

(** the same history as far as the breaker can tell *)
Definition alike (h h' : list (Breaker.outcome * Z)) : Prop :=
  PropBreaker.trail h = PropBreaker.trail h' /\
  ((Z.max 1 max <= Z.of_nat (PropBreaker.trail h))%Z -> PropBreaker.last_time h = PropBreaker.last_time h').

Lemma alike_open : forall h h' t, alike h h' -> PropBreaker.open_at max d h t <-> PropBreaker.open_at max d h' t.
Proof. intros h h' t (E1 & E2). rewrite !PropBreaker.open_at_iff, <- E1. split; intros (A & B); specialize (E2 A); rewrite ?E2 in *; auto; congruence. Qed.

Record rel (tr : list (event unit)) (ls : list Breaker.label) (c : conf breaker) (s : Breaker.state) (mk : nat -> mark) : Prop := {
  r_now : k_now (cf_shared c) = Breaker.now s;
  r_readers : k_readers (cf_shared c) = Breaker.readers s;
  r_writer : k_writer (cf_shared c) = Breaker.writer s;
  r_errs : k_errs (cf_shared c) = Z.of_nat (Breaker.errs s);
  r_length : length (cf_calls c) = length (Breaker.calls s);
  r_calls : forall i p, nth_error (cf_calls c) i = Some p -> exists pc,
    nth_error (Breaker.calls s) i = Some pc /\ at_pc (history i tr) pc p (mk i) /\ holds (mk i) (cf_shared c) s;
  r_closes : (forall i, i < length (cf_calls c) -> match mk i with Pend _ _ => False | _ => True end) ->
    Breaker.closesAt s = match k_closes (cf_shared c) with Some t => inst t | None => None end;
  r_valid : match k_closes (cf_shared c) with Some t => inst t <> None | None => True end;
  r_quiet : forall i, length (cf_calls c) <= i -> history i tr = [];
  r_settled : forall h, done_calls tr h -> (forall i o, nth_error (Breaker.calls s) i <> Some (Breaker.AtUnlock o)) ->
    alike h (PropBreaker.completed ls);
  r_leaving : forall h i o tm t, done_calls tr h -> nth_error (Breaker.calls s) i = Some (Breaker.AtUnlock o) ->
    time_of (mk i) = Some tm -> (forall x, tm = Some x -> t = x) -> alike (h ++ [(o, t)]) (PropBreaker.completed ls)
}.

Lemma alone : forall ls s i j pc pc', PropBreaker.inv max d ls s ->
  nth_error (Breaker.calls s) i = Some pc -> PropBreaker.writing pc = true -> j <> i -> nth_error (Breaker.calls s) j = Some pc' ->
  PropBreaker.reading pc' = false /\ PropBreaker.writing pc' = false.
Proof.
  intros ls s i j pc pc' (I1 & I2 & I3 & _ & _) Hi Hw Hn Hj.
  pose proof (PropBreaker.cnt_ge PropBreaker.writing _ _ _ Hi Hw) as G.
  destruct (Breaker.writer s) eqn:Ew; [|cbn in I2; lia]. specialize (I3 eq_refl). split.
  - destruct (PropBreaker.reading pc') eqn:E; [|reflexivity]. pose proof (PropBreaker.cnt_ge PropBreaker.reading _ _ _ Hj E). lia.
  - destruct (PropBreaker.writing pc') eqn:E; [|reflexivity].
    pose proof (PropBreaker.cnt_upd PropBreaker.writing _ _ _ Breaker.Rejected Hi) as U. rewrite Hw in U. cbn in U.
    assert (Hj' : nth_error (upd i Breaker.Rejected (Breaker.calls s)) j = Some pc') by (rewrite nth_upd_other; auto).
    pose proof (PropBreaker.cnt_ge PropBreaker.writing _ _ _ Hj' E). cbn in I2. lia.
Qed.

Lemma no_reader : forall ls s i j pc pc', PropBreaker.inv max d ls s ->
  nth_error (Breaker.calls s) i = Some pc -> PropBreaker.reading pc = true -> nth_error (Breaker.calls s) j = Some pc' ->
  PropBreaker.writing pc' = false.
Proof.
  intros ls s i j pc pc' Hinv Hi Hr Hj. destruct (PropBreaker.writing pc') eqn:E; [|reflexivity]. exfalso.
  destruct (Nat.eq_dec i j) as [->|N].
  - assert (pc = pc') by congruence. subst pc'. destruct pc; discriminate.
  - destruct (alone _ _ j i _ _ Hinv Hj E N Hi). congruence.
Qed.

Lemma done_other : forall tr e h, done_calls (tr ++ [e]) h -> (forall i a, e <> EvDo i wunlock a) -> done_calls tr h.
Proof.
  intros tr e h H He. inversion H as [E|tr0 h0 e0 H0 H1 E|tr0 h0 i a vs t H0 H1 H2 E].
  - now destruct tr.
  - apply app_inj_tail in E. destruct E as (-> & ->). exact H0.
  - apply app_inj_tail in E. destruct E as (-> & <-). now destruct (He i a).
Qed.
Lemma done_unlock : forall tr i a h', done_calls (tr ++ [EvDo i wunlock a]) h' -> exists h vs t,
  h' = h ++ [(verdict (last vs VNil), t)] /\ done_calls tr h /\ based (history i tr) = [ARet vs] /\
  (forall h0 u x y, history i tr = h0 ++ [(time_now, ARet [VRef u]); x; y] -> inst u = Some t).
Proof.
  intros tr i a h' H. inversion H as [E|tr0 h0 e0 H0 H1 E|tr0 h0 i0 a0 vs t H0 H1 H2 E].
  - now destruct tr.
  - apply app_inj_tail in E. destruct E as (-> & ->). now destruct (H1 i a).
  - apply app_inj_tail in E. destruct E as (-> & E). injection E as -> ->. eauto 8.
Qed.

Definition pending (m : mark) : Prop := match m with Pend _ _ => True | _ => False end.

Lemma move : forall tr ls q ps s mk i o k a q' pc' l s' m',
  rel tr ls (Conf q ps) s mk -> nth_error ps i = Some (Do o k) ->
  Breaker.calls s' = upd i pc' (Breaker.calls s) ->
  k_now q' = Breaker.now s' -> k_readers q' = Breaker.readers s' -> k_writer q' = Breaker.writer s' ->
  k_errs q' = Z.of_nat (Breaker.errs s') ->
  at_pc (history i tr ++ [(o, a)]) pc' (k a) m' -> holds m' q' s' ->
  (forall j pcj p, j <> i -> nth_error (Breaker.calls s) j = Some pcj -> at_pc (history j tr) pcj p (mk j) -> holds (mk j) q s -> holds (mk j) q' s') ->
  ((forall j, j < length ps -> j <> i -> ~ pending (mk j)) -> ~ pending m' ->
     Breaker.closesAt s' = match k_closes q' with Some t => inst t | None => None end) ->
  match k_closes q' with Some t => inst t <> None | None => True end ->
  (forall h, done_calls (tr ++ [EvDo i o a]) h -> (forall j x, nth_error (Breaker.calls s') j <> Some (Breaker.AtUnlock x)) ->
     alike h (PropBreaker.completed (ls ++ l))) ->
  (forall h j x tm t, done_calls (tr ++ [EvDo i o a]) h -> nth_error (Breaker.calls s') j = Some (Breaker.AtUnlock x) ->
     time_of (if Nat.eqb j i then m' else mk j) = Some tm -> (forall y, tm = Some y -> t = y) -> alike (h ++ [(x, t)]) (PropBreaker.completed (ls ++ l))) ->
  rel (tr ++ [EvDo i o a]) (ls ++ l) (Conf q' (upd i (k a) ps)) s' (fun j => if Nat.eqb j i then m' else mk j).
Proof.
  intros tr ls q ps s mk i o k a q' pc' l s' m' [R1 R2 R3 R4 R5 R6 R7 R8 R9 R10 R11] Hi Hc H1 H2 H3 H4 Hat Hm Hoth Hcl Hval Hset Hlv.
  cbn [cf_shared cf_calls] in *. pose proof (nth_lt _ _ _ Hi) as Hlt.
  constructor; cbn [cf_shared cf_calls]; auto.
  - rewrite Hc, !upd_length. exact R5.
  - intros j p Hj. rewrite history_app. cbn [history]. apply nth_upd in Hj. destruct Hj as [(-> & -> & _)|(N & Hj)].
    + rewrite Nat.eqb_refl. exists pc'. split; [rewrite Hc; apply nth_upd_same; lia|]. split; [exact Hat | exact Hm].
    + destruct (Nat.eqb_spec j i) as [->|_]; [contradiction|]. rewrite app_nil_r.
      destruct (R6 _ _ Hj) as (pcj & E1 & E2 & E3). exists pcj. split; [rewrite Hc, nth_upd_other; auto|]. split; [exact E2 | eauto].
  - intros Hp. apply Hcl.
    + intros j Hj N Hpj. specialize (Hp j). rewrite upd_length in Hp. rewrite (proj2 (Nat.eqb_neq j i) N) in Hp.
      specialize (Hp Hj). destruct (mk j); auto.
    + specialize (Hp i). rewrite upd_length, Nat.eqb_refl in Hp. specialize (Hp Hlt). unfold pending. destruct m'; auto.
  - intros j Hj. rewrite upd_length in Hj. rewrite history_app. cbn [history]. destruct (Nat.eqb_spec j i) as [->|_]; [lia|].
    rewrite app_nil_r. now apply R9.
Qed.

(** an operation that leaves the shared fields alone, outside the last part of
    the update *)
Lemma move_quiet : forall tr ls q ps s mk i o k a q' pc pc' l s' m',
  rel tr ls (Conf q ps) s mk -> nth_error ps i = Some (Do o k) -> nth_error (Breaker.calls s) i = Some pc ->
  Breaker.calls s' = upd i pc' (Breaker.calls s) ->
  k_now q' = Breaker.now s' -> k_readers q' = Breaker.readers s' -> k_writer q' = Breaker.writer s' ->
  k_errs q' = k_errs q -> k_closes q' = k_closes q -> Breaker.errs s' = Breaker.errs s -> Breaker.closesAt s' = Breaker.closesAt s ->
  PropBreaker.completed l = [] ->
  time_of (mk i) = None -> time_of m' = None -> o <> wunlock ->
  (forall x, pc <> Breaker.AtUnlock x) -> (forall x, pc' <> Breaker.AtUnlock x) ->
  at_pc (history i tr ++ [(o, a)]) pc' (k a) m' -> holds m' q' s' ->
  rel (tr ++ [EvDo i o a]) (ls ++ l) (Conf q' (upd i (k a) ps)) s' (fun j => if Nat.eqb j i then m' else mk j).
Proof.
  intros tr ls q ps s mk i o k a q' pc pc' l s' m' HR Hi Hp Hc H1 H2 H3 H4 H5 H6 H7 Hl Ht Ht' Ho Hu Hu' Hat Hm.
  pose proof HR as [R1 R2 R3 R4 R5 R6 R7 R8 R9 R10 R11]. cbn [cf_shared cf_calls] in *.
  assert (Hno : forall j b, EvDo (happening := unit) i o a <> EvDo j wunlock b) by (intros; congruence).
  assert (Hcomp : PropBreaker.completed (ls ++ l) = PropBreaker.completed ls) by (now rewrite PropBreaker.completed_app, Hl, app_nil_r).
  eapply move; try eassumption; rewrite ?H4, ?H6, ?Hcomp; auto.
  - intros j pcj p N Hj _ Hh. unfold holds in *. destruct (mk j); rewrite ?H4, ?H5, ?H6, ?H7; auto.
  - intros Hq _. rewrite H5, H7. apply R7. intros j Hj. destruct (Nat.eq_dec j i) as [->|N].
    + destruct (mk i); try exact I. discriminate.
    + specialize (Hq j Hj N). destruct (mk j); try exact I. apply Hq. exact I.
  - now rewrite H5.
  - intros h Hd Hq. apply R10; [eapply done_other; eauto|]. intros j x Hj. destruct (Nat.eq_dec j i) as [->|N].
    + rewrite Hp in Hj. injection Hj as ->. now destruct (Hu x).
    + apply (Hq j x). rewrite Hc, nth_upd_other; auto.
  - intros h j x tm t Hd Hj Htm Hy. rewrite Hc in Hj. apply nth_upd in Hj. destruct Hj as [(-> & E & _)|(N & Hj)].
    + now destruct (Hu' x).
    + destruct (Nat.eqb_spec j i) as [->|_]; [contradiction|]. eapply R11; eauto. eapply done_other; eauto.
Qed.

(** an operation under the write lock *)
Lemma move_writing : forall tr ls q ps s mk i o k a q' pc pc' l s' m',
  PropBreaker.inv max d ls s ->
  rel tr ls (Conf q ps) s mk -> nth_error ps i = Some (Do o k) -> nth_error (Breaker.calls s) i = Some pc ->
  PropBreaker.writing pc = true ->
  Breaker.calls s' = upd i pc' (Breaker.calls s) ->
  k_now q' = Breaker.now s' -> k_readers q' = Breaker.readers s' -> k_writer q' = Breaker.writer s' ->
  k_errs q' = Z.of_nat (Breaker.errs s') ->
  at_pc (history i tr ++ [(o, a)]) pc' (k a) m' -> holds m' q' s' ->
  (~ pending m' -> Breaker.closesAt s' = match k_closes q' with Some t => inst t | None => None end) ->
  match k_closes q' with Some t => inst t <> None | None => True end ->
  (forall h, done_calls (tr ++ [EvDo i o a]) h -> (forall x, pc' <> Breaker.AtUnlock x) -> alike h (PropBreaker.completed (ls ++ l))) ->
  (forall h x tm t, done_calls (tr ++ [EvDo i o a]) h -> pc' = Breaker.AtUnlock x ->
     time_of m' = Some tm -> (forall y, tm = Some y -> t = y) -> alike (h ++ [(x, t)]) (PropBreaker.completed (ls ++ l))) ->
  rel (tr ++ [EvDo i o a]) (ls ++ l) (Conf q' (upd i (k a) ps)) s' (fun j => if Nat.eqb j i then m' else mk j).
Proof.
  intros tr ls q ps s mk i o k a q' pc pc' l s' m' Hinv HR Hi Hp Hw Hc H1 H2 H3 H4 Hat Hm Hcl Hval Hset Hlv.
  pose proof (nth_lt _ _ _ Hp) as Hlt.
  eapply move; try eassumption; auto.
  - intros j pcj p N Hj Hatj _. destruct (alone _ _ _ _ _ _ Hinv Hp Hw N Hj) as (A & B). now rewrite (at_clean _ _ _ _ Hatj A B).
  - intros h Hd Hq. apply Hset; [exact Hd|]. intros x ->. apply (Hq i x). rewrite Hc. apply nth_upd_same. exact Hlt.
  - intros h j x tm t Hd Hj Htm Hy. rewrite Hc in Hj. apply nth_upd in Hj. destruct Hj as [(-> & E & _)|(N & Hj)].
    + rewrite Nat.eqb_refl in Htm. eapply Hlv; eauto.
    + destruct (alone _ _ _ _ _ _ Hinv Hp Hw N Hj). discriminate.
Qed.

Lemma based_lock : forall h f a, based (h ++ [(on_lock lock f, a)]) = based h.
Proof. intros. rewrite based_snoc. cbn. rewrite (proj2 (Nat.eqb_neq lock base)) by auto. apply app_nil_r. Qed.
Lemma based_time : forall h r x f l a, inst r = Some x -> based (h ++ [(OMeth (VRef r) f l, a)]) = based h.
Proof. intros h r x f l a E. rewrite based_snoc. cbn. rewrite (proj2 (Nat.eqb_neq r base)) by congruence. apply app_nil_r. Qed.
Lemma based_own : forall h nm args a, based h = [] -> based (h ++ [(OMeth (VRef base) nm args, a)]) = [a].
Proof. intros h nm args a E. rewrite based_snoc, E. cbn. now rewrite Nat.eqb_refl. Qed.
Lemma based_none : forall h o a, of_base (o, a) = [] -> based (h ++ [(o, a)]) = based h.
Proof. intros h o a E. rewrite based_snoc, E. apply app_nil_r. Qed.

Lemma not_wunlock : forall f, f <> "Unlock"%string -> on_lock lock f <> wunlock.
Proof. intros f H E. injection E as E. now apply H. Qed.

Lemma ignored_verdict : forall e, is_nil e = false -> existsb (matches e) ignored = true -> verdict e = Breaker.Ignored.
Proof. intros e H1 H2. unfold verdict. now rewrite H1, H2. Qed.
Lemma counted_verdict : forall e, is_nil e = false -> existsb (matches e) ignored = false -> verdict e = Breaker.Counted.
Proof. intros e H1 H2. unfold verdict. now rewrite H1, H2. Qed.

Lemma upd_id : forall {A} (x : A) l i, nth_error l i = Some x -> upd i x l = l.
Proof. intros A x. induction l as [|y l IH]; intros [|i] H; cbn in *; try discriminate; [congruence | f_equal; auto]. Qed.

Lemma verdict_back : forall e,
  match verdict e with Breaker.Panicked => Breaker.Returned Breaker.Panicked | _ => Breaker.AtLock (verdict e) end = Breaker.AtLock (verdict e).
Proof. intros e. unfold verdict. now destruct (is_nil e), (existsb (matches e) ignored). Qed.

(** under the read lock _closesAt is what the transition system says *)
Lemma reading_exact : forall tr ls q ps s mk i pc, PropBreaker.inv max d ls s -> rel tr ls (Conf q ps) s mk ->
  nth_error (Breaker.calls s) i = Some pc -> PropBreaker.reading pc = true ->
  Breaker.closesAt s = match k_closes q with Some t => inst t | None => None end.
Proof.
  intros tr ls q ps s mk i pc Hinv [R1 R2 R3 R4 R5 R6 R7 R8 R9 R10 R11] Hp Hr. cbn [cf_shared cf_calls] in *. apply R7. intros j Hj.
  destruct (nth_error ps j) as [p|] eqn:Ej; [|apply nth_error_None in Ej; lia].
  destruct (R6 _ _ Ej) as (pcj & Hpj & Hat & _). pose proof (no_reader _ _ _ _ _ _ Hinv Hp Hr Hpj) as Hw.
  destruct (mk j) eqn:Em; try exact I. pose proof (at_pending _ _ _ _ _ Hat). congruence.
Qed.

(** under the write lock too, unless the call itself is about to change it *)
Lemma writing_exact : forall tr ls q ps s mk i pc, PropBreaker.inv max d ls s -> rel tr ls (Conf q ps) s mk ->
  nth_error (Breaker.calls s) i = Some pc -> PropBreaker.writing pc = true -> ~ pending (mk i) ->
  Breaker.closesAt s = match k_closes q with Some t => inst t | None => None end.
Proof.
  intros tr ls q ps s mk i pc Hinv [R1 R2 R3 R4 R5 R6 R7 R8 R9 R10 R11] Hp Hw Hn. cbn [cf_shared cf_calls] in *. apply R7. intros j Hj.
  destruct (nth_error ps j) as [p|] eqn:Ej; [|apply nth_error_None in Ej; lia].
  destruct (R6 _ _ Ej) as (pcj & Hpj & Hat & _). destruct (Nat.eq_dec j i) as [->|N].
  - unfold pending in Hn. destruct (mk i); auto.
  - destruct (alone _ _ _ _ _ _ Hinv Hp Hw N Hpj) as (A & B). now rewrite (at_clean _ _ _ _ Hat A B).
Qed.

Lemma writing_settled : forall ls s i pc, PropBreaker.inv max d ls s ->
  nth_error (Breaker.calls s) i = Some pc -> PropBreaker.writing pc = true -> (forall o, pc <> Breaker.AtUnlock o) ->
  forall j o, nth_error (Breaker.calls s) j <> Some (Breaker.AtUnlock o).
Proof.
  intros ls s i pc Hinv Hp Hw Hn j o Hj. destruct (Nat.eq_dec j i) as [->|N].
  - apply (Hn o). congruence.
  - destruct (alone _ _ _ _ _ _ Hinv Hp Hw N Hj). discriminate.
Qed.

Ltac quiet Em Hp P M :=
  eapply move_quiet with (pc' := P) (m' := M); try eassumption; try (symmetry; apply upd_id; exact Hp); try reflexivity; try discriminate;
    try (intros; discriminate); try (apply not_wunlock; discriminate); try exact I; try (rewrite Em; reflexivity); try (cbn; congruence).

Ltac inj := match goal with E : _ = Do ?o ?k |- _ => let Eo := fresh "Eo" in let Ek := fresh "Ek" in
    injection E as Eo Ek; subst o; match type of Ek with ?f = _ => assert (Hk : forall a, k a = f a) by (intros; now rewrite <- Ek) end; clear Ek end.

Ltac write P M :=
  eapply move_writing with (pc' := P) (m' := M); try eassumption; try reflexivity; try discriminate; try exact I; try (cbn; congruence);
    try (intros; discriminate).

Lemma breaker_simulates_do : forall tr ls q ps s mk i o k a q',
  PropBreaker.inv max d ls s -> rel tr ls (Conf q ps) s mk ->
  nth_error ps i = Some (Do o k) -> breaker_sem q o a q' ->
  exists l s' mk', breaker_means (EvDo i o a) l /\ run step s l s' /\
    rel (tr ++ [EvDo i o a]) (ls ++ l) (Conf q' (upd i (k a) ps)) s' mk'.
Proof.
  intros tr ls q ps s mk i o k a q' Hinv HR Hi Hs.
  pose proof HR as [R1 R2 R3 R4 R5 R6 R7 R8 R9 R10 R11]. cbn [cf_shared cf_calls] in *.
  destruct (R6 _ _ Hi) as (pc & Hp & Hat & Hm).
  remember (history i tr) as hh eqn:Eh in Hat. remember (Do o k) as p eqn:Ep in Hat. remember (mk i) as mi eqn:Em in Hat, Hm. symmetry in Em, Eh.
  destruct Hat as [nm zeros args|h nm zeros args B|h nm zeros args B|h nm zeros args r B|h nm zeros args r x t y B Hr Ht
    |h nm zeros args B|h nm zeros args B|h zeros e B|h nm zeros args B|h nm zeros args B|h v B|h vs B|h vs B V|h vs l B N X
    |h vs z B V|h vs B V|h vs B V|h vs u x B V Hu|h vs u x y w B V Hu Hw|h vs B V|h vs tm B T|h vs B];
    try discriminate.
  - (* RLock *)
    inj. inversion Hs; [|congruence..]. subst. cbn in R1, R2, R3, R4.
    eexists _, _, _. split; [apply km_rlock|]. split; [apply run_one; eapply Breaker.s_rlock; [exact Hp | congruence]|].
    quiet Em Hp Breaker.AtCheck Clean.
    rewrite Hk, Eh. apply a_check1. apply based_lock.
  - (* the first look at _closesAt *)
    inj. inversion Hs; subst; [|congruence..].
    pose proof (reading_exact _ _ _ _ _ _ _ _ Hinv HR Hp eq_refl) as Hx.
    destruct (k_closes q') as [r|] eqn:Ec; cbn [pointer].
    + eexists _, s, _. split; [apply km_closes|]. split; [apply run_nil|]. quiet Em Hp Breaker.AtCheck Sees.
      * rewrite Hk. apply a_check2. now rewrite based_none.
      * exists r. exact Ec.
    + pose proof (Breaker.s_check max d s i Hp) as St. rewrite Hx in St. cbn [Breaker.is_open] in St.
      eexists _, _, _. split; [apply km_closed|]. split; [apply run_one; exact St|]. quiet Em Hp Breaker.AtRUnlockPass Clean.
      rewrite Hk. apply a_pass. now rewrite based_none.
  - (* the second *)
    inj. inversion Hs; subst; [|congruence..]. cbn in Hm. destruct Hm as (r & Ec). rewrite Ec. cbn [pointer].
    eexists _, s, _. split; [apply km_closes|]. split; [apply run_nil|]. quiet Em Hp Breaker.AtCheck (SeesRef r).
    rewrite Hk. apply a_check3. now rewrite based_none.
  - (* time.Now() *)
    inj. inversion Hs; subst. cbn in Hm. rewrite Hm in R8.
    pose proof (reading_exact _ _ _ _ _ _ _ _ Hinv HR Hp eq_refl) as Hx. rewrite Hm in Hx.
    destruct (inst r) as [x|] eqn:Er; [|now destruct R8].
    pose proof (Breaker.s_check max d s i Hp) as St. rewrite Hx in St. cbn [Breaker.is_open] in St.
    eexists _, _, _. split; [eapply km_check; eassumption|]. rewrite R1. split; [apply run_one; exact St|].
    quiet Em Hp (if Z.ltb (Breaker.now s) x then Breaker.AtRUnlockReject else Breaker.AtRUnlockPass) (SeesRef r).
    + intros y. destruct (Z.ltb _ _); discriminate.
    + rewrite Hk. apply a_check4; [now rewrite based_none | exact Er | congruence].
  - (* After *)
    inj. inversion Hs; subst; [|congruence..].
    assert (x0 = x) by congruence. assert (y0 = y) by congruence. subst x0 y0.
    eexists _, s, _. split; [apply km_after|]. split; [apply run_nil|].
    quiet Em Hp (if Z.ltb y x then Breaker.AtRUnlockReject else Breaker.AtRUnlockPass) Clean.
    + intros z. destruct (Z.ltb _ _); discriminate.
    + intros z. destruct (Z.ltb _ _); discriminate.
    + rewrite Hk. cbn [truth]. destruct (Z.ltb y x); [apply (a_reject _ nm zeros args) | apply (a_pass _ nm zeros args)]; now rewrite (based_time _ _ x).
  - (* RUnlock, rejected *)
    inj. inversion Hs; [|congruence..]. subst. cbn in R1, R2, R3, R4.
    eexists _, _, _. split; [apply km_reject|]. split; [apply run_one; eapply Breaker.s_reject; exact Hp|].
    quiet Em Hp Breaker.Rejected Clean.
    + cbn. rewrite <- R2. reflexivity.
    + rewrite Hk. apply (a_new _ nm zeros args). now rewrite based_lock.
  - (* errors.New *)
    inj. inversion Hs; subst.
    eexists _, s, _. split; [apply km_new|]. split; [apply run_nil|]. quiet Em Hp Breaker.Rejected Clean.
    rewrite Hk. apply a_rejected. now rewrite based_none.
  - (* RUnlock *)
    inj. inversion Hs; [|congruence..]. subst. cbn in R1, R2, R3, R4.
    eexists _, _, _. split; [apply km_pass|]. split; [apply run_one; eapply Breaker.s_pass; exact Hp|].
    quiet Em Hp Breaker.AtBase Clean.
    + cbn. rewrite <- R2. reflexivity.
    + rewrite Hk. apply (a_base _ nm zeros args). now rewrite based_lock.
  - (* the base *)
    inj. inversion Hs; subst; try congruence.
    + pose proof (Breaker.s_base max d s i (verdict (last vs VNil)) Hp) as St. rewrite verdict_back in St.
      eexists _, _, _. split; [apply km_base|]. split; [apply run_one; exact St|].
      quiet Em Hp (Breaker.AtLock (verdict (last vs VNil))) Clean.
      * unfold on_lock. congruence.
      * rewrite Hk. apply a_back. now apply based_own.
    + eexists _, _, _. split; [apply km_base_panics|]. split; [apply run_one; eapply Breaker.s_base; exact Hp|].
      quiet Em Hp (Breaker.Returned Breaker.Panicked) Clean.
      * unfold on_lock. congruence.
      * rewrite Hk. apply a_panicked. now apply based_own.
  - (* Lock *)
    inj. inversion Hs; [|congruence..]. subst. cbn in R1, R2, R3, R4.
    eexists _, _, _. split; [apply km_lock|]. split; [apply run_one; eapply Breaker.s_lock; [exact Hp | congruence | congruence]|].
    quiet Em Hp (Breaker.AtUpdate (verdict (last vs VNil))) Clean.
    rewrite Hk. unfold breaker_update. destruct (is_nil (last vs VNil)) eqn:En.
    + apply a_reset; [now rewrite based_lock|]. unfold verdict. rewrite En. discriminate.
    + apply a_search; [now rewrite based_lock | exact En | reflexivity].
  - (* resetting the counter *)
    inj. inversion Hs; [|congruence..]. subst. cbn in R1, R2, R3, R4.
    pose proof (writing_settled _ _ _ _ Hinv Hp eq_refl ltac:(discriminate)) as Hq.
    eexists _, _, _. split; [eapply km_reset; exact V|]. split; [apply run_one; eapply Breaker.s_reset; [exact Hp | exact V]|].
    write (Breaker.AtUnlock (verdict (last vs VNil))) (Pend None None).
    + rewrite Hk. apply a_reset2; [now rewrite based_none | exact V].
    + intros H. now destruct H.
    + intros h0 Hd Hu. now destruct (Hu (verdict (last vs VNil))).
    + intros h0 x tm t Hd E Etm Ht. injection E as <-. apply done_other in Hd; [|intros; unfold on_lock, time_now; congruence].
      destruct (R10 _ Hd Hq) as (A1 & A2). rewrite PropBreaker.completed_app. cbn. split; rewrite !PropBreaker.trail_snoc.
      * destruct (verdict (last vs VNil)); try reflexivity. now destruct V.
      * destruct (verdict (last vs VNil)); try (now destruct V); cbn; lia.
  - (* errors.Is, or the first look at the counter *)
    destruct l as [|x l].
    + inj. inversion Hs; subst; [congruence|].
      assert (Vc : verdict (last vs VNil) = Breaker.Counted) by (apply counted_verdict; assumption).
      eexists _, s, _. split; [apply km_errs|]. split; [apply run_nil|].
      rewrite Vc in Hp. quiet Em Hp (Breaker.AtUpdate Breaker.Counted) (SeesErrs (k_errs q')).
      rewrite Hk. apply (a_count2 _ vs (k_errs q')); [now rewrite based_none | exact Vc].
    + inj. inversion Hs; subst.
      eexists _, s, _. split; [apply km_is|]. split; [apply run_nil|].
      quiet Em Hp (Breaker.AtUpdate (verdict (last vs VNil))) Clean.
      rewrite Hk. cbn [truth]. cbn [existsb] in X. destruct (matches (last vs VNil) x).
      * apply a_reset; [now rewrite based_none|]. rewrite ignored_verdict by assumption. discriminate.
      * apply a_search; [now rewrite based_none | exact N | exact X].
  - (* counting *)
    inj. inversion Hs; [|congruence..]. subst. cbn in R1, R2, R3, R4, Hm. subst e.
    pose proof (writing_settled _ _ _ _ Hinv Hp eq_refl ltac:(discriminate)) as Hq.
    pose proof (writing_exact _ _ _ _ _ _ _ _ Hinv HR Hp eq_refl ltac:(rewrite Em; intros [])) as Hx.
    eexists _, _, _. split; [eapply km_incr|]. split; [apply run_one; eapply Breaker.s_incr; exact Hp|].
    write Breaker.AtIncremented Clean.
    + cbn. lia.
    + rewrite Hk. apply a_count3; [now rewrite based_none | exact V].
    + intros _. exact Hx.
    + intros h0 Hd _. apply done_other in Hd; [|intros; unfold on_lock, time_now; congruence].
      rewrite PropBreaker.completed_app. cbn. rewrite app_nil_r. now apply R10.
  - (* the second look at the counter *)
    inj. inversion Hs; subst; [congruence|].
    destruct (Z.leb_spec max (k_errs q')) as [Lm|Lm].
    + eexists _, s, _. split; [apply km_errs|]. split; [apply run_nil|].
      quiet Em Hp Breaker.AtIncremented Trips.
      * rewrite Hk. cbn [number]. rewrite (proj2 (Z.leb_le _ _) Lm). apply (a_count4 _ vs); [now rewrite based_none | exact V].
    + pose proof (writing_settled _ _ _ _ Hinv Hp eq_refl ltac:(discriminate)) as Hq.
      pose proof (writing_exact _ _ _ _ _ _ _ _ Hinv HR Hp eq_refl ltac:(rewrite Em; intros [])) as Hx.
      eexists _, _, _. split; [eapply km_notrip; exact Lm|]. split; [apply run_one; eapply Breaker.s_notrip; [exact Hp | lia]|].
      write (Breaker.AtUnlock Breaker.Counted) (Leaving None).
      * rewrite Hk. cbn [number]. rewrite (proj2 (Z.leb_gt _ _) Lm). rewrite <- V. apply (a_unlock _ vs); [now rewrite based_none | discriminate].
      * intros h0 Hd Hu. now destruct (Hu Breaker.Counted).
      * intros h0 x tm t Hd E Etm Ht. injection E as <-. apply done_other in Hd; [|intros; unfold on_lock, time_now; congruence].
        destruct (R10 _ Hd Hq) as (A1 & A2). rewrite PropBreaker.completed_app. cbn. split; rewrite !PropBreaker.trail_snoc.
        -- now rewrite A1.
        -- destruct Hinv as (_ & _ & _ & I4 & _). pose proof (PropBreaker.cnt_ge PropBreaker.incremented _ _ _ Hp eq_refl). lia.
  - (* time.Now() *)
    inj. inversion Hs; subst. cbn in Hm.
    pose proof (writing_settled _ _ _ _ Hinv Hp eq_refl ltac:(discriminate)) as Hq.
    eexists _, _, _. split; [eapply km_trip; eassumption|]. rewrite R1. split; [apply run_one; eapply Breaker.s_trip; [exact Hp | exact Hm]|].
    write (Breaker.AtUnlock Breaker.Counted) (Pend (Some (Breaker.now s + d)%Z) (Some (Breaker.now s))).
    + rewrite Hk. apply a_count5; [now rewrite based_none | exact V | congruence].
    + intros Hnp. now destruct Hnp.
    + intros h0 Hd Hu. now destruct (Hu Breaker.Counted).
    + intros h0 x tm t0 Hd E Etm Ht. injection E as <-. injection Etm as <-. rewrite (Ht _ eq_refl).
      apply done_other in Hd; [|intros; unfold on_lock, time_now; congruence].
      destruct (R10 _ Hd Hq) as (A1 & A2). rewrite PropBreaker.completed_app. cbn. split; rewrite !PropBreaker.trail_snoc, ?PropBreaker.last_snoc; auto.
  - (* Add *)
    inj. inversion Hs; subst; [|congruence..]. assert (x0 = x) by congruence. subst x0.
    eexists _, s, _. split; [apply km_add|]. split; [apply run_nil|].
    write (Breaker.AtUnlock Breaker.Counted) (Pend (Some (x + d)%Z) (Some x)).
    + symmetry. now apply upd_id.
    + rewrite Hk. rewrite Eh, <- app_assoc. apply a_count6; [|exact V | exact Hu | assumption].
      match goal with |- based (h ++ [?a; ?b]) = _ => replace (h ++ [a; b]) with ((h ++ [a]) ++ [b]) by (now rewrite <- app_assoc) end.
      now rewrite (based_time _ _ x).
    + intros Hnp. now destruct Hnp.
    + intros h0 y tm t0 Hd E Etm Ht. injection E as <-. apply done_other in Hd; [|intros; unfold on_lock, time_now; congruence].
      rewrite app_nil_r. eapply R11; eauto. now rewrite Em.
  - (* _closesAt = &closesAt *)
    inj. inversion Hs; subst. destruct c' as [w'|]; [|discriminate].
    match goal with E : pointer _ = VRef w |- _ => cbn in E; injection E as -> end. cbn in R1, R2, R3, R4, Hm.
    eexists _, s, _. split; [apply km_set_closes|]. split; [apply run_nil|].
    write (Breaker.AtUnlock Breaker.Counted) (Leaving (Some x)).
    + symmetry. now apply upd_id.
    + rewrite Hk, Eh, <- V. cbn [pointer]. apply (a_unlock _ vs).
      * now rewrite based_none.
      * intros x0 E. injection E as <-. exists h, u, y. eexists. split; [now rewrite <- app_assoc | exact Hu].
    + intros h0 y0 tm t0 Hd E Etm Ht. injection E as <-. apply done_other in Hd; [|intros; unfold on_lock, time_now; congruence].
      rewrite app_nil_r. eapply R11; eauto. now rewrite Em.
  - (* _closesAt = nil *)
    inj. inversion Hs; subst. destruct c' as [w'|]; [discriminate|]. cbn in R1, R2, R3, R4, Hm.
    eexists _, s, _. split; [apply km_set_closes|]. split; [apply run_nil|].
    write (Breaker.AtUnlock (verdict (last vs VNil))) (Leaving None).
    + symmetry. now apply upd_id.
    + rewrite Hk. cbn [pointer]. apply (a_unlock _ vs); [now rewrite based_none | discriminate].
    + intros h0 y0 tm t0 Hd E Etm Ht. injection E as <-. apply done_other in Hd; [|intros; unfold on_lock, time_now; congruence].
      rewrite app_nil_r. eapply R11; eauto. now rewrite Em.
  - (* Unlock *)
    inj. inversion Hs; [|congruence..]. subst. cbn in R1, R2, R3, R4.
    pose proof (writing_exact _ _ _ _ _ _ _ _ Hinv HR Hp eq_refl ltac:(rewrite Em; intros [])) as Hx.
    eexists _, _, _. split; [apply km_unlock|]. split; [apply run_one; eapply Breaker.s_unlock; exact Hp|].
    write (Breaker.Returned (verdict (last vs VNil))) Clean.
    + rewrite Hk. apply a_done. now rewrite based_lock.
    + intros _. exact Hx.
    + intros h0 Hd _. apply done_unlock in Hd. destruct Hd as (h1 & vs1 & t & -> & Hd & Hb & Ht).
      rewrite B in Hb. injection Hb as <-. rewrite PropBreaker.completed_app. cbn. rewrite app_nil_r.
      eapply R11; [exact Hd | exact Hp | now rewrite Em |]. intros x ->. destruct (T x eq_refl) as (h0 & u & y & z & E & Eu).
      specialize (Ht _ _ _ _ E). congruence.
Qed.

Lemma breaker_matches : forall t0 tr c, run breaker_step (fresh t0) tr c ->
  exists ls s mk, matched breaker_means tr ls /\ run step (Breaker.init t0) ls s /\ rel tr ls c s mk.
Proof.
  intros t0 tr c H. induction H as [|tr c1 e c2 HR IH Hst].
  - exists [], (Breaker.init t0), (fun _ => Clean). split; [constructor|]. split; [constructor|].
    constructor; cbn; auto.
    + intros [|i] p Hi; discriminate.
    + intros h Hd _. inversion Hd as [E|? ? ? ? ? E|? ? ? ? ? ? ? ? ? E]; try (destruct tr; discriminate). split; reflexivity.
    + intros h [|i] o tm t _ Hi; discriminate.
  - destruct IH as (ls & s & mk & Hm & Hr & Hrel). pose proof (PropBreaker.inv_run _ _ _ _ _ Hr) as Hinv.
    destruct Hst as [q e q' ps He|q ps p Hp|q ps i o k a q' Hi Hs].
    + destruct He as [n r w e c n' Hle]. destruct Hrel as [R1 R2 R3 R4 R5 R6 R7 R8 R9 R10 R11]. cbn in *.
      exists (ls ++ [Breaker.Clock]), (Breaker.State n' (Breaker.readers s) (Breaker.writer s) (Breaker.errs s) (Breaker.closesAt s) (Breaker.calls s)), mk.
      split; [constructor; [exact Hm | constructor]|].
      split; [eapply run_app; [exact Hr|]; apply run_one; apply Breaker.s_clock; lia|].
      assert (Hd : forall h, done_calls (tr ++ [EvEnv tt]) h -> done_calls tr h) by (intros h Hd; eapply done_other; [exact Hd | discriminate]).
      constructor; cbn; auto.
      * intros i p Hi. rewrite history_app. cbn. rewrite app_nil_r. destruct (R6 _ _ Hi) as (pc & A & B & C). exists pc. split; [exact A|]. split; [exact B|].
        destruct (mk i); exact C.
      * intros i Hi. rewrite history_app. cbn. rewrite app_nil_r. auto.
      * intros h Hh Hq. rewrite PropBreaker.completed_app. cbn. rewrite app_nil_r. auto.
      * intros h i o tm t Hh Hi Htm Ht. rewrite PropBreaker.completed_app. cbn. rewrite app_nil_r. eauto.
    + destruct Hp as (m & zeros & args & _ & _ & _ & _ & _ & _ & ->). destruct Hrel as [R1 R2 R3 R4 R5 R6 R7 R8 R9 R10 R11]. cbn [cf_shared cf_calls] in *.
      exists (ls ++ [Breaker.Call]), (Breaker.State (Breaker.now s) (Breaker.readers s) (Breaker.writer s) (Breaker.errs s) (Breaker.closesAt s) (Breaker.calls s ++ [Breaker.AtRLock])),
        (fun j => if Nat.eqb j (length ps) then Clean else mk j).
      split; [constructor; [exact Hm | constructor]|].
      split; [eapply run_app; [exact Hr|]; apply run_one; apply Breaker.s_call|].
      assert (Hd : forall h, done_calls (tr ++ [EvCall]) h -> done_calls tr h) by (intros h Hd; eapply done_other; [exact Hd | discriminate]).
      assert (Hlt : forall i (p : Breaker.pc), nth_error (Breaker.calls s) i = Some p -> (i =? length ps) = false)
        by (intros i p Hi; apply nth_lt in Hi; apply Nat.eqb_neq; lia).
      constructor; cbn [cf_shared cf_calls Breaker.now Breaker.readers Breaker.writer Breaker.errs Breaker.closesAt Breaker.calls]; auto.
      * rewrite !app_length, R5. reflexivity.
      * intros i p Hi. rewrite history_app. cbn [history]. rewrite app_nil_r. apply nth_app_inv in Hi. destruct Hi as [Hi|(-> & ->)].
        -- destruct (R6 _ _ Hi) as (pc & A & B & C). exists pc. rewrite (Hlt _ _ A). split; [|split; [exact B | destruct (mk i); exact C]].
           rewrite nth_error_app1; [exact A | now apply nth_lt in A].
        -- exists Breaker.AtRLock. rewrite Nat.eqb_refl. split; [rewrite R5; apply nth_app_last|]. split; [|exact I].
           rewrite R9 by lia. apply a_enter.
      * intros Hp. apply R7. intros i Hi. specialize (Hp i). rewrite app_length in Hp. cbn in Hp.
        destruct (Nat.eqb_spec i (length ps)); [lia|]. apply Hp. lia.
      * intros i Hi. rewrite app_length in Hi. rewrite history_app. cbn [history]. rewrite app_nil_r. apply R9. lia.
      * intros h Hh Hq. rewrite PropBreaker.completed_app. cbn. rewrite app_nil_r. apply R10; [auto|].
        intros j o Hj. apply (Hq j o). rewrite nth_error_app1; [exact Hj | now apply nth_lt in Hj].
      * intros h i o tm t Hh Hi Htm Ht. rewrite PropBreaker.completed_app. cbn. rewrite app_nil_r.
        apply nth_app_inv in Hi. destruct Hi as [Hi|(_ & E)]; [|discriminate]. rewrite (Hlt _ _ Hi) in Htm. eauto.
    + destruct (breaker_simulates_do _ _ _ _ _ _ _ _ _ _ _ Hinv Hrel Hi Hs) as (l & s' & mk' & M & R & Hrel').
      exists (ls ++ l), s', mk'. split; [now constructor|]. split; [eapply run_app; eassumption | exact Hrel'].
Qed.

(** Every execution of generated calls is an execution of the model that C32 and
    C33 are about. *)
Theorem C62_breaker : forall t0 tr c, run breaker_step (fresh t0) tr c ->
  exists ls s, matched breaker_means tr ls /\ run step (Breaker.init t0) ls s /\ length (Breaker.calls s) = length (cf_calls c) /\
    forall i p, nth_error (cf_calls c) i = Some p -> exists pc m, nth_error (Breaker.calls s) i = Some pc /\ at_pc (history i tr) pc p m.
Proof.
  intros t0 tr c H. destruct (breaker_matches _ _ _ H) as (ls & s & mk & Hm & Hr & Hrel). exists ls, s. split; [exact Hm|]. split; [exact Hr|].
  destruct Hrel as [R1 R2 R3 R4 R5 R6 R7 R8 R9 R10 R11]. split; [auto|].
  intros i p Hi. destruct (R6 _ _ Hi) as (pc & A & B & _). eauto.
Qed.

(** *** C32 for generated calls *)

(** a call that is reading: no call is between Complete and Unlock *)
Lemma reading_settled : forall ls s i pc, PropBreaker.inv max d ls s ->
  nth_error (Breaker.calls s) i = Some pc -> PropBreaker.reading pc = true ->
  forall j o, nth_error (Breaker.calls s) j <> Some (Breaker.AtUnlock o).
Proof. intros ls s i pc Hinv Hp Hr j o Hj. pose proof (no_reader _ _ _ _ _ _ Hinv Hp Hr Hj). discriminate. Qed.

Lemma run_snoc : forall {S L} (st : S -> L -> S -> Prop) s0 tr e s', run st s0 (tr ++ [e]) s' -> exists s, run st s0 tr s /\ st s e s'.
Proof.
  intros S L st s0 tr e s' H. inversion H as [E|tr0 s1 l s2 HR HS E]; [now destruct tr|]. apply app_inj_tail in E. destruct E as (-> & ->). eauto.
Qed.

(** When the breaker compares _closesAt with the clock, it finds the circuit
    open exactly if the latest completed calls are at least [max] counted errors
    in a row, the last of which read the clock less than the interval before. *)
Theorem C62_breaker_open : forall t0 tr c i r t b x h,
  run breaker_step (fresh t0) (tr ++ [EvDo i (OMeth (VRef r) "After" [VRef t]) (ARet [VBool b])]) c ->
  r <> base -> inst t = Some x -> done_calls tr h ->
  (b = true <-> PropBreaker.open_at max d h x).
Proof.
  intros t0 tr c i r t b x h H Hrb Ht Hd. apply run_snoc in H. destruct H as (c1 & H & Hst).
  destruct (breaker_matches _ _ _ H) as (ls & s & mk & Hm & Hr & Hrel). pose proof (PropBreaker.inv_run _ _ _ _ _ Hr) as Hinv.
  inversion Hst as [| |q ps i' o k a q' Hi Hs]; subst. destruct (r_calls _ _ _ _ _ Hrel i _ Hi) as (pc & Hp & Hat & Hh).
  pose proof (r_valid _ _ _ _ _ Hrel) as Hv. cbn [cf_shared] in Hv, Hh.
  remember (mk i) as mi eqn:Em in Hat, Hh. remember (Do _ k) as p eqn:Ep in Hat.
  destruct Hat; cbn in Ep; try discriminate; try (injection Ep as E1; congruence).
  - injection Ep as E1 E2 E3. subst r0 t1. cbn in Hh.
    assert (Hrd : PropBreaker.reading (if (y <? x0)%Z then Breaker.AtRUnlockReject else Breaker.AtRUnlockPass) = true) by (now destruct (Z.ltb y x0)).
    pose proof (reading_exact _ _ _ _ _ _ _ _ Hinv Hrel Hp Hrd) as Hx.
    pose proof (r_settled _ _ _ _ _ Hrel h Hd (reading_settled _ _ _ _ Hinv Hp Hrd)) as Ha.
    rewrite (alike_open _ _ x Ha), <- (PropBreaker.is_open_iff max d _ _ x Hinv), Hx.
    rewrite Hh, H1. cbn [Breaker.is_open]. assert (y = x) by congruence. subst y.
    inversion Hs; subst; [|now destruct Hrb]. assert (x1 = x0) by congruence. assert (y = x) by congruence. subst x1 y. reflexivity.
  - destruct l; discriminate.
Qed.

(** When it finds _closesAt nil, the circuit is closed at every instant. *)
Theorem C62_breaker_closed : forall t0 tr c i h x,
  run breaker_step (fresh t0) (tr ++ [EvDo i (OGet closes) (ARet [VNil])]) c -> done_calls tr h ->
  ~ PropBreaker.open_at max d h x.
Proof.
  intros t0 tr c i h x H Hd. apply run_snoc in H. destruct H as (c1 & H & Hst).
  destruct (breaker_matches _ _ _ H) as (ls & s & mk & Hm & Hr & Hrel). pose proof (PropBreaker.inv_run _ _ _ _ _ Hr) as Hinv.
  inversion Hst as [| |q ps i' o k a q' Hi Hs]; subst. destruct (r_calls _ _ _ _ _ Hrel i _ Hi) as (pc & Hp & Hat & Hh).
  assert (Hn : k_closes q = None) by (inversion Hs; subst; now destruct (k_closes q')).
  assert (Hrd : PropBreaker.reading pc = true).
  { remember (Do _ k) as p eqn:Ep in Hat. destruct Hat as [| | | | | | | | | | | | |h0 vs l| | | | | | | |]; cbn in Ep; try discriminate; try reflexivity; exfalso.
    - destruct l; cbn in Ep; injection Ep as E1; congruence.
    - injection Ep as E1. congruence. }
  pose proof (reading_exact _ _ _ _ _ _ _ _ Hinv Hrel Hp Hrd) as Hx. rewrite Hn in Hx.
  pose proof (r_settled _ _ _ _ _ Hrel h Hd (reading_settled _ _ _ _ Hinv Hp Hrd)) as Ha.
  rewrite (alike_open _ _ x Ha), <- (PropBreaker.is_open_iff max d _ _ x Hinv), Hx. discriminate.
Qed.

(** *** One call *)
Lemma call_sem : forall t0 tr c i o a, run breaker_step (fresh t0) tr c -> In (o, a) (history i tr) -> exists q q', breaker_sem q o a q'.
Proof. intros. eapply sys_answers; eassumption. Qed.

(** A finished call called the base once and returns (or panics with) what the
    base gave, or it did nothing but find the circuit open: it looked at
    _closesAt twice, at the clock once, and returns zero values with the new
    error. *)
Theorem C62_breaker_finished : forall t0 tr c i r, run breaker_step (fresh t0) tr c -> nth_error (cf_calls c) i = Some (Ret r) ->
  (exists a, based (history i tr) = [a] /\ r = outcome_of a) \/
  (exists l1 l2 l3 rf t e zeros, r = Val (removelast zeros ++ [e]) /\ rf <> base /\
     history i tr = [(rlock, ARet []); (OGet closes, ARet [VRef l1]); (OGet closes, ARet [VRef rf]); (time_now, ARet [VRef t]);
                     (OMeth (VRef rf) "After" [VRef t], ARet [VBool true]); (runlock, l2); (new_error, l3)]).
Proof.
  intros t0 tr c i r H Hi. destruct (breaker_matches _ _ _ H) as (ls & s & mk & Hm & Hr & Hrel).
  destruct (r_calls _ _ _ _ _ Hrel i _ Hi) as (pc & Hp & Hat & _).
  assert (G : (exists a, based (history i tr) = [a] /\ r = outcome_of a) \/ based (history i tr) = []).
  { remember (Ret r) as p eqn:Ep in Hat. destruct Hat; try discriminate; try (now right); try (injection Ep as <-).
    - left. exists (APan v). now split.
    - destruct l; discriminate.
    - left. exists (ARet vs). now split. }
  destruct G as [G|G]; [now left|]. right. clear Hat Hp pc.
  destruct (proj1 (sys_reaches _ _ _ _ _ _ H) i _ Hi) as (p0 & (m & zeros & args & H1 & H2 & H3 & H4 & H5 & H6 & ->) & Hreach).
  pose proof (fun o a => call_sem t0 tr c i o a H) as Hans. revert G Hreach Hans. generalize (history i tr). intros h G Hreach Hans.
  assert (Pass : forall h1 h2 nm0 zs as0, (forall o a, In (o, a) h2 -> exists q q', breaker_sem q o a q') -> based (h1 ++ h2) = [] ->
            reaches (checking nm0 zs as0 check_pass) h2 (Ret r) -> False).
  { intros h1 h2 nm0 zs as0 Ha Hb Hrc. unfold check_pass in Hrc. cbn in Hrc. inversion Hrc as [|o1 k1 a1 h3 p1 Hr1]; subst.
    destruct (Ha _ _ (or_introl eq_refl)) as (q & q' & Hs). inversion Hs; subst; try congruence.
    inversion Hr1 as [|o2 k2 a2 h4 p2 Hr2]; subst. unfold based in Hb. rewrite flat_map_app in Hb. apply app_eq_nil in Hb. destruct Hb as (_ & Hb).
    cbn in Hb. rewrite Nat.eqb_refl in Hb. destruct (Nat.eqb lock base); discriminate. }
  unfold breaker_prog, breaker_check in Hreach. cbn in Hreach.
  inversion Hreach as [|o1 k1 a1 h1 p1 Hr1]; subst. destruct (Hans _ _ (or_introl eq_refl)) as (q1 & q1' & Hs1). inversion Hs1; subst; try congruence.
  inversion Hr1 as [|o2 k2 a2 h2 p2 Hr2]; subst. destruct (Hans _ _ (or_intror (or_introl eq_refl))) as (q2 & q2' & Hs2). inversion Hs2; subst; try congruence.
  destruct (k_closes q2') as [l1|]; cbn in Hr2.
  2:{ exfalso. eapply (Pass [_; _] h2 (m_name m) zeros args); [|exact G | exact Hr2]. intros o a Hin. apply Hans. now do 2 right. }
  inversion Hr2 as [|o3 k3 a3 h3 p3 Hr3]; subst. destruct (Hans _ _ (or_intror (or_intror (or_introl eq_refl)))) as (q3 & q3' & Hs3). inversion Hs3; subst; try congruence.
  cbn in Hr3. inversion Hr3 as [|o4 k4 a4 h4 p4 Hr4]; subst.
  destruct (Hans _ _ (or_intror (or_intror (or_intror (or_introl eq_refl))))) as (q4 & q4' & Hs4). inversion Hs4; subst.
  cbn in Hr4. inversion Hr4 as [|o5 k5 a5 h5 p5 Hr5]; subst.
  destruct (Hans _ _ (or_intror (or_intror (or_intror (or_intror (or_introl eq_refl)))))) as (q5 & q5' & Hs5).
  destruct (k_closes q3') as [rf|]; cbn [pointer] in *; [|inversion Hs5].
  inversion Hs5; subst.
  2,3: exfalso; cbn in G; rewrite Nat.eqb_refl, (proj2 (Nat.eqb_neq lock base)) in G by auto; discriminate.
  cbn in Hr5. destruct (y <? x)%Z.
  2:{ exfalso. eapply (Pass [_; _; _; _; _] h5 (m_name m) zeros args); [|exact G | exact Hr5]. intros o a Hin. apply Hans. now do 5 right. }
  cbn in Hr5. inversion Hr5 as [|o6 k6 a6 h6 p6 Hr6]; subst.
  destruct (Hans _ _ (or_intror (or_intror (or_intror (or_intror (or_intror (or_introl eq_refl))))))) as (q6 & q6' & Hs6). inversion Hs6; subst; try congruence.
  cbn in Hr6. inversion Hr6 as [|o7 k7 a7 h7 p7 Hr7]; subst.
  destruct (Hans _ _ (or_intror (or_intror (or_intror (or_intror (or_intror (or_intror (or_introl eq_refl)))))))) as (q7 & q7' & Hs7). inversion Hs7 as [| | | | | | | | | | |s7 v7 e7| | |]; subst.
  cbn in Hr7. inversion Hr7; subst.
  exists l1, (ARet []), (ARet [e7]), rf, t, e7, zeros. split; [reflexivity|]. split; [congruence | reflexivity].
Qed.

(** *** No deadlock: the clock can be read at every instant, and then some call
    can always go on. *)
Lemma goes_on : (forall z, exists t, inst t = Some z) -> forall h pc o k m q s, at_pc h pc (Do o k) m -> holds m q s ->
  (pc = Breaker.AtRLock -> k_writer q = false) ->
  (PropBreaker.reading pc = true -> 0 < k_readers q) ->
  ((exists x, pc = Breaker.AtLock x) -> k_writer q = false /\ k_readers q = 0) ->
  (PropBreaker.writing pc = true -> k_writer q = true) ->
  exists a q', breaker_sem q o a q'.
Proof.
  intros Hc h pc o k m [n r w e cl] s Hat Hm L1 L2 L3 L4. cbn [k_writer k_readers] in *.
  remember (Do o k) as p eqn:Ep in Hat.
  destruct Hat as [nm zeros args|h nm zeros args B|h nm zeros args B|h nm zeros args rf B|h nm zeros args rf x t y B Hr Ht
    |h nm zeros args B|h nm zeros args B|h zeros e0 B|h nm zeros args B|h nm zeros args B|h v B|h vs B|h vs B V|h vs l B N X
    |h vs z B V|h vs B V|h vs B V|h vs u x B V Hu|h vs u x y w0 B V Hu Hw|h vs B V|h vs tm B T|h vs B];
    try discriminate; try (injection Ep as <- <-).
  - rewrite (L1 eq_refl). eexists _, _. apply ks_rlock.
  - eexists _, _. apply ks_closes.
  - eexists _, _. apply ks_closes.
  - destruct (Hc n) as [t Ht]. eexists _, _. apply ks_now. exact Ht.
  - eexists _, _. eapply ks_after; eassumption.
  - specialize (L2 eq_refl). destruct r; [lia|]. eexists _, _. apply ks_runlock.
  - eexists _, _. apply (ks_new _ _ VNil).
  - specialize (L2 eq_refl). destruct r; [lia|]. eexists _, _. apply ks_runlock.
  - eexists _, _. apply ks_base_panics with (v := VNil).
  - destruct (L3 (ex_intro _ _ eq_refl)) as (-> & ->). eexists _, _. apply ks_lock.
  - eexists _, _. apply ks_set_errs.
  - destruct l; cbn in Ep; injection Ep as <- <-; eexists _, _; [apply ks_errs | apply ks_is].
  - eexists _, _. apply ks_set_errs.
  - eexists _, _. apply ks_errs.
  - destruct (Hc n) as [t Ht]. eexists _, _. apply ks_now. exact Ht.
  - destruct (Hc (x + d)%Z) as [t Ht]. eexists _, _. eapply ks_add; eassumption.
  - eexists _, _. apply (ks_set_closes _ _ _ _ _ (Some w0)).
  - eexists _, _. apply (ks_set_closes _ _ _ _ _ None).
  - rewrite (L4 eq_refl). eexists _, _. apply ks_unlock.
Qed.

Theorem C62_breaker_no_deadlock : forall t0 tr c i o k, (forall z, exists t, inst t = Some z) ->
  run breaker_step (fresh t0) tr c -> nth_error (cf_calls c) i = Some (Do o k) ->
  exists j o' a c', breaker_step c (EvDo j o' a) c'.
Proof.
  intros t0 tr c i o k Hc H Hi. destruct (breaker_matches _ _ _ H) as (ls & s & mk & Hm & Hr & Hrel).
  pose proof (PropBreaker.inv_run _ _ _ _ _ Hr) as (I1 & I2 & I3 & _ & _).
  pose proof Hrel as [R1 R2 R3 R4 R5 R6 R7 R8 R9 R10 R11]. destruct c as [q ps]. cbn [cf_shared cf_calls] in *.
  assert (Go : forall j p pc, nth_error ps j = Some p -> nth_error (Breaker.calls s) j = Some pc -> PropBreaker.finished pc = false ->
     (pc = Breaker.AtRLock -> k_writer q = false) ->
     (PropBreaker.reading pc = true -> 0 < k_readers q) ->
     ((exists x, pc = Breaker.AtLock x) -> k_writer q = false /\ k_readers q = 0) ->
     (PropBreaker.writing pc = true -> k_writer q = true) ->
     exists j o' a c', breaker_step (Conf q ps) (EvDo j o' a) c').
  { intros j p pc Hj Hp Hf L1 L2 L3 L4. destruct (R6 _ _ Hj) as (pc' & Hp' & Hat & Hh). assert (pc' = pc) by congruence. subst pc'.
    destruct p as [r|o1 k1].
    - exfalso. remember (Ret r) as p eqn:Ep in Hat. destruct Hat; try discriminate. destruct l; discriminate.
    - destruct (goes_on Hc _ _ _ _ _ _ _ Hat Hh L1 L2 L3 L4) as (a & q' & Hs). exists j, o1, a. eexists. eapply y_do; eassumption. }
  assert (Pos : forall j pc, nth_error (Breaker.calls s) j = Some pc -> exists p, nth_error ps j = Some p).
  { intros j pc Hj. apply nth_lt in Hj. destruct (nth_error ps j) eqn:E; [eauto|]. apply nth_error_None in E. lia. }
  destruct (Breaker.writer s) eqn:Ew.
  { cbn in I2. destruct (PropBreaker.cnt_pos PropBreaker.writing (Breaker.calls s)) as (j & pc & Hj & Hw); [lia|].
    destruct (Pos _ _ Hj) as (p & Hpj). eapply (Go j p pc); auto.
    - now destruct pc.
    - intros ->. discriminate.
    - intros E. destruct pc; discriminate.
    - intros (x & ->). discriminate. }
  destruct (Breaker.readers s) as [|rd] eqn:Er.
  2:{ destruct (PropBreaker.cnt_pos PropBreaker.reading (Breaker.calls s)) as (j & pc & Hj & Hw); [lia|].
    destruct (Pos _ _ Hj) as (p & Hpj). eapply (Go j p pc); auto.
    - now destruct pc.
    - intros _. lia.
    - intros (x & ->). discriminate.
    - intros E. destruct pc; discriminate. }
  destruct (R6 _ _ Hi) as (pc & Hp & Hat & Hh).
  destruct (PropBreaker.finished pc) eqn:Ef.
  - destruct (goes_on Hc _ _ _ _ _ _ _ Hat Hh) as (a & q' & Hs); [now intros ->|now destruct pc|now intros (x & ->)|now destruct pc|].
    exists i, o, a. eexists. eapply y_do; eassumption.
  - eapply (Go i _ pc Hi Hp Ef).
    + auto.
    + intros Hrd. pose proof (PropBreaker.cnt_ge PropBreaker.reading _ _ _ Hp Hrd). lia.
    + auto.
    + intros Hw. pose proof (PropBreaker.cnt_ge PropBreaker.writing _ _ _ Hp Hw). cbn in I2. lia.
Qed.

(** *** A finished call is a run of the generated body *)
Lemma closes_valid : forall t0 tr c i vs, run breaker_step (fresh t0) tr c -> In (OGet closes, ARet vs) (history i tr) ->
  vs = [VNil] \/ exists t, t <> base /\ vs = [VRef t].
Proof.
  intros t0 tr c i vs H. induction H as [|tr c1 l c2 HR IH HS]; [intros []|]. rewrite history_app. intros Hin.
  apply in_app_or in Hin. destruct Hin as [Hin|Hin]; [now apply IH|].
  destruct HS as [s e s' ps He|s ps p Hp|s ps j o' k a' s' Hi Hs]; cbn in Hin; try contradiction.
  destruct (Nat.eqb i j); [|destruct Hin]. destruct Hin as [E|[]]. injection E as -> ->.
  destruct (breaker_matches _ _ _ HR) as (ls & s1 & mk & _ & _ & Hrel). pose proof (r_valid _ _ _ _ _ Hrel) as Hv. cbn in Hv.
  inversion Hs; subst; [|congruence]. destruct (k_closes s') as [t|]; [right|now left].
  exists t. split; [congruence | reflexivity].
Qed.

Lemma looks_again : forall t0 tr c i x t vs, run breaker_step (fresh t0) tr c ->
  nth_error (history i tr) 0 = Some x -> nth_error (history i tr) 1 = Some (OGet closes, ARet [VRef t]) -> nth_error (history i tr) 2 = Some (OGet closes, ARet vs) ->
  exists u, vs = [VRef u].
Proof.
  intros t0 tr c i x t vs H. induction H as [|tr c1 l c2 HR IH HS]; [discriminate|]. rewrite history_app.
  destruct (Nat.lt_ge_cases 2 (length (history i tr))) as [L3|L3]; [rewrite !nth_error_app1 by lia; exact IH|].
  destruct HS as [s e s' ps He|s ps p Hp|s ps j o' k a' s' Hi Hs]; cbn [history]; rewrite ?app_nil_r; auto.
  destruct (Nat.eqb_spec i j) as [<-|N]; [|rewrite app_nil_r; exact IH].
  intros N0 N1 N2.
  assert (E : exists x1, history i tr = [x; x1]).
  { destruct (history i tr) as [|x0 [|x1 [|x2 h]]]; cbn in *; try discriminate; [|lia]. injection N0 as ->. eauto. }
  destruct E as (x1 & E). rewrite E in N1, N2. cbn in N1, N2. injection N1 as ->. injection N2 as -> ->.
  destruct (proj1 (sys_reaches _ _ _ _ _ _ HR) i _ Hi) as (p0 & (m & zeros & args & _ & _ & _ & _ & _ & _ & ->) & Hreach).
  rewrite E in Hreach. unfold breaker_prog, breaker_check in Hreach. cbn in Hreach.
  inversion Hreach as [|o1 k1 a1 h1 p1 Hr1]; subst. destruct a1; [|inversion Hr1..].
  inversion Hr1 as [|o2 k2 a2 h2 p2 Hr2]; subst. cbn in Hr2. inversion Hr2; subst.
  destruct (breaker_matches _ _ _ HR) as (ls & s1 & mk & _ & _ & Hrel). destruct (r_calls _ _ _ _ _ Hrel i _ Hi) as (pc & _ & Hat & Hh).
  match type of Hat with at_pc _ _ (Do _ ?f) _ => remember f as kk eqn:Ekk in Hat end.
  remember (Do (OGet closes) kk) as p eqn:Ep in Hat. remember (mk i) as mi in Hat, Hh.
  assert (Hsees : exists r, k_closes s = Some r).
  { destruct Hat as [| | | | | | | | | | | | |h0 vs0 l0| | | | | | | |]; cbn in Ep; try discriminate.
    - injection Ep as Ep. rewrite Ekk in Ep. apply (f_equal (fun f => f (ARet [VNil]))) in Ep. discriminate.
    - exact Hh.
    - destruct l0; cbn in Ep; injection Ep as Ep; congruence.
    - injection Ep as Ep. congruence. }
  destruct Hsees as (r & Er). inversion Hs; subst; [|congruence]. rewrite Er. now exists r.
Qed.

Theorem C62_breaker_is_run : forall name dec t0 tr c i r L, msg = (dec ++ ": circuit is open")%string ->
  ~ In name ["_lock"; "_maxConsecutiveErrors"; "_consecutiveErrors"; "_openInterval"; "_closesAt"; "_ignoreErrors"] ->
  run breaker_step (fresh t0) tr c -> nth_error (cf_calls c) i = Some (Ret r) ->
  exists W m zeros args, breaker_entry (tree (m_name m) zeros args) /\
    run_method W m [] L (circuitbreaker_body name dec m)
      (VRec [(name, VRef base); ("_lock", VRef lock); ("_maxConsecutiveErrors", VInt max); ("_consecutiveErrors", VRef errs);
             ("_openInterval", interval); ("_closesAt", VRef closes); ("_ignoreErrors", VSlice ignored)]) zeros args
    = (r, history i tr).
Proof.
  intros name dec t0 tr c i r L Emsg Hn H Hi.
  destruct (proj1 (sys_reaches _ _ _ _ _ _ H) i _ Hi) as (p0 & (m & zeros & args & H1 & H2 & H3 & H4 & H5 & H6 & ->) & Hr).
  pose proof (fun o a => call_sem t0 tr c i o a H) as Hans. cbv beta in Hans.
  exists (scripted (history i tr)), m, zeros, args. split; [exists m, zeros, args; tauto|].
  eapply finished_run; [exact Hr|]. rewrite Emsg. apply C62_breaker_call; try assumption.
  - intros tr1 args1 vs1 Hw1. apply scripted_in in Hw1. destruct Hw1 as (o1 & Hin1 & Hsim1).
    destruct o1 as [|rv f as1| | | |]; try discriminate. unfold similar in Hsim1. apply andb_prop in Hsim1. destruct Hsim1 as [Hb Hsim1].
    apply same_ref_ref in Hb. subst rv. apply andb_prop in Hsim1. destruct Hsim1 as [Hf _]. apply String.eqb_eq in Hf. subst f.
    destruct (Hans _ _ Hin1) as (s1 & s1' & Hs1). inversion Hs1; subst; congruence.
  - cbn. constructor; [exact Hn|]. repeat (constructor; [cbn; intuition discriminate|]). constructor.
  - intros tr1 vs Hw. apply scripted_in in Hw. destruct Hw as (o1 & Hin1 & Hsim1). destruct o1; try discriminate. apply Nat.eqb_eq in Hsim1. subst.
    eapply closes_valid; eassumption.
  - intros lv t vs tr1 Hw1 Hw2. apply scripted_ans in Hw1. destruct Hw1 as (o1 & N1 & S1). apply scripted_ans in Hw2. destruct Hw2 as (o2 & N2 & S2).
    destruct o1; try discriminate. destruct o2; try discriminate. apply Nat.eqb_eq in S1, S2. subst. cbn in N1, N2.
    destruct (history i tr) as [|x0 h0] eqn:Eh; [discriminate|].
    destruct (looks_again t0 tr c i x0 t vs H) as (u & ->); try (rewrite Eh; auto).
    exists u. split; [|reflexivity]. destruct (closes_valid t0 tr c i [VRef u] H) as [E|(u' & A & E)]; try congruence.
    rewrite Eh. apply (nth_error_In _ 2). exact N2.
  - intros tr1 vs Hw. apply scripted_in in Hw. destruct Hw as (o1 & Hin1 & Hsim1). destruct o1; try discriminate. apply Nat.eqb_eq in Hsim1. subst.
    destruct (Hans _ _ Hin1) as (s1 & s1' & Hs1). inversion Hs1; subst; [congruence | eauto].
  - intros tr1 vs Hw. apply scripted_in in Hw. destruct Hw as (o1 & Hin1 & Hsim1). destruct o1; try discriminate.
    unfold similar, time_now in Hsim1. apply andb_prop in Hsim1. destruct Hsim1 as [Hf Hl]. apply same_ref_pkg in Hf. subst f.
    destruct args0; [|discriminate]. destruct (Hans _ _ Hin1) as (s1 & s1' & Hs1). inversion Hs1; subst. exists t. split; [congruence | reflexivity].
  - intros tr1 t x vs Ht Hw. apply scripted_in in Hw. destruct Hw as (o1 & Hin1 & Hsim1). destruct o1 as [|rv f as1| | | |]; try discriminate.
    unfold similar in Hsim1. apply andb_prop in Hsim1. destruct Hsim1 as [Hb Hsim1]. apply same_ref_ref in Hb. subst rv.
    apply andb_prop in Hsim1. destruct Hsim1 as [Hf Hl]. apply String.eqb_eq in Hf. subst f.
    destruct (Hans _ _ Hin1) as (s1 & s1' & Hs1). inversion Hs1; subst; eauto; contradiction.
  - intros tr1 t x vs Ht Hw. apply scripted_in in Hw. destruct Hw as (o1 & Hin1 & Hsim1). destruct o1 as [|rv f as1| | | |]; try discriminate.
    unfold similar in Hsim1. apply andb_prop in Hsim1. destruct Hsim1 as [Hb Hsim1]. apply same_ref_ref in Hb. subst rv.
    apply andb_prop in Hsim1. destruct Hsim1 as [Hf Hl]. apply String.eqb_eq in Hf. subst f.
    destruct (Hans _ _ Hin1) as (s1 & s1' & Hs1). inversion Hs1; subst; eauto; contradiction.
  - intros tr1 x vs Hw. apply scripted_in in Hw. destruct Hw as (o1 & Hin1 & Hsim1). destruct o1; try discriminate.
    unfold similar in Hsim1. apply andb_prop in Hsim1. destruct Hsim1 as [Hf Hl]. apply same_ref_pkg in Hf. subst f.
    destruct (Hans _ _ Hin1) as (s1 & s1' & Hs1). inversion Hs1; subst. eauto.
  - intros tr1 x y vs Hw. apply scripted_in in Hw. destruct Hw as (o1 & Hin1 & Hsim1). destruct o1; try discriminate.
    unfold similar in Hsim1. apply andb_prop in Hsim1. destruct Hsim1 as [Hf Hl]. apply same_ref_pkg in Hf. subst f.
    destruct (Hans _ _ Hin1) as (s1 & s1' & Hs1). inversion Hs1; subst. eauto.
Qed.
End MANY.

(** ** An execution: at most one error in a row; the first call's error trips
    the breaker for 100 units, the second call comes 20 units later and is
    rejected *)
Definition ex_inst (n : nat) : option Z :=
  if Nat.ltb n 10 then None
  else let k := n - 10 in Some (if Nat.even k then Z.of_nat (k / 2) else - Z.of_nat (k / 2) - 1)%Z.

Lemma ex_inst_all : forall z, exists t, ex_inst t = Some z.
Proof.
  intros z. destruct (Z.le_gt_cases 0 z) as [H|H].
  - exists (10 + 2 * Z.to_nat z). unfold ex_inst. rewrite (proj2 (Nat.ltb_ge _ _)) by lia.
    replace (10 + 2 * Z.to_nat z - 10) with (2 * Z.to_nat z) by lia. rewrite Nat.even_mul. cbn [Nat.even orb].
    rewrite Nat.mul_comm, Nat.div_mul by lia. f_equal. lia.
  - exists (10 + (2 * Z.to_nat (- z - 1) + 1)). unfold ex_inst. rewrite (proj2 (Nat.ltb_ge _ _)) by lia.
    replace (10 + (2 * Z.to_nat (- z - 1) + 1) - 10) with (1 + Z.to_nat (- z - 1) * 2) by lia.
    rewrite Nat.even_add, Nat.even_mul. cbn [Nat.even]. rewrite orb_true_r. cbn [eqb].
    rewrite Nat.div_add by lia. cbn [Nat.div Nat.divmod fst Nat.sub]. f_equal. lia.
Qed.

Definition ex_args : list val := [VRef 5; VInt 7; VInt 8; VSlice []].
Definition ex_breaker_events : list (event unit) :=
  [EvCall;
   EvDo 0 (on_lock 2 "RLock") (ARet []); EvDo 0 (OGet 4) (ARet [VNil]); EvDo 0 (on_lock 2 "RUnlock") (ARet []);
   EvDo 0 (OMeth (VRef 1) "Do" ex_args) (ARet [VString "s"; VRef 7]);
   EvCall;
   EvDo 0 (on_lock 2 "Lock") (ARet []); EvDo 0 (OCall (VPkg "errors.Is") [VRef 7; VRef 8]) (ARet [VBool false]);
   EvDo 0 (OGet 3) (ARet [VInt 0]); EvDo 0 (OSet 3 (VInt 1)) (ARet []); EvDo 0 (OGet 3) (ARet [VInt 1]);
   EvDo 0 time_now (ARet [VRef 10]); EvDo 0 (OMeth (VRef 10) "Add" [VInt 100]) (ARet [VRef 210]);
   EvDo 0 (OSet 4 (VRef 210)) (ARet []); EvDo 0 (on_lock 2 "Unlock") (ARet []);
   EvEnv tt;
   EvDo 1 (on_lock 2 "RLock") (ARet []); EvDo 1 (OGet 4) (ARet [VRef 210]); EvDo 1 (OGet 4) (ARet [VRef 210]);
   EvDo 1 time_now (ARet [VRef 50])].
Definition ex_breaker_rest : list (event unit) :=
  [EvDo 1 (OMeth (VRef 210) "After" [VRef 50]) (ARet [VBool true]);
   EvDo 1 (on_lock 2 "RUnlock") (ARet []); EvDo 1 (OCall (VPkg "errors.New") [VString "D: circuit is open"]) (ARet [VInt 99])].

Notation ex_breaker_step := (sys_step (breaker_sem 1 2 3 4 (fun _ => 2) ex_inst (fun _ _ => false)) breaker_env
    (breaker_entry 1 2 3 4 "D: circuit is open" 1 100 [VRef 8] (fun _ => 2))).

Example C62_breaker_nontrivial :
  (exists c, run ex_breaker_step (fresh 0) (ex_breaker_events ++ ex_breaker_rest) c /\
      cf_calls c = [Ret (Val [VString "s"; VRef 7]); Ret (Val [VString ""; VInt 99])]) /\
  done_calls 1 2 [VRef 8] ex_inst (fun _ _ => false) ex_breaker_events [(Breaker.Counted, 0%Z)] /\
  PropBreaker.open_at 1 100 [(Breaker.Counted, 0%Z)] 20 /\ (forall z, exists t, ex_inst t = Some z).
Proof.
  assert (He : breaker_entry 1 2 3 4 "D: circuit is open" 1 100 [VRef 8] (fun _ => 2)
                 (breaker_prog 2 3 4 "D: circuit is open" 1 (VInt 100) [VRef 8] (OMeth (VRef 1) "Do" ex_args) [VString ""; VNil])).
  { exists ex_m, [VString ""; VNil], ex_args. split; [eapply NewMethod_wf, ex_NewMethod|].
    split; [intros x Hx Hin; cbn in Hx, Hin; intuition (subst; discriminate)|].
    repeat split; reflexivity. }
  split; [|split; [|split; [|exact ex_inst_all]]].
  - eexists. unfold ex_breaker_events, ex_breaker_rest, fresh. cbn [app]. split.
    + eapply run_cons; [apply y_call; exact He|]; cbn [app].
      eapply run_cons; [eapply y_do; [reflexivity | apply ks_rlock]|]; cbn [upd].
      eapply run_cons; [eapply y_do; [reflexivity | apply ks_closes]|]; cbn [upd].
      eapply run_cons; [eapply y_do; [reflexivity | apply ks_runlock]|]; cbn [upd].
      eapply run_cons; [eapply y_do; [reflexivity | apply ks_base; reflexivity]|]; cbn [upd].
      eapply run_cons; [apply y_call; exact He|]; cbn [app].
      eapply run_cons; [eapply y_do; [reflexivity | apply ks_lock]|]; cbn [upd].
      eapply run_cons; [eapply y_do; [reflexivity | apply ks_is]|]; cbn [upd].
      eapply run_cons; [eapply y_do; [reflexivity | apply ks_errs]|]; cbn [upd].
      eapply run_cons; [eapply y_do; [reflexivity | apply ks_set_errs]|]; cbn [upd].
      eapply run_cons; [eapply y_do; [reflexivity | apply ks_errs]|]; cbn [upd].
      eapply run_cons; [eapply y_do; [reflexivity | apply ks_now; reflexivity]|]; cbn [upd].
      eapply run_cons; [eapply y_do; [reflexivity | eapply (ks_add _ _ _ _ _ _ _ _ _ 0); reflexivity]|]; cbn [upd].
      eapply run_cons; [eapply y_do; [reflexivity | apply (ks_set_closes _ _ _ _ _ _ _ _ _ _ _ _ (Some 210))]|]; cbn [upd].
      eapply run_cons; [eapply y_do; [reflexivity | apply ks_unlock]|]; cbn [upd].
      eapply run_cons; [apply y_env; apply (ke_clock _ _ _ _ _ 20); lia|].
      eapply run_cons; [eapply y_do; [reflexivity | apply ks_rlock]|]; cbn [upd].
      eapply run_cons; [eapply y_do; [reflexivity | apply ks_closes]|]; cbn [upd].
      eapply run_cons; [eapply y_do; [reflexivity | apply ks_closes]|]; cbn [upd].
      eapply run_cons; [eapply y_do; [reflexivity | apply ks_now; reflexivity]|]; cbn [upd].
      eapply run_cons; [eapply y_do; [reflexivity | apply (ks_after _ _ _ _ _ _ _ _ 210 100 50 20); reflexivity]|]; cbn [upd].
      eapply run_cons; [eapply y_do; [reflexivity | apply ks_runlock]|]; cbn [upd].
      eapply run_cons; [eapply y_do; [reflexivity | apply ks_new]|]; cbn [upd].
      apply run_nil.
    + reflexivity.
  - unfold ex_breaker_events.
    assert (S : forall pre l h, done_calls 1 2 [VRef 8] ex_inst (fun _ _ => false) pre h ->
              Forall (fun e => forall i a, e <> EvDo i (on_lock 2 "Unlock") a) l -> done_calls 1 2 [VRef 8] ex_inst (fun _ _ => false) (pre ++ l) h).
    { intros pre l. revert pre. induction l as [|e l IH]; intros pre h Hd HF; [now rewrite app_nil_r|].
      inversion HF; subst. change (e :: l) with ([e] ++ l). rewrite app_assoc. apply IH; [now apply dc_other | assumption]. }
    match goal with |- done_calls _ _ _ _ _ ?l _ => change l with ((firstn 14 l ++ [EvDo 0 (on_lock 2 "Unlock") (ARet [])]) ++ skipn 15 l) end.
    apply S; [|repeat constructor; discriminate].
    change [(Breaker.Counted, 0%Z)] with ([] ++ [(verdict [VRef 8] (fun _ _ => false) (last [VString "s"; VRef 7] VNil), 0%Z)]).
    apply dc_done.
    + apply (S [] _ []); [constructor|]. repeat constructor; discriminate.
    + reflexivity.
    + intros h0 u x y E. apply (f_equal (fun l => nth_error (rev l) 2)) in E. rewrite rev_app_distr in E. cbn in E. injection E as <-. reflexivity.
  - exists [], [], 0%Z. repeat split; try constructor; cbn; lia.
Qed.

Print Assumptions C62_breaker_call.
Print Assumptions C62_breaker.
Print Assumptions C62_breaker_open.
Print Assumptions C62_breaker_closed.
Print Assumptions C62_breaker_finished.
Print Assumptions C62_breaker_no_deadlock.
Print Assumptions C62_breaker_is_run.
