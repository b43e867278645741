(** Property C62, for templates/syncpool: the transition system of SyncPool.v
    has an execution for every execution of generated calls, so that C43 holds
    of the generated code itself. *)
From Verif Require Import Threads Pools PropNaming.
From Verif Require SyncPool PropSyncPool.
From Coq Require Import Permutation.
Open Scope nat_scope.

(** ** One call: lines 26-31 of /repo/templates/syncpool *)
Definition impl_of (l : list val) : nat := match l with [_; VRef i] => i | _ => 0 end.

Definition syncpool_prog (pool : nat) (nm : string) (args : list val) : prog :=
  lift (syncpool_before (VRef pool)) give_up (fun i =>
    Do (OMeth (VRef i) nm args) (fun a =>
      match a with
      | ABlock => Ret Blk
      | _ => lift (syncpool_after (VRef pool) i) give_up (fun _ => Ret (outcome_of a))
      end)).

Section ONE.
Variable W : gworld.
Variable m : method.
Variable L : nat.
Variable pool : nat.
Variables (zeros args : list val).
Hypothesis Hwf : wf_method m.
Hypothesis Hhyg : hygienic m ["_impl"].
Hypothesis Hz : length zeros = length (m_results m).
Hypothesis Ha : length args = length (m_params m).
Hypothesis Hpool : forall tr vs, w_ans W tr (OSelect [VRef pool]) = ARet vs -> exists i, vs = [VInt 0; VRef i] /\ base_typed W m i.

(** The generated body plays this tree. *)
Theorem C62_syncpool_call :
  run_method W m [] L (syncpool_body m) (VRec [("pool", VRef pool)]) zeros args = play W [] (syncpool_prog pool (m_name m) args).
Proof.
  apply follows_play. pose proof (syncpool_meets W m L pool zeros args Hwf Hhyg Hz Ha Hpool) as H.
  destruct (run_method W m [] L (syncpool_body m) _ zeros args) as [r tr]. unfold syncpool_prog, follows.
  destruct H as [tr v H|tr H|tr x H|tr x a tr2 b r H Hne H2 Hf].
  - exact (lift_pan _ give_up _ _ _ H).
  - apply (lift_blk _ _ _ _ H).
  - eapply reaches_trans; [apply (lift_val _ _ _ _ _ H)|]. cbv beta. apply R_do, R_here.
  - eapply reaches_trans; [apply (lift_val _ _ _ _ _ H)|]. cbv beta. apply R_do.
    assert (G : reaches (lift (syncpool_after (VRef pool) x) give_up (fun _ => Ret (outcome_of a))) tr2 (Ret r)).
    { destruct b as [u|v| | |]; cbn in Hf; try contradiction.
      - apply ends_outcome in Hf. subst r. exact (lift_val _ _ (fun _ => Ret _) _ _ H2).
      - subst r. exact (lift_pan _ give_up _ _ _ H2).
      - subst r. apply (lift_blk _ _ _ _ H2). }
    destruct a; [exact G | exact G | now destruct Hne].
Qed.
End ONE.

(** ** Many calls *)
Section MANY.
Variable pool : nat.                   (* the channel *)
Variable impls : list nat.             (* the implementations given to the constructor *)
Variable arity : string -> nat.        (* number of results of each method *)

(** the channel, with room for all the implementations (lines 15-18), and the
    implementations, which may return or panic when they like *)
Inductive pool_sem : list nat -> op -> ans -> list nat -> Prop :=
| ps_take x q : pool_sem (x :: q) (OSelect [VRef pool]) (ARet [VInt 0; VRef x]) q
| ps_give x q : length q < length impls -> pool_sem q (OSend (VRef pool) (VRef x)) (ARet []) (q ++ [x])
| ps_base x nm args vs q : length vs = arity nm -> pool_sem q (OMeth (VRef x) nm args) (ARet vs) q
| ps_panic x nm args v q : pool_sem q (OMeth (VRef x) nm args) (APan v) q.

Definition pool_entry (p : prog) : Prop := exists m args,
  wf_method m /\ hygienic m ["_impl"] /\ length args = length (m_params m) /\
  length (m_results m) = arity (m_name m) /\ p = syncpool_prog pool (m_name m) args.

Notation pool_step := (sys_step pool_sem (fun _ (e : Empty_set) _ => False) pool_entry).
Definition fresh : conf (list nat) := Conf impls [].

(** which labels stand for an event *)
Inductive pool_means : event Empty_set -> list SyncPool.label -> Prop :=
| pm_call : pool_means EvCall [SyncPool.Call]
| pm_take i ch z x r : nth_error impls x = Some r -> pool_means (EvDo i (OSelect ch) (ARet [z; VRef r])) [SyncPool.Take i x]
| pm_ret i o nm args vs : pool_means (EvDo i (OMeth o nm args) (ARet vs)) [SyncPool.Done i false]
| pm_pan i o nm args v : pool_means (EvDo i (OMeth o nm args) (APan v)) [SyncPool.Done i true]
| pm_give i ch x r a : nth_error impls x = Some r -> pool_means (EvDo i (OSend ch (VRef r)) a) [SyncPool.GiveBack i x].

Definition panicked (r : out (list val)) : bool := match r with Pan _ => true | _ => false end.

(** where a call is in its tree *)
Inductive at_pc : SyncPool.pc -> prog -> Prop :=
| ap_take nm args : at_pc SyncPool.AtTake (syncpool_prog pool nm args)
| ap_using x r nm args : nth_error impls x = Some r ->
    at_pc (SyncPool.Using x) (Do (OMeth (VRef r) nm args) (fun a =>
      match a with
      | ABlock => Ret Blk
      | _ => lift (syncpool_after (VRef pool) r) give_up (fun _ => Ret (outcome_of a))
      end))
| ap_return x r o : nth_error impls x = Some r ->
    at_pc (SyncPool.AtReturn x (panicked o)) (lift (syncpool_after (VRef pool) r) give_up (fun _ => Ret o))
| ap_returned o : at_pc (SyncPool.Returned (panicked o)) (Ret o).

Definition pool_rel (c : conf (list nat)) (s : SyncPool.state) : Prop :=
  SyncPool.cap (SyncPool.pool s) = length impls /\
  Forall2 (fun (x r : nat) => nth_error impls x = Some r) (SyncPool.items (SyncPool.pool s)) (cf_shared c) /\
  Forall2 at_pc (SyncPool.calls s) (cf_calls c).

Lemma pool_simulates : forall c e c' s, pool_rel c s -> pool_step c e c' ->
  exists l s', pool_means e l /\ run SyncPool.step s l s' /\ pool_rel c' s'.
Proof.
  intros c e c' s (RC & RI & RT) HS. destruct s as [ch cs]. cbn [SyncPool.pool SyncPool.calls] in *.
  destruct HS as [q h q' ps []|q ps p (m & args & _ & _ & _ & _ & ->)|q ps i o k a q' Hi Hs]; cbn [cf_shared cf_calls] in *.
  - eexists _, _. split; [constructor|]. split; [apply run_one, SyncPool.s_call|].
    split; [exact RC|]. split; [exact RI|]. cbn. apply Forall2_snoc; [exact RT | constructor].
  - destruct (Forall2_nth_r _ _ _ _ _ RT Hi) as (pc & Hp & Hat). remember (Do o k) as p eqn:Ep.
    destruct Hat as [nm args|x r nm args Hx|x r out Hx|out]; [| | |discriminate].
    + unfold syncpool_prog in Ep. cbn in Ep. injection Ep as <- <-. inversion Hs; subst.
      inversion RI as [|x0 r0 xs rs Hr RI']; subst. destruct ch as [its cap]. cbn in *. subst its.
      eexists _, _. split; [eapply pm_take; exact Hr|]. split; [apply run_one; eapply SyncPool.s_take; [exact Hp | reflexivity]|].
      split; [exact RC|]. split; [exact RI'|]. cbn. apply Forall2_upd; [exact RT|]. now constructor.
    + injection Ep as <- <-. inversion Hs; subst.
      * eexists _, _. split; [constructor|]. split; [apply run_one; eapply SyncPool.s_done; exact Hp|].
        split; [exact RC|]. split; [exact RI|]. cbn. apply Forall2_upd; [exact RT|].
        apply (ap_return x r (Val vs)). exact Hx.
      * eexists _, _. split; [constructor|]. split; [apply run_one; eapply SyncPool.s_done; exact Hp|].
        split; [exact RC|]. split; [exact RI|]. cbn. apply Forall2_upd; [exact RT|].
        apply (ap_return x r (Pan v)). exact Hx.
    + cbn in Ep. injection Ep as <- <-. inversion Hs; subst.
      assert (E : SyncPool.send x ch = Some (SyncPool.Chan (SyncPool.items ch ++ [x]) (SyncPool.cap ch))).
      { unfold SyncPool.send. rewrite RC. assert (El : length (SyncPool.items ch) = length q) by (eapply Forall2_length; exact RI). rewrite El. destruct (Nat.ltb_spec (length q) (length impls)); [reflexivity | lia]. }
      eexists _, _. split; [eapply pm_give; exact Hx|]. split; [apply run_one; eapply SyncPool.s_give; [exact Hp | exact E]|].
      split; [exact RC|]. split; [apply Forall2_snoc; assumption|]. cbn. apply Forall2_upd; [exact RT|]. constructor.
Qed.

(** Every execution of generated calls is an execution of the model that C43 is
    about, with the same takes, ends and returns. *)
Theorem C62_syncpool : forall tr c, run pool_step fresh tr c ->
  exists ls s, matched pool_means tr ls /\
    run SyncPool.step (SyncPool.State (SyncPool.Chan (seq 0 (length impls)) (length impls)) []) ls s /\ pool_rel c s.
Proof.
  intros tr c H. eapply (simulation pool_sem _ pool_entry SyncPool.step pool_means pool_rel fresh); [| |exact H].
  - unfold pool_rel, fresh. cbn. split; [reflexivity|]. split; [apply seq_positions | constructor].
  - intros tr0 c0 e c' ls s _ _ Hrel Hst. now apply (pool_simulates c0).
Qed.

(** *** C43 for generated calls *)

(** the implementation a call has taken and not given back, read off the
    operations it did *)
Definition in_use (h : trace) : list nat :=
  match h with
  | [(OSelect _, ARet [_; VRef x])] => [x]
  | [(OSelect _, ARet [_; VRef x]); (OMeth _ _ _, _)] => [x]
  | _ => []
  end.

Lemma at_pc_used : forall p h q x, pool_entry p -> reaches p h q -> (forall o a, In (o, a) h -> exists s s', pool_sem s o a s') ->
  at_pc x q -> Forall2 (fun (x r : nat) => nth_error impls x = Some r) (PropSyncPool.holds x) (in_use h).
Proof.
  intros p h q x (m & args & _ & _ & _ & _ & ->) Hr Hans Hat. unfold syncpool_prog in Hr. cbn in Hr.
  inversion Hr as [p0 E|o k a h1 p1 Hr1 E1]; subst.
  - cbn. inversion Hat; subst; constructor.
  - destruct (Hans _ _ (or_introl eq_refl)) as (s & s' & Hs). inversion Hs; subst. cbn in Hr1.
    inversion Hr1 as [p0 E|o k a h2 p2 Hr2 E2]; subst.
    + inversion Hat; subst. cbn. constructor; [|constructor]. assumption.
    + destruct (Hans _ _ (or_intror (or_introl eq_refl))) as (s2 & s2' & Hs2). inversion Hs2; subst; cbn in Hr2.
      * inversion Hr2 as [p0 E|o k a h3 p3 Hr3 E3]; subst.
        -- inversion Hat; subst. cbn. constructor; [|constructor]. assumption.
        -- destruct (Hans _ _ (or_intror (or_intror (or_introl eq_refl)))) as (s3 & s3' & Hs3). inversion Hs3; subst. cbn in Hr3.
           inversion Hr3; subst. inversion Hat; subst. cbn. constructor.
      * inversion Hr2 as [p0 E|o k a h3 p3 Hr3 E3]; subst.
        -- inversion Hat; subst. cbn. constructor; [|constructor]. assumption.
        -- destruct (Hans _ _ (or_intror (or_intror (or_introl eq_refl)))) as (s3 & s3' & Hs3). inversion Hs3; subst. cbn in Hr3.
           inversion Hr3; subst. inversion Hat; subst. cbn. constructor.
Qed.

(** all the implementations in use *)
Definition all_in_use (tr : list (event Empty_set)) (n : nat) : list nat := flat_map (fun i => in_use (history i tr)) (seq 0 n).

Lemma nth_map_perm : forall l : list nat, Permutation l (seq 0 (length impls)) ->
  forall rs, Forall2 (fun (x r : nat) => nth_error impls x = Some r) l rs -> Permutation rs impls.
Proof.
  intros l P rs H.
  assert (E : forall l rs, Forall2 (fun (x r : nat) => nth_error impls x = Some r) l rs -> rs = map (fun x => nth x impls 0) l).
  { intros l0 rs0 H0. induction H0 as [|x r l0 rs0 Hx H0 IH]; [reflexivity|]. cbn. rewrite (nth_error_nth _ _ 0 Hx). now f_equal. }
  rewrite (E _ _ H). rewrite (Permutation_map _ P). rewrite <- (E _ _ (seq_positions impls)). reflexivity.
Qed.

Lemma held_used : forall (cs : list SyncPool.pc) (hs : list trace),
  Forall2 (fun x h => Forall2 (fun (x r : nat) => nth_error impls x = Some r) (PropSyncPool.holds x) (in_use h)) cs hs ->
  Forall2 (fun (x r : nat) => nth_error impls x = Some r) (PropSyncPool.held cs) (flat_map in_use hs).
Proof. intros cs hs H. induction H; cbn; [constructor|]. apply Forall2_app; assumption. Qed.

(** At every moment every implementation is either in the channel or in use by
    exactly one call. *)
Theorem C62_syncpool_exclusive : forall tr c, run pool_step fresh tr c ->
  Permutation (cf_shared c ++ all_in_use tr (length (cf_calls c))) impls.
Proof.
  intros tr c H. destruct (C62_syncpool tr c H) as (ls & s & _ & HR & (RC & RI & RT)).
  assert (Hinv : PropSyncPool.inv (length impls) s).
  { apply (run_inv SyncPool.step (fun _ => PropSyncPool.inv (length impls))) in HR; [exact HR| |].
    - unfold PropSyncPool.inv; cbn. split; [reflexivity | now rewrite app_nil_r].
    - intros ? ? ? ? _ Hi Hs. eapply PropSyncPool.inv_step; eauto. }
  destruct Hinv as (_ & P). eapply nth_map_perm; [exact P|]. apply Forall2_app; [exact RI|].
  unfold all_in_use. rewrite <- flat_map_map. apply held_used.
  assert (El : length (SyncPool.calls s) = length (cf_calls c)) by (eapply Forall2_length; exact RT).
  rewrite <- El. apply Forall2_seq. intros i pc Hi. destruct (Forall2_nth_l _ _ _ _ _ RT Hi) as (q & Hq & Hat).
  destruct (proj1 (sys_reaches _ _ _ _ _ _ H) i q Hq) as (p & Hp & Hr).
  eapply at_pc_used; [exact Hp | exact Hr | | exact Hat].
  intros o a Hin. eapply sys_answers; [exact H | exact Hin].
Qed.

Lemma in_split_flat : forall (f : nat -> list nat) l i j x, NoDup l -> In i l -> In j l -> i <> j -> In x (f i) -> In x (f j) ->
  ~ NoDup (flat_map f l).
Proof.
  intros f l i j x Hl Hi Hj Hn Hx Hy. induction l as [|k l IH]; [destruct Hi|]. inversion Hl as [|? ? Hk Hl']; subst.
  cbn. intros ND.
  assert (G : forall u v : list nat, NoDup (u ++ v) -> In x u -> In x v -> False).
  { clear. induction u as [|y u IH]; intros v ND Hu Hv; [contradiction|]. cbn in ND. apply NoDup_cons_iff in ND.
    destruct ND as (NI & ND). destruct Hu as [->|Hu]; [apply NI, in_or_app; auto | eapply IH; eauto]. }
  destruct Hi as [->|Hi], Hj as [->|Hj].
  - now apply Hn.
  - eapply G; [exact ND | exact Hx|]. apply in_flat_map. eauto.
  - eapply G; [exact ND | exact Hy|]. apply in_flat_map. eauto.
  - apply IH; auto. clear -ND. induction (f k) as [|y u IH]; [exact ND|]. cbn in ND. apply NoDup_cons_iff in ND. apply IH, ND.
Qed.

(** ... so two calls never use one implementation at the same time, if the
    constructor was not given it twice. *)
Theorem C62_syncpool_never_shared : forall tr c i j x, NoDup impls -> run pool_step fresh tr c ->
  In x (in_use (history i tr)) -> In x (in_use (history j tr)) -> i = j.
Proof.
  intros tr c i j x HN H Hi Hj. destruct (Nat.eq_dec i j) as [E|E]; [exact E|]. exfalso.
  assert (P := C62_syncpool_exclusive tr c H).
  assert (ND : NoDup (all_in_use tr (length (cf_calls c)))).
  { assert (N2 : NoDup (cf_shared c ++ all_in_use tr (length (cf_calls c)))) by (rewrite P; exact HN).
    clear -N2. induction (cf_shared c) as [|y u IH]; [exact N2|]. cbn in N2. apply NoDup_cons_iff in N2. apply IH, N2. }
  assert (B : forall k, In x (in_use (history k tr)) -> In k (seq 0 (length (cf_calls c)))).
  { intros k Hk. apply in_seq. split; [lia|]. destruct (Nat.lt_ge_cases k (length (cf_calls c))) as [Hlt|Hge]; [exact Hlt|].
    rewrite (proj2 (sys_reaches _ _ _ _ _ _ H) k Hge) in Hk. destruct Hk. }
  revert ND. apply (in_split_flat _ _ i j x); auto. apply seq_NoDup.
Qed.

(** A call that wants to give its implementation back is never blocked. *)
Theorem C62_syncpool_give_back : forall tr c i ch x k, run pool_step fresh tr c ->
  nth_error (cf_calls c) i = Some (Do (OSend ch (VRef x)) k) ->
  exists c', pool_step c (EvDo i (OSend ch (VRef x)) (ARet [])) c'.
Proof.
  intros tr c i ch x k H Hi. pose proof (C62_syncpool_exclusive tr c H) as P.
  destruct (C62_syncpool tr c H) as (ls & s & _ & HR & (RC & RI & RT)).
  destruct (Forall2_nth_r _ _ _ _ _ RT Hi) as (pc & Hpc & Hat).
  destruct (proj1 (sys_reaches _ _ _ _ _ _ H) i _ Hi) as (p & Hp & Hr).
  assert (Hu := at_pc_used _ _ _ _ Hp Hr (fun o a Hin => sys_answers _ _ _ _ _ _ _ _ _ H Hin) Hat).
  assert (Hh : exists y, PropSyncPool.holds pc = [y] /\ ch = VRef pool).
  { inversion Hat; subst. eexists. split; reflexivity. }
  destruct Hh as (y & Eh & ->). rewrite Eh in Hu. destruct c as [q ps]. cbn [cf_shared cf_calls] in *.
  eexists. eapply y_do; [exact Hi|]. apply ps_give.
  apply Permutation_length in P. rewrite app_length in P.
  assert (1 <= length (all_in_use tr (length ps))); [|lia].
  inversion Hu as [|? z ? zs _ _ Ez1 Ez2]; subst.
  assert (Hin : In z (all_in_use tr (length ps))).
  { apply in_flat_map. exists i. split; [apply in_seq; apply nth_lt in Hi; lia|]. rewrite <- Ez2. now left. }
  destruct (all_in_use tr (length ps)); [destruct Hin | cbn; lia].
Qed.

(** A call that waits for an implementation is blocked only while all of them
    are in use. *)
Theorem C62_syncpool_waits : forall tr c i chs k, run pool_step fresh tr c ->
  nth_error (cf_calls c) i = Some (Do (OSelect chs) k) ->
  (exists x c', pool_step c (EvDo i (OSelect chs) (ARet [VInt 0; VRef x])) c') \/
  Permutation (all_in_use tr (length (cf_calls c))) impls.
Proof.
  intros tr c i chs k H Hi. pose proof (C62_syncpool_exclusive tr c H) as P.
  destruct (C62_syncpool tr c H) as (ls & s & _ & HR & (RC & RI & RT)).
  destruct (Forall2_nth_r _ _ _ _ _ RT Hi) as (pc & Hpc & Hat).
  assert (chs = [VRef pool]) as ->.
  { inversion Hat; subst. reflexivity. }
  destruct c as [[|x q] ps]; cbn [cf_shared cf_calls] in *; [now right|]. left. eexists x, _. eapply y_do; [exact Hi|]. constructor.
Qed.

(** What a finished call did: it took an implementation, called it once with
    its own arguments, put the same one back, and answered what it answered. *)
Theorem C62_syncpool_finished : forall tr c i r, run pool_step fresh tr c ->
  nth_error (cf_calls c) i = Some (Ret r) ->
  exists m args x a, pool_entry (syncpool_prog pool (m_name m) args) /\ In x impls /\ a <> ABlock /\
    history i tr = [(OSelect [VRef pool], ARet [VInt 0; VRef x]); (OMeth (VRef x) (m_name m) args, a); (OSend (VRef pool) (VRef x), ARet [])] /\
    r = outcome_of a.
Proof.
  intros tr c i r H Hi. destruct (proj1 (sys_reaches _ _ _ _ _ _ H) i _ Hi) as (p & (m & args & H1 & H2 & H3 & H4 & ->) & Hr).
  assert (Hans : forall o a, In (o, a) (history i tr) -> exists s s', pool_sem s o a s')
    by (intros o a Hin; eapply sys_answers; [exact H | exact Hin]).
  assert (Htake : forall tr c, run pool_step fresh tr c -> forall i ch z x, In (EvDo i (OSelect ch) (ARet [z; VRef x])) tr -> In x impls).
  { clear. intros tr c HR. induction HR as [|tr c1 e c2 HR IH HS]; [intros i ch z x []|]. intros i ch z x Hin.
    apply in_app_or in Hin. destruct Hin as [Hin|[->|[]]]; [eapply IH; exact Hin|].
    pose proof (C62_syncpool_exclusive _ _ HR) as P. inversion HS as [| |s ps j o k a s' Hj Hs]; subst. inversion Hs; subst.
    cbn [cf_shared] in P. eapply Permutation_in; [exact P|]. now left. }
  assert (Hhist : forall tr i o a, In (o, a) (@history Empty_set i tr) -> In (EvDo i o a) tr).
  { clear. intros tr i o a. induction tr as [|[e| |j o' a'] tr IH]; cbn [history]; intros Hin; [destruct Hin|right; auto|right; auto|].
    destruct (Nat.eqb_spec i j) as [->|_]; [|right; auto]. destruct Hin as [E|Hin]; [|right; auto]. injection E as -> ->. now left. }
  specialize (Hhist tr i). revert Hr Hans Hhist. generalize (history i tr). intros h Hr Hans Hhist. unfold syncpool_prog in Hr. cbn in Hr. inversion Hr as [|o1 k1 a1 h1 p1 Hr1]; subst o1 k1 p1 h.
  destruct (Hans _ _ (or_introl eq_refl)) as (s & s' & Hs). inversion Hs; subst a1. cbn in Hr1.
  inversion Hr1 as [|o2 k2 a2 h2 p2 Hr2]; subst o2 k2 p2 h1.
  destruct (Hans _ _ (or_intror (or_introl eq_refl))) as (s2 & s2' & Hs2).
  assert (Hin : In x impls).
  { eapply (Htake _ _ H i). apply Hhist. now left. }
  exists m, args, x, a2. split; [exists m, args; tauto|]. split; [exact Hin|].
  inversion Hs2; subst a2; cbn in Hr2; inversion Hr2 as [|o3 k3 a3 h3 p3 Hr3]; subst o3 k3 p3 h2;
    destruct (Hans _ _ (or_intror (or_intror (or_introl eq_refl)))) as (s3 & s3' & Hs3); inversion Hs3; subst a3; cbn in Hr3;
    inversion Hr3; (split; [discriminate|]); split; reflexivity.
Qed.

(** ... and that is a run of the generated body. *)
Theorem C62_syncpool_is_run : forall tr c i r L, run pool_step fresh tr c ->
  nth_error (cf_calls c) i = Some (Ret r) ->
  exists W m args, pool_entry (syncpool_prog pool (m_name m) args) /\
    forall zeros, length zeros = length (m_results m) ->
    run_method W m [] L (syncpool_body m) (VRec [("pool", VRef pool)]) zeros args = (r, history i tr).
Proof.
  intros tr c i r L H Hi. destruct (proj1 (sys_reaches _ _ _ _ _ _ H) i _ Hi) as (p & (m & args & H1 & H2 & H3 & H4 & ->) & Hr).
  assert (Hans : forall o a, In (o, a) (history i tr) -> exists s s', pool_sem s o a s')
    by (intros o a Hin; eapply sys_answers; [exact H | exact Hin]).
  exists (scripted (history i tr)), m, args. split; [exists m, args; tauto|]. intros zeros Hz.
  eapply finished_run; [exact Hr|]. apply C62_syncpool_call; try assumption.
  intros tr0 vs Hw. apply scripted_in in Hw. destruct Hw as (o' & Hin & Hsim). destruct o'; try discriminate.
  destruct (Hans _ _ Hin) as (s & s' & Hs). inversion Hs; subst. exists x. split; [reflexivity|].
  intros tr1 args1 vs1 Hw1. apply scripted_in in Hw1. destruct Hw1 as (o1 & Hin1 & Hsim1).
  destruct o1 as [|rv f as1| | | |]; try discriminate. destruct (Hans _ _ Hin1) as (s1 & s1' & Hs1). inversion Hs1; subst.
  cbn in Hsim1. apply andb_prop in Hsim1. destruct Hsim1 as [_ Hsim1]. apply andb_prop in Hsim1. destruct Hsim1 as [Hn _].
  apply String.eqb_eq in Hn. subst f. congruence.
Qed.
End MANY.

(** ** An execution: two implementations, two calls at the same time, the
    first of which panics *)
Definition ex_args : list val := [VRef 3; VInt 7; VInt 8; VSlice []].
Definition ex_pool_events : list (event Empty_set) :=
  [EvCall; EvCall;
   EvDo 0 (OSelect [VRef 5]) (ARet [VInt 0; VRef 70]);
   EvDo 1 (OSelect [VRef 5]) (ARet [VInt 0; VRef 80]);
   EvDo 0 (OMeth (VRef 70) "Do" ex_args) (APan VNil);
   EvDo 1 (OMeth (VRef 80) "Do" ex_args) (ARet [VString "s"; VNil]);
   EvDo 0 (OSend (VRef 5) (VRef 70)) (ARet []);
   EvDo 1 (OSend (VRef 5) (VRef 80)) (ARet [])].

Example C62_syncpool_nontrivial :
  (exists c, run (sys_step (pool_sem 5 [70; 80] (fun _ => 2)) (fun _ (e : Empty_set) _ => False) (pool_entry 5 (fun _ => 2)))
      (fresh [70; 80]) ex_pool_events c /\ cf_shared c = [70; 80] /\
      cf_calls c = [Ret (Pan VNil); Ret (Val [VString "s"; VNil])]) /\
  all_in_use (firstn 4 ex_pool_events) 2 = [70; 80] /\ NoDup [70; 80].
Proof.
  assert (He : pool_entry 5 (fun _ => 2) (syncpool_prog 5 "Do" ex_args)).
  { exists ex_m, ex_args. split; [eapply NewMethod_wf, ex_NewMethod|]. split; [|repeat split; reflexivity].
    intros x Hx Hin. cbn in Hx, Hin. intuition (subst; discriminate). }
  split; [|split; [reflexivity|]].
  - eexists. unfold ex_pool_events, fresh.
    split; [|split].
    + do 2 (eapply run_cons; [apply y_call; exact He|]; cbn [app]).
      do 2 (eapply run_cons; [eapply y_do; [reflexivity | constructor]|]; cbn [upd]).
      eapply run_cons; [eapply y_do; [reflexivity | apply ps_panic]|]; cbn [upd].
      eapply run_cons; [eapply y_do; [reflexivity | apply ps_base; reflexivity]|]; cbn [upd].
      eapply run_cons; [eapply y_do; [reflexivity | apply ps_give; cbn; lia]|]; cbn [upd].
      eapply run_cons; [eapply y_do; [reflexivity | apply ps_give; cbn; lia]|]; cbn [upd].
      apply run_nil.
    + reflexivity.
    + reflexivity.
  - repeat constructor; cbn; intuition lia.
Qed.

Print Assumptions C62_syncpool_call.
Print Assumptions C62_syncpool.
Print Assumptions C62_syncpool_exclusive.
Print Assumptions C62_syncpool_never_shared.
Print Assumptions C62_syncpool_give_back.
Print Assumptions C62_syncpool_waits.
Print Assumptions C62_syncpool_finished.
Print Assumptions C62_syncpool_is_run.
