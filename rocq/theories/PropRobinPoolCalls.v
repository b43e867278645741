(** Property C62, for templates/robinpool: the transition system of RobinPool.v
    has an execution for every execution of generated calls, so that C42 holds
    of the generated code itself. *)
From Verif Require Import Threads Pools PropNaming.
From Verif Require RobinPool PropRobinPool.
From Coq Require Import Permutation.
Open Scope nat_scope.

(** ** One call: lines 38-39 of /repo/templates/robinpool *)
Definition count_of (l : list val) : Z := match l with [VInt z] => z | _ => 0%Z end.

Definition robinpool_prog (pool : list val) (size : Z) (counter : nat) (nm : string) (args : list val) : prog :=
  Do (add_uint32 counter) (fun a =>
    match a with
    | ARet l =>
        if Z.eqb size 0 then Ret (Pan zero_division)
        else match nth_error pool (Z.to_nat (Z.rem (count_of l) size)) with
             | Some r => Do (OMeth r nm args) (fun a => Ret (outcome_of a))
             | None => Ret (Pan bad_index)
             end
    | _ => Ret (outcome_of a)
    end).

Section ONE.
Variable W : gworld.
Variable m : method.
Variable L : nat.
Variable pool : list val.
Variable size : Z.
Variable counter : nat.
Variables (zeros args : list val).
Hypothesis Hwf : wf_method m.
Hypothesis Hhyg : hygienic m ["_counter"; "atomic"].
Hypothesis Hz : length zeros = length (m_results m).
Hypothesis Ha : length args = length (m_params m).
Hypothesis Hpool : forall v, In v pool -> exists i, v = VRef i /\ base_typed W m i.
Hypothesis Hsize : (0 <= size)%Z.
Hypothesis Hadd : forall tr vs, w_ans W tr (add_uint32 counter) = ARet vs -> exists c, vs = [VInt c] /\ (0 <= c)%Z.

(** The generated body plays this tree. *)
Theorem C62_robinpool_call :
  run_method W m [] L (robinpool_body m) (VRec [("pool", VSlice pool); ("poolSize", VInt size); ("counter", VRef counter)]) zeros args
  = play W [] (robinpool_prog pool size counter (m_name m) args).
Proof.
  apply follows_play. pose proof (robinpool_meets W m L pool size counter zeros args Hwf Hhyg Hz Ha Hpool Hsize Hadd) as H.
  destruct (run_method W m [] L (robinpool_body m) _ zeros args) as [r tr]. unfold robinpool_prog, follows.
  destruct H as [a r H|c E|c E Hl|c i a r E Hn H].
  - apply fails_outcome in H. destruct H as [-> H]. apply R_do. destruct a; [now destruct (H l) | apply R_here | apply R_here].
  - apply R_do. subst size. apply R_here.
  - apply R_do. destruct (Z.eqb_spec size 0); [contradiction|]. cbn [count_of]. apply nth_error_None in Hl. rewrite Hl. apply R_here.
  - apply R_do. destruct (Z.eqb_spec size 0); [contradiction|]. cbn [count_of]. rewrite Hn. apply R_do.
    apply ends_outcome in H. subst r. apply R_here.
Qed.
End ONE.

(** ** Many calls *)
Section MANY.
Variable counter : nat.                (* the address of the counter *)
Variable impls : list nat.             (* the implementations given to the constructor *)
Variable size : Z.                     (* poolSize *)
Variable arity : string -> nat.

(** atomic.AddUint32 (one indivisible step of the shared counter) and the
    implementations, which may return or panic when they like *)
Inductive robin_sem : Z -> op -> ans -> Z -> Prop :=
| rs_add c c' : c' = ((c + 1) mod 4294967296)%Z -> robin_sem c (add_uint32 counter) (ARet [VInt c']) c'
| rs_base x nm args vs c : length vs = arity nm -> robin_sem c (OMeth (VRef x) nm args) (ARet vs) c
| rs_panic x nm args v c : robin_sem c (OMeth (VRef x) nm args) (APan v) c.

Definition robin_entry (p : prog) : Prop := exists m args,
  wf_method m /\ hygienic m ["_counter"; "atomic"] /\ length args = length (m_params m) /\
  length (m_results m) = arity (m_name m) /\ p = robinpool_prog (map VRef impls) size counter (m_name m) args.

Notation robin_step := (sys_step robin_sem (fun _ (e : Empty_set) _ => False) robin_entry).
Definition fresh : conf Z := Conf 0%Z [].

Notation pick := (RobinPool.pick (length impls) size).
Notation step := (RobinPool.step (length impls) size).

Inductive robin_means : event Empty_set -> list RobinPool.label -> Prop :=
| rm_call : robin_means EvCall [RobinPool.Call]
| rm_draw i c : pick c <> None -> robin_means (EvDo i (add_uint32 counter) (ARet [VInt c])) [RobinPool.Add i c]
| rm_crash i c : pick c = None -> robin_means (EvDo i (add_uint32 counter) (ARet [VInt c])) [RobinPool.Add i c; RobinPool.Crash i]
| rm_serve i k x nm args a : (0 <= k)%Z -> nth_error impls (Z.to_nat k) = Some x ->
    robin_means (EvDo i (OMeth (VRef x) nm args) a) [RobinPool.Serve i k].

Inductive at_pc : RobinPool.pc -> prog -> Prop :=
| ap_add nm args : at_pc RobinPool.AtAdd (robinpool_prog (map VRef impls) size counter nm args)
| ap_pick c k x nm args : pick c = Some k -> (0 <= k)%Z -> nth_error impls (Z.to_nat k) = Some x ->
    at_pc (RobinPool.AtPick c) (Do (OMeth (VRef x) nm args) (fun a => Ret (outcome_of a)))
| ap_served k r : at_pc (RobinPool.Served k) (Ret r)
| ap_crashed v : at_pc RobinPool.Crashed (Ret (Pan v)).

Definition robin_rel (c : conf Z) (s : RobinPool.state) : Prop :=
  RobinPool.counter s = cf_shared c /\ (0 <= cf_shared c)%Z /\ Forall2 at_pc (RobinPool.calls s) (cf_calls c).

Hypothesis Hsize : (0 <= size)%Z.

Lemma robin_simulates : forall c e c' s, robin_rel c s -> robin_step c e c' ->
  exists l s', robin_means e l /\ run step s l s' /\ robin_rel c' s'.
Proof.
  intros c e c' s (RC & RP & RT) HS. destruct s as [n cs]. cbn [RobinPool.counter RobinPool.calls] in *.
  destruct HS as [q h q' ps []|q ps p (m & args & _ & _ & _ & _ & ->)|q ps i o k a q' Hi Hs]; cbn [cf_shared cf_calls] in *.
  - eexists _, _. split; [constructor|]. split; [apply run_one, RobinPool.s_call|].
    split; [exact RC|]. split; [exact RP|]. cbn. apply Forall2_snoc; [exact RT | constructor].
  - destruct (Forall2_nth_r _ _ _ _ _ RT Hi) as (pc & Hp & Hat). remember (Do o k) as p eqn:Ep.
    destruct Hat as [nm args|c k0 x nm args Hk Hk0 Hx|k0 r|v]; [| |discriminate|discriminate].
    + unfold robinpool_prog in Ep. injection Ep as <- <-. inversion Hs as [c0 c1 Ec| |]; subst. clear Hs.
      set (c1 := ((q + 1) mod 4294967296)%Z). assert (Hc1 : (0 <= c1)%Z) by (apply Z.mod_pos_bound; lia).
      assert (Hstep : step (RobinPool.State q cs) (RobinPool.Add i c1) (RobinPool.State c1 (upd i (RobinPool.AtPick c1) cs)))
        by (exact (RobinPool.s_add _ _ (RobinPool.State q cs) i Hp)).
      assert (Hmod : size <> 0%Z -> Z.rem c1 size = (c1 mod size)%Z) by (intros; apply Z.rem_mod_nonneg; lia).
      destruct (Z.eqb_spec size 0) as [E0|E0]; [|destruct (nth_error (map VRef impls) (Z.to_nat (Z.rem (count_of [VInt c1]) size))) as [r|] eqn:En].
      * assert (Hpk : pick c1 = None) by (unfold RobinPool.pick; rewrite E0; reflexivity).
        eexists _, _. split; [apply rm_crash; exact Hpk|]. split.
        -- eapply run_cons; [exact Hstep|]. apply run_one. eapply RobinPool.s_crash; [|exact Hpk].
           cbn. apply nth_upd_same. eapply nth_lt; exact Hp.
        -- split; [reflexivity|]. split; [exact Hc1|]. cbn.
           assert (Eu : forall (x y : RobinPool.pc) l j, upd j x (upd j y l) = upd j x l)
             by (clear; intros x y; induction l as [|z l IH]; intros [|j]; cbn; f_equal; auto).
           rewrite Eu. apply Forall2_upd; [exact RT | constructor].
      * cbn [count_of] in En. rewrite Hmod in En by exact E0. rewrite nth_error_map in En.
        destruct (nth_error impls (Z.to_nat (c1 mod size))) as [x|] eqn:Ex; [|discriminate]. injection En as <-.
        assert (Hb : (0 <= c1 mod size)%Z) by (apply Z.mod_pos_bound; lia).
        assert (Hpk : pick c1 = Some (c1 mod size)%Z).
        { unfold RobinPool.pick. destruct (Z.eqb_spec size 0); [contradiction|].
          destruct (Z.ltb_spec (c1 mod size) (Z.of_nat (length impls))); [reflexivity|]. apply nth_lt in Ex. lia. }
        eexists _, _. split; [apply rm_draw; congruence|]. split; [apply run_one; exact Hstep|].
        split; [reflexivity|]. split; [exact Hc1|]. cbn. apply Forall2_upd; [exact RT|]. econstructor; eassumption.
      * cbn [count_of] in En. rewrite Hmod in En by exact E0. rewrite nth_error_map in En.
        destruct (nth_error impls (Z.to_nat (c1 mod size))) as [x|] eqn:Ex; [discriminate|].
        assert (Hb : (0 <= c1 mod size)%Z) by (apply Z.mod_pos_bound; lia).
        assert (Hpk : pick c1 = None).
        { unfold RobinPool.pick. destruct (Z.eqb_spec size 0); [contradiction|].
          destruct (Z.ltb_spec (c1 mod size) (Z.of_nat (length impls))) as [Hlt|]; [|reflexivity].
          apply nth_error_None in Ex. lia. }
        eexists _, _. split; [apply rm_crash; exact Hpk|]. split.
        -- eapply run_cons; [exact Hstep|]. apply run_one. eapply RobinPool.s_crash; [|exact Hpk].
           cbn. apply nth_upd_same. eapply nth_lt; exact Hp.
        -- split; [reflexivity|]. split; [exact Hc1|]. cbn.
           assert (Eu : forall (x y : RobinPool.pc) l j, upd j x (upd j y l) = upd j x l)
             by (clear; intros x y; induction l as [|z l IH]; intros [|j]; cbn; f_equal; auto).
           rewrite Eu. apply Forall2_upd; [exact RT | constructor].
    + injection Ep as <- <-.
      assert (q' = q) by (now inversion Hs). subst q'.
      eexists _, _. split; [eapply rm_serve; eassumption|]. split; [apply run_one; eapply RobinPool.s_serve; [exact Hp | exact Hk]|].
      split; [exact RC|]. split; [exact RP|]. cbn. apply Forall2_upd; [exact RT | constructor].
Qed.

(** Every execution of generated calls is an execution of the model that C42 is
    about, with the same tickets and the same implementations called. *)
Theorem C62_robinpool : forall tr c, run robin_step fresh tr c ->
  exists ls s, matched robin_means tr ls /\ run step RobinPool.init ls s /\ robin_rel c s.
Proof.
  intros tr c H. eapply (simulation robin_sem _ robin_entry step robin_means robin_rel fresh); [| |exact H].
  - split; [reflexivity|]. split; [cbn; lia | constructor].
  - intros tr0 c0 e c' ls s _ _ Hrel Hst. now apply (robin_simulates c0).
Qed.

(** *** C42 for generated calls *)

(** the calls in the order of their atomic additions *)
Fixpoint drawers (tr : list (event Empty_set)) : list nat :=
  match tr with
  | [] => []
  | EvDo i (OCall _ _) _ :: tr' => i :: drawers tr'
  | _ :: tr' => drawers tr'
  end.

Lemma drawers_app : forall tr1 tr2, drawers (tr1 ++ tr2) = drawers tr1 ++ drawers tr2.
Proof. intros tr1 tr2. induction tr1 as [|[e| |j [] a] tr1 IH]; cbn; auto. now rewrite IH. Qed.

Lemma drawers_matched : forall tr ls, matched robin_means tr ls -> PropRobinPool.ticket_order ls = drawers tr.
Proof.
  intros tr ls H. induction H as [|tr ls e l H IH Hm]; [reflexivity|]. rewrite drawers_app, <- IH.
  destruct Hm as [|i c Hp|i c Hp|i k x nm args a Hk Hx]; cbn; rewrite ?PropRobinPool.ticket_order_snoc, ?app_nil_r; try reflexivity.
  change [RobinPool.Add i c; RobinPool.Crash i] with ([RobinPool.Add i c] ++ [RobinPool.Crash i]).
  rewrite app_assoc, !PropRobinPool.ticket_order_snoc, app_nil_r. reflexivity.
Qed.
Hypothesis Hnew : RobinPool.new_pool (length impls) = Some size.
Hypothesis Hfits : (Z.of_nat (length impls) < 4294967296)%Z.

(** The call that draws the [j]th ticket (from 0) calls the implementation at
    position j + 1, counted around the pool. *)
Theorem C62_robinpool_target : forall tr c j i x nm args a, run robin_step fresh tr c ->
  nth_error (drawers tr) j = Some i -> In (EvDo i (OMeth (VRef x) nm args) a) tr ->
  nth_error impls (Z.to_nat (((Z.of_nat j + 1) mod 4294967296) mod Z.of_nat (length impls))) = Some x.
Proof.
  intros tr c j i x nm args a H Hj Hin. destruct (C62_robinpool tr c H) as (ls & s & Hm & HR & _).
  destruct (matched_in _ _ _ _ Hm Hin) as (l & Hl & Hi).
  inversion Hl as [| | |i0 k x0 nm0 args0 a0 Hk Hx]; subst.
  rewrite <- (drawers_matched _ _ Hm) in Hj.
  pose proof (PropRobinPool.served_pick _ _ _ _ _ _ _ HR (Hi _ (or_introl eq_refl)) Hj) as E.
  destruct (PropRobinPool.new_pool_size _ _ Hnew Hfits) as (Es & H0). rewrite Es, PropRobinPool.pick_mod in E by exact H0.
  injection E as E. unfold PropRobinPool.ticket in E. rewrite E. exact Hx.
Qed.

(** Any n consecutive tickets are served by all the n implementations. *)
Theorem C62_robinpool_fair : forall tr c j xs, run robin_step fresh tr c ->
  (Z.of_nat j + Z.of_nat (length impls) < 4294967296)%Z ->
  length (PropRobinPool.window j (length impls) (drawers tr)) = length impls ->
  Forall2 (fun i x => exists nm args a, In (EvDo i (OMeth (VRef x) nm args) a) tr)
    (PropRobinPool.window j (length impls) (drawers tr)) xs ->
  Permutation xs impls.
Proof.
  intros tr c j xs H Hb Hl Hf. destruct (C62_robinpool tr c H) as (ls & s & Hm & HR & _).
  rewrite <- (drawers_matched _ _ Hm) in Hl, Hf.
  assert (G : exists ks, Forall2 (fun i k => In (RobinPool.Serve i k) ls) (PropRobinPool.window j (length impls) (PropRobinPool.ticket_order ls)) ks /\
                         Forall2 (fun k x => nth_error impls (Z.to_nat k) = Some x) ks xs).
  { clear Hl. induction Hf as [|i x l xs' (nm & args & a & Hin) Hf IH]; [exists []; split; constructor|].
    destruct IH as (ks & A & B). destruct (matched_in _ _ _ _ Hm Hin) as (l' & Hl' & Hi).
    inversion Hl' as [| | |i0 k x0 nm0 args0 a0 Hk Hx]; subst. exists (k :: ks). split; constructor; auto. apply Hi. now left. }
  destruct G as (ks & A & B).
  pose proof (PropRobinPool.C42_fair _ _ _ _ _ _ Hnew Hfits HR Hb Hl A) as P.
  assert (E : forall ks xs, Forall2 (fun k x => nth_error impls (Z.to_nat k) = Some x) ks xs -> xs = map (fun k => nth (Z.to_nat k) impls 0) ks).
  { clear. intros ks xs H. induction H as [|k x ks xs Hx H IH]; [reflexivity|]. cbn. rewrite (nth_error_nth _ _ 0 Hx). now f_equal. }
  rewrite (E _ _ B). rewrite (Permutation_map _ P). rewrite map_map.
  assert (E2 : map (fun x => nth (Z.to_nat (Z.of_nat x)) impls 0) (seq 0 (length impls)) = impls); [|now rewrite E2].
  rewrite (map_ext _ (fun x => nth x impls 0)) by (intros y; now rewrite Nat2Z.id). symmetry.
  assert (E3 : forall ks xs, Forall2 (fun (k x : nat) => nth_error impls k = Some x) ks xs -> xs = map (fun k => nth k impls 0) ks).
  { clear. intros ks xs H. induction H as [|k x ks xs Hx H IH]; [reflexivity|]. cbn. rewrite (nth_error_nth _ _ 0 Hx). now f_equal. }
  apply E3. apply seq_positions.
Qed.

(** What a finished call did: one ticket, one call of an implementation of the
    pool with its own arguments, whose outcome is its own; so neither the
    operator % nor the index ever panics. *)
Theorem C62_robinpool_finished : forall tr c i r, run robin_step fresh tr c ->
  nth_error (cf_calls c) i = Some (Ret r) ->
  exists m args n x a, robin_entry (robinpool_prog (map VRef impls) size counter (m_name m) args) /\ In x impls /\ a <> ABlock /\
    history i tr = [(add_uint32 counter, ARet [VInt n]); (OMeth (VRef x) (m_name m) args, a)] /\ r = outcome_of a.
Proof.
  intros tr c i r H Hi. destruct (proj1 (sys_reaches _ _ _ _ _ _ H) i _ Hi) as (p & (m & args & H1 & H2 & H3 & H4 & ->) & Hr).
  assert (Hans : forall o a, In (o, a) (history i tr) -> exists s s', robin_sem s o a s')
    by (intros o a Hin; eapply sys_answers; [exact H | exact Hin]).
  assert (Hc : forall tr c, run robin_step fresh tr c -> (0 <= cf_shared c)%Z /\
     forall i o n, In (EvDo i o (ARet [VInt n])) tr -> (exists f l, o = OCall f l) -> (0 <= n)%Z).
  { clear. intros tr c HR. induction HR as [|tr c1 e c2 HR (IH0 & IH) HS]; [split; [cbn; lia | intros i o n []]|].
    assert (G : (0 <= cf_shared c2)%Z).
    { inversion HS as [|s ps p Hp|s ps j o k a s' Hj Hs]; subst; [contradiction|exact IH0|].
      inversion Hs; subst; cbn in *; try exact IH0. apply Z.mod_pos_bound. lia. }
    split; [exact G|]. intros i o n Hin Ho. apply in_app_or in Hin. destruct Hin as [Hin|[->|[]]]; [eapply IH; eassumption|].
    inversion HS as [| |s ps j o' k a s' Hj Hs]; subst. inversion Hs; subst; [exact G|]. destruct Ho as (f & l & E). discriminate. }
  assert (Hhist : forall tr i o a, In (o, a) (@history Empty_set i tr) -> In (EvDo i o a) tr).
  { clear. intros tr i o a. induction tr as [|[e| |j o' a'] tr IH]; cbn [history]; intros Hin; [destruct Hin|right; auto|right; auto|].
    destruct (Nat.eqb_spec i j) as [->|_]; [|right; auto]. destruct Hin as [E|Hin]; [|right; auto]. injection E as -> ->. now left. }
  specialize (Hhist tr i). revert Hr Hans Hhist. generalize (history i tr). intros h Hr Hans Hhist.
  unfold robinpool_prog in Hr. inversion Hr as [|o1 k1 a1 h1 p1 Hr1]; subst o1 k1 p1 h.
  destruct (Hans _ _ (or_introl eq_refl)) as (s & s' & Hs). inversion Hs as [c0 c' Ec| |]; subst a1. cbn [count_of] in Hr1.
  assert (Hnn : (0 <= c')%Z).
  { eapply (proj2 (Hc _ _ H) i (add_uint32 counter)); [apply Hhist; now left | unfold add_uint32; eauto]. }
  destruct (PropRobinPool.new_pool_size _ _ Hnew Hfits) as (Es & Hpos).
  destruct (Z.eqb_spec size 0) as [E0|E0]; [lia|].
  rewrite Z.rem_mod_nonneg in Hr1 by lia. rewrite nth_error_map in Hr1.
  destruct (nth_error impls (Z.to_nat (c' mod size))) as [x|] eqn:Ex.
  2:{ apply nth_error_None in Ex. pose proof (Z.mod_pos_bound c' size). lia. }
  cbn [option_map] in Hr1. inversion Hr1 as [|o2 k2 a2 h2 p2 Hr2]; subst o2 k2 p2 h1.
  inversion Hr2 as [p3 Ep3|]; subst h2. destruct (Hans _ _ (or_intror (or_introl eq_refl))) as (s2 & s2' & Hs2).
  exists m, args, s', x, a2. split; [exists m, args; tauto|]. split; [eapply nth_error_In; exact Ex|].
  split; [intros ->; inversion Hs2|]. split; reflexivity.
Qed.

(** ... and that is a run of the generated body. *)
Theorem C62_robinpool_is_run : forall tr c i r L, run robin_step fresh tr c ->
  nth_error (cf_calls c) i = Some (Ret r) ->
  exists W m args, robin_entry (robinpool_prog (map VRef impls) size counter (m_name m) args) /\
    forall zeros, length zeros = length (m_results m) ->
    run_method W m [] L (robinpool_body m)
      (VRec [("pool", VSlice (map VRef impls)); ("poolSize", VInt size); ("counter", VRef counter)]) zeros args = (r, history i tr).
Proof.
  intros tr c i r L H Hi.
  destruct (proj1 (sys_reaches _ _ _ _ _ _ H) i _ Hi) as (p & (m & args & H1 & H2 & H3 & H4 & ->) & Hr).
  assert (Hans : forall o a, In (o, a) (history i tr) -> exists s s', robin_sem s o a s')
    by (intros o a Hin; eapply sys_answers; [exact H | exact Hin]).
  exists (scripted (history i tr)), m, args. split; [exists m, args; tauto|]. intros zeros Hz.
  eapply finished_run; [exact Hr|]. apply C62_robinpool_call; try assumption.
  - intros v Hv. apply in_map_iff in Hv. destruct Hv as (x & <- & _). exists x. split; [reflexivity|].
    intros tr1 args1 vs1 Hw1. apply scripted_in in Hw1. destruct Hw1 as (o1 & Hin1 & Hsim1).
    destruct o1 as [|rv f as1| | | |]; try discriminate. destruct (Hans _ _ Hin1) as (s1 & s1' & Hs1). inversion Hs1; subst.
    cbn in Hsim1. apply andb_prop in Hsim1. destruct Hsim1 as [_ Hsim1]. apply andb_prop in Hsim1. destruct Hsim1 as [Hn _].
    apply String.eqb_eq in Hn. subst f. congruence.
  - intros tr1 vs Hw. apply scripted_in in Hw. destruct Hw as (o1 & Hin1 & Hsim1).
    destruct o1 as [f l|rv f as1| | | |]; try discriminate. destruct (Hans _ _ Hin1) as (s1 & s1' & Hs1).
    inversion Hs1 as [c0 c' Ec| |]; subst. eexists. split; [reflexivity|]. apply Z.mod_pos_bound. lia.
Qed.
End MANY.

(** ** An execution: two implementations, three calls; the second call draws
    its ticket first, and is still running at the end *)
Definition ex_args : list val := [VRef 3; VInt 7; VInt 8; VSlice []].
Definition ex_robin_events : list (event Empty_set) :=
  [EvCall; EvCall; EvCall;
   EvDo 1 (add_uint32 5) (ARet [VInt 1]);
   EvDo 0 (add_uint32 5) (ARet [VInt 2]);
   EvDo 2 (add_uint32 5) (ARet [VInt 3]);
   EvDo 0 (OMeth (VRef 70) "Do" ex_args) (APan VNil);
   EvDo 2 (OMeth (VRef 80) "Do" ex_args) (ARet [VString "s"; VNil])].

Example C62_robinpool_nontrivial :
  (exists c, run (sys_step (robin_sem 5 (fun _ => 2)) (fun _ (e : Empty_set) _ => False) (robin_entry 5 [70; 80] 2 (fun _ => 2)))
      fresh ex_robin_events c /\ cf_shared c = 3%Z /\
      nth_error (cf_calls c) 0 = Some (Ret (Pan VNil)) /\ nth_error (cf_calls c) 2 = Some (Ret (Val [VString "s"; VNil]))) /\
  RobinPool.new_pool 2 = Some 2%Z /\ PropRobinPool.window 1 2 (drawers ex_robin_events) = [0; 2].
Proof.
  assert (He : robin_entry 5 [70; 80] 2 (fun _ => 2) (robinpool_prog (map VRef [70; 80]) 2 5 "Do" ex_args)).
  { exists ex_m, ex_args. split; [eapply NewMethod_wf, ex_NewMethod|]. split; [|repeat split; reflexivity].
    intros x Hx Hin. cbn in Hx, Hin. intuition (subst; discriminate). }
  split; [|split; reflexivity].
  eexists. unfold ex_robin_events, fresh. split; [|split; [|split]].
  - do 3 (eapply run_cons; [apply y_call; exact He|]; cbn [app]).
    do 3 (eapply run_cons; [eapply y_do; [reflexivity | apply rs_add; reflexivity]|]; cbn [upd]).
    eapply run_cons; [eapply y_do; [reflexivity | apply rs_panic]|]; cbn [upd].
    eapply run_cons; [eapply y_do; [reflexivity | apply rs_base; reflexivity]|]; cbn [upd].
    apply run_nil.
  - reflexivity.
  - reflexivity.
  - reflexivity.
Qed.

Print Assumptions C62_robinpool_call.
Print Assumptions C62_robinpool.
Print Assumptions C62_robinpool_target.
Print Assumptions C62_robinpool_fair.
Print Assumptions C62_robinpool_finished.
Print Assumptions C62_robinpool_is_run.
