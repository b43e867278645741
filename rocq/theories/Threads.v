(** Generated calls that run at the same time.

    A call of a generated method, whatever the outside does, is a tree: the
    operation it asks next, and how it goes on after each answer.  [run_method]
    (MiniGo.v) plays that tree against one world ([follows_play] and, per
    template, the theorems [*_is]); here many calls are interleaved over a state
    they share, one operation at a time.  Nothing here is specific to a
    template. *)
From Verif Require Export Observed Honest Lts.
Open Scope nat_scope.

(** ** One call *)
Inductive prog :=
| Ret (r : out (list val))
| Do (o : op) (k : ans -> prog).

(** against one world, after the operations in [tr] *)
Fixpoint play (W : gworld) (tr : trace) (p : prog) : out (list val) * trace :=
  match p with
  | Ret r => (r, tr)
  | Do o k => let a := w_ans W tr o in play W (tr ++ [(o, a)]) (k a)
  end.

(** the call asked the operations of [h], got those answers and is now at [p'] *)
Inductive reaches : prog -> trace -> prog -> Prop :=
| R_here p : reaches p [] p
| R_do o k a h p' : reaches (k a) h p' -> reaches (Do o k) ((o, a) :: h) p'.

Definition follows (p : prog) (h : trace) (r : out (list val)) : Prop := reaches p h (Ret r).

Lemma reaches_snoc : forall p h o k a, reaches p h (Do o k) -> reaches p (h ++ [(o, a)]) (k a).
Proof.
  intros p h o k a H. remember (Do o k) as q eqn:E. revert E. induction H as [p|o' k' a' h p' H IH]; intros ->.
  - cbn. apply R_do, R_here.
  - cbn. apply R_do. now apply IH.
Qed.

Lemma follows_play_from : forall W p h r tr, follows p h r -> answered W tr h -> play W tr p = (r, tr ++ h).
Proof.
  intros W p h r. unfold follows. remember (Ret r) as q eqn:E. intros tr H. revert tr E.
  induction H as [p|o k a h p' H IH]; intros tr -> Ha.
  - cbn. now rewrite app_nil_r.
  - cbn [answered] in Ha. destruct Ha as [Ho Ha]. cbn [play]. rewrite Ho. rewrite IH; [|reflexivity | exact Ha].
    now rewrite <- app_assoc.
Qed.

(** A run of the interpreter whose trace and outcome are a path of the tree is
    the play of the tree. *)
Lemma follows_play : forall W m funcs L body recv zeros args p,
  (let '(r, tr) := run_method W m funcs L body recv zeros args in follows p tr r) ->
  run_method W m funcs L body recv zeros args = play W [] p.
Proof.
  intros W m funcs L body recv zeros args p. pose proof (run_method_answered W m funcs L body recv zeros args) as Ha.
  destruct (run_method W m funcs L body recv zeros args) as [r tr]. cbn [snd] in Ha. intros H.
  now rewrite (follows_play_from W p tr r [] H Ha).
Qed.

(** *** Trees of scripts: [fail] is what happens when an operation panics *)
Fixpoint lift {A} (s : script A) (fail : val -> prog) (k : A -> prog) : prog :=
  match s with
  | Done a => k a
  | Ask o k' => Do o (fun a => match a with ARet l => lift (k' l) fail k | APan v => fail v | ABlock => Ret Blk end)
  end.

(** a panic that nothing catches *)
Definition give_up (v : val) : prog := Ret (Pan v).

Lemma lift_val : forall {A} (s : script A) fail k tr a, plays s tr (Val a) -> reaches (lift s fail k) tr (k a).
Proof.
  intros A s fail k tr a H. remember (Val a) as x eqn:E. revert E.
  induction H as [a'|o k' v|o k'|o k' l tr r' H IH]; intros E; try discriminate.
  - injection E as ->. apply R_here.
  - cbn. apply R_do. now apply IH.
Qed.

Lemma lift_pan : forall {A} (s : script A) fail k tr v, plays s tr (Pan v) -> reaches (lift s fail k) tr (fail v).
Proof.
  intros A s fail k tr v H. remember (Pan v) as x eqn:E. revert E.
  induction H as [a'|o k' w|o k'|o k' l tr r' H IH]; intros E; try discriminate.
  - injection E as ->. cbn. apply R_do, R_here.
  - cbn. apply R_do. now apply IH.
Qed.

Lemma lift_blk : forall {A} (s : script A) fail k tr, plays s tr Blk -> reaches (lift s fail k) tr (Ret Blk).
Proof.
  intros A s fail k tr H. remember Blk as x eqn:E. revert E.
  induction H as [a'|o k' w|o k'|o k' l tr r' H IH]; intros E; try discriminate.
  - cbn. apply R_do, R_here.
  - cbn. apply R_do. now apply IH.
Qed.

Lemma reaches_trans : forall p h1 q h2 r, reaches p h1 q -> reaches q h2 r -> reaches p (h1 ++ h2) r.
Proof. intros p h1 q h2 r H. induction H as [p|o k a h p' H IH]; intros H2; cbn; [exact H2|]. apply R_do. auto. Qed.

(** the outcome of a call that got [a] and does nothing more *)
Definition outcome_of (a : ans) : out (list val) := match a with ARet l => Val l | APan v => Pan v | ABlock => Blk end.

Lemma ends_outcome : forall a r, ends a r -> r = outcome_of a.
Proof. intros [l|v|] r H; exact H. Qed.
Lemma fails_outcome : forall a r, fails a r -> r = outcome_of a /\ forall l, a <> ARet l.
Proof. intros [l|v|] r H; cbn in H; [destruct H | |]; (split; [exact H | discriminate]). Qed.

(** ** Lists *)
Lemma Forall2_nth_r : forall {A B} (R : A -> B -> Prop) l l' i b, Forall2 R l l' -> nth_error l' i = Some b ->
  exists a, nth_error l i = Some a /\ R a b.
Proof.
  intros A B R l l' i b H. revert i. induction H as [|x y l l' Hx H IH]; intros [|i] Hi; try discriminate; cbn in *.
  - injection Hi as <-. eauto.
  - auto.
Qed.
Lemma Forall2_nth_l : forall {A B} (R : A -> B -> Prop) l l' i a, Forall2 R l l' -> nth_error l i = Some a ->
  exists b, nth_error l' i = Some b /\ R a b.
Proof.
  intros A B R l l' i a H. revert i. induction H as [|x y l l' Hx H IH]; intros [|i] Hi; try discriminate; cbn in *.
  - injection Hi as <-. eauto.
  - auto.
Qed.
Lemma Forall2_upd : forall {A B} (R : A -> B -> Prop) l l' i a b, Forall2 R l l' -> R a b -> Forall2 R (upd i a l) (upd i b l').
Proof. intros A B R l l' i a b H Hab. revert i. induction H; intros [|i]; cbn; constructor; auto. Qed.
Lemma Forall2_snoc : forall {A B} (R : A -> B -> Prop) l l' a b, Forall2 R l l' -> R a b -> Forall2 R (l ++ [a]) (l' ++ [b]).
Proof. intros. apply Forall2_app; auto. Qed.

Lemma flat_map_map : forall {A B C} (f : A -> B) (g : B -> list C) l, flat_map g (map f l) = flat_map (fun x => g (f x)) l.
Proof. intros A B C f g l. induction l as [|a l IH]; cbn; [reflexivity | now rewrite IH]. Qed.

Lemma Forall2_seq : forall {A B} (R : A -> B -> Prop) (l : list A) (f : nat -> B),
  (forall i a, nth_error l i = Some a -> R a (f i)) -> Forall2 R l (map f (seq 0 (length l))).
Proof.
  intros A B R l f H.
  assert (G : forall l k, (forall i a, nth_error l i = Some a -> R a (f (k + i))) -> Forall2 R l (map f (seq k (length l)))).
  { clear. induction l as [|a l IH]; intros k H; cbn; constructor.
    - specialize (H 0 a eq_refl). now rewrite Nat.add_0_r in H.
    - apply IH. intros i b Hi. specialize (H (S i) b Hi). now rewrite Nat.add_succ_r in H. }
  apply G. exact H.
Qed.

Lemma seq_positions : forall (l : list nat), Forall2 (fun (x r : nat) => nth_error l x = Some r) (seq 0 (length l)) l.
Proof.
  assert (G : forall l pre : list nat, Forall2 (fun (x r : nat) => nth_error (pre ++ l) x = Some r) (seq (length pre) (length l)) l).
  { induction l as [|a l IH]; intros pre; cbn; constructor.
    - rewrite nth_error_app2, Nat.sub_diag by lia. reflexivity.
    - specialize (IH (pre ++ [a])). rewrite <- app_assoc, app_length, Nat.add_1_r in IH. exact IH. }
  intros l. apply (G l []).
Qed.

(** ** Many calls *)
Section SYSTEM.
Context {shared : Type}.
(** what an operation may answer in a shared state, and the state afterwards;
    an operation that never answers is one that is never answered *)
Variable sem : shared -> op -> ans -> shared -> Prop.
(** what happens without the calls: clocks, goroutines of the constructor *)
Context {happening : Type}.
Variable env : shared -> happening -> shared -> Prop.
(** the calls that may be made *)
Variable entry : prog -> Prop.

Record conf := Conf { cf_shared : shared; cf_calls : list prog }.

Inductive event :=
| EvEnv (e : happening)
| EvCall
| EvDo (i : nat) (o : op) (a : ans).

Inductive sys_step : conf -> event -> conf -> Prop :=
| y_env s e s' ps : env s e s' -> sys_step (Conf s ps) (EvEnv e) (Conf s' ps)
| y_call s ps p : entry p -> sys_step (Conf s ps) EvCall (Conf s (ps ++ [p]))
| y_do s ps i o k a s' : nth_error ps i = Some (Do o k) -> sem s o a s' ->
    sys_step (Conf s ps) (EvDo i o a) (Conf s' (upd i (k a) ps)).

(** the operations of call [i], with their answers *)
Fixpoint history (i : nat) (tr : list event) : trace :=
  match tr with
  | [] => []
  | EvDo j o a :: tr' => if Nat.eqb i j then (o, a) :: history i tr' else history i tr'
  | _ :: tr' => history i tr'
  end.

Lemma history_app : forall i tr1 tr2, history i (tr1 ++ tr2) = history i tr1 ++ history i tr2.
Proof. intros i tr1 tr2. induction tr1 as [|[e| |j o a] tr1 IH]; cbn; auto. destruct (Nat.eqb i j); cbn; now rewrite IH. Qed.

(** Each call goes through a path of its own tree. *)
Lemma sys_reaches : forall s0 tr c, run sys_step (Conf s0 []) tr c ->
  (forall i p', nth_error (cf_calls c) i = Some p' -> exists p, entry p /\ reaches p (history i tr) p') /\
  (forall i, length (cf_calls c) <= i -> history i tr = []).
Proof.
  intros s0 tr c H. induction H as [|tr c1 l c2 HR (IH & IN) HS].
  - split; [intros [|i] p' Hi; discriminate | reflexivity].
  - destruct HS as [s e s' ps He|s ps p Hp|s ps i o k a s' Hi Hs]; cbn [cf_calls] in *;
      (split; [intros j p' Hj | intros j Hj]; rewrite history_app; cbn [history]; rewrite ?app_nil_r).
    + now apply IH.
    + now apply IN.
    + apply nth_app_inv in Hj. destruct Hj as [Hj|(-> & ->)]; [now apply IH|].
      exists p. split; [exact Hp|]. rewrite IN by lia. apply R_here.
    + rewrite app_length in Hj. apply IN. lia.
    + apply nth_upd in Hj. destruct Hj as [(-> & -> & _)|(N & Hj)].
      * rewrite Nat.eqb_refl. destruct (IH _ _ Hi) as (p & Hp & Hr). exists p. split; [exact Hp|]. now apply reaches_snoc.
      * destruct (Nat.eqb_spec j i) as [->|_]; [contradiction|]. rewrite app_nil_r. now apply IH.
    + rewrite upd_length in Hj. pose proof (nth_lt _ _ _ Hi). destruct (Nat.eqb_spec j i) as [->|_]; [lia|].
      rewrite app_nil_r. now apply IN.
Qed.

(** the answers in a history were given by [sem] *)
Lemma sys_answers : forall s0 tr c i o a, run sys_step (Conf s0 []) tr c -> In (o, a) (history i tr) ->
  exists s s', sem s o a s'.
Proof.
  intros s0 tr c i o a H. induction H as [|tr c1 l c2 HR IH HS]; [intros []|]. rewrite history_app. intros Hin.
  apply in_app_or in Hin. destruct Hin as [Hin|Hin]; [now apply IH|].
  destruct HS as [s e s' ps He|s ps p Hp|s ps j o' k a' s' Hi Hs]; cbn in Hin; try contradiction.
  destruct (Nat.eqb i j); [|destruct Hin]. destruct Hin as [E|[]]. injection E as -> ->. eauto.
Qed.

(** ** Matching the executions of a hand-written transition system *)
Section MATCH.
Context {state label : Type}.
Variable step : state -> label -> state -> Prop.
(** the labels that stand for an event *)
Variable means : event -> list label -> Prop.

Inductive matched : list event -> list label -> Prop :=
| M_nil : matched [] []
| M_snoc tr ls e l : matched tr ls -> means e l -> matched (tr ++ [e]) (ls ++ l).

Lemma matched_in : forall tr ls e, matched tr ls -> In e tr -> exists l, means e l /\ incl l ls.
Proof.
  intros tr ls e H. induction H as [|tr ls e' l H IH Hm]; [intros []|]. intros Hin. apply in_app_or in Hin.
  destruct Hin as [Hin|[->|[]]].
  - destruct (IH Hin) as (l' & Hl & Hi). exists l'. split; [exact Hl|]. intros x Hx. apply in_or_app. left. now apply Hi.
  - exists l. split; [exact Hm|]. intros x Hx. apply in_or_app. now right.
Qed.

Lemma simulation : forall (rel : conf -> state -> Prop) c0 s0,
  rel c0 s0 ->
  (forall tr c e c' ls s, run sys_step c0 tr c -> run step s0 ls s -> rel c s -> sys_step c e c' ->
     exists l s', means e l /\ run step s l s' /\ rel c' s') ->
  forall tr c, run sys_step c0 tr c -> exists ls s, matched tr ls /\ run step s0 ls s /\ rel c s.
Proof.
  intros rel c0 s0 H0 HS tr c H. induction H as [|tr c1 e c2 HR IH Hst].
  - exists [], s0. split; [constructor|]. split; [constructor | exact H0].
  - destruct IH as (ls & s & Hm & Hr & Hrel). destruct (HS _ _ _ _ _ _ HR Hr Hrel Hst) as (l & s' & Hl & Hr' & Hrel').
    exists (ls ++ l), s'. split; [now constructor|]. split; [eapply run_app; eassumption | exact Hrel'].
Qed.
End MATCH.
End SYSTEM.
Arguments conf : clear implicits.
Arguments event : clear implicits.

(** ** A world in which one call sees exactly a given history *)

(** the same channel, function or receiver, as far as references and package
    names tell *)
Definition same_ref (v w : val) : bool :=
  match v, w with
  | VRef a, VRef b => Nat.eqb a b
  | VPkg f, VPkg g => String.eqb f g
  | VRef _, _ | _, VRef _ | VPkg _, _ | _, VPkg _ => false
  | _, _ => true
  end.
Fixpoint same_refs (l l' : list val) : bool :=
  match l, l' with
  | [], [] => true
  | v :: l, w :: l' => same_ref v w && same_refs l l'
  | _, _ => false
  end.
Definition similar (o o' : op) : bool :=
  match o, o' with
  | OCall f l, OCall g l' => same_ref f g && same_refs l l'
  | OMeth r f l, OMeth r' f' l' => same_ref r r' && (String.eqb f f' && Nat.eqb (length l) (length l'))
  | OSelect l, OSelect l' => same_refs l l'
  | OSend c v, OSend c' v' => same_ref c c'
  | OGet x, OGet y => Nat.eqb x y
  | OSet x _, OSet y _ => Nat.eqb x y
  | _, _ => false
  end.

Lemma same_ref_refl : forall v, same_ref v v = true.
Proof. intros []; cbn; try reflexivity; [apply Nat.eqb_refl | apply String.eqb_refl]. Qed.
Lemma same_refs_refl : forall l, same_refs l l = true.
Proof. induction l; cbn; [reflexivity|]. now rewrite same_ref_refl. Qed.
Lemma similar_refl : forall o, similar o o = true.
Proof.
  intros []; cbn; rewrite ?same_ref_refl, ?same_refs_refl, ?String.eqb_refl, ?Nat.eqb_refl; reflexivity.
Qed.
Lemma same_ref_ref : forall n v, same_ref (VRef n) v = true -> v = VRef n.
Proof. intros n [] H; cbn in H; try discriminate. apply Nat.eqb_eq in H. now subst. Qed.
Lemma same_ref_pkg : forall f v, same_ref (VPkg f) v = true -> v = VPkg f.
Proof. intros f [] H; cbn in H; try discriminate. apply String.eqb_eq in H. now subst. Qed.

(** the [n]th operation gets the [n]th answer; one that is not like the [n]th
    operation of [h] is never answered *)
Definition scripted (h : trace) : gworld := {|
  w_ans tr o := match nth_error h (length tr) with
                | Some (o', a) => if similar o o' then a else ABlock
                | None => ABlock
                end;
  w_has _ _ := false |}.

Lemma scripted_answered : forall h, answered (scripted h) [] h.
Proof.
  intros h. assert (H : forall l tr, h = tr ++ l -> answered (scripted h) tr l).
  { induction l as [|[o a] l IH]; intros tr E; cbn [answered]; [exact I|]. split.
    - cbn [scripted w_ans]. rewrite E, nth_error_app2, Nat.sub_diag by lia. cbn. now rewrite similar_refl.
    - apply IH. now rewrite <- app_assoc. }
  now apply H.
Qed.

Lemma scripted_ans : forall h tr o l, w_ans (scripted h) tr o = ARet l ->
  exists o', nth_error h (length tr) = Some (o', ARet l) /\ similar o o' = true.
Proof.
  intros h tr o l H. cbn [scripted w_ans] in H. destruct (nth_error h (length tr)) as [[o' a]|]; [|discriminate].
  destruct (similar o o') eqn:E; [|discriminate]. subst a. eauto.
Qed.

Lemma scripted_in : forall h tr o l, w_ans (scripted h) tr o = ARet l -> exists o', In (o', ARet l) h /\ similar o o' = true.
Proof. intros h tr o l H. destruct (scripted_ans _ _ _ _ H) as (o' & E & S). exists o'. split; [eapply nth_error_In; exact E | exact S]. Qed.

(** A finished call is the run of the body in that world, provided the body
    plays its tree there. *)
Lemma finished_run : forall m funcs L body recv zeros args p h r,
  follows p h r -> run_method (scripted h) m funcs L body recv zeros args = play (scripted h) [] p ->
  run_method (scripted h) m funcs L body recv zeros args = (r, h).
Proof.
  intros m funcs L body recv zeros args p h r Hf E. rewrite E. rewrite (follows_play_from _ _ _ _ [] Hf (scripted_answered h)). reflexivity.
Qed.
