(** Property C82: calls of methods generated by templates/circuitbreaker do not
    hold the lock while the wrapped implementation runs, hold none when they are
    over, and never wait for each other in a circle. *)
From Verif Require Import Races PropBreakerCalls BreakerCall PropRaces.
Open Scope nat_scope.

Section LOCKS.
Variables base lock : nat.
Hypothesis Hbl : base <> lock.

(** ** Specification *)
Definition is_base (o : op) : Prop := exists nm args, o = OMeth (VRef base) nm args.

(** Only the implementation may panic or block; an Is method of an error, called
    by errors.Is, may panic.  No value read or returned is the implementation or
    the lock. *)
Definition returns (a : ans) : Prop := exists l, a = ARet l /\ single l <> VRef base /\ single l <> VRef lock.
Definition calm (o : op) (a : ans) : Prop :=
  match o with
  | OMeth v _ _ => v = VRef base \/ v = VRef lock \/ returns a
  | OCall f _ => returns a \/ f = VPkg "errors.Is" /\ exists v, a = APan v
  | OGet _ | OSet _ _ => returns a
  | _ => True
  end.
Definition calm_sem (s : bool * nat) (o : op) (a : ans) (s' : bool * nat) : Prop := lock_sem lock s o a s' /\ calm o a.

Context {happening : Type}.
Notation events := (list (event happening)).
(** call [t] has locked and not unlocked since *)
Definition since (f g : string) (tr : events) (t : nat) : Prop :=
  exists i, at_ tr i t (lock_op lock f) /\ forall j, i < j -> ~ at_ tr j t (lock_op lock g).
Definition holding (tr : events) (t : nat) : Prop := since "RLock" "RUnlock" tr t \/ since "Lock" "Unlock" tr t.

(** ** Calls that obey *)
Inductive polite : hold -> prog -> Prop :=
| N_ret r : polite HN (Ret r)
| N_rlock k : (forall l, polite HR (k (ARet l))) -> polite HN (Do (lock_op lock "RLock") k)
| N_runlock k : (forall l, polite HN (k (ARet l))) -> polite HR (Do (lock_op lock "RUnlock") k)
| N_lock k : (forall l, polite HW (k (ARet l))) -> polite HN (Do (lock_op lock "Lock") k)
| N_unlock k : (forall l, polite HN (k (ARet l))) -> polite HW (Do (lock_op lock "Unlock") k)
| N_base o k : is_base o -> (forall a, polite HN (k a)) -> polite HN (Do o k)
| N_other h o k : ~ is_lock_op lock o -> ~ is_base o -> (forall a, calm o a -> polite h (k a)) -> polite h (Do o k).

Record inv (tr : events) (w : bool) (r : nat) (ps : list prog) (hs : list hold) : Prop := {
  v_polite : Forall2 polite hs ps;
  v_count : readers hs = r;
  v_writer : forall t, nth_error hs t = Some HW -> w = true /\ r = 0;
  v_one : forall t t', nth_error hs t = Some HW -> nth_error hs t' = Some HW -> t = t';
  v_held : w = true -> exists t, nth_error hs t = Some HW;
  v_some : forall t i o, at_ tr i t o -> t < length hs;
  v_r : forall t, since "RLock" "RUnlock" tr t -> nth_error hs t = Some HR;
  v_w : forall t, since "Lock" "Unlock" tr t -> nth_error hs t = Some HW }.

(** ** Proof *)
Lemma since_old : forall f g tr e t, since f g (tr ++ [e]) t -> (forall a, e <> EvDo t (lock_op lock f) a) -> since f g tr t.
Proof.
  intros f g tr e t (i & Hi & Hj) N. exists i. apply at_snoc in Hi. destruct Hi as [Hi|(_ & a & E)]; [|destruct (N _ E)].
  split; [exact Hi|]. intros j L H. apply (Hj j L). now apply at_old.
Qed.
Lemma since_ended : forall f g tr t a, since f g (tr ++ [EvDo t (lock_op lock g) a]) t -> f <> g -> False.
Proof.
  intros f g tr t a (i & Hi & Hj) N. apply at_snoc in Hi. destruct Hi as [Hi|(-> & b & E)].
  - apply (Hj (length tr) (at_lt _ _ _ _ Hi)). apply at_last.
  - injection E as E. congruence.
Qed.

Lemma inv_quiet : forall tr w r ps hs e, inv tr w r ps hs -> (forall t o a, e <> EvDo t o a) -> inv (tr ++ [e]) w r ps hs.
Proof.
  intros tr w r ps hs e [I1 I2 I3 I4 I5 I6 I7 I8] N. constructor; auto.
  - intros t i o H. apply at_snoc in H. destruct H as [H|(_ & a & H)]; [eauto | destruct (N _ _ _ H)].
  - intros t H. apply since_old in H; auto.
  - intros t H. apply since_old in H; auto.
Qed.

Lemma inv_call : forall tr w r ps hs p, inv tr w r ps hs -> polite HN p -> inv (tr ++ [EvCall]) w r (ps ++ [p]) (hs ++ [HN]).
Proof.
  intros tr w r ps hs p I D. apply (inv_quiet _ _ _ _ _ EvCall) in I; [|discriminate]. destruct I as [I1 I2 I3 I4 I5 I6 I7 I8]. constructor; auto.
  - now apply Forall2_snoc.
  - rewrite readers_app. cbn. lia.
  - intros t H. apply nth_snoc_hn in H; [eauto | discriminate].
  - intros t t' H H'. apply nth_snoc_hn in H; [|discriminate]. apply nth_snoc_hn in H'; [|discriminate]. eauto.
  - intros W. destruct (I5 W) as (t & H). exists t. rewrite nth_error_app1; [exact H | now apply nth_lt in H].
  - intros t i o H. rewrite app_length. specialize (I6 t i o H). lia.
  - intros t H. specialize (I7 t H). rewrite nth_error_app1; [exact I7 | now apply nth_lt in I7].
  - intros t H. specialize (I8 t H). rewrite nth_error_app1; [exact I8 | now apply nth_lt in I8].
Qed.

Lemma inv_op : forall tr w r ps hs t h o k a, inv tr w r ps hs -> nth_error hs t = Some h -> nth_error ps t = Some (Do o k) ->
  ~ is_lock_op lock o -> polite h (k a) -> inv (tr ++ [EvDo t o a]) w r (upd t (k a) ps) hs.
Proof.
  intros tr w r ps hs t h o k a [I1 I2 I3 I4 I5 I6 I7 I8] Ht Hp N D.
  assert (NL : forall t' f b, In f lock_names -> EvDo t o a <> @EvDo happening t' (lock_op lock f) b).
  { intros t' f b Hf E. injection E as _ E _. subst o. apply N. now exists f. }
  constructor; auto.
  - rewrite <- (Races.upd_id t h hs Ht). now apply Forall2_upd.
  - intros t' i o' H. apply at_snoc in H. destruct H as [H|(_ & b & H)]; [eauto|]. injection H as <- _ _. now apply nth_lt in Ht.
  - intros t' H. apply since_old in H; auto. intros b. apply NL. cbn. tauto.
  - intros t' H. apply since_old in H; auto. intros b. apply NL. cbn. tauto.
Qed.

Ltac sem_ H := inversion H; subst; try discriminate; first [now repeat split |
  match goal with N : ~ is_lock_op _ _ |- _ => exfalso; apply N; eexists; split; [|reflexivity]; cbn; tauto end].

Lemma inv_lock_op : forall tr w r ps hs t k f a w' r', inv tr w r ps hs -> nth_error ps t = Some (Do (lock_op lock f) k) ->
  lock_sem lock (w, r) (lock_op lock f) a (w', r') -> In f lock_names ->
  exists hs', inv (tr ++ [EvDo t (lock_op lock f) a]) w' r' (upd t (k a) ps) hs'.
Proof.
  intros tr w r ps hs t k f a w' r' I Hp Sm Hf. destruct (Forall2_nth_r _ _ _ _ _ (v_polite _ _ _ _ _ I) Hp) as (h & Ht & D).
  assert (exists l, a = ARet l) as (l & ->).
  { inversion Sm; subst; eauto. exfalso. match goal with N : ~ is_lock_op _ _ |- _ => apply N end. now exists f. }
  pose proof (nth_lt _ _ _ Ht) as Lt. destruct I as [I1 I2 I3 I4 I5 I6 I7 I8].
  assert (SO : forall (tr : events) h' t' i o, (forall t i o, at_ tr i t o -> t < length hs) ->
    at_ (tr ++ [EvDo t (lock_op lock f) (ARet l)]) i t' o -> t' < length (upd t h' hs)).
  { intros tr0 h' t' i o J H. rewrite upd_length. apply at_snoc in H. destruct H as [H|(_ & c & H)]; [eauto|]. now injection H as <- _ _. }
  assert (NB : ~ is_base (lock_op lock f)) by (intros (nm & args & E); unfold lock_op in E; injection E as E _ _; congruence).
  assert (ND : forall t' g b, g <> f -> EvDo t (lock_op lock f) (ARet l) <> @EvDo happening t' (lock_op lock g) b).
  { intros t' g b N E. injection E as _ E _. congruence. }
  assert (NT : forall t' g b, t' <> t -> EvDo t (lock_op lock f) (ARet l) <> @EvDo happening t' (lock_op lock g) b).
  { intros t' g b N E. injection E as E _ _. congruence. }
  remember (Do (lock_op lock f) k) as p eqn:Ep. destruct D as [r0|k0 D|k0 D|k0 D|k0 D|o k0 B D|h0 o k0 N1 N2 D]; try discriminate;
    try (injection Ep as E1 E2; subst k0; try subst f).
  5:{ subst o. contradiction. }
  5:{ subst o. destruct N1. now exists f. }
  - (* RLock *)
    assert (w = false /\ w' = false /\ r' = S r) as (-> & -> & ->) by (sem_ Sm).
    exists (upd t HR hs). pose proof (readers_upd hs t HN HR Ht) as C. cbn in C.
    assert (U : forall t', nth_error (upd t HR hs) t' <> Some HW).
    { intros t' E. apply nth_upd in E. destruct E as [(_ & E & _)|(_ & E)]; [discriminate | now destruct (I3 _ E)]. }
    constructor; try (intros; exfalso; eapply U; eassumption); try discriminate.
    + apply Forall2_upd; [exact I1 | apply D].
    + lia.
    + intros. eapply SO; eassumption.
    + intros t' H. destruct (Nat.eq_dec t' t) as [->|N]; [now apply nth_upd_same|]. rewrite nth_upd_other by congruence. apply I7. apply since_old in H; auto.
    + intros t' H. exfalso. apply since_old in H; [|intros; apply ND; discriminate]. now destruct (I3 _ (I8 _ H)).
  - (* RUnlock *)
    assert (w' = w /\ r = S r') as (-> & ->) by (sem_ Sm).
    exists (upd t HN hs). pose proof (readers_upd hs t HR HN Ht) as C. cbn in C.
    assert (NHW : forall t', nth_error hs t' <> Some HW) by (intros t' E; now destruct (I3 _ E)).
    assert (U : forall t', nth_error (upd t HN hs) t' <> Some HW).
    { intros t' E. apply nth_upd in E. destruct E as [(_ & E & _)|(_ & E)]; [discriminate | now apply NHW in E]. }
    constructor; try (intros; exfalso; eapply U; eassumption).
    + apply Forall2_upd; [exact I1 | apply D].
    + lia.
    + intros W. destruct (I5 W) as (t' & E). now apply NHW in E.
    + intros. eapply SO; eassumption.
    + intros t' H. destruct (Nat.eq_dec t' t) as [->|N]; [exfalso; apply (since_ended _ _ _ _ _ H); discriminate|]. rewrite nth_upd_other by congruence. apply I7. apply since_old in H; auto.
    + intros t' H. exfalso. apply since_old in H; [|intros; apply ND; discriminate]. now apply (NHW t'), I8.
  - (* Lock *)
    assert (w = false /\ r = 0 /\ w' = true /\ r' = 0) as (-> & -> & -> & ->) by (sem_ Sm).
    exists (upd t HW hs). pose proof (readers_upd hs t HN HW Ht) as C. cbn in C.
    assert (NHW : forall t', nth_error hs t' <> Some HW) by (intros t' E; now destruct (I3 _ E)).
    constructor.
    + apply Forall2_upd; [exact I1 | apply D].
    + lia.
    + intros; tauto.
    + intros t' t2 E E2. apply nth_upd in E. apply nth_upd in E2. destruct E as [(-> & _)|(_ & E)]; [|now apply NHW in E].
      destruct E2 as [(-> & _)|(_ & E2)]; [reflexivity | now apply NHW in E2].
    + intros _. exists t. now apply nth_upd_same.
    + intros. eapply SO; eassumption.
    + intros t' H. exfalso. apply since_old in H; [|intros; apply ND; discriminate]. exact (readers_zero _ _ I2 (I7 _ H)).
    + intros t' H. destruct (Nat.eq_dec t' t) as [->|N]; [now apply nth_upd_same|]. rewrite nth_upd_other by congruence. apply I8. apply since_old in H; auto.
  - (* Unlock *)
    assert (w = true /\ w' = false /\ r' = r) as (-> & -> & ->) by (sem_ Sm).
    destruct (I3 _ Ht) as (_ & ->).
    exists (upd t HN hs). pose proof (readers_upd hs t HW HN Ht) as C. cbn in C.
    assert (U : forall t', nth_error (upd t HN hs) t' <> Some HW).
    { intros t' E. apply nth_upd in E. destruct E as [(_ & E & _)|(N & E)]; [discriminate|]. apply N. eauto. }
    constructor; try (intros; exfalso; eapply U; eassumption); try discriminate.
    + apply Forall2_upd; [exact I1 | apply D].
    + lia.
    + intros. eapply SO; eassumption.
    + intros t' H. exfalso. apply since_old in H; [|intros; apply ND; discriminate]. exact (readers_zero _ _ I2 (I7 _ H)).
    + intros t' H. exfalso. destruct (Nat.eq_dec t' t) as [->|N]; [apply (since_ended _ _ _ _ _ H); discriminate|].
      apply since_old in H; [|auto]. apply N. eauto.
Qed.

Variable env : bool * nat -> happening -> bool * nat -> Prop.
Variable entry : prog -> Prop.
Hypothesis Henv : forall s e s', env s e s' -> s' = s.
Hypothesis Hentry : forall p, entry p -> polite HN p.
Notation step := (sys_step calm_sem env entry).

Lemma is_lock_dec : forall o, is_lock_op lock o \/ ~ is_lock_op lock o.
Proof.
  intros o. destruct o as [f args|v f args|cs|c v|x|x v]; try (right; intros (g & _ & E); discriminate).
  destruct v; try (right; intros (g & _ & E); discriminate).
  destruct args; [|right; intros (g & _ & E); discriminate].
  destruct (Nat.eq_dec n lock) as [->|N]; [|right; intros (g & _ & E); injection E; congruence].
  destruct (in_dec string_dec f lock_names) as [H|H]; [left; now exists f | right; intros (g & Hg & E); injection E as ->; contradiction].
Qed.

Lemma run_inv : forall tr c, run step (Conf (false, 0) []) tr c -> exists hs, inv tr (fst (cf_shared c)) (snd (cf_shared c)) (cf_calls c) hs.
Proof.
  intros tr c H. induction H as [|tr c1 e c2 HR IH HS].
  - exists []. constructor.
    + constructor.
    + reflexivity.
    + intros [|t]; discriminate.
    + intros [|t]; discriminate.
    + discriminate.
    + intros t i o (a & E). destruct i; discriminate.
    + intros t (i & (a & E) & _). destruct i; discriminate.
    + intros t (i & (a & E) & _). destruct i; discriminate.
  - destruct IH as (hs & I). destruct HS as [s e s' ps He|s ps p Hp|s ps i o k a s' Hi [Hs Ha]]; cbn [cf_shared cf_calls] in *.
    + apply Henv in He. subst s'. exists hs. apply inv_quiet; [exact I | discriminate].
    + exists (hs ++ [HN]). apply inv_call; auto.
    + destruct s as [w r], s' as [w' r']. cbn [fst snd] in *. destruct (is_lock_dec o) as [(f & Hf & ->)|N].
      * eapply inv_lock_op; eassumption.
      * destruct (Forall2_nth_r _ _ _ _ _ (v_polite _ _ _ _ _ I) Hi) as (h & Ht & D). exists hs.
        assert ((w', r') = (w, r)) as E by (inversion Hs; subst; try reflexivity; exfalso; apply N; eexists; (split; [|reflexivity]); cbn; tauto).
        injection E as -> ->. eapply inv_op; eauto.
        inversion D; subst; eauto; exfalso; apply N; eexists; (split; [|reflexivity]); cbn; tauto.
Qed.

(** a call that holds nothing has locked nothing it has not unlocked *)
Lemma free_not_holding : forall tr w r ps hs t, inv tr w r ps hs -> nth_error hs t = Some HN -> ~ holding tr t.
Proof. intros tr w r ps hs t I E [H|H]; [apply (v_r _ _ _ _ _ I) in H | apply (v_w _ _ _ _ _ I) in H]; congruence. Qed.

Theorem polite_base : forall tr c t o k, run step (Conf (false, 0) []) tr c -> nth_error (cf_calls c) t = Some (Do o k) -> is_base o -> ~ holding tr t.
Proof.
  intros tr c t o k H Ht B. destruct (run_inv _ _ H) as (hs & I). destruct (Forall2_nth_r _ _ _ _ _ (v_polite _ _ _ _ _ I) Ht) as (h & Hh & D).
  eapply free_not_holding; [exact I|]. inversion D; subst; try exact Hh; try contradiction;
    destruct B as (nm & args & B); unfold lock_op in B; injection B; congruence.
Qed.
Theorem polite_end : forall tr c t r, run step (Conf (false, 0) []) tr c -> nth_error (cf_calls c) t = Some (Ret r) -> ~ holding tr t.
Proof.
  intros tr c t r H Ht. destruct (run_inv _ _ H) as (hs & I). destruct (Forall2_nth_r _ _ _ _ _ (v_polite _ _ _ _ _ I) Ht) as (h & Hh & D).
  eapply free_not_holding; [exact I|]. now inversion D; subst.
Qed.

(** a call that holds the lock can go on *)
Lemma holder_steps : forall tr w r ps hs t h, inv tr w r ps hs -> nth_error hs t = Some h -> h <> HN ->
  exists o k a s', nth_error ps t = Some (Do o k) /\ ~ is_base o /\ calm_sem (w, r) o a s'.
Proof.
  intros tr w r ps hs t h I Hh N. destruct (Forall2_nth_l _ _ _ _ _ (v_polite _ _ _ _ _ I) Hh) as (p & Hp & D).
  assert (NB : forall f, ~ is_base (lock_op lock f)) by (intros f (nm & args & E); unfold lock_op in E; injection E as E _ _; congruence).
  assert (K : forall f, calm (lock_op lock f) (ARet [])) by (intros f; cbn; tauto).
  destruct D as [r0|k D|k D|k D|k D|o k B D|h0 o k N1 N2 D]; try congruence.
  - exists (lock_op lock "RUnlock"), k, (ARet []). destruct r as [|r].
    { exfalso. apply (readers_zero _ t (v_count _ _ _ _ _ I)). exact Hh. }
    exists (w, r). split; [exact Hp|]. split; [apply NB|]. split; [constructor | apply K].
  - exists (lock_op lock "Unlock"), k, (ARet []), (false, r). split; [exact Hp|]. split; [apply NB|]. destruct (v_writer _ _ _ _ _ I t Hh) as (-> & _). split; [constructor | apply K].
  - exists o, k, (ARet []), (w, r). split; [exact Hp|]. split; [exact N2|]. split; [now apply ls_other|].
    assert (R : returns (ARet [])) by (exists []; split; [reflexivity | split; discriminate]). destruct o; cbn; tauto.
Qed.

Lemma some_reader : forall hs r, readers hs = S r -> exists t, nth_error hs t = Some HR.
Proof.
  induction hs as [|h hs IH]; intros r E; [discriminate|]. destruct h; rewrite readers_cons in E; cbn in E.
  - destruct (IH _ E) as (t & H). now exists (S t).
  - now exists 0.
  - destruct (IH _ E) as (t & H). now exists (S t).
Qed.

(** if a call is neither over nor in the implementation, one such call can go on *)
Theorem polite_progress : forall tr c t o k, run step (Conf (false, 0) []) tr c -> nth_error (cf_calls c) t = Some (Do o k) -> ~ is_base o ->
  exists t' o' k' a c', nth_error (cf_calls c) t' = Some (Do o' k') /\ ~ is_base o' /\ step c (EvDo t' o' a) c'.
Proof.
  intros tr [[w r] ps] t o k H Ht NB. destruct (run_inv _ _ H) as (hs & I). cbn [cf_shared cf_calls fst snd] in *.
  assert (HH : forall t' h, nth_error hs t' = Some h -> h <> HN ->
     exists t' o' k' a c', nth_error ps t' = Some (Do o' k') /\ ~ is_base o' /\ step (Conf (w, r) ps) (EvDo t' o' a) c').
  { intros t' h E N. destruct (holder_steps _ _ _ _ _ _ _ I E N) as (o' & k' & a & s' & P & B & Sm).
    exists t', o', k', a, (Conf s' (upd t' (k' a) ps)). split; [exact P|]. split; [exact B|]. eapply y_do; eassumption. }
  assert (K : forall f, calm (lock_op lock f) (ARet [])) by (intros f; cbn; tauto).
  destruct (Forall2_nth_r _ _ _ _ _ (v_polite _ _ _ _ _ I) Ht) as (h & Hh & D).
  destruct h; [|eapply HH; [exact Hh | discriminate] ..].
  destruct w.
  { destruct (v_held _ _ _ _ _ I eq_refl) as (t' & E). eapply HH; [exact E | discriminate]. }
  inversion D; subst.
  - exists t, (lock_op lock "RLock"), k, (ARet []), (Conf (false, S (readers hs)) (upd t (k (ARet [])) ps)). split; [exact Ht|]. split; [exact NB|].
    eapply y_do; [exact Ht|]. rewrite (v_count _ _ _ _ _ I). split; [constructor | apply K].
  - destruct r as [|r].
    + exists t, (lock_op lock "Lock"), k, (ARet []), (Conf (true, 0) (upd t (k (ARet [])) ps)). split; [exact Ht|]. split; [exact NB|].
      eapply y_do; [exact Ht|]. split; [constructor | apply K].
    + destruct (some_reader _ _ (v_count _ _ _ _ _ I)) as (t' & E). eapply HH; [exact E | discriminate].
  - contradiction.
  - exists t, o, k, (ARet []), (Conf (false, r) (upd t (k (ARet [])) ps)). split; [exact Ht|]. split; [exact NB|]. eapply y_do; [exact Ht|].
    split; [now apply ls_other|]. assert (R : returns (ARet [])) by (exists []; split; [reflexivity | split; discriminate]). destruct o; cbn; tauto.
Qed.
End LOCKS.

(** ** The circuit breaker *)
Section BREAKER.
Variables base lock errs closes : nat.
Variables (msg : string) (max : Z) (interval : val) (ignored : list val).
Hypothesis Hbl : base <> lock.
Notation polite := (polite base lock).

Lemma pol_ask : forall {A} h o (k : list val -> script A) fail go, ~ is_lock_op lock o -> ~ is_base base o ->
  (forall a, calm base lock o a -> returns base lock a) ->
  (forall l, single l <> VRef base -> single l <> VRef lock -> polite h (lift (k l) fail go)) -> polite h (lift (Ask o k) fail go).
Proof. intros A h o k fail go N1 N2 R H. cbn [lift]. apply N_other; auto. intros a C. destruct (R a C) as (l & -> & Nb & Nl). auto. Qed.
Lemma pol_get : forall {A} h x (k : list val -> script A) fail go,
  (forall l, single l <> VRef base -> single l <> VRef lock -> polite h (lift (k l) fail go)) -> polite h (lift (Ask (OGet x) k) fail go).
Proof. intros. apply pol_ask; auto; [intros (f & _ & E) | intros (f & b & E)]; discriminate. Qed.
Lemma pol_set : forall {A} h x v (k : list val -> script A) fail go,
  (forall l, polite h (lift (k l) fail go)) -> polite h (lift (Ask (OSet x v) k) fail go).
Proof. intros. apply pol_ask; auto; [intros (f & _ & E) | intros (f & b & E)]; discriminate. Qed.
Lemma pol_call : forall {A} h f args (k : list val -> script A) fail go, f <> "errors.Is" ->
  (forall l, single l <> VRef base -> single l <> VRef lock -> polite h (lift (k l) fail go)) -> polite h (lift (Ask (OCall (VPkg f) args) k) fail go).
Proof.
  intros A h f args k fail go N H. apply pol_ask; auto; [intros (g & _ & E); discriminate | intros (g & b & E); discriminate|].
  intros a [R|(E & _)]; [exact R|]. congruence.
Qed.
Lemma pol_meth : forall {A} h v f args (k : list val -> script A) fail go, v <> VRef base -> v <> VRef lock ->
  (forall l, single l <> VRef base -> single l <> VRef lock -> polite h (lift (k l) fail go)) -> polite h (lift (Ask (OMeth v f args) k) fail go).
Proof.
  intros A h v f args k fail go N1 N2 H. apply pol_ask; auto; [intros (g & _ & E); unfold lock_op in E; congruence | intros (g & b & E); congruence|].
  intros a [R|[R|R]]; [contradiction | contradiction | exact R].
Qed.

Lemma pol_unlock_with : forall r, polite HW (unlock_with lock r).
Proof. intros r. apply (N_unlock base lock). intros l. apply N_ret. Qed.
Lemma pol_reset : forall vs, polite HW (locked lock vs (breaker_reset errs closes)).
Proof. intros vs. unfold locked, breaker_reset. apply pol_set. intros _. apply pol_set. intros _. apply pol_unlock_with. Qed.
Lemma pol_count : forall vs, polite HW (locked lock vs (breaker_count errs closes max interval)).
Proof.
  intros vs. unfold locked, breaker_count. apply pol_get. intros n _ _. apply pol_set. intros _. apply pol_get. intros n2 _ _.
  destruct (max <=? number n2)%Z; [|apply pol_unlock_with]. unfold time_now. apply pol_call; [discriminate|]. intros t N1 N2.
  apply pol_meth; auto. intros u _ _. apply pol_set. intros _. apply pol_unlock_with.
Qed.
Lemma pol_update : forall vs e, polite HW (locked lock vs (breaker_update errs closes max interval ignored e)).
Proof.
  intros vs e. unfold breaker_update. destruct (is_nil e); [apply pol_reset|].
  induction ignored as [|x l IH]; [apply pol_count|]. cbn [breaker_ignores andthen]. unfold locked. cbn [lift].
  apply N_other; [intros (g & _ & E); discriminate | intros (g & b & E); discriminate|].
  intros a [(b & -> & _)|(_ & v & ->)]; [|apply pol_unlock_with]. destruct (truth b); [exact (pol_reset vs) | exact IH].
Qed.
Lemma pol_entered : forall nm args zeros x, polite HN (entered lock errs closes max interval ignored (OMeth (VRef base) nm args) zeros x).
Proof.
  intros nm args zeros [e|]; cbn [entered]; [apply N_ret|]. apply N_base; [now exists nm, args|]. intros [vs|v|]; try apply N_ret.
  unfold after_base. apply (N_lock base lock). intros l. apply pol_update.
Qed.
Lemma pol_breaker : forall nm args zeros, polite HN (breaker_prog lock errs closes msg max interval ignored (OMeth (VRef base) nm args) zeros).
Proof.
  intros nm args zeros. unfold breaker_prog, breaker_check. set (go := entered _ _ _ _ _ _ _ _).
  assert (G : forall x, polite HN (go x)) by apply pol_entered.
  assert (P : polite HR (lift (Ask (on_lock lock "RUnlock") (fun _ => Done None)) give_up go)).
  { cbn [lift]. apply (N_runlock base lock). intros l. apply G. }
  apply (N_rlock base lock). intros l0. apply pol_get. intros c _ _. destruct (is_nil (single c)); [exact P|].
  apply pol_get. intros c2 N1 N2. unfold time_now. apply pol_call; [discriminate|]. intros n _ _. apply pol_meth; auto. intros b _ _.
  destruct (truth b); [|exact P]. cbn [lift]. apply (N_runlock base lock). intros l.
  apply (pol_call HN "errors.New" [VString msg] (fun e => Done (Some (single e))) give_up go); [discriminate|]. intros e _ _. apply G.
Qed.
End BREAKER.

(** the system: calls of methods of one circuit breaker *)
Notation breaker_system base lock errs closes msg max interval ignored :=
  (sys_step (calm_sem base lock) nothing (breaker_calls base lock errs closes msg max interval ignored)).

Theorem C82_implementation : forall base lock errs closes msg max interval ignored, base <> lock -> forall tr c,
  run (breaker_system base lock errs closes msg max interval ignored) (Conf (false, 0) []) tr c ->
  forall t nm args k, nth_error (cf_calls c) t = Some (Do (OMeth (VRef base) nm args) k) -> ~ holding lock tr t.
Proof.
  intros base lock errs closes msg max interval ignored N tr c H t nm args k Ht.
  eapply (polite_base base lock N); [| |exact H|exact Ht|now exists nm, args]; [now intros s e s' E|].
  intros p (nm' & args' & zeros & ->). now apply pol_breaker.
Qed.

Theorem C82_released : forall base lock errs closes msg max interval ignored, base <> lock -> forall tr c,
  run (breaker_system base lock errs closes msg max interval ignored) (Conf (false, 0) []) tr c ->
  forall t r, nth_error (cf_calls c) t = Some (Ret r) -> ~ holding lock tr t.
Proof.
  intros base lock errs closes msg max interval ignored N tr c H t r Ht.
  eapply (polite_end base lock N); [| |exact H|exact Ht]; [now intros s e s' E|].
  intros p (nm' & args' & zeros & ->). now apply pol_breaker.
Qed.

(** Go's RWMutex also makes readers wait for a writer that waits: the call that
    can go on here holds the lock or, if none does, is the one that waits. *)
Theorem C82_no_deadlock : forall base lock errs closes msg max interval ignored, base <> lock -> forall tr c,
  run (breaker_system base lock errs closes msg max interval ignored) (Conf (false, 0) []) tr c ->
  forall t o k, nth_error (cf_calls c) t = Some (Do o k) -> ~ is_base base o ->
  exists t' o' k' a c', nth_error (cf_calls c) t' = Some (Do o' k') /\ ~ is_base base o' /\
    breaker_system base lock errs closes msg max interval ignored c (EvDo t' o' a) c'.
Proof.
  intros base lock errs closes msg max interval ignored N tr c H t o k Ht NB.
  eapply (polite_progress base lock N); [| |exact H|exact Ht|exact NB]; [now intros s e s' E|].
  intros p (nm' & args' & zeros & ->). now apply pol_breaker.
Qed.

(** ** Examples *)

(** two calls: one in the implementation, the other holding the lock to read *)
Definition ex_call : prog := breaker_prog 2 3 4 "open" 5 (VInt 9) [] (OMeth (VRef 1) "Get" []) [VNil].
Definition ex_events : list (event unit) :=
  [EvCall; EvCall; EvDo 0 (lock_op 2 "RLock") (ARet []); EvDo 0 (OGet 4) (ARet [VNil]); EvDo 0 (lock_op 2 "RUnlock") (ARet []);
   EvDo 1 (lock_op 2 "RLock") (ARet [])].
Example C82_nontrivial : exists c k, run (breaker_system 1 2 3 4 "open" 5 (VInt 9) []) (Conf (false, 0) []) ex_events c /\
  nth_error (cf_calls c) 0 = Some (Do (OMeth (VRef 1) "Get" []) k) /\ ~ holding 2 ex_events 0 /\ holding 2 ex_events 1.
Proof.
  assert (E : breaker_calls 1 2 3 4 "open" 5 (VInt 9) [] ex_call) by (now exists "Get", [], [VNil]).
  assert (K : forall f a, calm 1 2 (lock_op 2 f) a) by (intros; cbn; tauto).
  assert (G : calm 1 2 (OGet 4) (ARet [VNil])) by (exists [VNil]; repeat split; discriminate).
  do 2 eexists. split.
  - unfold ex_events.
    eapply run_cons; [apply y_call; exact E|]. eapply run_cons; [apply y_call; exact E|]. cbn [app].
    eapply run_cons; [eapply y_do; [reflexivity | split; [apply (ls_rlock 2) | apply K]]|].
    eapply run_cons; [eapply y_do; [reflexivity | split; [apply ls_other; intros (f & _ & F); discriminate | exact G]]|].
    eapply run_cons; [eapply y_do; [reflexivity | split; [apply (ls_runlock 2) | apply K]]|].
    eapply run_cons; [eapply y_do; [reflexivity | split; [apply (ls_rlock 2) | apply K]]|]. apply run_nil.
  - split; [reflexivity|]. split.
    + intros [(i & (a & A) & U)|(i & (a & A) & U)].
      * apply (U 4); [|now exists (ARet [])]. destruct i as [|[|[|[|[|[|i]]]]]]; cbn in A; try discriminate; try lia. destruct i; discriminate.
      * destruct i as [|[|[|[|[|[|i]]]]]]; cbn in A; try discriminate. destruct i; discriminate.
    + left. exists 5. split; [now exists (ARet [])|]. intros j L (a & A). destruct j as [|[|[|[|[|[|j]]]]]]; try lia. destruct j; discriminate.
Qed.

(** A decorator that calls the implementation under the lock is not polite: the
    implementation could not call the decorator again. *)
Example C82_impolite : ~ polite 1 2 HN (Do (lock_op 2 "Lock") (fun _ => Do (OMeth (VRef 1) "Get" []) (fun _ => Do (lock_op 2 "Unlock") (fun _ => Ret (Val []))))).
Proof.
  intros H. inversion H; subst.
  - specialize (H1 []). inversion H1; subst; [match goal with N : ~ is_base _ _ |- _ => apply N end; now exists "Get", []].
  - match goal with B : is_base _ _ |- _ => destruct B as (? & ? & B); discriminate B end.
  - match goal with N : ~ is_lock_op _ _ |- _ => apply N end. exists "Lock". cbn. tauto.
Qed.

Print Assumptions C82_implementation.
Print Assumptions C82_released.
Print Assumptions C82_no_deadlock.
