(** Data races.

    The Go memory model (go.dev/ref/mem) calls two accesses to one variable a
    data race if at least one of them writes, they are made by different
    goroutines and neither happens before the other.  The operations of
    interleaved calls (Threads.v) are the events; [OGet] and [OSet] are the
    accesses.  Every call is taken for a goroutine of its own; fewer orderings
    follow from that than if a goroutine makes several calls.  Of the rules of
    package sync those of RWMutex are used: "For any sync.Mutex or sync.RWMutex
    variable l and n < m, call n of l.Unlock() is synchronized before call m of
    l.Lock() returns", and for RLock: an earlier Unlock is synchronized before
    it, and the matching RUnlock before the next Lock. *)
From Verif Require Export Threads.
Open Scope nat_scope.

(** ** Specification *)
Section RACES.
Variable lock : nat.
Definition lock_op (f : string) : op := OMeth (VRef lock) f [].
Definition lock_names : list string := ["RLock"; "RUnlock"; "Lock"; "Unlock"].
Definition is_lock_op (o : op) : Prop := exists f, In f lock_names /\ o = lock_op f.

(** the location an operation accesses, and whether it writes *)
Definition access (o : op) : option (nat * bool) :=
  match o with OGet x => Some (x, false) | OSet x _ => Some (x, true) | _ => None end.

Context {happening : Type}.
Notation events := (list (event happening)).

(** operation [o] of call [t] is at position [i] *)
Definition at_ (tr : events) (i t : nat) (o : op) : Prop := exists a, nth_error tr i = Some (EvDo t o a).

(** what the lock orders *)
Inductive synchronized : op -> op -> Prop :=
| sy_lock f : f = "Unlock" \/ f = "RUnlock" -> synchronized (lock_op f) (lock_op "Lock")
| sy_rlock : synchronized (lock_op "Unlock") (lock_op "RLock").

Inductive happens_before (tr : events) : nat -> nat -> Prop :=
| hb_program i j t o o' : i < j -> at_ tr i t o -> at_ tr j t o' -> happens_before tr i j
| hb_sync i j t t' o o' : i < j -> at_ tr i t o -> at_ tr j t' o' -> synchronized o o' -> happens_before tr i j
| hb_trans i j k : happens_before tr i j -> happens_before tr j k -> happens_before tr i k.

Definition conflicting (tr : events) (i j : nat) : Prop :=
  exists t t' o o' x w w', at_ tr i t o /\ at_ tr j t' o' /\ t <> t' /\
    access o = Some (x, w) /\ access o' = Some (x, w') /\ (w || w')%bool = true.

Definition race_free (tr : events) : Prop :=
  forall i j, i < j -> conflicting tr i j -> happens_before tr i j.

(** The lock: a writer holds it, or a number of readers.  Everything else may
    answer whatever it likes; in particular nothing is said about the values
    reads yield. *)
Inductive lock_sem : bool * nat -> op -> ans -> bool * nat -> Prop :=
| ls_rlock r l : lock_sem (false, r) (lock_op "RLock") (ARet l) (false, S r)
| ls_runlock w r l : lock_sem (w, S r) (lock_op "RUnlock") (ARet l) (w, r)
| ls_lock l : lock_sem (false, 0) (lock_op "Lock") (ARet l) (true, 0)
| ls_unlock r l : lock_sem (true, r) (lock_op "Unlock") (ARet l) (false, r)
| ls_other s o a : ~ is_lock_op o -> lock_sem s o a s.

(** ** Calls that access variables only under the lock *)
Inductive hold := HN | HR | HW.
Inductive disc : hold -> prog -> Prop :=
| D_ret h r : disc h (Ret r)
| D_rlock k : (forall l, disc HR (k (ARet l))) -> disc HN (Do (lock_op "RLock") k)
| D_runlock k : (forall l, disc HN (k (ARet l))) -> disc HR (Do (lock_op "RUnlock") k)
| D_lock k : (forall l, disc HW (k (ARet l))) -> disc HN (Do (lock_op "Lock") k)
| D_unlock k : (forall l, disc HN (k (ARet l))) -> disc HW (Do (lock_op "Unlock") k)
| D_get h x k : h <> HN -> (forall a, disc h (k a)) -> disc h (Do (OGet x) k)
| D_set x v k : (forall a, disc HW (k a)) -> disc HW (Do (OSet x v) k)
| D_other h o k : ~ is_lock_op o -> access o = None -> (forall a, disc h (k a)) -> disc h (Do o k).

(** ** Proof *)
Definition is_reader (h : hold) : bool := match h with HR => true | _ => false end.
Definition readers (hs : list hold) : nat := length (filter is_reader hs).
Definition weight (h : hold) : nat := if is_reader h then 1 else 0.

Lemma readers_app : forall a b, readers (a ++ b) = readers a + readers b.
Proof. intros. unfold readers. now rewrite filter_app, app_length. Qed.
Lemma readers_cons : forall h l, readers (h :: l) = weight h + readers l.
Proof. intros [] l; reflexivity. Qed.
Lemma readers_upd : forall hs t h h', nth_error hs t = Some h -> readers (upd t h' hs) + weight h = readers hs + weight h'.
Proof.
  induction hs as [|x hs IH]; intros [|t] h h' H; try discriminate; cbn [upd nth_error] in *.
  - injection H as ->. rewrite !readers_cons. lia.
  - rewrite !readers_cons. specialize (IH t h h' H). lia.
Qed.
Lemma readers_zero : forall hs t, readers hs = 0 -> nth_error hs t <> Some HR.
Proof.
  induction hs as [|x hs IH]; intros [|t] H; cbn; try discriminate; rewrite readers_cons in H.
  - intros E. injection E as ->. cbn in H. lia.
  - apply IH. lia.
Qed.

Definition released (tr : events) (i t : nat) (fs : list string) : Prop :=
  exists u f, i < u /\ In f fs /\ at_ tr u t (lock_op f).

Record inv (tr : events) (w : bool) (r : nat) (ps : list prog) (hs : list hold) : Prop := {
  i_disc : Forall2 disc hs ps;
  i_count : readers hs = r;
  i_writer : forall t, nth_error hs t = Some HW -> w = true /\ r = 0;
  i_one : forall t t', nth_error hs t = Some HW -> nth_error hs t' = Some HW -> t = t';
  i_some : forall t i o, at_ tr i t o -> t < length hs;
  i_hw : forall t, nth_error hs t = Some HW -> exists a, at_ tr a t (lock_op "Lock") /\
           forall u t' f, In f ["Unlock"; "RUnlock"] -> at_ tr u t' (lock_op f) -> u < a;
  i_hr : forall t, nth_error hs t = Some HR -> exists a, at_ tr a t (lock_op "RLock") /\
           forall u t', at_ tr u t' (lock_op "Unlock") -> u < a;
  i_wrote : forall i t o x, at_ tr i t o -> access o = Some (x, true) -> nth_error hs t = Some HW \/ released tr i t ["Unlock"];
  i_read : forall i t o x, at_ tr i t o -> access o = Some (x, false) -> nth_error hs t <> Some HN \/ released tr i t ["Unlock"; "RUnlock"];
  i_free : race_free tr }.

(** *** Traces that grow *)
Lemma at_snoc : forall tr e i t o, at_ (tr ++ [e]) i t o -> at_ tr i t o \/ i = length tr /\ exists a, e = EvDo t o a.
Proof.
  intros tr e i t o (a & H). apply nth_app_inv in H. destruct H as [H|(-> & <-)]; [left; now exists a | right; split; [reflexivity | now exists a]].
Qed.
Lemma at_old : forall tr e i t o, at_ tr i t o -> at_ (tr ++ [e]) i t o.
Proof. intros tr e i t o (a & H). exists a. rewrite nth_error_app1; [exact H|]. apply nth_error_Some. congruence. Qed.
Lemma at_last : forall tr t o a, at_ (tr ++ [EvDo t o a]) (length tr) t o.
Proof. intros. exists a. rewrite nth_error_app2, Nat.sub_diag by lia. reflexivity. Qed.
Lemma at_lt : forall tr i t o, at_ tr i t o -> i < length tr.
Proof. intros tr i t o (a & H). apply nth_error_Some. congruence. Qed.
Lemma at_fun : forall tr i t o t' o', at_ tr i t o -> at_ tr i t' o' -> t = t' /\ o = o'.
Proof. intros tr i t o t' o' (a & H) (a' & H'). rewrite H in H'. injection H' as -> ->. now split. Qed.

Lemma released_old : forall tr e i t fs, released tr i t fs -> released (tr ++ [e]) i t fs.
Proof. intros tr e i t fs (u & f & H1 & H2 & H3). exists u, f. split; [exact H1|]. split; [exact H2 | now apply at_old]. Qed.
Lemma hb_old : forall tr e i j, happens_before tr i j -> happens_before (tr ++ [e]) i j.
Proof.
  intros tr e i j H. induction H as [i j t o o' H1 H2 H3|i j t t' o o' H1 H2 H3 H4|i j k H1 IH1 H2 IH2].
  - eapply hb_program; eauto using at_old.
  - eapply hb_sync; eauto using at_old.
  - eapply hb_trans; eauto.
Qed.

(** an event that is no access keeps the trace free of races *)
Lemma free_snoc : forall tr e, race_free tr ->
  (forall i t' o x w w' t o' a, e = EvDo t o' a -> at_ tr i t' o -> t' <> t -> access o = Some (x, w) -> access o' = Some (x, w') ->
     (w || w')%bool = true -> happens_before (tr ++ [e]) i (length tr)) ->
  race_free (tr ++ [e]).
Proof.
  intros tr e F H i j Hij (t & t' & o & o' & x & w & w' & Hi & Hj & N & A1 & A2 & W).
  apply at_snoc in Hj. destruct Hj as [Hj|(-> & a & E)].
  - apply at_snoc in Hi. destruct Hi as [Hi|(-> & _)]; [|apply at_lt in Hj; lia].
    apply hb_old. apply F; [exact Hij|]. exists t, t', o, o', x, w, w'. tauto.
  - apply at_snoc in Hi. destruct Hi as [Hi|(-> & _)]; [|lia]. eapply H; eassumption.
Qed.

Lemma not_lock_op : forall f, In f lock_names -> is_lock_op (lock_op f).
Proof. intros f H. exists f. now split. Qed.
Lemma lock_op_inj : forall f g, lock_op f = lock_op g -> f = g.
Proof. intros f g H. now injection H. Qed.

Lemma nth_snoc_hn : forall hs t h, nth_error (hs ++ [HN]) t = Some h -> h <> HN -> nth_error hs t = Some h.
Proof. intros hs t h H N. apply nth_app_inv in H. destruct H as [H|(_ & H)]; [exact H | congruence]. Qed.

Lemma upd_id : forall {A} t (x : A) l, nth_error l t = Some x -> upd t x l = l.
Proof. intros A t x l. revert t. induction l as [|a l IH]; intros [|t] H; cbn in *; try discriminate; [now injection H as -> | now rewrite IH]. Qed.

(** *** Events that are no operation *)
Lemma inv_quiet : forall tr w r ps hs e, inv tr w r ps hs -> (forall t o a, e <> EvDo t o a) -> inv (tr ++ [e]) w r ps hs.
Proof.
  intros tr w r ps hs e I N.
  assert (O : forall i t o, at_ (tr ++ [e]) i t o -> at_ tr i t o).
  { intros i t o H. apply at_snoc in H. destruct H as [H|(_ & a & H)]; [exact H | destruct (N _ _ _ H)]. }
  destruct I as [I1 I2 I3 I4 I5 I6 I7 I8 I9 I10]. constructor; auto.
  - intros t i o H. eauto.
  - intros t H. destruct (I6 t H) as (a & Ha & Hu). exists a. split; [now apply at_old|]. intros u t' f Hf H'. eauto.
  - intros t H. destruct (I7 t H) as (a & Ha & Hu). exists a. split; [now apply at_old|]. intros u t' H'. eauto.
  - intros i t o x H A. destruct (I8 i t o x (O _ _ _ H) A) as [K|K]; [now left | right; now apply released_old].
  - intros i t o x H A. destruct (I9 i t o x (O _ _ _ H) A) as [K|K]; [now left | right; now apply released_old].
  - apply free_snoc; [exact I10|]. intros i t' o x w0 w' t o' a E. destruct (N _ _ _ E).
Qed.

Lemma inv_call : forall tr w r ps hs p, inv tr w r ps hs -> disc HN p -> inv (tr ++ [EvCall]) w r (ps ++ [p]) (hs ++ [HN]).
Proof.
  intros tr w r ps hs p I D. apply (inv_quiet _ _ _ _ _ EvCall) in I; [|discriminate].
  destruct I as [I1 I2 I3 I4 I5 I6 I7 I8 I9 I10]. constructor; auto.
  - now apply Forall2_snoc.
  - rewrite readers_app. cbn. lia.
  - intros t H. apply nth_snoc_hn in H; [eauto | discriminate].
  - intros t t' H H'. apply nth_snoc_hn in H; [|discriminate]. apply nth_snoc_hn in H'; [|discriminate]. eauto.
  - intros t i o H. rewrite app_length. specialize (I5 t i o H). lia.
  - intros t H. apply nth_snoc_hn in H; [eauto | discriminate].
  - intros t H. apply nth_snoc_hn in H; [eauto | discriminate].
  - intros i t o x H A. destruct (I8 i t o x H A) as [K|K]; [left | now right]. rewrite nth_error_app1; [exact K|]. apply nth_error_Some. congruence.
  - intros i t o x H A. destruct (I9 i t o x H A) as [K|K]; [left | now right]. rewrite nth_error_app1; [exact K|]. eapply I5, H.
Qed.

(** *** Operations other than those of the lock *)
Lemma inv_op : forall tr w r ps hs t h o k a, inv tr w r ps hs -> nth_error hs t = Some h -> nth_error ps t = Some (Do o k) ->
  ~ is_lock_op o -> disc h (k a) ->
  (forall x, access o = Some (x, true) -> h = HW) -> (forall x, access o = Some (x, false) -> h <> HN) ->
  inv (tr ++ [EvDo t o a]) w r (upd t (k a) ps) hs.
Proof.
  intros tr w r ps hs t h o k a I Ht Hp N D AW AR.
  assert (O : forall i t' f, In f lock_names -> at_ (tr ++ [EvDo t o a]) i t' (lock_op f) -> at_ tr i t' (lock_op f)).
  { intros i t' f Hf H. apply at_snoc in H. destruct H as [H|(_ & b & H)]; [exact H|]. injection H as <- -> _. destruct N. now apply not_lock_op. }
  destruct I as [I1 I2 I3 I4 I5 I6 I7 I8 I9 I10]. constructor; auto.
  - rewrite <- (upd_id t h hs Ht). now apply Forall2_upd.
  - intros t' i o' H. apply at_snoc in H. destruct H as [H|(_ & b & H)]; [eauto|]. injection H as <- _ _. now apply nth_lt in Ht.
  - intros t' H. destruct (I6 t' H) as (b & Hb & Hu). exists b. split; [now apply at_old|]. intros u t2 f Hf H2. apply (Hu u t2 f Hf). apply O; [|exact H2].
    destruct Hf as [<-|[<-|[]]]; cbn; tauto.
  - intros t' H. destruct (I7 t' H) as (b & Hb & Hu). exists b. split; [now apply at_old|]. intros u t2 H2. apply (Hu u t2). apply O; [cbn; tauto | exact H2].
  - intros i t' o' x H A. apply at_snoc in H. destruct H as [H|(_ & b & H)].
    + destruct (I8 i t' o' x H A) as [K|K]; [now left | right; now apply released_old].
    + injection H as <- <- _. left. rewrite Ht. f_equal. eauto.
  - intros i t' o' x H A. apply at_snoc in H. destruct H as [H|(_ & b & H)].
    + destruct (I9 i t' o' x H A) as [K|K]; [now left | right; now apply released_old].
    + injection H as <- <- _. left. rewrite Ht. intros E. injection E as ->. exact (AR _ A eq_refl).
  - apply free_snoc; [exact I10|]. intros i t' o0 x w0 w' t0 o' b E Hi NT A A' W. injection E as <- <- _.
    pose proof (at_last tr t o a) as HL.
    assert (Hlt : t' < length hs) by eauto.
    assert (Z : forall u b, i < u -> u < b -> b < length tr -> forall f g, at_ tr u t' (lock_op f) -> at_ tr b t (lock_op g) ->
                synchronized (lock_op f) (lock_op g) -> happens_before (tr ++ [EvDo t o a]) i (length tr)).
    { intros u c L1 L2 L3 f g Hu Hc S. eapply hb_trans; [eapply hb_program; [exact L1 | apply at_old; exact Hi | apply at_old; exact Hu]|].
      eapply hb_trans; [eapply hb_sync; [exact L2 | apply at_old; exact Hu | apply at_old; exact Hc | exact S]|].
      eapply hb_program; [exact L3 | apply at_old; exact Hc | exact HL]. }
    destruct w'.
    + (* the new access writes *)
      assert (h = HW) by eauto. subst h. destruct (I6 t Ht) as (c & Hc & Hu).
      assert (R : released tr i t' ["Unlock"; "RUnlock"]).
      { destruct w0.
        - destruct (I8 i t' o0 x Hi A) as [K|(u & f & U1 & U2 & U3)]; [destruct NT; eauto|]. exists u, f. destruct U2 as [<-|[]]. cbn. tauto.
        - destruct (I9 i t' o0 x Hi A) as [K|K]; [|exact K]. destruct (nth_error hs t') as [[| |]|] eqn:E'; [congruence | | destruct NT; eauto | apply nth_error_None in E'; lia].
          exfalso. destruct (I3 t Ht) as (_ & R0). rewrite R0 in I2. exact (readers_zero _ _ I2 E'). }
      destruct R as (u & f & U1 & U2 & U3). apply (Z u c U1 (Hu _ _ _ U2 U3) (at_lt _ _ _ _ Hc) f "Lock" U3 Hc). apply sy_lock. destruct U2 as [<-|[<-|[]]]; tauto.
    + (* it reads, the old one wrote *)
      rewrite orb_false_r in W. subst w0. assert (NH : h <> HN) by eauto.
      destruct (I8 i t' o0 x Hi A) as [K|(u & f & U1 & [<-|[]] & U3)].
      * exfalso. destruct h; [congruence | | destruct NT; eauto]. destruct (I3 _ K) as (_ & R0). rewrite R0 in I2. exact (readers_zero _ _ I2 Ht).
      * destruct h; [congruence | |].
        -- destruct (I7 t Ht) as (c & Hc & Hu). apply (Z u c U1 (Hu _ _ U3) (at_lt _ _ _ _ Hc) "Unlock" "RLock" U3 Hc). apply sy_rlock.
        -- destruct (I6 t Ht) as (c & Hc & Hu). apply (Z u c U1 (Hu _ _ "Unlock" (or_introl eq_refl) U3) (at_lt _ _ _ _ Hc) "Unlock" "Lock" U3 Hc). apply sy_lock. now left.
Qed.

(** *** The operations of the lock *)
Lemma free_lock_op : forall tr t f a, race_free tr -> race_free (tr ++ [EvDo t (lock_op f) a]).
Proof. intros tr t f a F. apply free_snoc; [exact F|]. intros i t' o x w w' t0 o' b E. injection E as <- <- _. discriminate. Qed.

Lemma access_old : forall tr t f b i t' o x w, at_ (tr ++ [EvDo t (lock_op f) b]) i t' o -> access o = Some (x, w) -> at_ tr i t' o.
Proof. intros tr t f b i t' o x w H A. apply at_snoc in H. destruct H as [H|(_ & c & H)]; [exact H|]. injection H as <- <- _. discriminate. Qed.

Lemma some_old : forall tr (hs : list hold) h' t f b, t < length hs -> (forall t i o, at_ tr i t o -> t < length hs) ->
  forall t' i o, at_ (tr ++ [EvDo t (lock_op f) b]) i t' o -> t' < length (upd t h' hs).
Proof.
  intros tr hs h' t f b L I t' i o H. rewrite upd_length. apply at_snoc in H. destruct H as [H|(_ & c & H)]; [eauto|]. now injection H as <- _ _.
Qed.

Ltac sem_ H := inversion H; subst; try discriminate; first [now repeat split |
  match goal with N : ~ is_lock_op _ |- _ => exfalso; apply N; now apply not_lock_op end].

Lemma inv_lock_op : forall tr w r ps hs t k f l w' r', inv tr w r ps hs -> nth_error ps t = Some (Do (lock_op f) k) ->
  lock_sem (w, r) (lock_op f) (ARet l) (w', r') -> In f lock_names ->
  exists hs', inv (tr ++ [EvDo t (lock_op f) (ARet l)]) w' r' (upd t (k (ARet l)) ps) hs'.
Proof.
  intros tr w r ps hs t k f l w' r' I Hp Sm Hf. destruct (Forall2_nth_r _ _ _ _ _ (i_disc _ _ _ _ _ I) Hp) as (h & Ht & D).
  pose proof (nth_lt _ _ _ Ht) as Lt.
  destruct I as [I1 I2 I3 I4 I5 I6 I7 I8 I9 I10].
  assert (NO : forall o a, (~ is_lock_op o) -> o = lock_op f -> a) by (intros o a N E; subst o; destruct N; now apply not_lock_op).
  assert (NW : forall t', nth_error hs t' = Some HW -> w = true) by (intros t' E; now destruct (I3 _ E)).
  set (e := EvDo t (lock_op f) (ARet l)).
  assert (OLD : forall i t' g, g <> f -> at_ (tr ++ [e]) i t' (lock_op g) -> at_ tr i t' (lock_op g)).
  { intros i t' g N H. apply at_snoc in H. destruct H as [H|(_ & c & H)]; [exact H|]. unfold e in H. injection H as _ E _. congruence. }
  remember (Do (lock_op f) k) as p eqn:Ep. destruct D as [h0 r0|k0 D|k0 D|k0 D|k0 D|h0 x k0 _ D|x v k0 D|h0 o k0 N1 N2 D]; try discriminate;
    try (injection Ep as E1 E2; subst k0; try subst f).
  5:{ exfalso. now apply (NO _ _ N1). }
  - (* RLock *)
    assert (w = false /\ w' = false /\ r' = S r) as (-> & -> & ->).
    { sem_ Sm. }
    exists (upd t HR hs). pose proof (readers_upd hs t HN HR Ht) as C. cbn in C.
    assert (NHW : forall t', nth_error hs t' <> Some HW) by (intros t' E; apply NW in E; discriminate).
    assert (U : forall t', nth_error (upd t HR hs) t' <> Some HW).
    { intros t' E. apply nth_upd in E. destruct E as [(_ & E & _)|(_ & E)]; [discriminate | now apply NHW in E]. }
    constructor.
    + apply Forall2_upd; [exact I1 | apply D].
    + lia.
    + intros t' E. now apply U in E.
    + intros t' t2 E. now apply U in E.
    + apply some_old; assumption.
    + intros t' E. now apply U in E.
    + intros t' E. apply nth_upd in E. destruct E as [(-> & _ & _)|(N & E)].
      * exists (length tr). split; [apply at_last|]. intros u t2 H. apply OLD in H; [|discriminate]. now apply at_lt in H.
      * destruct (I7 t' E) as (a & Ha & Hu). exists a. split; [now apply at_old|]. intros u t2 H. apply OLD in H; [eauto | discriminate].
    + intros i t' o x H A. apply (access_old _ _ _ _ _ _ _ _ _) with (2 := A) in H. destruct (I8 i t' o x H A) as [K|K]; [now apply NHW in K | right; now apply released_old].
    + intros i t' o x H A. apply (access_old _ _ _ _ _ _ _ _ _) with (2 := A) in H. destruct (I9 i t' o x H A) as [K|K]; [left | right; now apply released_old].
      destruct (Nat.eq_dec t' t) as [->|N]; [congruence | now rewrite nth_upd_other by congruence].
    + now apply free_lock_op.
  - (* RUnlock *)
    assert (w' = w /\ r = S r') as (-> & ->).
    { sem_ Sm. }
    exists (upd t HN hs). pose proof (readers_upd hs t HR HN Ht) as C. cbn in C.
    assert (NHW : forall t', nth_error hs t' <> Some HW) by (intros t' E; destruct (I3 _ E) as (_ & Z); discriminate).
    assert (U : forall t', nth_error (upd t HN hs) t' <> Some HW).
    { intros t' E. apply nth_upd in E. destruct E as [(_ & E & _)|(_ & E)]; [discriminate | now apply NHW in E]. }
    constructor.
    + apply Forall2_upd; [exact I1 | apply D].
    + lia.
    + intros t' E. now apply U in E.
    + intros t' t2 E. now apply U in E.
    + apply some_old; assumption.
    + intros t' E. now apply U in E.
    + intros t' E. apply nth_upd in E. destruct E as [(_ & E & _)|(N & E)]; [discriminate|].
      destruct (I7 t' E) as (a & Ha & Hu). exists a. split; [now apply at_old|]. intros u t2 H. apply OLD in H; [eauto | discriminate].
    + intros i t' o x H A. apply (access_old _ _ _ _ _ _ _ _ _) with (2 := A) in H. destruct (I8 i t' o x H A) as [K|K]; [now apply NHW in K | right; now apply released_old].
    + intros i t' o x H A. apply (access_old _ _ _ _ _ _ _ _ _) with (2 := A) in H. destruct (Nat.eq_dec t' t) as [->|N].
      * right. exists (length tr), "RUnlock". split; [now apply at_lt in H|]. split; [cbn; tauto | apply at_last].
      * destruct (I9 i t' o x H A) as [K|K]; [left | right; now apply released_old]. now rewrite nth_upd_other by congruence.
    + now apply free_lock_op.
  - (* Lock *)
    assert (w = false /\ r = 0 /\ w' = true /\ r' = 0) as (-> & -> & -> & ->).
    { sem_ Sm. }
    exists (upd t HW hs). pose proof (readers_upd hs t HN HW Ht) as C. cbn in C.
    assert (NHW : forall t', nth_error hs t' <> Some HW) by (intros t' E; apply NW in E; discriminate).
    assert (NHR : forall t', nth_error hs t' <> Some HR) by (intros t'; apply readers_zero; exact I2).
    constructor.
    + apply Forall2_upd; [exact I1 | apply D].
    + lia.
    + intros t' E. tauto.
    + intros t' t2 E E2. apply nth_upd in E. apply nth_upd in E2. destruct E as [(-> & _)|(_ & E)]; [|now apply NHW in E].
      destruct E2 as [(-> & _)|(_ & E2)]; [reflexivity | now apply NHW in E2].
    + apply some_old; assumption.
    + intros t' E. apply nth_upd in E. destruct E as [(-> & _ & _)|(N & E)]; [|now apply NHW in E].
      exists (length tr). split; [apply at_last|]. intros u t2 g Hg H. apply OLD in H; [now apply at_lt in H|]. destruct Hg as [<-|[<-|[]]]; discriminate.
    + intros t' E. apply nth_upd in E. destruct E as [(_ & E & _)|(_ & E)]; [discriminate | now apply NHR in E].
    + intros i t' o x H A. apply (access_old _ _ _ _ _ _ _ _ _) with (2 := A) in H. destruct (I8 i t' o x H A) as [K|K]; [now apply NHW in K | right; now apply released_old].
    + intros i t' o x H A. apply (access_old _ _ _ _ _ _ _ _ _) with (2 := A) in H. destruct (I9 i t' o x H A) as [K|K]; [left | right; now apply released_old].
      destruct (Nat.eq_dec t' t) as [->|N]; [congruence | now rewrite nth_upd_other by congruence].
    + now apply free_lock_op.
  - (* Unlock *)
    assert (w = true /\ w' = false /\ r' = r) as (-> & -> & ->).
    { sem_ Sm. }
    exists (upd t HN hs). pose proof (readers_upd hs t HW HN Ht) as C. cbn in C.
    destruct (I3 _ Ht) as (_ & ->).
    assert (NHR : forall t', nth_error hs t' <> Some HR) by (intros t'; apply readers_zero; exact I2).
    assert (U : forall t', nth_error (upd t HN hs) t' <> Some HW).
    { intros t' E. apply nth_upd in E. destruct E as [(_ & E & _)|(N & E)]; [discriminate|]. now specialize (I4 _ _ E Ht). }
    constructor.
    + apply Forall2_upd; [exact I1 | apply D].
    + lia.
    + intros t' E. now apply U in E.
    + intros t' t2 E. now apply U in E.
    + apply some_old; assumption.
    + intros t' E. now apply U in E.
    + intros t' E. apply nth_upd in E. destruct E as [(_ & E & _)|(_ & E)]; [discriminate | now apply NHR in E].
    + intros i t' o x H A. apply (access_old _ _ _ _ _ _ _ _ _) with (2 := A) in H. destruct (Nat.eq_dec t' t) as [->|N].
      * right. exists (length tr), "Unlock". split; [now apply at_lt in H|]. split; [cbn; tauto | apply at_last].
      * destruct (I8 i t' o x H A) as [K|K]; [now specialize (I4 _ _ K Ht) | right; now apply released_old].
    + intros i t' o x H A. apply (access_old _ _ _ _ _ _ _ _ _) with (2 := A) in H. destruct (Nat.eq_dec t' t) as [->|N].
      * right. exists (length tr), "Unlock". split; [now apply at_lt in H|]. split; [cbn; tauto | apply at_last].
      * destruct (I9 i t' o x H A) as [K|K]; [left | right; now apply released_old]. now rewrite nth_upd_other by congruence.
    + now apply free_lock_op.
Qed.

(** *** Whole executions *)
Variable env : bool * nat -> happening -> bool * nat -> Prop.
Hypothesis Henv : forall s e s', env s e s' -> s' = s.
Variable entry : prog -> Prop.
Hypothesis Hentry : forall p, entry p -> disc HN p.

Lemma run_inv_ : forall tr c, run (sys_step lock_sem env entry) (Conf (false, 0) []) tr c ->
  exists hs, inv tr (fst (cf_shared c)) (snd (cf_shared c)) (cf_calls c) hs.
Proof.
  intros tr c H. induction H as [|tr c1 e c2 HR (hs & I) HS].
  - exists []. cbn. constructor; unfold race_free, conflicting, at_.
    + constructor.
    + reflexivity.
    + intros [|t] H; discriminate.
    + intros [|t] t' H; discriminate.
    + intros t [|i] o (a & H); discriminate.
    + intros [|t] H; discriminate.
    + intros [|t] H; discriminate.
    + intros [|i] t o x (a & H); discriminate.
    + intros [|i] t o x (a & H); discriminate.
    + intros [|i] j Hij (t & t' & o & o' & x & w & w' & (a & H) & _); discriminate.
  - destruct HS as [s e s' ps He|s ps p Hp|[w r] ps i o k a s' Hi Hs]; cbn [cf_calls cf_shared] in *.
    + rewrite (Henv _ _ _ He). exists hs. apply inv_quiet; [exact I | discriminate].
    + exists (hs ++ [HN]). apply inv_call; [exact I | now apply Hentry].
    + cbn [fst snd] in I.
      assert (LK : forall f l w' r', In f lock_names -> o = lock_op f -> a = ARet l -> s' = (w', r') ->
                   exists hs', inv (tr ++ [EvDo i o a]) (fst s') (snd s') (upd i (k a) ps) hs').
      { intros f l w' r' Hf -> -> ->. cbn [fst snd]. eapply inv_lock_op; eauto. }
      destruct (Forall2_nth_r _ _ _ _ _ (i_disc _ _ _ _ _ I) Hi) as (h & Ht & D).
      inversion Hs; subst; try (eapply LK; [|reflexivity ..]; cbn; tauto).
      exists hs. cbn [fst snd]. match goal with N : ~ is_lock_op o |- _ => rename N into NL end.
      inversion D; subst; try (exfalso; apply NL; apply not_lock_op; cbn; tauto);
        (eapply inv_op; [exact I | exact Ht | exact Hi | exact NL | auto | |]); cbn [access]; intros; congruence.
Qed.

(** Calls that keep to the lock have no data race, in whatever order their
    operations come. *)
Theorem disciplined_race_free : forall tr c, run (sys_step lock_sem env entry) (Conf (false, 0) []) tr c -> race_free tr.
Proof. intros tr c H. destruct (run_inv_ tr c H) as (hs & I). apply I. Qed.
End RACES.
