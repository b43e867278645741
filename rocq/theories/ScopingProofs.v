(** Lemmas and tactics about Scoping.v. *)
From Verif Require Export Scoping.
Open Scope nat_scope.

Fixpoint nested (x : string) (l : list item) : Prop :=
  match l with [] => False | j :: r => used_in x j \/ (~ In x (added j) /\ nested x r) end.
Lemma used_block : forall x l, nested x l -> used_in x (IBlock l).
Proof. intros x. induction l as [|j r IH]; intros H; [exact H|]. destruct H as [H|[H K]]; [now left | right; split; [exact H | now apply IH]]. Qed.
Lemma used_fun : forall x l, nested x l -> used_in x (IFun l).
Proof. intros x. induction l as [|j r IH]; intros H; [exact H|]. destruct H as [H|[H K]]; [now left | right; split; [exact H | now apply IH]]. Qed.
Lemma ok_block : forall bs d rest l, items_ok ([] :: bs) (S d) l -> item_ok bs d rest (IBlock l).
Proof.
  intros bs d rest l. cbn [item_ok]. generalize (S d), ([] :: bs). clear.
  induction l as [|j r IH]; intros d bs H; [exact I|]. destruct H as [H K]. split; [exact H | now apply IH].
Qed.
Lemma ok_fun : forall bs d rest l, items_ok ([] :: bs) 0 l -> item_ok bs d rest (IFun l).
Proof.
  intros bs d rest l. cbn [item_ok]. generalize 0, ([] :: bs). clear.
  induction l as [|j r IH]; intros d bs H; [exact I|]. destruct H as [H K]. split; [exact H | now apply IH].
Qed.
(** and back, for refutations *)
Lemma block_ok : forall bs d rest l, item_ok bs d rest (IBlock l) -> items_ok ([] :: bs) (S d) l.
Proof.
  intros bs d rest l. cbn [item_ok]. generalize (S d), ([] :: bs). clear.
  induction l as [|j r IH]; intros d bs H; [exact I|]. destruct H as [H K]. split; [exact H | now apply IH].
Qed.
Lemma fun_ok : forall bs d rest l, item_ok bs d rest (IFun l) -> items_ok ([] :: bs) 0 l.
Proof.
  intros bs d rest l. cbn [item_ok]. generalize 0, ([] :: bs). clear.
  induction l as [|j r IH]; intros d bs H; [exact I|]. destruct H as [H K]. split; [exact H | now apply IH].
Qed.

Lemma used_here : forall x i r, used_in x i -> used x (i :: r).
Proof. intros x i r H. exists i. split; [now left | exact H]. Qed.
Lemma used_there : forall x i r, used x r -> used x (i :: r).
Proof. intros x i r (j & H & K). exists j. split; [now right | exact K]. Qed.
Lemma used_left : forall x l r, used x l -> used x (l ++ r).
Proof. intros x l r (j & H & K). exists j. split; [apply in_or_app; now left | exact K]. Qed.
Lemma used_right : forall x l r, used x r -> used x (l ++ r).
Proof. intros x l r (j & H & K). exists j. split; [apply in_or_app; now right | exact K]. Qed.
Lemma used_names : forall x l, In x l -> used x (uses l).
Proof. intros x l H. exists (IUse x). split; [now apply in_map | reflexivity]. Qed.

Definition adds_none (l : list item) : Prop := Forall (fun i => added i = []) l.
Lemma nested_skip : forall x l r, adds_none l -> nested x r -> nested x (l ++ r).
Proof.
  intros x. induction l as [|i l IH]; intros r H K; [exact K|]. apply Forall_cons_iff in H as [Hi H]. right.
  rewrite Hi. split; [intros []|]. now apply IH.
Qed.
Lemma nested_left : forall x l r, nested x l -> nested x (l ++ r).
Proof. intros x. induction l as [|i l IH]; intros r H; [destruct H|]. destruct H as [H|[H K]]; [now left | right; auto]. Qed.
Lemma nested_names : forall x l, In x l -> nested x (uses l).
Proof.
  intros x. induction l as [|y l IH]; intros H; [destruct H|]. destruct H as [-> | H]; [now left | right; split; [intros [] | auto]].
Qed.
Lemma uses_none : forall l, adds_none (uses l).
Proof. intros l. apply Forall_forall. intros i H. apply in_map_iff in H as (x & <- & _). reflexivity. Qed.
Lemma assigns_none : forall l, adds_none (map IAssign l).
Proof. intros l. apply Forall_forall. intros i H. apply in_map_iff in H as (x & <- & _). reflexivity. Qed.

Lemma visible_head : forall b bs x, x <> "_" -> In x b -> visible (b :: bs) x.
Proof. intros b bs x N H. split; [exact N|]. exists b. split; [now left | exact H]. Qed.
Lemma visible_tail : forall b bs x, visible bs x -> visible (b :: bs) x.
Proof. intros b bs x (N & c & H & K). split; [exact N|]. exists c. split; [now right | exact K]. Qed.

Lemma enter_none : forall i b bs, added i = [] -> enter i (b :: bs) = b :: bs.
Proof. intros i b bs H. unfold enter. now rewrite H. Qed.
Lemma ok_uses : forall b bs d l r, Forall (visible (b :: bs)) l -> items_ok (b :: bs) d r -> items_ok (b :: bs) d (uses l ++ r).
Proof.
  intros b bs d. induction l as [|x l IH]; intros r H K; [exact K|]. apply Forall_cons_iff in H as [Hx H].
  split; [exact Hx | rewrite enter_none by reflexivity; now apply IH].
Qed.
Lemma ok_assigns : forall b bs d l r, Forall (visible (b :: bs)) l -> items_ok (b :: bs) d r -> items_ok (b :: bs) d (map IAssign l ++ r).
Proof.
  intros b bs d. induction l as [|x l IH]; intros r H K; [exact K|]. apply Forall_cons_iff in H as [Hx H].
  split; [right; exact Hx | rewrite enter_none by reflexivity; now apply IH].
Qed.
(** items that declare nothing can be checked on their own *)
Lemma ok_app : forall b bs d l r, adds_none l -> items_ok (b :: bs) d l -> items_ok (b :: bs) d r -> items_ok (b :: bs) d (l ++ r).
Proof.
  intros b bs d. induction l as [|i l IH]; intros r H K1 K2; [exact K2|]. apply Forall_cons_iff in H as [Hi H].
  destruct K1 as [K0 K1]. rewrite enter_none in K1 by exact Hi. split; [|rewrite enter_none by exact Hi; now apply IH].
  destruct i; try exact K0; try discriminate Hi. cbn in Hi. subst. destruct K0 as ((? & [] & _) & _).
Qed.
