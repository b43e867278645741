(** Labelled transition systems: executions and invariants. *)
From Coq Require Export List Arith ZArith Lia Bool.
Export ListNotations.

Section Lts.
  Context {state label : Type}.
  Variable step : state -> label -> state -> Prop.

  (** an execution from [s], with the labels in order *)
  Inductive run (s : state) : list label -> state -> Prop :=
  | run_nil : run s [] s
  | run_snoc tr s1 l s2 : run s tr s1 -> step s1 l s2 -> run s (tr ++ [l]) s2.

  Lemma run_app s tr1 s1 tr2 s2 : run s tr1 s1 -> run s1 tr2 s2 -> run s (tr1 ++ tr2) s2.
  Proof.
    intros H1 H2. induction H2 as [|tr s2 l s3 H2 IH Hs]; [now rewrite app_nil_r|].
    rewrite app_assoc. econstructor; eauto.
  Qed.

  Lemma run_one s l s' : step s l s' -> run s [l] s'.
  Proof. intros H. change [l] with ([] ++ [l]). econstructor; [constructor | exact H]. Qed.

  Lemma run_cons s l s1 tr s2 : step s l s1 -> run s1 tr s2 -> run s (l :: tr) s2.
  Proof. intros H1 H2. change (l :: tr) with ([l] ++ tr). eapply run_app; eauto. now apply run_one. Qed.

  Lemma run_split s tr1 tr2 s2 : run s (tr1 ++ tr2) s2 -> exists s1, run s tr1 s1 /\ run s1 tr2 s2.
  Proof.
    revert s2; induction tr2 as [|l tr2 IH] using rev_ind; intros s2 H.
    - rewrite app_nil_r in H. exists s2. split; [exact H | constructor].
    - rewrite app_assoc in H. inversion H as [E|tr s1 l' s2' H1 H2 E]; [now destruct (tr1 ++ tr2)|].
      apply app_inj_tail in E. destruct E as (-> & ->). destruct (IH _ H1) as (s0 & A & B). exists s0. split; [exact A|].
      econstructor; eauto.
  Qed.

  Lemma run_cons_inv s l tr s2 : run s (l :: tr) s2 -> exists s1, step s l s1 /\ run s1 tr s2.
  Proof.
    intros H. change (l :: tr) with ([l] ++ tr) in H. apply run_split in H. destruct H as (s1 & H1 & H2).
    exists s1. split; [|exact H2]. inversion H1 as [|tr0 s0 l0 s3 HR HS E]; subst.
    destruct tr0 as [|? [|]]; try discriminate. injection E as <-. inversion HR as [|t ? ? ? ? ? E']; subst; [exact HS | now destruct t].
  Qed.

  (** invariants may mention the labels so far *)
  Lemma run_inv (P : list label -> state -> Prop) s :
    P [] s -> (forall tr s1 l s2, run s tr s1 -> P tr s1 -> step s1 l s2 -> P (tr ++ [l]) s2) ->
    forall tr s', run s tr s' -> P tr s'.
  Proof. intros H0 HS tr s' H. induction H; eauto. Qed.

  (** a state in which nothing can happen *)
  Definition stuck (s : state) : Prop := forall l s', ~ step s l s'.
End Lts.

(** replacing an element *)
Fixpoint upd {A} (n : nat) (x : A) (l : list A) : list A :=
  match n, l with
  | O, _ :: l' => x :: l'
  | S n', a :: l' => a :: upd n' x l'
  | _, [] => []
  end.
Lemma upd_length {A} n (x : A) l : length (upd n x l) = length l.
Proof. revert n; induction l as [|a l IH]; intros [|n]; cbn; auto. Qed.
Lemma nth_upd_same {A} n (x : A) l : n < length l -> nth_error (upd n x l) n = Some x.
Proof. revert n; induction l as [|a l IH]; intros [|n]; cbn; intros H; try lia; [reflexivity|]. apply IH. lia. Qed.
Lemma nth_upd_other {A} n m (x : A) l : n <> m -> nth_error (upd n x l) m = nth_error l m.
Proof. revert n m; induction l as [|a l IH]; intros [|n] [|m] H; cbn; auto; try lia. Qed.
Lemma nth_upd {A} n m (x y : A) l : nth_error (upd n x l) m = Some y ->
  (m = n /\ y = x /\ n < length l) \/ (m <> n /\ nth_error l m = Some y).
Proof.
  destruct (Nat.eq_dec m n) as [->|N].
  - intros H. assert (n < length l) by (rewrite <- (upd_length n x), <- nth_error_Some; congruence).
    rewrite nth_upd_same in H by assumption. left. intuition congruence.
  - rewrite nth_upd_other by auto. auto.
Qed.
Lemma nth_lt {A} (l : list A) n x : nth_error l n = Some x -> n < length l.
Proof. intros H. apply nth_error_Some. congruence. Qed.
Lemma nth_app_last {A} (l : list A) x : nth_error (l ++ [x]) (length l) = Some x.
Proof. rewrite nth_error_app2, Nat.sub_diag by lia. reflexivity. Qed.
Lemma nth_app_inv {A} (l : list A) x n y : nth_error (l ++ [x]) n = Some y ->
  nth_error l n = Some y \/ (n = length l /\ y = x).
Proof.
  intros H. destruct (Nat.lt_ge_cases n (length l)).
  - rewrite nth_error_app1 in H by assumption. now left.
  - right. rewrite nth_error_app2 in H by assumption. destruct (n - length l) as [|k] eqn:E; cbn in H; [|now destruct k].
    injection H as <-. split; [lia | reflexivity].
Qed.
