(** Proofs about interface resolution (generator.go). *)
From Coq Require Import Permutation.
From Verif Require Export Generator.
Open Scope nat_scope.

(** ** mergeMethods *)

Lemma merge_into_NoDup acc l : NoDup (keys acc) -> NoDup (keys (merge_into acc l)).
Proof.
  revert acc; induction l as [|[k v] l IH]; intros acc H; [exact H|].
  apply IH. now apply keys_assoc_set_NoDup.
Qed.

Lemma assoc_merge_into acc l k :
  NoDup (keys l) ->
  assoc k (merge_into acc l) = match assoc k l with Some v => Some v | None => assoc k acc end.
Proof.
  revert acc; induction l as [|[k0 v0] l IH]; intros acc H; [reflexivity|].
  cbn in H. inversion H as [|? ? Hn Hd]; subst.
  change (merge_into acc ((k0, v0) :: l)) with (merge_into (assoc_set k0 v0 acc) l).
  rewrite IH by exact Hd. cbn [assoc].
  destruct (String.eqb_spec k k0) as [->|N].
  - assert (assoc k0 l = None) as -> by now apply assoc_None. apply assoc_set_same.
  - destruct (assoc k l); [reflexivity|]. now apply assoc_set_other.
Qed.

Lemma mergeMethods_NoDup ms e : NoDup (keys ms) -> NoDup (keys (mergeMethods ms e)).
Proof.
  intros H. destruct e as [e|]; [|exact H]. cbn. apply merge_into_NoDup, merge_into_NoDup. constructor.
Qed.

Definition opt_keys (o : option methodsList) : list string :=
  match o with None => [] | Some l => keys l end.
Definition opt_assoc (k : string) (o : option methodsList) : option method :=
  match o with None => None | Some l => assoc k l end.

Lemma assoc_mergeMethods ms e k :
  NoDup (keys ms) -> NoDup (opt_keys e) ->
  assoc k (mergeMethods ms e) = match assoc k ms with Some v => Some v | None => opt_assoc k e end.
Proof.
  intros H1 H2. destruct e as [e|]; cbn.
  - rewrite assoc_merge_into by exact H1. destruct (assoc k ms); [reflexivity|].
    rewrite assoc_merge_into by exact H2. cbn. now destruct (assoc k e).
  - now destruct (assoc k ms).
Qed.

(** ** The loop over an interface's elements *)

Definition is_method (f : field) : bool := match f_type f with FuncT _ _ => true | _ => false end.

Section LoopSpec.
  Variable newMethod : string -> field -> res method.
  Variable embed : nat -> expr -> fres (genericParam * option methodsList).

  (** the interface's own (last) method declaration called [k] *)
  Fixpoint own_of (l : list field) (k : string) : option field :=
    match l with
    | [] => None
    | f :: l' =>
        match own_of l' k with
        | Some g => Some g
        | None => if is_method f && match f_names f with n :: _ => String.eqb n k | [] => false end
                  then Some f else None
        end
    end.

  (** the first embedded element, counted from [i], that has a method [k] *)
  Fixpoint emb_of (i : nat) (l : list field) (k : string) : option method :=
    match l with
    | [] => None
    | f :: l' =>
        if is_method f then emb_of (S i) l' k
        else match embed i (f_type f) with
             | Some (Ok (_, e)) =>
                 match opt_assoc k e with Some v => Some v | None => emb_of (S i) l' k end
             | _ => emb_of (S i) l' k
             end
    end.

  Lemma interface_loop_func i f l ms :
    is_method f = true ->
    interface_loop newMethod embed i (f :: l) ms =
      match f_names f with
      | [] => Some (Panic "index out of range [0]")
      | n :: _ => let? m := flift (newMethod n f) in
                  interface_loop newMethod embed (S i) l (assoc_set n m ms)
      end.
  Proof. unfold is_method. cbn. destruct (f_type f); try discriminate. reflexivity. Qed.

  Lemma interface_loop_emb i f l ms :
    is_method f = false ->
    interface_loop newMethod embed i (f :: l) ms =
      (let? pm := embed i (f_type f) in
       interface_loop newMethod embed (S i) l (mergeMethods ms (snd pm))).
  Proof. unfold is_method. cbn. destruct (f_type f); try discriminate; reflexivity. Qed.

  Hypothesis embed_NoDup : forall i e g m, embed i e = Some (Ok (g, m)) -> NoDup (opt_keys m).

  Lemma interface_loop_spec l : forall i ms ms',
    interface_loop newMethod embed i l ms = Some (Ok ms') -> NoDup (keys ms) ->
    NoDup (keys ms') /\
    forall k, assoc k ms' =
      match own_of l k with
      | Some f => match newMethod k f with Ok v => Some v | _ => None end
      | None => match assoc k ms with Some v => Some v | None => emb_of i l k end
      end.
  Proof.
    induction l as [|f l IH]; intros i ms ms' H Hd.
    - injection H as <-. split; [exact Hd|]. intros k. cbn. now destruct (assoc k ms).
    - destruct (is_method f) eqn:Ef.
      + rewrite interface_loop_func in H by exact Ef.
        destruct (f_names f) as [|n ns] eqn:En; [discriminate|].
        destruct (newMethod n f) as [m| |] eqn:Em; cbn in H; try discriminate.
        destruct (IH _ _ _ H (keys_assoc_set_NoDup n m ms Hd)) as (Hd' & HA).
        split; [exact Hd'|]. intros k. rewrite HA. cbn [own_of emb_of]. rewrite Ef, En. cbn [andb].
        destruct (own_of l k) as [g|]; [reflexivity|].
        destruct (String.eqb_spec n k) as [->|N].
        * now rewrite assoc_set_same, Em.
        * rewrite assoc_set_other by congruence. reflexivity.
      + rewrite interface_loop_emb in H by exact Ef.
        destruct (embed i (f_type f)) as [[[g e]| |]|] eqn:Ee; cbn in H; try discriminate.
        pose proof (embed_NoDup _ _ _ _ Ee) as He.
        destruct (IH _ _ _ H (mergeMethods_NoDup ms e Hd)) as (Hd' & HA).
        split; [exact Hd'|]. intros k. rewrite HA. cbn [own_of emb_of]. rewrite Ef. cbn [andb].
        rewrite assoc_mergeMethods by assumption. rewrite Ee.
        destruct (own_of l k) as [g'|]; [reflexivity|].
        destruct (assoc k ms); [reflexivity|]. destruct (opt_assoc k e); reflexivity.
  Qed.

  (** success of the loop means success of every element *)
  Lemma interface_loop_parts l : forall i ms ms',
    interface_loop newMethod embed i l ms = Some (Ok ms') ->
    forall j f, nth_error l j = Some f ->
      if is_method f
      then exists n ns m, f_names f = n :: ns /\ newMethod n f = Ok m
      else exists g e, embed (i + j) (f_type f) = Some (Ok (g, e)).
  Proof.
    induction l as [|f0 l IH]; intros i ms ms' H j f Hj; [destruct j; discriminate|].
    destruct (is_method f0) eqn:Ef.
    - rewrite interface_loop_func in H by exact Ef.
      destruct (f_names f0) as [|n ns] eqn:En; [discriminate|].
      destruct (newMethod n f0) as [m| |] eqn:Em; cbn in H; try discriminate.
      destruct j as [|j].
      + injection Hj as <-. rewrite Ef. exists n, ns, m. auto.
      + specialize (IH _ _ _ H j f Hj). destruct (is_method f); [exact IH|].
        now replace (i + S j) with (S i + j) by lia.
    - rewrite interface_loop_emb in H by exact Ef.
      destruct (embed i (f_type f0)) as [[[g e]| |]|] eqn:Ee; cbn in H; try discriminate.
      destruct j as [|j].
      + injection Hj as <-. rewrite Ef, Nat.add_0_r. eauto.
      + specialize (IH _ _ _ H j f Hj). destruct (is_method f); [exact IH|].
        now replace (i + S j) with (S i + j) by lia.
  Qed.

  Lemma own_of_Some l k :
    (exists g, own_of l k = Some g) <->
    exists f ns, In f l /\ is_method f = true /\ f_names f = k :: ns.
  Proof.
    induction l as [|f l IH]; cbn.
    - split; [intros (g & H); discriminate | intros (f & ns & [] & _)].
    - split.
      + intros (g & H). destruct (own_of l k) as [g'|] eqn:E.
        * destruct (proj1 IH (ex_intro _ g' eq_refl)) as (f' & ns & Hi & Hm & Hn). exists f', ns. auto.
        * destruct (is_method f) eqn:Em; [|discriminate]. cbn in H.
          destruct (f_names f) as [|n ns] eqn:En; [discriminate|].
          destruct (String.eqb_spec n k) as [->|]; [|discriminate]. exists f, ns. auto.
      + intros (f' & ns & [<-|Hi] & Hm & Hn).
        * destruct (own_of l k); [eauto|]. rewrite Hm, Hn. cbn. rewrite String.eqb_refl. eauto.
        * destruct (proj2 IH) as (g & Hg); [exists f', ns; auto|]. rewrite Hg. eauto.
  Qed.

  Lemma own_of_In l k g : own_of l k = Some g -> In g l /\ exists ns, f_names g = k :: ns.
  Proof.
    induction l as [|f l IH]; cbn; intros H; [discriminate|].
    destruct (own_of l k) as [g'|].
    - injection H as <-. destruct (IH eq_refl). auto.
    - destruct (is_method f && _) eqn:E; [|discriminate]. injection H as <-.
      apply andb_true_iff in E. destruct E as (_ & E).
      destruct (f_names f) as [|n ns]; [discriminate|]. apply String.eqb_eq in E. subst. eauto.
  Qed.

  Lemma emb_of_Some i l k :
    (exists v, emb_of i l k = Some v) <->
    exists j f g e, nth_error l j = Some f /\ is_method f = false /\
      embed (i + j) (f_type f) = Some (Ok (g, e)) /\ In k (opt_keys e).
  Proof.
    revert i; induction l as [|f l IH]; intros i; cbn [emb_of].
    - split; [intros (v & H); discriminate | intros ([|j] & f & g & e & H & _); discriminate].
    - assert (Rec : (exists v, emb_of (S i) l k = Some v) <->
        exists j f' g e, nth_error (f :: l) j = Some f' /\ j <> 0 /\ is_method f' = false /\
          embed (i + j) (f_type f') = Some (Ok (g, e)) /\ In k (opt_keys e)).
      { rewrite IH. split.
        - intros (j & f' & g & e & H1 & H2 & H3 & H4). exists (S j), f', g, e.
          replace (i + S j) with (S i + j) by lia. auto.
        - intros ([|j] & f' & g & e & H1 & H2 & H3 & H4 & H5); [contradiction|].
          exists j, f', g, e. replace (S i + j) with (i + S j) by lia. auto. }
      destruct (is_method f) eqn:Ef.
      + rewrite Rec. split; intros (j & f' & g & e & H).
        * exists j, f', g, e. tauto.
        * destruct j; [|exists (S j), f', g, e; intuition discriminate].
          destruct H as (H1 & H2 & _). injection H1 as <-. congruence.
      + destruct (embed i (f_type f)) as [[[g0 e0]| |]|] eqn:Ee.
        * destruct (opt_assoc k e0) as [v|] eqn:Ea.
          -- split; [intros _ | eauto]. exists 0, f, g0, e0. rewrite Nat.add_0_r. repeat split; auto.
             destruct e0 as [e0|]; [|discriminate]. cbn in *. apply assoc_Some_keys. eauto.
          -- rewrite Rec. split; intros (j & f' & g & e & H).
             ++ exists j, f', g, e. tauto.
             ++ destruct j; [|exists (S j), f', g, e; intuition discriminate].
                destruct H as (H1 & H2 & H3 & H4). injection H1 as <-. rewrite Nat.add_0_r, Ee in H3.
                injection H3 as <- <-. exfalso. destruct e0 as [e0|]; [|contradiction].
                cbn in *. now apply assoc_None in Ea.
        * rewrite Rec. split; intros (j & f' & g & e' & H).
          -- exists j, f', g, e'. tauto.
          -- destruct j; [|exists (S j), f', g, e'; intuition discriminate].
             destruct H as (H1 & H2 & H3 & H4). injection H1 as <-. rewrite Nat.add_0_r in H3. congruence.
        * rewrite Rec. split; intros (j & f' & g & e' & H).
          -- exists j, f', g, e'. tauto.
          -- destruct j; [|exists (S j), f', g, e'; intuition discriminate].
             destruct H as (H1 & H2 & H3 & H4). injection H1 as <-. rewrite Nat.add_0_r in H3. congruence.
        * rewrite Rec. split; intros (j & f' & g & e' & H).
          -- exists j, f', g, e'. tauto.
          -- destruct j; [|exists (S j), f', g, e'; intuition discriminate].
             destruct H as (H1 & H2 & H3 & H4). injection H1 as <-. rewrite Nat.add_0_r in H3. congruence.
  Qed.

  (** names in the result of the loop *)
  Lemma interface_loop_keys l i ms' :
    interface_loop newMethod embed i l [] = Some (Ok ms') ->
    forall k, In k (keys ms') <->
      (exists f ns, In f l /\ is_method f = true /\ f_names f = k :: ns) \/
      (exists j f g e, nth_error l j = Some f /\ is_method f = false /\
         embed (i + j) (f_type f) = Some (Ok (g, e)) /\ In k (opt_keys e)).
  Proof.
    intros H k. destruct (interface_loop_spec l i [] ms' H (NoDup_nil _)) as (_ & HA).
    rewrite assoc_Some_keys. rewrite HA. cbn [assoc].
    rewrite <- own_of_Some, <- emb_of_Some.
    destruct (own_of l k) as [f|] eqn:E.
    - split; [intros _; left; eauto | intros _].
      destruct (own_of_In _ _ _ E) as (Hi & ns & Hn).
      assert (Hm : is_method f = true).
      { clear -E. induction l as [|f0 l IH]; cbn in E; [discriminate|].
        destruct (own_of l k); [injection E as <-; auto|].
        destruct (is_method f0) eqn:Ef; cbn in E; [|discriminate].
        destruct (match f_names f0 with [] => false | n :: _ => String.eqb n k end); [|discriminate]. now injection E as <-. }
      apply In_nth_error in Hi. destruct Hi as (j & Hj).
      pose proof (interface_loop_parts _ _ _ _ H j f Hj) as P. rewrite Hm in P.
      destruct P as (n & ns' & m & En & Em). rewrite Hn in En. injection En as <- <-.
      rewrite Em. eauto.
    - split; [now right | intros [(g & Hg)|Hg]; [discriminate | exact Hg]].
  Qed.
End LoopSpec.
