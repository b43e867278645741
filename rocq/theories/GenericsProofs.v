(** Proofs about the model of generator/generics.go. *)
From Verif Require Export Generics.
Open Scope nat_scope.

(** All type parameter names of an interface, in declaration order. *)
Definition tp_names (g : list genericType) : list string := flat_map gt_names g.

(** [instantiates names args t t']: [t'] is the argument given for the type
    parameter [t] if [t] is one (first position counts), [t] itself otherwise. *)
Definition instantiates (names : list string) (args : list genericParam) (t t' : string) : Prop :=
  (exists i a, nth_error names i = Some t /\ nth_error args i = Some a /\
               (forall j, j < i -> nth_error names j <> Some t) /\ t' = gp_string a) \/
  ((forall i, nth_error names i = Some t -> nth_error args i = None) /\ t' = t).

Lemma bgps_names_spec t ns i params :
  match bgps_names t ns i params with
  | inl o => exists k a, nth_error ns k = Some t /\ nth_error params (i + k) = Some a /\
               (forall j, j < k -> nth_error ns j <> Some t) /\ o = Some (gp_string a)
  | inr i' => i' = i + length ns /\
              (forall k, nth_error ns k = Some t -> nth_error params (i + k) = None)
  end.
Proof.
  revert i; induction ns as [|n ns IH]; intros i; cbn [bgps_names].
  - split; [cbn; lia|]. intros k; destruct k; discriminate.
  - assert (Rec : match bgps_names t ns (S i) params with
      | inl o => exists k a, nth_error (n :: ns) k = Some t /\ nth_error params (i + k) = Some a /\
                 (forall j, j < k -> nth_error (n :: ns) j = Some t -> j = 0) /\ o = Some (gp_string a) /\ k <> 0
      | inr i' => i' = i + length (n :: ns) /\
              (forall k, nth_error (n :: ns) k = Some t -> k <> 0 -> nth_error params (i + k) = None)
      end).
    { specialize (IH (S i)). destruct (bgps_names t ns (S i) params) as [o|i'].
      - destruct IH as (k & a & H1 & H2 & H3 & H4). exists (S k), a. repeat split; auto.
        + now rewrite Nat.add_succ_r.
        + intros [|j] Hj Hn; [reflexivity|]. exfalso. apply (H3 j); [lia | exact Hn].
      - destruct IH as (H1 & H2). split; [cbn; lia|].
        intros [|k] Hk Hk0; [contradiction|]. rewrite Nat.add_succ_r. now apply H2. }
    destruct (String.eqb_spec n t) as [->|N].
    + destruct (nth_error params i) as [p|] eqn:Ep.
      * exists 0, p. rewrite Nat.add_0_r. repeat split; auto. intros j Hj; lia.
      * destruct (bgps_names t ns (S i) params) as [o|i'].
        -- destruct Rec as (k & a & _ & H2 & _). exfalso.
           apply nth_error_None in Ep. assert (nth_error params (i + k) <> None) as X by congruence.
           apply nth_error_Some in X. lia.
        -- destruct Rec as (H1 & H2). split; [exact H1|].
           intros k Hk. destruct (Nat.eq_dec k 0) as [->|K]; [now rewrite Nat.add_0_r | now apply H2].
    + destruct (bgps_names t ns (S i) params) as [o|i'].
      * destruct Rec as (k & a & H1 & H2 & H3 & H4 & H5). exists k, a. repeat split; auto.
        intros j Hj Hn. pose proof (H3 j Hj Hn) as ->. cbn in Hn. congruence.
      * destruct Rec as (H1 & H2). split; [exact H1|].
        intros k Hk. apply H2; [exact Hk|]. intros ->. cbn in Hk. congruence.
Qed.

Lemma bgps_types_spec t g i params :
  let r := bgps_types t g i params in
  (exists k a, nth_error (tp_names g) k = Some t /\ nth_error params (i + k) = Some a /\
               (forall j, j < k -> nth_error (tp_names g) j <> Some t) /\ r = gp_string a) \/
  ((forall k, nth_error (tp_names g) k = Some t -> nth_error params (i + k) = None) /\ r = t).
Proof.
  revert i; induction g as [|[ty ns] g IH]; intros i; cbn [bgps_types].
  - right. split; [|reflexivity]. intros k; destruct k; discriminate.
  - pose proof (bgps_names_spec t ns i params) as Hn. cbn [gt_names].
    destruct (bgps_names t ns i params) as [o|i'].
    + destruct Hn as (k & a & H1 & H2 & H3 & ->). left. exists k, a.
      assert (Hk : k < length ns) by (apply nth_error_Some; congruence).
      cbn [tp_names flat_map gt_names]. repeat split; auto.
      * now rewrite nth_error_app1.
      * intros j Hj. rewrite nth_error_app1 by lia. auto.
    + destruct Hn as (-> & Hn). cbn [tp_names flat_map gt_names].
      destruct (IH (i + length ns)) as [(k & a & H1 & H2 & H3 & H4)|(H1 & H2)].
      * left. exists (length ns + k), a. repeat split; auto.
        -- rewrite nth_error_app2 by lia. now rewrite Nat.add_comm, Nat.add_sub.
        -- now rewrite Nat.add_assoc.
        -- intros j Hj. destruct (Nat.lt_ge_cases j (length ns)) as [L|L].
           ++ rewrite nth_error_app1 by exact L. intros E. apply Hn in E.
              apply nth_error_None in E. assert (nth_error params (i + length ns + k) <> None) as X by congruence.
              apply nth_error_Some in X. lia.
           ++ rewrite nth_error_app2 by exact L. apply H3. lia.
      * right. split; [|exact H2]. intros k Hk.
        destruct (Nat.lt_ge_cases k (length ns)) as [L|L].
        -- rewrite nth_error_app1 in Hk by exact L. auto.
        -- rewrite nth_error_app2 in Hk by exact L. apply H1 in Hk.
           now replace (i + k) with (i + length ns + (k - length ns)) by lia.
Qed.

Theorem buildGenericParamsString_spec t g params :
  instantiates (tp_names g) params t (buildGenericParamsString t g params).
Proof. apply (bgps_types_spec t g 0 params). Qed.

Lemma instantiates_fun names args t a b :
  instantiates names args t a -> instantiates names args t b -> a = b.
Proof.
  intros [(i & x & H1 & H2 & H3 & ->)|(H & ->)] [(j & y & G1 & G2 & G3 & ->)|(G & ->)].
  - destruct (Nat.lt_trichotomy i j) as [L|[->|L]].
    + exfalso; now apply (G3 i L).
    + congruence.
    + exfalso; now apply (H3 j L).
  - apply G in H1. congruence.
  - apply H in G1. congruence.
  - reflexivity.
Qed.

(** ** buildVars *)

(** "n1, n2, ... constraint" groups joined by ", " *)
Definition group_string (t : genericType) : string := (join ", " (gt_names t) ++ " " ++ gt_type t)%string.

Definition nonempty_names (g : list genericType) : Prop :=
  Forall (fun t => gt_names t <> [] /\ Forall (fun n => n <> "") (gt_names t)) g.

Definition sep_of (acc : string) : string := if String.eqb acc "" then "" else ", ".

Lemma join_cons (sep x : string) l : l <> [] -> join sep (x :: l) = (x ++ sep ++ join sep l)%string.
Proof. destruct l; [contradiction | reflexivity]. Qed.

Lemma join_app sep l l' : l <> [] -> l' <> [] ->
  join sep (l ++ l') = (join sep l ++ sep ++ join sep l')%string.
Proof.
  induction l as [|x l IH]; intros H1 H2; [contradiction|]. destruct l as [|y l].
  - cbn [app]. rewrite join_cons by exact H2. reflexivity.
  - cbn [app]. rewrite join_cons by discriminate.
    change (y :: l ++ l') with ((y :: l) ++ l'). rewrite IH by (auto; discriminate).
    rewrite (join_cons sep x (y :: l)) by discriminate. now rewrite !sapp_assoc.
Qed.

Lemma join_snoc sep l x : l <> [] -> join sep (l ++ [x]) = (join sep l ++ sep ++ x)%string.
Proof. intros H. rewrite join_app by (auto; discriminate). reflexivity. Qed.

(** The accumulators always hold a join of what was seen. *)
Definition acc_of (l : list string) : string * string :=
  (join ", " l, match l with [] => "" | _ => ", " end).

Lemma acc_snoc l x :
  (fst (acc_of l) ++ snd (acc_of l) ++ x)%string = fst (acc_of (l ++ [x])).
Proof. destruct l as [|y l]; [reflexivity|]. unfold acc_of. cbn [fst snd]. now rewrite join_snoc by discriminate. Qed.

Lemma acc_sep_snoc l x : snd (acc_of (l ++ [x])) = ", ".
Proof. destruct l; reflexivity. Qed.

Lemma buildVars_inner_spec names l1 l2 :
  buildVars_inner names (fst (acc_of l1)) (snd (acc_of l1)) (fst (acc_of l2)) (snd (acc_of l2)) =
  (fst (acc_of (l1 ++ names)), fst (acc_of (l2 ++ names)), snd (acc_of (l2 ++ names))).
Proof.
  revert l1 l2; induction names as [|n ns IH]; intros l1 l2; cbn [buildVars_inner].
  - now rewrite !app_nil_r.
  - rewrite !acc_snoc. rewrite <- (acc_sep_snoc l1 n) at 1. rewrite <- (acc_sep_snoc l2 n).
    rewrite IH. now rewrite <- !app_assoc.
Qed.

Lemma join_empty l : Forall (fun n => n <> "") l -> join ", " l = "" -> l = [].
Proof.
  destruct l as [|x [|y l]]; intros H E; [reflexivity|..].
  - inversion H as [|? ? Hx _]; subst. cbn in E. contradiction.
  - inversion H as [|? ? Hx _]; subst. rewrite join_cons in E by discriminate.
    destruct x; [contradiction | discriminate].
Qed.

Lemma buildVars_outer_spec g l1 l2 :
  nonempty_names g ->
  buildVars_outer g (fst (acc_of l1)) (snd (acc_of l1)) (fst (acc_of l2)) (snd (acc_of l2)) =
  (join ", " (l1 ++ map group_string g), join ", " (l2 ++ tp_names g)).
Proof.
  revert l1 l2; induction g as [|t g IH]; intros l1 l2 HN; cbn [buildVars_outer].
  - cbn. now rewrite !app_nil_r.
  - inversion HN as [|? ? (Hne & Hn) HN']; subst.
    pose proof (buildVars_inner_spec (gt_names t) [] l2) as E.
    change (fst (acc_of [])) with "" in E. change (snd (acc_of [])) with "" in E.
    rewrite E. clear E. cbn [app]. change (fst (acc_of (gt_names t))) with (join ", " (gt_names t)).
    destruct (String.eqb_spec (join ", " (gt_names t)) "") as [E|_].
    + apply join_empty in E; [contradiction | exact Hn].
    + change (join ", " (gt_names t) ++ " " ++ gt_type t)%string with (group_string t).
      rewrite acc_snoc.
      specialize (IH (l1 ++ [group_string t]) (l2 ++ gt_names t) HN').
      rewrite acc_sep_snoc in IH. rewrite IH. cbn [map tp_names flat_map]. unfold tp_names. now rewrite <- !app_assoc.
Qed.

Theorem buildVars_spec g :
  nonempty_names g ->
  buildVars g = match g with
                | [] => ("", "")
                | _ => ("[" ++ join ", " (map group_string g) ++ "]", "[" ++ join ", " (tp_names g) ++ "]")%string
                end.
Proof.
  intros H. unfold buildVars.
  pose proof (buildVars_outer_spec g [] [] H) as E. cbn [acc_of fst snd app] in E.
  change (join ", " []) with "" in E. rewrite E.
  destruct g as [|t g]; [reflexivity|].
  inversion H as [|? ? (Hne & Hn) HN']; subst. unfold buildGenericsWithBrackets.
  assert (N1 : join ", " (map group_string (t :: g)) <> "").
  { intros E1. apply join_empty in E1; [discriminate|].
    apply Forall_map, Forall_forall. intros x _ E2. unfold group_string in E2.
    destruct (join ", " (gt_names x)); discriminate. }
  assert (N2 : join ", " (tp_names (t :: g)) <> "").
  { intros E1. apply join_empty in E1.
    - cbn in E1. apply app_eq_nil in E1. now destruct E1.
    - apply Forall_flat_map. clear -H. induction H as [|x l (H1 & H2) _ IH]; constructor; auto. }
  destruct (String.eqb_spec (join ", " (map group_string (t :: g))) ""); [contradiction|].
  destruct (String.eqb_spec (join ", " (tp_names (t :: g))) ""); [contradiction|]. reflexivity.
Qed.
