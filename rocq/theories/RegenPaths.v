(** Paths for C78: the output file, named in the directive without its
    directory, is the same file when seen from that directory. *)
From Verif Require Import Cmd NewGenSpec PathProofs PropCmd.
Open Scope nat_scope.

(** [b] is the last element of the path [o] *)
Definition file_named (o b : string) : Prop :=
  b <> "" /\ no_slash b /\ (o = b \/ exists s, o = (s ++ "/" ++ b)%string).

Lemma join_split_aux s : forall acc, join "/" (split_slash_aux s acc) = (acc ++ s)%string.
Proof.
  induction s as [|c s IH]; intros acc; cbn [split_slash_aux]; [cbn; now rewrite sapp_nil_r|].
  unfold byte_eqb. destruct (Ascii.eqb_spec c "/") as [->|N].
  - assert (H : exists x l, split_slash_aux s "" = x :: l).
    { clear. generalize "". induction s as [|c s IH]; intros acc; cbn; [eauto|]. destruct (byte_eqb c "/"); eauto. }
    destruct H as (x & l & H). pose proof (IH "") as IH0. rewrite H in *. rewrite join_cons2, IH0. reflexivity.
  - rewrite IH, sapp_assoc. reflexivity.
Qed.
Lemma join_split s : join "/" (split_slash s) = s.
Proof. apply join_split_aux. Qed.
Lemma split_nonempty s : split_slash s <> [].
Proof. unfold split_slash. generalize "". induction s as [|c s IH]; intros acc; cbn; [discriminate|]. destruct (byte_eqb c "/"); [discriminate|apply IH]. Qed.
Lemma split_one b : no_slash b -> split_slash b = [b].
Proof. intros H. unfold split_slash. now rewrite split_aux_elem. Qed.
Lemma rooted_one b : no_slash b -> rooted b = false.
Proof. destruct b as [|c b]; [reflexivity|]. intros H. apply no_slash_cons in H. cbn. destruct (ascii_dec c "/") as [->|N]; [destruct H; congruence|]. destruct c as [[] [] [] [] [] [] [] []]; try reflexivity. destruct H; congruence. Qed.

Lemma Base_named o b : file_named o b -> Base o = b.
Proof.
  intros (Hn & Hs & [->|(s & ->)]).
  - unfold Base. assert (E : strip_slashes_r b = b) by (apply (strip_r_elem "" b); assumption). rewrite E, split_one by exact Hs.
    cbn [last]. destruct b; [congruence|reflexivity].
  - now apply Base_last.
Qed.
Lemma Dir_plain b : no_slash b -> Dir b = ".".
Proof. intros H. unfold Dir, dir_part. now rewrite split_one. Qed.
Lemma dir_part_slash s b : no_slash b -> dir_part (s ++ "/" ++ b) = (s ++ "/")%string.
Proof.
  intros H. unfold dir_part. rewrite split_slash_app, (split_one b H), rev_unit.
  destruct (rev (split_slash s)) as [|x r] eqn:E.
  - apply (f_equal (@rev string)) in E. rewrite rev_involutive in E. now apply split_nonempty in E.
  - rewrite <- E, rev_involutive, join_split. reflexivity.
Qed.

Definition plain_el (e : string) : Prop := e <> "" /\ e <> "." /\ e <> "..".
Definition normal (s : list string) : Prop := exists a n, s = a ++ repeat ".." n /\ Forall plain_el a.
Lemma clean_again l : forall st s, normal s ->
  clean_stack true st (clean_stack false s l) = clean_stack true st (rev s ++ l).
Proof.
  induction l as [|e l IH]; intros st s HN; cbn [clean_stack]; [now rewrite app_nil_r|].
  destruct (String.eqb e "" || String.eqb e ".") eqn:E1.
  { rewrite IH by exact HN. rewrite !clean_stack_app. cbn [clean_stack]. now rewrite E1. }
  destruct (String.eqb_spec e "..") as [->|N3].
  - destruct s as [|t s].
    + rewrite IH; [reflexivity|]. exists [], 1. auto.
    + destruct HN as (a & n & HE & HA). destruct (String.eqb_spec t "..") as [->|NT].
      * rewrite IH; [cbn [rev]; now rewrite <- !app_assoc|]. destruct a as [|x a].
        -- cbn in HE. exists [], (S n). split; [|constructor]. cbn [app repeat]. f_equal. exact HE.
        -- cbn in HE. injection HE as <- _. inversion HA as [|? ? (_ & _ & P) _]. congruence.
      * destruct a as [|x a]; [cbn in HE; destruct n; cbn in HE; [discriminate|injection HE as -> _; congruence]|].
        cbn in HE. injection HE as -> ->. inversion HA as [|? ? (P1 & P2 & P3) HA']; subst.
        rewrite IH by (exists a, n; auto). cbn [rev]. rewrite <- app_assoc, (clean_stack_app true (rev (a ++ repeat ".." n))), (clean_stack_app true (rev (a ++ repeat ".." n))).
        generalize (rev (clean_stack true st (rev (a ++ repeat ".." n)))). intros S.
        change ([x] ++ ".." :: l) with (x :: ".." :: l). cbn [clean_stack].
        destruct (String.eqb_spec x ""); [congruence|]. destruct (String.eqb_spec x "."); [congruence|]. destruct (String.eqb_spec x ".."); [congruence|].
        cbn [orb]. change (String.eqb ".." "" || String.eqb ".." ".") with false. cbn iota. rewrite String.eqb_refl. cbn iota. reflexivity.
  - apply orb_false_iff in E1. destruct E1 as [E1 E2]. apply String.eqb_neq in E1. apply String.eqb_neq in E2.
    rewrite IH; [cbn [rev]; now rewrite <- app_assoc|]. destruct HN as (a & n & -> & HA). exists (e :: a), n. split; [reflexivity|].
    constructor; [repeat split; assumption|exact HA].
Qed.

Lemma clean_false_ok l : forall s, Forall no_slash l -> Forall (fun e => e <> "" /\ no_slash e) s -> Forall (fun e => e <> "" /\ no_slash e) (clean_stack false s l).
Proof.
  induction l as [|e l IH]; intros s HL HS; cbn [clean_stack]; [now apply Forall_rev|]. inversion HL as [|? ? H1 H2]; subst.
  destruct (String.eqb_spec e "") as [->|N1]; [now apply IH|]. destruct (String.eqb_spec e ".") as [->|N2]; [now apply IH|]. cbn [orb].
  destruct (String.eqb e "..").
  - destruct s as [|t s]; [apply IH; auto|]. inversion HS; subst. destruct (String.eqb t ".."); apply IH; auto.
  - apply IH; auto.
Qed.

Lemma split_Clean x : rooted x = false -> exists l, split_slash (Clean x) = l /\ rooted (Clean x) = false /\ Clean x <> "" /\
  forall st, clean_stack true st l = clean_stack true st (split_slash x).
Proof.
  intros R. unfold Clean. rewrite R.
  assert (OK : Forall (fun e => e <> "" /\ no_slash e) (clean_stack false [] (split_slash x))).
  { apply clean_false_ok; [|constructor]. apply split_aux_no_slash. unfold no_slash. cbn. tauto. }
  pose proof (fun st => clean_again (split_slash x) st [] (ex_intro _ [] (ex_intro _ 0 (conj eq_refl (Forall_nil _))))) as CA. cbn [rev app] in CA.
  destruct (clean_stack false [] (split_slash x)) as [|y l] eqn:E.
  - exists ["."]. split; [reflexivity|]. split; [reflexivity|]. split; [discriminate|]. intros st. rewrite <- CA. reflexivity.
  - exists (y :: l). assert (NS : Forall no_slash (y :: l)) by (eapply Forall_impl; [|exact OK]; intros a Ha; apply Ha).
    inversion OK as [|? ? (Hy & _) _]; subst.
    split; [apply split_join; [discriminate|exact NS]|]. split; [apply rooted_join; [discriminate|exact NS|exact Hy]|]. split; [|exact CA].
    destruct l as [|z l]; [exact Hy|]. rewrite join_cons2. destruct y; [congruence|discriminate].
Qed.

Lemma comps_Clean p : rooted p = true -> comps (Clean p) = comps p.
Proof.
  intros R. rewrite (Clean_rooted p R). unfold comps at 1. change (String "/" (join "/" (comps p))) with ("" ++ "/" ++ join "/" (comps p))%string.
  rewrite split_slash_app. change (split_slash "") with [""]. cbn [app]. rewrite clean_stack_empty.
  pose proof (comps_ok p) as OK. destruct (comps p) as [|y l] eqn:E; [reflexivity|]. rewrite split_join.
  - now rewrite (clean_push (y :: l) []).
  - discriminate.
  - eapply Forall_impl; [|exact OK]. intros a Ha. apply Ha.
Qed.
Lemma Clean_comps p q : rooted p = true -> rooted q = true -> comps p = comps q -> Clean p = Clean q.
Proof. intros P Q H. now rewrite (Clean_rooted p P), (Clean_rooted q Q), H. Qed.
Lemma comps_slash p x : comps (p ++ "/" ++ x) = clean_stack true (rev (comps p)) (split_slash x).
Proof. unfold comps. now rewrite split_slash_app, clean_stack_app. Qed.
Lemma comps_trail s : comps (s ++ "/") = comps s.
Proof. rewrite <- (sapp_nil_r "/"), comps_slash. cbn. now rewrite rev_involutive. Qed.
Lemma Join2_slash d x : rooted d = true -> x <> "" -> Join2 d x = Clean (d ++ "/" ++ x).
Proof. intros R N. destruct d; [discriminate|]. destruct x; [congruence|reflexivity]. Qed.
Lemma Clean_Clean p : rooted p = true -> Clean (Clean p) = Clean p.
Proof. intros R. apply Clean_comps; [now apply Clean_root|exact R|now apply comps_Clean]. Qed.

(** the directory of the output file, and the file from there *)
Theorem same_file W1 W2 o b outdir : (match io_cwd W1 with inl d => rooted d = true | inr _ => True end) -> file_named o b ->
  Abs W1 (Dir o) = inl outdir -> io_cwd W2 = inl outdir ->
  rooted outdir = true /\ Abs W2 b = Abs W1 o /\ dstPackagePath b = "./." /\ Dir b = ".".
Proof.
  intros HC (Hn & Hs & HO) HA H2.
  pose proof (Abs_rooted W1 _ _ HC HA) as RO. split; [exact RO|]. split; [|unfold dstPackagePath; rewrite Dir_plain by exact Hs; split; reflexivity].
  unfold Abs at 1. rewrite (rooted_one b Hs), H2, Join2_slash by assumption.
  destruct HO as [->|(s & ->)].
  - rewrite Dir_plain in HA by exact Hs. unfold Abs in HA |- *. cbn [rooted] in HA. rewrite (rooted_one b Hs).
    destruct (io_cwd W1) as [d|]; [|discriminate]. rewrite Join2_slash in * by (try discriminate; assumption). injection HA as <-. f_equal.
    assert (R1 : rooted (d ++ "/" ++ ".") = true) by now apply rooted_app.
    apply Clean_comps; [apply rooted_app; now apply Clean_root|now apply rooted_app|].
    rewrite !comps_slash, comps_Clean by exact R1.
    assert (ED : comps (d ++ "/" ++ ".") = comps d) by (rewrite comps_slash; cbn; now rewrite rev_involutive).
    cbn [append] in ED |- *. now rewrite ED.
  - unfold Dir in HA. rewrite dir_part_slash in HA by exact Hs.
    assert (RS : rooted (s ++ "/" ++ b) = rooted (s ++ "/")) by (destruct s; reflexivity).
    unfold Abs in HA |- *. rewrite RS. destruct (rooted (s ++ "/")) eqn:R.
    + assert (RC : rooted (Clean (s ++ "/")) = true) by now apply Clean_root. rewrite RC in HA. injection HA as <-. f_equal.
      rewrite Clean_Clean by exact R.
      apply Clean_comps; [now apply rooted_app|now rewrite RS|]. rewrite !comps_slash. rewrite comps_Clean by exact R. now rewrite comps_trail.
    + destruct (split_Clean (s ++ "/") R) as (l & E1 & E2 & E3 & E4). rewrite E2 in HA.
      destruct (io_cwd W1) as [d|]; [|discriminate]. rewrite Join2_slash in HA by assumption. injection HA as <-. 
      rewrite Join2_slash by (try assumption; destruct s; discriminate). f_equal.
      apply Clean_comps; [apply rooted_app, Clean_root; now apply rooted_app|now apply rooted_app|].
      rewrite (comps_slash _ b), comps_Clean by now apply rooted_app.
      rewrite (comps_slash d (Clean (s ++ "/"))), E1, E4, (comps_slash d (s ++ "/" ++ b)), <- (sapp_nil_r "/") at 1.
      rewrite !split_slash_app, !clean_stack_app. change (split_slash "") with [""].
      cbn [clean_stack String.eqb orb]. now rewrite rev_involutive.
Qed.
