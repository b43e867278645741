(** filepath functions of NewGen.v against the directory walk of NewGenSpec.v. *)
From Verif Require Import NewGen NewGenSpec.
Open Scope nat_scope.

Lemma byte_eqb_neq c d : c <> d -> byte_eqb c d = false.
Proof. unfold byte_eqb. destruct (Ascii.eqb_spec c d); congruence. Qed.
Lemma byte_eqb_refl c : byte_eqb c c = true.
Proof. unfold byte_eqb. now destruct (Ascii.eqb_spec c c). Qed.

Lemma no_slash_cons c e : no_slash (String c e) <-> c <> "/"%char /\ no_slash e.
Proof. unfold no_slash. cbn. intuition. Qed.

Lemma split_aux_elem e : no_slash e -> forall acc, split_slash_aux e acc = [(acc ++ e)%string].
Proof.
  induction e as [|c e IH]; intros H acc; cbn; [now rewrite sapp_nil_r|].
  apply no_slash_cons in H. rewrite byte_eqb_neq by tauto. rewrite IH by tauto. now rewrite sapp_assoc.
Qed.
Lemma split_aux_cons e s : no_slash e -> forall acc, split_slash_aux (e ++ String "/" s) acc = (acc ++ e)%string :: split_slash_aux s "".
Proof.
  induction e as [|c e IH]; intros H acc; cbn; [now rewrite sapp_nil_r|].
  apply no_slash_cons in H. rewrite byte_eqb_neq by tauto. rewrite IH by tauto. now rewrite sapp_assoc.
Qed.

Lemma join_cons2 x y l : join "/" (x :: y :: l) = (x ++ String "/" (join "/" (y :: l)))%string.
Proof. reflexivity. Qed.

Lemma split_join l : l <> [] -> Forall no_slash l -> split_slash (join "/" l) = l.
Proof.
  intros Hn H. unfold split_slash. induction H as [|x l Hx H IH]; [congruence|].
  destruct l as [|y l].
  - cbn. now apply split_aux_elem.
  - rewrite join_cons2, split_aux_cons by exact Hx. cbn [append]. f_equal. apply IH. discriminate.
Qed.

Lemma split_root s : split_slash (String "/" s) = "" :: split_slash s.
Proof. reflexivity. Qed.

(** ** clean_stack against [leads] *)
Lemma clean_stack_snoc root l e : forall st,
  clean_stack root st (l ++ [e]) = 
  (let r := clean_stack root st l in
   if String.eqb e "" || String.eqb e "." then r
   else if String.eqb e ".." then
     match rev r with
     | t :: r' => if String.eqb t ".." then r ++ [e] else rev r'
     | [] => if root then r else [e]
     end
   else r ++ [e]).
Proof.
  induction l as [|x l IH]; intros st; cbn [app clean_stack].
  - destruct (String.eqb e "" || String.eqb e "."); [reflexivity|].
    destruct (String.eqb e ".."); [|reflexivity]. cbv zeta. rewrite rev_involutive. destruct st as [|t st]; [destruct root; reflexivity|].
    destruct (String.eqb t ".."); reflexivity.
  - destruct (String.eqb x "" || String.eqb x "."); [apply IH|].
    destruct (String.eqb x ".."); [|apply IH].
    destruct st as [|t st]; [destruct root; apply IH|]. destruct (String.eqb t ".."); apply IH.
Qed.

Lemma leads_plain abs l st : leads abs l st -> ~ In ".." st /\ ~ In "" st /\ ~ In "." st.
Proof.
  induction 1 as [|l st e _ IH _|l st d _ IH|l Ha _ IH|l st e _ IH H1 H2 H3].
  - cbn. auto.
  - exact IH.
  - rewrite !in_app_iff in IH. intuition.
  - exact IH.
  - rewrite !in_app_iff. cbn. intuition; congruence.
Qed.

Lemma clean_leads abs l st : leads abs l st -> clean_stack abs [] l = st.
Proof.
  induction 1 as [|l st e H IH He|l st d H IH|l Ha H IH|l st e H IH H1 H2 H3]; [reflexivity|..]; rewrite clean_stack_snoc; cbv zeta; rewrite IH.
  - destruct He as [->| ->]; reflexivity.
  - cbn [String.eqb orb]. cbn. rewrite rev_unit. destruct (String.eqb_spec d "..") as [->|].
    + exfalso. destruct (leads_plain _ _ _ H) as (P & _). apply P, in_or_app. right. now left.
    + now rewrite rev_involutive.
  - rewrite Ha. reflexivity.
  - destruct (String.eqb_spec e ""), (String.eqb_spec e "."), (String.eqb_spec e ".."); try contradiction. reflexivity.
Qed.

Lemma leads_slash abs l st : leads abs l st -> Forall no_slash l -> Forall no_slash st.
Proof.
  induction 1 as [|l st e _ IH _|l st d _ IH|l Ha _ IH|l st e _ IH H1 H2 H3]; intros HF; rewrite ?Forall_app in *; intuition.
Qed.

(** leading empty element of rooted paths *)
Lemma clean_stack_empty root st l : clean_stack root st ("" :: l) = clean_stack root st l.
Proof. reflexivity. Qed.

(** ** Dir *)
Lemma dir_part_file els file : Forall no_slash els -> no_slash file -> els <> [] ->
  dir_part (join "/" (els ++ [file])) = (join "/" els ++ "/")%string.
Proof.
  intros H1 H2 Hn. unfold dir_part. rewrite split_join.
  - rewrite rev_unit. destruct (rev els) as [|e r] eqn:E.
    + apply (f_equal (@rev string)) in E. rewrite rev_involutive in E. contradiction.
    + rewrite <- E, rev_involutive. reflexivity.
  - now destruct els.
  - apply Forall_app. auto.
Qed.

Lemma dir_part_abs els file : Forall no_slash els -> no_slash file ->
  dir_part (String "/" (join "/" (els ++ [file]))) = String "/" (if els then "" else join "/" els ++ "/")%string.
Proof.
  intros H1 H2. unfold dir_part. rewrite split_root, split_join.
  - cbn [rev]. rewrite rev_unit. cbn [app]. destruct (rev els) as [|e r] eqn:E.
    + apply (f_equal (@rev string)) in E. rewrite rev_involutive in E. subst els. reflexivity.
    + cbn [app]. change (e :: r ++ [""]) with ((e :: r) ++ [""]). rewrite <- E, rev_unit, rev_involutive.
      destruct els as [|e0 els]; [discriminate|]. reflexivity.
  - now destruct els.
  - apply Forall_app. auto.
Qed.

Lemma join_slash_end l : l <> [] -> (join "/" l ++ "/")%string = join "/" (l ++ [""]).
Proof.
  induction l as [|x l IH]; [congruence|]. intros _. destruct l as [|y l]; [reflexivity|].
  rewrite join_cons2. cbn [app]. rewrite join_cons2. rewrite sapp_assoc. cbn [append]. f_equal. f_equal. apply IH. discriminate.
Qed.

Lemma rooted_join l : l <> [] -> Forall no_slash l -> match l with e :: _ => e <> "" | [] => True end -> rooted (join "/" l) = false.
Proof.
  intros Hn HF He. destruct l as [|e l]; [congruence|]. destruct e as [|c e]; [congruence|].
  inversion HF as [|? ? H1 _]; subst. apply no_slash_cons in H1. destruct H1 as [H1 _].
  destruct l; cbn; destruct c as [[] [] [] [] [] [] [] []]; try reflexivity; congruence.
Qed.

Definition dir_string (abs : bool) (st : list string) : string :=
  if abs then String "/" (join "/" st) else match st with [] => "." | _ => join "/" st end.

Lemma Dir_file path abs els file st :
  file_in path abs els file -> leads abs els st -> Dir path = dir_string abs st.
Proof.
  intros (H1 & H2 & -> & H3) HL. unfold Dir. destruct abs; cbn [append].
  - rewrite dir_part_abs by assumption. unfold Clean, dir_string. cbn [rooted].
    f_equal. f_equal. rewrite split_root. destruct els as [|e els].
    + inversion HL; try (destruct l; discriminate). reflexivity.
    + rewrite join_slash_end by discriminate. rewrite clean_stack_empty, split_join.
      * rewrite clean_stack_snoc. cbv zeta. cbn [String.eqb orb]. now apply clean_leads.
      * discriminate.
      * apply Forall_app. split; [assumption|]. constructor; [intros []|constructor].
  - destruct els as [|e els].
    + inversion HL; try (destruct l; discriminate). subst.
      unfold dir_part. cbn [app]. rewrite (split_join [file]); [reflexivity | discriminate | auto].
    + rewrite dir_part_file by (auto; discriminate). rewrite join_slash_end by discriminate.
      unfold Clean. rewrite rooted_join.
      * rewrite split_join.
        -- rewrite clean_stack_snoc. cbv zeta. cbn [String.eqb orb].
           rewrite (clean_leads _ _ _ HL). reflexivity.
        -- discriminate.
        -- apply Forall_app. split; [assumption|]. constructor; [intros []|constructor].
      * discriminate.
      * apply Forall_app. split; [assumption|]. constructor; [intros []|constructor].
      * cbn. auto.
Qed.

(** ** Base of a cleaned path *)
Lemma strip_r_keep s c : c <> "/"%char -> strip_slashes_r (s ++ String c "") = (s ++ String c "")%string.
Proof.
  intros Hc. induction s as [|d s IH]; cbn.
  - now rewrite byte_eqb_neq.
  - rewrite IH. destruct (s ++ String c "")%string eqn:E; [destruct s; discriminate | reflexivity].
Qed.

Lemma string_snoc s : s <> "" -> exists t c, s = (t ++ String c "")%string.
Proof.
  induction s as [|d s IH]; [congruence|]. intros _. destruct s as [|e s].
  - now exists "", d.
  - destruct IH as (t & c & E); [discriminate|]. exists (String d t), c. now rewrite E.
Qed.

Lemma no_slash_app a b : no_slash (a ++ b) <-> no_slash a /\ no_slash b.
Proof.
  induction a as [|c a IH]; cbn.
  - unfold no_slash at 2. cbn. tauto.
  - rewrite !no_slash_cons, IH. tauto.
Qed.

Lemma strip_r_elem s e : no_slash e -> e <> "" -> strip_slashes_r (s ++ e) = (s ++ e)%string.
Proof.
  intros H1 H2. destruct (string_snoc e H2) as (t & c & ->). rewrite <- sapp_assoc. apply strip_r_keep.
  apply no_slash_app in H1. destruct H1 as (_ & H1). apply no_slash_cons in H1. tauto.
Qed.

Lemma last_split s e : no_slash e -> forall acc, exists l, split_slash_aux (s ++ String "/" e) acc = l ++ [e].
Proof.
  intros He. induction s as [|c s IH]; intros acc; cbn.
  - rewrite split_aux_elem by exact He. now exists [acc].
  - destruct (byte_eqb c "/").
    + destruct (IH "") as (l & ->). now exists (acc :: l).
    + apply IH.
Qed.

Lemma Base_last s e : no_slash e -> e <> "" -> Base (s ++ String "/" e) = e.
Proof.
  intros H1 H2. unfold Base.
  assert (strip_slashes_r (s ++ String "/" e) = (s ++ String "/" e)%string) as ->.
  { change (String "/" e) with ("/" ++ e)%string. rewrite <- sapp_assoc. now apply strip_r_elem. }
  unfold split_slash. destruct (last_split s e H1 "") as (l & ->). rewrite last_last.
  destruct (s ++ String "/" e)%string eqn:E; [destruct s; discriminate|]. destruct e; [congruence | reflexivity].
Qed.

Lemma join_snoc l e : l <> [] -> join "/" (l ++ [e]) = (join "/" l ++ String "/" e)%string.
Proof.
  induction l as [|x l IH]; [congruence|]. intros _. destruct l as [|y l]; [reflexivity|].
  cbn [app]. rewrite join_cons2. rewrite join_cons2. rewrite sapp_assoc. cbn [append]. f_equal. f_equal. apply IH. discriminate.
Qed.

(** the directory handed to pkg.Load / makePackage *)
Definition dst_string (abs : bool) (st : list string) : string :=
  if abs then String "/" (join "/" st) else match st with [] => "./." | _ => ("./" ++ join "/" st)%string end.

Lemma has_prefix_slash_join st : Forall no_slash st -> ~ In "" st -> st <> [] -> has_prefix "/" (join "/" st) = false.
Proof.
  intros HF Hn H0. destruct st as [|e st]; [congruence|]. destruct e as [|c e]; [exfalso; apply Hn; now left|].
  inversion HF as [|? ? H1 _]; subst. apply no_slash_cons in H1. destruct H1 as [H1 _].
  assert (E : exists r, join "/" (String c e :: st) = String c r) by (destruct st; cbn; eauto).
  destruct E as (r & ->). unfold has_prefix. cbn [String.prefix]. destruct (ascii_dec "/" c); [congruence | reflexivity].
Qed.

Lemma has_prefix_dot_join st : ~ In "." st -> Forall no_slash st -> has_prefix "./" (join "/" st) = false.
Proof.
  intros Hn HF. destruct st as [|e st]; [reflexivity|]. inversion HF as [|? ? H1 _]; subst.
  assert (E : exists r, join "/" (e :: st) = (e ++ r)%string /\ (r = "" \/ exists r', r = String "/" r')).
  { destruct st as [|y st]; [exists ""; cbn; rewrite sapp_nil_r; auto|]. rewrite join_cons2. eauto. }
  destruct E as (r & -> & Hr). unfold has_prefix.
  destruct e as [|c e].
  - cbn. destruct Hr as [->|(r' & ->)]; reflexivity.
  - cbn [String.prefix append]. destruct (ascii_dec "." c) as [<-|]; [|reflexivity].
    apply no_slash_cons in H1. destruct e as [|d e].
    + exfalso. apply Hn. now left.
    + destruct H1 as (_ & H1). apply no_slash_cons in H1. destruct H1 as (H1 & _). cbn [String.prefix append].
      destruct (ascii_dec "/" d); congruence.
Qed.

Lemma dstPackagePath_file path abs els file st :
  file_in path abs els file -> leads abs els st -> dstPackagePath path = dst_string abs st.
Proof.
  intros HF HL. unfold dstPackagePath. rewrite (Dir_file _ _ _ _ _ HF HL).
  destruct HF as (H1 & _). pose proof (leads_slash _ _ _ HL H1) as HS.
  destruct (leads_plain _ _ _ HL) as (_ & P1 & P2).
  unfold dir_string, dst_string. destruct abs; [destruct (join "/" st); reflexivity|].
  destruct st as [|e st]; [reflexivity|].
  rewrite has_prefix_slash_join, has_prefix_dot_join by (auto; discriminate). reflexivity.
Qed.

Lemma Base_dst abs st : Forall no_slash st -> ~ In "" st ->
  Base (dst_string abs st) = match rev st with [] => if abs then "/" else "." | e :: _ => e end.
Proof.
  intros HS Hn. destruct st as [|x st0] eqn:E0 using rev_ind; [destruct abs; reflexivity|]. clear IHst0. clear E0.
  rewrite rev_unit. rewrite Forall_app in HS. destruct HS as (HS & HX). inversion HX as [|? ? H1 _]; subst.
  rewrite in_app_iff in Hn. assert (x <> "") by (intros ->; apply Hn; right; now left).
  unfold dst_string. destruct abs.
  - destruct st0 as [|y st1] eqn:E1.
    + change (String "/" (join "/" ([] ++ [x]))) with ("" ++ String "/" x)%string. now apply Base_last.
    + rewrite <- E1. rewrite join_snoc by (subst; discriminate).
      change (String "/" (join "/" st0 ++ String "/" x)) with (String "/" (join "/" st0) ++ String "/" x)%string. now apply Base_last.
  - destruct (st0 ++ [x]) eqn:E; [destruct st0; discriminate|]. rewrite <- E.
    destruct st0 as [|y st1] eqn:E1.
    + change ("./" ++ join "/" ([] ++ [x]))%string with ("." ++ String "/" x)%string. now apply Base_last.
    + rewrite <- E1. rewrite join_snoc by (subst; discriminate). rewrite <- sapp_assoc. now apply Base_last.
Qed.
