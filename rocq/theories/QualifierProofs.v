(** Proofs: findSourcePackage finds the first import whose name, or the last
    element of whose path, is the qualifier. *)
From Verif Require Import Generator ResolveSpec.
Open Scope nat_scope.

Lemma slashless_in : forall s, slashless s = negb (existsb (byte_eqb "/") (list_ascii_of_string s)).
Proof.
  induction s as [|c s IH]; [reflexivity|]. cbn. rewrite IH, negb_orb. now rewrite (Ascii.eqb_sym c).
Qed.
Lemma app_str_assoc : forall a b c : string, ((a ++ b) ++ c = a ++ (b ++ c))%string.
Proof. induction a as [|x a IH]; intros; cbn; [reflexivity|]. now rewrite IH. Qed.
Lemma after_last_slash_last : forall s, last_element s (after_last_slash s).
Proof.
  induction s as [|c s IH]; [split; [reflexivity | now left]|]. destruct IH as [IH1 IH2]. cbn [after_last_slash].
  destruct (byte_eqb c "/") eqn:E; [|destruct (existsb (byte_eqb "/") (list_ascii_of_string s)) eqn:X].
  - split; [exact IH1|]. right. apply Ascii.eqb_eq in E. subst c. destruct IH2 as [<-|(dir & IH2)].
    + exists "". reflexivity.
    + exists (String "/" dir). cbn. now rewrite IH2 at 1.
  - split; [exact IH1|]. right. destruct IH2 as [IH2|(dir & IH2)].
    + rewrite <- IH2, slashless_in, X in IH1. discriminate.
    + exists (String c dir). cbn. now rewrite IH2 at 1.
  - split; [|now left]. cbn. now rewrite E, slashless_in, X.
Qed.
Lemma slashless_app : forall a b, slashless (a ++ b) = slashless a && slashless b.
Proof. induction a as [|c a IH]; intros; [reflexivity|]. cbn. now rewrite IH, andb_assoc. Qed.
Lemma last_element_unique : forall s q, last_element s q -> after_last_slash s = q.
Proof.
  induction s as [|c s IH]; intros q [H1 H2].
  - destruct H2 as [<-|(dir & H2)]; [reflexivity|]. now destruct dir.
  - cbn [after_last_slash]. destruct H2 as [<-|(dir & H2)].
    + cbn in H1. apply andb_true_iff in H1. destruct H1 as [H1 H3]. destruct (byte_eqb c "/"); [discriminate|].
      rewrite slashless_in in H3. now destruct (existsb (byte_eqb "/") (list_ascii_of_string s)).
    + destruct dir as [|d dir]; cbn in H2; injection H2 as -> ->.
      * cbn. apply IH. split; [exact H1 | now left].
      * assert (E : existsb (byte_eqb "/") (list_ascii_of_string (dir ++ String "/" q)) = true).
        { rewrite <- negb_false_iff, <- slashless_in, slashless_app. cbn. apply andb_false_r. }
        rewrite E. assert (I : after_last_slash (dir ++ String "/" q) = q) by (apply IH; split; [exact H1 | right; now exists dir]).
        rewrite I. now destruct (byte_eqb d "/").
Qed.

Lemma trim_r_quoteless : forall s, quoteless s = true -> trim_quotes_r (s ++ String "034" "") = s.
Proof.
  induction s as [|c s IH]; intros H; [reflexivity|]. cbn in H. apply andb_true_iff in H. destruct H as [H1 H2].
  cbn [String.append trim_quotes_r]. rewrite IH by exact H2. destruct s; [|reflexivity]. now destruct (byte_eqb c "034").
Qed.
Lemma trim_quoted : forall path, quoteless path = true -> trim_quotes (quoted path) = path.
Proof.
  intros path H. unfold trim_quotes, quoted. cbn [trim_quotes_l]. change (byte_eqb "034" "034") with true. cbv iota.
  destruct path as [|c path]; [reflexivity|]. pose proof H as H'. cbn in H. apply andb_true_iff in H. destruct H as [H1 _].
  cbn [String.append trim_quotes_l]. destruct (byte_eqb c "034"); [discriminate|]. exact (trim_r_quoteless _ H').
Qed.

Lemma quoted_inj : forall a b, quoted a = quoted b -> a = b.
Proof.
  unfold quoted. intros a b [= H]. revert b H. induction a as [|c a IH]; intros [|d b] H; cbn in H; try reflexivity; injection H as H; subst.
  - now destruct b.
  - now destruct a.
  - f_equal. auto.
Qed.
(** what findSourcePackage compares with the qualifier *)
Definition guess (i : importspec) : string := match im_name i with Some n => n | None => after_last_slash (trim_quotes (im_path i)) end.
Lemma guess_guessed : forall i q, plain_import i -> guess i = q <-> guessed i q.
Proof.
  intros i q (path & Hp & Hq). unfold guess, guessed. destruct (im_name i) as [n|].
  - split; [intros ->; now left|]. intros [[= ->]|[H _]]; [reflexivity|discriminate].
  - rewrite Hp, trim_quoted by exact Hq. split.
    + intros <-. right. split; [reflexivity|]. exists path. split; [reflexivity|apply after_last_slash_last].
    + intros [H|(_ & path' & H & HL)]; [discriminate|].
      apply quoted_inj in H.
      subst path'. now apply last_element_unique.
Qed.
Lemma find_source_first : forall q l, findSourcePackage q l = match find (fun i => String.eqb q (guess i)) l with Some i => trim_quotes (im_path i) | None => "" end.
Proof.
  intros q l. induction l as [|i l IH]; [reflexivity|]. cbn [findSourcePackage find]. unfold guess at 1. rewrite IH.
  destruct (im_name i); now destruct (String.eqb q _).
Qed.
Lemma find_source_unique : forall q l i path, (forall i, In i l -> plain_import i) -> In i l -> guessed i q -> im_path i = quoted path ->
  (forall i', In i' l -> guessed i' q -> im_path i' = im_path i) -> findSourcePackage q l = path.
Proof.
  intros q l i path HP Hi Hg Hpath HU. rewrite find_source_first.
  destruct (find (fun i => String.eqb q (guess i)) l) as [i'|] eqn:F.
  - apply find_some in F. destruct F as [F1 F2]. apply String.eqb_eq in F2.
    rewrite (HU i' F1) by (apply guess_guessed; auto). destruct (HP i Hi) as (path' & E1 & E2).
    rewrite Hpath in E1. apply quoted_inj in E1. subst path'. now rewrite Hpath, trim_quoted.
  - exfalso. eapply find_none in F; [|exact Hi]. apply String.eqb_neq in F. apply F. symmetry. apply guess_guessed; auto.
Qed.
Lemma def_selector_loads : forall W, well_formed W -> forall p f ts q s p', known W p -> declared_in p f ts ->
  ts_type ts = Selector (Ident q) s -> import_of W p f q p' -> w_load W (findSourcePackage q (gf_imports f)) = Ok p'.
Proof.
  intros W WF p f ts q s p' K D E HI. destruct (wf_def_selector W WF p f ts q s p' K D E HI) as (HP & i & path & Hi & Hg & Hp & HL & HU).
  now rewrite (find_source_unique q (gf_imports f) i path).
Qed.
