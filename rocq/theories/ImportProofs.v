(** TemplateInputs.Import against NewGenSpec.v. *)
From Coq Require Import Permutation Sorted.
From Verif Require Import NewGen NewGenSpec NewGenProofs PathProofs.
From Verif Require Export TrimProofs.
Open Scope nat_scope.

Lemma lex_lt_iff a b : lex_lt a b <-> str_lt a b.
Proof.
  unfold str_lt. split.
  - induction 1 as [c s|c d s t H|c s t H IH]; cbn; [reflexivity| |].
    + unfold Ascii.compare. unfold byte in H. rewrite (proj2 (N.compare_lt_iff _ _) H). reflexivity.
    + unfold Ascii.compare. now rewrite N.compare_refl.
  - revert b; induction a as [|c a IH]; intros [|d b] H; cbn in H; try discriminate; [constructor|].
    destruct (Ascii.compare c d) eqn:E; [|constructor|discriminate].
    + apply Ascii.compare_eq_iff in E. subst d. apply lex_tail. auto.
    + unfold Ascii.compare in E. now apply N.compare_lt_iff in E.
Qed.

Lemma increasing_sorted l : increasing l <-> StronglySorted str_lt l.
Proof.
  induction l as [|x l IH]; cbn; [split; constructor|]. rewrite IH. split.
  - intros (H1 & H2). constructor; [exact H2|]. apply Forall_forall. intros y Hy. now apply lex_lt_iff, H1.
  - intros H. inversion H as [|? ? H1 H2]; subst. split; [|exact H1]. intros y Hy. rewrite Forall_forall in H2. now apply lex_lt_iff, H2.
Qed.

Lemma snoc_inv a b c d : (a ++ String c "" = b ++ String d "")%string -> a = b /\ c = d.
Proof.
  revert b; induction a as [|x a IH]; intros [|y b] H; cbn in H.
  - injection H as <-. auto.
  - injection H as _ H. destruct b; discriminate.
  - injection H as _ H. destruct a; discriminate.
  - injection H as <- H. destruct (IH _ H) as (-> & ->). auto.
Qed.

(** ** template imports *)
Lemma last_byte_snoc r c : last_byte (r ++ String c "") = Some c.
Proof.
  induction r as [|d r IH]; [reflexivity|]. cbn [append last_byte]. destruct (r ++ String c "")%string eqn:E; [destruct r; discriminate | exact IH].
Qed.
Lemma last_byte_ends t c : last_byte t = Some c -> (ends_quoted t <-> c = "034"%char).
Proof.
  intros H. unfold ends_quoted. split.
  - intros (r & ->). unfold quote in H. rewrite last_byte_snoc in H. congruence.
  - intros ->. destruct (string_snoc t) as (r & d & ->); [destruct t; discriminate|]. rewrite last_byte_snoc in H.
    injection H as ->. now exists r.
Qed.
Lemma first_starts d t : starts_quoted (String d t) <-> d = "034"%char.
Proof. split; [intros (r & [= -> _]); reflexivity | intros ->; now exists t]. Qed.

Lemma template_import_entry i x : template_import i = Ok (Some x) <-> template_entry i x /\ trim_space i <> "".
Proof.
  unfold template_import. destruct (String.eqb_spec i "") as [->|Hi].
  { split; [discriminate|]. intros (_ & H). now destruct H. }
  cbv zeta. destruct (last_byte (trim_space i)) as [c|] eqn:Ec.
  - assert (Ht : trim_space i <> "") by (intros E; rewrite E in Ec; discriminate).
    set (t := trim_space i) in *.
    assert (X : forall y, template_entry i y <-> y = ((if byte_eqb match t with String d _ => d | _ => "x"%char end "034" then "" else quote) ++ t ++ (if byte_eqb c "034" then "" else quote))%string).
    { intros y. unfold template_entry. split.
      - intros (t' & l & r & _ & HT & -> & Hl & Hr). apply trimmed_iff in HT. fold t in HT. subst t'.
        f_equal; [|f_equal].
        + destruct t as [|d t']; [congruence|]. destruct (Ascii.eqb_spec d "034") as [->|Nd]; unfold byte_eqb.
          * destruct Hl as [(_ & ->)|(N & _)]; [reflexivity|]. exfalso. apply N. now apply first_starts.
          * destruct (Ascii.eqb_spec d "034"); [contradiction|]. destruct Hl as [(S & _)|(_ & ->)]; [|reflexivity]. apply first_starts in S. contradiction.
        + unfold byte_eqb. destruct (Ascii.eqb_spec c "034") as [->|Nd].
          * destruct Hr as [(_ & ->)|(N & _)]; [reflexivity|]. exfalso. apply N. now apply (last_byte_ends _ _ Ec).
          * destruct Hr as [(S & _)|(_ & ->)]; [|reflexivity]. apply (last_byte_ends _ _ Ec) in S. contradiction.
      - intros ->. exists t. eexists. eexists. split; [exact Hi|]. split; [apply trim_space_trimmed|]. split; [reflexivity|]. split.
        + destruct t as [|d t']; [congruence|]. unfold byte_eqb. destruct (Ascii.eqb_spec d "034") as [->|Nd].
          * left. split; [now apply first_starts | reflexivity].
          * right. split; [intros S; apply first_starts in S; contradiction | reflexivity].
        + unfold byte_eqb. destruct (Ascii.eqb_spec c "034") as [->|Nd].
          * left. split; [now apply (last_byte_ends _ _ Ec) | reflexivity].
          * right. split; [intros S; apply (last_byte_ends _ _ Ec) in S; contradiction | reflexivity]. }
    rewrite X. destruct t as [|d t'] eqn:Et; [congruence|].
    destruct (byte_eqb c "034") eqn:E1.
    + destruct (byte_eqb d "034") eqn:E2; cbn [append]; rewrite ?sapp_nil_r; (split; [intros [= <-]; split; [reflexivity | exact Ht] | intros (-> & _); reflexivity]).
    + cbn [append]. destruct (byte_eqb d "034") eqn:E2; cbn [append]; (split; [intros [= <-]; split; [reflexivity | exact Ht] | intros (-> & _); reflexivity]).
  - assert (Ht : trim_space i = "").
    { destruct (trim_space i) as [|d t] eqn:E; [reflexivity|]. exfalso. destruct (string_snoc (String d t)) as (r & e & E'); [discriminate|].
      rewrite E', last_byte_snoc in Ec. discriminate. }
    split; [discriminate|]. intros (_ & H). contradiction.
Qed.

Lemma template_import_panic i : (exists m, template_import i = Panic m) <-> i <> "" /\ trim_space i = "".
Proof.
  unfold template_import. destruct (String.eqb_spec i "") as [->|Hi].
  { split; [intros (m & H); discriminate | intros (H & _); congruence]. }
  cbv zeta. destruct (trim_space i) as [|d t] eqn:E.
  - cbn. split; [auto | intros _; eauto].
  - destruct (trim_space_idem_nonblank i) as (c & Ec); [rewrite E; discriminate|]. rewrite E in Ec. rewrite Ec.
    split; [|intros (_ & H); discriminate]. intros (m & H). destruct (byte_eqb c "034"); discriminate.
Qed.

Lemma template_import_total i : (i = "" \/ trim_space i <> "") -> exists o, template_import i = Ok o.
Proof.
  unfold template_import. destruct (String.eqb_spec i "") as [->|Hi]; [eauto|]. intros [|H]; [contradiction|].
  cbv zeta. destruct (trim_space_idem_nonblank i H) as (c & ->).
  destruct (trim_space i) as [|d t]; [congruence|]. destruct (byte_eqb c "034"); cbn [append]; eauto.
Qed.

Lemma add_template_imports_panic l : forall m i, In i l -> i <> "" -> trim_space i = "" -> exists msg, add_template_imports l m = Panic msg.
Proof.
  induction l as [|j l IH]; intros m i Hi H1 H2; [contradiction|]. cbn.
  destruct Hi as [->|Hi].
  - destruct (proj2 (template_import_panic i) (conj H1 H2)) as (msg & ->). cbn. eauto.
  - destruct (template_import j) as [o|e|msg] eqn:E; cbn; [eauto| |eauto].
    exfalso. revert E. unfold template_import. destruct (String.eqb j ""); [discriminate|]. cbv zeta.
    destruct (last_byte (trim_space j)); [|discriminate]. destruct (byte_eqb a "034"), (trim_space j); discriminate.
Qed.

(** ** reading a block back *)
Lemma lines_elem x : ~ In "010"%char (list_ascii_of_string x) -> forall acc, lines_aux x acc = [(acc ++ x)%string].
Proof.
  induction x as [|c x IH]; intros H acc; cbn; [now rewrite sapp_nil_r|]. cbn in H.
  rewrite byte_eqb_neq by (intros ->; apply H; now left). rewrite IH by (intros ?; apply H; now right). now rewrite sapp_assoc.
Qed.
Lemma lines_cons x s : ~ In "010"%char (list_ascii_of_string x) -> forall acc, lines_aux (x ++ nl ++ s) acc = (acc ++ x)%string :: lines_aux s "".
Proof.
  induction x as [|c x IH]; intros H acc; cbn; [now rewrite sapp_nil_r|]. cbn in H.
  rewrite byte_eqb_neq by (intros ->; apply H; now left). cbn in IH. rewrite IH by (intros ?; apply H; now right). now rewrite sapp_assoc.
Qed.
Lemma lines_join l : l <> [] -> Forall (fun x => ~ In "010"%char (list_ascii_of_string x)) l -> lines_aux (join nl l) "" = l.
Proof.
  intros Hn H. induction H as [|x l Hx H IH]; [congruence|]. destruct l as [|y l].
  - cbn. now apply lines_elem.
  - change (join nl (x :: y :: l)) with (x ++ nl ++ join nl (y :: l))%string. rewrite lines_cons by exact Hx.
    cbn [append]. f_equal. apply IH. discriminate.
Qed.

Lemma drop_last_snoc r c : drop_last (r ++ String c "") = r.
Proof.
  induction r as [|d r IH]; [reflexivity|]. cbn [append drop_last]. rewrite IH. destruct (r ++ String c "")%string eqn:E; [destruct r; discriminate | reflexivity].
Qed.

Lemma block_lines_ok l : l <> [] -> Forall (fun x => ~ In "010"%char (list_ascii_of_string x)) l ->
  block_lines ("import (" ++ nl ++ join nl l ++ ")" ++ nl) = Some l.
Proof.
  intros Hn H. unfold block_lines. cbv zeta.
  assert (("import (" ++ nl ++ join nl l ++ ")" ++ nl = ("import (" ++ nl) ++ (join nl l ++ ")") ++ nl)%string) as ->
    by now rewrite !sapp_assoc.
  rewrite prefix_app, drop_app. f_equal.
  unfold nl at 2. rewrite drop_last_snoc. rewrite drop_last_snoc. now apply lines_join.
Qed.
