(** Proofs about NewGen.v. *)
From Coq Require Import Permutation Sorted.
From Verif Require Import NewGen PrinterProofs GeneratorProofs ResolveProofs TypesProofs.
Open Scope nat_scope.

(** ** sorting *)
Definition str_lt (a b : string) : Prop := String.compare a b = Lt.

Lemma str_lt_trans a b c : str_lt a b -> str_lt b c -> str_lt a c.
Proof.
  unfold str_lt. revert b c; induction a as [|x a IH]; intros [|y b] [|z c] H1 H2; cbn in *; try discriminate; auto.
  destruct (Ascii.compare x y) eqn:E1; [|clear H1|discriminate].
  - apply Ascii.compare_eq_iff in E1. subst y. destruct (Ascii.compare x z) eqn:E2; auto. eauto.
  - destruct (Ascii.compare y z) eqn:E2; [|clear H2|discriminate].
    + apply Ascii.compare_eq_iff in E2. subst z. now rewrite E1.
    + assert (Ascii.compare x z = Lt) as ->; [|reflexivity].
      unfold Ascii.compare in *. rewrite N.compare_lt_iff in *. eapply N.lt_trans; eauto.
Qed.

Lemma str_lt_irrefl a : ~ str_lt a a.
Proof.
  unfold str_lt. assert (String.compare a a = Eq) as ->; [|discriminate].
  induction a as [|c a IH]; cbn; [reflexivity|]. unfold Ascii.compare. now rewrite N.compare_refl.
Qed.

Lemma str_ltb_lt a b : str_ltb a b = true <-> str_lt a b.
Proof. unfold str_ltb, str_lt. destruct (String.compare a b); split; congruence. Qed.

Lemma str_total a b : str_lt a b \/ a = b \/ str_lt b a.
Proof.
  unfold str_lt. destruct (String.compare a b) eqn:E; auto.
  - right; left. now apply String.compare_eq_iff.
  - right; right. rewrite String.compare_antisym, E. reflexivity.
Qed.

Lemma insert_perm x l : Permutation (x :: l) (insert x l).
Proof.
  induction l as [|y l IH]; cbn; [auto|]. destruct (str_ltb y x); [|auto].
  rewrite perm_swap. now constructor.
Qed.

Lemma sort_perm l : Permutation l (sort_strings l).
Proof. induction l as [|x l IH]; cbn; [constructor|]. rewrite <- insert_perm. now constructor. Qed.

Lemma insert_sorted x l : StronglySorted str_lt l -> ~ In x l -> StronglySorted str_lt (insert x l).
Proof.
  induction l as [|y l IH]; intros HS Hn; cbn.
  - constructor; constructor.
  - inversion HS as [|? ? HS' HF]; subst. destruct (str_ltb y x) eqn:E.
    + apply str_ltb_lt in E. constructor; [apply IH; auto; intros ?; apply Hn; now right|].
      apply (Permutation_Forall (insert_perm x l)). now constructor.
    + assert (str_lt x y).
      { destruct (str_total x y) as [|[->|H]]; auto; [exfalso; apply Hn; now left|].
        apply str_ltb_lt in H. congruence. }
      constructor; [exact HS|]. constructor; [assumption|].
      eapply Forall_impl; [|exact HF]. intros z Hz. eapply str_lt_trans; eauto.
Qed.

Lemma sort_sorted l : NoDup l -> StronglySorted str_lt (sort_strings l).
Proof.
  induction 1 as [|x l Hn _ IH]; cbn; [constructor|]. apply insert_sorted; [exact IH|].
  intros Hi. apply Hn. now apply (Permutation_in _ (Permutation_sym (sort_perm l))).
Qed.

Lemma sorted_unique l1 l2 : StronglySorted str_lt l1 -> StronglySorted str_lt l2 ->
  (forall x, In x l1 <-> In x l2) -> l1 = l2.
Proof.
  intros H1. revert l2. induction H1 as [|x l1 H1 IH F1]; intros l2 H2 HE.
  - destruct l2 as [|y l2]; [reflexivity|]. exfalso. apply (proj2 (HE y)). now left.
  - destruct H2 as [|y l2 H2 F2]; [exfalso; apply (proj1 (HE x)); now left|].
    rewrite Forall_forall in F1, F2.
    assert (x = y) as ->.
    { destruct (proj1 (HE x) (or_introl eq_refl)) as [->|Hx]; [reflexivity|].
      destruct (proj2 (HE y) (or_introl eq_refl)) as [->|Hy]; [reflexivity|].
      exfalso. apply (str_lt_irrefl x). eapply str_lt_trans; [apply F1; exact Hy | apply F2; exact Hx]. }
    f_equal. apply IH; [exact H2|]. intros z. split; intros Hz.
    + destruct (proj1 (HE z) (or_intror Hz)) as [->|]; [|assumption]. exfalso. apply (str_lt_irrefl z). now apply F1.
    + destruct (proj2 (HE z) (or_intror Hz)) as [->|]; [|assumption]. exfalso. apply (str_lt_irrefl z). now apply F2.
Qed.

(** ** Import *)
Lemma add_key_In k m x : In x (add_key k m) <-> x = k \/ In x m.
Proof.
  unfold add_key. destruct (mem k m) eqn:E.
  - apply mem_In in E. split; [now right | intros [->|]; assumption].
  - rewrite in_app_iff. cbn. intuition.
Qed.
Lemma add_key_NoDup k m : NoDup m -> NoDup (add_key k m).
Proof.
  intros H. unfold add_key. destruct (mem k m) eqn:E; [exact H|]. apply mem_false in E.
  apply NoDup_app_intro; [exact H | constructor; [intros []|constructor] | ].
  intros x Hx [<-|[]]. contradiction.
Qed.

Lemma fold_keys l : forall m, NoDup m ->
  let m' := fold_left (fun m i => add_key (trim_space i) m) l m in
  NoDup m' /\ forall x, In x m' <-> In x m \/ exists i, In i l /\ x = trim_space i.
Proof.
  induction l as [|i l IH]; intros m Hd; cbn.
  - split; [exact Hd|]. intros x. split; [now left | intros [|(i & [] & _)]; assumption].
  - destruct (IH _ (add_key_NoDup (trim_space i) m Hd)) as (Hd' & HI). split; [exact Hd'|].
    intros x. rewrite HI, add_key_In. split.
    + intros [[->|Hx]|(j & Hj & ->)]; [right; exists i; auto | now left | right; exists j; auto].
    + intros [Hx|(j & [<-|Hj] & ->)]; [auto | auto | right; eauto].
Qed.

Lemma add_template_imports_spec l : forall m m', NoDup m -> add_template_imports l m = Ok m' ->
  NoDup m' /\ forall x, In x m' <-> In x m \/ exists i, In i l /\ template_import i = Ok (Some x).
Proof.
  induction l as [|i l IH]; intros m m' Hd H; cbn in H.
  - injection H as <-. split; [exact Hd|]. intros x. split; [now left | intros [|(i & [] & _)]; assumption].
  - destruct (template_import i) as [o| |] eqn:E; cbn in H; try discriminate.
    destruct o as [k|].
    + destruct (IH _ _ (add_key_NoDup k m Hd) H) as (Hd' & HI). split; [exact Hd'|].
      intros x. rewrite HI, add_key_In. split.
      * intros [[->|Hx]|(j & Hj & E')]; [right; exists i; cbn; auto | now left | right; exists j; cbn; auto].
      * intros [Hx|(j & [<-|Hj] & E')]; [auto | left; left; congruence | right; eauto].
    + destruct (IH _ _ Hd H) as (Hd' & HI). split; [exact Hd'|].
      intros x. rewrite HI. split.
      * intros [Hx|(j & Hj & E')]; [now left | right; exists j; cbn; auto].
      * intros [Hx|(j & [<-|Hj] & E')]; [auto | congruence | right; eauto].
Qed.

Lemma add_template_imports_total l : forall m, (forall i, In i l -> exists o, template_import i = Ok o) ->
  exists m', add_template_imports l m = Ok m'.
Proof.
  induction l as [|i l IH]; intros m H; cbn; [eauto|].
  destruct (H i (or_introl eq_refl)) as (o & ->). cbn. apply IH. intros; apply H; now right.
Qed.

(** trimming *)
Lemma trim_space_idem_nonblank i : trim_space i <> "" ->
  exists c, last_byte (trim_space i) = Some c.
Proof.
  destruct (trim_space i) as [|c s]; [congruence|]. intros _. revert c.
  induction s as [|d s IH]; intros c; [cbn; eauto|]. cbn in *. destruct (IH d) as (e & ->). eauto.
Qed.

(** ** names: keys are the methods' own names *)
Definition named (ms : methodsList) : Prop := Forall (fun km => fst km = m_name (snd km)) ms.

Lemma NewMethod_name Or pr g a n f m : NewMethod Or pr g a n f = Ok m -> m_name m = n.
Proof.
  unfold NewMethod. destruct (f_type f); try discriminate.
  destruct (returns_error results); try discriminate. cbn.
  match goal with |- context [rbind ?x _] => destruct x; try discriminate end. cbn.
  match goal with |- context [rbind ?x _] => destruct x; try discriminate end. cbn.
  match goal with |- context [if ?x then _ else _] => destruct x; try discriminate end.
  match goal with |- context [if ?x then _ else _] => destruct x; try discriminate end.
  intros H. injection H as <-. reflexivity.
Qed.

Lemma assoc_set_Forall {A} (P : string * A -> Prop) k v l : P (k, v) -> Forall P l -> Forall P (assoc_set k v l).
Proof.
  intros Hk. induction 1 as [|[k' v'] l H Hl IH]; cbn; [constructor; auto|]. destruct (String.eqb k k'); constructor; auto.
Qed.

Lemma merge_named a l : named a -> named l -> named (merge_into a l).
Proof.
  intros Ha Hl. revert a Ha. induction Hl as [|[k v] l H _ IH]; intros a Ha; [exact Ha|].
  apply IH. now apply assoc_set_Forall.
Qed.

Lemma mergeMethods_named a o : named a -> match o with Some l => named l | None => True end -> named (mergeMethods a o).
Proof. intros Ha Ho. destruct o; cbn; [|exact Ha]. apply merge_named; [|exact Ha]. apply merge_named; [constructor | exact Ho]. Qed.

Definition onamed (o : option methodsList) := match o with Some l => named l | None => True end.

Lemma interface_loop_named nm em : (forall n f m, nm n f = Ok m -> m_name m = n) ->
  (forall i e g o, em i e = Some (Ok (g, o)) -> onamed o) ->
  forall l i ms ms', named ms -> interface_loop nm em i l ms = Some (Ok ms') -> named ms'.
Proof.
  intros HN HE. induction l as [|f l IH]; intros i ms ms' Hm H; [injection H as <-; exact Hm|].
  destruct (is_method f) eqn:Ef.
  - rewrite interface_loop_func in H by exact Ef. destruct (f_names f) as [|n ns]; [discriminate|].
    destruct (nm n f) as [m| |] eqn:E; try discriminate. cbn in H. eapply IH; [|exact H].
    apply assoc_set_Forall; [|exact Hm]. cbn. symmetry. eauto.
  - rewrite interface_loop_emb in H by exact Ef. destruct (em i (f_type f)) as [[[g o]| |]|] eqn:E; try discriminate.
    cbn in H. eapply IH; [|exact H]. apply mergeMethods_named; [exact Hm|]. exact (HE _ _ _ _ E).
Qed.

Section Named.
  Variable Or : oracle. Variable W : world.
  Lemma results_named fuel :
    (forall path p a t g out, findTarget Or W fuel path p a t g = Some (Ok out) -> onamed (out_methods out)) /\
    (forall path ts inp ms, findMethods Or W fuel path ts inp = Some (Ok ms) -> onamed ms) /\
    (forall path l inp ms, processInterface Or W fuel path l inp = Some (Ok ms) -> onamed ms) /\
    (forall path t c inp g ms, processEmbedded Or W fuel path t c inp = Some (Ok (g, ms)) -> onamed ms).
  Proof.
    induction fuel as [|fuel (IT & IM & II & IE)].
    { split; [|split; [|split]]; intros; discriminate. }
    split; [|split; [|split]].
    - intros path p a t g out H. cbn [findTarget] in H. rewrite iterateFiles_eq in H.
      destruct (fold_left _ _ _) as [[ts f]|]; [|discriminate].
      apply fbind_ok in H. destruct H as (gts & _ & H). apply fbind_ok in H. destruct H as (ms & Hm & H).
      injection H as <-. cbn. eauto.
    - intros path ts inp ms H. cbn [findMethods] in H.
      destruct (ts_type ts) as [n|x s| | | | | | | | | | | | | | |]; try (injection H as <-; exact I); try now apply II in H.
      + destruct (find_type n (ti_file inp)) as [ts'|]; [eauto|]. injection H as <-. exact I.
      + destruct x; try (injection H as <-; exact I).
        apply fbind_ok in H. destruct H as (p & _ & H). apply fbind_ok in H. destruct H as (u & _ & H).
        apply fbind_ok in H. destruct H as (out & Ho & H). apply fwrap_ok in Ho. injection H as <-. eauto.
    - intros path l inp ms H. cbn [processInterface] in H. destruct l as [l|]; [|injection H as <-; exact I].
      apply fbind_ok in H. destruct H as (m & Hm & H). injection H as <-. cbn.
      eapply interface_loop_named; [| | |exact Hm]; [intros; eapply NewMethod_name; eauto | | constructor].
      intros i e g o He. cbv beta in He. eauto.
    - intros path t c inp g ms H. cbn [processEmbedded] in H.
      apply fbind_ok in H. destruct H as ((x & gp) & _ & H). cbn [fst snd] in H.
      apply fbind_ok in H. destruct H as (name & _ & H).
      apply fbind_ok in H. destruct H as (ms' & Hm & H). injection H as _ <-.
      destruct x as [n|y s| | | | | | | | | | | | | | |]; try (injection Hm as <-; exact I).
      + destruct (find_type n (ti_types inp)) as [ts|]; [|injection Hm as <-; exact I].
        destruct (ts_type ts); try (destruct c; [discriminate | injection Hm as <-; exact I]).
        apply fbind_ok in Hm. destruct Hm as (gts & _ & Hm). eauto.
      + destruct y; try discriminate.
        apply fbind_ok in Hm. destruct Hm as (ip & _ & Hm).
        destruct (assoc ip (pk_imports (ti_pkg inp))) as [id|]; [|discriminate].
        destruct (w_pkg W id) as [p|]; [|discriminate].
        apply fbind_ok in Hm. destruct Hm as (u & _ & Hm). apply fbind_ok in Hm. destruct Hm as (out & Ho & Hm).
        injection Hm as <-. eauto.
  Qed.
End Named.

(** ** check_exported *)
Lemma check_exported_ok lower l : check_exported lower l = Ok tt ->
  Forall (fun km => looks_unexported lower (m_name (snd km)) = Ok false) l.
Proof.
  induction l as [|[k m] l IH]; cbn; [constructor|]. intros H.
  destruct (looks_unexported lower (m_name m)) as [[]| |] eqn:E; cbn in H; try discriminate.
  constructor; auto.
Qed.

Lemma check_exported_err lower l :
  (forall k m, In (k, m) l -> m_name m <> "") ->
  (exists k m, In (k, m) l /\ looks_unexported lower (m_name m) = Ok true) ->
  exists k m, In (k, m) l /\ looks_unexported lower (m_name m) = Ok true /\
     check_exported lower l = Err (Wrapped (m_name m) errUnexportedMethod).
Proof.
  induction l as [|[k0 m0] l IH]; intros Hne (k & m & Hi & Hu); [contradiction|]. cbn.
  destruct (looks_unexported_total lower (m_name m0)) as ([] & E); [apply (Hne k0); now left | |]; rewrite E; cbn.
  - exists k0, m0. split; [now left|]. auto.
  - destruct IH as (k1 & m1 & H1 & H2 & H3).
    + intros; eapply Hne; right; eauto.
    + destruct Hi as [Hi|Hi]; [injection Hi as <- <-; congruence | eauto].
    + exists k1, m1. split; [now right | auto].
Qed.

(** ** Inversion of NewGenerator *)
Definition ast_name (E : env) (o : options) (src : package) (dst_path : string) : string :=
  if String.eqb (pk_path src) dst_path then ""
  else if negb (String.eqb (op_alias o) "") then op_alias o
  else ("_source" ++ e_title E (pk_name src))%string.

Lemma ast_name_empty E o src d : ast_name E o src d = "" <-> pk_path src = d.
Proof.
  unfold ast_name. destruct (String.eqb_spec (pk_path src) d) as [->|N]; [tauto|].
  split; [|contradiction]. destruct (String.eqb_spec (op_alias o) ""); cbn; [discriminate | contradiction].
Qed.

Lemma NewGenerator_inv Or E W fuel o g : NewGenerator Or E W fuel o = Some (Ok g) ->
  exists out,
    e_parse E (op_header o) = None /\ e_parse E (op_body o) = None /\
    (op_instance o = Some (g_src g) \/ op_instance o = None /\ w_load W (op_source o) = Ok (g_src g)) /\
    loadDestinationPackage W (dstPackagePath (op_output o)) = Ok (g_dst_name g, g_dst_path g) /\
    ast_ok (g_src g) = Ok tt /\
    findTarget Or W fuel [] (g_src g) (ast_name E o (g_src g) (g_dst_path g)) (op_interface o) [] = Some (Ok out) /\
    out_methods out = Some (g_methods g) /\ g_methods g <> [] /\
    (pk_path (g_src g) <> g_dst_path g -> check_exported (o_lower Or) (e_order E (g_methods g)) = Ok tt) /\
    (g_genericTypes g, g_genericParams g) = buildVars (out_gtypes out) /\
    op_imports (g_options g) = op_imports o ++
      (if String.eqb (pk_path (g_src g)) (g_dst_path g) then []
       else [(ast_name E o (g_src g) (g_dst_path g) ++ " " ++ quote ++ pk_path (g_src g) ++ quote)%string]) ++
      makeImports (out_imports out) /\
    g_interfaceType g = (if String.eqb (pk_path (g_src g)) (g_dst_path g) then op_interface o
                         else ast_name E o (g_src g) (g_dst_path g) ++ "." ++ op_interface o)%string.
Proof.
  unfold NewGenerator. intros H.
  apply fbind_ok in H. destruct H as ([] & H1 & H).
  destruct (e_parse E (op_header o)) as [|]; [discriminate|]. clear H1.
  apply fbind_ok in H. destruct H as ([] & H1 & H).
  destruct (e_parse E (op_body o)) as [|]; [discriminate|]. clear H1.
  apply fbind_ok in H. destruct H as (src & Hs & H).
  apply fbind_ok in H. destruct H as ([dn dp] & Hd & H). cbn [fst snd] in H.
  apply fbind_ok in H. destruct H as ([] & Ha & H).
  apply fbind_ok in H. destruct H as (out & Ht & H). apply fwrap_ok in Ht.
  destruct (out_methods out) as [ms|] eqn:Em; [|discriminate].
  destruct ms as [|km ms]; [discriminate|].
  apply fbind_ok in H. destruct H as ([] & Hc & H).
  destruct (buildVars (out_gtypes out)) as [gt gp] eqn:Eb. injection H as <-.
  cbn [g_src g_dst_name g_dst_path g_methods g_genericTypes g_genericParams g_options g_interfaceType with_imports op_imports].
  change (if String.eqb (pk_path src) dp then "" else if negb (String.eqb (op_alias o) "") then op_alias o
          else ("_source" ++ e_title E (pk_name src))%string) with (ast_name E o src dp) in *.
  exists out. repeat split; auto.
  - destruct (op_instance o); [injection Hs as <-; now left|]. right. split; [reflexivity|].
    injection Hs as Hs. destruct (w_load W (op_source o)); cbn in Hs; congruence.
  - injection Hd as Hd. destruct (loadDestinationPackage W _); cbn in Hd; congruence.
  - injection Ha as Ha. destruct (ast_ok src) as [[]| |]; cbn in Ha; congruence.
  - discriminate.
  - intros N. destruct (String.eqb_spec (ast_name E o src dp) "") as [E0|]; [apply ast_name_empty in E0; contradiction|].
    cbn in Hc. now injection Hc.
  - unfold ast_name. destruct (String.eqb (pk_path src) dp); [reflexivity|]. rewrite <- app_assoc. reflexivity.
Qed.

