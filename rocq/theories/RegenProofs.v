(** Proofs for C78: the second run resolves the interface like the first. *)
From Coq Require Import Permutation.
From Verif Require Import Cmd PrinterProofs GeneratorProofs ResolveSpec ResolveProofs QualifierProofs OrderProofs Regen.
Open Scope nat_scope.

Lemma names_app a b : type_names_of (a ++ b) = type_names_of a ++ type_names_of b.
Proof. unfold type_names_of. now rewrite flat_map_app, map_app. Qed.

(** without a prefix, printing does not look at the package's types *)
Lemma pt_noprefix O t1 t2 : forall e, pt O t1 "" e = pt O t2 "" e.
Proof.
  set (P := fun e => pt O t1 "" e = pt O t2 "" e).
  assert (HF : forall l, Forall (Pf P) l -> pt_fields O t1 "" l = pt_fields O t2 "" l).
  { induction 1 as [|f l Hf _ IH]; [reflexivity|]. cbn [pt_fields]. rewrite Hf, IH. reflexivity. }
  assert (HL : forall l, Forall P l -> pt_list O t1 "" l = pt_list O t2 "" l).
  { induction 1 as [|f l Hf _ IH]; [reflexivity|]. cbn [pt_list]. rewrite Hf, IH. reflexivity. }
  apply (expr_ind' P); unfold P; intros; try reflexivity.
  - cbn [pt]. unfold ident_res. cbn. now destruct (existsb _ t1), (existsb _ t2).
  - cbn [pt]. now rewrite H.
  - cbn [pt]. now rewrite H.
  - cbn [pt]. now rewrite H0.
  - cbn [pt]. now rewrite H, H0.
  - cbn [pt]. now rewrite H.
  - rewrite !pt_Func. rewrite (HF ps H). destruct rs as [l|]; [|reflexivity]. now rewrite (HF l (H0 l eq_refl)).
  - rewrite !pt_Struct. now rewrite (HF fs H).
  - cbn [pt]. now rewrite H, H0.
  - rewrite !pt_IndexList. now rewrite H, (HL l H0).
Qed.
Lemma parseGenericType_noprefix e t1 t2 : parseGenericType e t1 "" = parseGenericType e t2 "".
Proof.
  induction e; cbn [parseGenericType]; try reflexivity.
  destruct (String.eqb op "|"); [|reflexivity]. now rewrite IHe1, IHe2.
Qed.
Lemma buildGenericTypes_noprefix ts t1 t2 : buildGenericTypesFromSpec ts t1 "" = buildGenericTypesFromSpec ts t2 "".
Proof.
  unfold buildGenericTypesFromSpec. destruct (ts_tparams ts) as [l|]; [|reflexivity].
  induction l as [|f l IH]; [reflexivity|]. cbn [mapM]. rewrite (parseGenericType_noprefix (f_type f) t1 t2). now rewrite IH.
Qed.

(** the types matter to printing by their names, and not at all without a prefix *)
Definition same_print (prefix : string) (t1 t2 : list typespec) : Prop := prefix = "" \/ same_names t1 t2.
Lemma print_same O t1 t2 a e : same_print a t1 t2 -> PrintType O t1 a e = PrintType O t2 a e.
Proof. intros [->|H]; [rewrite !PrintType_pt; apply pt_noprefix | now apply PrintType_same]. Qed.
Lemma generic_same ts t1 t2 a : same_print a t1 t2 -> buildGenericTypesFromSpec ts t1 a = buildGenericTypesFromSpec ts t2 a.
Proof. intros [->|H]; [apply buildGenericTypes_noprefix | now apply buildGenericTypesFromSpec_same]. Qed.

Section Same.
  Variable Or : oracle. Variables W1 W2 : world.
  Hypothesis SP : same_packages W1 W2.

  Lemma w_pkg_same id : w_pkg W2 id = w_pkg W1 id.
  Proof. apply (sp_pkg _ _ SP). Qed.

  (** the declaration that is found, in a file that both packages have *)
  Lemma sel_same name l ex1 ex2 p1 p2 l1 l2 : same_but W1 l ex1 ex2 p1 p2 ->
    ~ In name (type_names_of ex1) -> ~ In name (type_names_of ex2) ->
    Permutation l1 (pk_files p1) -> Permutation l2 (pk_files p2) ->
    fold_left (sel_step name) l1 None = fold_left (sel_step name) l2 None /\
    (forall ts f, fold_left (sel_step name) l1 None = Some (ts, f) -> In f l /\ In ts (gf_types f)).
  Proof.
    intros SB N1 N2 P1 P2.
    rewrite (sb_files1 _ _ _ _ _ _ SB) in P1. rewrite (sb_files2 _ _ _ _ _ _ SB) in P2.
    assert (HN : forall k ex, Permutation k (l ++ ex) -> fold_left (sel_step name) k None = None -> ~ In name (type_names_of l)).
    { intros k ex HP HE Hi. apply (sel_None _ _ _ HE). change (In name (type_names_of k)).
      eapply Permutation_in; [apply Permutation_map; symmetry; apply flat_map_perm; exact HP|].
      change (In name (type_names_of (l ++ ex))). rewrite names_app. apply in_or_app. now left. }
    assert (HS : forall k ex t f, Permutation k (l ++ ex) -> ~ In name (type_names_of ex) -> fold_left (sel_step name) k None = Some (t, f) ->
              In f l /\ In t (gf_types f) /\ ts_name t = name).
    { intros k ex t f HP HX HE. destruct (sel_Some _ _ _ _ _ HE) as [(Hf & Ht & Hn)|]; [|discriminate].
      apply (Permutation_in _ HP) in Hf. apply in_app_or in Hf. destruct Hf as [Hf|Hf]; [auto|].
      destruct HX. rewrite <- Hn. unfold type_names_of. apply in_map. apply in_flat_map. eauto. }
    split; [|intros ts f HE; destruct (HS _ _ _ _ P1 N1 HE) as (A & B & _); auto].
    destruct (fold_left (sel_step name) l1 None) as [[t1 f1]|] eqn:E1,
             (fold_left (sel_step name) l2 None) as [[t2 f2]|] eqn:E2; [|exfalso|exfalso|reflexivity].
    - destruct (HS _ _ _ _ P1 N1 E1) as (A1 & B1 & C1). destruct (HS _ _ _ _ P2 N2 E2) as (A2 & B2 & C2).
      pose proof (sb_types1 _ _ _ _ _ _ SB) as ND. rewrite names_app in ND. apply NoDup_app_l in ND.
      destruct (NoDup_flat_map_inj gf_types ts_name l f1 f2 t1 t2 ND A1 A2 B1 B2 ltac:(congruence)) as (-> & ->). reflexivity.
    - destruct (HS _ _ _ _ P1 N1 E1) as (A1 & B1 & C1). apply (HN _ _ P2 E2). rewrite <- C1. unfold type_names_of. apply in_map. apply in_flat_map. eauto.
    - destruct (HS _ _ _ _ P2 N2 E2) as (A1 & B1 & C1). apply (HN _ _ P1 E1). rewrite <- C1. unfold type_names_of. apply in_map. apply in_flat_map. eauto.
  Qed.

  Lemma find_same n l ex1 ex2 p1 p2 t1 t2 : same_but W1 l ex1 ex2 p1 p2 ->
    ~ In n (type_names_of ex1) -> ~ In n (type_names_of ex2) ->
    Permutation t1 (flat_map gf_types (l ++ ex1)) -> Permutation t2 (flat_map gf_types (l ++ ex2)) ->
    find_type n t1 = find_type n t2 /\ (forall ts, find_type n t1 = Some ts -> exists f, In f l /\ In ts (gf_types f)).
  Proof.
    intros SB N1 N2 P1 P2.
    assert (HN : forall t ex, Permutation t (flat_map gf_types (l ++ ex)) -> find_type n t = None -> ~ In n (type_names_of l)).
    { intros t ex HP HE Hi. apply (find_type_None _ _ HE).
      eapply Permutation_in; [apply Permutation_map; symmetry; exact HP|].
      change (In n (type_names_of (l ++ ex))). rewrite names_app. apply in_or_app. now left. }
    assert (HS : forall t ex ts, Permutation t (flat_map gf_types (l ++ ex)) -> ~ In n (type_names_of ex) -> find_type n t = Some ts ->
              In ts (flat_map gf_types l) /\ ts_name ts = n).
    { intros t ex ts HP HX HE. destruct (find_type_Some _ _ _ HE) as (Hi & Hn). split; [|exact Hn].
      apply (Permutation_in _ HP) in Hi. rewrite flat_map_app in Hi. apply in_app_or in Hi. destruct Hi as [Hi|Hi]; [exact Hi|].
      destruct HX. rewrite <- Hn. unfold type_names_of. now apply in_map. }
    split.
    2:{ intros ts HE. destruct (HS _ _ _ P1 N1 HE) as (A & _). apply in_flat_map in A. exact A. }
    destruct (find_type n t1) as [s1|] eqn:E1, (find_type n t2) as [s2|] eqn:E2; [|exfalso|exfalso|reflexivity].
    - destruct (HS _ _ _ P1 N1 E1) as (A1 & B1). destruct (HS _ _ _ P2 N2 E2) as (A2 & B2).
      pose proof (sb_types1 _ _ _ _ _ _ SB) as ND. rewrite names_app in ND. apply NoDup_app_l in ND.
      f_equal. apply (NoDup_map_inj ts_name (flat_map gf_types l)); auto. congruence.
    - destruct (HS _ _ _ P1 N1 E1) as (A1 & B1). apply (HN _ _ P2 E2). rewrite <- B1. unfold type_names_of. now apply in_map.
    - destruct (HS _ _ _ P2 N2 E2) as (A1 & B1). apply (HN _ _ P1 E1). rewrite <- B1. unfold type_names_of. now apply in_map.
  Qed.

  (** the parts of the elements embedded in the files [l] *)
  Definition part_of (l : list gofile) (e : expr) : Prop := exists f e', In f l /\ mentions f e' /\
    (forall n, occurs_name n e -> occurs_name n e') /\ (forall q, occurs_qualifier q e -> occurs_qualifier q e').

  Lemma path_same q l ex1 ex2 p1 p2 e l1 l2 : same_but W1 l ex1 ex2 p1 p2 -> part_of l e -> occurs_qualifier q e ->
    Permutation l1 (pk_imports p1) -> Permutation l2 (pk_imports p2) ->
    path_by_name W1 q l1 = path_by_name W2 q l2 /\
    forall s, path_by_name W1 q l1 = Some s -> assoc s (pk_imports p1) = assoc s (pk_imports p2).
  Proof.
    intros SB (f & e' & Hf & Hm & _ & Hq) HQ P1 P2. apply Hq in HQ.
    pose proof (sb_imports _ _ _ _ _ _ SB f e' q Hf Hm HQ) as SI. pose proof (sb_qualifiers _ _ _ _ _ _ SB f e' q Hf Hm HQ) as SU.
    split.
    - destruct (path_by_name W1 q l1) as [s1|] eqn:E1, (path_by_name W2 q l2) as [s2|] eqn:E2; [|exfalso|exfalso|reflexivity].
      + destruct (path_by_name_In _ _ _ _ E1) as (i1 & b1 & H1 & Hp1 & N1).
        destruct (path_by_name_In _ _ _ _ E2) as (i2 & b2 & H2 & Hp2 & N2). rewrite w_pkg_same in Hp2.
        apply (Permutation_in _ P1) in H1. apply (Permutation_in _ P2) in H2.
        apply (SI _ _ _ Hp2 N2) in H2. f_equal. eapply SU; eauto.
      + destruct (path_by_name_In _ _ _ _ E1) as (i1 & b1 & H1 & Hp1 & N1).
        apply (Permutation_in _ P1) in H1. apply (SI _ _ _ Hp1 N1) in H1. apply (Permutation_in _ (Permutation_sym P2)) in H1.
        rewrite <- w_pkg_same in Hp1. exact (path_by_name_None _ _ _ E2 _ _ _ H1 Hp1 N1).
      + destruct (path_by_name_In _ _ _ _ E2) as (i1 & b1 & H1 & Hp1 & N1). rewrite w_pkg_same in Hp1.
        apply (Permutation_in _ P2) in H1. apply (SI _ _ _ Hp1 N1) in H1. apply (Permutation_in _ (Permutation_sym P1)) in H1.
        exact (path_by_name_None _ _ _ E1 _ _ _ H1 Hp1 N1).
    - intros s E1. destruct (path_by_name_In _ _ _ _ E1) as (i1 & b1 & H1 & Hp1 & N1). apply (Permutation_in _ P1) in H1.
      rewrite (In_assoc _ _ _ (sb_keys1 _ _ _ _ _ _ SB) H1). symmetry. apply In_assoc; [apply (sb_keys2 _ _ _ _ _ _ SB)|].
      now apply (SI _ _ _ Hp1 N1).
  Qed.

  Record inp_rel (l ex1 ex2 : list gofile) (i1 i2 : tinput) : Prop := {
    ir_known : known W1 (ti_pkg i1);
    ir_same : same_but W1 l ex1 ex2 (ti_pkg i1) (ti_pkg i2);
    ir_types1 : Permutation (ti_types i1) (flat_map gf_types (l ++ ex1));
    ir_types2 : Permutation (ti_types i2) (flat_map gf_types (l ++ ex2));
    ir_print : same_print (ti_prefix i1) (ti_types i1) (ti_types i2);
    ir_file : exists f, In f l /\ ti_imports i1 = gf_imports f /\ ti_file i1 = gf_types f;
    ir_rest : i2 = TInput (ti_pkg i2) (ti_prefix i1) (ti_types i2) (ti_imports i1) (ti_file i1) (ti_gtypes i1) (ti_gparams i1)
  }.
  Lemma inp_rel_set l ex1 ex2 i1 i2 g h : inp_rel l ex1 ex2 i1 i2 ->
    inp_rel l ex1 ex2 (set_gtypes g (set_gparams h i1)) (set_gtypes g (set_gparams h i2)).
  Proof.
    intros [A B C D F G H]. constructor; cbn; try assumption. unfold set_gtypes, set_gparams. cbn. rewrite H. reflexivity.
  Qed.

  Definition fields_of (l : list gofile) (ms : option (list field)) : Prop :=
    exists f ts, In f l /\ In ts (gf_types f) /\ ts_type ts = InterfaceT ms.

  Definition sr_target fuel := forall l ex1 ex2 path p1 p2 a T g, known W1 p1 -> same_but W1 l ex1 ex2 p1 p2 ->
    ~ In T (type_names_of ex1) -> ~ In T (type_names_of ex2) -> (a = "" \/ ex1 = [] /\ ex2 = []) ->
    findTarget Or W1 fuel path p1 a T g = findTarget Or W2 fuel path p2 a T g.
  Definition sr_methods fuel := forall l ex1 ex2 path ts i1 i2, inp_rel l ex1 ex2 i1 i2 -> In ts (ti_file i1) ->
    findMethods Or W1 fuel path ts i1 = findMethods Or W2 fuel path ts i2.
  Definition sr_interface fuel := forall l ex1 ex2 path ms i1 i2, inp_rel l ex1 ex2 i1 i2 -> fields_of l ms ->
    processInterface Or W1 fuel path ms i1 = processInterface Or W2 fuel path ms i2.
  Definition sr_embedded fuel := forall l ex1 ex2 path t c i1 i2, inp_rel l ex1 ex2 i1 i2 -> part_of l t ->
    processEmbedded Or W1 fuel path t c i1 = processEmbedded Or W2 fuel path t c i2.

  Lemma part_index l x i : part_of l (IndexE x i) -> part_of l x /\ part_of l i.
  Proof. intros (f & e' & A & B & C & D). cbn in C, D. split; exists f, e'; repeat split; auto. Qed.
  Lemma part_list l x es : part_of l (IndexListE x es) -> part_of l x /\ forall e, In e es -> part_of l e.
  Proof.
    intros (f & e' & A & B & C & D). cbn in C, D. split; [exists f, e'; repeat split; auto|].
    intros e He. exists f, e'. split; [exact A|]. split; [exact B|]. split.
    - intros n Hn. apply C. right. clear -He Hn. induction es as [|y es IH]; [contradiction|]. destruct He as [->|He]; [now left|right; exact (IH He)].
    - intros n Hn. apply D. right. clear -He Hn. induction es as [|y es IH]; [contradiction|]. destruct He as [->|He]; [now left|right; exact (IH He)].
  Qed.

  Lemma known_itself p : known W1 p -> same_but W1 (pk_files p) [] [] p p.
  Proof. apply (sp_itself _ _ SP). Qed.

  Lemma resolution_same fuel : sr_target fuel /\ sr_methods fuel /\ sr_interface fuel /\ sr_embedded fuel.
  Proof.
    induction fuel as [|fuel (IT & IM & II & IE)].
    { split; [|split; [|split]]; red; reflexivity. }
    split; [|split; [|split]].
    - intros l ex1 ex2 path p1 p2 a T g K SB N1 N2 HA. cbn [findTarget]. rewrite !iterateFiles_eq.
      pose proof (sp_files1 _ _ SP p1 path) as P1. pose proof (sp_files2 _ _ SP p2 path) as P2.
      destruct (sel_same T l ex1 ex2 p1 p2 _ _ SB N1 N2 P1 P2) as (ES & HL). rewrite <- ES.
      destruct (fold_left _ (rnd_files W1 path p1) None) as [[ts f]|] eqn:EF; [|reflexivity].
      destruct (HL ts f eq_refl) as (Hf & Hts).
      assert (Q1 : Permutation (flat_map gf_types (rnd_files W1 path p1)) (flat_map gf_types (l ++ ex1)))
        by (apply flat_map_perm; rewrite P1; apply (sb_files1 _ _ _ _ _ _ SB)).
      assert (Q2 : Permutation (flat_map gf_types (rnd_files W2 path p2)) (flat_map gf_types (l ++ ex2)))
        by (apply flat_map_perm; rewrite P2; apply (sb_files2 _ _ _ _ _ _ SB)).
      assert (HP : same_print a (flat_map gf_types (rnd_files W1 path p1)) (flat_map gf_types (rnd_files W2 path p2))).
      { destruct HA as [->|[-> ->]]; [now left|]. right. apply perm_same_names. now rewrite Q1, Q2. }
      rewrite (generic_same ts _ _ a HP).
      destruct (buildGenericTypesFromSpec ts _ a) as [gts| |]; try reflexivity. cbn [flift fbind].
      rewrite (IM l ex1 ex2 path ts _ (TInput p2 a (flat_map gf_types (rnd_files W2 path p2)) (gf_imports f) (gf_types f) gts g)); [reflexivity| |exact Hts].
      constructor; cbn [ti_pkg ti_prefix ti_types ti_imports ti_file ti_gtypes ti_gparams]; [exact K|exact SB|exact Q1|exact Q2|exact HP|exists f; auto|reflexivity].
    - intros l ex1 ex2 path ts i1 i2 HI Hts. pose proof HI as [K SB P1 P2 HP (f & Hf & EI & EF) E]. cbn [findMethods].
      assert (E1 : ti_imports i2 = ti_imports i1 /\ ti_file i2 = ti_file i1) by (rewrite E; auto). destruct E1 as (-> & ->).
      destruct (ts_type ts) eqn:ET; try reflexivity.
      + destruct (find_type n (ti_file i1)) as [ts'|] eqn:Ef; [|reflexivity]. apply (IM l ex1 ex2); [exact HI|]. now apply find_type_Some in Ef.
      + destruct e; try reflexivity.
        destruct (sp_load _ _ SP (ti_pkg i1) f ts n sel K) as ((i & Hi & Hg) & HL).
        { split; [|now rewrite <- EF]. eapply Permutation_in; [symmetry; apply (sb_files1 _ _ _ _ _ _ SB)|]. apply in_or_app. now left. }
        { exact ET. }
        assert (EL : w_load W2 (findSourcePackage n (ti_imports i1)) = w_load W1 (findSourcePackage n (ti_imports i1))).
        { rewrite EI, find_source_first.
          destruct (find (fun i => String.eqb n (guess i)) (gf_imports f)) as [i'|] eqn:F.
          - apply find_some in F. destruct F as [F1 _]. destruct (HL i' F1) as (pth & E1 & E2 & E3). now rewrite E1, trim_quoted.
          - exfalso. eapply find_none in F; [|exact Hi]. apply String.eqb_neq in F. apply F. symmetry.
            destruct (HL i Hi) as (pth & E1 & E2 & _). apply guess_guessed; [exists pth; auto|exact Hg]. }
        rewrite EL. destruct (w_load W1 (findSourcePackage n (ti_imports i1))) as [p| |] eqn:El; try reflexivity. cbn [flift fbind fwrap].
        assert (K' : known W1 p) by (right; eauto).
        rewrite (IT (pk_files p) [] [] (0 :: path) p p); [reflexivity|exact K'|now apply known_itself|easy|easy|now right].
      + apply (II l ex1 ex2); [exact HI|]. exists f, ts. rewrite <- EF. auto.
    - intros l ex1 ex2 path ms i1 i2 HI (f & ts & Hf & Hts & ET). cbn [processInterface]. destruct ms as [fl|]; [|reflexivity].
      pose proof HI as [K SB P1 P2 HP _ E].
      assert (E1 : ti_prefix i2 = ti_prefix i1 /\ ti_gtypes i2 = ti_gtypes i1 /\ ti_gparams i2 = ti_gparams i1)
        by (rewrite E; auto). destruct E1 as (-> & -> & ->).
      f_equal. apply interface_loop_ext.
      + intros n fd. apply NewMethod_ext. intros e. now apply print_same.
      + intros j fd Hfd. apply (IE l ex1 ex2); [exact HI|]. exists f, (f_type fd). repeat split; auto.
        exists ts. split; [exact Hts|]. right. eauto.
    - intros l ex1 ex2 path t c i1 i2 HI HT. cbn [processEmbedded].
      pose proof HI as [K SB P1 P2 HP (f & Hf & EI & EF) E].
      assert (EX : forall es, (forall e, In e es -> part_of l e) ->
          args_loop (fun k e => processEmbedded Or W1 fuel (S k :: path) e false i1) 0 es =
          args_loop (fun k e => processEmbedded Or W2 fuel (S k :: path) e false i2) 0 es).
      { intros es He. apply args_loop_ext. intros. apply (IE l ex1 ex2); auto. }
      assert (EY : match t with
                   | IndexE x i => let? gps := args_loop (fun k e => processEmbedded Or W1 fuel (S k :: path) e false i1) 0 [i] in
                                   fret (x, Some gps)
                   | IndexListE x l => let? gps := args_loop (fun k e => processEmbedded Or W1 fuel (S k :: path) e false i1) 0 l in
                                       fret (x, Some gps)
                   | _ => fret (t, None)
                   end = match t with
                   | IndexE x i => let? gps := args_loop (fun k e => processEmbedded Or W2 fuel (S k :: path) e false i2) 0 [i] in
                                   fret (x, Some gps)
                   | IndexListE x l => let? gps := args_loop (fun k e => processEmbedded Or W2 fuel (S k :: path) e false i2) 0 l in
                                       fret (x, Some gps)
                   | _ => fret (t, None)
                   end).
      { destruct t; try reflexivity; rewrite EX; try reflexivity.
        - intros e0 [<-|[]]. now apply part_index in HT.
        - now apply part_list in HT. }
      rewrite EY. clear EX.
      assert (HX : forall xg, match t with
                   | IndexE x i => let? gps := args_loop (fun k e => processEmbedded Or W2 fuel (S k :: path) e false i2) 0 [i] in
                                   fret (x, Some gps)
                   | IndexListE x l => let? gps := args_loop (fun k e => processEmbedded Or W2 fuel (S k :: path) e false i2) 0 l in
                                       fret (x, Some gps)
                   | _ => fret (t, None)
                   end = Some (Ok xg) -> part_of l (fst xg)).
      { intros xg. destruct t; try (intros [= <-]; exact HT); intros H; apply fbind_ok in H; destruct H as (gps & _ & [= <-]);
          [now apply part_index in HT | now apply part_list in HT]. }
      clear EY.
      match goal with |- fbind ?m _ = fbind ?m _ => destruct m as [[[x gp]| |]|]; try reflexivity end.
      specialize (HX _ eq_refl). cbn [fbind fst snd] in *.
      assert (E1 : ti_prefix i2 = ti_prefix i1 /\ ti_imports i2 = ti_imports i1)
        by (rewrite E; auto). destruct E1 as (-> & ->).
      rewrite (print_same Or _ (ti_types i2) (ti_prefix i1) x HP).
      destruct (PrintType Or (ti_types i2) (ti_prefix i1) x) as [name| |]; try reflexivity. cbn [flift fbind].
      f_equal. destruct x as [n|y s| | | | | | | | | | | | | | |]; try reflexivity.
      + assert (NN : ~ In n (type_names_of ex1) /\ ~ In n (type_names_of ex2)).
        { destruct HX as (f' & e' & A & B & C & _). apply (sb_unused _ _ _ _ _ _ SB f' e' n A B). apply C. reflexivity. }
        destruct (find_same n l ex1 ex2 _ _ _ _ SB (proj1 NN) (proj2 NN) P1 P2) as (ES & HS). rewrite <- ES.
        destruct (find_type n (ti_types i1)) as [ts|]; [|reflexivity]. destruct (HS ts eq_refl) as (f' & Hf' & Hts').
        destruct (ts_type ts) eqn:ET; try reflexivity.
        rewrite (generic_same ts _ (ti_types i2) (ti_prefix i1) HP).
        destruct (buildGenericTypesFromSpec ts (ti_types i2) (ti_prefix i1)) as [gts| |]; try reflexivity.
        cbn [flift fbind]. apply (II l ex1 ex2); [now apply inp_rel_set|]. exists f', ts. auto.
      + destruct y; try reflexivity.
        destruct (path_same n l ex1 ex2 _ _ _ _ _ SB HX (eq_refl : occurs_qualifier n (Selector (Ident n) s))
                    (sp_imports1 _ _ SP (ti_pkg i1) path) (sp_imports2 _ _ SP (ti_pkg i2) path)) as (EP & EA).
        assert (EF2 : findImportPathForName W1 path n (ti_imports i1) (ti_pkg i1) =
                     findImportPathForName W2 path n (ti_imports i1) (ti_pkg i2)).
        { unfold findImportPathForName. destruct (alias_path n (ti_imports i1)); [reflexivity|]. now rewrite <- EP. }
        assert (EA2 : forall ip, findImportPathForName W1 path n (ti_imports i1) (ti_pkg i1) = Ok ip ->
                     assoc ip (pk_imports (ti_pkg i1)) = assoc ip (pk_imports (ti_pkg i2))).
        { intros ip. unfold findImportPathForName. destruct (alias_path n (ti_imports i1)) as [r|] eqn:Al.
          - intros ->. rewrite EI in Al. assert (HA : exists i, In i (gf_imports f) /\ im_name i <> None /\ Generator.unquote (im_path i) = Ok ip).
            { clear -Al. induction (gf_imports f) as [|i is IH]; [discriminate|]. cbn in Al. destruct (im_name i) as [m|] eqn:Ei.
              - destruct (String.eqb m n).
                + injection Al as Al. exists i. split; [now left|]. split; [congruence|exact Al].
                + destruct (IH Al) as (j & A & B). exists j. split; [now right|exact B].
              - destruct (IH Al) as (j & A & B). exists j. split; [now right|exact B]. }
            destruct HA as (i & A & B & C). exact (sb_aliases _ _ _ _ _ _ SB f i ip Hf A B C).
          - destruct (path_by_name W1 n _) as [s'|]; [|discriminate]. intros [= <-]. now apply EA. }
        rewrite <- EF2. destruct (findImportPathForName W1 path n _ _) as [ip| |]; try reflexivity. cbn [flift fbind fwrap].
        rewrite <- (EA2 ip eq_refl).
        destruct (assoc ip (pk_imports (ti_pkg i1))) as [id|]; [|reflexivity].
        rewrite w_pkg_same. destruct (w_pkg W1 id) as [p|] eqn:Ep; [|reflexivity].
        destruct (ast_ok p); try reflexivity. cbn [flift fwrap fbind].
        assert (K' : known W1 p) by (left; eauto).
        rewrite (IT (pk_files p) [] [] (0 :: path) p p); [reflexivity|exact K'|now apply known_itself|easy|easy|now right].
  Qed.
End Same.
