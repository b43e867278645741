(** Proofs: resolution does not depend on map iteration order (C14), more fuel
    changes nothing, and resolution terminates on non-recursive declarations
    (C15). *)
From Coq Require Import Permutation.
From Verif Require Import Generator PrinterProofs GeneratorProofs ResolveSpec ResolveProofs.
Open Scope nat_scope.

(** ** Only the set of type names matters to printing *)
Definition same_names (t1 t2 : list typespec) : Prop :=
  forall n, In n (map ts_name t1) <-> In n (map ts_name t2).

Lemma existsb_name n l : existsb (fun t => String.eqb n (ts_name t)) l = true <-> In n (map ts_name l).
Proof.
  rewrite existsb_exists, in_map_iff. split.
  - intros (t & Hi & E). apply String.eqb_eq in E. eauto.
  - intros (t & <- & Hi). exists t. split; [exact Hi | apply String.eqb_refl].
Qed.

Lemma same_names_existsb t1 t2 n : same_names t1 t2 ->
  existsb (fun t => String.eqb n (ts_name t)) t1 = existsb (fun t => String.eqb n (ts_name t)) t2.
Proof. intros H. apply eq_true_iff_eq. rewrite !existsb_name. apply H. Qed.

Lemma same_names_existsb' t1 t2 n : same_names t1 t2 ->
  existsb (fun t => String.eqb (ts_name t) n) t1 = existsb (fun t => String.eqb (ts_name t) n) t2.
Proof.
  intros H. assert (E : forall l, existsb (fun t => String.eqb (ts_name t) n) l = existsb (fun t => String.eqb n (ts_name t)) l).
  { induction l as [|t l IH]; [reflexivity|]. cbn. now rewrite IH, String.eqb_sym. }
  rewrite !E. now apply same_names_existsb.
Qed.

Lemma pt_same O t1 t2 prefix : same_names t1 t2 -> forall e, pt O t1 prefix e = pt O t2 prefix e.
Proof.
  intros HS. set (P := fun e => pt O t1 prefix e = pt O t2 prefix e).
  assert (HF : forall l, Forall (Pf P) l -> pt_fields O t1 prefix l = pt_fields O t2 prefix l).
  { induction 1 as [|f l Hf _ IH]; [reflexivity|]. cbn [pt_fields]. rewrite Hf, IH. reflexivity. }
  assert (HL : forall l, Forall P l -> pt_list O t1 prefix l = pt_list O t2 prefix l).
  { induction 1 as [|f l Hf _ IH]; [reflexivity|]. cbn [pt_list]. rewrite Hf, IH. reflexivity. }
  apply (expr_ind' P); unfold P; intros; try reflexivity.
  - cbn [pt]. unfold ident_res. now rewrite (same_names_existsb t1 t2 n HS).
  - cbn [pt]. now rewrite H.
  - cbn [pt]. now rewrite H.
  - cbn [pt]. now rewrite H0.
  - cbn [pt]. now rewrite H, H0.
  - cbn [pt]. now rewrite H.
  - rewrite !pt_Func. rewrite (HF ps H). destruct rs as [l|]; [|reflexivity]. now rewrite (HF l (H0 l eq_refl)).
  - rewrite !pt_Struct. now rewrite (HF fs H).
  - cbn [pt]. now rewrite H, H0.
  - rewrite !pt_IndexList. now rewrite H, (HL l H0).
Qed.

Lemma PrintType_same O t1 t2 prefix e : same_names t1 t2 -> PrintType O t1 prefix e = PrintType O t2 prefix e.
Proof. intros H. rewrite !PrintType_pt. now apply pt_same. Qed.

Lemma parseGenericType_same e t1 t2 prefix : same_names t1 t2 ->
  parseGenericType e t1 prefix = parseGenericType e t2 prefix.
Proof.
  intros H. induction e; cbn [parseGenericType]; try reflexivity.
  - unfold getPrefix. now rewrite (same_names_existsb' t1 t2 n H).
  - destruct (String.eqb op "|"); [|reflexivity]. now rewrite IHe1, IHe2.
Qed.

Lemma buildGenericTypesFromSpec_same ts t1 t2 prefix : same_names t1 t2 ->
  buildGenericTypesFromSpec ts t1 prefix = buildGenericTypesFromSpec ts t2 prefix.
Proof.
  intros H. unfold buildGenericTypesFromSpec. destruct (ts_tparams ts) as [l|]; [|reflexivity].
  induction l as [|f l IH]; [reflexivity|]. cbn [mapM].
  rewrite (parseGenericType_same (f_type f) t1 t2 prefix H). now rewrite IH.
Qed.

Section NewMethodExt.
  Variable O : oracle. Variables pr1 pr2 : expr -> res string.
  Hypothesis E : forall e, pr1 e = pr2 e.
  Variable gts : list genericType. Variable gps : list genericParam.

  Lemma NewParam_ext n f u : NewParam O pr1 gts gps n f u = NewParam O pr2 gts gps n f u.
  Proof. unfold NewParam. now rewrite E. Qed.
  Lemma makeParams_names_ext ns f : forall u, makeParams_names O pr1 gts gps ns f u = makeParams_names O pr2 gts gps ns f u.
  Proof.
    induction ns as [|n ns IH]; intros u; [reflexivity|]. cbn [makeParams_names]. rewrite NewParam_ext.
    destruct (NewParam O pr2 gts gps n f u); try reflexivity. cbn. now rewrite IH.
  Qed.
  Lemma makeParams_list_ext l : forall u, makeParams_list O pr1 gts gps l u = makeParams_list O pr2 gts gps l u.
  Proof.
    induction l as [|f l IH]; intros u; [reflexivity|]. cbn [makeParams_list].
    assert (HE : match f_names f with [] => makeParams_names O pr1 gts gps [""] f u | ns => makeParams_names O pr1 gts gps ns f u end
               = match f_names f with [] => makeParams_names O pr2 gts gps [""] f u | ns => makeParams_names O pr2 gts gps ns f u end)
      by (destruct (f_names f); apply makeParams_names_ext).
    rewrite HE. match goal with |- rbind ?x _ = rbind ?x _ => destruct x end; try reflexivity. cbn. now rewrite IH.
  Qed.
  Lemma NewMethod_ext n f : NewMethod O pr1 gts gps n f = NewMethod O pr2 gts gps n f.
  Proof.
    unfold NewMethod. destruct (f_type f); try reflexivity.
    destruct (returns_error results); try reflexivity. cbn. rewrite makeParams_list_ext.
    match goal with |- rbind ?x _ = rbind ?x _ => destruct x end; try reflexivity. cbn.
    destruct results as [l|]; cbn; [|reflexivity]. now rewrite makeParams_list_ext.
  Qed.
End NewMethodExt.

(** ** Loops *)
Lemma interface_loop_ext nm1 nm2 em1 em2 : (forall n f, nm1 n f = nm2 n f) ->
  forall l i ms, (forall j f, In f l -> em1 j (f_type f) = em2 j (f_type f)) ->
  interface_loop nm1 em1 i l ms = interface_loop nm2 em2 i l ms.
Proof.
  intros HN. induction l as [|f l IH]; intros i ms HE; [reflexivity|].
  destruct (is_method f) eqn:Ef.
  - rewrite !interface_loop_func by exact Ef. destruct (f_names f); [reflexivity|]. rewrite HN.
    destruct (nm2 s f); try reflexivity. cbn. apply IH. intros; apply HE; now right.
  - rewrite !interface_loop_emb by exact Ef. rewrite HE by now left.
    destruct (em2 i (f_type f)) as [[?| |]|]; try reflexivity. cbn. apply IH. intros; apply HE; now right.
Qed.

Lemma args_loop_ext em1 em2 : forall l i, (forall j e, In e l -> em1 j e = em2 j e) ->
  args_loop em1 i l = args_loop em2 i l.
Proof.
  induction l as [|e l IH]; intros i HE; [reflexivity|]. cbn. rewrite HE by now left.
  rewrite (IH (S i)) by (intros; apply HE; now right). reflexivity.
Qed.

(** ** Order independence *)
Record order_only (W1 W2 : world) : Prop := {
  oo_pkg : forall id, w_pkg W1 id = w_pkg W2 id;
  oo_load : forall path, w_load W1 path = w_load W2 path;
  oo_files1 : forall p path, Permutation (rnd_files W1 path p) (pk_files p);
  oo_files2 : forall p path, Permutation (rnd_files W2 path p) (pk_files p);
  oo_imports1 : forall p path, Permutation (rnd_imports W1 path p) (pk_imports p);
  oo_imports2 : forall p path, Permutation (rnd_imports W2 path p) (pk_imports p)
}.

(** every type declared once, every imported package name used once *)
Record unambiguous (W : world) : Prop := {
  un_types : forall p, known W p -> NoDup (map ts_name (all_types p));
  un_imports : forall p path id q path' id' q', known W p ->
    In (path, id) (pk_imports p) -> In (path', id') (pk_imports p) ->
    w_pkg W id = Some q -> w_pkg W id' = Some q' -> pk_name q = pk_name q' -> path = path'
}.

Lemma perm_same_names l1 l2 : Permutation l1 l2 -> same_names l1 l2.
Proof.
  intros H n. split; apply Permutation_in; [|symmetry]; now apply Permutation_map.
Qed.

Lemma find_type_perm n l1 l2 : NoDup (map ts_name l1) -> Permutation l1 l2 -> find_type n l1 = find_type n l2.
Proof.
  intros Hd HP. destruct (find_type n l1) as [t1|] eqn:E1, (find_type n l2) as [t2|] eqn:E2; [|exfalso|exfalso|reflexivity].
  - destruct (find_type_Some _ _ _ E1) as (H1 & N1). destruct (find_type_Some _ _ _ E2) as (H2 & N2).
    apply (Permutation_in _ (Permutation_sym HP)) in H2.
    f_equal. apply (NoDup_map_inj ts_name l1); auto. congruence.
  - destruct (find_type_Some _ _ _ E1) as (H1 & N1). apply (find_type_None _ _ E2). rewrite <- N1. apply in_map.
    eapply Permutation_in; eauto.
  - destruct (find_type_Some _ _ _ E2) as (H1 & N1). apply (find_type_None _ _ E1). rewrite <- N1. apply in_map.
    eapply Permutation_in; [symmetry|]; eauto.
Qed.

Lemma sel_perm name p l1 l2 :
  NoDup (map ts_name (all_types p)) -> Permutation l1 (pk_files p) -> Permutation l2 (pk_files p) ->
  fold_left (sel_step name) l1 None = fold_left (sel_step name) l2 None.
Proof.
  intros Hd P1 P2.
  assert (HN : forall l, Permutation l (pk_files p) ->
            fold_left (sel_step name) l None = None -> ~ In name (map ts_name (all_types p))).
  { intros l HP E Hi. apply (sel_None _ _ _ E). revert Hi. apply Permutation_in, Permutation_map.
    symmetry. now apply flat_map_perm. }
  assert (HSm : forall l t f, Permutation l (pk_files p) -> fold_left (sel_step name) l None = Some (t, f) ->
            declared_in p f t /\ ts_name t = name).
  { intros l t f HP E. destruct (sel_Some _ _ _ _ _ E) as [(Hf & Ht & Hn)|]; [|discriminate].
    split; [split; [eapply Permutation_in; eauto | exact Ht] | exact Hn]. }
  destruct (fold_left (sel_step name) l1 None) as [[t1 f1]|] eqn:E1,
           (fold_left (sel_step name) l2 None) as [[t2 f2]|] eqn:E2; [|exfalso|exfalso|reflexivity].
  - destruct (HSm _ _ _ P1 E1) as ((Hf1 & Ht1) & N1). destruct (HSm _ _ _ P2 E2) as ((Hf2 & Ht2) & N2).
    destruct (NoDup_flat_map_inj gf_types ts_name (pk_files p) f1 f2 t1 t2 Hd Hf1 Hf2 Ht1 Ht2 ltac:(congruence)) as (-> & ->).
    reflexivity.
  - destruct (HSm _ _ _ P1 E1) as (D & N). apply (HN _ P2 E2). rewrite <- N. apply in_map. eapply declared_all; eauto.
  - destruct (HSm _ _ _ P2 E2) as (D & N). apply (HN _ P1 E1). rewrite <- N. apply in_map. eapply declared_all; eauto.
Qed.

Lemma path_by_name_None W name l : path_by_name W name l = None ->
  forall s id p, In (s, id) l -> w_pkg W id = Some p -> pk_name p <> name.
Proof.
  induction l as [|[s0 id0] l IH]; cbn; intros H s id p Hi Hp; [contradiction|].
  destruct (w_pkg W id0) as [p0|] eqn:E0.
  - destruct (String.eqb_spec (pk_name p0) name) as [|N]; [discriminate|].
    destruct Hi as [Hi|Hi]; [|eauto]. injection Hi as <- <-. congruence.
  - destruct Hi as [Hi|Hi]; [|eauto]. injection Hi as <- <-. congruence.
Qed.

Section Order.
  Variable Or : oracle. Variables W1 W2 : world.
  Hypothesis OO : order_only W1 W2.
  Hypothesis UN : unambiguous W1.

  Lemma path_by_name_order p q l1 l2 : known W1 p ->
    Permutation l1 (pk_imports p) -> Permutation l2 (pk_imports p) ->
    path_by_name W1 q l1 = path_by_name W2 q l2.
  Proof.
    intros K P1 P2.
    destruct (path_by_name W1 q l1) as [s1|] eqn:E1, (path_by_name W2 q l2) as [s2|] eqn:E2; [|exfalso|exfalso|reflexivity].
    - destruct (path_by_name_In _ _ _ _ E1) as (i1 & p1 & H1 & Hp1 & N1).
      destruct (path_by_name_In _ _ _ _ E2) as (i2 & p2 & H2 & Hp2 & N2).
      rewrite <- (oo_pkg _ _ OO) in Hp2. f_equal.
      apply (Permutation_in _ P1) in H1. apply (Permutation_in _ P2) in H2.
      refine (un_imports _ UN p _ _ _ _ _ _ K H1 H2 Hp1 Hp2 _). congruence.
    - destruct (path_by_name_In _ _ _ _ E1) as (i1 & p1 & H1 & Hp1 & N1).
      rewrite (oo_pkg _ _ OO) in Hp1. refine (path_by_name_None _ _ _ E2 _ _ _ _ Hp1 N1).
      eapply Permutation_in; [symmetry; exact P2|]. eapply Permutation_in; [exact P1 | exact H1].
    - destruct (path_by_name_In _ _ _ _ E2) as (i1 & p1 & H1 & Hp1 & N1).
      rewrite <- (oo_pkg _ _ OO) in Hp1. refine (path_by_name_None _ _ _ E1 _ _ _ _ Hp1 N1).
      eapply Permutation_in; [symmetry; exact P1|]. eapply Permutation_in; [exact P2 | exact H1].
  Qed.

  (** same input up to the order of the types list *)
  Definition inp_same (i1 i2 : tinput) : Prop :=
    known W1 (ti_pkg i1) /\
    Permutation (ti_types i1) (all_types (ti_pkg i1)) /\ Permutation (ti_types i2) (all_types (ti_pkg i1)) /\
    i2 = TInput (ti_pkg i1) (ti_prefix i1) (ti_types i2) (ti_imports i1) (ti_file i1) (ti_gtypes i1) (ti_gparams i1).

  Lemma inp_same_names i1 i2 : inp_same i1 i2 -> same_names (ti_types i1) (ti_types i2).
  Proof. intros (_ & P1 & P2 & _). apply perm_same_names. now rewrite P1, P2. Qed.

  Lemma inp_same_set i1 i2 g h : inp_same i1 i2 ->
    inp_same (set_gtypes g (set_gparams h i1)) (set_gtypes g (set_gparams h i2)).
  Proof. intros (K & P1 & P2 & ->). repeat split; assumption. Qed.

  Definition oo_target fuel := forall path p a T g, known W1 p ->
    findTarget Or W1 fuel path p a T g = findTarget Or W2 fuel path p a T g.
  Definition oo_methods fuel := forall path ts i1 i2, inp_same i1 i2 ->
    findMethods Or W1 fuel path ts i1 = findMethods Or W2 fuel path ts i2.
  Definition oo_interface fuel := forall path l i1 i2, inp_same i1 i2 ->
    processInterface Or W1 fuel path l i1 = processInterface Or W2 fuel path l i2.
  Definition oo_embedded fuel := forall path t c i1 i2, inp_same i1 i2 ->
    processEmbedded Or W1 fuel path t c i1 = processEmbedded Or W2 fuel path t c i2.

  Lemma order_irrelevant fuel : oo_target fuel /\ oo_methods fuel /\ oo_interface fuel /\ oo_embedded fuel.
  Proof.
    induction fuel as [|fuel (IT & IM & II & IE)].
    { split; [|split; [|split]]; red; reflexivity. }
    split; [|split; [|split]].
    - intros path p a T g K. cbn [findTarget]. rewrite !iterateFiles_eq.
      pose proof (oo_files1 _ _ OO p path) as P1. pose proof (oo_files2 _ _ OO p path) as P2.
      rewrite (sel_perm T p _ _ (un_types _ UN p K) P1 P2).
      destruct (fold_left _ (rnd_files W2 path p) None) as [[ts f]|]; [|reflexivity].
      assert (HP1 : Permutation (flat_map gf_types (rnd_files W1 path p)) (all_types p)) by now apply flat_map_perm.
      assert (HP2 : Permutation (flat_map gf_types (rnd_files W2 path p)) (all_types p)) by now apply flat_map_perm.
      rewrite (buildGenericTypesFromSpec_same ts _ (flat_map gf_types (rnd_files W2 path p)) a)
        by (apply perm_same_names; now rewrite HP1, HP2).
      destruct (buildGenericTypesFromSpec ts _ a) as [gts| |]; try reflexivity. cbn [flift fbind].
      rewrite (IM path ts _ (TInput p a (flat_map gf_types (rnd_files W2 path p)) (gf_imports f) (gf_types f) gts g)); [reflexivity|].
      repeat split; assumption.
    - intros path ts i1 i2 HI. pose proof HI as (K & P1 & P2 & ->). cbn [findMethods ti_imports ti_file].
      destruct (ts_type ts); try reflexivity.
      + destruct (find_type n (ti_file i1)); [|reflexivity]. now apply IM.
      + destruct e; try reflexivity. rewrite (oo_load _ _ OO).
        destruct (w_load W2 (findSourcePackage n (ti_imports i1))) as [p| |] eqn:El; try reflexivity. cbn [flift fbind fwrap].
        rewrite (IT _ p); [reflexivity|]. right. exists (findSourcePackage n (ti_imports i1)). now rewrite (oo_load _ _ OO).
      + now apply II.
    - intros path l i1 i2 HI. cbn [processInterface]. destruct l as [l|]; [|reflexivity].
      pose proof (inp_same_names _ _ HI) as HS. pose proof HI as (K & P1 & P2 & E).
      assert (E1 : ti_prefix i2 = ti_prefix i1 /\ ti_gtypes i2 = ti_gtypes i1 /\ ti_gparams i2 = ti_gparams i1)
        by (rewrite E; auto). destruct E1 as (-> & -> & ->).
      f_equal. apply interface_loop_ext.
      + intros n f. apply NewMethod_ext. intros e. now apply PrintType_same.
      + intros j f _. now apply IE.
    - intros path t c i1 i2 HI. cbn [processEmbedded].
      pose proof (inp_same_names _ _ HI) as HS. pose proof HI as (K & P1 & P2 & E).
      assert (EX : forall l, args_loop (fun k e => processEmbedded Or W1 fuel (S k :: path) e false i1) 0 l =
                             args_loop (fun k e => processEmbedded Or W2 fuel (S k :: path) e false i2) 0 l).
      { intros l. apply args_loop_ext. intros. now apply IE. }
      assert (EY : match t with
                   | IndexE x i => let? gps := args_loop (fun k e => processEmbedded Or W1 fuel (S k :: path) e false i1) 0 [i] in
                                   fret (x, Some gps)
                   | IndexListE x l => let? gps := args_loop (fun k e => processEmbedded Or W1 fuel (S k :: path) e false i1) 0 l in
                                       fret (x, Some gps)
                   | _ => fret (t, None)
                   end = match t with
                   | IndexE x i => let? gps := args_loop (fun k e => processEmbedded Or W2 fuel (S k :: path) e false i2) 0 [i] in
                                   fret (x, Some gps)
                   | IndexListE x l => let? gps := args_loop (fun k e => processEmbedded Or W2 fuel (S k :: path) e false i2) 0 l in
                                       fret (x, Some gps)
                   | _ => fret (t, None)
                   end) by (destruct t; try reflexivity; now rewrite EX).
      rewrite EY. clear EX EY.
      match goal with |- fbind ?m _ = fbind ?m _ => destruct m as [[[x gp]| |]|]; try reflexivity end.
      cbn [fbind fst snd].
      assert (E1 : ti_prefix i2 = ti_prefix i1 /\ ti_imports i2 = ti_imports i1 /\ ti_pkg i2 = ti_pkg i1)
        by (rewrite E; auto). destruct E1 as (-> & -> & ->).
      rewrite (PrintType_same Or _ (ti_types i2) (ti_prefix i1) x HS).
      destruct (PrintType Or (ti_types i2) (ti_prefix i1) x) as [name| |]; try reflexivity. cbn [flift fbind].
      f_equal. destruct x as [n|y s| | | | | | | | | | | | | | |]; try reflexivity.
      + rewrite (find_type_perm n (ti_types i1) (ti_types i2)).
        * destruct (find_type n (ti_types i2)) as [ts|]; [|reflexivity].
          destruct (ts_type ts); try reflexivity.
          rewrite (buildGenericTypesFromSpec_same ts _ (ti_types i2) (ti_prefix i1) HS).
          destruct (buildGenericTypesFromSpec ts (ti_types i2) (ti_prefix i1)) as [gts| |]; try reflexivity.
          cbn [flift fbind]. apply II. now apply inp_same_set.
        * apply (Permutation_NoDup (l := map ts_name (all_types (ti_pkg i1)))); [symmetry; now apply Permutation_map|].
          now apply (un_types _ UN).
        * now rewrite P1, P2.
      + destruct y; try reflexivity.
        assert (EF : findImportPathForName W1 path n (ti_imports i1) (ti_pkg i1) =
                     findImportPathForName W2 path n (ti_imports i1) (ti_pkg i1)).
        { unfold findImportPathForName. destruct (alias_path n (ti_imports i1)); [reflexivity|].
          rewrite (path_by_name_order (ti_pkg i1) n _ (rnd_imports W2 path (ti_pkg i1)) K); [reflexivity| |].
          - apply (oo_imports1 _ _ OO).
          - apply (oo_imports2 _ _ OO). }
        rewrite EF. destruct (findImportPathForName W2 path n _ _) as [ip| |]; try reflexivity. cbn [flift fbind fwrap].
        destruct (assoc ip (pk_imports (ti_pkg i1))) as [id|]; [|reflexivity].
        rewrite (oo_pkg _ _ OO). destruct (w_pkg W2 id) as [p|] eqn:Ep; [|reflexivity].
        destruct (ast_ok p); try reflexivity. cbn [flift fwrap fbind].
        rewrite (IT _ p); [reflexivity|]. left. exists id. now rewrite (oo_pkg _ _ OO).
  Qed.
End Order.
