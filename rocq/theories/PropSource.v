(** C63: every method handed to the templates has the signature of a
    declaration of that method in the interface's method set. *)
From Coq Require Import Permutation.
From Verif Require Import Generator PrinterProofs GeneratorProofs ResolveSpec QualifierProofs ResolveProofs OrderProofs TermProofs NewGenProofs.
From Verif Require Import TypesSpec PropNaming PropResolve.
Open Scope nat_scope.

(** ** Statement *)

(** The method [k] of the interface type [T] of package [p], whose own types are
    written with the package name [a], is declared by the interface element [fd]
    of package [p'], whose types are written with [a'].  Types of a package
    reached through an import are written with that package's name. *)
Inductive decl_of (W : world) : package -> string -> string -> string -> package -> string -> field -> Prop :=
| do_own p a f ts l fd k ns ps rs :
    declared_in p f ts -> ts_type ts = InterfaceT (Some l) ->
    In fd l -> f_type fd = FuncT ps rs -> f_names fd = k :: ns ->
    decl_of W p a (ts_name ts) k p a fd
| do_embed p a f ts l e n k p' a' fd :
    declared_in p f ts -> ts_type ts = InterfaceT (Some l) ->
    In e l -> base (f_type e) = Ident n -> decl_of W p a n k p' a' fd ->
    decl_of W p a (ts_name ts) k p' a' fd
| do_embed_imported p a f ts l e q s p1 k p' a' fd :
    declared_in p f ts -> ts_type ts = InterfaceT (Some l) ->
    In e l -> base (f_type e) = Selector (Ident q) s ->
    import_of W p f q p1 -> decl_of W p1 (pk_name p1) s k p' a' fd ->
    decl_of W p a (ts_name ts) k p' a' fd
| do_def p a f ts n k p' a' fd :
    declared_in p f ts -> base (ts_type ts) = Ident n -> decl_of W p a n k p' a' fd ->
    decl_of W p a (ts_name ts) k p' a' fd
| do_def_imported p a f ts q s p1 k p' a' fd :
    declared_in p f ts -> base (ts_type ts) = Selector (Ident q) s ->
    import_of W p f q p1 -> decl_of W p1 (pk_name p1) s k p' a' fd ->
    decl_of W p a (ts_name ts) k p' a' fd.

(** no generic type, no instantiation *)
Definition not_generic (W : world) : Prop :=
  forall p, known W p ->
    (forall ts, In ts (all_types p) -> ts_tparams ts = None) /\
    (forall f e, In f (pk_files p) -> mentions f e -> base e = e).

(** [m] is what gowrap makes of the declaration, printing types as package [a'] needs it *)
Definition made_of (Or : oracle) (W : world) (p : package) (a T k : string) (m : method) : Prop :=
  exists p' a' fd types gts gps,
    decl_of W p a T k p' a' fd /\ Permutation types (all_types p') /\
    NewMethod Or (PrintType Or types a') gts gps k fd = Ok m /\
    (not_generic W -> gts = [] /\ gps = []).

(** a declaration makes the method a member of the method set of C12, and every member of the set has one
    (in well-formed packages, which use neither [error] nor interfaces imported with ".") *)
Theorem C63_declared : forall W p T k,
  ((exists a p' a' fd, decl_of W p a T k p' a' fd) -> in_set W p T k) /\
  (well_formed W -> known W p -> in_set W p T k -> forall a, exists p' a' fd, decl_of W p a T k p' a' fd).
Proof.
  intros W p T k. split.
  - intros (a & p' & a' & fd & D).
    induction D; [eapply is_own | eapply is_embed | eapply is_embed_imported | eapply is_def | eapply is_def_imported]; eauto.
  - intros WF K H. induction H as [p f ts l fd m ns ps rs H1 H2 H3 H4 H5|p f ts l fd n m H1 H2 H3 H4 _ IH|p f ts l fd q s p' m H1 H2 H3 H4 H5 _ IH
      |p f ts n m H1 H2 _ IH|p f ts q s p' m H1 H2 H3 _ IH|p f ts l fd n p' m H1 H2 H3 H4 H5 H6 H7 _|p f ts n p' m H1 H2 H3 H4 H5 _
      |p f ts l fd H1 H2 H3 H4 H5|p f ts H1 H2 H3]; intros a.
    + exists p, a, fd. eapply do_own; eauto.
    + destruct (IH K a) as (p1 & a1 & fd1 & D). exists p1, a1, fd1. eapply do_embed; eauto.
    + assert (K' : known W p') by (destruct H5 as (i & pa & id & _ & _ & _ & _ & E); left; eauto).
      destruct (IH K' (pk_name p')) as (p1 & a1 & fd1 & D). exists p1, a1, fd1. eapply do_embed_imported; eauto.
    + destruct (IH K a) as (p1 & a1 & fd1 & D). exists p1, a1, fd1. eapply do_def; eauto.
    + assert (K' : known W p') by (destruct H3 as (i & pa & id & _ & _ & _ & _ & E); left; eauto).
      destruct (IH K' (pk_name p')) as (p1 & a1 & fd1 & D). exists p1, a1, fd1. eapply do_def_imported; eauto.
    + now destruct (proj2 (no_outside_field W WF p f ts l fd n K H1 H2 H3 H4 H5) _ m H6).
    + now destruct (proj2 (no_outside_def W WF p f ts n K H1 H2 H3) _ m H4).
    + now destruct (proj1 (no_outside_field W WF p f ts l fd "error" K H1 H2 H3 H4 H5)).
    + now destruct (proj1 (no_outside_def W WF p f ts "error" K H1 H2 H3)).
Qed.

(** ** Proof *)

Definition all_of (P : string -> method -> Prop) (ms : methodsList) : Prop := Forall (fun km => P (fst km) (snd km)) ms.
Definition oall_of (P : string -> method -> Prop) (o : option methodsList) : Prop := match o with Some l => all_of P l | None => True end.

Lemma set_all : forall (P : string -> method -> Prop) k m ms, P k m -> all_of P ms -> all_of P (assoc_set k m ms).
Proof.
  intros P k m ms Hk H. unfold all_of in *. induction H as [|[k' m'] l Hx Hl IH]; cbn; [repeat constructor; exact Hk|].
  destruct (String.eqb k k'); constructor; auto.
Qed.

Lemma merge_all : forall (P : string -> method -> Prop) l a, all_of P a -> all_of P l -> all_of P (merge_into a l).
Proof.
  intros P l a Ha Hl. unfold merge_into. revert a Ha. induction Hl as [|[k v] l H _ IH]; intros a Ha; [exact Ha|].
  apply IH. now apply set_all.
Qed.

Lemma mergeMethods_all : forall (P : string -> method -> Prop) a o, all_of P a -> oall_of P o -> all_of P (mergeMethods a o).
Proof. intros P a [l|] Ha Ho; [|exact Ha]. cbn. apply merge_all; [|exact Ha]. apply merge_all; [constructor | exact Ho]. Qed.

Lemma loop_all : forall (P : string -> method -> Prop) nm em l,
  (forall fd n ns m, In fd l -> is_method fd = true -> f_names fd = n :: ns -> nm n fd = Ok m -> P n m) ->
  (forall fd i g o, In fd l -> is_method fd = false -> em i (f_type fd) = Some (Ok (g, o)) -> oall_of P o) ->
  forall i ms ms', all_of P ms -> interface_loop nm em i l ms = Some (Ok ms') -> all_of P ms'.
Proof.
  intros P nm em. induction l as [|f l IH]; intros HN HE i ms ms' Hm H; [injection H as <-; exact Hm|].
  destruct (is_method f) eqn:Ef.
  - rewrite interface_loop_func in H by exact Ef. destruct (f_names f) as [|n ns] eqn:En; [discriminate|].
    destruct (nm n f) as [m| |] eqn:E; try discriminate. cbn in H.
    eapply IH; [intros fd n0 ns0 m0 Hi; apply HN; now right|intros fd i0 g o Hi; apply HE; now right| |exact H].
    apply set_all; [|exact Hm]. eapply HN; eauto. now left.
  - rewrite interface_loop_emb in H by exact Ef. destruct (em i (f_type f)) as [[[g o]| |]|] eqn:E; try discriminate.
    cbn in H.
    eapply IH; [intros fd n0 ns0 m0 Hi; apply HN; now right|intros fd i0 g0 o0 Hi; apply HE; now right| |exact H].
    apply mergeMethods_all; [exact Hm|]. eapply HE; eauto. now left.
Qed.

Section SOURCE.
  Variable Or : oracle. Variable W : world.
  Hypothesis WF : well_formed W.

  Definition inp_at (p : package) (a : string) (f : gofile) (inp : tinput) : Prop :=
    inp_ok p f inp /\ ti_prefix inp = a /\ (not_generic W -> ti_gtypes inp = [] /\ ti_gparams inp = []).

  (** made of a declaration reached through the embedded element [e] *)
  Definition made_through (p : package) (a : string) (f : gofile) (e : expr) (k : string) (m : method) : Prop :=
    (exists n, base e = Ident n /\ made_of Or W p a n k m) \/
    (exists q s p1, base e = Selector (Ident q) s /\ import_of W p f q p1 /\ made_of Or W p1 (pk_name p1) s k m).

  Definition so_target fuel := forall path p a T out, known W p ->
    forall g, (not_generic W -> g = []) ->
    findTarget Or W fuel path p a T g = Some (Ok out) -> oall_of (made_of Or W p a T) (out_methods out).
  Definition so_methods fuel := forall path p a f ts inp ms, known W p -> inp_at p a f inp -> declared_in p f ts ->
    findMethods Or W fuel path ts inp = Some (Ok ms) -> oall_of (made_of Or W p a (ts_name ts)) ms.
  Definition so_interface fuel := forall path p a f f0 ts l inp ms, known W p -> inp_at p a f0 inp ->
    declared_in p f ts -> ts_type ts = InterfaceT l ->
    processInterface Or W fuel path l inp = Some (Ok ms) -> oall_of (made_of Or W p a (ts_name ts)) ms.
  Definition so_embedded fuel := forall path p a f f0 t inp g ms, known W p -> inp_at p a f0 inp ->
    In f (pk_files p) -> mentions f t ->
    processEmbedded Or W fuel path t true inp = Some (Ok (g, ms)) -> oall_of (made_through p a f t) ms.

  Lemma oall_impl : forall (P Q : string -> method -> Prop) o, (forall k m, P k m -> Q k m) -> oall_of P o -> oall_of Q o.
  Proof. intros P Q [l|] H Ho; [|exact I]. cbn in *. unfold all_of in *. eapply Forall_impl; [|exact Ho]. intros [k m]. apply H. Qed.

  Lemma no_tparams : forall p ts types a gts, not_generic W -> known W p -> In ts (all_types p) ->
    buildGenericTypesFromSpec ts types a = Ok gts -> gts = [].
  Proof.
    intros p ts types a gts NG K Hi H. unfold buildGenericTypesFromSpec in H.
    rewrite (proj1 (NG p K) ts Hi) in H. now injection H as <-.
  Qed.

  Lemma sourced fuel : so_target fuel /\ so_methods fuel /\ so_interface fuel /\ so_embedded fuel.
  Proof.
    induction fuel as [|fuel (IT & IM & II & IE)].
    { split; [|split; [|split]]; red; intros; discriminate. }
    split; [|split; [|split]].
    - intros path p a T out K g NGg H. cbn [findTarget] in H. rewrite iterateFiles_eq in H.
      destruct (fold_left _ _ _) as [[ts f]|] eqn:Es; [|discriminate].
      apply fbind_ok in H. destruct H as (gts & Hg & H). apply fbind_ok in H. destruct H as (ms & Hm & H).
      injection H as <-. cbn [out_methods].
      destruct (sel_Some _ _ _ _ _ Es) as [(Hf & Ht & <-)|]; [|discriminate].
      apply (Permutation_in _ (wf_rnd_files W WF p path K)) in Hf.
      eapply (IM path p a f ts); try exact Hm; [exact K| |split; assumption].
      split; [|split; [reflexivity|]].
      + repeat split; auto. unfold all_types. apply flat_map_perm. exact (wf_rnd_files W WF p path K).
      + intros NG. cbn. split; [|now apply NGg]. injection Hg as Hg.
        eapply (no_tparams p ts); eauto. eapply declared_all. split; eassumption.
    - intros path p a f ts inp ms K IA D H. pose proof IA as ((IP & IT' & II' & IF & IN') & Ia & Ig).
      cbn [findMethods] in H.
      destruct (ts_type ts) as [n|x s| | | | | | | |im|ix ii|ix il| | | | |] eqn:ET; try (injection H as <-; exact I).
      + rewrite IF in H. destruct (find_type n (gf_types f)) as [ts'|] eqn:Ef; [|injection H as <-; exact I].
        destruct (find_type_Some _ _ _ Ef) as (Hi & <-).
        eapply oall_impl; [|eapply (IM path p a f ts'); eauto; split; [exact IN' | exact Hi]].
        intros k m (p' & a' & fd & types & gts & gps & Hd & Hr). exists p', a', fd, types, gts, gps. split; [|exact Hr].
        eapply do_def; [exact D | now rewrite ET | exact Hd].
      + assert (Hme : mentions f (ts_type ts)) by (exists ts; split; [exact (proj2 D) | now left]).
        destruct (wf_selectors W WF p f (ts_type ts) x s K IN' Hme ltac:(now rewrite ET)) as (q & p1 & -> & Nd & Nb & HI).
        rewrite II' in H.
        apply fbind_ok in H. destruct H as (p2 & Hl & H). apply fwrap_ok in Hl. injection Hl as Hl.
        rewrite (def_selector_loads W WF p f ts q s p1 K D ET HI) in Hl. injection Hl as <-.
        apply fbind_ok in H. destruct H as (u & _ & H).
        apply fbind_ok in H. destruct H as (out & Ho & H). apply fwrap_ok in Ho. injection H as <-.
        assert (K' : known W p1) by (destruct HI as (i & pa & id & _ & _ & _ & _ & E); left; eauto).
        eapply oall_impl; [|eapply (IT _ p1); [exact K' | | exact Ho]; auto].
        intros k m (p' & a' & fd & types & gts & gps & Hd & Hr). exists p', a', fd, types, gts, gps. split; [|exact Hr].
        eapply do_def_imported; [exact D | now rewrite ET | exact HI | exact Hd].
      + eapply (II path p a f f ts); eauto.
    - intros path p a f f0 ts l inp ms K IA D T H. pose proof IA as ((IP & IT' & II' & IF & IN') & Ia & Ig).
      cbn [processInterface] in H.
      destruct l as [l|]; [|injection H as <-; exact I].
      apply fbind_ok in H. destruct H as (ms' & Hm & H). injection H as <-. cbn.
      eapply loop_all; [| |constructor|exact Hm].
      + intros fd n ns m Hi Hf Hn Hnm. unfold is_method in Hf. destruct (f_type fd) eqn:Eft; try discriminate.
        exists p, a, fd, (ti_types inp), (ti_gtypes inp), (ti_gparams inp).
        rewrite Ia in Hnm. repeat split; [|exact IT'|exact Hnm|intros; now apply Ig|intros; now apply Ig].
        eapply do_own; eauto.
      + intros fd i g o Hi Hf He. cbv beta in He.
        eapply oall_impl; [|eapply (IE _ p a f f0 (f_type fd)); [exact K|exact IA|exact (proj1 D)| |exact He]].
        * intros k m [(n & Hb & p' & a' & fd' & types & gts & gps & Hd & Hr)|(q & s & p1 & Hb & HI & p' & a' & fd' & types & gts & gps & Hd & Hr)];
            exists p', a', fd', types, gts, gps; (split; [|exact Hr]); [eapply do_embed | eapply do_embed_imported]; eauto.
        * exists ts. split; [exact (proj2 D)|]. right. eauto.
    - intros path p a f f0 t inp g ms K IA Hf Hme H. pose proof IA as ((IP & IT' & II' & IF & IN') & Ia & Ig).
      cbn [processEmbedded] in H.
      apply fbind_ok in H. destruct H as ((x & gp) & Hx & H). cbn [fst snd] in H.
      assert (Hgp : not_generic W -> match gp with None => [] | Some g0 => g0 end = []).
      { intros NG. pose proof (proj2 (NG p K) f t Hf Hme) as Hb.
        destruct t; try (injection Hx as <- <-; reflexivity); cbn in Hb; [elim (index_neq _ _ Hb)|elim (indexlist_neq _ _ Hb)]. }
      apply base_of_split in Hx.
      apply fbind_ok in H. destruct H as (name & _ & H).
      apply fbind_ok in H. destruct H as (ms' & Hm & H). injection H as _ <-.
      destruct x as [n|y s| | | | | | | | | | | | | | |]; try (injection Hm as <-; exact I).
      + destruct (find_type n (ti_types inp)) as [ts|] eqn:Ef; [|injection Hm as <-; exact I].
        destruct (find_type_Some _ _ _ Ef) as (Hi & <-).
        apply (Permutation_in _ IT') in Hi. destruct (all_declared _ _ Hi) as (f' & D).
        destruct (ts_type ts) eqn:ET; try discriminate Hm.
        apply fbind_ok in Hm. destruct Hm as (gts & Hgt & Hm). injection Hgt as Hgt.
        eapply oall_impl; [|refine (II _ p a f' f0 ts _ _ ms' K _ D ET Hm)].
        * intros k m Hk. left. eauto.
        * split; [|split].
          -- apply inp_ok_gtypes, inp_ok_gparams. exact (proj1 IA).
          -- destruct inp; exact Ia.
          -- intros NG. split; [|destruct inp; exact (Hgp NG)].
             replace (ti_gtypes _) with gts by now destruct inp. exact (no_tparams p ts _ _ gts NG K Hi Hgt).
      + destruct (wf_selectors W WF p f t y s K Hf Hme Hx) as (q & p1 & -> & Nd & Nb & HI).
        apply fbind_ok in Hm. destruct Hm as (ip & Hip & Hm). apply fwrap_ok in Hip. injection Hip as Hip.
        rewrite IP, II' in *.
        destruct (assoc ip (pk_imports p)) as [id|] eqn:Ea; [|discriminate].
        destruct (w_pkg W id) as [p''|] eqn:Ep; [|discriminate].
        pose proof (import_found W p f f0 q p1 path ip id p'' WF Nd Nb K Hf IN' HI Hip Ea Ep) as ->.
        apply fbind_ok in Hm. destruct Hm as (u & _ & Hm). apply fbind_ok in Hm. destruct Hm as (out & Ho & Hm).
        injection Hm as <-.
        assert (K' : known W p1) by (left; eauto).
        eapply oall_impl; [|eapply (IT _ p1); [exact K' | exact Hgp | exact Ho]].
        intros k m Hk. right. exists q, s, p1. auto.
  Qed.
End SOURCE.

(** every method found is made of a declaration in the method set *)
Theorem C63_sourced : forall Or W path p a T n out k m,
  well_formed W -> known W p ->
  findTarget Or W n path p a T [] = Some (Ok out) ->
  (exists ms, out_methods out = Some ms /\ In (k, m) ms) ->
  made_of Or W p a T k m.
Proof.
  intros Or W path p a T n out k m WF K H (ms & Em & Hi).
  pose proof (proj1 (sourced Or W WF n) path p a T out K [] (fun _ => eq_refl) H) as HA. rewrite Em in HA. cbn in HA.
  unfold all_of in HA. rewrite Forall_forall in HA. exact (HA (k, m) Hi).
Qed.

(** without generics: the method has that declaration's parameters and results, in order, each with the
    printed type and with "..." exactly when declared so *)
Theorem C63_signature : forall Or W path p a T n out k m,
  well_formed W -> not_generic W -> known W p ->
  findTarget Or W n path p a T [] = Some (Ok out) ->
  (exists ms, out_methods out = Some ms /\ In (k, m) ms) ->
  exists p' a' fd ps rs types, decl_of W p a T k p' a' fd /\ f_type fd = FuncT ps rs /\
    Permutation types (all_types p') /\ m_name m = k /\
    Forall2 (entry_of (PrintType Or types a') [] []) (declared ps) (m_params m) /\
    Forall2 (entry_of (PrintType Or types a') [] []) (declared_opt rs) (m_results m).
Proof.
  intros Or W path p a T n out k m WF NG K H Hi.
  destruct (C63_sourced Or W path p a T n out k m WF K H Hi) as (p' & a' & fd & types & gts & gps & Hd & Hp & Hn & Hg).
  destruct (Hg NG) as (-> & ->).
  destruct (C02_only_methods _ _ _ _ _ _ _ Hn) as (ps & rs & Hf).
  destruct (C02_signature _ _ _ _ _ _ _ _ _ Hn Hf) as (A & B & C).
  exists p', a', fd, ps, rs, types. auto 10.
Qed.

(** in the packages of PropResolve.v: [Read] of [Store], declared in package io, is made of [Reader]'s
    declaration there *)
Example C63_nontrivial : exists (out : output) (ms : methodsList) (m : method),
  findTarget Oex Wex 20 [] pmain "_sourceMain" "Store" [] = Some (Ok out) /\ out_methods out = Some ms /\
  In ("Read", m) ms /\ well_formed Wex /\ known Wex pmain /\
  decl_of Wex pmain "_sourceMain" "Store" "Read" pio "io" (meth "Read" [Ident "int"] [Ident "error"]) /\
  map p_type (m_params m) = ["int"].
Proof.
  eexists _, _, _. split; [vm_compute; reflexivity|]. split; [reflexivity|]. split; [right; left; reflexivity|].
  split; [exact well_formed_ex|]. split; [left; now exists "x/main"|]. split; [|reflexivity].
  set (f1 := nth 0 (pk_files pmain) (GoFile [] [])).
  set (store := iface "Store" [meth "Get" [Ident "string"] [Ident "Item"]; emb (Ident "Base");
                            emb (IndexE (Ident "Box") (Ident "Item")); emb (Selector (Ident "goio") "ReadCloser")]).
  eapply (do_embed_imported Wex pmain "_sourceMain" f1 store _ (emb (Selector (Ident "goio") "ReadCloser")) "goio" "ReadCloser" pio);
    [split; cbn; auto | reflexivity | cbn; auto 7 | reflexivity | | ].
  { exists (ImportSpec (Some "goio") (quoted "io")), "io", "io". cbn. auto 7. }
  set (fi := nth 0 (pk_files pio) (GoFile [] [])).
  eapply (do_embed Wex pio "io" fi (iface "ReadCloser" [emb (Ident "Reader"); emb (Ident "Closer")]) _ (emb (Ident "Reader")) "Reader");
    [split; cbn; auto | reflexivity | cbn; auto | reflexivity | ].
  eapply (do_own Wex pio "io" fi (iface "Reader" [meth "Read" [Ident "int"] [Ident "error"]]));
    [split; cbn; auto | reflexivity | cbn; auto | reflexivity | reflexivity].
Qed.

(** io alone uses no generics *)
Example C63_not_generic : not_generic (world_of [("io", pio)]) /\ known (world_of [("io", pio)]) pio.
Proof.
  split; [|left; now exists "io"]. intros p K.
  assert (p = pio) as ->.
  { destruct K as [(id & H)|(path & H)]; cbn in H; [destruct (String.eqb id "io")|destruct (String.eqb path "io")]; congruence. }
  split.
  - intros ts Hi. cbn in Hi. or_inv; reflexivity.
  - intros f e Hf (ts & Hts & He). cbn in Hf. or_inv; cbn in Hts; or_inv; try reflexivity;
      destruct H as (l & fd & E & Hfd & <-); cbn in E; injection E as <-; cbn in Hfd; or_inv; reflexivity.
Qed.

Print Assumptions C63_declared.
Print Assumptions C63_sourced.
Print Assumptions C63_signature.
