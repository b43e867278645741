(** Proofs: the resolved method list is the method set. *)
From Coq Require Import Permutation.
From Verif Require Import Generator GeneratorProofs ResolveSpec QualifierProofs.
Open Scope nat_scope.

(** ** fres *)
Lemma fbind_ok {A B} (r : fres A) (k : A -> fres B) b :
  fbind r k = Some (Ok b) -> exists a, r = Some (Ok a) /\ k a = Some (Ok b).
Proof. destruct r as [[a| |]|]; cbn; intros H; try discriminate. eauto. Qed.

Lemma fwrap_ok {A} m (r : fres A) a : fwrap m r = Some (Ok a) -> r = Some (Ok a).
Proof. destruct r as [[?| |]|]; cbn; intros H; congruence. Qed.

(** ** iterateFiles *)
Lemma iterate_file_eq name f ts acc :
  fold_left (fun a t => iterate_step name f t a) ts acc =
  (fold_left (fun a t => if String.eqb (ts_name t) name then Some (t, f) else a) ts (fst acc), snd acc ++ ts).
Proof.
  revert acc; induction ts as [|t ts IH]; intros [a l]; cbn.
  - now rewrite app_nil_r.
  - rewrite IH. cbn. now rewrite <- app_assoc.
Qed.

Definition sel_step (name : string) (a : option (typespec * gofile)) (f : gofile) :=
  fold_left (fun a t => if String.eqb (ts_name t) name then Some (t, f) else a) (gf_types f) a.

Lemma iterateFiles_eq files name :
  iterateFiles files name = (fold_left (sel_step name) files None, flat_map gf_types files).
Proof.
  unfold iterateFiles. change (flat_map gf_types files) with ([] ++ flat_map gf_types files).
  change (fold_left (sel_step name) files None) with (fold_left (sel_step name) files (fst (@None (typespec * gofile), @nil typespec))).
  change (@nil typespec) with (snd (@None (typespec * gofile), @nil typespec)) at 3.
  generalize (@None (typespec * gofile), @nil typespec) as acc.
  induction files as [|f files IH]; intros acc; cbn.
  - rewrite app_nil_r. now destruct acc.
  - rewrite IH. unfold iterate_file at 1 2. rewrite iterate_file_eq. cbn. now rewrite <- app_assoc.
Qed.

Lemma sel_inner_Some name (f : gofile) ts a t g :
  fold_left (fun a t => if String.eqb (ts_name t) name then Some (t, f) else a) ts a = Some (t, g) ->
  (g = f /\ In t ts /\ ts_name t = name) \/ a = Some (t, g).
Proof.
  revert a; induction ts as [|t0 ts IH]; cbn; intros a H; [now right|].
  destruct (IH _ H) as [(-> & Hi & Hn)|H']; [left; auto|].
  destruct (String.eqb_spec (ts_name t0) name); [|now right].
  injection H' as -> ->. left; auto.
Qed.

Lemma sel_Some name files a t g :
  fold_left (sel_step name) files a = Some (t, g) ->
  (In g files /\ In t (gf_types g) /\ ts_name t = name) \/ a = Some (t, g).
Proof.
  revert a; induction files as [|f files IH]; cbn; intros a H; [now right|].
  destruct (IH _ H) as [(Hi & Ht & Hn)|H']; [left; auto|].
  destruct (sel_inner_Some _ _ _ _ _ _ H') as [(-> & Ht & Hn)|]; [left; auto | now right].
Qed.

Lemma sel_inner_mono name (f : gofile) ts a :
  a <> None -> fold_left (fun a t => if String.eqb (ts_name t) name then Some (t, f) else a) ts a <> None.
Proof.
  revert a; induction ts as [|t0 ts IH]; cbn; intros a H; [exact H|].
  apply IH. now destruct (String.eqb _ _).
Qed.

Lemma sel_mono name files a : a <> None -> fold_left (sel_step name) files a <> None.
Proof.
  revert a; induction files as [|f files IH]; cbn; intros a H; [exact H|].
  apply IH. now apply sel_inner_mono.
Qed.

Lemma sel_inner_None name (f : gofile) ts a :
  fold_left (fun a t => if String.eqb (ts_name t) name then Some (t, f) else a) ts a = None ->
  ~ In name (map ts_name ts).
Proof.
  revert a; induction ts as [|t0 ts IH]; cbn; intros a H; [tauto|].
  intros [E|Hi]; [|now apply (IH _ H)]. rewrite E, String.eqb_refl in H.
  exact (sel_inner_mono name f ts (Some (t0, f)) ltac:(discriminate) H).
Qed.

Lemma sel_None name files a :
  fold_left (sel_step name) files a = None -> ~ In name (map ts_name (flat_map gf_types files)).
Proof.
  revert a; induction files as [|f files IH]; cbn; intros a H; [tauto|].
  rewrite map_app, in_app_iff. intros [Hi|Hi]; [|now apply (IH _ H)].
  destruct (sel_step name a f) eqn:E; [|unfold sel_step in E; now apply (sel_inner_None _ _ _ _ E)].
  revert H; apply sel_mono; discriminate.
Qed.

Lemma flat_map_perm {A B} (g : A -> list B) l l' : Permutation l l' -> Permutation (flat_map g l) (flat_map g l').
Proof.
  induction 1; cbn.
  - constructor.
  - now apply Permutation_app_head.
  - rewrite !app_assoc. apply Permutation_app_tail, Permutation_app_comm.
  - eauto using Permutation_trans.
Qed.

(** ** find_type *)
Lemma find_type_Some n l ts : find_type n l = Some ts -> In ts l /\ ts_name ts = n.
Proof.
  intros H. apply find_some in H. destruct H as (Hi & E). split; [exact Hi|]. now apply String.eqb_eq.
Qed.

Lemma find_type_None n l : find_type n l = None -> ~ In n (map ts_name l).
Proof.
  intros H Hi. apply in_map_iff in Hi. destruct Hi as (t & E & Ht).
  pose proof (find_none _ _ H t Ht) as F. cbn in F. rewrite E, String.eqb_refl in F. discriminate.
Qed.

(** ** unique declarations *)
Lemma declared_all p f ts : declared_in p f ts -> In ts (all_types p).
Proof. intros (Hf & Ht). apply in_flat_map. eauto. Qed.

Lemma all_declared p ts : In ts (all_types p) -> exists f, declared_in p f ts.
Proof. intros H. apply in_flat_map in H. destruct H as (f & Hf & Ht). exists f. now split. Qed.

Lemma NoDup_map_inj {A B} (g : A -> B) l x y : NoDup (map g l) -> In x l -> In y l -> g x = g y -> x = y.
Proof.
  induction l as [|a l IH]; cbn; intros Hd Hx Hy E; [contradiction|].
  inversion Hd as [|? ? Hn Hd']; subst.
  destruct Hx as [->|Hx], Hy as [->|Hy]; auto.
  - exfalso. apply Hn. rewrite E. now apply in_map.
  - exfalso. apply Hn. rewrite <- E. now apply in_map.
Qed.

Lemma NoDup_flat_map_inj {A B C} (g : A -> list B) (h : B -> C) (l : list A) a a' x y :
  NoDup (map h (flat_map g l)) -> In a l -> In a' l -> In x (g a) -> In y (g a') -> h x = h y -> a = a' /\ x = y.
Proof.
  induction l as [|b l IH]; cbn; intros Hd Ha Ha' Hx Hy E; [contradiction|].
  rewrite map_app in Hd.
  assert (Hin : forall z c, In c l -> In z (g c) -> In (h z) (map h (flat_map g l))).
  { intros z c Hc Hz. apply in_map, in_flat_map. eauto. }
  destruct Ha as [->|Ha], Ha' as [->|Ha'].
  - split; [reflexivity|]. exact (NoDup_map_inj h _ x y (NoDup_app_l _ _ Hd) Hx Hy E).
  - exfalso. apply (NoDup_app_disj _ _ (h x) Hd); [now apply in_map|]. rewrite E. eauto.
  - exfalso. apply (NoDup_app_disj _ _ (h y) Hd); [now apply in_map|]. rewrite <- E. eauto.
  - apply IH; auto. now apply NoDup_app_r in Hd.
Qed.

Lemma unique_decl W p f ts f' ts' :
  well_formed W -> known W p -> declared_in p f ts -> declared_in p f' ts' -> ts_name ts = ts_name ts' ->
  f = f' /\ ts = ts'.
Proof.
  intros WF K (Hf & Ht) (Hf' & Ht') E.
  exact (NoDup_flat_map_inj gf_types ts_name (pk_files p) f f' ts ts' (wf_types W WF p K) Hf Hf' Ht Ht' E).
Qed.

Lemma in_set_declared W p n m : in_set W p n m -> exists f ts, declared_in p f ts /\ ts_name ts = n.
Proof. intros H. destruct H; eauto. Qed.

(** ** unquote and import lookup *)
Lemma last_byte_app s c : last_byte (s ++ String c EmptyString) = Some c.
Proof.
  induction s as [|d s IH]; [reflexivity|]. cbn [append last_byte]. rewrite IH.
  destruct s; reflexivity.
Qed.

Lemma drop_last_app s c : drop_last (s ++ String c EmptyString) = s.
Proof.
  induction s as [|d s IH]; [reflexivity|]. cbn [append drop_last]. rewrite IH.
  destruct s; reflexivity.
Qed.

Lemma unquote_quoted path : unquote (quoted path) = Ok path.
Proof.
  unfold unquote, quoted. cbn [byte_eqb]. 
  change (byte_eqb "034" "034") with true. cbn iota.
  now rewrite last_byte_app, drop_last_app.
Qed.

Lemma alias_path_In name imports r :
  alias_path name imports = Some r -> exists i, In i imports /\ im_name i = Some name /\ r = unquote (im_path i).
Proof.
  induction imports as [|i l IH]; cbn; intros H; [discriminate|].
  destruct (im_name i) as [n|] eqn:E.
  - destruct (String.eqb_spec n name) as [->|].
    + injection H as <-. eauto.
    + destruct (IH H) as (j & ? & ?); eauto.
  - destruct (IH H) as (j & ? & ?); eauto.
Qed.

Lemma path_by_name_In W name l s :
  path_by_name W name l = Some s -> exists id p, In (s, id) l /\ w_pkg W id = Some p /\ pk_name p = name.
Proof.
  induction l as [|[path id] l IH]; cbn; intros H; [discriminate|].
  destruct (w_pkg W id) as [p|] eqn:E.
  - destruct (String.eqb_spec (pk_name p) name) as [En|].
    + injection H as <-. eauto 6.
    + destruct (IH H) as (j & q & ? & ?); eauto 6.
  - destruct (IH H) as (j & q & ? & ?); eauto 6.
Qed.

Lemma import_found W p f f0 q p' path ip id p'' :
  well_formed W -> q <> "." -> q <> "_" -> known W p -> In f (pk_files p) -> In f0 (pk_files p) ->
  import_of W p f q p' ->
  findImportPathForName W path q (gf_imports f0) p = Ok ip ->
  assoc ip (pk_imports p) = Some id -> w_pkg W id = Some p'' -> p'' = p'.
Proof.
  intros WF Nd Nb K Hf Hf0 HI H Ha Hp.
  destruct (wf_qualifiers W WF p f f0 q p' Nd Nb K Hf Hf0 HI) as (Q1 & Q2).
  unfold findImportPathForName in H. destruct (alias_path q (gf_imports f0)) as [r|] eqn:E.
  - destruct (alias_path_In _ _ _ E) as (i & Hi & Hn & ->).
    destruct (Q1 i Hi Hn) as (pa & id' & E1 & E2 & E3). rewrite E1, unquote_quoted in H.
    injection H as ->. congruence.
  - destruct (path_by_name W q (rnd_imports W path p)) as [s|] eqn:E'; [|discriminate].
    injection H as ->. destruct (path_by_name_In _ _ _ _ E') as (id' & b & Hi & Hb & Hn).
    apply (Permutation_in _ (wf_rnd_imports W WF p path K)) in Hi.
    pose proof (In_assoc _ _ _ (wf_imports W WF p K) Hi) as Ea.
    rewrite Ea in Ha. injection Ha as ->. rewrite Hb in Hp. injection Hp as <-. exact (Q2 _ _ _ Hi Hb Hn).
Qed.

(** ** NoDup of the results *)
Section NoDupResults.
  Variable Or : oracle. Variable W : world.

  Definition nd_target fuel := forall path p a t g out,
    findTarget Or W fuel path p a t g = Some (Ok out) -> NoDup (opt_keys (out_methods out)).
  Definition nd_methods fuel := forall path ts inp ms,
    findMethods Or W fuel path ts inp = Some (Ok ms) -> NoDup (opt_keys ms).
  Definition nd_interface fuel := forall path l inp ms,
    processInterface Or W fuel path l inp = Some (Ok ms) -> NoDup (opt_keys ms).
  Definition nd_embedded fuel := forall path t c inp g ms,
    processEmbedded Or W fuel path t c inp = Some (Ok (g, ms)) -> NoDup (opt_keys ms).

  Lemma results_NoDup fuel : nd_target fuel /\ nd_methods fuel /\ nd_interface fuel /\ nd_embedded fuel.
  Proof.
    induction fuel as [|fuel (IT & IM & II & IE)].
    { repeat split; red; intros; discriminate. }
    repeat split.
    - intros path p a t g out H. cbn [findTarget] in H. rewrite iterateFiles_eq in H.
      destruct (fold_left _ _ _) as [[ts f]|]; [|discriminate].
      apply fbind_ok in H. destruct H as (gts & _ & H). apply fbind_ok in H. destruct H as (ms & Hm & H).
      injection H as <-. cbn. eauto.
    - intros path ts inp ms H. cbn [findMethods] in H.
      destruct (ts_type ts) as [n|x s| | | | | | | | | | | | | | | ]; try (injection H as <-; constructor); try now apply II in H.
      + destruct (find_type n (ti_file inp)) as [ts'|]; [eauto|]. injection H as <-. constructor.
      + destruct x; try (injection H as <-; constructor).
        apply fbind_ok in H. destruct H as (p & _ & H). apply fbind_ok in H. destruct H as (u & _ & H).
        apply fbind_ok in H. destruct H as (out & Ho & H). apply fwrap_ok in Ho. injection H as <-. eauto.
    - intros path l inp ms H. cbn [processInterface] in H. destruct l as [l|]; [|injection H as <-; constructor].
      apply fbind_ok in H. destruct H as (m & Hm & H). injection H as <-. cbn.
      apply interface_loop_spec in Hm; [exact (proj1 Hm) | | constructor].
      intros i e g ms He. eauto.
    - intros path t c inp g ms H. cbn [processEmbedded] in H.
      apply fbind_ok in H. destruct H as ((x & gp) & _ & H). cbn [fst snd] in H.
      apply fbind_ok in H. destruct H as (name & _ & H).
      apply fbind_ok in H. destruct H as (ms' & Hm & H). injection H as _ <-.
      destruct x as [n|y s| | | | | | | | | | | | | | |]; try (injection Hm as <-; constructor).
      + destruct (find_type n (ti_types inp)) as [ts|]; [|injection Hm as <-; constructor].
        destruct (ts_type ts); try (destruct c; [discriminate | injection Hm as <-; constructor]).
        apply fbind_ok in Hm. destruct Hm as (gts & _ & Hm). eauto.
      + destruct y; try discriminate.
        apply fbind_ok in Hm. destruct Hm as (ip & _ & Hm).
        destruct (assoc ip (pk_imports (ti_pkg inp))) as [id|]; [|discriminate].
        destruct (w_pkg W id) as [p|]; [|discriminate].
        apply fbind_ok in Hm. destruct Hm as (u & _ & Hm). apply fbind_ok in Hm. destruct Hm as (out & Ho & Hm).
        injection Hm as <-. eauto.
  Qed.
End NoDupResults.

Lemma index_neq x i : x <> IndexE x i.
Proof. revert i; induction x; intros j; try discriminate. intros E. injection E as E _. exact (IHx1 _ E). Qed.
Lemma indexlist_neq x i : x <> IndexListE x i.
Proof. revert i; induction x; intros j; try discriminate. intros E. injection E as E _. exact (IHx _ E). Qed.

(** ** The method set *)
Section MethodSet.
  Variable Or : oracle. Variable W : world.
  Hypothesis WF : well_formed W.

  (** names that the package does not declare have no methods *)
  Lemma no_outside p f e n : known W p -> In f (pk_files p) -> mentions f e -> base e = Ident n -> undeclared p n ->
    n <> "error" /\ forall p' m, import_of W p f "." p' -> ~ in_set W p' n m.
  Proof. intros K Hf Hm Hb Hu. destruct (wf_idents W WF p f e n K Hf Hm Hb) as [H|H]; [now elim Hu | exact H]. Qed.
  Lemma no_outside_field p f ts l fd n : known W p -> declared_in p f ts -> ts_type ts = InterfaceT (Some l) -> In fd l ->
    base (f_type fd) = Ident n -> undeclared p n -> n <> "error" /\ forall p' m, import_of W p f "." p' -> ~ in_set W p' n m.
  Proof. intros K (Hf & Ht) T Hi. apply no_outside; [exact K | exact Hf|]. exists ts. split; [exact Ht|]. right. eauto. Qed.
  Lemma no_outside_def p f ts n : known W p -> declared_in p f ts ->
    base (ts_type ts) = Ident n -> undeclared p n -> n <> "error" /\ forall p' m, import_of W p f "." p' -> ~ in_set W p' n m.
  Proof. intros K (Hf & Ht). apply no_outside; [exact K | exact Hf|]. exists ts. split; [exact Ht|]. now left. Qed.

  Definition in_embedded (p : package) (f : gofile) (e : expr) (m : string) : Prop :=
    (exists n, base e = Ident n /\ in_set W p n m) \/
    (exists q s p', base e = Selector (Ident q) s /\ import_of W p f q p' /\ in_set W p' s m).

  Definition in_fields (p : package) (f : gofile) (l : list field) (m : string) : Prop :=
    exists fd, In fd l /\
      ((is_method fd = true /\ exists ns, f_names fd = m :: ns) \/
       (is_method fd = false /\ in_embedded p f (f_type fd) m)).

  Lemma in_set_interface p f ts l m :
    known W p -> declared_in p f ts -> ts_type ts = InterfaceT (Some l) ->
    (in_set W p (ts_name ts) m <-> in_fields p f l m).
  Proof.
    intros K D T. split.
    - intros H. remember (ts_name ts) as n eqn:En. destruct H.
      all: destruct (unique_decl W _ _ _ _ _ WF K D H (eq_sym En)) as (<- & <-).
      + rewrite T in H0. injection H0 as <-. exists fd. split; [assumption|]. left.
        split; [unfold is_method; now rewrite H2 | eauto].
      + rewrite T in H0. injection H0 as <-. exists fd. split; [assumption|]. right.
        split; [unfold is_method; destruct (f_type fd); try reflexivity; discriminate | left; eauto].
      + rewrite T in H0. injection H0 as <-. exists fd. split; [assumption|]. right.
        split; [unfold is_method; destruct (f_type fd); try reflexivity; discriminate | right; eauto 6].
      + rewrite T in H0. discriminate.
      + rewrite T in H0. discriminate.
      + now destruct (proj2 (no_outside_field p f ts l0 fd n K H H0 H1 H2 H3) _ m H4).
      + rewrite T in H0. discriminate.
      + now destruct (proj1 (no_outside_field p f ts l0 fd "error" K H H0 H1 H2 H3)).
      + rewrite T in H0. discriminate.
    - intros (fd & Hi & [(Hm & ns & Hn)|(Hm & [(n & Hb & Hs)|(q & s & p' & Hb & HI & Hs)])]).
      + unfold is_method in Hm. destruct (f_type fd) eqn:Ef; try discriminate.
        eapply is_own; eauto.
      + eapply is_embed; eauto.
      + eapply is_embed_imported; eauto.
  Qed.

  Lemma in_set_empty p f ts m :
    known W p -> declared_in p f ts -> ts_type ts = InterfaceT None -> ~ in_set W p (ts_name ts) m.
  Proof.
    intros K D T H. remember (ts_name ts) as n eqn:En. destruct H;
    destruct (unique_decl W _ _ _ _ _ WF K D H (eq_sym En)) as (<- & <-); rewrite T in H0; discriminate.
  Qed.

  (** the context of a resolution inside package [p], target found in [f] *)
  Definition inp_ok (p : package) (f : gofile) (inp : tinput) : Prop :=
    ti_pkg inp = p /\ Permutation (ti_types inp) (all_types p) /\
    ti_imports inp = gf_imports f /\ ti_file inp = gf_types f /\ In f (pk_files p).

  Lemma inp_ok_gparams p f inp g : inp_ok p f inp -> inp_ok p f (set_gparams g inp).
  Proof. destruct inp; exact (fun H => H). Qed.
  Lemma inp_ok_gtypes p f inp g : inp_ok p f inp -> inp_ok p f (set_gtypes g inp).
  Proof. destruct inp; exact (fun H => H). Qed.

  Definition ms_target fuel := forall path p a T g out, known W p ->
    findTarget Or W fuel path p a T g = Some (Ok out) ->
    forall m, In m (opt_keys (out_methods out)) <-> in_set W p T m.
  Definition ms_methods fuel := forall path p f ts inp ms, known W p -> inp_ok p f inp -> declared_in p f ts ->
    findMethods Or W fuel path ts inp = Some (Ok ms) ->
    forall m, In m (opt_keys ms) <-> in_set W p (ts_name ts) m.
  Definition ms_interface fuel := forall path p f f0 ts l inp ms, known W p -> inp_ok p f0 inp ->
    declared_in p f ts -> ts_type ts = InterfaceT l ->
    processInterface Or W fuel path l inp = Some (Ok ms) ->
    forall m, In m (opt_keys ms) <-> in_set W p (ts_name ts) m.
  Definition ms_embedded fuel := forall path p f f0 t inp g ms, known W p -> inp_ok p f0 inp ->
    In f (pk_files p) -> mentions f t ->
    processEmbedded Or W fuel path t true inp = Some (Ok (g, ms)) ->
    forall m, In m (opt_keys ms) <-> in_embedded p f t m.

  Lemma base_of_split t x gp fuel path inp :
    (match t with
     | IndexE x i => let? gps := args_loop (fun k e => processEmbedded Or W fuel (S k :: path) e false inp) 0 [i] in
                     fret (x, Some gps)
     | IndexListE x l => let? gps := args_loop (fun k e => processEmbedded Or W fuel (S k :: path) e false inp) 0 l in
                         fret (x, Some gps)
     | _ => fret (t, None)
     end) = Some (Ok (x, gp)) -> base t = x.
  Proof.
    destruct t; intros H; try (injection H as <- <-; reflexivity);
    apply fbind_ok in H; destruct H as (gps & _ & H); now injection H as <- _.
  Qed.

  Lemma method_set fuel : ms_target fuel /\ ms_methods fuel /\ ms_interface fuel /\ ms_embedded fuel.
  Proof.
    induction fuel as [|fuel (IT & IM & II & IE)].
    { split; [|split; [|split]]; red; intros; discriminate. }
    split; [|split; [|split]].
    - intros path p a T g out K H m. cbn [findTarget] in H. rewrite iterateFiles_eq in H.
      destruct (fold_left _ _ _) as [[ts f]|] eqn:Es; [|discriminate].
      apply fbind_ok in H. destruct H as (gts & _ & H). apply fbind_ok in H. destruct H as (ms & Hm & H).
      injection H as <-. cbn [out_methods].
      destruct (sel_Some _ _ _ _ _ Es) as [(Hf & Ht & <-)|]; [|discriminate].
      apply (Permutation_in _ (wf_rnd_files W WF p path K)) in Hf.
      eapply (IM path p f ts); try exact Hm; [exact K| |split; assumption].
      repeat split; auto. unfold all_types.
      apply flat_map_perm. exact (wf_rnd_files W WF p path K).
    - intros path p f ts inp ms K IO D H m. pose proof IO as (IP & IT' & II' & IF & IN').
      cbn [findMethods] in H.
      assert (Hnone : forall (P : Prop), ~ P -> (In m (opt_keys None) <-> P)) by (cbn; tauto).
      assert (Hdead : base (ts_type ts) = ts_type ts ->
         (forall n, ts_type ts <> Ident n) -> (forall x s, ts_type ts <> Selector x s) ->
         (forall l, ts_type ts <> InterfaceT l) -> ~ in_set W p (ts_name ts) m).
      { intros Hb N1 N2 N3 Hs. remember (ts_name ts) as n0 eqn:En. destruct Hs;
        destruct (unique_decl W _ _ _ _ _ WF K D H0 (eq_sym En)) as (<- & <-).
        1-3,6,8: exact (N3 _ H1). all: rewrite Hb in H1; solve [exact (N1 _ H1) | exact (N2 _ _ H1)]. }
      destruct (ts_type ts) as [n|x s| | | | | | | |im|ix ii|ix il| | | | |] eqn:ET.
      all: try (injection H as <-; apply Hnone; apply Hdead; [reflexivity | discriminate | discriminate | discriminate]).
      + (* Ident *)
        assert (Eq : in_set W p (ts_name ts) m <-> in_set W p n m).
        { split; [|intros Hs; eapply is_def; [exact D | now rewrite ET | exact Hs]].
          intros Hs. remember (ts_name ts) as n0 eqn:En. destruct Hs;
          destruct (unique_decl W _ _ _ _ _ WF K D H0 (eq_sym En)) as (<- & <-); 
            try (rewrite ET in H1; discriminate).
          - rewrite ET in H1. now injection H1 as ->.
          - now destruct (proj2 (no_outside_def p f ts n0 K H0 H1 H2) _ m H3).
          - now destruct (proj1 (no_outside_def p f ts "error" K H0 H1 H2)). }
        rewrite Eq. rewrite IF in H. destruct (find_type n (gf_types f)) as [ts'|] eqn:Ef.
        * destruct (find_type_Some _ _ _ Ef) as (Hi & <-).
          eapply (IM path p f ts'); eauto. split; [exact IN' | exact Hi].
        * injection H as <-. apply Hnone. intros Hs. destruct (in_set_declared _ _ _ _ Hs) as (f' & ts' & D' & E').
          destruct (wf_def_ident W WF p f ts n K D ET) as [Hin|Hout].
          -- now apply (find_type_None _ _ Ef).
          -- apply Hout. rewrite <- E'. apply in_map. eapply declared_all; eauto.
      + (* Selector *)
        assert (Hme : mentions f (ts_type ts)) by (exists ts; split; [exact (proj2 D) | now left]).
        destruct (wf_selectors W WF p f (ts_type ts) x s K IN' Hme ltac:(now rewrite ET)) as (q & p' & -> & Nd & Nb & HI).
        rewrite II' in H.
        apply fbind_ok in H. destruct H as (p1 & Hl & H). apply fwrap_ok in Hl. injection Hl as Hl.
        rewrite (def_selector_loads W WF p f ts q s p' K D ET HI) in Hl. injection Hl as <-.
        apply fbind_ok in H. destruct H as (u & _ & H).
        apply fbind_ok in H. destruct H as (out & Ho & H). apply fwrap_ok in Ho. injection H as <-.
        assert (K' : known W p') by (destruct HI as (i & pa & id & _ & _ & _ & _ & E); left; eauto).
        rewrite (IT _ _ _ _ _ _ K' Ho m).
        split; [intros Hs; eapply is_def_imported; [exact D | now rewrite ET | exact HI | exact Hs]|].
        intros Hs. remember (ts_name ts) as n0 eqn:En. destruct Hs;
        destruct (unique_decl W _ _ _ _ _ WF K D H (eq_sym En)) as (<- & <-); rewrite ET in H0; try discriminate.
        injection H0 as <- <-.
        destruct HI as (i & pa & id & Hi & Hpa & Hq & Ha & Hid).
        destruct H1 as (i2 & pa2 & id2 & Hi2 & Hpa2 & Hq2 & Ha2 & Hid2).
        assert (p' = p'0) as ->; [|assumption].
        assert (HI : import_of W p f q p') by (exists i, pa, id; auto).
        destruct (wf_qualifiers W WF p f f q p' Nd Nb K IN' IN' HI) as (Q1 & Q2).
        destruct Hq2 as [Hq2|(_ & Hq2)].
        * destruct (Q1 _ Hi2 Hq2) as (pb & idb & Eb & Ab & Pb). rewrite Hpa2 in Eb.
          unfold quoted in Eb. injection Eb as Eb. apply sapp_inj_r in Eb. congruence.
        * symmetry. exact (Q2 _ _ _ (assoc_In _ _ _ Ha2) Hid2 Hq2).
      + (* InterfaceT *)
        eapply (II path p f f ts); eauto.
      + injection H as <-. apply Hnone. apply (wf_def_instance W WF p f ts m K D). rewrite ET. apply index_neq.
      + injection H as <-. apply Hnone. apply (wf_def_instance W WF p f ts m K D). rewrite ET. apply indexlist_neq.
    - intros path p f f0 ts l inp ms K IO D T H m. cbn [processInterface] in H.
      destruct l as [l|].
      + apply fbind_ok in H. destruct H as (ms' & Hm & H). injection H as <-. cbn [opt_keys].
        rewrite (in_set_interface p f ts l m K D T).
        pose proof (interface_loop_parts _ _ _ _ _ _ Hm) as HP.
        rewrite (interface_loop_keys _ _ (fun i e g0 ms0 (He : _ = _) => proj2 (proj2 (proj2 (results_NoDup Or W fuel))) _ _ _ _ _ _ He) _ _ _ Hm m).
        assert (Hme : forall fd, In fd l -> mentions f (f_type fd)).
        { intros fd Hi. exists ts. split; [exact (proj2 D)|]. right. eauto. }
        split.
        * intros [(fd & ns & Hi & Hf & Hn)|(j & fd & g & e & Hj & Hf & He & Hk)].
          -- exists fd. split; [exact Hi|]. left; eauto.
          -- pose proof (nth_error_In _ _ Hj) as Hi. exists fd. split; [exact Hi|]. right. split; [exact Hf|].
             exact (proj1 (IE _ p f f0 _ inp _ _ K IO (proj1 D) (Hme fd Hi) He m) Hk).
        * intros (fd & Hi & [(Hf & ns & Hn)|(Hf & He)]).
          -- left. exists fd, ns. auto.
          -- right. apply In_nth_error in Hi. destruct Hi as (j & Hj). pose proof (nth_error_In _ _ Hj) as Hi.
             specialize (HP j fd Hj). rewrite Hf in HP. destruct HP as (g & e & HP). exists j, fd, g, e.
             repeat split; auto. exact (proj2 (IE _ p f f0 _ inp _ _ K IO (proj1 D) (Hme fd Hi) HP m) He).
      + injection H as <-. cbn. split; [contradiction|]. exact (in_set_empty p f ts m K D T).
    - intros path p f f0 t inp g ms K IO Hf Hme H m. pose proof IO as (IP & IT' & II' & IF & IN').
      cbn [processEmbedded] in H.
      apply fbind_ok in H. destruct H as ((x & gp) & Hx & H). cbn [fst snd] in H. apply base_of_split in Hx.
      apply fbind_ok in H. destruct H as (name & _ & H).
      apply fbind_ok in H. destruct H as (ms' & Hm & H). injection H as _ <-.
      assert (Hdead : (forall n, x <> Ident n) -> (forall y s, x <> Selector y s) ->
               Some (Ok (A := option methodsList) None) = Some (Ok ms') ->
               (In m (opt_keys ms') <-> in_embedded p f t m)).
      { intros N1 N2 E. injection E as <-. cbn. split; [contradiction|].
        intros [(n & Hb & _)|(q & s & p' & Hb & _)]; rewrite Hx in Hb; [exact (N1 _ Hb) | exact (N2 _ _ Hb)]. }
      destruct x as [n|y s| | | | | | | | | | | | | | |];
        try (apply Hdead; [discriminate | discriminate | exact Hm]).
      + assert (Eq : in_embedded p f t m <-> in_set W p n m).
        { unfold in_embedded. rewrite Hx. split.
          - intros [(n' & E & Hs)|(q & s & p' & E & _)]; [now injection E as ->|discriminate].
          - intros Hs. left. eauto. }
        rewrite Eq. destruct (find_type n (ti_types inp)) as [ts|] eqn:Ef.
        * destruct (find_type_Some _ _ _ Ef) as (Hi & <-).
          apply (Permutation_in _ IT') in Hi. destruct (all_declared _ _ Hi) as (f' & D).
          destruct (ts_type ts) eqn:ET; try discriminate Hm.
          apply fbind_ok in Hm. destruct Hm as (gts & _ & Hm).
          refine (II _ p f' f0 ts _ _ ms' K _ D ET Hm m). apply inp_ok_gtypes, inp_ok_gparams, IO.
        * injection Hm as <-. cbn. split; [contradiction|]. intros Hs.
          destruct (in_set_declared _ _ _ _ Hs) as (f' & ts & D & E).
          apply (find_type_None _ _ Ef). rewrite <- E. apply in_map.
          apply (Permutation_in _ (Permutation_sym IT')). eapply declared_all; eauto.
      + destruct (wf_selectors W WF p f t y s K Hf Hme Hx) as (q & p' & -> & Nd & Nb & HI).
        apply fbind_ok in Hm. destruct Hm as (ip & Hip & Hm). apply fwrap_ok in Hip. injection Hip as Hip.
        rewrite IP, II' in *.
        destruct (assoc ip (pk_imports p)) as [id|] eqn:Ea; [|discriminate].
        destruct (w_pkg W id) as [p''|] eqn:Ep; [|discriminate].
        pose proof (import_found W p f f0 q p' path ip id p'' WF Nd Nb K Hf IN' HI Hip Ea Ep) as ->.
        apply fbind_ok in Hm. destruct Hm as (u & _ & Hm). apply fbind_ok in Hm. destruct Hm as (out & Ho & Hm).
        injection Hm as <-.
        assert (K' : known W p') by (left; eauto).
        rewrite (IT _ _ _ _ _ _ K' Ho m). unfold in_embedded. rewrite Hx. split.
        * intros Hs. right. exists q, s, p'. auto.
        * intros [(n' & E & Hs)|(q' & s' & p2 & E & HI2 & Hs)]; [discriminate|].
          injection E as <- <-. enough (p2 = p') as -> by assumption.
          destruct HI2 as (i2 & pa2 & id2 & Hi2 & Hpa2 & Hq2 & Ha2 & Hid2).
          destruct (wf_qualifiers W WF p f f q p' Nd Nb K Hf Hf HI) as (Q1 & Q2).
          destruct Hq2 as [Hq2|(_ & Hq2)].
          -- destruct (Q1 _ Hi2 Hq2) as (pb & idb & Eb & Ab & Pb). rewrite Hpa2 in Eb.
             unfold quoted in Eb. injection Eb as Eb. apply sapp_inj_r in Eb. congruence.
          -- exact (Q2 _ _ _ (assoc_In _ _ _ Ha2) Hid2 Hq2).
  Qed.
End MethodSet.
