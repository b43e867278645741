(** Proofs: fuel does not matter once it suffices, and it suffices for
    declarations that do not refer back to themselves (C15). *)
From Coq Require Import Permutation.
From Verif Require Import Generator GeneratorProofs ResolveSpec ResolveProofs OrderProofs.
Open Scope nat_scope.

(** ** Specification: which declarations a declaration refers to *)

(** type names an embedded element mentions: the element itself, the generic
    interface of an instantiation and its type arguments *)
Inductive refers : expr -> expr -> Prop :=
| ref_ident n : refers (Ident n) (Ident n)
| ref_selector x s : refers (Selector x s) (Selector x s)
| ref_index x i : refers (IndexE x i) x
| ref_index_arg x i r : refers i r -> refers (IndexE x i) r
| ref_indices x l : refers (IndexListE x l) x
| ref_indices_arg x l i r : In i l -> refers i r -> refers (IndexListE x l) r.

(** an import of [p] that the qualifier [q] could denote in some file of [p] *)
Definition could_denote (W : world) (p : package) (q : string) (p' : package) : Prop :=
  exists path id, In (path, id) (pk_imports p) /\ w_pkg W id = Some p' /\
    (pk_name p' = q \/
     exists f i, In f (pk_files p) /\ In i (gf_imports f) /\ im_name i = Some q /\ unquote (im_path i) = Ok path).

(** [T] of [p] mentions [T'] of [p'] in its declaration *)
Inductive mentions_decl (W : world) : package * string -> package * string -> Prop :=
| md_embed p f ts l fd n :
    declared_in p f ts -> ts_type ts = InterfaceT (Some l) -> In fd l -> refers (f_type fd) (Ident n) ->
    mentions_decl W (p, ts_name ts) (p, n)
| md_embed_imported p f ts l fd q s p' :
    declared_in p f ts -> ts_type ts = InterfaceT (Some l) -> In fd l ->
    refers (f_type fd) (Selector (Ident q) s) -> could_denote W p q p' ->
    mentions_decl W (p, ts_name ts) (p', s)
| md_def p f ts n :
    declared_in p f ts -> ts_type ts = Ident n -> mentions_decl W (p, ts_name ts) (p, n)
| md_def_imported p f ts q s p' :
    declared_in p f ts -> ts_type ts = Selector (Ident q) s ->
    w_load W (findSourcePackage q (gf_imports f)) = Ok p' ->
    mentions_decl W (p, ts_name ts) (p', s).

(** no infinite chain of mentions starts from the declaration *)
Definition non_recursive (W : world) (d : package * string) : Prop :=
  Acc (fun a b => mentions_decl W b a) d.

(** ** Fuel monotonicity *)
Definition extends {A} (r1 r2 : fres A) : Prop := forall v, r1 = Some v -> r2 = Some v.

Lemma extends_refl {A} (r : fres A) : extends r r.
Proof. intros v H. exact H. Qed.

Lemma extends_bind {A B} (r1 r2 : fres A) (k1 k2 : A -> fres B) :
  extends r1 r2 -> (forall a, extends (k1 a) (k2 a)) -> extends (fbind r1 k1) (fbind r2 k2).
Proof.
  intros Hr Hk v. destruct r1 as [v1|]; [|discriminate]. rewrite (Hr v1 eq_refl).
  destruct v1; cbn; auto. apply Hk.
Qed.

Lemma extends_wrap {A} m (r1 r2 : fres A) : extends r1 r2 -> extends (fwrap m r1) (fwrap m r2).
Proof. intros Hr v. destruct r1 as [v1|]; [|discriminate]. now rewrite (Hr v1 eq_refl). Qed.

Lemma interface_loop_mono nm em1 em2 : (forall j e, extends (em1 j e) (em2 j e)) ->
  forall l i ms, extends (interface_loop nm em1 i l ms) (interface_loop nm em2 i l ms).
Proof.
  intros HE. induction l as [|f l IH]; intros i ms; [apply extends_refl|].
  destruct (is_method f) eqn:Ef.
  - rewrite !interface_loop_func by exact Ef. destruct (f_names f); [apply extends_refl|].
    apply extends_bind; [apply extends_refl | intros; apply IH].
  - rewrite !interface_loop_emb by exact Ef. apply extends_bind; [apply HE | intros; apply IH].
Qed.

Lemma args_loop_mono em1 em2 : (forall j e, extends (em1 j e) (em2 j e)) ->
  forall l i, extends (args_loop em1 i l) (args_loop em2 i l).
Proof.
  intros HE. induction l as [|e l IH]; intros i; [apply extends_refl|]. cbn.
  apply extends_bind; [apply HE|]. intros a. apply extends_bind; [apply IH | intros; apply extends_refl].
Qed.

Section Mono.
  Variable Or : oracle. Variable W : world.

  Lemma mono_step fuel :
    (forall path p a T g, extends (findTarget Or W fuel path p a T g) (findTarget Or W (S fuel) path p a T g)) /\
    (forall path ts inp, extends (findMethods Or W fuel path ts inp) (findMethods Or W (S fuel) path ts inp)) /\
    (forall path l inp, extends (processInterface Or W fuel path l inp) (processInterface Or W (S fuel) path l inp)) /\
    (forall path t c inp, extends (processEmbedded Or W fuel path t c inp) (processEmbedded Or W (S fuel) path t c inp)).
  Proof.
    induction fuel as [|fuel (IT & IM & II & IE)].
    { split; [|split; [|split]]; intros; intros v; discriminate. }
    split; [|split; [|split]].
    - intros path p a T g. cbn [findTarget]. rewrite iterateFiles_eq.
      destruct (fold_left _ _ _) as [[ts f]|]; [|apply extends_refl].
      apply extends_bind; [apply extends_refl|]. intros gts. apply extends_bind; [apply IM | intros; apply extends_refl].
    - intros path ts inp.
      change (extends (match ts_type ts with
        | InterfaceT ms => processInterface Or W fuel path ms inp
        | Selector x s =>
            match x with
            | Ident q =>
                let srcPath := findSourcePackage q (ti_imports inp) in
                let? p := fwrap ("cant load " ++ srcPath ++ " package")%string (flift (w_load W srcPath)) in
                let? _ := fwrap ("cant ast " ++ srcPath ++ " package")%string (flift (ast_ok p)) in
                let? out := fwrap ("failed to find target in " ++ srcPath ++ " package")%string
                              (findTarget Or W fuel (0 :: path) p (pk_name p) s []) in
                fret (out_methods out)
            | _ => fret None
            end
        | Ident n =>
            match find_type n (ti_file inp) with
            | None => fret None
            | Some ts' => findMethods Or W fuel path ts' inp
            end
        | _ => fret None
        end) (findMethods Or W (S (S fuel)) path ts inp)).
      cbn [findMethods]. destruct (ts_type ts); try apply extends_refl.
      + destruct (find_type n (ti_file inp)); [apply IM | apply extends_refl].
      + destruct e; try apply extends_refl. cbv zeta.
        apply extends_bind; [apply extends_refl|]. intros p. apply extends_bind; [apply extends_refl|]. intros _.
        apply extends_bind; [apply extends_wrap; apply IT | intros; apply extends_refl].
      + apply II.
    - intros path l inp. cbn [processInterface]. destruct l as [l|]; [|apply extends_refl].
      apply extends_bind; [|intros; apply extends_refl]. apply interface_loop_mono. intros j e. apply IE.
    - intros path t c inp.
      assert (HA : forall l, extends (args_loop (fun k e => processEmbedded Or W fuel (S k :: path) e false inp) 0 l)
                       (args_loop (fun k e => processEmbedded Or W (S fuel) (S k :: path) e false inp) 0 l)).
      { intros l. apply args_loop_mono. intros j e. apply IE. }
      remember (S fuel) as sf eqn:Esf.
      rewrite Esf at 1. cbn [processEmbedded].
      apply extends_bind.
      { destruct t; try apply extends_refl; (apply extends_bind; [apply HA | intros; apply extends_refl]). }
      intros [x gp]. cbn [fst snd]. apply extends_bind; [apply extends_refl|]. intros name.
      apply extends_bind; [|intros; apply extends_refl].
      destruct x as [n|y s| | | | | | | | | | | | | | |]; try apply extends_refl.
      + destruct (find_type n (ti_types inp)) as [ts|]; [|apply extends_refl].
        destruct (ts_type ts); try apply extends_refl.
        apply extends_bind; [apply extends_refl|]. intros gts. apply II.
      + destruct y; try apply extends_refl. apply extends_bind; [apply extends_refl|]. intros ip.
        destruct (assoc ip _) as [id|]; [|apply extends_refl]. destruct (w_pkg W id) as [p|]; [|apply extends_refl].
        apply extends_bind; [apply extends_refl|]. intros _.
        apply extends_bind; [apply IT | intros; apply extends_refl].
  Qed.

  Lemma findTarget_mono fuel fuel' path p a T g v : fuel <= fuel' ->
    findTarget Or W fuel path p a T g = Some v -> findTarget Or W fuel' path p a T g = Some v.
  Proof.
    induction 1 as [|m _ IH]; [auto|]. intros H. apply (proj1 (mono_step m)). auto.
  Qed.
End Mono.

(** ** Termination *)
Lemma list_bound {A} (R : A -> nat -> Prop) (l : list A) :
  (forall x, In x l -> exists N, forall n, N <= n -> R x n) ->
  exists N, forall n, N <= n -> forall x, In x l -> R x n.
Proof.
  induction l as [|a l IH]; intros H.
  - exists 0. intros n _ x [].
  - destruct (H a (or_introl eq_refl)) as (N1 & H1). destruct IH as (N2 & H2); [intros; apply H; now right|].
    exists (max N1 N2). intros n Hn x [<-|Hx]; [apply H1 | apply H2; auto]; lia.
Qed.

Lemma interface_loop_some nm em l : forall i ms,
  (forall j f, In f l -> is_method f = false -> em j (f_type f) <> None) ->
  interface_loop nm em i l ms <> None.
Proof.
  induction l as [|f l IH]; intros i ms HE; [discriminate|].
  destruct (is_method f) eqn:Ef.
  - rewrite interface_loop_func by exact Ef. destruct (f_names f); [discriminate|].
    destruct (nm s f); try discriminate. cbn. apply IH. intros; apply HE; auto; now right.
  - rewrite interface_loop_emb by exact Ef. pose proof (HE i f (or_introl eq_refl) Ef) as H.
    destruct (em i (f_type f)) as [[?| |]|]; try discriminate; [|contradiction].
    cbn. apply IH. intros; apply HE; auto; now right.
Qed.

Lemma args_loop_some em l : forall i, (forall j e, In e l -> em j e <> None) -> args_loop em i l <> None.
Proof.
  induction l as [|e l IH]; intros i HE; [discriminate|]. cbn.
  pose proof (HE i e (or_introl eq_refl)) as H.
  destruct (em i e) as [[?| |]|]; try discriminate; [|contradiction]. cbn.
  assert (args_loop em (S i) l <> None) by (apply IH; intros; apply HE; now right).
  destruct (args_loop em (S i) l) as [[?| |]|]; try discriminate; contradiction.
Qed.

Lemma fbind_some {A B} (r : fres A) (k : A -> fres B) :
  r <> None -> (forall a, r = Some (Ok a) -> k a <> None) -> fbind r k <> None.
Proof. intros Hr Hk. destruct r as [[a| |]|]; cbn; try discriminate; auto. Qed.

Lemma fwrap_some {A} m (r : fres A) : r <> None -> fwrap m r <> None.
Proof. destruct r as [[?| |]|]; cbn; try discriminate; auto. Qed.

Lemma flift_some {A} (r : res A) : flift r <> None.
Proof. discriminate. Qed.

Section Termination.
  Variable Or : oracle. Variable W : world.
  Hypothesis RF : forall p path, Permutation (rnd_files W path p) (pk_files p).
  Hypothesis RI : forall p path, Permutation (rnd_imports W path p) (pk_imports p).
  Hypothesis KI : forall p, known W p -> NoDup (keys (pk_imports p)).

  Definition inp_in (p : package) (f : gofile) (inp : tinput) : Prop :=
    ti_pkg inp = p /\ incl (ti_types inp) (all_types p) /\
    ti_imports inp = gf_imports f /\ ti_file inp = gf_types f /\ In f (pk_files p).

  Definition enough (p : package) (T : string) (n : nat) : Prop :=
    (forall path a g, findTarget Or W n path p a T g <> None) /\
    (forall path f inp ts, inp_in p f inp -> declared_in p f ts -> ts_name ts = T -> findMethods Or W n path ts inp <> None) /\
    (forall path f inp ts l, inp_in p f inp -> In ts (all_types p) -> ts_name ts = T -> ts_type ts = InterfaceT l ->
       processInterface Or W n path l inp <> None).
  Definition terminates p T := exists N, forall n, N <= n -> enough p T n.

  (** [t] refers only to terminating declarations *)
  Definition refs_ok p t :=
    (forall n, refers t (Ident n) -> terminates p n) /\
    (forall q s p', refers t (Selector (Ident q) s) -> could_denote W p q p' -> terminates p' s).

  Definition denote_b (p : package) (q path : string) (p' : package) : bool :=
    String.eqb (pk_name p') q ||
    existsb (fun f => existsb (fun i => match im_name i with Some n => String.eqb n q | None => false end &&
                                        match unquote (im_path i) with Ok s => String.eqb s path | _ => false end)
                              (gf_imports f)) (pk_files p).

  Lemma denote_b_spec p q path id p' : In (path, id) (pk_imports p) -> w_pkg W id = Some p' ->
    denote_b p q path p' = true -> could_denote W p q p'.
  Proof.
    intros Hi Hp H. exists path, id. repeat split; auto. unfold denote_b in H. apply orb_true_iff in H.
    destruct H as [H|H]; [left; now apply String.eqb_eq|]. right.
    apply existsb_exists in H. destruct H as (f & Hf & H). apply existsb_exists in H. destruct H as (i & Hin & H).
    apply andb_true_iff in H. destruct H as (H1 & H2). exists f, i.
    destruct (im_name i) as [n|]; [|discriminate]. apply String.eqb_eq in H1. subst.
    destruct (unquote (im_path i)) as [s| |]; try discriminate. apply String.eqb_eq in H2. subst. auto.
  Qed.

  Lemma imports_bound p t : refs_ok p t -> forall q s, refers t (Selector (Ident q) s) ->
    exists N, forall n, N <= n -> forall path id, In (path, id) (pk_imports p) ->
      forall p', w_pkg W id = Some p' -> denote_b p q path p' = true -> enough p' s n.
  Proof.
    intros (_ & HS) q s Hr.
    destruct (list_bound (fun (pi : string * string) n => forall p', w_pkg W (snd pi) = Some p' ->
                denote_b p q (fst pi) p' = true -> enough p' s n) (pk_imports p)) as (N & HN).
    - intros [path id] Hi. cbn [fst snd]. destruct (w_pkg W id) as [p'|] eqn:Ep.
      + destruct (denote_b p q path p') eqn:Ed.
        * destruct (HS q s p' Hr (denote_b_spec _ _ _ _ _ Hi Ep Ed)) as (N & HN).
          exists N. intros n Hn p0 E _. injection E as <-. auto.
        * exists 0. intros n _ p0 E Ed'. injection E as <-. congruence.
      + exists 0. intros n _ p0 E. discriminate.
    - exists N. intros n Hn path id Hi p' Hp Hd. exact (HN n Hn (path, id) Hi p' Hp Hd).
  Qed.

  Lemma inp_in_set p f inp g h : inp_in p f inp -> inp_in p f (set_gtypes g (set_gparams h inp)).
  Proof. destruct inp; exact (fun H => H). Qed.

  (** the part of processEmbedded after the type arguments *)
  Lemma base_bound p t x : known W p -> refs_ok p t -> (forall n, x = Ident n -> refers t x) ->
    (forall y s, x = Selector y s -> refers t x) ->
    exists N, forall n, N <= n -> forall path f check inp gps, inp_in p f inp ->
      (match x with
       | Selector y s =>
           match y with
           | Ident q =>
               let? ip := fwrap ("unable to find package " ++ q)%string
                            (flift (findImportPathForName W path q (ti_imports inp) (ti_pkg inp))) in
               match assoc ip (pk_imports (ti_pkg inp)) with
               | None => ferr (Sentinel ("unable to find package " ++ q))
               | Some id =>
                   match w_pkg W id with
                   | None => ferr (Sentinel ("unable to find package " ++ q))
                   | Some p =>
                       let? _ := fwrap "failed to import package" (flift (ast_ok p)) in
                       let? out := findTarget Or W n (0 :: path) p (pk_name p) s gps in
                       fret (out_methods out)
                   end
               end
           | _ => Some (Panic "interface conversion: ast.Expr is not *ast.Ident")
           end
       | Ident m =>
           match find_type m (ti_types inp) with
           | None => fret None
           | Some ts =>
               match ts_type ts with
               | InterfaceT l =>
                   let? gts := flift (buildGenericTypesFromSpec ts (ti_types inp) (ti_prefix inp)) in
                   processInterface Or W n (0 :: path) l (set_gtypes gts (set_gparams gps inp))
               | _ => if check : bool then ferr (Wrapped (ts_name ts) errNotAnInterface) else fret None
               end
           end
       | _ => fret None
       end) <> None.
  Proof.
    intros K HR HI HS.
    destruct x as [m|y s| | | | | | | | | | | | | | |]; try (exists 0; intros; discriminate).
    - destruct (proj1 HR m (HI m eq_refl)) as (N & HN). exists N. intros n Hn path f check inp gps IN.
      destruct (find_type m (ti_types inp)) as [ts|] eqn:Ef; [|discriminate].
      destruct (find_type_Some _ _ _ Ef) as (Hi & E).
      destruct (ts_type ts) eqn:ET; try (destruct check; discriminate).
      apply fbind_some; [apply flift_some|]. intros gts _.
      eapply (proj2 (proj2 (HN n Hn))); [apply inp_in_set; exact IN | | exact E | exact ET].
      now apply (proj1 (proj2 IN)).
    - destruct y as [q| | | | | | | | | | | | | | | |]; try (exists 0; intros; discriminate).
      destruct (imports_bound p t HR q s (HS _ _ eq_refl)) as (N & HN). exists N.
      intros n Hn path f check inp gps IN. pose proof IN as (EP & _ & EI & _ & Hf). rewrite EP, EI.
      apply fbind_some; [apply fwrap_some, flift_some|]. intros ip Hip. apply fwrap_ok in Hip. injection Hip as Hip.
      destruct (assoc ip (pk_imports p)) as [id|] eqn:Ea; [|discriminate].
      destruct (w_pkg W id) as [p'|] eqn:Ep; [|discriminate].
      apply fbind_some; [apply fwrap_some, flift_some|]. intros _ _.
      apply fbind_some; [|discriminate].
      assert (Hd : exists id', In (ip, id') (pk_imports p) /\ w_pkg W id' = Some p' /\ denote_b p q ip p' = true).
      { unfold findImportPathForName in Hip. destruct (alias_path q (gf_imports f)) as [r|] eqn:Eal.
        - destruct (alias_path_In _ _ _ Eal) as (i & Hi & Hn' & ->).
          exists id. split; [now apply assoc_In|]. split; [exact Ep|]. unfold denote_b. apply orb_true_iff. right.
          apply existsb_exists. exists f. split; [exact Hf|]. apply existsb_exists. exists i. split; [exact Hi|].
          rewrite Hn', String.eqb_refl, Hip, String.eqb_refl. reflexivity.
        - destruct (path_by_name W q (rnd_imports W path p)) as [s'|] eqn:Epn; [|discriminate].
          injection Hip as ->. destruct (path_by_name_In _ _ _ _ Epn) as (id' & b & Hi & Hb & Hn').
          apply (Permutation_in _ (RI p path)) in Hi.
          exists id. split; [now apply assoc_In|]. split; [exact Ep|].
          rewrite (In_assoc _ _ _ (KI p K) Hi) in Ea. injection Ea as ->. rewrite Hb in Ep. injection Ep as <-.
          unfold denote_b. now rewrite Hn', String.eqb_refl. }
      destruct Hd as (id' & Hi & Hp' & Hd).
      exact (proj1 (HN n Hn ip id' Hi p' Hp' Hd) _ _ _).
  Qed.

  Lemma embedded_bound p : known W p -> forall t, refs_ok p t ->
    exists N, forall n, N <= n -> forall path f check inp, inp_in p f inp ->
      processEmbedded Or W n path t check inp <> None.
  Proof.
    intros K.
    assert (Plain : forall t, refs_ok p t ->
      (forall n, t = Ident n -> refers t t) -> (forall y s, t = Selector y s -> refers t t) ->
      (forall x i, t <> IndexE x i) -> (forall x l, t <> IndexListE x l) ->
      exists N, forall n, N <= n -> forall path f check inp, inp_in p f inp ->
        processEmbedded Or W n path t check inp <> None).
    { intros t HR H1 H2 N1 N2. destruct (base_bound p t t K HR H1 H2) as (N & HN). exists (S N).
      intros n Hn path f check inp IN. destruct n as [|n]; [lia|]. cbn [processEmbedded].
      apply fbind_some.
      { destruct t; try discriminate; [now destruct (N1 t1 t2) | now destruct (N2 t indices)]. }
      intros [x gp] Hx. assert (x = t) as ->.
      { destruct t; try (now injection Hx as <- _); [now destruct (N1 t1 t2) | now destruct (N2 t indices)]. }
      cbn [fst snd]. apply fbind_some; [apply flift_some|]. intros name _.
      apply fbind_some; [|discriminate]. apply (HN n ltac:(lia)) with (f := f). exact IN. }
    set (P := fun t => refs_ok p t -> exists N, forall n, N <= n -> forall path f check inp, inp_in p f inp ->
      processEmbedded Or W n path t check inp <> None).
    apply (expr_ind' P); unfold P; intros.
    1-2: apply Plain; auto; try discriminate; intros; constructor.
    1-8: apply Plain; auto; discriminate.
    3-7: apply Plain; auto; discriminate.
    - destruct H0 as (NI & HI).
      { split; intros; [apply (proj1 H1) | eapply (proj2 H1); eauto]; now constructor. }
      destruct (base_bound p (IndexE x i) x K H1) as (NB & HB); [intros; constructor | intros; constructor|].
      exists (S (max NI NB)). intros n Hn path f check inp IN. destruct n as [|n]; [lia|]. cbn [processEmbedded].
      apply fbind_some.
      { apply fbind_some; [|discriminate]. apply args_loop_some. intros j e [<-|[]]. apply (HI n ltac:(lia)) with (f := f). exact IN. }
      intros [x' gp] Hx. apply fbind_ok in Hx. destruct Hx as (gps & _ & Hx). injection Hx as <- <-.
      cbn [fst snd]. apply fbind_some; [apply flift_some|]. intros name _.
      apply fbind_some; [|discriminate]. apply (HB n ltac:(lia)) with (f := f). exact IN.
    - assert (HL : exists N, forall n, N <= n -> forall e, In e l ->
          forall path f check inp, inp_in p f inp -> processEmbedded Or W n path e check inp <> None).
      { apply list_bound. intros e He. rewrite Forall_forall in H0. apply (H0 e He).
        split; intros; [apply (proj1 H1) | eapply (proj2 H1); eauto]; econstructor; eauto. }
      destruct HL as (NI & HI).
      destruct (base_bound p (IndexListE x l) x K H1) as (NB & HB); [intros; constructor | intros; constructor|].
      exists (S (max NI NB)). intros n Hn path f check inp IN. destruct n as [|n]; [lia|]. cbn [processEmbedded].
      apply fbind_some.
      { apply fbind_some; [|discriminate]. apply args_loop_some. intros j e He. apply (HI n ltac:(lia)) with (f := f); assumption. }
      intros [x' gp] Hx. apply fbind_ok in Hx. destruct Hx as (gps & _ & Hx). injection Hx as <- <-.
      cbn [fst snd]. apply fbind_some; [apply flift_some|]. intros name _.
      apply fbind_some; [|discriminate]. apply (HB n ltac:(lia)) with (f := f). exact IN.
  Qed.

  Lemma could_denote_known p q p' : could_denote W p q p' -> known W p'.
  Proof. intros (path & id & _ & H & _). left. eauto. Qed.

  (** bounds for every declaration of [T] in [p] *)
  Lemma decl_bound p T : known W p ->
    (forall d, mentions_decl W (p, T) d -> known W (fst d) -> terminates (fst d) (snd d)) ->
    terminates p T.
  Proof.
    intros K HM.
    (* interfaces *)
    assert (HI : exists N, forall n, N <= n -> forall ts, In ts (all_types p) ->
              forall l, ts_name ts = T -> ts_type ts = InterfaceT l ->
              forall path f inp, inp_in p f inp -> processInterface Or W n path l inp <> None).
    { apply list_bound. intros ts Hts. destruct (ts_type ts) as [| | | | | | | | |[l|]| | | | | | |] eqn:ET;
        try (exists 0; intros; discriminate).
      2: { exists 1. intros n Hn l _ E path f inp _. injection E as <-. destruct n; [lia | discriminate]. }
      destruct (String.eqb_spec (ts_name ts) T) as [EN|N]; [|exists 0; intros; contradiction].
      destruct (all_declared p ts Hts) as (f0 & D).
      assert (HF : exists N, forall n, N <= n -> forall fd, In fd l ->
                forall path f check inp, inp_in p f inp -> processEmbedded Or W n path (f_type fd) check inp <> None).
      { apply list_bound. intros fd Hfd. apply embedded_bound; [exact K|]. split.
        - intros m Hr. rewrite <- EN in HM. apply (HM (p, m)); [eapply md_embed; eauto | exact K].
        - intros q s p' Hr Hc. rewrite <- EN in HM.
          apply (HM (p', s)); [eapply md_embed_imported; eauto | eapply could_denote_known; exact Hc]. }
      destruct HF as (N & HN). exists (S N). intros n Hn l' _ E path f inp IN. injection E as <-.
      destruct n as [|n]; [lia|]. cbn [processInterface]. apply fbind_some; [|discriminate].
      apply interface_loop_some. intros j fd Hfd _. apply (HN n ltac:(lia) fd Hfd) with (f := f). exact IN. }
    destruct HI as (NI & HI).
    (* definitions *)
    assert (HD : exists N, forall n, N <= n -> forall f, In f (pk_files p) -> forall ts, In ts (gf_types f) ->
              ts_name ts = T -> forall path inp, inp_in p f inp -> findMethods Or W n path ts inp <> None).
    { apply list_bound. intros f Hf.
      apply (list_bound (fun ts n => ts_name ts = T -> forall path inp, inp_in p f inp -> findMethods Or W n path ts inp <> None)).
      intros ts Hts.
      destruct (String.eqb_spec (ts_name ts) T) as [EN|N]; [|exists 0; intros; contradiction].
      assert (D : declared_in p f ts) by (split; assumption).
      destruct (ts_type ts) as [m|x s| | | | | | | |l| | | | | | |] eqn:ET;
        try (exists 1; intros n Hn _ path inp IN; destruct n; [lia|]; cbn [findMethods]; rewrite ET; discriminate).
      - destruct (HM (p, m)) as (N & HN); [rewrite <- EN; eapply md_def; eauto | exact K|]. cbn [fst snd] in HN.
        exists (S N). intros n Hn _ path inp IN. destruct n as [|n]; [lia|]. cbn [findMethods]. rewrite ET.
        destruct (find_type m (ti_file inp)) as [ts'|] eqn:Ef; [|discriminate].
        destruct (find_type_Some _ _ _ Ef) as (Hi & E'). rewrite (proj1 (proj2 (proj2 (proj2 IN)))) in Hi.
        eapply (proj1 (proj2 (HN n ltac:(lia)))); [exact IN | split; assumption | exact E'].
      - destruct x as [q| | | | | | | | | | | | | | | |];
          try (exists 1; intros n Hn _ path inp IN; destruct n; [lia|]; cbn [findMethods]; rewrite ET; discriminate).
        destruct (w_load W (findSourcePackage q (gf_imports f))) as [p'|e|e] eqn:El.
        + destruct (HM (p', s)) as (N & HN); [rewrite <- EN; eapply md_def_imported; eauto | right; eauto|].
          cbn [fst snd] in HN. exists (S N). intros n Hn _ path inp IN. destruct n as [|n]; [lia|].
          cbn [findMethods]. rewrite ET. cbv zeta. rewrite (proj1 (proj2 (proj2 IN))), El.
          apply fbind_some; [apply fwrap_some, flift_some|]. intros p1 E1. injection E1 as <-.
          apply fbind_some; [apply fwrap_some, flift_some|]. intros _ _.
          apply fbind_some; [|discriminate]. apply fwrap_some. apply (proj1 (HN n ltac:(lia))).
        + exists 1. intros n Hn _ path inp IN. destruct n; [lia|]. cbn [findMethods]. rewrite ET. cbv zeta.
          rewrite (proj1 (proj2 (proj2 IN))), El. discriminate.
        + exists 1. intros n Hn _ path inp IN. destruct n; [lia|]. cbn [findMethods]. rewrite ET. cbv zeta.
          rewrite (proj1 (proj2 (proj2 IN))), El. discriminate.
      - exists (S NI). intros n Hn _ path inp IN. destruct n as [|n]; [lia|]. cbn [findMethods]. rewrite ET.
        eapply (HI n ltac:(lia) ts); eauto. eapply declared_all; eauto. }
    destruct HD as (ND & HD).
    exists (S (max NI ND)). intros n Hn. split; [|split].
    - intros path a g. destruct n as [|n]; [lia|]. cbn [findTarget]. rewrite iterateFiles_eq.
      destruct (fold_left _ _ _) as [[ts f]|] eqn:Es; [|discriminate].
      destruct (sel_Some _ _ _ _ _ Es) as [(Hf & Ht & EN)|]; [|discriminate].
      apply (Permutation_in _ (RF p path)) in Hf.
      apply fbind_some; [apply flift_some|]. intros gts _. apply fbind_some; [|discriminate].
      apply (HD n ltac:(lia) f Hf ts Ht EN). repeat split; auto.
      unfold all_types. intros x Hx. cbn [ti_types] in Hx.
      apply (Permutation_in _ (flat_map_perm gf_types _ _ (RF p path))). exact Hx.
    - intros path f inp ts IN (Hf & Ht) EN. apply (HD n ltac:(lia) f Hf ts Ht EN). exact IN.
    - intros path f inp ts l IN Ht EN ET. apply (HI n ltac:(lia) ts Ht l EN ET) with (f := f). exact IN.
  Qed.

  Lemma non_recursive_terminates d : known W (fst d) -> non_recursive W d -> terminates (fst d) (snd d).
  Proof.
    intros K H. revert K. induction H as [[p T] _ IH]. intros K. apply decl_bound; [exact K|].
    intros d Hd Kd. exact (IH d Hd Kd).
  Qed.

  (** an enclosing call of findTarget answers, with one and the same answer for
      every larger fuel *)
  Lemma findTarget_terminates p T : known W p -> non_recursive W (p, T) ->
    exists N, forall path a g, exists v, forall n, N <= n -> findTarget Or W n path p a T g = Some v.
  Proof.
    intros K H. destruct (non_recursive_terminates (p, T) K H) as (N & HN). cbn [fst snd] in HN.
    exists N. intros path a g. destruct (findTarget Or W N path p a T g) as [v|] eqn:E.
    - exists v. intros n Hn. now apply (findTarget_mono Or W N).
    - exfalso. exact (proj1 (HN N (le_n N)) path a g E).
  Qed.
End Termination.
