(** Properties C12-C16 of interface resolution (generator/generator.go). *)
From Coq Require Import Permutation.
From Verif Require Import Generator PrinterProofs GeneratorProofs ResolveSpec ResolveProofs OrderProofs TermProofs.
Open Scope nat_scope.

(** ** Concrete packages used as examples *)
Definition Oex : oracle := Oracle (fun _ => ("<go/printer>", None)) (fun r => r).
Definition meth (n : string) (ps : list expr) (rs : list expr) : field :=
  Field [] [] [n] (FuncT (map (fun t => Field [] [] [] t None) ps)
                         (match rs with [] => None | _ => Some (map (fun t => Field [] [] [] t None) rs) end)) None.
Definition emb (t : expr) : field := Field [] [] [] t None.
Definition iface (n : string) (l : list field) : typespec := TypeSpec n None (InterfaceT (Some l)).
Definition giface (n : string) (tps : list string) (l : list field) : typespec :=
  TypeSpec n (Some [Field [] [] tps (Ident "any") None]) (InterfaceT (Some l)).

(** a world of finitely many packages, iterated in declaration order *)
Definition world_of (ps : list (string * package)) : world :=
  World (fun id => assoc id ps)
        (fun path => match assoc path ps with Some p => Ok p | None => Err (Sentinel "no such package") end)
        (fun _ p => pk_files p) (fun _ p => pk_imports p).

Definition pio : package :=
  Package "io" "io"
    [GoFile [iface "Reader" [meth "Read" [Ident "int"] [Ident "error"]];
             iface "Closer" [meth "Close" [] [Ident "error"]];
             iface "ReadCloser" [emb (Ident "Reader"); emb (Ident "Closer")]] []] [] None.

Definition pmain : package :=
  Package "x/main" "main"
    [GoFile [iface "Store" [meth "Get" [Ident "string"] [Ident "Item"]; emb (Ident "Base");
                            emb (IndexE (Ident "Box") (Ident "Item")); emb (Selector (Ident "goio") "ReadCloser")];
             TypeSpec "Alias" None (Ident "Store")]
            [ImportSpec (Some "goio") (quoted "io")];
     GoFile [iface "Base" [meth "Close" [] [Ident "error"]; meth "Name" [] [Ident "string"]];
             giface "Box" ["T"] [meth "Put" [Ident "T"] []];
             TypeSpec "Item" None (StructT []);
             TypeSpec "Src" None (Selector (Ident "io") "Reader")]
            [ImportSpec None (quoted "io")]]
    [("io", "io")] None.

Definition Wex : world := world_of [("io", pio); ("x/main", pmain)].

Lemma known_ex p : known Wex p -> p = pio \/ p = pmain.
Proof.
  intros [(id & H)|(path & H)].
  - cbn in H. destruct (String.eqb id "io"); [injection H as <-; auto|].
    destruct (String.eqb id "x/main"); [injection H as <-; auto | discriminate].
  - unfold Wex, world_of in H. cbn in H. destruct (String.eqb path "io"); [injection H as <-; auto|].
    destruct (String.eqb path "x/main"); [injection H as <-; auto | discriminate].
Qed.

Ltac nodup := repeat (constructor; [cbn; intuition discriminate|]); constructor.
Ltac or_inv := repeat match goal with H : _ \/ _ |- _ => destruct H | H : False |- _ => destruct H end; subst.
Ltac decl_cases D := destruct D as (?Df & ?Dt); cbn in Df; or_inv; cbn in Dt; or_inv.

Lemma import_io f q p' : In f (pk_files pmain) -> import_of Wex pmain f q p' -> p' = pio.
Proof.
  intros Hf (i & path & id & Hi & Hp & Hq & Ha & Hid).
  assert (id = "io").
  { cbn in Ha. destruct (String.eqb path "io"); congruence. }
  subst. cbn in Hid. congruence.
Qed.

Lemma no_import_pio f q p' : In f (pk_files pio) -> ~ import_of Wex pio f q p'.
Proof. intros Hf (i & path & id & Hi & _). cbn in Hf. or_inv. contradiction. Qed.

Example well_formed_ex : well_formed Wex.
Proof.
  constructor.
  - intros p K. destruct (known_ex p K); subst; vm_compute; nodup.
  - intros p K. destruct (known_ex p K); subst; vm_compute; nodup.
  - intros. apply Permutation_refl.
  - intros. apply Permutation_refl.
  - intros p f e x s K Hf (ts & Hts & He) Hb. destruct (known_ex p K); subst.
    + cbn in Hf. or_inv; cbn in Hts; or_inv; try discriminate;
      destruct H as (l & fd & E & Hfd & Et); cbn in E; try discriminate; injection E as <-; cbn in Hfd; or_inv; discriminate.
    + cbn in Hf. or_inv; cbn in Hts; or_inv; try discriminate;
      try (destruct H as (l & fd & E & Hfd & Et); cbn in E; try discriminate; injection E as <-; cbn in Hfd; or_inv; try discriminate).
      * injection Hb as <- <-. exists "io", pio. split; [reflexivity|]. split; [discriminate|]. split; [discriminate|].
        exists (ImportSpec None (quoted "io")), "io", "io". cbn. auto 7.
      * injection Hb as <- <-. exists "goio", pio. split; [reflexivity|]. split; [discriminate|]. split; [discriminate|].
        exists (ImportSpec (Some "goio") (quoted "io")), "io", "io". cbn. auto 7.
  - intros p f e n K Hf (ts & Hts & He) Hb. left. destruct (known_ex p K); subst; cbn in Hf; or_inv; cbn in Hts; or_inv; try discriminate;
      try (destruct H as (l & fd & E & Hfd & Et); cbn in E; try discriminate; injection E as <-; cbn in Hfd; or_inv; try discriminate);
      injection Hb as <-; cbn; auto 10.
  - intros p f f' q p' _ _ K Hf Hf' HI. destruct (known_ex p K); subst.
    + now apply no_import_pio in HI.
    + rewrite (import_io _ _ _ Hf HI) in *. split.
      * intros i Hi Hn. cbn in Hf'. or_inv; cbn in Hi; or_inv; try discriminate.
        exists "io", "io". auto.
      * intros path id b Hi Hb Hn. cbn in Hi. or_inv. injection H as <- <-. cbn in Hb. congruence.
  - intros p f ts n K D E. destruct (known_ex p K); subst; decl_cases D; try discriminate.
    injection E as <-. left. cbn. auto.
  - intros p f ts q s p' K D E HI. destruct (known_ex p K); subst; decl_cases D; try discriminate.
    injection E as <- <-. rewrite (import_io _ _ _ ltac:(cbn; auto) HI). split.
    + intros i Hi. cbn in Hi. or_inv. now exists "io".
    + exists (ImportSpec None (quoted "io")), "io". cbn [gf_imports im_path]. split; [now left|]. split; [|split; [reflexivity|split; [reflexivity|]]].
      * right. split; [reflexivity|]. exists "io". split; [reflexivity|]. split; [reflexivity | now left].
      * intros i' [<-|[]] _. reflexivity.
  - intros p f ts m K D E. destruct (known_ex p K); subst; decl_cases D; now destruct E.
Qed.

(** ** C12: the method list is exactly the interface's method set *)

(** The full claim, for packages whose type names are unique. *)
Definition C12_statement : Prop := forall Or W path p a T g n out,
  (forall p, known W p -> NoDup (map ts_name (all_types p)) /\ NoDup (keys (pk_imports p))) ->
  (forall p path, Permutation (rnd_files W path p) (pk_files p)) ->
  (forall p path, Permutation (rnd_imports W path p) (pk_imports p)) ->
  known W p ->
  findTarget Or W n path p a T g = Some (Ok out) ->
  forall m, In m (opt_keys (out_methods out)) <-> in_set W p T m.

(** Proved when additionally qualifiers are used consistently in the files of a
    package and type definitions are resolvable the way gowrap resolves them
    ([well_formed]). *)
Theorem C12_method_set_partial : forall Or W path p a T g n out,
  well_formed W -> known W p ->
  findTarget Or W n path p a T g = Some (Ok out) ->
  forall m, In m (opt_keys (out_methods out)) <-> in_set W p T m.
Proof.
  intros Or W path p a T g n out WF K H. exact (proj1 (method_set Or W WF n) path p a T g out K H).
Qed.

(** names are not repeated *)
Theorem C12_no_duplicates : forall Or W path p a T g n out,
  findTarget Or W n path p a T g = Some (Ok out) -> NoDup (opt_keys (out_methods out)).
Proof. intros Or W path p a T g n out H. exact (proj1 (results_NoDup Or W n) path p a T g out H). Qed.

Example C12_nontrivial : exists out,
  findTarget Oex Wex 20 [] pmain "_sourceMain" "Store" [] = Some (Ok out) /\
  opt_keys (out_methods out) = ["Close"; "Read"; "Put"; "Name"; "Get"] /\
  known Wex pmain.
Proof. eexists. split; [vm_compute; reflexivity|]. split; [vm_compute; reflexivity|]. left. now exists "x/main". Qed.

Example C12_nontrivial_definition : exists out,
  findTarget Oex Wex 20 [] pmain "_sourceMain" "Alias" [] = Some (Ok out) /\ length (opt_keys (out_methods out)) = 5.
Proof. eexists. split; vm_compute; reflexivity. Qed.

(** It fails for an interface that embeds an imported type defined as
    [type A B] with [B] in another file of its package: B's methods are
    silently missing. *)
Definition pdep : package :=
  Package "dep" "dep"
    [GoFile [TypeSpec "A" None (Ident "B")] [];
     GoFile [iface "B" [meth "Lost" [] [Ident "int"]]] []] [] None.
Definition pmain2 : package :=
  Package "m" "m"
    [GoFile [iface "I" [meth "Kept" [] [Ident "int"]; emb (Selector (Ident "dep") "A")]]
            [ImportSpec None (quoted "dep")]] [("dep", "dep")] None.
Definition Wlost : world := world_of [("dep", pdep); ("m", pmain2)].

Lemma known_lost p : known Wlost p -> p = pdep \/ p = pmain2.
Proof.
  intros [(id & H)|(path & H)].
  - cbn in H. destruct (String.eqb id "dep"); [injection H as <-; auto|].
    destruct (String.eqb id "m"); [injection H as <-; auto | discriminate].
  - unfold Wlost, world_of in H. cbn in H. destruct (String.eqb path "dep"); [injection H as <-; auto|].
    destruct (String.eqb path "m"); [injection H as <-; auto | discriminate].
Qed.

Theorem C12_refuted : ~ C12_statement.
Proof.
  intros H.
  assert (HT : exists out, findTarget Oex Wlost 20 [] pmain2 "_sourceM" "I" [] = Some (Ok out) /\
               opt_keys (out_methods out) = ["Kept"]).
  { eexists. split; vm_compute; reflexivity. }
  destruct HT as (out & HT & HK).
  assert (HI : In "Lost" (opt_keys (out_methods out))).
  { apply (H Oex Wlost [] pmain2 "_sourceM" "I" [] 20 out).
    - intros p K. destruct (known_lost p K); subst; split; vm_compute; nodup.
    - intros. apply Permutation_refl.
    - intros. apply Permutation_refl.
    - left. now exists "m".
    - exact HT.
    - eapply (is_embed_imported Wlost pmain2 (nth 0 (pk_files pmain2) (GoFile [] []))
               (iface "I" [meth "Kept" [] [Ident "int"]; emb (Selector (Ident "dep") "A")])
               _ (emb (Selector (Ident "dep") "A")) "dep" "A" pdep).
      + split; cbn; auto.
      + reflexivity.
      + cbn; auto.
      + reflexivity.
      + exists (ImportSpec None (quoted "dep")), "dep", "dep". cbn. auto 7.
      + eapply (is_def Wlost pdep (nth 0 (pk_files pdep) (GoFile [] [])) (TypeSpec "A" None (Ident "B"))).
        * split; cbn; auto.
        * reflexivity.
        * eapply (is_own Wlost pdep (nth 1 (pk_files pdep) (GoFile [] [])) (iface "B" [meth "Lost" [] [Ident "int"]])).
          -- split; cbn; auto.
          -- reflexivity.
          -- cbn. left. reflexivity.
          -- reflexivity.
          -- reflexivity. }
  rewrite HK in HI. cbn in HI. intuition discriminate.
Qed.

(** It also fails for embedded [error] (its method [Error] is dropped without
    complaint) and for every other name gowrap cannot find in the package, such
    as a dot-imported interface. *)
Lemma unresolved_ident Or W fuel path n c inp :
  find_type n (ti_types inp) = None -> PrintType Or (ti_types inp) (ti_prefix inp) (Ident n) = Ok n ->
  processEmbedded Or W (S fuel) path (Ident n) c inp = Some (Ok (GParam n [], None)).
Proof. intros H1 H2. cbn [processEmbedded fbind fst snd fret]. rewrite H2. cbn [flift fbind]. now rewrite H1. Qed.

Definition punres (n : string) : package :=
  Package "m" "m" [GoFile [iface "I" [meth "Kept" [] [Ident "int"]; emb (Ident n)]] []] [] None.
Theorem C12_unresolved_dropped_refuted : forall n, n <> "I" ->
  exists out, findTarget Oex (world_of [("m", punres n)]) 20 [] (punres n) "" "I" [] = Some (Ok out) /\
              opt_keys (out_methods out) = ["Kept"].
Proof.
  intros n Hn.
  assert (E : String.eqb "I" n = false) by (apply String.eqb_neq; congruence).
  set (W := world_of [("m", punres n)]).
  assert (HK : exists m, NewMethod Oex (PrintType Oex (gf_types (nth 0 (pk_files (punres n)) (GoFile [] []))) "") [] []
                "Kept" (meth "Kept" [] [Ident "int"]) = Ok m) by (eexists; vm_compute; reflexivity).
  destruct HK as (m & HK).
  exists (Output [] (Some [("Kept", m)]) []). split; [|reflexivity].
  assert (HI : forall k path inp, ti_types inp = gf_types (nth 0 (pk_files (punres n)) (GoFile [] [])) ->
            ti_prefix inp = "" -> ti_gtypes inp = [] -> ti_gparams inp = [] ->
            processInterface Oex W (S (S k)) path (Some [meth "Kept" [] [Ident "int"]; emb (Ident n)]) inp
            = Some (Ok (Some [("Kept", m)]))).
  { intros k path inp E1 E2 E3 E4.
    assert (EE : forall path, processEmbedded Oex W (S k) path (Ident n) true inp = Some (Ok (GParam n [], None))).
    { intros path'. apply unresolved_ident.
      - rewrite E1. cbn [punres pk_files nth gf_types find_type find iface ts_name]. now rewrite E.
      - rewrite E1, E2, PrintType_pt. cbn [pt]. unfold ident_res.
        cbn [punres pk_files nth gf_types existsb iface ts_name].
        rewrite String.eqb_sym, E. reflexivity. }
    remember (S k) as k1 eqn:Ek. cbn [processInterface]. rewrite E1, E2, E3, E4.
    unfold meth at 1. cbn [interface_loop emb f_type f_names].
    match goal with |- context [NewMethod ?a ?b ?c ?d ?e ?f] =>
      replace (NewMethod a b c d e f) with (@Ok method m) by (symmetry; exact HK) end.
    cbn [flift fbind]. rewrite EE. reflexivity. }
  assert (HM : forall k path inp, ti_types inp = gf_types (nth 0 (pk_files (punres n)) (GoFile [] [])) ->
            ti_prefix inp = "" -> ti_gtypes inp = [] -> ti_gparams inp = [] ->
            findMethods Oex W (S (S (S k))) path (iface "I" [meth "Kept" [] [Ident "int"]; emb (Ident n)]) inp
            = Some (Ok (Some [("Kept", m)]))).
  { intros k path inp E1 E2 E3 E4. rewrite <- (HI k path inp E1 E2 E3 E4). reflexivity. }
  assert (HT : forall k, findTarget Oex W (S (S (S (S k)))) [] (punres n) "" "I" [] =
            fbind (findMethods Oex W (S (S (S k))) [] (iface "I" [meth "Kept" [] [Ident "int"]; emb (Ident n)])
              (TInput (punres n) "" (gf_types (nth 0 (pk_files (punres n)) (GoFile [] []))) [] 
                 (gf_types (nth 0 (pk_files (punres n)) (GoFile [] []))) [] []))
              (fun ms => fret (Output [] ms []))) by reflexivity.
  change 20 with (S (S (S (S 16)))). rewrite HT, HM; reflexivity.
Qed.

Theorem C12_error_refuted :
  in_set (world_of [("m", punres "error")]) (punres "error") "I" "Error" /\
  exists out, findTarget Oex (world_of [("m", punres "error")]) 20 [] (punres "error") "" "I" [] = Some (Ok out) /\
              opt_keys (out_methods out) = ["Kept"].
Proof.
  split; [|eexists; split; vm_compute; reflexivity].
  eapply (is_embed_error _ (punres "error") (nth 0 (pk_files (punres "error")) (GoFile [] []))
            (iface "I" [meth "Kept" [] [Ident "int"]; emb (Ident "error")]));
    [split; cbn; auto | reflexivity | right; left; reflexivity | reflexivity | intros Hin; cbn in Hin; or_inv; discriminate].
Qed.
Definition pdoer : package := Package "doer" "doer" [GoFile [iface "Doer" [meth "Do" [] [Ident "int"]]] []] [] None.
Definition pdot : package :=
  Package "m" "m" [GoFile [iface "I" [meth "Kept" [] [Ident "int"]; emb (Ident "Doer")]] [ImportSpec (Some ".") (quoted "doer")]] [("doer", "doer")] None.
Definition Wdot : world := world_of [("doer", pdoer); ("m", pdot)].
Theorem C12_dot_import_refuted :
  in_set Wdot pdot "I" "Do" /\
  exists out, findTarget Oex Wdot 20 [] pdot "" "I" [] = Some (Ok out) /\ opt_keys (out_methods out) = ["Kept"].
Proof.
  split; [|eexists; split; vm_compute; reflexivity].
  eapply (is_embed_dot Wdot pdot (nth 0 (pk_files pdot) (GoFile [] [])) (iface "I" [meth "Kept" [] [Ident "int"]; emb (Ident "Doer")]) _ (emb (Ident "Doer")) "Doer" pdoer);
    [split; cbn; auto | reflexivity | right; left; reflexivity | reflexivity | intros Hin; cbn in Hin; or_inv; discriminate | |].
  - exists (ImportSpec (Some ".") (quoted "doer")), "doer", "doer". cbn. auto 7.
  - eapply (is_own Wdot pdoer (nth 0 (pk_files pdoer) (GoFile [] [])) (iface "Doer" [meth "Do" [] [Ident "int"]]));
      [split; cbn; auto | reflexivity | left; reflexivity | reflexivity | reflexivity].
Qed.

(** And a qualifier of an embedded interface's file is looked up in the target's
    file: with [dep] meaning different packages in two files, the wrong
    package's methods are used. *)
Definition pgood : package := Package "good" "dep" [GoFile [iface "B" [meth "Right" [] [Ident "int"]]] []] [] None.
Definition pbad : package := Package "bad" "other" [GoFile [iface "B" [meth "Wrong" [] [Ident "int"]]] []] [] None.
Definition pmix : package :=
  Package "m" "m"
    [GoFile [iface "I" [emb (Ident "E")]] [ImportSpec (Some "dep") (quoted "bad")];
     GoFile [iface "E" [emb (Selector (Ident "dep") "B")]] [ImportSpec None (quoted "good")]]
    [("good", "good"); ("bad", "bad")] None.
Definition Wmix : world := world_of [("good", pgood); ("bad", pbad); ("m", pmix)].
Theorem C12_wrong_file_imports_refuted :
  in_set Wmix pmix "I" "Right" /\
  exists out, findTarget Oex Wmix 20 [] pmix "" "I" [] = Some (Ok out) /\ opt_keys (out_methods out) = ["Wrong"].
Proof.
  split; [|eexists; split; vm_compute; reflexivity].
  eapply (is_embed Wmix pmix (nth 0 (pk_files pmix) (GoFile [] [])) (iface "I" [emb (Ident "E")])).
  - split; cbn; auto.
  - reflexivity.
  - cbn; auto.
  - reflexivity.
  - eapply (is_embed_imported Wmix pmix (nth 1 (pk_files pmix) (GoFile [] []))
              (iface "E" [emb (Selector (Ident "dep") "B")]) _ (emb (Selector (Ident "dep") "B")) "dep" "B" pgood).
    + split; cbn; auto.
    + reflexivity.
    + cbn; auto.
    + reflexivity.
    + exists (ImportSpec None (quoted "good")), "good", "good". cbn. auto 7.
    + eapply (is_own Wmix pgood (nth 0 (pk_files pgood) (GoFile [] [])) (iface "B" [meth "Right" [] [Ident "int"]])).
      * split; cbn; auto.
      * reflexivity.
      * cbn. left. reflexivity.
      * reflexivity.
      * reflexivity.
Qed.

(** ** C13: the outermost declaration wins *)
Section C13.
  Variables (Or : oracle) (W : world) (n : nat) (path : list nat) (l : list field) (inp : tinput) (ms : methodsList).
  Hypothesis HP : processInterface Or W (S n) path (Some l) inp = Some (Ok (Some ms)).
  Let newMethod := NewMethod Or (PrintType Or (ti_types inp) (ti_prefix inp)) (ti_gtypes inp) (ti_gparams inp).
  Let embedded (j : nat) (e : expr) := processEmbedded Or W n (j :: path) e true inp.

  Lemma C13_loop : interface_loop newMethod embedded 0 l [] = Some (Ok ms).
  Proof.
    cbn [processInterface] in HP. apply fbind_ok in HP. destruct HP as (m & Hm & E). injection E as <-. exact Hm.
  Qed.

  Lemma embedded_NoDup i e g m : embedded i e = Some (Ok (g, m)) -> NoDup (opt_keys m).
  Proof. exact (proj2 (proj2 (proj2 (results_NoDup Or W n))) _ _ _ _ _ _). Qed.
End C13.

(** the names an interface literal declares itself *)
Definition own_names (l : list field) : list string :=
  flat_map (fun f => match f_type f with FuncT _ _ => firstn 1 (f_names f) | _ => [] end) l.

Lemma own_of_unique l k fd ns : NoDup (own_names l) -> In fd l -> is_method fd = true -> f_names fd = k :: ns ->
  own_of l k = Some fd.
Proof.
  induction l as [|f l IH]; cbn [own_names flat_map own_of]; intros Hd Hi Hm Hn; [contradiction|].
  assert (Hin : forall g, own_of l k = Some g -> In k (own_names l)).
  { intros g Hg. destruct (proj1 (own_of_Some l k) (ex_intro _ g Hg)) as (f' & ns' & H1 & H2 & H3).
    apply in_flat_map. exists f'. split; [exact H1|]. unfold is_method in H2.
    destruct (f_type f'); try discriminate. rewrite H3. now left. }
  destruct Hi as [->|Hi].
  - destruct (own_of l k) as [g|] eqn:E.
    + exfalso. apply (NoDup_app_disj _ _ k Hd); [|now apply (Hin g)].
      unfold is_method in Hm. destruct (f_type fd); try discriminate. rewrite Hn. now left.
    + rewrite Hm, Hn. cbn. now rewrite String.eqb_refl.
  - rewrite (IH (NoDup_app_r _ _ Hd) Hi Hm Hn). reflexivity.
Qed.

(** the interface's own declaration is the one used *)
Theorem C13_own_declaration_wins : forall Or W n path l inp ms fd k ns,
  processInterface Or W (S n) path (Some l) inp = Some (Ok (Some ms)) ->
  NoDup (own_names l) -> In fd l -> is_method fd = true -> f_names fd = k :: ns ->
  exists m, NewMethod Or (PrintType Or (ti_types inp) (ti_prefix inp)) (ti_gtypes inp) (ti_gparams inp) k fd = Ok m /\
            assoc k ms = Some m.
Proof.
  intros Or W n path l inp ms fd k ns H Hd Hi Hm Hn.
  pose proof (C13_loop _ _ _ _ _ _ _ H) as HL.
  destruct (interface_loop_spec _ _ (embedded_NoDup Or W n path inp) _ _ _ _ HL (NoDup_nil _)) as (_ & HA).
  specialize (HA k). rewrite (own_of_unique l k fd ns Hd Hi Hm Hn) in HA.
  apply In_nth_error in Hi. destruct Hi as (j & Hj).
  pose proof (interface_loop_parts _ _ _ _ _ _ HL j fd Hj) as P. rewrite Hm in P.
  destruct P as (k' & ns' & m & En & Em). rewrite Hn in En. injection En as <- <-.
  exists m. split; [exact Em|]. rewrite HA, Em. reflexivity.
Qed.

(** otherwise the first embedded element that has the method provides it *)
Theorem C13_first_embedded_wins : forall Or W n path l inp ms j fd g e k m,
  processInterface Or W (S n) path (Some l) inp = Some (Ok (Some ms)) ->
  ~ In k (own_names l) ->
  nth_error l j = Some fd -> is_method fd = false ->
  processEmbedded Or W n (j :: path) (f_type fd) true inp = Some (Ok (g, Some e)) -> assoc k e = Some m ->
  (forall j' fd' g' e', j' < j -> nth_error l j' = Some fd' -> is_method fd' = false ->
     processEmbedded Or W n (j' :: path) (f_type fd') true inp = Some (Ok (g', e')) -> ~ In k (opt_keys e')) ->
  assoc k ms = Some m.
Proof.
  intros Or W n path l inp ms j fd g e k m H Hno Hj Hm He Ha Hfirst.
  pose proof (C13_loop _ _ _ _ _ _ _ H) as HL.
  destruct (interface_loop_spec _ _ (embedded_NoDup Or W n path inp) _ _ _ _ HL (NoDup_nil _)) as (_ & HA).
  specialize (HA k).
  assert (own_of l k = None) as E.
  { destruct (own_of l k) as [f|] eqn:E; [|reflexivity]. exfalso. apply Hno.
    destruct (proj1 (own_of_Some l k) (ex_intro _ f E)) as (f' & ns & H1 & H2 & H3).
    apply in_flat_map. exists f'. split; [exact H1|]. unfold is_method in H2.
    destruct (f_type f'); try discriminate. rewrite H3. now left. }
  rewrite E in HA. cbn [assoc] in HA. rewrite HA. clear HA E HL H Hno.
  set (em := fun i e0 => processEmbedded Or W n (i :: path) e0 true inp).
  change (processEmbedded Or W n (j :: path) (f_type fd) true inp) with (em (0 + j) (f_type fd)) in He.
  assert (Hfirst' : forall j' fd' g' e', j' < j -> nth_error l j' = Some fd' -> is_method fd' = false ->
     em (0 + j') (f_type fd') = Some (Ok (g', e')) -> ~ In k (opt_keys e')) by (intros; eapply Hfirst; eauto).
  clear Hfirst. clearbody em. revert Hj He Hfirst'. generalize 0 as i. revert j.
  induction l as [|f l IH]; intros j i Hj He Hf; [destruct j; discriminate|].
  cbn [emb_of]. destruct j as [|j].
  - injection Hj as ->. rewrite Hm. rewrite Nat.add_0_r in He. rewrite He. cbn. now rewrite Ha.
  - assert (IHH : emb_of em (S i) l k = Some m).
    { apply (IH j (S i)); [exact Hj | now replace (S i + j) with (i + S j) by lia|].
      intros j' fd' g' e' Hl Hn' Hm' He'. apply (Hf (S j') fd' g' e'); auto; [lia|].
      now replace (i + S j') with (S i + j') by lia. }
    destruct (is_method f) eqn:Ef; [exact IHH|].
    destruct (em i (f_type f)) as [[[g0 e0]| |]|] eqn:E0; auto.
    assert (Hn0 : ~ In k (opt_keys e0)) by (apply (Hf 0 f g0 e0); auto; [lia | now rewrite Nat.add_0_r]).
    destruct e0 as [e0|]; cbn; [|exact IHH]. cbn in Hn0.
    destruct (assoc k e0) as [v|] eqn:E1; [|exact IHH].
    exfalso. apply Hn0. apply assoc_Some_keys. eauto.
Qed.

(** merging neither loses nor invents a method *)
Theorem C13_no_loss_no_invention : forall Or W n path l inp ms k,
  processInterface Or W (S n) path (Some l) inp = Some (Ok (Some ms)) ->
  (In k (keys ms) <->
     (exists fd ns, In fd l /\ is_method fd = true /\ f_names fd = k :: ns) \/
     (exists j fd g e, nth_error l j = Some fd /\ is_method fd = false /\
        processEmbedded Or W n (j :: path) (f_type fd) true inp = Some (Ok (g, e)) /\ In k (opt_keys e))).
Proof.
  intros Or W n path l inp ms k H. pose proof (C13_loop _ _ _ _ _ _ _ H) as HL.
  exact (interface_loop_keys _ _ (embedded_NoDup Or W n path inp) _ _ _ HL k).
Qed.

(** [Close] is declared in Store and in the embedded Closer with different
    results; Store's declaration is used. *)
Definition pover : package :=
  Package "m" "m"
    [GoFile [iface "Closer" [meth "Close" [] [Ident "error"]; meth "Id" [] [Ident "int"]];
             iface "Other" [meth "Id" [] [Ident "bool"]];
             iface "Store" [emb (Ident "Closer"); emb (Ident "Other"); meth "Close" [] [Ident "string"]]] []] [] None.
Example C13_nontrivial : exists out,
  findTarget Oex (world_of [("m", pover)]) 20 [] pover "" "Store" [] = Some (Ok out) /\
  match out_methods out with
  | Some ms => option_map (fun m => map p_type (m_results m)) (assoc "Close" ms) = Some ["string"] /\
               option_map (fun m => map p_type (m_results m)) (assoc "Id" ms) = Some ["int"]
  | None => False
  end.
Proof. eexists. split; [vm_compute; reflexivity|]. split; vm_compute; reflexivity. Qed.

(** ** C14: map iteration order does not matter *)
Theorem C14_order_irrelevant : forall Or W1 W2 n path p a T g,
  order_only W1 W2 -> unambiguous W1 -> known W1 p ->
  findTarget Or W1 n path p a T g = findTarget Or W2 n path p a T g.
Proof. intros Or W1 W2 n path p a T g OO UN K. exact (proj1 (order_irrelevant Or W1 W2 OO UN n) path p a T g K). Qed.

(** a world that iterates everything backwards *)
Definition reversed (W : world) : world :=
  World (w_pkg W) (w_load W) (fun path p => rev (rnd_files W path p)) (fun path p => rev (rnd_imports W path p)).
Example C14_nontrivial : order_only Wex (reversed Wex) /\ unambiguous Wex /\ known Wex pmain /\
  rnd_files (reversed Wex) [] pmain <> rnd_files Wex [] pmain.
Proof.
  split; [constructor; intros; try reflexivity; cbn; try apply Permutation_refl; symmetry; apply Permutation_rev|].
  split; [|split; [left; now exists "x/main" | discriminate]].
  constructor.
  - intros p K. destruct (known_ex p K); subst; vm_compute; nodup.
  - intros p path id q path' id' q' K H1 H2 _ _ _. destruct (known_ex p K); subst; cbn in *; or_inv; congruence.
Qed.

(** Without uniqueness the order does matter: a type declared twice (files for
    different platforms, which gowrap reads together), or two imported packages
    with the same name. *)
Definition C14_statement : Prop := forall Or W1 W2 n path p a T g,
  order_only W1 W2 -> known W1 p -> findTarget Or W1 n path p a T g = findTarget Or W2 n path p a T g.
Definition ptwice : package :=
  Package "m" "m" [GoFile [iface "I" [meth "Linux" [] [Ident "int"]]] [];
                   GoFile [iface "I" [meth "Windows" [] [Ident "int"]]] []] [] None.
Definition Wtwice : world := world_of [("m", ptwice)].
Theorem C14_duplicate_types_refuted : ~ C14_statement.
Proof.
  intros H. assert (OO : order_only Wtwice (reversed Wtwice)).
  { constructor; intros; try reflexivity; cbn; try apply Permutation_refl; symmetry; apply Permutation_rev. }
  specialize (H Oex Wtwice (reversed Wtwice) 20 [] ptwice "" "I" [] OO ltac:(left; now exists "m")).
  vm_compute in H. discriminate.
Qed.

Definition pdup : package :=
  Package "m" "m" [GoFile [iface "I" [emb (Selector (Ident "dep") "B")]] [ImportSpec None (quoted "good")]]
    [("good", "good"); ("bad2", "bad2")] None.
Definition Wdup : world :=
  world_of [("good", pgood); ("bad2", Package "bad2" "dep" [GoFile [iface "B" [meth "Wrong" [] [Ident "int"]]] []] [] None); ("m", pdup)].
Theorem C14_duplicate_packages_refuted :
  (forall p, known Wdup p -> NoDup (map ts_name (all_types p))) /\ ~ C14_statement.
Proof.
  split.
  - intros p [(id & H)|(path & H)]; [cbn in H | unfold Wdup, world_of in H; cbn in H];
    repeat match type of H with context [String.eqb ?a ?b] => destruct (String.eqb a b) end;
    try discriminate; injection H as <-; vm_compute; nodup.
  - intros H. assert (OO : order_only Wdup (reversed Wdup)).
    { constructor; intros; try reflexivity; cbn; try apply Permutation_refl; symmetry; apply Permutation_rev. }
    specialize (H Oex Wdup (reversed Wdup) 20 [] pdup "" "I" [] OO ltac:(left; now exists "m")).
    vm_compute in H. discriminate.
Qed.

(** ** C15: resolution terminates *)
Definition C15_statement : Prop := forall Or W p a T,
  (forall p path, Permutation (rnd_files W path p) (pk_files p)) ->
  (forall p path, Permutation (rnd_imports W path p) (pk_imports p)) ->
  (forall p, known W p -> NoDup (keys (pk_imports p))) ->
  known W p -> exists n v, findTarget Or W n [] p a T [] = Some v.

(** Proved for declarations that do not mention themselves: one bound works for
    all later, larger bounds with the same answer. *)
Theorem C15_terminates_partial : forall Or W p T,
  (forall p path, Permutation (rnd_files W path p) (pk_files p)) ->
  (forall p path, Permutation (rnd_imports W path p) (pk_imports p)) ->
  (forall p, known W p -> NoDup (keys (pk_imports p))) ->
  known W p -> non_recursive W (p, T) ->
  exists N, forall path a g, exists v, forall n, N <= n -> findTarget Or W n path p a T g = Some v.
Proof. intros Or W p T RF RI KI K H. exact (findTarget_terminates Or W RF RI KI p T K H). Qed.

Lemma non_recursive_rank W (R : package * string -> nat) :
  (forall x y, mentions_decl W x y -> R y < R x) -> forall d, non_recursive W d.
Proof.
  intros HR d. unfold non_recursive. assert (H : forall k x, R x < k -> Acc (fun a b => mentions_decl W b a) x).
  { induction k as [|k IH]; intros x Hx; [lia|]. constructor. intros y Hy. apply IH. specialize (HR _ _ Hy). lia. }
  exact (H (S (R d)) d (Nat.lt_succ_diag_r _)).
Qed.

Example C15_nontrivial : known (world_of [("m", pover)]) pover /\ non_recursive (world_of [("m", pover)]) (pover, "Store").
Proof.
  split; [left; now exists "m"|]. constructor. intros y Hy.
  assert (Hy' : y = (pover, "Closer") \/ y = (pover, "Other")).
  { inversion Hy as [p f ts l fd n D T Hfd Hr E1 E2|p f ts l fd q s p' D T Hfd Hr Hc E1 E2|p f ts n D T E1 E2|p f ts q s p' D T HL E1 E2]; subst;
    decl_cases D; try discriminate; cbn in T; try discriminate; injection T as <-; cbn in Hfd; or_inv;
    cbn in Hr; inversion Hr; subst; auto. }
  constructor. intros z Hz.
  destruct Hy'; subst;
  inversion Hz as [p f ts l fd n D T Hfd Hr E1 E2|p f ts l fd q s p' D T Hfd Hr Hc E1 E2|p f ts n D T E1 E2|p f ts q s p' D T HL E1 E2]; subst;
  decl_cases D; try discriminate; cbn in T; try discriminate; injection T as <-; cbn in Hfd; or_inv;
  cbn in Hr; inversion Hr.
Qed.

(** False in general: [type Node interface { Cmp[Node] }] is valid Go, but
    gowrap descends into the type argument for ever. *)
Definition node_list : list field := [emb (IndexE (Ident "Cmp") (Ident "Node"))].
Definition pnode : package :=
  Package "m" "m" [GoFile [iface "Node" node_list; giface "Cmp" ["T"] [meth "Less" [Ident "T"] [Ident "bool"]]] []] [] None.
Definition Wnode : world := world_of [("m", pnode)].

Lemma embedded_ident Or W fuel path n c inp :
  processEmbedded Or W (S fuel) path (Ident n) c inp =
  (let? name := flift (PrintType Or (ti_types inp) (ti_prefix inp) (Ident n)) in
   let? ms := match find_type n (ti_types inp) with
              | None => fret None
              | Some ts =>
                  match ts_type ts with
                  | InterfaceT l =>
                      let? gts := flift (buildGenericTypesFromSpec ts (ti_types inp) (ti_prefix inp)) in
                      processInterface Or W fuel (0 :: path) l (set_gtypes gts (set_gparams [] inp))
                  | _ => if c then ferr (Wrapped (ts_name ts) errNotAnInterface) else fret None
                  end
              end in
   fret (GParam name [], ms)).
Proof. reflexivity. Qed.

Lemma embedded_index Or W fuel path x i c inp :
  processEmbedded Or W (S fuel) path (IndexE x i) c inp =
  fbind (fbind (processEmbedded Or W fuel (1 :: path) i false inp)
               (fun pm => fret (x, Some (if String.eqb (gp_name (fst pm)) "" then [] else [fst pm]))))
        (fun xg => processEmbedded Or W (S fuel) path (IndexE x i) c inp).
Proof.
  cbn [processEmbedded args_loop].
  destruct (processEmbedded Or W fuel (1 :: path) i false inp) as [[?| |]|]; reflexivity.
Qed.

Lemma interface_single Or W fuel path t inp : is_method (emb t) = false ->
  processEmbedded Or W fuel (0 :: path) t true inp = None ->
  processInterface Or W (S fuel) path (Some [emb t]) inp = None.
Proof.
  intros H1 H2. change (processInterface Or W (S fuel) path (Some [emb t]) inp) with
    (fbind (interface_loop (NewMethod Or (PrintType Or (ti_types inp) (ti_prefix inp)) (ti_gtypes inp) (ti_gparams inp))
              (fun i e => processEmbedded Or W fuel (i :: path) e true inp) 0 [emb t] [])
           (fun m => fret (Some m))).
  rewrite interface_loop_emb by exact H1. cbn [emb f_type]. now rewrite H2.
Qed.

Lemma node_diverges n : forall path inp, ti_types inp = gf_types (nth 0 (pk_files pnode) (GoFile [] [])) ->
  processInterface Oex Wnode n path (Some node_list) inp = None.
Proof.
  induction n as [n IH] using (well_founded_induction lt_wf). intros path inp E.
  destruct n as [|n]; [reflexivity|]. apply interface_single; [reflexivity|].
  destruct n as [|n]; [reflexivity|]. rewrite embedded_index.
  destruct n as [|n]; [reflexivity|]. rewrite embedded_ident.
  destruct (PrintType Oex (ti_types inp) (ti_prefix inp) (Ident "Node")) as [s| |] eqn:EP; cbn [flift fbind].
  - replace (find_type "Node" (ti_types inp)) with (Some (iface "Node" node_list)) by (rewrite E; reflexivity).
    cbn [iface ts_type buildGenericTypesFromSpec ts_tparams flift fbind].
    rewrite IH; [reflexivity | lia | exact E].
  - exfalso. revert EP. rewrite PrintType_pt, E. cbn. now destruct (String.eqb (ti_prefix inp) "").
  - exfalso. revert EP. rewrite PrintType_pt, E. cbn. now destruct (String.eqb (ti_prefix inp) "").
Qed.

Theorem C15_refuted : ~ C15_statement.
Proof.
  intros H.
  destruct (H Oex Wnode pnode "" "Node") as (n & v & Hn).
  - intros; apply Permutation_refl.
  - intros; apply Permutation_refl.
  - intros p [(id & E)|(path & E)]; [cbn in E | unfold Wnode, world_of in E; cbn in E];
    destruct (String.eqb _ "m"); try discriminate; injection E as <-; constructor.
  - left. now exists "m".
  - destruct n as [|[|n]]; try discriminate.
    assert (HT : findTarget Oex Wnode (S (S n)) [] pnode "" "Node" [] =
      fbind (processInterface Oex Wnode n [] (Some node_list)
              (TInput pnode "" (gf_types (nth 0 (pk_files pnode) (GoFile [] []))) []
                 (gf_types (nth 0 (pk_files pnode) (GoFile [] []))) [] []))
            (fun ms => fret (Output [] ms []))) by reflexivity.
    rewrite HT, node_diverges in Hn by reflexivity. discriminate.
Qed.

(** ** C16, once more: type arguments are not composed through two levels *)
Definition pnest : package :=
  Package "m" "m"
    [GoFile [giface "B" ["Y"] [meth "Get" [] [Ident "Y"]];
             giface "A" ["X"] [emb (IndexE (Ident "B") (Ident "X"))];
             iface "C" [emb (IndexE (Ident "A") (Ident "int"))]] []] [] None.
(** C's Get returns int; gowrap says X. *)
Theorem C16_nested_refuted : exists out m,
  findTarget Oex (world_of [("m", pnest)]) 20 [] pnest "" "C" [] = Some (Ok out) /\
  match out_methods out with Some ms => assoc "Get" ms = Some m | None => False end /\
  map p_type (m_results m) = ["X"].
Proof. eexists. eexists. split; [vm_compute; reflexivity|]. split; vm_compute; reflexivity. Qed.

(** One level works through the whole pipeline. *)
Example C16_one_level : exists out m,
  findTarget Oex Wex 20 [] pmain "src" "Store" [] = Some (Ok out) /\
  match out_methods out with Some ms => assoc "Put" ms = Some m | None => False end /\
  map p_type (m_params m) = ["src.Item"].
Proof. eexists. eexists. split; [vm_compute; reflexivity|]. split; vm_compute; reflexivity. Qed.

Print Assumptions C12_method_set_partial.
Print Assumptions C12_no_duplicates.
Print Assumptions C12_refuted.
Print Assumptions C12_unresolved_dropped_refuted.
Print Assumptions C12_error_refuted.
Print Assumptions C12_dot_import_refuted.
Print Assumptions C12_wrong_file_imports_refuted.
Print Assumptions C13_own_declaration_wins.
Print Assumptions C13_first_embedded_wins.
Print Assumptions C13_no_loss_no_invention.
Print Assumptions C14_order_irrelevant.
Print Assumptions C14_duplicate_types_refuted.
Print Assumptions C14_duplicate_packages_refuted.
Print Assumptions C15_terminates_partial.
Print Assumptions C15_refuted.
Print Assumptions C16_nested_refuted.
