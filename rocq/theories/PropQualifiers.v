(** C70: qualifiers are resolved to the packages Go resolves them to
    (generator.go:378, 418-436, 591-599, 668-682). *)
From Coq Require Import Permutation.
From Verif Require Import Generator GeneratorProofs ResolveSpec QualifierProofs ResolveProofs PropResolve.
Open Scope nat_scope.

(** ** Statement *)

(** type T q.B: the package loaded for q *)
Definition resolves_defined (W : world) (f : gofile) (q : string) (p' : package) : Prop :=
  w_load W (findSourcePackage q (gf_imports f)) = Ok p'.
(** an embedded q.B, whatever the order in which the map of imports is iterated *)
Definition resolves_embedded (W : world) (p : package) (f : gofile) (q : string) (p' : package) : Prop :=
  forall path, exists ip id, findImportPathForName W path q (gf_imports f) p = Ok ip /\ assoc ip (pk_imports p) = Some id /\ w_pkg W id = Some p'.

(** imports of the file are imports of the package, loading their paths gives
    the same packages, and no two of them have the same name (Go rules) *)
Record go_file (W : world) (p : package) (f : gofile) : Prop := {
  gf_keys : NoDup (keys (pk_imports p));
  gf_order : forall path, Permutation (rnd_imports W path p) (pk_imports p);
  gf_resolved : forall i, In i (gf_imports f) -> exists path id p', im_path i = quoted path /\ quoteless path = true /\
    assoc path (pk_imports p) = Some id /\ w_pkg W id = Some p' /\ w_load W path = Ok p';
  gf_distinct : forall i i' path path' q p1 p1' id id', q <> "." -> q <> "_" -> In i (gf_imports f) -> In i' (gf_imports f) ->
    im_path i = quoted path -> assoc path (pk_imports p) = Some id -> w_pkg W id = Some p1 -> (im_name i = Some q \/ im_name i = None /\ pk_name p1 = q) ->
    im_path i' = quoted path' -> assoc path' (pk_imports p) = Some id' -> w_pkg W id' = Some p1' -> (im_name i' = Some q \/ im_name i' = None /\ pk_name p1' = q) ->
    path = path'
}.
Definition C70_statement : Prop := forall W p f q p', q <> "." -> q <> "_" -> go_file W p f -> import_of W p f q p' ->
  resolves_defined W f q p' /\ resolves_embedded W p f q p'.

(** ** Proof *)

(** findSourcePackage, exactly: the first import with that name or, without a
    name, that last path element *)
Theorem C70_first_match : forall q l, (forall i, In i l -> plain_import i) ->
  (exists l1 i l2 path, l = l1 ++ i :: l2 /\ (forall i', In i' l1 -> ~ guessed i' q) /\ guessed i q /\ im_path i = quoted path /\
     findSourcePackage q l = path) \/
  ((forall i, In i l -> ~ guessed i q) /\ findSourcePackage q l = "").
Proof.
  intros q l. induction l as [|i l IH]; intros HP; [right; split; [intros ? []|reflexivity]|].
  assert (HPi := HP i (or_introl eq_refl)). pose proof HPi as (path & E1 & E2).
  rewrite find_source_first in *. cbn [find]. destruct (String.eqb_spec q (guess i)) as [E|N].
  - left. exists [], i, l, path. split; [reflexivity|]. split; [intros ? []|]. split; [now apply guess_guessed|]. split; [exact E1|].
    rewrite E1. now apply trim_quoted.
  - assert (Ng : ~ guessed i q) by (intros H; apply (guess_guessed i q HPi) in H; congruence).
    destruct IH as [(l1 & j & l2 & path' & -> & H1 & H2 & H3 & H4)|(H1 & H2)]; [now intros; apply HP; right|left|right].
    + exists (i :: l1), j, l2, path'. split; [reflexivity|]. split; [intros i' [<-|Hi']; auto|]. auto.
    + split; [intros i' [<-|Hi']; auto|exact H2].
Qed.

(** A file whose imports without a name have the names of their last path
    elements: qualifiers of type definitions are resolved as in Go. *)
Theorem C70_defined_partial : forall W p f q p', q <> "." -> q <> "_" -> go_file W p f -> import_of W p f q p' ->
  (forall i path id p1, In i (gf_imports f) -> im_name i = None -> im_path i = quoted path -> assoc path (pk_imports p) = Some id ->
     w_pkg W id = Some p1 -> last_element path (pk_name p1)) ->
  resolves_defined W f q p'.
Proof.
  intros W p f q p' Nd Nb GF (i & path & id & Hi & Hp & Hq & Ha & Hw) HC. unfold resolves_defined.
  destruct (gf_resolved _ _ _ GF i Hi) as (path' & id' & p1 & E1 & E2 & E3 & E4 & E5).
  rewrite Hp in E1. apply quoted_inj in E1. subst path'. rewrite Ha in E3. injection E3 as <-. rewrite Hw in E4. injection E4 as <-.
  rewrite (find_source_unique q (gf_imports f) i path); [exact E5| |exact Hi| |exact Hp|].
  - intros j Hj. destruct (gf_resolved _ _ _ GF j Hj) as (pj & ? & ? & ? & ? & _). now exists pj.
  - destruct Hq as [Hq|[Hn <-]]; [now left|]. right. split; [exact Hn|]. exists path. split; [exact Hp|]. eapply HC; eauto.
  - intros j Hj Hg. destruct (gf_resolved _ _ _ GF j Hj) as (pj & idj & p2 & F1 & F2 & F3 & F4 & F5).
    rewrite Hp, F1. f_equal. symmetry.
    eapply (gf_distinct _ _ _ GF i j); eauto.
    destruct Hg as [Hg|[Hn (pj' & Hg & HL)]]; [now left|]. right. split; [exact Hn|].
    rewrite F1 in Hg. apply quoted_inj in Hg. subst pj'. pose proof (HC j pj idj p2 Hj Hn F1 F3 F4) as HL2.
    apply last_element_unique in HL. apply last_element_unique in HL2. congruence.
Qed.

(** A package that imports only one package called [q], or a name [q] given in
    the file: embedded qualifiers are resolved as in Go. *)
Theorem C70_embedded_partial : forall W p f q p', q <> "." -> q <> "_" -> go_file W p f -> import_of W p f q p' ->
  (exists i, In i (gf_imports f) /\ im_name i = Some q) \/
  (forall path id p1, In (path, id) (pk_imports p) -> w_pkg W id = Some p1 -> pk_name p1 = q -> p1 = p') ->
  resolves_embedded W p f q p'.
Proof.
  intros W p f q p' Nd Nb GF (i & path & id & Hi & Hp & Hq & Ha & Hw) HC order. unfold findImportPathForName.
  destruct (alias_path q (gf_imports f)) as [r|] eqn:E.
  - destruct (alias_path_In _ _ _ E) as (j & Hj & Hn & ->).
    destruct (gf_resolved _ _ _ GF j Hj) as (pj & idj & p2 & F1 & F2 & F3 & F4 & F5).
    assert (path = pj) by (eapply (gf_distinct _ _ _ GF i j); eauto). subst pj.
    exists path, id. rewrite F1, unquote_quoted. auto.
  - assert (HN : forall j, In j (gf_imports f) -> im_name j <> Some q).
    { clear -E. induction (gf_imports f) as [|x l IH]; [intros ? []|]. cbn in E. intros j [<-|Hj].
      - destruct (im_name x) as [n|]; [|discriminate]. destruct (String.eqb_spec n q); [discriminate|congruence].
      - apply IH; [|exact Hj]. destruct (im_name x) as [n|]; [destruct (String.eqb n q); [discriminate|]|]; exact E. }
    destruct HC as [(j & Hj & Hn)|HC]; [now destruct (HN j Hj)|].
    destruct Hq as [Hq|[Hn Hq]]; [now destruct (HN i Hi)|].
    assert (HI : In (path, id) (rnd_imports W order p)).
    { eapply Permutation_in; [symmetry; apply (gf_order _ _ _ GF)|]. clear -Ha. revert Ha. induction (pk_imports p) as [|[a b] l IH]; cbn; [discriminate|].
      destruct (String.eqb_spec path a) as [->|]; [intros [= ->]; now left | right; auto]. }
    destruct (path_by_name W q (rnd_imports W order p)) as [ip|] eqn:F.
    + destruct (path_by_name_In _ _ _ _ F) as (id2 & p2 & G1 & G2 & G3).
      apply (Permutation_in _ (gf_order _ _ _ GF order)) in G1.
      exists ip, id2. split; [reflexivity|]. split; [apply In_assoc; [apply (gf_keys _ _ _ GF)|exact G1]|].
      now rewrite (HC ip id2 p2 G1 G2 G3) in G2.
    + exfalso. clear -F HI Hw Hq. induction (rnd_imports W order p) as [|[a b] l IH]; [destruct HI|]. cbn in F.
      destruct HI as [[= -> ->]|HI].
      * rewrite Hw in F. now rewrite Hq, String.eqb_refl in F.
      * destruct (w_pkg W b) as [x|]; [destruct (String.eqb (pk_name x) q); [discriminate|]|]; auto.
Qed.

(** ** Refutations *)

(** import "gopkg.in/yaml.v2"; type M yaml.Marshaler: package yaml is not
    found, pkg.Load gets the empty path *)
Definition pyaml : package := Package "gopkg.in/yaml.v2" "yaml" [GoFile [iface "Marshaler" [meth "Marshal" [] [Ident "error"]]] []] [] None.
Definition fyaml : gofile := GoFile [TypeSpec "M" None (Selector (Ident "yaml") "Marshaler")] [ImportSpec None (quoted "gopkg.in/yaml.v2")].
Definition puse : package := Package "m" "m" [fyaml] [("gopkg.in/yaml.v2", "gopkg.in/yaml.v2")] None.
Definition Wyaml : world := world_of [("gopkg.in/yaml.v2", pyaml); ("m", puse)].
Ltac go_file_ex :=
  constructor; [vm_compute; repeat (apply NoDup_cons; [cbn; intuition discriminate|]); apply NoDup_nil | intros; apply Permutation_refl
   | intros i Hi; cbn in Hi; or_inv; eexists _, _, _; (split; [reflexivity|]); vm_compute; auto
   | intros i i' path path' q p1 p1' id id' Nd Nb Hi Hi' Hp Ha Hw Hq Hp' Ha' Hw' Hq'; cbn in Hi, Hi'; or_inv; cbn [im_path] in Hp, Hp';
     apply quoted_inj in Hp; apply quoted_inj in Hp'; subst path path'; cbn in Ha, Ha'; injection Ha as <-; injection Ha' as <-; cbn in Hw, Hw';
     injection Hw as <-; injection Hw' as <-; cbn in *; intuition congruence].
Example go_file_yaml : go_file Wyaml puse fyaml.
Proof. go_file_ex. Qed.
Example import_of_yaml : import_of Wyaml puse fyaml "yaml" pyaml.
Proof. eexists _, _, _. split; [now left|]. split; [reflexivity|]. split; [now right|]. split; reflexivity. Qed.
Theorem C70_version_refuted : ~ C70_statement /\ findSourcePackage "yaml" (gf_imports fyaml) = "" /\
  in_set Wyaml puse "M" "Marshal" /\
  exists e, findTarget Oex Wyaml 20 [] puse "" "M" [] = Some (Err e).
Proof.
  split; [|split; [reflexivity|split]].
  - intros H. destruct (H Wyaml puse fyaml "yaml" pyaml ltac:(intros D; discriminate D) ltac:(intros D; discriminate D) go_file_yaml import_of_yaml) as [H1 _]. discriminate H1.
  - eapply (is_def_imported Wyaml puse fyaml (nth 0 (gf_types fyaml) (iface "" []))); [split; now left|reflexivity|exact import_of_yaml|].
    eapply (is_own Wyaml pyaml (nth 0 (pk_files pyaml) (GoFile [] [])) (iface "Marshaler" [meth "Marshal" [] [Ident "error"]])); [split; now left|reflexivity|now left|reflexivity|reflexivity].
  - eexists. vm_compute. reflexivity.
Qed.

(** import "a/dep" (package other) and import "b/real" (package dep): dep.B is
    looked for in package other *)
Definition pother : package := Package "a/dep" "other" [GoFile [iface "B" [meth "Wrong" [] []]] []] [] None.
Definition preal : package := Package "b/real" "dep" [GoFile [iface "B" [meth "Right" [] []]] []] [] None.
Definition fboth : gofile := GoFile [TypeSpec "T" None (Selector (Ident "dep") "B")] [ImportSpec None (quoted "a/dep"); ImportSpec None (quoted "b/real")].
Definition pboth : package := Package "m" "m" [fboth] [("a/dep", "a/dep"); ("b/real", "b/real")] None.
Definition Wboth : world := world_of [("a/dep", pother); ("b/real", preal); ("m", pboth)].
Example go_file_both : go_file Wboth pboth fboth.
Proof. go_file_ex. Qed.
Example import_of_both : import_of Wboth pboth fboth "dep" preal.
Proof. eexists _, "b/real", _. split; [right; now left|]. split; [reflexivity|]. split; [now right|]. split; reflexivity. Qed.
Theorem C70_other_package_refuted : resolves_defined Wboth fboth "dep" pother /\ ~ resolves_defined Wboth fboth "dep" preal /\
  in_set Wboth pboth "T" "Right" /\
  exists out, findTarget Oex Wboth 20 [] pboth "" "T" [] = Some (Ok out) /\ opt_keys (out_methods out) = ["Wrong"].
Proof.
  split; [reflexivity|]. split; [discriminate|]. split.
  - eapply (is_def_imported Wboth pboth fboth (nth 0 (gf_types fboth) (iface "" []))); [split; now left|reflexivity|exact import_of_both|].
    eapply (is_own Wboth preal (nth 0 (pk_files preal) (GoFile [] [])) (iface "B" [meth "Right" [] []])); [split; now left|reflexivity|now left|reflexivity|reflexivity].
  - eexists. split; vm_compute; reflexivity.
Qed.

(** import x "a/dep" and import "b/dep", both packages called dep: an embedded
    dep.B is looked for in the one the map of imports happens to yield first *)
Definition pdepa : package := Package "a/dep" "dep" [GoFile [iface "B" [meth "Wrong" [] []]] []] [] None.
Definition pdepb : package := Package "b/dep" "dep" [GoFile [iface "B" [meth "Right" [] []]] []] [] None.
Definition fsame : gofile := GoFile [iface "T" [emb (Selector (Ident "dep") "B")]] [ImportSpec (Some "x") (quoted "a/dep"); ImportSpec None (quoted "b/dep")].
Definition psame : package := Package "m" "m" [fsame] [("a/dep", "a/dep"); ("b/dep", "b/dep")] None.
Definition Wsame : world := world_of [("a/dep", pdepa); ("b/dep", pdepb); ("m", psame)].
Example go_file_same : go_file Wsame psame fsame.
Proof. go_file_ex. Qed.
Example import_of_same : import_of Wsame psame fsame "dep" pdepb.
Proof. eexists _, "b/dep", _. split; [right; now left|]. split; [reflexivity|]. split; [now right|]. split; reflexivity. Qed.
Theorem C70_same_name_refuted : ~ resolves_embedded Wsame psame fsame "dep" pdepb /\ in_set Wsame psame "T" "Right" /\
  exists out, findTarget Oex Wsame 20 [] psame "" "T" [] = Some (Ok out) /\ opt_keys (out_methods out) = ["Wrong"].
Proof.
  split; [|split].
  - intros H. destruct (H []) as (ip & id & H1 & H2 & H3). vm_compute in H1. injection H1 as <-. vm_compute in H2. injection H2 as <-. discriminate H3.
  - eapply (is_embed_imported Wsame psame fsame (nth 0 (gf_types fsame) (iface "" []))); [split; now left|reflexivity|now left|reflexivity|exact import_of_same|].
    eapply (is_own Wsame pdepb (nth 0 (pk_files pdepb) (GoFile [] [])) (iface "B" [meth "Right" [] []])); [split; now left|reflexivity|now left|reflexivity|reflexivity].
  - eexists. split; vm_compute; reflexivity.
Qed.

(** ** Examples *)
Example C70_conventional : import_of Wex pmain (nth 1 (pk_files pmain) (GoFile [] [])) "io" pio /\
  resolves_defined Wex (nth 1 (pk_files pmain) (GoFile [] [])) "io" pio /\ last_element "io" (pk_name pio) /\ last_element "encoding/json" "json".
Proof.
  split; [eexists _, "io", _; split; [now left|]; split; [reflexivity|]; split; [now right|]; split; reflexivity|].
  split; [reflexivity|]. split; (split; [reflexivity|]); [now left|]. right. exists "encoding". reflexivity.
Qed.
Example C70_find_ex : findSourcePackage "json" [ImportSpec None (quoted "io"); ImportSpec (Some "j") (quoted "encoding/xml"); ImportSpec None (quoted "encoding/json")] = "encoding/json".
Proof. reflexivity. Qed.

Print Assumptions C70_first_match.
Print Assumptions C70_defined_partial.
Print Assumptions C70_embedded_partial.
Print Assumptions C70_version_refuted.
Print Assumptions C70_other_package_refuted.
Print Assumptions C70_same_name_refuted.
