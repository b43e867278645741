(** C61: what gowrap says when an interface cannot be resolved or a generator
    cannot be made.  The texts are those of the source, written out here. *)
From Coq Require Import Permutation.
From Verif Require Import Generator NewGen PrinterProofs GeneratorProofs ResolveSpec ResolveProofs PropResolve.
Open Scope nat_scope.

(** The text of an error: errors.Wrap(err, msg).Error() is "msg: err". *)
Fixpoint says (e : gerr) : string :=
  match e with
  | Sentinel s => s
  | Wrapped m e => (m ++ ": " ++ says e)%string
  end.

(** ** Resolution *)

(** A target no file of the package declares. *)
Theorem C61_target_not_found : forall Or W n path p a T g,
  Permutation (rnd_files W path p) (pk_files p) ->
  (forall f ts, In f (pk_files p) -> In ts (gf_types f) -> ts_name ts <> T) ->
  exists e, findTarget Or W (S n) path p a T g = Some (Err e) /\
            says e = (T ++ ": target declaration not found")%string.
Proof.
  intros Or W n path p a T g HP H. cbn [findTarget]. rewrite iterateFiles_eq.
  assert (E : fold_left (sel_step T) (rnd_files W path p) None = None).
  { assert (K : forall f ts, In f (rnd_files W path p) -> In ts (gf_types f) -> ts_name ts <> T).
    { intros f ts Hf. apply H. eapply Permutation_in; eauto. }
    clear H HP. induction (rnd_files W path p) as [|f l IH]; [reflexivity|]. cbn [fold_left].
    assert (sel_step T None f = None) as ->; [|apply IH; intros f' ts Hf' Hts; exact (K f' ts (or_intror Hf') Hts)].
    assert (K' : forall ts, In ts (gf_types f) -> ts_name ts <> T) by (intros ts; apply K; now left).
    clear K IH. unfold sel_step. induction (gf_types f) as [|ts l' IH]; [reflexivity|]. cbn.
    destruct (String.eqb_spec (ts_name ts) T) as [E|]; [elim (K' ts); [now left | exact E]|].
    apply IH. intros; apply K'; now right. }
  rewrite E. eexists. split; reflexivity.
Qed.

(** A qualifier [q] that the file gives to no import and that is the name of no
    package the package imports. *)
Definition no_package (W : world) (imports : list importspec) (p : package) (q : string) : Prop :=
  (forall i, In i imports -> im_name i <> Some q) /\
  (forall path id p', In (path, id) (pk_imports p) -> w_pkg W id = Some p' -> pk_name p' <> q).

(** Embedding [q.T] when [q] is no package. *)
Theorem C61_unknown_package : forall Or W n path q T check inp,
  Permutation (rnd_imports W path (ti_pkg inp)) (pk_imports (ti_pkg inp)) ->
  no_package W (ti_imports inp) (ti_pkg inp) q ->
  exists e, processEmbedded Or W (S n) path (Selector (Ident q) T) check inp = Some (Err e) /\
            says e = ("unable to find package " ++ q ++ ": " ++ q ++ ": unknown selector")%string.
Proof.
  intros Or W n path q T check inp HP (Ha & Hn). cbn [processEmbedded fbind fret fst snd].
  assert (E : alias_path q (ti_imports inp) = None).
  { clear -Ha. induction (ti_imports inp) as [|i l IH]; [reflexivity|]. cbn.
    destruct (im_name i) as [m|] eqn:E; [|apply IH; intros; apply Ha; now right].
    destruct (String.eqb_spec m q) as [->|]; [elim (Ha i); [now left | exact E]|].
    apply IH; intros; apply Ha; now right. }
  assert (E' : path_by_name W q (rnd_imports W path (ti_pkg inp)) = None).
  { assert (K : forall path' id p', In (path', id) (rnd_imports W path (ti_pkg inp)) -> w_pkg W id = Some p' -> pk_name p' <> q).
    { intros path' id p' Hi. apply (Hn path'). eapply Permutation_in; eauto. }
    clear -K. induction (rnd_imports W path (ti_pkg inp)) as [|[pa id] l IH]; [reflexivity|]. cbn.
    specialize (IH (fun a b c h => K a b c (or_intror h))).
    destruct (w_pkg W id) as [p'|] eqn:E; [|exact IH].
    destruct (String.eqb_spec (pk_name p') q) as [Eq|]; [|exact IH].
    elim (K pa id p'); [now left | exact E | exact Eq]. }
  eexists. split.
  - unfold flift, findImportPathForName. rewrite E, E'. reflexivity.
  - cbn [says]. unfold errUnknownSelector. cbn [says]. now rewrite !sapp_assoc.
Qed.

(** Embedding a type of the package that is not written as an interface. *)
Theorem C61_not_an_interface : forall Or W n path T inp ts s,
  find_type T (ti_types inp) = Some ts -> (forall l, ts_type ts <> InterfaceT l) ->
  PrintType Or (ti_types inp) (ti_prefix inp) (Ident T) = Ok s ->
  exists e, processEmbedded Or W (S n) path (Ident T) true inp = Some (Err e) /\
            says e = (T ++ ": embedded type is not an interface")%string.
Proof.
  intros Or W n path T inp ts s Hf Hi Hp. cbn [processEmbedded fbind fret fst snd].
  unfold flift. rewrite Hp. cbn [fbind]. rewrite Hf.
  assert (ts_name ts = T).
  { clear -Hf. induction (ti_types inp) as [|t l IH]; [discriminate|]. cbn in Hf.
    destruct (String.eqb_spec (ts_name t) T); [congruence | auto]. }
  destruct (ts_type ts) eqn:E; try (subst; eexists; split; reflexivity). eelim Hi; reflexivity.
Qed.

(** ** NewGenerator *)

Definition templates_parse (E : env) (o : options) : Prop :=
  e_parse E (op_header o) = None /\ e_parse E (op_body o) = None.
Definition source_is (W : world) (o : options) (src : package) : Prop :=
  op_instance o = Some src \/ op_instance o = None /\ w_load W (op_source o) = Ok src.

(** everything is loaded: the source and the package of the output directory *)
Definition loaded (E : env) (W : world) (o : options) (src : package) (dst : string * string) : Prop :=
  templates_parse E o /\ source_is W o src /\
  loadDestinationPackage W (dstPackagePath (op_output o)) = Ok dst.

(** the name the source package goes by in the generated file *)
Inductive goes_by (E : env) (o : options) (src : package) (dst : string * string) : string -> Prop :=
| Same : pk_path src = snd dst -> goes_by E o src dst ""
| Given : pk_path src <> snd dst -> op_alias o <> "" -> goes_by E o src dst (op_alias o)
| Made : pk_path src <> snd dst -> op_alias o = "" ->
    goes_by E o src dst ("_source" ++ e_title E (pk_name src)).

(** Why a generator is not made: the causes in the order they are looked for,
    each with its text. *)
Inductive refuses (Or : oracle) (E : env) (W : world) (n : nat) (o : options) : string -> Prop :=
| R_header e : e_parse E (op_header o) = Some e ->
    refuses Or E W n o ("failed to parse header template: " ++ says e)
| R_body e : e_parse E (op_header o) = None -> e_parse E (op_body o) = Some e ->
    refuses Or E W n o ("failed to parse body template: " ++ says e)
| R_source e : templates_parse E o -> op_instance o = None -> w_load W (op_source o) = Err e ->
    refuses Or E W n o ("failed to load source package: " ++ says e)
| R_destination src e : templates_parse E o -> source_is W o src ->
    w_load W (dstPackagePath (op_output o)) = Err e ->
    (Base (dstPackagePath (op_output o)) = "/" \/ Base (dstPackagePath (op_output o)) = ".") ->
    refuses Or E W n o ("failed to load destination package: " ++ dstPackagePath (op_output o) ++
                        ": failed to determine the destination package name")
| R_ast src dst e : loaded E W o src dst -> pk_ast_err src = Some e ->
    refuses Or E W n o ("failed to parse source package: " ++ says e)
| R_target src dst e a : loaded E W o src dst -> pk_ast_err src = None -> goes_by E o src dst a ->
    findTarget Or W n [] src a (op_interface o) [] = Some (Err e) ->
    refuses Or E W n o ("failed to parse interface declaration: " ++ says e)
| R_empty src dst out a : loaded E W o src dst -> pk_ast_err src = None -> goes_by E o src dst a ->
    findTarget Or W n [] src a (op_interface o) [] = Some (Ok out) ->
    (out_methods out = None \/ out_methods out = Some []) ->
    refuses Or E W n o "interface has no methods"
| R_unexported src dst out a before k m after : loaded E W o src dst -> pk_ast_err src = None ->
    goes_by E o src dst a -> a <> "" ->
    findTarget Or W n [] src a (op_interface o) [] = Some (Ok out) ->
    (exists ms, out_methods out = Some ms /\ ms <> [] /\ e_order E ms = before ++ (k, m) :: after) ->
    Forall (fun km => looks_unexported (o_lower Or) (m_name (snd km)) = Ok false) before ->
    looks_unexported (o_lower Or) (m_name m) = Ok true ->
    refuses Or E W n o (m_name m ++ ": unexported method").

Definition qualifier (E : env) (o : options) (src : package) (dp : string) : string :=
  if String.eqb (pk_path src) dp then ""
  else if negb (String.eqb (op_alias o) "") then op_alias o
  else ("_source" ++ e_title E (pk_name src))%string.

Lemma qualifier_goes_by E o src dst : goes_by E o src dst (qualifier E o src (snd dst)).
Proof.
  unfold qualifier. destruct (String.eqb_spec (pk_path src) (snd dst)); [now apply Same|].
  destruct (String.eqb_spec (op_alias o) ""); cbn; [now apply Made | now apply Given].
Qed.
Lemma goes_by_qualifier E o src dst a : goes_by E o src dst a -> a = qualifier E o src (snd dst).
Proof.
  unfold qualifier. intros [H|H H'|H H'].
  - now rewrite H, String.eqb_refl.
  - apply String.eqb_neq in H, H'. now rewrite H, H'.
  - apply String.eqb_neq in H. now rewrite H, H'.
Qed.

Lemma check_exported_out lower l :
  match check_exported lower l with
  | Ok _ => Forall (fun km => looks_unexported lower (m_name (snd km)) = Ok false) l
  | Err e => exists before k m after, l = before ++ (k, m) :: after /\
      Forall (fun km => looks_unexported lower (m_name (snd km)) = Ok false) before /\
      looks_unexported lower (m_name m) = Ok true /\ e = Wrapped (m_name m) (Sentinel "unexported method")
  | Panic _ => True
  end.
Proof.
  induction l as [|[k m] l IH]; cbn; [constructor|].
  destruct (looks_unexported lower (m_name m)) as [[|]|e|p] eqn:E; cbn.
  - exists [], k, m, l. repeat split; auto.
  - destruct (check_exported lower l) as [u|e|p]; [now constructor | | exact I].
    destruct IH as (b & k' & m' & af & -> & Hb & Hm & ->). exists ((k, m) :: b), k', m', af.
    repeat split; auto.
  - unfold looks_unexported, rune0 in E. destruct (runes (m_name m)); [discriminate|]. cbn in E.
    destruct (runes (go_lower lower (m_name m))); discriminate.
  - exact I.
Qed.

(** A refusal has one of the causes above, with its text. *)
Theorem C61_refused : forall Or E W n o e,
  NewGenerator Or E W n o = Some (Err e) -> refuses Or E W n o (says e).
Proof.
  intros Or E W n o e H. unfold NewGenerator in H.
  destruct (e_parse E (op_header o)) as [e1|] eqn:E1; cbn [fbind fret flift rwrap fwrap ferr] in H.
  { inversion H; subst. cbn [says]. now apply R_header. }
  destruct (e_parse E (op_body o)) as [e2|] eqn:E2; cbn [fbind fret flift rwrap fwrap ferr] in H.
  { inversion H; subst. cbn [says]. now apply R_body. }
  assert (TP : templates_parse E o) by (now split).
  set (sl := match op_instance o with Some p => fret p
             | None => flift (rwrap "failed to load source package" (w_load W (op_source o))) end) in *.
  assert (S : match sl with
              | Some (Ok src) => source_is W o src
              | Some (Err e) => exists e', op_instance o = None /\ w_load W (op_source o) = Err e' /\
                                  e = Wrapped "failed to load source package" e'
              | _ => True end).
  { subst sl. unfold source_is. destruct (op_instance o) as [p|]; cbn; [now left|].
    destruct (w_load W (op_source o)) as [p|e'|]; cbn; eauto. }
  destruct sl as [[src|e3|]|]; cbn [fbind fret flift rwrap fwrap ferr] in H; try discriminate.
  2:{ inversion H; subst. destruct S as (e' & HI & HL & ->). cbn [says]. now apply R_source. }
  destruct (loadDestinationPackage W (dstPackagePath (op_output o))) as [dst|e4|] eqn:ED; cbn [fbind fret flift rwrap fwrap ferr] in H; try discriminate.
  2:{ inversion H; subst. cbn [says]. unfold loadDestinationPackage in ED.
      destruct (w_load W (dstPackagePath (op_output o))) as [p|e5|] eqn:EL; try discriminate.
      unfold makePackage in ED.
      destruct (String.eqb_spec (Base (dstPackagePath (op_output o))) "/") as [B|];
        [|destruct (String.eqb_spec (Base (dstPackagePath (op_output o))) ".") as [B|]; [|discriminate]];
        inversion ED; subst; (eapply (R_destination Or E W n o); [exact TP | exact S | exact EL | auto]). }
  assert (L : loaded E W o src dst) by (unfold loaded; auto).
  unfold ast_ok in H. destruct (pk_ast_err src) as [e6|] eqn:EA; cbn [fbind fret flift rwrap fwrap ferr] in H.
  { inversion H; subst. cbn [says]. eapply R_ast; eauto. }
  fold (qualifier E o src (snd dst)) in H. pose proof (qualifier_goes_by E o src dst) as G.
  set (a := qualifier E o src (snd dst)) in *.
  destruct (findTarget Or W n [] src a (op_interface o) []) as [[out|e7|]|] eqn:ET; cbn [fbind fret flift rwrap fwrap ferr] in H; try discriminate.
  2:{ injection H as <-. cbn [says]. eapply R_target; eauto. }
  destruct (out_methods out) as [[|km ms]|] eqn:EM.
  1,3: unfold ferr, errEmptyInterface in H; injection H as <-; cbn [says]; eapply R_empty; eauto.
  destruct (negb (String.eqb a "")) eqn:EN.
  - pose proof (check_exported_out (o_lower Or) (e_order E (km :: ms))) as C.
    destruct (check_exported (o_lower Or) (e_order E (km :: ms))) as [u|e8|]; cbn [fbind fret flift rwrap fwrap ferr] in H; try discriminate.
    + destruct (buildVars (out_gtypes out)); discriminate.
    + inversion H; subst. destruct C as (b & k & m & af & HO & HF & HU & ->).
      cbn [says]. eapply R_unexported; eauto.
      * intros Ha. rewrite Ha in EN. discriminate.
      * eexists. split; [exact EM | split; [discriminate | exact HO]].
  - cbn [fbind fret flift rwrap fwrap ferr] in H. destruct (buildVars (out_gtypes out)); discriminate.
Qed.

Lemma check_exported_first lower before k m after :
  Forall (fun km => looks_unexported lower (m_name (snd km)) = Ok false) before ->
  looks_unexported lower (m_name m) = Ok true ->
  check_exported lower (before ++ (k, m) :: after) = Err (Wrapped (m_name m) (Sentinel "unexported method")).
Proof.
  induction before as [|[k' m'] b IH]; intros Hb Hm; cbn.
  - now rewrite Hm.
  - inversion Hb; subst. cbn in H1. rewrite H1. cbn. now apply IH.
Qed.

(** And each cause is a refusal with that text. *)
Theorem C61_causes : forall Or E W n o t,
  refuses Or E W n o t -> exists e, NewGenerator Or E W n o = Some (Err e) /\ says e = t.
Proof.
  intros Or E W n o t H. unfold NewGenerator.
  assert (LS : forall src, source_is W o src ->
    match op_instance o with Some p => fret p
    | None => flift (rwrap "failed to load source package" (w_load W (op_source o))) end = Some (Ok src)).
  { intros src [->|(-> & ->)]; reflexivity. }
  destruct H as [e H1|e H1 H2|e (H1 & H2) H3 H4|src e (H1 & H2) HS HL HB
    |src dst e ((H1 & H2) & HS & HD) HA|src dst e a ((H1 & H2) & HS & HD) HA HG HT
    |src dst out a ((H1 & H2) & HS & HD) HA HG HT HM
    |src dst out a b k m af ((H1 & H2) & HS & HD) HA HG HN HT (ms & HM & Hne & HO) HF HU].
  - rewrite H1. eexists. split; reflexivity.
  - rewrite H1, H2. eexists. split; reflexivity.
  - rewrite H1, H2, H3, H4. eexists. split; reflexivity.
  - rewrite H1, H2. cbn [flift fbind]. rewrite (LS _ HS). cbn [fbind].
    unfold loadDestinationPackage. rewrite HL. unfold makePackage.
    assert (String.eqb (Base (dstPackagePath (op_output o))) "/" || String.eqb (Base (dstPackagePath (op_output o))) "." = true) as ->.
    { destruct HB as [-> | ->]; reflexivity. }
    cbn [fbind fret flift rwrap fwrap ferr]. eexists. split; [reflexivity|]. reflexivity.
  - rewrite H1, H2. cbn [flift fbind]. rewrite (LS _ HS). cbn [fbind]. rewrite HD. cbn [fbind fret flift rwrap fwrap ferr].
    unfold ast_ok. rewrite HA. cbn [fbind fret flift rwrap fwrap ferr]. eexists. split; reflexivity.
  - apply goes_by_qualifier in HG. subst a. rewrite H1, H2. cbn [flift fbind]. rewrite (LS _ HS). cbn [fbind].
    rewrite HD. cbn [fbind fret flift rwrap fwrap ferr]. unfold ast_ok. rewrite HA. cbn [fbind fret flift rwrap fwrap ferr]. fold (qualifier E o src (snd dst)). rewrite HT. cbn [fbind fret flift rwrap fwrap ferr].
    eexists. split; reflexivity.
  - apply goes_by_qualifier in HG. subst a. rewrite H1, H2. cbn [flift fbind]. rewrite (LS _ HS). cbn [fbind].
    rewrite HD. cbn [fbind fret flift rwrap fwrap ferr]. unfold ast_ok. rewrite HA. cbn [fbind fret flift rwrap fwrap ferr]. fold (qualifier E o src (snd dst)). rewrite HT. cbn [fbind fret flift rwrap fwrap ferr].
    destruct HM as [-> | ->]; eexists; split; reflexivity.
  - apply goes_by_qualifier in HG. subst a. rewrite H1, H2. cbn [flift fbind]. rewrite (LS _ HS). cbn [fbind].
    rewrite HD. cbn [fbind fret flift rwrap fwrap ferr]. unfold ast_ok. rewrite HA. cbn [fbind fret flift rwrap fwrap ferr]. fold (qualifier E o src (snd dst)). rewrite HT. cbn [fbind fret flift rwrap fwrap ferr].
    rewrite HM. destruct ms as [|km ms]; [now elim Hne|].
    apply String.eqb_neq in HN. rewrite HN. cbn [negb]. rewrite HO, check_exported_first by assumption.
    eexists. split; reflexivity.
Qed.

(** ** Examples *)

Definition Eex : env := Env (fun _ => None) (fun s => s) (fun l => l).
Definition opts (i out : string) : options := Options i [] "x/main" None "" out "" "" "".

(** no such interface; one that embeds a package that is not imported; one that
    embeds a struct; an output at the root *)
Definition pbad : package :=
  Package "x/bad" "bad"
    [GoFile [iface "A" [emb (Selector (Ident "nope") "Reader")];
             iface "B" [emb (Ident "S")]; TypeSpec "S" None (StructT []); iface "C" [];
             iface "D" [meth "close" [] []]] []] [] None.
Definition Wbad : world := world_of [("x/bad", pbad)].
Definition bopts (i out : string) : options := Options i [] "x/bad" None "" out "" "" "".
Definition why (o : options) : option string :=
  match NewGenerator Oex Eex Wbad 20 o with Some (Err e) => Some (says e) | _ => None end.

Example C61_example :
  why (bopts "Z" "/src/out/z.go") = Some "failed to parse interface declaration: Z: target declaration not found" /\
  why (bopts "A" "/src/out/z.go") =
    Some "failed to parse interface declaration: unable to find package nope: nope: unknown selector" /\
  why (bopts "B" "/src/out/z.go") =
    Some "failed to parse interface declaration: S: embedded type is not an interface" /\
  why (bopts "C" "/src/out/z.go") = Some "interface has no methods" /\
  why (bopts "D" "/src/out/z.go") = Some "close: unexported method" /\
  why (bopts "D" "/z.go") =
    Some "failed to load destination package: /: failed to determine the destination package name" /\
  why (opts "Z" "/src/out/z.go") = Some "failed to load source package: no such package".
Proof. vm_compute. repeat split. Qed.

Example C61_no_package : no_package Wbad (gf_imports (hd (GoFile [] []) (pk_files pbad))) pbad "nope".
Proof. split; cbn; intros; contradiction. Qed.

Print Assumptions C61_target_not_found.
Print Assumptions C61_unknown_package.
Print Assumptions C61_not_an_interface.
Print Assumptions C61_refused.
Print Assumptions C61_causes.
