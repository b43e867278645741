(** Properties C19-C21 and C53 of NewGenerator and Import. *)
From Coq Require Import Permutation Sorted.
From Verif Require Import NewGen NewGenSpec NewGenProofs PathProofs ImportProofs Utf8Proofs
  PrinterProofs GeneratorProofs ResolveSpec ResolveProofs PropResolve.
Open Scope nat_scope.

(** ** C19: no unexported method reaches another package *)

(** The Unicode tables: lower case of valid code points are valid code points,
    and a code point that has another lower case is an upper case letter. *)
Definition tables (lower : N -> N) (upper : N -> bool) : Prop :=
  (forall r, valid_rune r -> valid_rune (lower r)) /\
  (forall r, (128 <= r)%N -> lower r <> r -> upper r = true).

Lemma exported_of_test lower upper n : tables lower upper ->
  looks_unexported lower n = Ok false -> go_exported upper n.
Proof.
  intros (T1 & T2) H. destruct n as [|c s]; [vm_compute in H; discriminate|].
  destruct (runes_cons (String c s)) as (r & w & _ & l & E); [discriminate|].
  pose proof (runes_first_valid _ _ _ E) as V.
  assert (V' : valid_rune (rune_lower lower r)).
  { unfold rune_lower. destruct (N.ltb_spec r 128); [|auto]. unfold valid_rune, is_upper_ascii.
    destruct (in_range 65 90 r) eqn:E1; [apply in_range_iff in E1; lia | lia]. }
  rewrite (looks_unexported_rune _ _ _ _ E V') in H. injection H as H. apply N.eqb_neq in H.
  exists r, l. split; [exact E|]. unfold rune_lower in H. destruct (N.ltb_spec r 128).
  - unfold is_upper_ascii in H. destruct (in_range 65 90 r) eqn:E1; [now apply in_range_iff in E1 | congruence].
  - now apply T2.
Qed.

(** The full claim. *)
Definition C19_statement (upper : N -> bool) (lower : N -> N) : Prop := forall Or E W fuel o g,
  o_lower Or = lower -> (forall ms, Permutation (e_order E ms) ms) ->
  NewGenerator Or E W fuel o = Some (Ok g) ->
  g_methods g <> [] /\
  (pk_path (g_src g) <> g_dst_path g ->
   forall k m, In (k, m) (g_methods g) -> k = m_name m /\ go_exported upper (m_name m)).

(** It holds for tables in which only upper case letters have a different
    lower case. *)
Theorem C19_exported_partial : forall upper lower, tables lower upper -> C19_statement upper lower.
Proof.
  intros upper lower T Or E W fuel o g EL HP H. apply NewGenerator_inv in H.
  destruct H as (out & _ & _ & _ & _ & _ & Ht & Em & Hne & Hc & _). split; [exact Hne|].
  intros Hd k m Hi. pose proof (proj1 (results_named Or W fuel) _ _ _ _ _ _ Ht) as HN. rewrite Em in HN. cbn in HN.
  specialize (Hc Hd). apply check_exported_ok in Hc. split.
  - unfold named in HN. rewrite Forall_forall in HN. exact (HN _ Hi).
  - rewrite Forall_forall in Hc. rewrite EL in Hc. apply (exported_of_test lower); [exact T|].
    apply (Hc (k, m)). apply (Permutation_in _ (Permutation_sym (HP _)) Hi).
Qed.

(** For names that start with an ASCII byte nothing about the tables is
    needed. *)
Theorem C19_exported_ascii : forall Or E W fuel o g k m c s,
  (forall ms, Permutation (e_order E ms) ms) ->
  NewGenerator Or E W fuel o = Some (Ok g) -> pk_path (g_src g) <> g_dst_path g ->
  In (k, m) (g_methods g) -> m_name m = String c s -> (byte c < 128)%N ->
  (65 <= byte c <= 90)%N.
Proof.
  intros Or E W fuel o g k m c s HP H Hd Hi En Hc. apply NewGenerator_inv in H.
  destruct H as (out & _ & _ & _ & _ & _ & Ht & Em & Hne & Hx & _). specialize (Hx Hd). apply check_exported_ok in Hx.
  rewrite Forall_forall in Hx. specialize (Hx (k, m) (Permutation_in _ (Permutation_sym (HP _)) Hi)). cbn in Hx. rewrite En in Hx.
  pose proof (runes_cons_ascii c s Hc) as ER.
  assert (V : valid_rune (rune_lower (o_lower Or) (byte c))).
  { unfold rune_lower. destruct (N.ltb_spec (byte c) 128); [|lia]. unfold valid_rune, is_upper_ascii.
    destruct (in_range 65 90 (byte c)) eqn:E1; [apply in_range_iff in E1; lia | lia]. }
  rewrite (looks_unexported_rune _ _ _ _ ER V) in Hx. injection Hx as Hx. apply N.eqb_neq in Hx.
  unfold rune_lower in Hx. destruct (N.ltb_spec (byte c) 128); [|lia].
  unfold is_upper_ascii in Hx. destruct (in_range 65 90 (byte c)) eqn:E1; [now apply in_range_iff in E1 | congruence].
Qed.

(** In terms of the interface's method set (Go spec, see ResolveSpec.v). *)
Corollary C19_method_set_partial : forall upper lower Or E W fuel o g m,
  tables lower upper -> o_lower Or = lower -> (forall ms, Permutation (e_order E ms) ms) ->
  well_formed W -> known W (g_src g) ->
  NewGenerator Or E W fuel o = Some (Ok g) -> pk_path (g_src g) <> g_dst_path g ->
  in_set W (g_src g) (op_interface o) m -> go_exported upper m.
Proof.
  intros upper lower Or E W fuel o g m T EL HP WF K H Hd Hm.
  destruct (C19_exported_partial upper lower T Or E W fuel o g EL HP H) as (_ & HX).
  apply NewGenerator_inv in H. destruct H as (out & _ & _ & _ & _ & _ & Ht & Em & _).
  apply (C12_method_set_partial _ _ _ _ _ _ _ _ _ WF K Ht) in Hm. rewrite Em in Hm. cbn in Hm.
  unfold keys in Hm. rewrite in_map_iff in Hm. destruct Hm as ((k & mm) & <- & Hi). destruct (HX Hd _ _ Hi) as (-> & HE). exact HE.
Qed.

(** Rejections, whatever the order in which the map is visited. *)
Definition reaches_target (Or : oracle) (E : env) (W : world) (fuel : nat) (o : options) (src : package) (dn dp : string) (out : output) : Prop :=
  e_parse E (op_header o) = None /\ e_parse E (op_body o) = None /\
  (op_instance o = Some src \/ op_instance o = None /\ w_load W (op_source o) = Ok src) /\
  loadDestinationPackage W (dstPackagePath (op_output o)) = Ok (dn, dp) /\
  ast_ok src = Ok tt /\
  findTarget Or W fuel [] src (ast_name E o src dp) (op_interface o) [] = Some (Ok out).


Definition opt_methods (o : option methodsList) : methodsList := match o with Some m => m | None => [] end.

Lemma NewGenerator_reach Or E W fuel o src dn dp out : reaches_target Or E W fuel o src dn dp out ->
  exists g, g_src g = src /\ g_dst_name g = dn /\ g_dst_path g = dp /\ g_methods g = opt_methods (out_methods out) /\
  NewGenerator Or E W fuel o =
    match opt_methods (out_methods out) with
    | [] => Some (Err errEmptyInterface)
    | _ => match (if negb (String.eqb (ast_name E o src dp) "")
                  then check_exported (o_lower Or) (e_order E (opt_methods (out_methods out))) else Ok tt) with
           | Ok _ => Some (Ok g) | Err e => Some (Err e) | Panic m => Some (Panic m)
           end
    end.
Proof.
  intros (H1 & H2 & H3 & H4 & H5 & H6). unfold NewGenerator. rewrite H1, H2.
  assert (match op_instance o with Some p => fret p | None => flift (rwrap "failed to load source package" (w_load W (op_source o))) end = Some (Ok src)) as ->.
  { destruct H3 as [-> | (-> & ->)]; reflexivity. }
  rewrite H4. unfold flift. cbn [rwrap]. cbn [fbind fst snd]. rewrite H5. cbn [rwrap fbind].
  fold (ast_name E o src dp). rewrite H6. cbn [fwrap fbind].
  destruct (buildVars (out_gtypes out)) as [gt gp]. eexists (Generator _ src dn dp _ _ _ (opt_methods (out_methods out))).
  cbn [g_src g_dst_name g_dst_path g_methods]. do 4 (split; [reflexivity|]).
  destruct (out_methods out) as [[|km ms]|]; cbn [opt_methods]; [reflexivity| |reflexivity].
  unfold fret. match goal with |- context [if ?b then ?x else ?y] => destruct (if b then x else y) end; reflexivity.
  Unshelve. all: exact "" || exact o.
Qed.

(** an interface without methods is rejected *)
Theorem C19_empty_rejected : forall Or E W fuel o src dn dp out,
  reaches_target Or E W fuel o src dn dp out -> opt_keys (out_methods out) = [] ->
  NewGenerator Or E W fuel o = Some (Err errEmptyInterface).
Proof.
  intros Or E W fuel o src dn dp out R H. destruct (NewGenerator_reach _ _ _ _ _ _ _ _ _ R) as (g & _ & _ & _ & _ & ->).
  unfold opt_keys, keys in H. destruct (out_methods out) as [[|km ms]|]; cbn in *; [reflexivity | discriminate | reflexivity].
Qed.

(** an unexported method of an interface of another package is reported *)
Theorem C19_unexported_rejected : forall Or E W fuel o src dn dp out k m,
  (forall ms, Permutation (e_order E ms) ms) ->
  reaches_target Or E W fuel o src dn dp out -> pk_path src <> dp ->
  (forall k m, In (k, m) (opt_methods (out_methods out)) -> m_name m <> "") ->
  In (k, m) (opt_methods (out_methods out)) -> looks_unexported (o_lower Or) (m_name m) = Ok true ->
  exists n, In n (opt_keys (out_methods out)) /\ looks_unexported (o_lower Or) n = Ok true /\
    NewGenerator Or E W fuel o = Some (Err (Wrapped n errUnexportedMethod)).
Proof.
  intros Or E W fuel o src dn dp out k m HP R Hd Hne Hi Hu.
  destruct (NewGenerator_reach _ _ _ _ _ _ _ _ _ R) as (g & _ & _ & _ & _ & ->).
  destruct R as (_ & _ & _ & _ & _ & Ht).
  destruct (String.eqb_spec (ast_name E o src dp) "") as [E0|_]; [apply ast_name_empty in E0; contradiction|]. cbn [negb].
  destruct (check_exported_err (o_lower Or) (e_order E (opt_methods (out_methods out)))) as (k1 & m1 & H1 & H2 & H3).
  - intros k' m' H'. apply (Hne k'). apply (Permutation_in _ (HP _) H').
  - exists k, m. split; [|exact Hu]. apply (Permutation_in _ (Permutation_sym (HP _)) Hi).
  - apply (Permutation_in _ (HP _)) in H1. exists (m_name m1). split; [|split; [exact H2|]].
    + pose proof (proj1 (results_named Or W fuel) _ _ _ _ _ _ Ht) as HN.
      destruct (out_methods out) as [ms|]; [|contradiction]. cbn in *. unfold named in HN. rewrite Forall_forall in HN.
      specialize (HN _ H1). cbn in HN. rewrite <- HN. apply in_map_iff. now exists (k1, m1).
    + rewrite H3. destruct (opt_methods (out_methods out)); [contradiction | reflexivity].
Qed.

(** and nothing else is rejected at this point *)
Theorem C19_accepted : forall Or E W fuel o src dn dp out,
  (forall ms, Permutation (e_order E ms) ms) ->
  reaches_target Or E W fuel o src dn dp out ->
  opt_methods (out_methods out) <> [] ->
  (pk_path src = dp \/ forall k m, In (k, m) (opt_methods (out_methods out)) -> looks_unexported (o_lower Or) (m_name m) = Ok false) ->
  exists g, NewGenerator Or E W fuel o = Some (Ok g) /\ g_methods g = opt_methods (out_methods out).
Proof.
  intros Or E W fuel o src dn dp out HP R Hne H.
  destruct (NewGenerator_reach _ _ _ _ _ _ _ _ _ R) as (g & _ & _ & _ & Hg & ->). exists g. split; [|exact Hg].
  destruct (opt_methods (out_methods out)) as [|km ms] eqn:Eo; [congruence|].
  destruct (String.eqb_spec (ast_name E o src dp) "") as [E0|E0]; [reflexivity|]. cbn [negb].
  destruct H as [H|H]; [apply (ast_name_empty E o src dp) in H; contradiction|].
  assert (X : forall l, (forall k m, In (k, m) l -> looks_unexported (o_lower Or) (m_name m) = Ok false) -> check_exported (o_lower Or) l = Ok tt).
  { induction l as [|[k m] l IH]; intros HX; [reflexivity|]. cbn. rewrite (HX k m (or_introl eq_refl)). cbn. apply IH. intros; apply (HX k0); now right. }
  rewrite X; [reflexivity|]. intros k m Hi. apply (H k). apply (Permutation_in _ (HP _) Hi).
Qed.

(** *** Examples *)
Definition Eex : env := Env (fun _ => None) (fun s => s) (@rev _).
Definition opts (iface out : string) : options := Options iface ["fmt"] "x/main" None "" out "" "" "".
Example C19_nontrivial : exists g, NewGenerator Oex Eex Wex 20 (opts "Store" "gen/out.go") = Some (Ok g) /\
  pk_path (g_src g) <> g_dst_path g /\ length (g_methods g) = 5 /\ g_dst_name g = "gen".
Proof. eexists. split; [vm_compute; reflexivity|]. cbn. repeat split. discriminate. Qed.

Definition psecret : package := Package "x/s" "s"
  [GoFile [iface "I" [meth "Get" [] [Ident "int"]; meth "put" [Ident "int"] []];
           iface "Title" [meth (encode_rune 453 ++ "x") [] []];
           iface "Empty" []] []] [] None.
Definition plocal : package := Package "x/l" "l"
  [GoFile [iface "J" [meth "Len" [] [Ident "int"]; emb (Selector (Ident "s") "I")]] [ImportSpec None (quoted "x/s")]]
  [("x/s", "x/s")] None.
Definition Ws : world := world_of [("x/s", psecret); ("x/l", plocal); ("./l", plocal)].
Example C19_nontrivial_rejected :
  NewGenerator Oex Eex Ws 20 (Options "I" [] "x/s" None "" "gen/out.go" "" "" "") = Some (Err (Wrapped "put" errUnexportedMethod)) /\
  NewGenerator Oex Eex Ws 20 (Options "Empty" [] "x/s" None "" "gen/out.go" "" "" "") = Some (Err errEmptyInterface).
Proof. split; vm_compute; reflexivity. Qed.

(** Title case letters (U+01C5 has lower case U+01C6 and is not upper case)
    pass the test although Go does not export such names. *)
Definition lower_dz (r : N) : N := if (r =? 453)%N then 454%N else r.
Theorem C19_title_case_refuted : ~ C19_statement (fun _ => false) lower_dz.
Proof.
  intros H. pose (Odz := Oracle (fun _ => ("", None)) lower_dz).
  destruct (NewGenerator Odz (Env (fun _ => None) (fun s => s) (fun l => l)) Ws 20 (Options "Title" [] "x/s" None "" "gen/out.go" "" "" "")) as [[g| |]|] eqn:EG;
    try (vm_compute in EG; discriminate).
  specialize (H Odz (Env (fun _ => None) (fun s => s) (fun l => l)) Ws 20 (Options "Title" [] "x/s" None "" "gen/out.go" "" "" "") g eq_refl (fun ms => Permutation_refl ms) EG).
  vm_compute in EG. injection EG as <-. destruct H as (_ & H).
  destruct (H ltac:(cbn; discriminate) _ _ (or_introl eq_refl)) as (_ & r & rest & ER & HX).
  vm_compute in ER. injection ER as <- <-. vm_compute in HX. discriminate.
Qed.

(** The check looks only at the package of the target: an unexported method
    inherited from an embedded interface of a third package is accepted when
    source and destination package agree, and the decorator cannot implement
    it. *)
Definition C19_foreign_statement : Prop := forall Or E W fuel o g k m,
  NewGenerator Or E W fuel o = Some (Ok g) -> In (k, m) (g_methods g) ->
  looks_unexported (o_lower Or) k = Ok true ->
  exists f ts l fd, declared_in (g_src g) f ts /\ ts_type ts = InterfaceT (Some l) /\ In fd l /\ In k (f_names fd).
Theorem C19_foreign_refuted : ~ C19_foreign_statement.
Proof.
  intros H. destruct (NewGenerator Oex Eex Ws 20 (Options "J" [] "x/l" None "" "l/out.go" "" "" "")) as [[g| |]|] eqn:EG;
    try (vm_compute in EG; discriminate).
  assert (X : exists m, In ("put", m) (g_methods g)) by (vm_compute in EG; injection EG as <-; cbn; eauto).
  destruct X as (m & Hm).
  destruct (H _ _ _ _ _ _ "put" m EG Hm ltac:(vm_compute; reflexivity)) as (f & ts & l & fd & D & Hl & Hfd & Hn).
  assert (g_src g = plocal) as Es by (vm_compute in EG; injection EG as <-; reflexivity). rewrite Es in D.
  decl_cases D. cbn in Hl. injection Hl as <-. cbn in Hfd. or_inv; cbn in Hn; or_inv; discriminate.
Qed.

(** ** C20, C21: Import *)

(** lines: strictly increasing, and exactly the entries asked for *)
Theorem C20_import_block : forall order timports imports s,
  (forall m, Permutation (order m) m) ->
  Import order timports imports = Ok s ->
  exists ls, s = ("import (" ++ nl ++ join nl ls ++ ")" ++ nl)%string /\
    increasing ls /\
    forall x, In x ls <-> (exists i, In i timports /\ trimmed i x) \/ (exists i, In i imports /\ template_entry i x).
Proof.
  intros order ti im s HP H. unfold Import in H. cbv zeta in H.
  destruct (fold_keys ti [] (NoDup_nil _)) as (D0 & I0). cbv zeta in D0, I0.
  set (m0 := fold_left _ ti []) in *. destruct (add_template_imports im m0) as [m| |] eqn:Em; try discriminate.
  destruct (add_template_imports_spec im m0 m D0 Em) as (D & I). cbn in H. injection H as <-.
  exists (sort_strings (order m)). split; [reflexivity|]. split.
  - apply increasing_sorted, sort_sorted. eapply Permutation_NoDup; [symmetry; apply HP | exact D].
  - intros x. split.
    + intros Hx. apply (Permutation_in _ (Permutation_sym (sort_perm _))) in Hx. apply (Permutation_in _ (HP _)) in Hx.
      apply I in Hx. destruct Hx as [Hx|(i & Hi & Ht)].
      * apply I0 in Hx. destruct Hx as [[]|(i & Hi & ->)]. left. exists i. split; [exact Hi | apply trim_space_trimmed].
      * right. exists i. split; [exact Hi|]. now apply template_import_entry in Ht.
    + intros Hx. apply (Permutation_in _ (sort_perm _)), (Permutation_in _ (Permutation_sym (HP _))), I.
      destruct Hx as [(i & Hi & Ht)|(i & Hi & Ht)].
      * left. apply I0. right. exists i. split; [exact Hi|]. now apply trimmed_iff.
      * right. exists i. split; [exact Hi|]. apply template_import_entry. split; [exact Ht|].
        intros Hb. assert (Hne : i <> "") by (destruct Ht as (? & ? & ? & ? & _); assumption).
        destruct (add_template_imports_panic im m0 i Hi Hne Hb) as (msg & E). congruence.
Qed.

(** the result does not depend on the order in which the map is visited *)
Theorem C20_order_irrelevant : forall o1 o2 timports imports,
  (forall m, Permutation (o1 m) m) -> (forall m, Permutation (o2 m) m) ->
  Import o1 timports imports = Import o2 timports imports.
Proof.
  intros o1 o2 ti im H1 H2. unfold Import. cbv zeta.
  destruct (fold_keys ti [] (NoDup_nil _)) as (D0 & _). cbv zeta in D0. set (m0 := fold_left _ ti []) in *.
  destruct (add_template_imports im m0) as [m| |] eqn:Em; [|reflexivity|reflexivity]. cbn [rbind].
  destruct (add_template_imports_spec im m0 m D0 Em) as (D & _).
  assert (X : sort_strings (o1 m) = sort_strings (o2 m)); [|now rewrite X]. apply sorted_unique.
  - apply sort_sorted. eapply Permutation_NoDup; [symmetry; apply H1 | exact D].
  - apply sort_sorted. eapply Permutation_NoDup; [symmetry; apply H2 | exact D].
  - intros x. split; intros Hx; apply (Permutation_in _ (Permutation_sym (sort_perm _))) in Hx; apply (Permutation_in _ (sort_perm _)).
    + apply (Permutation_in _ (H1 _)) in Hx. now apply (Permutation_in _ (Permutation_sym (H2 _))).
    + apply (Permutation_in _ (H2 _)) in Hx. now apply (Permutation_in _ (Permutation_sym (H1 _))).
Qed.

(** read back line by line *)
Theorem C20_read_back : forall order timports imports s,
  (forall m, Permutation (order m) m) ->
  Import order timports imports = Ok s ->
  (exists x, (exists i, In i timports /\ trimmed i x) \/ (exists i, In i imports /\ template_entry i x)) ->
  (forall i, In i timports \/ In i imports -> ~ In "010"%char (list_ascii_of_string (trim_space i))) ->
  exists ls, block_lines s = Some ls /\ increasing ls /\
    forall x, In x ls <-> (exists i, In i timports /\ trimmed i x) \/ (exists i, In i imports /\ template_entry i x).
Proof.
  intros order ti im s HP H (x0 & Hx0) Hnl. destruct (C20_import_block order ti im s HP H) as (ls & -> & Hi & HX).
  exists ls. split; [|auto]. apply block_lines_ok.
  - intros ->. apply HX in Hx0. contradiction.
  - apply Forall_forall. intros x Hx. apply HX in Hx. destruct Hx as [(i & Hin & Ht)|(i & Hin & Ht)].
    + apply trimmed_iff in Ht. subst. apply Hnl. now left.
    + destruct Ht as (t & l & r & _ & Ht & -> & Hl & Hr). apply trimmed_iff in Ht. subst t.
      assert (Q : forall u v, list_ascii_of_string (u ++ v) = list_ascii_of_string u ++ list_ascii_of_string v)
        by (induction u; intros; cbn; [reflexivity | now f_equal]).
      rewrite !Q, !in_app_iff. intros [A|[A|A]].
      * destruct Hl as [(_ & ->)|(_ & ->)]; cbn in A; intuition discriminate.
      * revert A. apply Hnl. now right.
      * destruct Hr as [(_ & ->)|(_ & ->)]; cbn in A; intuition discriminate.
Qed.

Example C20_nontrivial :
  Import (@rev _) ["fmt "; (" _sourceX " ++ quote ++ "a/x" ++ quote)%string; "fmt"] ["time"; ""; (quote ++ "context" ++ quote)%string; " time "] =
  Ok ("import (" ++ nl ++ quote ++ "context" ++ quote ++ nl ++ quote ++ "time" ++ quote ++ nl ++
      "_sourceX " ++ quote ++ "a/x" ++ quote ++ nl ++ "fmt)" ++ nl)%string.
Proof. vm_compute. reflexivity. Qed.

(** C21: the full claim *)
Definition C21_statement : Prop := forall order timports imports,
  (forall m, Permutation (order m) m) ->
  exists s, Import order timports imports = Ok s.
Definition C21_alias_statement : Prop := forall order timports imports s a p,
  (forall m, Permutation (order m) m) ->
  Import order timports imports = Ok s -> In (a ++ " " ++ quote ++ p ++ quote)%string imports ->
  exists ls, s = ("import (" ++ nl ++ join nl ls ++ ")" ++ nl)%string /\ In (a ++ " " ++ quote ++ p ++ quote)%string ls.

(** It fails exactly for non-empty blank template imports. *)
Theorem C21_panics_exactly_partial : forall order timports imports,
  (exists i, In i imports /\ i <> "" /\ blank i) <-> (exists m, Import order timports imports = Panic m).
Proof.
  assert (B : forall i, blank i <-> trim_space i = "").
  { intros i. assert (X : trim_space i = "" <-> trimmed i "") by (rewrite trimmed_iff; split; congruence). rewrite X. clear X. split.
    - intros H. split; [exists i, ""; cbn; rewrite sapp_nil_r; split; [reflexivity | split; [exact H | apply blank_nil]]|].
      split; intros r u W E; pose proof (white_nonempty r W); destruct (encode_rune r), u; congruence || discriminate.
    - intros ((a & b & -> & Ha & Hb) & _). cbn. now apply blank_app. }
  intros order ti im. unfold Import. cbv zeta. set (m0 := fold_left _ ti []). split.
  - intros (i & Hi & Hne & Hb). destruct (add_template_imports_panic im m0 i Hi Hne (proj1 (B i) Hb)) as (m & ->). cbn. eauto.
  - intros (m & H). destruct (existsb (fun i => negb (String.eqb i "") && String.eqb (trim_space i) "") im) eqn:EX.
    + apply existsb_exists in EX. destruct EX as (i & Hi & E). apply andb_true_iff in E. destruct E as (E1 & E2).
      apply negb_true_iff, String.eqb_neq in E1. apply String.eqb_eq in E2. exists i. split; [exact Hi|]. split; [exact E1 | now apply B].
    + exfalso. destruct (add_template_imports_total im m0) as (m' & E).
      * intros i Hi. apply template_import_total. destruct (String.eqb_spec i ""); [now left|]. right. intros E.
        assert (X : existsb (fun i => negb (String.eqb i "") && String.eqb (trim_space i) "") im = true); [|congruence].
        apply existsb_exists. exists i. split; [exact Hi|]. rewrite E. destruct (String.eqb_spec i ""); [contradiction | reflexivity].
      * rewrite E in H. discriminate.
Qed.

Theorem C21_blank_refuted : ~ C21_statement.
Proof. intros H. destruct (H (fun m => m) [] [" "] (fun m => Permutation_refl m)) as (s & E). vm_compute in E. discriminate. Qed.

Theorem C21_alias_refuted : ~ C21_alias_statement.
Proof.
  intros H. destruct (H (fun m => m) [] [("foo " ++ quote ++ "bar" ++ quote)%string]
     ("import (" ++ nl ++ quote ++ "foo " ++ quote ++ "bar" ++ quote ++ ")" ++ nl)%string "foo" "bar" (fun m => Permutation_refl m))
    as (ls & E & Hi).
  - vm_compute. reflexivity.
  - now left.
  - destruct ls as [|x [|y ls]]; [contradiction| |].
    + destruct Hi as [->|[]]. vm_compute in E. discriminate.
    + destruct (C20_import_block (fun m => m) [] [("foo " ++ quote ++ "bar" ++ quote)%string] _ (fun m => Permutation_refl m) eq_refl) as (ls' & E' & _).
      assert (L : length (lines_aux (drop_last (drop_last (drop 9 ("import (" ++ nl ++ quote ++ "foo " ++ quote ++ "bar" ++ quote ++ ")" ++ nl)))) "") = 1) by (vm_compute; reflexivity).
      clear E'. rewrite E in L. clear E Hi H.
      change (drop 9 ("import (" ++ nl ++ join nl (x :: y :: ls) ++ ")" ++ nl)) with (join nl (x :: y :: ls) ++ ")" ++ nl)%string in L.
      rewrite <- sapp_assoc in L. unfold nl at 2 in L. rewrite drop_last_snoc, drop_last_snoc in L.
      change (join nl (x :: y :: ls)) with (x ++ nl ++ join nl (y :: ls))%string in L.
      assert (X : forall u v acc, 2 <= length (lines_aux (u ++ nl ++ v) acc)).
      { induction u as [|c u IH]; intros v acc; cbn.
        - assert (Y : forall w a, 1 <= length (lines_aux w a)) by (induction w as [|d w IW]; intros a; cbn; [lia|]; destruct (byte_eqb d "010"); cbn; [lia | apply IW]).
          specialize (Y v ""). lia.
        - cbn in IH. destruct (byte_eqb c "010"); cbn; [|apply IH]. specialize (IH v ""). lia. }
      specialize (X x (join nl (y :: ls)) ""). lia.
Qed.

(** Imports taken from the source file and from options are kept as they are
    (aliases included). *)
Corollary C21_source_imports : forall order timports imports s i x,
  (forall m, Permutation (order m) m) ->
  Import order timports imports = Ok s -> In i timports -> trimmed i x ->
  exists ls, s = ("import (" ++ nl ++ join nl ls ++ ")" ++ nl)%string /\ In x ls.
Proof.
  intros order ti im s i x HP H Hi Ht. destruct (C20_import_block order ti im s HP H) as (ls & E & _ & HX).
  exists ls. split; [exact E|]. apply HX. left. eauto.
Qed.

(** ** C53: the package clause *)
Theorem C53_package_name : forall Or E W fuel o g,
  NewGenerator Or E W fuel o = Some (Ok g) ->
  forall abs els file st, file_in (op_output o) abs els file -> leads abs els st ->
  (exists p, w_load W (dst_string abs st) = Ok p /\ g_dst_name g = pk_name p /\ g_dst_path g = pk_path p) \/
  (exists e d st', w_load W (dst_string abs st) = Err e /\ st = st' ++ [d] /\ g_dst_name g = d).
Proof.
  intros Or E W fuel o g H abs els file st HF HL. apply NewGenerator_inv in H. destruct H as (out & _ & _ & _ & Hd & _).
  rewrite (dstPackagePath_file _ _ _ _ _ HF HL) in Hd. unfold loadDestinationPackage in Hd.
  destruct (w_load W (dst_string abs st)) as [p|e|m] eqn:El; [| |discriminate].
  - injection Hd as Hd1 Hd2. left. exists p. auto.
  - right. unfold makePackage in Hd. destruct HF as (H1 & _). pose proof (leads_slash _ _ _ HL H1) as HS.
    destruct (leads_plain _ _ _ HL) as (_ & P1 & _). rewrite (Base_dst abs st HS P1) in Hd.
    destruct st as [|d st'] using rev_ind; [destruct abs; discriminate|]. rewrite rev_unit in Hd.
    destruct (String.eqb d "/" || String.eqb d "."); [discriminate|]. injection Hd as Hd1 Hd2. exists e, d, st'. auto.
Qed.

Theorem C53_no_name : forall Or E W fuel o src abs els file err,
  e_parse E (op_header o) = None -> e_parse E (op_body o) = None -> op_instance o = Some src ->
  file_in (op_output o) abs els file -> leads abs els [] -> w_load W (dst_string abs []) = Err err ->
  NewGenerator Or E W fuel o =
    Some (Err (Wrapped ("failed to load destination package: " ++ dst_string abs []) errNoPackageName)).
Proof.
  intros Or E W fuel o src abs els file err H1 H2 H3 HF HL Hw. unfold NewGenerator. rewrite H1, H2, H3.
  rewrite (dstPackagePath_file _ _ _ _ _ HF HL). unfold loadDestinationPackage. rewrite Hw. now destruct abs.
Qed.

(** every output path falls under these theorems, unless it leaves the working
    directory through ".." *)
Theorem C53_every_path : forall path, exists abs els file, file_in path abs els file.
Proof.
  assert (S : forall s, split_slash s <> [] /\ Forall no_slash (split_slash s) /\ join "/" (split_slash s) = s).
  { assert (X : forall s acc, no_slash acc -> split_slash_aux s acc <> [] /\ Forall no_slash (split_slash_aux s acc) /\ join "/" (split_slash_aux s acc) = (acc ++ s)%string).
    { induction s as [|c s IH]; intros acc Ha; cbn [split_slash_aux].
      - split; [discriminate|]. split; [constructor; auto|]. cbn. now rewrite sapp_nil_r.
      - destruct (Ascii.eqb_spec c "/") as [->|N].
        + rewrite byte_eqb_refl. destruct (IH "") as (A & B & C); [intros []|].
          split; [discriminate|]. split; [constructor; auto|].
          destruct (split_slash_aux s "") as [|y l]; [congruence|]. rewrite join_cons2, C. reflexivity.
        + rewrite byte_eqb_neq by exact N. destruct (IH (acc ++ String c "")%string) as (A & B & C).
          * apply no_slash_app. split; [exact Ha|]. apply no_slash_cons. split; [exact N | intros []].
          * split; [exact A|]. split; [exact B|]. rewrite C, sapp_assoc. reflexivity. }
    intros s. apply (X s ""). intros []. }
  intros path. destruct (rooted path) eqn:ER.
  - destruct path as [|c p]; [discriminate|]. assert (c = "/"%char) as ->.
    { destruct c as [[] [] [] [] [] [] [] []]; cbn in ER; try discriminate; reflexivity. }
    destruct (S p) as (A & B & C). destruct (exists_last A) as (els & file & EL).
    exists true, els, file. rewrite EL in *. rewrite Forall_app in B. destruct B as (B & B'). inversion_clear B'.
    split; [exact B|]. split; [assumption|]. split; [cbn; now rewrite C|discriminate].
  - destruct (S path) as (A & B & C). destruct (exists_last A) as (els & file & EL).
    exists false, els, file. rewrite EL in *. rewrite Forall_app in B. destruct B as (B & B'). inversion_clear B'.
    split; [exact B|]. split; [assumption|]. split; [now rewrite C|]. intros _. destruct els as [|e els]; [exact I|].
    intros ->. rewrite <- C in ER. cbn in ER. destruct (els ++ [file]) eqn:E; [destruct els; discriminate | discriminate].
Qed.

Definition C53_statement : Prop := forall Or E W fuel o g,
  NewGenerator Or E W fuel o = Some (Ok g) ->
  (exists dir p, w_load W dir = Ok p /\ g_dst_name g = pk_name p) \/
  (g_dst_name g <> "." /\ g_dst_name g <> "..").

(** An output file in a directory that is reached through ".." only and does
    not contain a package gets the package clause [package ..]. *)
Theorem C53_dotdot_refuted : ~ C53_statement.
Proof.
  intros H. destruct (NewGenerator Oex Eex (world_of [("x/main", pmain); ("io", pio)]) 20 (opts "Base" "../out.go")) as [[g| |]|] eqn:EG;
    try (vm_compute in EG; discriminate).
  assert (ED : g_dst_name g = "..") by (vm_compute in EG; injection EG as <-; reflexivity).
  destruct (H _ _ _ _ _ _ EG) as [(dir & p & Hw & Hn)|(_ & N)]; [|congruence].
  rewrite ED in Hn. cbn in Hw. destruct (String.eqb dir "x/main"); [injection Hw as <-; discriminate|].
  destruct (String.eqb dir "io"); [injection Hw as <-|]; discriminate.
Qed.

Example C53_nontrivial : file_in "a/../b//c/./out.go" false ["a"; ".."; "b"; ""; "c"; "."] "out.go" /\
  leads false ["a"; ".."; "b"; ""; "c"; "."] ["b"; "c"] /\
  exists g, NewGenerator Oex Eex Wex 20 (opts "Store" "a/../b//c/./out.go") = Some (Ok g) /\ g_dst_name g = "c".
Proof.
  split; [|split].
  - split; [|split; [|split]]; [| |reflexivity|discriminate].
    + repeat constructor; unfold no_slash; cbn; intuition discriminate.
    + unfold no_slash; cbn; intuition discriminate.
  - change ["a"; ".."; "b"; ""; "c"; "."] with (((((([] ++ ["a"]) ++ [".."]) ++ ["b"]) ++ [""]) ++ ["c"]) ++ ["."]).
    apply leads_stay; [|auto]. change ["b"; "c"] with (["b"] ++ ["c"]). apply leads_down; try discriminate.
    apply leads_stay; [|auto]. change ["b"] with ([] ++ ["b"]). apply leads_down; try discriminate.
    apply (leads_up _ _ [] "a"). apply (leads_down _ [] []); try discriminate. constructor.
  - eexists. split; [vm_compute; reflexivity | reflexivity].
Qed.

Print Assumptions C19_exported_partial.
Print Assumptions C19_exported_ascii.
Print Assumptions C19_method_set_partial.
Print Assumptions C19_empty_rejected.
Print Assumptions C19_unexported_rejected.
Print Assumptions C19_accepted.
Print Assumptions C19_title_case_refuted.
Print Assumptions C19_foreign_refuted.
Print Assumptions C20_import_block.
Print Assumptions C20_order_irrelevant.
Print Assumptions C20_read_back.
Print Assumptions C21_panics_exactly_partial.
Print Assumptions C21_blank_refuted.
Print Assumptions C21_alias_refuted.
Print Assumptions C21_source_imports.
Print Assumptions C53_package_name.
Print Assumptions C53_no_name.
Print Assumptions C53_every_path.
Print Assumptions C53_dotdot_refuted.
