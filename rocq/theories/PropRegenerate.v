(** C78: running the directive of a generated file writes the same bytes to the
    same file. *)
From Coq Require Import Permutation.
From Verif Require Import Cmd Render PropLoader PropCmd PropFlags NewGenSpec PathProofs NewGenProofs GeneratorProofs ResolveSpec ResolveProofs PropEndToEnd.
From Verif Require Import RenderProofs Regen RegenProofs RegenPaths.
Open Scope nat_scope.

(** ** Statement *)

(** Files and URLs at the time of the second run, in the directory [outdir] of
    the output file [out]: other files still have the contents they had, URLs
    are answered as before and there are no files with names like URLs.
    Simplified: which file a path names is decided by filepath.Abs, not by
    following symbolic links. *)
Record same_files (W1 W2 : io) (outdir out : string) : Prop := {
  sf_cwd : io_cwd W2 = inl outdir;
  sf_read : forall t1 t2 p1 p2 a1 a2 body, Abs W1 p1 = inl a1 -> Abs W2 p2 = inl a2 -> Clean a1 = Clean a2 -> a2 <> out ->
    has_prefix "https://" p2 = false -> io_read W1 t1 p1 = FOk body -> io_read W2 t2 p2 = FOk body;
  sf_urls : forall t1 t2 u body, has_prefix "https://" u = true -> fst (Loader.get W1 u t1) = (body, None) -> fst (Loader.get W2 u t2) = (body, None);
  sf_nofile1 : forall t u body, has_prefix "https://" u = true -> io_read W1 t u <> FOk body;
  sf_nofile2 : forall t u, has_prefix "https://" u = true -> exists e, io_read W2 t u = FNotExist e;
  sf_mkdir : forall t, io_mkdir W2 t "." = None;
  sf_write : forall t b data, io_write W2 t b data = None
}.

(** The package the file was written to, when it is loaded by the second run.
    If the first run could not load it, it was named after its directory. *)
Definition destination_loads (P1 P2 : world) (dir1 : string) (dst : package) : Prop :=
  w_load P2 "./." = Ok dst /\
  match w_load P1 dir1 with
  | Ok p => pk_name dst = pk_name p /\ pk_path dst = pk_path p
  | _ => pk_name dst = Base dir1
  end.

(** text/template executions give the same when text and data are the same;
    imports.Process gives the same for the two names of the file *)
Record same_tools (E1 E2 : env) (X1 X2 : Cmd.exec) (o b : string) : Prop := {
  st_parse : forall s, e_parse E2 s = e_parse E1 s;
  st_title : forall s, e_title E2 s = e_title E1 s;
  st_order1 : forall l, Permutation (e_order E1 l) l;
  st_order2 : forall l, Permutation (e_order E2 l) l;
  st_body : forall g1 g2 vars, op_body (g_options g1) = op_body (g_options g2) -> body_inputs g1 vars = body_inputs g2 vars ->
    x_body X2 g2 vars = x_body X1 g1 vars;
  st_process : forall prefix text out, x_process X1 prefix o text = inl out -> x_process X2 prefix b text = inl out
}.

(** ** Proof *)

Lemma set_v_all vs a : vars_set (set_all [] vs) a = set_all [] (vs ++ [a]).
Proof. now rewrite set_all_snoc. Qed.
Lemma parsed_vars args : forall f f' rest, (exists vs, f_v f = set_all [] vs) -> parse_flags f args = inl (f', rest) -> exists vs, f_v f' = set_all [] vs.
Proof.
  remember (length args) as n eqn:L. assert (L' : length args <= n) by lia. clear L. revert args L'.
  induction n as [|n IH]; intros args L f f' rest HV H.
  - destruct args; [|cbn in L; lia]. cbn in H. injection H as <- <-. exact HV.
  - destruct args as [|s args]; [cbn in H; injection H as <- <-; exact HV|]. cbn [parse_flags] in H. cbn in L.
    destruct (lex_arg s) as [| | |body]; try (injection H as <- <-; exact HV); try discriminate.
    destruct (name_value body) as [name value].
    assert (KS : forall set, flag_kind name = KString set -> forall x g, (exists vs, f_v g = set_all [] vs) -> exists vs, f_v (set x g) = set_all [] vs).
    { intros set K x g (vs & HG). unfold flag_kind in K.
      repeat match type of K with (if ?c then _ else _) = _ => destruct c end; try discriminate; injection K as <-; cbn; eauto.
      exists (vs ++ [x]). now rewrite HG, set_v_all. }
    destruct (flag_kind name) as [|set|]; try discriminate.
    + destruct value as [v|]; [destruct (parseBool v); [|discriminate]|]; (eapply IH; [|exact HV|exact H]; lia) || (eapply IH in H; [exact H|lia|exact HV]).
    + destruct value as [v|].
      * eapply IH in H; [exact H|lia|now apply (KS set)].
      * destruct args as [|v args]; [discriminate|]. cbn in L. eapply IH in H; [exact H|lia|now apply (KS set)].
Qed.

Lemma loaded_from W template t body url : has_prefix "http://" template = false ->
  (forall t u b, has_prefix "https://" u = true -> io_read W t u <> FOk b) ->
  fst (localLoad W template t) = (body, url, None) ->
  (has_prefix "https://" url = true /\ exists t', fst (Loader.get W url t') = (body, None)) \/
  (has_prefix "https://" url = false /\ exists t', io_read W t' url = FOk body).
Proof.
  intros NH NF H.
  assert (HF : forall t' u, io_read W t' u = FOk body -> u = url -> has_prefix "https://" url = false /\ exists t', io_read W t' url = FOk body).
  { intros t' u R ->. split; [|eauto]. destruct (has_prefix "https://" url) eqn:P; [|reflexivity]. now apply NF in R. }
  unfold localLoad, readFile, bind, ask, emit, ret in H.
  destruct (io_read W t template) as [s|e|e] eqn:R; [|clear R|discriminate].
  { injection H as <- <-. right. eauto. }
  generalize dependent (t ++ [EReadFile template]). intros t1 H. unfold remoteLoad in H. rewrite NH, orb_false_r in H.
  destruct (has_prefix "https://" template) eqn:P.
  { unfold bind, ret in H. destruct (Loader.get W template t1) as [[b oe] t2] eqn:G. cbn in H. injection H as -> -> ->. left. split; [exact P|]. exists t1. now rewrite G. }
  destruct (has_prefix "file://" template).
  { unfold bind, ask, emit, ret, absGitPath, readFile, bind, ask, emit, ret in H. destruct (io_missing W t1 (drop 7 template)).
    - destruct (io_git W _) as [root|]; [|discriminate].
      match type of H with context [io_read W ?tt ?pp] => destruct (io_read W tt pp) as [s| |] eqn:R end; cbn in H; try discriminate.
      injection H as <- <-. right. eauto.
    - match type of H with context [io_read W ?tt ?pp] => destruct (io_read W tt pp) as [s| |] eqn:R end; cbn in H; try discriminate.
      injection H as <- <-. right. eauto. }
  unfold fetchFromGithub, bind, ret in H. destruct (Loader.get W (url_commits template) t1) as [[b oe] t2]. destruct oe; [discriminate|].
  destruct (io_commits W b) as [[|sha shas]|]; try discriminate.
  destruct (Loader.get W (url_raw sha template) t2) as [[c oe] t3] eqn:G. destruct oe; [discriminate|]. cbn in H. injection H as <- HU.
  assert (HP : has_prefix "https://" (url_raw sha template) = true) by reflexivity. rewrite <- HU. left. split; [exact HP|]. exists t2.
  match goal with |- fst ?x = _ => replace x with (c, @None gerr, t3) end. reflexivity.
Qed.

Lemma Rel_comps b1 b2 t1 t2 : rooted b1 = true -> rooted b2 = true -> rooted t1 = true -> rooted t2 = true ->
  comps b1 = comps b2 -> comps t1 = comps t2 -> Rel b1 t1 = Rel b2 t2.
Proof. intros A B C D E F. unfold Rel. now rewrite A, B, C, D, E, F. Qed.

Lemma has_prefix_split p : forall s, has_prefix p s = true -> exists r, s = (p ++ r)%string.
Proof.
  unfold has_prefix. induction p as [|c p IH]; intros s H; [exists s; reflexivity|]. destruct s as [|d s]; [discriminate|]. cbn in H.
  destruct (ascii_dec c d) as [<-|]; [|discriminate]. destruct (IH s H) as (r & ->). now exists r.
Qed.
Lemma Rel_no_url b t u : Rel b t = inl u -> has_prefix "https://" u = false.
Proof.
  unfold Rel. destruct (rooted b && rooted t); [|discriminate]. pose proof (comps_ok t) as OT.
  destruct (strip_common (comps b) (comps t)) as [x y] eqn:E. destruct (strip_spec _ _ _ _ E) as (p & _ & ET). rewrite ET in OT.
  apply Forall_app in OT. destruct OT as [_ OT].
  assert (OK : Forall (fun e => e <> "" /\ no_slash e) (map (fun _ => "..") x ++ y)).
  { apply Forall_app. split; [|eapply Forall_impl; [|exact OT]; intros a (A & _ & _ & B); auto].
    apply Forall_forall. intros a Ha. apply in_map_iff in Ha. destruct Ha as (z & <- & _). split; [discriminate|]. unfold no_slash. cbn. intuition discriminate. }
  assert (G : forall l, Forall (fun e => e <> "" /\ no_slash e) l -> has_prefix "https://" (join "/" l) = false).
  { intros l HL. destruct (has_prefix "https://" (join "/" l)) eqn:P; [|reflexivity]. apply has_prefix_split in P. destruct P as (r & P).
    destruct l as [|z l]; [discriminate|]. assert (S : split_slash (join "/" (z :: l)) = z :: l).
    { apply split_join; [discriminate|]. eapply Forall_impl; [|exact HL]. intros a Ha. apply Ha. }
    rewrite P in S. change ("https://" ++ r)%string with ("https:" ++ "/" ++ ("" ++ "/" ++ r))%string in S.
    rewrite !split_slash_app in S. change (split_slash "https:") with ["https:"] in S. change (split_slash "") with [""] in S. rewrite <- S in HL.
    inversion HL as [|? ? _ HL2]. inversion HL2 as [|? ? (Q & _) _]. congruence. }
  specialize (G _ OK). destruct x, y; intros H; injection H as <-; first [reflexivity | exact G].
Qed.

Lemma outdir_again outdir : rooted outdir = true -> comps (Clean (outdir ++ "/" ++ ".")) = comps outdir.
Proof. intros R. rewrite comps_Clean by now apply rooted_app. rewrite comps_slash. cbn. now rewrite rev_involutive. Qed.

(** the second run loads the same template under the same name *)
Lemma same_template W1 W2 template outdir out t body u t1 t2 :
  (match io_cwd W1 with inl d => rooted d = true | inr _ => True end) -> rooted outdir = true ->
  has_prefix "http://" template = false -> same_files W1 W2 outdir out ->
  loadTemplate W1 template outdir t = (inl (body, u), t1) -> Abs W2 u <> inl out ->
  exists outdir2 t2', Abs W2 "." = inl outdir2 /\ loadTemplate W2 u outdir2 t2 = (inl (body, u), t2').
Proof.
  intros HC RO NH SF HL HU.
  exists (Clean (outdir ++ "/" ++ ".")).
  assert (HD : Abs W2 "." = inl (Clean (outdir ++ "/" ++ "."))).
  { unfold Abs. cbn [rooted]. rewrite (sf_cwd _ _ _ _ SF), Join2_slash by (auto; discriminate). reflexivity. }
  destruct (directive_template W1 template outdir t body u t1 HC RO HL) as (url & EL & CASES).
  destruct (loaded_from W1 template t body url NH (sf_nofile1 _ _ _ _ SF) EL) as [(HP & t' & G)|(HP & t' & R)].
  - destruct CASES as [(_ & ->)|(HP' & _)]; [|congruence].
    unfold loadTemplate, localLoad, readFile, bind, ask, emit, ret.
    destruct (sf_nofile2 _ _ _ _ SF t2 url HP) as (e & ->). unfold remoteLoad. rewrite HP. cbn [orb]. unfold bind, ret.
    pose proof (sf_urls _ _ _ _ SF t' (t2 ++ [EReadFile url]) url body HP G) as G2.
    destruct (Loader.get W2 url (t2 ++ [EReadFile url])) as [r t3]. cbn in G2. subst r. cbn [fst snd]. rewrite HP. eauto.
  - destruct CASES as [(HP' & _)|(_ & NE & a & HA & HA2)]; [congruence|].
    assert (HA3 : Abs W2 u = inl (Clean a)).
    { rewrite <- HA2. unfold Abs. rewrite (sf_cwd _ _ _ _ SF). reflexivity. }
    assert (RA : rooted a = true) by (eapply Abs_rooted; eauto).
    assert (HRel : Rel outdir a = inl u).
    { unfold loadTemplate, bind in HL. destruct (localLoad W1 template t) as [r t3]. cbn in EL. subst r.
      unfold ret in HL. rewrite HP, HA in HL. destruct (Rel outdir a); [|discriminate]. now injection HL as <- _. }
    assert (HS : has_prefix "https://" u = false) by (eapply Rel_no_url; exact HRel).
    assert (R2 : forall tt, io_read W2 tt u = FOk body).
    { intros tt. eapply (sf_read _ _ _ _ SF); [exact HA|exact HA3| |congruence|exact HS|exact R]. now rewrite Clean_Clean. }
    unfold loadTemplate, localLoad, readFile, bind, ask, emit, ret. rewrite R2.
    rewrite HS, HA3.
    assert (ER : Rel (Clean (outdir ++ "/" ++ ".")) (Clean a) = Rel outdir a).
    { apply Rel_comps; auto using Clean_root, rooted_app, outdir_again, comps_Clean. }
    rewrite ER, HRel. eauto.
Qed.

Lemma check_exported_perm lower l1 l2 : Permutation l1 l2 -> check_exported lower l1 = Ok tt -> check_exported lower l2 = Ok tt.
Proof.
  intros HP H. apply check_exported_ok in H. rewrite HP in H. clear -H. induction H as [|[k m] l Hm _ IH]; [reflexivity|].
  cbn in *. now rewrite Hm.
Qed.

Section Regenerate.
Variables (W1 W2 : io) (P1 P2 : world) (Or : oracle) (E1 E2 : env) (X1 X2 : Cmd.exec) (fuel : nat).

(** the generators of the two runs *)
Lemma same_generator o1 o2 g1 src2 dst l ex1 ex2 :
  NewGenerator Or E1 P1 fuel o1 = Some (Ok g1) ->
  same_tools E1 E2 X1 X2 (op_output o1) (op_output o2) -> same_packages P1 P2 ->
  op_instance o1 = Some (g_src g1) -> known P1 (g_src g1) ->
  o2 = Options (op_interface o1) (op_imports o1) (op_source o1) (Some src2) (op_alias o1) (op_output o2) (op_header o1) (op_body o1) (op_prefix o1) ->
  dstPackagePath (op_output o2) = "./." ->
  same_but P1 l ex1 ex2 (g_src g1) src2 -> ast_ok src2 = Ok tt -> pk_path (g_src g1) <> "" ->
  ~ In (op_interface o1) (type_names_of ex1) -> ~ In (op_interface o1) (type_names_of ex2) ->
  destination_loads P1 P2 (dstPackagePath (op_output o1)) dst ->
  (pk_path dst = pk_path (g_src g1) /\ (exists p, w_load P1 (dstPackagePath (op_output o1)) = Ok p) \/ pk_path dst <> pk_path (g_src g1) /\ ex1 = [] /\ ex2 = []) ->
  exists g2, NewGenerator Or E2 P2 fuel o2 = Some (Ok g2) /\
    g_options g2 = with_imports (op_imports (g_options g1)) o2 /\ g_src g2 = src2 /\ g_dst_name g2 = g_dst_name g1 /\
    g_interfaceType g2 = g_interfaceType g1 /\ g_genericTypes g2 = g_genericTypes g1 /\ g_genericParams g2 = g_genericParams g1 /\
    g_methods g2 = g_methods g1.
Proof.
  intros HG ST SP HI K HO HD SB AO NP N1 N2 (HL & HM) HX.
  destruct (NewGenerator_inv _ _ _ _ _ _ HG) as (out & H1 & H2 & _ & H3 & H4 & H5 & H6 & H7 & H8 & H9 & H10 & H11).
  assert (ED : g_dst_name g1 = pk_name dst /\ (pk_path (g_src g1) = g_dst_path g1 <-> pk_path src2 = pk_path dst)).
  { unfold loadDestinationPackage in H3. rewrite (sb_path _ _ _ _ _ _ SB).
    destruct (w_load P1 (dstPackagePath (op_output o1))) as [p|e|m] eqn:EL; [| |discriminate].
    - injection H3 as <- <-. destruct HM as (-> & ->). intuition.
    - unfold makePackage in H3. destruct (_ || _); [discriminate|]. injection H3 as <- <-. split; [now rewrite HM|].
      destruct HX as [(_ & p & EP)|(NE & _)]; [discriminate|]. split; congruence. }
  destruct ED as (EN & EQ).
  assert (EA : ast_name E2 o2 src2 (pk_path dst) = ast_name E1 o1 (g_src g1) (g_dst_path g1)).
  { unfold ast_name. rewrite (sb_name _ _ _ _ _ _ SB), (st_title _ _ _ _ _ _ ST).
    replace (op_alias o2) with (op_alias o1) by (rewrite HO; reflexivity).
    destruct (String.eqb_spec (pk_path src2) (pk_path dst)) as [e|e], (String.eqb_spec (pk_path (g_src g1)) (g_dst_path g1)) as [e'|e']; tauto. }
  assert (EB : String.eqb (pk_path src2) (pk_path dst) = String.eqb (pk_path (g_src g1)) (g_dst_path g1)).
  { destruct (String.eqb_spec (pk_path src2) (pk_path dst)) as [e|e], (String.eqb_spec (pk_path (g_src g1)) (g_dst_path g1)) as [e'|e']; tauto. }
  assert (ET : findTarget Or P2 fuel [] src2 (ast_name E1 o1 (g_src g1) (g_dst_path g1)) (op_interface o1) [] = Some (Ok out)).
  { rewrite <- H5. symmetry. apply (proj1 (resolution_same Or P1 P2 SP fuel) l ex1 ex2); auto.
    destruct HX as [(HX & _)|(_ & HX)]; [left|now right]. apply ast_name_empty. apply EQ. rewrite (sb_path _ _ _ _ _ _ SB). congruence. }
  unfold NewGenerator. rewrite !(st_parse _ _ _ _ _ _ ST).
  replace (op_header o2) with (op_header o1) by (rewrite HO; reflexivity). replace (op_body o2) with (op_body o1) by (rewrite HO; reflexivity).
  rewrite H1, H2. replace (op_instance o2) with (Some src2) by (rewrite HO; reflexivity). cbn [fbind flift fret].
  rewrite HD. unfold loadDestinationPackage. rewrite HL. cbn [rwrap fbind flift fst snd]. rewrite AO. cbn [rwrap fbind flift].
  fold (ast_name E2 o2 src2 (pk_path dst)). rewrite EA, EB.
  replace (op_interface o2) with (op_interface o1) by (rewrite HO; reflexivity). replace (op_imports o2) with (op_imports o1) by (rewrite HO; reflexivity).
  rewrite ET. cbn [fwrap fbind]. rewrite H6.
  destruct (g_methods g1) as [|km ms] eqn:EM; [congruence|].
  assert (HC : (if negb (String.eqb (ast_name E1 o1 (g_src g1) (g_dst_path g1)) "") then check_exported (o_lower Or) (e_order E2 (km :: ms)) else Ok tt) = Ok tt).
  { destruct (String.eqb_spec (ast_name E1 o1 (g_src g1) (g_dst_path g1)) "") as [e|e]; [reflexivity|]. cbn [negb].
    eapply check_exported_perm; [|apply H8; intros Q; apply e; now apply ast_name_empty].
    now rewrite (st_order1 _ _ _ _ _ _ ST), (st_order2 _ _ _ _ _ _ ST). }
  rewrite HC. cbn [flift fbind]. rewrite <- H9. eexists. split; [reflexivity|].
  cbn [g_options g_src g_dst_name g_interfaceType g_genericTypes g_genericParams g_methods]. rewrite H10, H11, EN, (sb_path _ _ _ _ _ _ SB).
  repeat split; auto. f_equal.
  destruct (String.eqb (pk_path (g_src g1)) (g_dst_path g1)); [reflexivity|]. rewrite <- app_assoc. reflexivity.
Qed.

Lemma done_prepared W P E X t args t' : RunGen W P Or E X fuel args t = (Done, t') ->
  exists f rest o g out t1, parse_flags flags0 args = inl (f, rest) /\ checkFlags f = None /\ getOptions W P f t = (inl o, t1) /\
    NewGenerator Or E P fuel (go_options o) = Some (Ok g) /\ Generate X g o = Ok out /\ t' = t1 ++ [EMkdir (Dir (f_o f)); EWrite (f_o f) out].
Proof.
  unfold RunGen. intros H. destruct (parse_flags flags0 args) as [[f rest]|]; [|discriminate].
  destruct (checkFlags f) eqn:EC; [discriminate|]. unfold bind in H at 1. destruct (getOptions W P f t) as [[o|[e|m]] t1] eqn:EG; try discriminate.
  destruct (NewGenerator Or E P fuel (go_options o)) as [[g|e|m]|] eqn:EN; try discriminate.
  destruct (Generate X g o) as [out|e|m] eqn:EX; try discriminate.
  unfold bind, ask, emit, ret in H. destruct (io_mkdir W t1 (Dir (f_o f))); [discriminate|].
  destruct (io_write W _ (f_o f) out); [discriminate|]. injection H as <-. exists f, rest, o, g, out, t1. rewrite <- app_assoc. auto 10.
Qed.

(** The first run, with the flags [f], writes [f_o f], whose last element is
    [b], in the directory [outdir].  Its source package is [src], its template
    the text [body] with the name [u] in the directive.  Then the line of the
    directive is in the source of the written file, go generate reads it as
    a gowrap command, and in [outdir] that command writes the same bytes to the
    same file.

    Of the packages it is assumed that the destination loads in the second run,
    and that the source package is the one of the first run, except that it may
    have generated files (like the one written) if it is the destination. *)
Theorem C78_regenerates_partial : forall env args f rest t t' b outdir out_path src body u t1 src2 dst l ex1 ex2 t2,
  (match io_cwd W1 with inl d => rooted d = true | inr _ => True end) ->
  parse_flags flags0 args = inl (f, rest) -> f_g f = false -> has_prefix "http://" (f_t f) = false ->
  RunGen W1 P1 Or E1 X1 fuel args t = (Done, t') ->
  file_named (f_o f) b -> Abs W1 (Dir (f_o f)) = inl outdir -> Abs W1 (f_o f) = inl out_path ->
  w_load P1 (if String.eqb (f_p f) "" then "./" else f_p f) = Ok src ->
  loadTemplate W1 (f_t f) outdir t = (inl (body, u), t1) ->
  (* what the directive names can be written in one *)
  plain_word (pk_path src) -> plain_word (f_i f) -> plain_word u -> plain_word b ->
  Forall plain_word (map var_arg (f_v f)) -> plain_quoted (f_l f) ->
  (* the second run *)
  same_files W1 W2 outdir out_path -> Abs W2 u <> inl out_path ->
  same_tools E1 E2 X1 X2 (f_o f) b -> same_packages P1 P2 ->
  w_load P2 (pk_path src) = Ok src2 -> same_but P1 l ex1 ex2 src src2 -> ast_ok src2 = Ok tt ->
  ~ In (f_i f) (type_names_of ex1) -> ~ In (f_i f) (type_names_of ex2) ->
  destination_loads P1 P2 (dstPackagePath (f_o f)) dst ->
  (pk_path dst = pk_path src /\ (exists p, w_load P1 (dstPackagePath (f_o f)) = Ok p) \/ pk_path dst <> pk_path src /\ ex1 = [] /\ ex2 = []) ->
  exists line words text before after out d1 d2,
    text = (before ++ nl ++ line ++ nl ++ after)%string /\ x_process X1 (f_l f) (f_o f) text = inl out /\
    t' = d1 ++ [EWrite (f_o f) out] /\
    go_generate_words env line = Some ("gowrap" :: "gen" :: words) /\
    RunGen W2 P2 Or E2 X2 fuel words t2 = (Done, d2 ++ [EWrite b out]) /\
    Abs W2 b = Abs W1 (f_o f).
Proof.
  intros env args f rest t t' b outdir out_path src body u t1 src2 dst l ex1 ex2 t2
    HC HP HG NH HR HB HOD HOP HS HT PW1 PW2 PW3 PW4 PW5 PW6 SF NU ST SP HS2 SB AO N1 N2 DL HX.
  destruct (done_prepared _ _ _ _ _ _ _ HR) as (f0 & rest0 & o1 & g1 & out & tt1 & HP0 & HCF & HGO & HNG & HGen & HTr).
  rewrite HP in HP0. injection HP0 as <- <-.
  destruct (same_file W1 W2 (f_o f) b outdir HC HB HOD (sf_cwd _ _ _ _ SF)) as (RO & SAME & DP & DB).
  (* the options of the first run *)
  unfold getOptions in HGO. rewrite HOD, HS in HGO. unfold bind in HGO. rewrite HT in HGO. unfold ret in HGO. injection HGO as <- <-.
  cbn [go_options go_vars go_header] in *.
  assert (GS : g_src g1 = src).
  { destruct (NewGenerator_inv _ _ _ _ _ _ HNG) as (o & _ & _ & [HI|(HI & _)] & _); cbn in HI; congruence. }
  destruct (new_options P1 Or E1 fuel _ _ HNG) as (imps & HOpt).
  (* the second run's options *)
  destruct (same_template W1 W2 (f_t f) outdir out_path t body u t1 t2 HC RO NH SF HT NU) as (outdir2 & t2' & HD2 & HT2).
  set (o2 := Options (f_i f) [] (pk_path src2) (Some src2) "" b "header" body (f_l f)).
  destruct (same_generator (Options (f_i f) [] (pk_path src) (Some src) "" (f_o f) "header" body (f_l f)) o2 g1 src2 dst l ex1 ex2 HNG) as
    (g2 & HN2 & G1 & G2 & G3 & G4 & G5 & G6 & G7).
  { exact ST. } { exact SP. } { cbn. now rewrite GS. } { right. rewrite GS. eauto. }
  { unfold o2. cbn. now rewrite (sb_path _ _ _ _ _ _ SB). }
  { exact DP. } { now rewrite GS. } { exact AO. } { rewrite GS. intros Q. destruct PW1 as (NE & _). contradiction. }
  { exact N1. } { exact N2. } { exact DL. } { rewrite GS. exact HX. }
  (* the words *)
  destruct (parsed_vars args flags0 f rest (ex_intro _ [] eq_refl) HP) as (vs & HV).
  assert (HVS : map var_arg (f_v f) = vs) by (rewrite HV; apply set_all_args). rewrite HVS in PW5.
  destruct (directive_reproduces_partial env (pk_path src) (f_i f) u b vs (f_l f) PW1 PW2 PW3 PW4 PW5 PW6) as (words & HW & HPW).
  rewrite <- HV in HW, HPW.
  assert (EH : forall gg, pk_path (g_src gg) = pk_path src -> op_interface (g_options gg) = f_i f -> op_prefix (g_options gg) = f_l f ->
    exists before after, header_text gg (HeaderVars false b (varsToArgs (f_v f)) u) =
      (before ++ nl ++ directive (pk_path src) (f_i f) u b (varsToArgs (f_v f)) (f_l f) ++ nl ++ after)%string).
  { intros gg Q1 Q2 Q3. unfold header_text. cbn [hv_template hv_disable hv_output hv_args]. rewrite Q1, Q2, Q3.
    generalize (directive (pk_path src) (f_i f) u b (varsToArgs (f_v f)) (f_l f)). intros d.
    exists ("// Code generated by gowrap. DO NOT EDIT." ++ nl ++ "// template: " ++ u ++ nl ++
      "// gowrap: http://github.com/hexdigest/gowrap" ++ nl ++ nl ++ "package " ++ g_dst_name gg ++ nl ++ nl)%string.
    eexists. rewrite ?sapp_assoc. cbn [append]. repeat (rewrite ?sapp_assoc; cbn [append]). reflexivity. }
  assert (HB1 : header_text g1 (HeaderVars (f_g f) (Base (f_o f)) (varsToArgs (f_v f)) u) = header_text g1 (HeaderVars false b (varsToArgs (f_v f)) u)).
  { now rewrite HG, (Base_named _ _ HB). }
  unfold Generate in HGen. cbn [go_vars go_header] in HGen. rewrite HB1 in HGen.
  destruct (x_body X1 g1 (toMap (f_v f))) as [bd| |] eqn:EBd; try discriminate. cbn [rbind] in HGen.
  rewrite HOpt in HGen. cbn [op_prefix op_output with_imports] in HGen.
  destruct (x_process X1 (f_l f) (f_o f) (header_text g1 (HeaderVars false b (varsToArgs (f_v f)) u) ++ bd)) as [out'|] eqn:EPr; [|discriminate].
  injection HGen as ->.
  destruct (EH g1) as (before & after & HH); [now rewrite GS|rewrite HOpt; reflexivity|rewrite HOpt; reflexivity|].
  exists (directive (pk_path src) (f_i f) u b (varsToArgs (f_v f)) (f_l f)), words, (header_text g1 (HeaderVars false b (varsToArgs (f_v f)) u) ++ bd)%string,
    before, (after ++ bd)%string, out, (t1 ++ [EMkdir (Dir (f_o f))]), (t2' ++ [EMkdir "."]).
  split. { rewrite HH. now rewrite !sapp_assoc. }
  split. { exact EPr. }
  split. { rewrite HTr, <- app_assoc. reflexivity. }
  split. { exact HW. }
  split; [|exact SAME].
  (* the second run *)
  assert (HCF2 : checkFlags (Flags false (f_i f) (pk_path src) b u (f_v f) (f_l f)) = None).
  { unfold checkFlags. cbn. destruct PW4 as (NB & _). destruct PW2 as (NI & _). destruct PW3 as (NU3 & _).
    apply String.eqb_neq in NB. apply String.eqb_neq in NI. apply String.eqb_neq in NU3. now rewrite NB, NI, NU3. }
  assert (HGO2 : getOptions W2 P2 (Flags false (f_i f) (pk_path src) b u (f_v f) (f_l f)) t2 =
    (inl (GenOptions o2 (toMap (f_v f)) (HeaderVars false b (varsToArgs (f_v f)) u)), t2')).
  { unfold getOptions. cbn [f_o f_p f_t f_i f_l f_v f_g]. rewrite DB, HD2.
    destruct PW1 as (NP & _). apply String.eqb_neq in NP. rewrite NP, HS2. unfold bind. rewrite HT2. unfold ret.
    assert (Base b = b) as ->. { apply Base_named. destruct HB as (A & B & _). split; [exact A|]. split; [exact B|now left]. }
    reflexivity. }
  assert (HX2 : x_body X2 g2 (toMap (f_v f)) = Ok bd).
  { rewrite <- EBd. apply (st_body _ _ _ _ _ _ ST).
    - rewrite G1, HOpt. reflexivity.
    - unfold body_inputs. rewrite G1, G4, G5, G6, G7, HOpt. reflexivity. }
  assert (HGen2 : Generate X2 g2 (GenOptions o2 (toMap (f_v f)) (HeaderVars false b (varsToArgs (f_v f)) u)) = Ok out).
  { unfold Generate. cbn [go_vars go_header]. rewrite HX2. cbn [rbind].
    assert (header_text g2 (HeaderVars false b (varsToArgs (f_v f)) u) = header_text g1 (HeaderVars false b (varsToArgs (f_v f)) u)) as ->.
    { unfold header_text. rewrite G1, G2, G3, HOpt, GS, (sb_path _ _ _ _ _ _ SB). reflexivity. }
    rewrite G1. cbn [op_prefix op_output with_imports]. cbn [o2 op_prefix op_output].
    rewrite (st_process _ _ _ _ _ _ ST _ _ _ EPr). reflexivity. }
  unfold RunGen. rewrite HPW, HCF2, (bind_eq _ _ _ _ _ HGO2). cbn [go_options]. fold o2 in HN2. rewrite HN2, HGen2.
  cbn [f_o]. rewrite DB. unfold bind, ask, emit, ret. rewrite (sf_mkdir _ _ _ _ SF), (sf_write _ _ _ _ SF). reflexivity.
Qed.
End Regenerate.

(** ** Example: gowrap gen -p x/main -i Store -t tpl/log -o ./store_log.go, run in the directory of x/main,
    where the file tpl/log is the stock log template, and then the directive of ./store_log.go *)
From Verif Require Import PropResolve.

Definition Wdir (cwd : string) : io :=
  IO (fun _ => None) (fun _ _ => inr (Sentinel "offline")) (fun _ _ => false)
     (fun _ name => if String.eqb (Clean (if rooted name then name else cwd ++ "/" ++ name)) "/home/dev/tpl/log" && negb (has_prefix "https://" name)
                    then FOk text_log else FNotExist (Sentinel "no such file"))
     (fun _ => inr (Sentinel "no git")) (fun _ => inr (Sentinel "")) (fun _ => inr (Sentinel "")) (inl cwd)
     (fun _ _ => None) (fun _ _ _ => None).

Definition plog : package := Package "log" "log" [] [] None.
Definition gen_file : gofile :=
  GoFile [TypeSpec "StoreWithLog" None (StructT [])] [ImportSpec (Some "goio") (quoted "io"); ImportSpec None (quoted "log")].
Definition pmain2 : package := Package "x/main" "main" (pk_files pmain ++ [gen_file]) [("log", "log"); ("io", "io")] None.
Definition Pfirst : world := world_of [("io", pio); ("x/main", pmain); ("log", plog); ("./.", pmain)].
(** the files and the imports come in the opposite order in the second run *)
Definition Psecond : world :=
  World (w_pkg Pfirst)
        (fun path => if String.eqb path "x/main" || String.eqb path "./." then Ok pmain2 else w_load Pfirst path)
        (fun _ p => rev (pk_files p)) (fun _ p => rev (pk_imports p)).
Definition Esecond : env := Env (e_parse Erun) (e_title Erun) (fun ms => rev ms).
Definition store_line : list string := ["-p"; "x/main"; "-i"; "Store"; "-v"; "level=debug"; "-t"; "tpl/log"; "-o"; "./store_log.go"].

Lemma known_first p : known Pfirst p -> p = pio \/ p = pmain \/ p = plog.
Proof.
  intros [(id & H)|(path & H)].
  - cbn in H. repeat match type of H with (if ?c then _ else _) = _ => destruct c; [injection H as <-; auto|] end. discriminate.
  - cbn in H. repeat match type of H with context [if ?c then _ else _] => destruct c; [injection H as <-; auto|] end. discriminate.
Qed.

Lemma mention_cases f e : mentions f e -> exists ts, In ts (gf_types f) /\
  In e (ts_type ts :: match ts_type ts with InterfaceT (Some l) => map f_type l | _ => [] end).
Proof.
  intros (ts & Hi & [<-|(l & fd & E & Hf & <-)]); exists ts; (split; [exact Hi|]); [now left|]. right. rewrite E. now apply in_map.
Qed.
Ltac in_cases := repeat match goal with
  | H : False |- _ => destruct H
  | H : _ \/ _ |- _ => destruct H; subst
  | H : In _ _ |- _ => progress cbn in H
  end; subst.
Ltac mention H := apply mention_cases in H; let ts := fresh "ts" in let A := fresh "A" in let B := fresh "B" in
  destruct H as (ts & A & B); in_cases.

Lemma same_first p : known Pfirst p -> same_but Pfirst (pk_files p) [] [] p p.
Proof.
  intros K. constructor; try reflexivity.
  - now rewrite app_nil_r.
  - now rewrite app_nil_r.
  - rewrite app_nil_r. destruct (known_first p K) as [->|[->| ->]]; cbn; nodup.
  - rewrite app_nil_r. destruct (known_first p K) as [->|[->| ->]]; cbn; nodup.
  - intros. split; intros [].
  - destruct (known_first p K) as [->|[->| ->]]; cbn; nodup.
  - destruct (known_first p K) as [->|[->| ->]]; cbn; nodup.
  - intros f e q Hf Hm Hq path id b path' id' b' H1 H2. destruct (known_first p K) as [->|[->| ->]]; cbn in H1, H2; in_cases; congruence.
Qed.
Lemma same_main : same_but Pfirst (pk_files pmain) [] [gen_file] pmain pmain2.
Proof.
  constructor; try reflexivity.
  - cbn; nodup.
  - cbn; nodup.
  - intros f e n Hf Hm Hn. split; [intros []|]. in_cases; mention Hm; cbn in Hn; in_cases; intros [Q|[]]; discriminate Q.
  - cbn; nodup.
  - cbn; nodup.
  - intros f i path Hf Hi Ha Hu. in_cases; cbn in Hu; try (injection Hu as <-); try reflexivity; exfalso; apply Ha; reflexivity.
  - intros f e q Hf Hm Hq path id b Hb Hn. cbn. split; [intuition|]. intros [H|H]; [|exact H].
    injection H as <- <-. cbn in Hb. injection Hb as <-. cbn in Hn. exfalso. subst q.
    in_cases; mention Hm; cbn in Hq; in_cases; discriminate.
  - intros f e q Hf Hm Hq path id b path' id' b' H1 H2. cbn in H1, H2; in_cases; congruence.
Qed.
Lemma same_run_packages : same_packages Pfirst Psecond.
Proof.
  constructor.
  - reflexivity.
  - exact same_first.
  - reflexivity.
  - intros. symmetry. apply Permutation_rev.
  - reflexivity.
  - intros. symmetry. apply Permutation_rev.
  - intros p f ts q s K (Hf & Ht) E. destruct (known_first p K) as [->|[->| ->]]; in_cases; cbn in E; try discriminate. injection E as <- <-.
    split.
    + eexists. split; [left; reflexivity|]. right. split; [reflexivity|]. exists "io". split; [reflexivity|]. split; [reflexivity|]. now left.
    + intros i Hi. in_cases. exists "io". repeat split.
Qed.

Lemma dir_abs d p a : rooted d = true -> Abs (Wdir d) p = inl a ->
  rooted a = true /\ Clean a = Clean (if rooted p then p else d ++ "/" ++ p)%string.
Proof.
  intros RD H. split; [eapply Abs_rooted; [|exact H]; exact RD|]. unfold Abs in H. cbn [io_cwd Wdir] in H. destruct (rooted p) eqn:R.
  - injection H as <-. now apply Clean_Clean.
  - injection H as <-. destruct p as [|c p].
    + unfold Join2. destruct d as [|x d]; [discriminate|]. rewrite Clean_Clean by exact RD.
      apply Clean_comps; [exact RD|now apply rooted_app|]. now rewrite comps_trail.
    + rewrite Join2_slash by (auto; discriminate). rewrite Clean_Clean by now apply rooted_app. reflexivity.
Qed.
Lemma Wdir_same d d' out : rooted d = true -> rooted d' = true -> same_files (Wdir d) (Wdir d') d' out.
Proof.
  intros R1 R2. constructor; try reflexivity.
  - intros t1 t2 p1 p2 a1 a2 body A1 A2 EQ _ NU HR. destruct (dir_abs d p1 a1 R1 A1) as (_ & B1). destruct (dir_abs d' p2 a2 R2 A2) as (_ & B2).
    cbn [io_read Wdir] in *. rewrite <- B2, <- EQ, B1, NU. destruct (_ && _) eqn:E in HR; [|discriminate]. apply andb_prop in E. destruct E as [E _].
    rewrite E. exact HR.
  - intros t1 t2 u body HU HG. exfalso. cbn in HG. discriminate.
  - intros t u body HU. cbn [io_read Wdir]. rewrite HU, andb_false_r. discriminate.
  - intros t u HU. cbn [io_read Wdir]. rewrite HU, andb_false_r. eauto.
Qed.

Ltac plain := split; [discriminate|split;
  [let c := fresh "c" in let H := fresh "H" in intros c H; cbn in H;
   repeat (destruct H as [<-|H]; [repeat split; discriminate|]); contradiction
  | let r := fresh "r" in let H := fresh "H" in intros r H; discriminate H]].

Example C78_nontrivial : exists line words text before after out d1 d2,
  text = (before ++ nl ++ line ++ nl ++ after)%string /\
  RunGen (Wdir "/home/dev") Pfirst Oex Erun Xrun 20 store_line [] = (Done, d1 ++ [EWrite "./store_log.go" out]) /\ text = out /\
  go_generate_words (fun _ => "") line = Some ("gowrap" :: "gen" :: words) /\
  RunGen (Wdir "/home/dev") Psecond Oex Esecond Xrun 20 words [] = (Done, d2 ++ [EWrite "store_log.go" out]).
Proof.
  destruct (C78_regenerates_partial (Wdir "/home/dev") (Wdir "/home/dev") Pfirst Psecond Oex Erun Esecond Xrun Xrun 20
    (fun _ => "") store_line (Flags false "Store" "x/main" "./store_log.go" "tpl/log" [("level", VStr "debug")] "") [] []
    (snd (RunGen (Wdir "/home/dev") Pfirst Oex Erun Xrun 20 store_line [])) "store_log.go" "/home/dev" "/home/dev/store_log.go"
    pmain text_log "tpl/log" [EReadFile "tpl/log"] pmain2 pmain2 (pk_files pmain) [] [gen_file] [])
    as (line & words & text & before & after & out & d1 & d2 & H1 & H2 & H3 & H4 & H5 & _).
  - reflexivity.
  - reflexivity.
  - reflexivity.
  - reflexivity.
  - vm_compute. reflexivity.
  - split; [discriminate|]. split; [unfold no_slash; cbn; intuition discriminate|]. right. exists ".". reflexivity.
  - reflexivity.
  - reflexivity.
  - reflexivity.
  - vm_compute. reflexivity.
  - plain.
  - plain.
  - plain.
  - plain.
  - constructor; [plain|constructor].
  - intros c [].
  - now apply Wdir_same.
  - discriminate.
  - constructor; intros; auto.
    + symmetry. apply Permutation_rev.
    + cbn. now rewrite H, H0.
  - apply same_run_packages.
  - reflexivity.
  - apply same_main.
  - reflexivity.
  - intros [].
  - cbn. intuition discriminate.
  - split; [reflexivity|]. cbn. auto.
  - left. split; [reflexivity|]. eexists. reflexivity.
  - exists line, words, text, before, after, out, d1, d2. split; [exact H1|]. split; [|split; [|split; [exact H4|exact H5]]].
    + cbn [f_o] in H3. rewrite <- H3. vm_compute. reflexivity.
    + cbn in H2. congruence.
Qed.

(** ** Where it is false

    The property in full has none of the hypotheses about names above: whenever
    a run has written a file, [go generate] in the file's directory writes it
    again.  The four witnesses each drop one of them. *)

(** [line] is one of the lines of [text] *)
Definition a_line (line text : string) : Prop := exists before after, text = (before ++ nl ++ line ++ nl ++ after)%string.
Fixpoint find_line (n : nat) (line text : string) : option (string * string) :=
  match n with
  | 0 => None
  | S k => match text with
           | EmptyString => None
           | String c rest =>
               if has_prefix (nl ++ line ++ nl) text then Some ("", String.substring (String.length (nl ++ line ++ nl)) (String.length text) text)
               else match find_line k line rest with Some (a, b) => Some (String c a, b) | None => None end
           end
  end.
Definition one_line (line text : string) : bool :=
  match find_line (String.length text) line text with
  | Some (a, b) => String.eqb text (a ++ nl ++ line ++ nl ++ b)
  | None => false
  end.
Lemma one_line_true line text : one_line line text = true -> a_line line text.
Proof. unfold one_line. destruct (find_line _ _ _) as [[a b]|]; [|discriminate]. intros H. apply String.eqb_eq in H. now exists a, b. Qed.

(** what the first run writes is written differently, or not at all, by the second *)
Definition not_again (W1 W2 : io) (P1 P2 : world) (args : list string) (o b : string) : Prop :=
  exists line words d1 out, RunGen W1 P1 Oex Erun Xrun 20 args [] = (Done, d1 ++ [EWrite o out]) /\ a_line line out /\
    go_generate_words (fun _ => "") line = Some ("gowrap" :: "gen" :: words) /\
    forall d2, RunGen W2 P2 Oex Erun Xrun 20 words [] <> (Done, d2 ++ [EWrite b out]).

Definition last_write (r : _ * list eff) : option (string * string) :=
  match fst r, rev (snd r) with Done, EWrite o s :: _ => Some (o, s) | _, _ => None end.
Lemma last_write_app d o s : last_write (Done, d ++ [EWrite o s]) = Some (o, s).
Proof. unfold last_write. cbn. now rewrite rev_app_distr. Qed.
Lemma last_write_inv r o s : last_write r = Some (o, s) -> exists d, r = (Done, d ++ [EWrite o s]).
Proof.
  unfold last_write. destruct r as [[] t]; cbn; try discriminate. destruct (rev t) as [|e l] eqn:E; [discriminate|].
  destruct e; try discriminate. intros [= <- <-]. exists (rev l). f_equal. rewrite <- (rev_involutive t), E. reflexivity.
Qed.
Definition differ (W1 W2 : io) (P1 P2 : world) (args : list string) (line : string) (o b : string) : bool :=
  match last_write (RunGen W1 P1 Oex Erun Xrun 20 args []), go_generate_words (fun _ => "") line with
  | Some (o', s), Some (g1 :: g2 :: words) =>
      String.eqb o' o && one_line line s && String.eqb g1 "gowrap" && String.eqb g2 "gen" &&
      match last_write (RunGen W2 P2 Oex Erun Xrun 20 words []) with
      | Some (b', s') => negb (String.eqb b' b && String.eqb s' s)
      | None => true
      end
  | _, _ => false
  end.
Lemma differ_true W1 W2 P1 P2 args line o b : differ W1 W2 P1 P2 args line o b = true -> not_again W1 W2 P1 P2 args o b.
Proof.
  unfold differ. destruct (last_write _) as [[o' s]|] eqn:E1; [|discriminate].
  destruct (go_generate_words _ line) as [[|g1 [|g2 words]]|] eqn:E2; try discriminate. intros H.
  repeat match type of H with (_ && _ = true) => apply andb_prop in H; destruct H as [H ?] end.
  apply String.eqb_eq in H, H1, H2. subst. apply one_line_true in H3. destruct (last_write_inv _ _ _ E1) as (d & E).
  exists line, words, d, s. split; [exact E|]. split; [exact H3|]. split; [exact E2|].
  intros d2 Q. rewrite Q, last_write_app in H0. now rewrite !String.eqb_refl in H0.
Qed.

(** 1. The generated file imports a package of the same name as the one the
    interface embeds from.  [log.Logger] was go-kit's interface; once the
    generated file imports the standard library's log, it may be that
    package's struct, whose methods are not looked for: [Log] is missing from
    the file written by the second run. *)
Definition pkit : package := Package "github.com/go-kit/log" "log" [GoFile [iface "Logger" [meth "Log" [Ellipsis (Ident "any")] [Ident "error"]]] []] [] None.
Definition pstdlog : package := Package "log" "log" [GoFile [TypeSpec "Logger" None (StructT [])] []] [] None.
Definition svc_file : gofile :=
  GoFile [iface "Svc" [meth "Get" [Ident "string"] [Ident "string"]; emb (Selector (Ident "log") "Logger")]] [ImportSpec None (quoted "github.com/go-kit/log")].
Definition svc_gen : gofile :=
  GoFile [TypeSpec "SvcWithLog" None (StructT [])] [ImportSpec None (quoted "github.com/go-kit/log"); ImportSpec (Some "stdlog") (quoted "log")].
Definition psvc : package := Package "x/svc" "svc" [svc_file] [("github.com/go-kit/log", "github.com/go-kit/log")] None.
Definition psvc2 : package := Package "x/svc" "svc" [svc_file; svc_gen] [("log", "log"); ("github.com/go-kit/log", "github.com/go-kit/log")] None.
Definition svc_world (p : package) : world := world_of [("x/svc", p); ("./.", p); ("log", pstdlog); ("github.com/go-kit/log", pkit)].
Definition svc_line : list string := ["-p"; "x/svc"; "-i"; "Svc"; "-t"; "tpl/log"; "-o"; "svc_log.go"].
Theorem C78_embedded_package_refuted : not_again (Wdir "/home/dev") (Wdir "/home/dev") (svc_world psvc) (svc_world psvc2) svc_line "svc_log.go" "svc_log.go".
Proof. apply (differ_true _ _ _ _ _ "//go:generate gowrap gen -p x/svc -i Svc -t tpl/log -o svc_log.go -l """""). vm_compute. reflexivity. Qed.

(** 2. The destination's package cannot be loaded once the file is there (a
    package with any load error counts as not loaded): the first run named the
    package after its directory, but the second knows the directory as ["."]. *)
Definition out_line : list string := ["-p"; "x/main"; "-i"; "Store"; "-t"; "tpl/log"; "-o"; "deco/store_log.go"].
Theorem C78_destination_refuted :
  not_again (Wdir "/home/dev") (Wdir "/home/dev/deco") (world_of [("io", pio); ("x/main", pmain); ("log", plog)])
    (world_of [("io", pio); ("x/main", pmain); ("log", plog)]) out_line "deco/store_log.go" "store_log.go".
Proof. apply (differ_true _ _ _ _ _ "//go:generate gowrap gen -p x/main -i Store -t ../tpl/log -o store_log.go -l """""). vm_compute. reflexivity. Qed.

(** 3. A template fetched over plain http: the directive names a file. *)
Definition Whttp (cwd : string) : io :=
  IO (fun _ => None) (fun _ url => if String.eqb url "http://h/log" then inl (Resp 200 (text_log, None) None) else inr (Sentinel "offline")) (fun _ _ => false)
     (fun _ _ => FNotExist (Sentinel "no such file"))
     (fun _ => inr (Sentinel "no git")) (fun _ => inr (Sentinel "")) (fun _ => inr (Sentinel "")) (inl cwd)
     (fun _ _ => None) (fun _ _ _ => None).
Definition http_line : list string := ["-p"; "x/main"; "-i"; "Store"; "-t"; "http://h/log"; "-o"; "./store_log.go"].
Theorem C78_http_template_refuted :
  not_again (Whttp "/home/dev") (Whttp "/home/dev") Pfirst Pfirst http_line "./store_log.go" "store_log.go".
Proof. apply (differ_true _ _ _ _ _ "//go:generate gowrap gen -p x/main -i Store -t http:/h/log -o store_log.go -l """""). vm_compute. reflexivity. Qed.

(** 4. A dollar sign (or a blank) in a template variable: go generate expands
    it. *)
Definition dollar_line : list string := ["-p"; "x/main"; "-i"; "Store"; "-v"; "cost=5$US"; "-t"; "tpl/log"; "-o"; "./store_log.go"].
Theorem C78_dollar_refuted :
  not_again (Wdir "/home/dev") (Wdir "/home/dev") Pfirst Pfirst dollar_line "./store_log.go" "store_log.go".
Proof. apply (differ_true _ _ _ _ _ "//go:generate gowrap gen -p x/main -i Store -t tpl/log -o store_log.go -v cost=5$US -l """""). vm_compute. reflexivity. Qed.

Print Assumptions C78_regenerates_partial.
Print Assumptions C78_nontrivial.
Print Assumptions C78_embedded_package_refuted.
Print Assumptions C78_destination_refuted.
Print Assumptions C78_http_template_refuted.
Print Assumptions C78_dollar_refuted.
