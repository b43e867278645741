(** C64: from the command line to the generated declarations. *)
From Coq Require Import Permutation.
From Verif Require Import Cmd Render PropLoader PropCmd PropResolve PropGenerator PropFlags.
From Verif Require Import ResolveSpec ResolveProofs GeneratorProofs NewGenProofs PropSource PropErrors RenderProofs Generated4 PropImplements.
Open Scope nat_scope.

(** ** Statement *)

(** the data a generator hands to the body template *)
Definition data_from (g : generator) (vars : list (string * varval)) : tdata :=
  TData (op_interface (g_options g)) (g_interfaceType g) (g_genericTypes g) (g_genericParams g)
        (g_methods g) (op_imports (g_options g)) vars.

Section E2E.
Variables (lower upper : N -> N).                  (* unicode.ToLower, unicode.ToUpper *)
Variables (W : io) (PW : world) (Or : oracle) (E : env) (X : Cmd.exec) (fuel : nat).

(** text/template does what Tmpl.v says wherever that says something *)
Definition template_package : Prop :=
  e_parse E "header" = None /\
  (forall t ns, parse t = Some ns -> e_parse E t = None) /\
  (forall g vars r, run_template lower upper (op_body (g_options g)) (body_inputs g vars) = Some r -> x_body X g vars = r).

(** the source handed to imports.Process: the executed header, then a text whose declarations are [decls] *)
Definition source_of (g : generator) (h : headervars) (src : string) (decls : list (list gtok)) : Prop :=
  exists hdr c, run_template lower upper text_header (header_inputs g h) = Some (Ok hdr) /\
    src = (hdr ++ text_of c)%string /\ lexes c decls.

(** ** Proof *)

Lemma new_options : forall o g, NewGenerator Or E PW fuel o = Some (Ok g) -> exists imps, g_options g = with_imports imps o.
Proof.
  unfold NewGenerator. intros o g H.
  apply fbind_ok in H. destruct H as ([] & _ & H). apply fbind_ok in H. destruct H as ([] & _ & H).
  apply fbind_ok in H. destruct H as (src & _ & H). apply fbind_ok in H. destruct H as ([dn dp] & _ & H). cbn [fst snd] in H.
  apply fbind_ok in H. destruct H as ([] & _ & H). apply fbind_ok in H. destruct H as (out & _ & H).
  destruct (out_methods out) as [[|km ms]|]; try discriminate.
  apply fbind_ok in H. destruct H as ([] & _ & H).
  destruct (buildVars (out_gtypes out)) as [gt gp]. injection H as <-. eexists. reflexivity.
Qed.

Lemma body_runs : forall g vars text decls, template_package -> op_body (g_options g) = text ->
  generates lower upper text (data_from g vars) decls ->
  exists c, x_body X g vars = Ok (text_of c) /\ lexes c decls.
Proof.
  intros g vars text decls (_ & _ & HX) Hb (ns & c & Hp & He & Hl). exists c. split; [|exact Hl].
  apply HX. unfold run_template. rewrite Hb, Hp. change (body_inputs g vars) with (data_of (data_from g vars)). now rewrite He.
Qed.

(** executing a stock body template neither fails nor panics, whatever the interface and the variables *)
Theorem C64_body : forall text suffix g vars, template_package ->
  In (text, suffix) stock -> op_body (g_options g) = text ->
  exists c decls, x_body X g vars = Ok (text_of c) /\ lexes c decls /\
    implements (decorator (data_from g vars) suffix) (g_interfaceType g) (map snd (g_methods g)) decls.
Proof.
  intros text suffix g vars HT Hs Hb.
  destruct (C31_implements_partial text suffix lower upper (data_from g vars) Hs) as (decls & Hg & Hi).
  destruct (body_runs g vars text decls HT Hb Hg) as (c & Hc & Hl). exists c, decls. auto.
Qed.

(** the source package flag, with its default *)
Definition source_flag (l : list form) : string := if String.eqb (value "p" l) "" then "./" else value "p" l.

(** A run of gen with a stock template that reports success has written one file, last of all: what
    imports.Process made of a source that has the header and, for every method of the interface's method set
    in the source package, a declaration of it on the decorator type (or the embedded interface), with the
    signature of a declaration in the method set. *)
Theorem C64_success : forall l t t' text suffix,
  template_package -> well_formed PW -> Forall form_ok l ->
  In (text, suffix) stock ->
  (forall s u t1, localLoad W (value "t" l) t = ((s, u, None), t1) -> s = text) ->
  RunGen W PW Or E X fuel (args_of l) t = (Done, t') ->
  exists p g h t1 file src decls,
    w_load PW (source_flag l) = Ok p /\ g_src g = p /\
    t' = t1 ++ [EMkdir (Dir (value "o" l)); EWrite (value "o" l) file] /\
    io_mkdir W t1 (Dir (value "o" l)) = None /\
    io_write W (t1 ++ [EMkdir (Dir (value "o" l))]) (value "o" l) file = None /\
    x_process X (value "l" l) (value "o" l) src = inl file /\
    source_of g h src decls /\
    implements (decorator (data_from g (toMap (map (fun a => match cut "=" a with None => (a, VTrue) | Some (n, x) => (n, VStr x) end) (said "v" l)))) suffix)
               (g_interfaceType g) (map snd (g_methods g)) decls /\
    (forall k, In k (map fst (g_methods g)) <-> in_set PW p (value "i" l) k) /\
    NoDup (map fst (g_methods g)) /\
    (forall k m, In (k, m) (g_methods g) ->
       m_name m = k /\ exists a, made_of Or PW p a (value "i" l) k m).
Proof.
  intros l t t' text suffix HT WF Hl Hs Hload H.
  destruct (PropFlags.run_forms l Hl) as (f & Hp & Hsays). pose proof Hsays as (_ & Hi & Hpk & Ho & Ht & Hlp & Hv). cbn in Hi, Hpk, Ho, Ht, Hlp, Hv.
  fold (value "i" l) in Hi. fold (value "p" l) in Hpk. fold (value "o" l) in Ho. fold (value "t" l) in Ht. fold (value "l" l) in Hlp.
  unfold RunGen in H. rewrite Hp in H. destruct (checkFlags f); [discriminate|].
  unfold bind at 1 in H. unfold getOptions in H.
  destruct (Abs W (Dir (f_o f))) as [dir|e]; [|discriminate].
  rewrite Hpk in H. fold (source_flag l) in H.
  destruct (w_load PW (source_flag l)) as [p|e|m] eqn:Ep; [|discriminate|discriminate].
  unfold bind at 1 in H. unfold loadTemplate in H. unfold bind at 1 in H. rewrite Ht in H.
  destruct (localLoad W (value "t" l) t) as [[[s u] [e|]] t1] eqn:El; [discriminate|].
  pose proof (Hload s u t1 eq_refl) as ->. clear Hload.
  set (lu := if has_prefix "https://" u then inl (text, u) else _) in H.
  destruct lu as [[b u']|e] eqn:Elu; [|discriminate]. cbn [ret] in H. unfold ret at 1 in H.
  assert (b = text) as ->.
  { subst lu. destruct (has_prefix "https://" u); [congruence|]. destruct (Abs W u) as [q|]; [|discriminate].
    destruct (Rel dir q); congruence. }
  clear lu Elu.
  set (o := GenOptions _ _ _) in H. unfold ret at 1 in H.
  destruct (NewGenerator Or E PW fuel (go_options o)) as [[g|e|m]|] eqn:Eg; try discriminate.
  destruct (Generate X g o) as [out|e|m] eqn:Egen; try discriminate.
  destruct (new_options _ _ Eg) as (imps & Eopt).
  assert (Hbody : op_body (g_options g) = text) by (rewrite Eopt; reflexivity).
  destruct (C64_body text suffix g (go_vars o) HT Hs Hbody) as (c & decls & Hc & Hlex & Himp).
  unfold Generate in Egen. rewrite Hc in Egen. cbn [rbind] in Egen.
  destruct (x_process X _ _ _) as [file|e] eqn:Ex in Egen; [|discriminate]. injection Egen as <-.
  unfold bind, ask, emit, ret in H. cbn in H.
  destruct (io_mkdir W t1 (Dir (f_o f))) as [e|] eqn:Em; [discriminate|].
  destruct (io_write W (t1 ++ [EMkdir (Dir (f_o f))]) (f_o f) file) as [e|] eqn:Ew; [discriminate|].
  injection H as <-.
  pose proof (NewGenerator_inv _ _ _ _ _ _ Eg) as (ou & _ & _ & Hsrc & _ & _ & Hft & Hms & Hne & _).
  assert (g_src g = p) as Hgp by (destruct Hsrc as [Hsrc|(Hsrc & _)]; cbn in Hsrc; congruence).
  rewrite Hgp in Hft. cbn [op_interface go_options o] in Hft. rewrite Hi in Hft.
  assert (K : known PW p) by (right; eauto).
  exists p, g, (go_header o), t1, file, (header_text g (go_header o) ++ text_of c)%string, decls.
  rewrite Ho in *.
  split; [reflexivity|]. split; [exact Hgp|]. split; [now rewrite <- app_assoc|]. split; [exact Em|]. split; [exact Ew|].
  split. { rewrite Eopt in Ex. cbn [with_imports op_prefix op_output go_options o] in Ex. rewrite Hlp, Ho in Ex. exact Ex. }
  split. { exists (header_text g (go_header o)), c. split; [apply header_rendered|]. now split. }
  split. { cbn [go_vars o] in Himp. rewrite Hv in Himp. exact Himp. }
  split.
  { intros k. pose proof (C12_method_set_partial _ _ _ _ _ _ _ _ _ WF K Hft k) as Hk. rewrite Hms in Hk. exact Hk. }
  split.
  { pose proof (C12_no_duplicates _ _ _ _ _ _ _ _ _ Hft) as Hk. rewrite Hms in Hk. exact Hk. }
  intros k m Hkm. split.
  - pose proof (proj1 (results_named Or PW fuel) _ _ _ _ _ _ Hft) as HN. rewrite Hms in HN. cbn in HN.
    unfold named in HN. rewrite Forall_forall in HN. symmetry. exact (HN _ Hkm).
  - eexists. eapply C63_sourced; eauto.
Qed.

(** Conversely, such a run succeeds when: the three required flags are given and the working directory is
    known; source package and template can be loaded; the output directory has a package or a name for one;
    the source parses, the interface is found in it and has methods, exported ones unless the output goes
    into the source package; imports.Process accepts the source; directory and file can be written. *)
Theorem C64_succeeds : forall l t text suffix u t1 d p dst a out ms,
  template_package -> Forall form_ok l ->
  value "o" l <> "" -> value "i" l <> "" -> value "t" l <> "" ->
  io_cwd W = inl d -> rooted d = true ->
  w_load PW (source_flag l) = Ok p -> pk_ast_err p = None ->
  In (text, suffix) stock -> localLoad W (value "t" l) t = ((text, u, None), t1) ->
  (match w_load PW (dstPackagePath (value "o" l)) with
   | Ok q => dst = (pk_name q, pk_path q)
   | Err _ => Base (dstPackagePath (value "o" l)) <> "/" /\ Base (dstPackagePath (value "o" l)) <> "." /\
              dst = (Base (dstPackagePath (value "o" l)), "")
   | Panic _ => False
   end) ->
  (pk_path p = snd dst /\ a = "" \/ pk_path p <> snd dst /\ a = ("_source" ++ e_title E (pk_name p))%string) ->
  findTarget Or PW fuel [] p a (value "i" l) [] = Some (Ok out) -> out_methods out = Some ms -> ms <> [] ->
  (a = "" \/ Forall (fun km => looks_unexported (o_lower Or) (m_name (snd km)) = Ok false) (e_order E ms)) ->
  (forall g h src decls, source_of g h src decls -> exists file, x_process X (value "l" l) (value "o" l) src = inl file) ->
  io_mkdir W t1 (Dir (value "o" l)) = None ->
  (forall file, io_write W (t1 ++ [EMkdir (Dir (value "o" l))]) (value "o" l) file = None) ->
  exists file, RunGen W PW Or E X fuel (args_of l) t =
    (Done, t1 ++ [EMkdir (Dir (value "o" l)); EWrite (value "o" l) file]).
Proof.
  intros l t text suffix u t1 d p dst a out ms HT Hl No Ni Nt Hd Hrd Hp Hast Hs Hload Hdst Ha Hft Hms Hne Hexp Hproc Hmk Hwr.
  destruct (PropFlags.run_forms l Hl) as (f & Hf & Hsays). pose proof Hsays as (_ & Hi & Hpk & Ho & Ht & Hlp & Hv). cbn in Hi, Hpk, Ho, Ht, Hlp, Hv.
  fold (value "i" l) in Hi. fold (value "p" l) in Hpk. fold (value "o" l) in Ho. fold (value "t" l) in Ht. fold (value "l" l) in Hlp.
  assert (HA : forall x, exists y, Abs W x = inl y /\ rooted y = true).
  { intros x. destruct (Abs W x) as [y|e] eqn:Ex.
    - exists y. split; [reflexivity|]. apply (Abs_rooted W x y); [now rewrite Hd | exact Ex].
    - unfold Abs in Ex. rewrite Hd in Ex. destruct (rooted x); discriminate. }
  unfold RunGen. rewrite Hf. unfold checkFlags. rewrite Ho, Hi, Ht.
  apply String.eqb_neq in No, Ni, Nt. rewrite No, Ni, Nt.
  unfold bind at 1, getOptions. rewrite Ho. destruct (HA (Dir (value "o" l))) as (dir & -> & Hdir).
  rewrite Hpk. fold (source_flag l). rewrite Hp.
  unfold bind at 1, loadTemplate, bind at 1. rewrite Ht, Hload.
  assert (HR : exists u', (if has_prefix "https://" u then inl (text, u)
            else match Abs W u with inr e => inr e | inl q => match Rel dir q with inr e => inr e | inl u0 => inl (text, u0) end end) = inl (text, u')).
  { destruct (has_prefix "https://" u); [eauto|]. destruct (HA u) as (q & -> & Hq).
    unfold Rel. rewrite Hdir, Hq. cbn [andb]. destruct (strip_common (comps dir) (comps q)) as [[|x b] [|y tl]]; eauto. }
  destruct HR as (u' & HR). unfold ret at 1. rewrite HR. unfold ret at 1. rewrite ?Hi, ?Ho, ?Hlp.
  set (o := GenOptions _ _ _).
  assert (HN : exists g, NewGenerator Or E PW fuel (go_options o) = Some (Ok g)).
  { unfold NewGenerator. cbn [go_options o op_header op_body op_instance op_output op_alias op_interface op_imports op_source].
    destruct HT as (-> & HP & _).
    assert (Hb : e_parse E text = None).
    { destruct (C31_implements_partial text suffix lower upper (TData "" "" "" "" [] [] []) Hs) as (decls & (ns & c & Hpt & _) & _). eauto. }
    rewrite Hb. cbn [flift fbind fret].
    assert (HD : loadDestinationPackage PW (dstPackagePath (value "o" l)) = Ok dst).
    { unfold loadDestinationPackage. destruct (w_load PW (dstPackagePath (value "o" l))) as [q|e|m]; [congruence| |contradiction].
      destruct Hdst as (N1 & N2 & ->). unfold makePackage. apply String.eqb_neq in N1, N2. now rewrite N1, N2. }
    rewrite HD. cbn [rwrap flift fbind fret]. unfold ast_ok. rewrite Hast. cbn [rwrap flift fbind fret].
    change (negb (String.eqb "" "")) with false. cbv iota.
    set (a' := if String.eqb (pk_path p) (snd dst) then "" else ("_source" ++ e_title E (pk_name p))%string).
    assert (a' = a) as ->.
    { subst a'. destruct Ha as [(He & ->)|(He & ->)]; [now rewrite He, String.eqb_refl|]. apply String.eqb_neq in He. now rewrite He. }
    rewrite Hft. cbn [fwrap fbind]. rewrite Hms. destruct ms as [|km ms]; [now elim Hne|].
    assert (HC : (if negb (String.eqb a "") then check_exported (o_lower Or) (e_order E (km :: ms)) else Ok tt) = Ok tt).
    { destruct Hexp as [->|HF]; [reflexivity|]. destruct (negb (String.eqb a "")); [|reflexivity].
      clear -HF. induction HF as [|[k m] lm Hx _ IH]; [reflexivity|]. cbn in *. now rewrite Hx. }
    rewrite HC. cbn [flift fbind fret]. destruct (buildVars (out_gtypes out)). eexists. reflexivity. }
  destruct HN as (g & HN). rewrite HN. destruct (new_options _ _ HN) as (imps & Eopt).
  assert (Hbody : op_body (g_options g) = text) by (rewrite Eopt; reflexivity).
  destruct (C64_body text suffix g (go_vars o) HT Hs Hbody) as (c & decls & Hc & Hlex & Himp).
  unfold Generate. rewrite Hc. cbn [rbind].
  destruct (Hproc g (go_header o) (header_text g (go_header o) ++ text_of c)%string decls) as (file & Hx).
  { exists (header_text g (go_header o)), c. split; [apply header_rendered|]. now split. }
  replace (op_prefix (g_options g)) with (value "l" l) by (rewrite Eopt; reflexivity).
  replace (op_output (g_options g)) with (value "o" l) by (rewrite Eopt; reflexivity). rewrite Hx.
  unfold bind, ask, emit, ret. cbn. rewrite Hmk, Hwr. exists file. now rewrite <- app_assoc.
Qed.
End E2E.

(** ** Example: gowrap gen -p x/main -i Base -t tpl -o ./out/base.go, where the file tpl is the stock log
    template, and imports.Process changes nothing *)
Definition Xrun : Cmd.exec :=
  Exec (fun g vars => match run_template (fun n => n) (fun n => n) (op_body (g_options g)) (body_inputs g vars) with
                      | Some r => r | None => Panic "not modelled" end)
       (fun _ _ s => inl s).
Definition Erun : env := Env (fun t => match parse t with Some _ => None | None => Some (Sentinel "parse") end) (fun s => s) (fun ms => ms).
Definition Wrun : io :=
  IO (fun _ => None) (fun _ _ => inr (Sentinel "offline")) (fun _ _ => false)
     (fun _ name => if String.eqb name "tpl" then FOk text_log else FNotExist (Sentinel "no such file"))
     (fun _ => inr (Sentinel "no git")) (fun _ => inr (Sentinel "")) (fun _ => inr (Sentinel "")) (inl "/home/dev")
     (fun _ _ => None) (fun _ _ _ => None).
Definition cmdline : list form := [FSep "-" "p" "x/main"; FSep "-" "i" "Base"; FEq "--" "t" "tpl"; FSep "-" "o" "./out/base.go"].

Lemma Xrun_package : template_package (fun n => n) (fun n => n) Erun Xrun.
Proof.
  split; [vm_compute; reflexivity|]. split; [intros t ns H; cbn; now rewrite H|].
  intros g vars r H. cbn. now rewrite H.
Qed.

Example C64_nontrivial : exists file,
  RunGen Wrun Wex Oex Erun Xrun 20 (args_of cmdline) [] =
    (Done, [EReadFile "tpl"; EMkdir "out"; EWrite "./out/base.go" file]) /\
  has_prefix "// Code generated by gowrap. DO NOT EDIT." file = true.
Proof. eexists. split; vm_compute; reflexivity. Qed.

Print Assumptions C64_body.
Print Assumptions C64_success.
Print Assumptions C64_succeeds.
