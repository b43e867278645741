(** C46: what the twirp_error decorator does to the error of the base. *)
From Verif Require Import TwirpError Honest PropValidate PropNaming.
Open Scope nat_scope.

(** ** The twirp and json libraries, as far as the decorator relies on them *)

Section STATEMENT.
Variable T : Type.                                   (* code, message and cause of an error *)
Notation meta := (string -> option val).

(** [err k]: the parts and the metadata of object [k], if it is a twirp error;
    [wrapped e]: those of an internal error around [e]; [json v]: what v is encoded as *)
Record twirp_world (W : gworld) (m : method) (base : nat)
    (err : nat -> option (T * meta)) (wrapped : val -> T * meta) (json : val -> val) : Prop := {
  tew_base : base_typed W m base;
  tew_err : forall tr a vs, w_ans W tr (OMeth (VRef base) (m_name m) a) = ARet vs ->
    last vs VNil = VNil \/ exists e, last vs VNil = VRef e;
  tew_has : forall k, w_has W (VRef k) t_twirp = true <-> err k <> None;
  tew_wrap : forall tr e, exists t, w_ans W tr (OCall (VPkg "twirp.InternalErrorWith") [e]) = ARet [VRef t] /\ err t = Some (wrapped e);
  tew_json : forall tr v, exists x, w_ans W tr (OCall (VPkg "json.Marshal") [v]) = ARet [json v; x];
  tew_meta_type : forall tr k a vs, w_ans W tr (OMeth (VRef k) "WithMeta" a) = ARet vs -> exists t, vs = [VRef t];
  tew_meta : forall tr k v p mt, err k = Some (p, mt) ->
    exists t mt', w_ans W tr (OMeth (VRef k) "WithMeta" [VString "request"; json v]) = ARet [VRef t] /\ err t = Some (p, mt')
      /\ forall x, mt' x = if String.eqb x "request" then Some (json v) else mt x
}.

(** what becomes of the error [e] of the base when [reqs] are the non-context arguments *)
Definition annotated (err : nat -> option (T * meta)) (wrapped : val -> T * meta) (json : val -> val)
    (reqs : list val) (e e' : val) : Prop :=
  match e, reqs with
  | VNil, _ | _, [] => e' = e
  | _, first :: _ =>
      exists k' p mt mt', e' = VRef k' /\ err k' = Some (p, mt')
        /\ (p, mt) = (match e with VRef k => match err k with Some x => x | None => wrapped e end | _ => wrapped e end)
        /\ forall x, mt' x = if String.eqb x "request" then Some (json first) else mt x
  end.

(** the arguments that are not the context *)
Definition non_context (m : method) (args : list val) : list val := if m_acceptsContext m then tl args else args.

(** a call: the base is called once, first, with the caller's arguments; a panic
    goes through, results stay as they are except for the error *)
Definition C46_call (err : nat -> option (T * meta)) (wrapped : val -> T * meta) (json : val -> val)
    (m : method) (base : nat) (args : list val) (tr : trace) (r : out (list val)) : Prop :=
  exists a tr', tr = (OMeth (VRef base) (m_name m) args, a) :: tr' /\
  match a with
  | ARet vs =>
      if m_returnsError m
      then exists e', r = Val (removelast vs ++ [e']) /\ annotated err wrapped json (non_context m args) (last vs VNil) e'
           /\ (last vs VNil = VNil -> tr' = [])
      else tr' = [] /\ r = Val vs
  | APan v => tr' = [] /\ r = Pan v
  | ABlock => tr' = [] /\ r = Blk
  end.

Lemma injections_annotate : forall W m base err wrapped json, twirp_world W m base err wrapped json ->
  forall has, (forall k, has (VRef k) = true <-> err k <> None) -> forall reqs e p tr o,
  injections has reqs e p tr o -> (e = VNil \/ exists k, e = VRef k) ->
  (forall o a, In (o, a) tr -> exists tr', w_ans W tr' o = a) ->
  exists e', o = Val (e', p) /\ annotated err wrapped json (rev reqs) e e' /\ (e = VNil -> tr = []).
Proof.
  intros W m base err wrapped json [_ _ _ Ww Wj _ Wm] has Hhas reqs e p tr o H.
  (* the twirp error an injection starts from *)
  assert (Htw : forall k pre t, as_twirp has (VRef k) pre t -> (forall o a, In (o, a) pre -> exists tr', w_ans W tr' o = a) ->
            exists t', t = VRef t' /\ err t' = Some (match err k with Some x => x | None => wrapped (VRef k) end)).
  { intros k pre t Ht Hans. inversion Ht as [e0 Hk|e0 t0 Hk]; subst.
    - exists k. split; [reflexivity|]. apply Hhas in Hk. now destruct (err k).
    - destruct (Hans _ _ (or_introl eq_refl)) as [tr' Ea]. destruct (Ww tr' (VRef k)) as (t' & E1 & E2). unfold internal in Ea.
      rewrite E1 in Ea. injection Ea as <-. exists t'. split; [reflexivity|].
      destruct (err k) eqn:Ek; [|exact E2]. exfalso. assert (has (VRef k) = true) by (apply Hhas; congruence). congruence. }
  (* no operation of an injection fails *)
  assert (Hin : forall req e tr o, injects has req e tr o -> (e = VNil \/ exists k, e = VRef k) ->
            (forall o a, In (o, a) tr -> exists tr', w_ans W tr' o = a) ->
            exists e', o = Val e' /\ (e = VNil -> tr = [] /\ e' = VNil) /\
            forall k, e = VRef k -> exists t mt', e' = VRef t /\
              err t = Some (fst (match err k with Some x => x | None => wrapped e end), mt') /\
              forall x, mt' x = if String.eqb x "request" then Some (json req) else snd (match err k with Some x => x | None => wrapped e end) x).
  { clear -Ww Wj Wm Htw. intros req e tr o Hi He Hans. destruct Hi as [|e pre t j x e' Hne Ht|e a r Hne Hh Hs|e pre t a r Hne Ht Hs|e pre t j x a r Hne Ht Hs].
    - exists VNil. repeat split; auto. intros k E. discriminate.
    - destruct He as [->|[k ->]]; [contradiction|]. destruct (Htw _ _ _ Ht) as (t' & -> & Et); [intros; apply Hans, in_or_app; now left|].
      destruct (match err k with Some x0 => x0 | None => wrapped (VRef k) end) as [p mt] eqn:Ep.
      destruct (Hans (marshal req) (ARet [j; x])) as [tr1 E1]; [apply in_or_app; right; now left|].
      destruct (Wj tr1 req) as [x' E1']. unfold marshal in E1. rewrite E1' in E1. injection E1 as <- _.
      destruct (Hans (with_meta (VRef t') (json req)) (ARet [e'])) as [tr2 E2]; [apply in_or_app; right; right; now left|].
      destruct (Wm tr2 t' req p mt Et) as (t2 & mt' & E2' & Et2 & Hmt). unfold with_meta in E2. rewrite E2' in E2. injection E2 as <-.
      exists (VRef t2). split; [reflexivity|]. split; [intros; discriminate|]. intros k0 E. injection E as <-. exists t2, mt'. rewrite Ep. now repeat split.
    - exfalso. destruct (Hans _ _ (or_introl eq_refl)) as [tr' Ea]. destruct (Ww tr' e) as (t & E1 & _). unfold internal in Ea. rewrite E1 in Ea. now subst a.
    - exfalso. destruct (Hans (marshal req) a) as [tr' Ea]; [apply in_or_app; right; now left|].
      destruct (Wj tr' req) as [x E1]. unfold marshal in Ea. rewrite E1 in Ea. now subst a.
    - exfalso. destruct He as [->|[k ->]]; [contradiction|]. destruct (Htw _ _ _ Ht) as (t' & -> & Et); [intros; apply Hans, in_or_app; now left|].
      destruct (match err k with Some x0 => x0 | None => wrapped (VRef k) end) as [p mt].
      destruct (Hans (marshal req) (ARet [j; x])) as [tr1 E1]; [apply in_or_app; right; now left|].
      destruct (Wj tr1 req) as [x' E1']. unfold marshal in E1. rewrite E1' in E1. injection E1 as <- _.
      destruct (Hans (with_meta (VRef t') (json req)) a) as [tr' Ea]; [apply in_or_app; right; right; now left|].
      destruct (Wm tr' t' req p mt Et) as (t2 & mt' & E2' & _). unfold with_meta in Ea. rewrite E2' in Ea. now subst a. }
  induction H as [|req reqs e p tr e1 tr2 o Hi H IH|req reqs e p tr v tr2 o Hi H IH|req reqs e p tr Hi]; intros He Hans.
  - exists e. split; [reflexivity|]. split; [now destruct e|auto].
  - destruct (Hin _ _ _ _ Hi He) as (e1' & E & Hn & Hk); [intros; apply Hans, in_or_app; now left|]. injection E as <-.
    destruct He as [->|[k ->]].
    + destruct (Hn eq_refl) as [-> ->]. destruct IH as (e' & -> & Hann & Ht); [now left | intros; apply Hans, in_or_app; now right |].
      exists e'. split; [reflexivity|]. split; [|exact Ht]. cbn in *. destruct (rev reqs); exact Hann.
    + destruct (Hk k eq_refl) as (t & mt' & -> & Et & Hmt).
      destruct IH as (e' & -> & Hann & _); [right; eauto | intros; apply Hans, in_or_app; now right |].
      exists e'. split; [reflexivity|]. split; [|intros; discriminate]. cbn [rev annotated].
      destruct (match err k with Some x => x | None => wrapped (VRef k) end) as [p0 mt] eqn:Ep. cbn [fst snd] in *.
      destruct (rev reqs) as [|first l] eqn:Er; cbn [app].
      * cbn in Hann. subst e'. exists t, p0, mt, mt'. repeat split; auto.
      * cbn in Hann. destruct Hann as (k' & p' & m0 & m1 & -> & Ek & Ep' & Hm1). rewrite Et in Ep'. injection Ep' as -> ->.
        exists k', p0, mt, m1. repeat split; auto. intros x. rewrite Hm1. destruct (String.eqb x "request") eqn:Ex; [reflexivity|]. now rewrite Hmt, Ex.
  - destruct (Hin _ _ _ _ Hi He) as (e1' & E & _); [intros; apply Hans, in_or_app; now left|]. discriminate.
  - destruct (Hin _ _ _ _ Hi He Hans) as (e1' & E & _). discriminate.
Qed.
End STATEMENT.

Theorem C46_annotates_partial : forall T W m name typ base L zeros args err wrapped json,
  wf_method m -> hygienic m [inject] -> twirp_world T W m base err wrapped json ->
  length zeros = length (m_results m) -> (m_returnsError m = true -> last zeros VNil = VNil) ->
  length args = length (m_params m) ->
  let '(r, tr) := run_method W m twirp_error_funcs L (twirp_error_body name m)
                    (construct (base_ctor name typ) [VRef base]) zeros args in
  C46_call T err wrapped json m base args tr r.
Proof.
  intros T W m name typ base L zeros args err wrapped json Hwf Hh HW Hz Hze Ha. pose proof HW as [Wb We Wh Ww Wj Wt Wm].
  destruct (m_returnsError m) eqn:Hre.
  - pose proof (twirp_error_meets W m name typ base L zeros args Hwf Hh Hz) as H.
    rewrite Hre in H. specialize (H Hze Ha Wb We).
    pose proof (run_method_answered W m twirp_error_funcs L (twirp_error_body name m) (construct (base_ctor name typ) [VRef base]) zeros args) as Hans.
    destruct (run_method _ _ _ _ _ _ _ _) as [r tr]. cbn [snd] in Hans.
    assert (H' : twirp_call (is_twirp W) (OMeth (VRef base) (m_name m) args) (rev (subjects m args)) tr r).
    { apply H; [| | | reflexivity].
      - intros tr0 e vs E. destruct (Ww tr0 e) as (t & E1 & _). unfold internal in E. rewrite E1 in E. injection E as <-. eauto.
      - intros tr0 e vs E. destruct (Wj tr0 e) as (x & E1). unfold marshal in E. rewrite E1 in E. injection E as <-. eauto.
      - intros tr0 k j vs E. exact (Wt _ _ _ _ E). }
    clear H. rewrite (subjects_tl m args Hwf Ha) in H'. unfold C46_call, non_context. rewrite Hre.
    set (reqs := if m_acceptsContext m then tl args else args) in *. clearbody reqs.
    assert (Hj : forall vs tr0 o, injections (is_twirp W) (rev reqs) (last vs VNil) None tr0 o ->
              answered W [] ((OMeth (VRef base) (m_name m) args, ARet vs) :: tr0) ->
              exists e', o = Val (e', None) /\ annotated T err wrapped json reqs (last vs VNil) e' /\ (last vs VNil = VNil -> tr0 = [])).
    { intros vs tr0 o Hi [H1 H2].
      destruct (injections_annotate T W m base err wrapped json HW (is_twirp W) Wh _ _ _ _ _ Hi (We _ _ _ H1)) as (e' & E1 & E2 & E3).
      - intros o' a' Hin. eapply answered_in; eassumption.
      - rewrite rev_involutive in E2. eauto. }
    destruct H' as [vs tr0 e Hi|vs tr0 e v Hi|vs tr0 Hi|a r Hf].
    + destruct (Hj _ _ _ Hi Hans) as (e' & E1 & E2 & E3). injection E1 as <-. eexists _, _. split; [reflexivity|]. exists e. now repeat split.
    + destruct (Hj _ _ _ Hi Hans) as (e' & E1 & _). discriminate.
    + destruct (Hj _ _ _ Hi Hans) as (e' & E1 & _). discriminate.
    + exists a, []. split; [reflexivity|]. destruct a; [destruct Hf | now split | now split].
  - unfold twirp_error_body. rewrite Hre. cbn [app].
    assert (Hh0 : hygienic m []) by (eapply hygienic_less; [exact Hh | intros x []]).
    pose proof (pass_meets W m twirp_error_funcs name typ base L zeros args Hwf Hh0 Hz Ha Wb) as H.
    destruct (run_method _ _ _ _ _ _ _ _) as [r tr]. destruct H as [a [-> He]]. unfold C46_call. rewrite Hre.
    exists a, []. split; [reflexivity|]. destruct a; now split.
Qed.

(** ** Example: errors are 100 and up; those from 200 on are twirp errors, whose
    metadata entry "request" is the trace of requests put into them *)
Definition ex_json (v : val) : val := match v with VRef n => VInt (Z.of_nat n) | _ => VInt 0 end.
Definition ex_terr (k : nat) : option (nat * (string -> option val)) :=
  if k <? 200 then None
  else Some (0, fun x => if String.eqb x "request" then Some (VInt (Z.of_nat (k - 200))) else None).
Definition ex_wrapped (_ : val) : nat * (string -> option val) :=
  (0, fun x => if String.eqb x "request" then Some (VInt (Z.of_nat (200 - 200))) else None).
Definition ex_tworld (a : ans) : gworld :=
  GWorld (fun tr o => match o with
    | OMeth (VRef _) "Do" _ => a
    | OCall (VPkg "twirp.InternalErrorWith") [_] => ARet [VRef 200]
    | OCall (VPkg "json.Marshal") [v] => ARet [ex_json v; VNil]
    | OMeth (VRef _) "WithMeta" [_; VInt z] => ARet [VRef (200 + Z.to_nat z)]
    | OMeth (VRef _) "WithMeta" _ => ARet [VRef 999]
    | _ => ABlock
    end) (fun v _ => match v with VRef k => negb (k <? 200) | _ => false end).
Definition ex_trun (m : method) (a : ans) (args : list val) : out (list val) * trace :=
  run_method (ex_tworld a) m twirp_error_funcs 0 (twirp_error_body "Doer" m) (construct (base_ctor "Doer" "pkg.Doer") [VRef 0])
    [VString ""; VNil] args.

Example C46_nontrivial :
  wf_method ex_m /\ hygienic ex_m [inject] /\
  (forall a, (forall l, a = ARet l -> l = [VString "s"; VNil] \/ exists k, l = [VString "s"; VRef k]) ->
     twirp_world nat (ex_tworld a) ex_m 0 ex_terr ex_wrapped ex_json).
Proof.
  split; [eapply NewMethod_wf, ex_NewMethod|]. split.
  { intros x Hx Hin. cbn in Hx, Hin. intuition (subst; discriminate). }
  intros a Ha. constructor.
  - intros tr l vs E. destruct (Ha vs E) as [->|[k ->]]; reflexivity.
  - intros tr l vs E. destruct (Ha vs E) as [->|[k ->]]; [now left|]. right. now exists k.
  - intros k. unfold ex_terr. cbn -[Nat.ltb]. destruct (k <? 200); cbn; split; congruence.
  - intros tr e. exists 200. now split.
  - intros tr v. now exists VNil.
  - intros tr k l vs. cbn -[Nat.add]. destruct l as [|x [|y [|z l]]]; intros E.
    + injection E as <-. eauto.
    + injection E as <-. eauto.
    + destruct y; injection E as <-; eauto.
    + destruct y; injection E as <-; eauto.
  - intros tr k v p mt E. unfold ex_terr in E. destruct (k <? 200) eqn:Ek; [discriminate|]. injection E as <- <-.
    exists (200 + match v with VRef n => n | _ => 0 end).
    exists (fun x => if String.eqb x "request" then Some (VInt (Z.of_nat (200 + match v with VRef n => n | _ => 0 end - 200))) else None).
    split; [|split].
    + destruct v; cbn -[Nat.add Z.to_nat Z.of_nat]; now rewrite ?Nat2Z.id.
    + unfold ex_terr. assert (Hlt : (200 + match v with VRef n => n | _ => 0 end <? 200) = false) by (apply Nat.ltb_ge; lia). now rewrite Hlt.
    + intros x. destruct (String.eqb x "request"); [|reflexivity]. do 2 f_equal. replace (200 + _ - 200) with (match v with VRef n => n | _ => 0 end) by lia. now destruct v.
Qed.

(** the request of the first argument, 4, is what remains *)
Example C46_runs :
  ex_trun ex_m (ARet [VString "s"; VRef 100]) [VRef 3; VRef 4; VRef 5; VRef 6] =
    (Val [VString "s"; VRef 204],
     [(OMeth (VRef 0) "Do" [VRef 3; VRef 4; VRef 5; VRef 6], ARet [VString "s"; VRef 100]);
      (internal (VRef 100), ARet [VRef 200]);
      (marshal (VRef 6), ARet [VInt 6; VNil]); (with_meta (VRef 200) (VInt 6), ARet [VRef 206]);
      (marshal (VRef 5), ARet [VInt 5; VNil]); (with_meta (VRef 206) (VInt 5), ARet [VRef 205]);
      (marshal (VRef 4), ARet [VInt 4; VNil]); (with_meta (VRef 205) (VInt 4), ARet [VRef 204])]) /\
  ex_trun ex_m (ARet [VString "s"; VNil]) [VRef 3; VRef 4; VRef 5; VRef 6] =
    (Val [VString "s"; VNil], [(OMeth (VRef 0) "Do" [VRef 3; VRef 4; VRef 5; VRef 6], ARet [VString "s"; VNil])]) /\
  ex_trun ex_m (APan (VInt 1)) [VRef 3; VRef 4; VRef 5; VRef 6] =
    (Pan (VInt 1), [(OMeth (VRef 0) "Do" [VRef 3; VRef 4; VRef 5; VRef 6], APan (VInt 1))]).
Proof. vm_compute. repeat split; reflexivity. Qed.

(** Full statement: every non-nil error becomes a twirp error. *)
Definition C46_statement : Prop :=
  forall T W m name typ base L zeros args err wrapped json,
  wf_method m -> hygienic m [inject] -> twirp_world T W m base err wrapped json -> m_returnsError m = true ->
  length zeros = length (m_results m) -> last zeros VNil = VNil -> length args = length (m_params m) ->
  forall vs k, fst (run_method W m twirp_error_funcs L (twirp_error_body name m)
                     (construct (base_ctor name typ) [VRef base]) zeros args) = Val vs ->
  last vs VNil = VRef k -> err k <> None.

(** The error of a method without arguments other than the context is passed on as it is:
    [Do(ctx context.Context) (string, error)] *)
Definition ex_ctx_only : method :=
  Method [] [] "Do" [Param [] [] "ctx" "context.Context" false]
    [Param [] [] "s1" "string" false; Param [] [] "err" "error" false] true true.

Theorem C46_no_argument_refuted : ~ C46_statement.
Proof.
  intros H. destruct C46_nontrivial as (_ & _ & HW).
  assert (HW' : twirp_world nat (ex_tworld (ARet [VString "s"; VRef 100])) ex_ctx_only 0 ex_terr ex_wrapped ex_json).
  { destruct (HW (ARet [VString "s"; VRef 100])) as [W1 W2 W3 W4 W5 W6 W7].
    - intros l E. injection E as <-. right. eauto.
    - constructor; try assumption. }
  assert (Hwf : wf_method ex_ctx_only).
  { eapply (NewMethod_wf O0 pr0 [] [] "Do" (named ["Do"] (FuncT [anon (Selector (Ident "context") "Context")] ex_results))).
    vm_compute. reflexivity. }
  assert (Hh : hygienic ex_ctx_only [inject]).
  { intros x Hx Hin. cbn in Hx, Hin. intuition (subst; discriminate). }
  specialize (H nat _ ex_ctx_only "Doer" "pkg.Doer" 0 0 [VString ""; VNil] [VRef 3] _ _ _ Hwf Hh HW' eq_refl eq_refl eq_refl eq_refl
    [VString "s"; VRef 100] 100).
  apply H; vm_compute; reflexivity.
Qed.

Print Assumptions C46_annotates_partial.
Print Assumptions C46_nontrivial.
Print Assumptions C46_no_argument_refuted.
