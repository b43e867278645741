(** What a call of a method generated by templates/twirp_error does. *)
From Verif Require Export Validate.
Open Scope nat_scope.

(** ** Specification *)

(** an operation that does not return *)
Definition stops {A} (a : ans) (r : out A) : Prop :=
  match a with ARet _ => False | APan v => r = Pan v | ABlock => r = Blk end.

Definition internal (e : val) : op := OCall (VPkg "twirp.InternalErrorWith") [e].
Definition marshal (req : val) : op := OCall (VPkg "json.Marshal") [req].
Definition with_meta (t j : val) : op := OMeth t "WithMeta" [VString "request"; j].

(** a twirp error made of [e]: [e] itself or an internal error around it *)
Inductive as_twirp (has : val -> bool) : val -> trace -> val -> Prop :=
| T_is e : has e = true -> as_twirp has e [] e
| T_internal e t : has e = false -> as_twirp has e [(internal e, ARet [t])] t.

(** one injection of [req] into the error [e] *)
Inductive injects (has : val -> bool) (req : val) : val -> trace -> out val -> Prop :=
| I_nil : injects has req VNil [] (Val VNil)
| I_ok e pre t j x e' : e <> VNil -> as_twirp has e pre t ->
    injects has req e (pre ++ [(marshal req, ARet [j; x]); (with_meta t j, ARet [e'])]) (Val e')
| I_internal_stops e a r : e <> VNil -> has e = false -> stops a r ->
    injects has req e [(internal e, a)] r
| I_marshal_stops e pre t a r : e <> VNil -> as_twirp has e pre t -> stops a r ->
    injects has req e (pre ++ [(marshal req, a)]) r
| I_meta_stops e pre t j x a r : e <> VNil -> as_twirp has e pre t -> stops a r ->
    injects has req e (pre ++ [(marshal req, ARet [j; x]); (with_meta t j, a)]) r.

(** the injections of one call, in the order in which they run; [p] is the panic in flight *)
Inductive injections (has : val -> bool) : list val -> val -> option val -> trace -> out (val * option val) -> Prop :=
| J_done e p : injections has [] e p [] (Val (e, p))
| J_val req reqs e p tr e' tr2 o : injects has req e tr (Val e') -> injections has reqs e' p tr2 o ->
    injections has (req :: reqs) e p (tr ++ tr2) o
| J_pan req reqs e p tr v tr2 o : injects has req e tr (Pan v) -> injections has reqs e (Some v) tr2 o ->
    injections has (req :: reqs) e p (tr ++ tr2) o
| J_blk req reqs e p tr : injects has req e tr Blk -> injections has (req :: reqs) e p tr Blk.

Inductive twirp_call (has : val -> bool) (base : op) (reqs : list val) : trace -> out (list val) -> Prop :=
| TE_ret vs tr e : injections has reqs (last vs VNil) None tr (Val (e, None)) ->
    twirp_call has base reqs ((base, ARet vs) :: tr) (Val (removelast vs ++ [e]))
| TE_pan vs tr e v : injections has reqs (last vs VNil) None tr (Val (e, Some v)) ->
    twirp_call has base reqs ((base, ARet vs) :: tr) (Pan v)
| TE_blk vs tr : injections has reqs (last vs VNil) None tr Blk ->
    twirp_call has base reqs ((base, ARet vs) :: tr) Blk
| TE_base a r : fails a r -> twirp_call has base reqs [(base, a)] r.

(** ** The generated methods meet it *)

Definition t_twirp : list gtok := kw "twirp" ++ [TP "."] ++ kw "Error".

Section TWIRP.
Variable W : gworld.
Variable m : method.
Variables name typ : string.
Variable base : nat.
Variable L : nat.
Variables zeros args : list val.
Hypothesis Hwf : wf_method m.
Hypothesis Hhyg : hygienic m [inject].
Hypothesis Hz : length zeros = length (m_results m).
Hypothesis Hzerr : m_returnsError m = true -> last zeros VNil = VNil.
Hypothesis Ha : length args = length (m_params m).
Hypothesis Hbase : base_typed W m base.
Hypothesis Herr : forall tr a vs, w_ans W tr (OMeth (VRef base) (m_name m) a) = ARet vs ->
  last vs VNil = VNil \/ exists e, last vs VNil = VRef e.
Hypothesis Hinternal : forall tr e vs, w_ans W tr (internal e) = ARet vs -> exists t, vs = [VRef t].
Hypothesis Hmarshal : forall tr e vs, w_ans W tr (marshal e) = ARet vs -> exists j x, vs = [j; x].
Hypothesis Hmeta : forall tr k j vs, w_ans W tr (with_meta (VRef k) j) = ARet vs -> exists t, vs = [VRef t].

Let R := length (m_results m).
Let P := length (m_params m).
Let fs := [(name, VRef base)].
Definition is_twirp (v : val) : bool := w_has W v t_twirp.

Lemma inject_meets : forall req rs ex tr d, m_returnsError m = true -> length rs = R ->
  last rs VNil = VNil \/ (exists e, last rs VNil = VRef e) ->
  wp (invoke W m twirp_error_funcs L (S (S d)) (KFun inject [req; VPtr R]))
     (fun r s => exists tr1 o, injects is_twirp req (last rs VNil) tr1 o /\ ms_trace s = tr ++ tr1 /\ ms_defers s = []
        /\ match o with
           | Val e => exists ex', ms_store s = cells (VRec fs) (removelast rs ++ [e]) args ex' /\ r = Val []
                        /\ (e = VNil \/ exists k, e = VRef k)
           | Pan v => r = Pan v /\ exists ex', ms_store s = cells (VRec fs) rs args ex'
           | Blk => r = Blk
           | _ => False
           end)
     (MState (cells (VRec fs) rs args ex) tr []).
Proof.
  intros req rs ex tr d Hre Hr He.
  change (invoke W m twirp_error_funcs L (S (S d)) (KFun inject [req; VPtr R])) with
    (let& env := allocs ["req"; "perr"] [req; VPtr R] [] in
     activation W m twirp_error_funcs L (invoke W m twirp_error_funcs L (S d)) [] env ["req"; "perr"] inject_body).
  assert (Hne : rs <> []).
  { intros E. rewrite E in Hr. destruct (wf_err m Hwf Hre) as [r [p [Er _]]]. unfold R in Hr. rewrite Er in Hr. destruct r; discriminate. }
  apply wp_bind. cbn [allocs]. unfold R in *. apply wp_bind. eapply wp_alloc; [exact Hr | exact Ha |]. apply wp_bind.
  eapply wp_alloc; [exact Hr | exact Ha |]. repeat wp1. apply wp_activation.
  unfold inject_body, verr, vnil, var, Bodies.call. rewrite <- app_assoc. cbn [app]. rewrite app_length. cbn [length]. repeat wp1.
  eapply wp_load; [apply cells_err; [exact Hr | exact Hne] |]. repeat wp1.
  eapply wp_define; [reflexivity | reflexivity | exact Hr | exact Ha |].
  rewrite <- app_assoc. cbn [app]. rewrite app_length. cbn [length].
  remember (last rs VNil) as e eqn:El. assert (Hrs : removelast rs ++ [e] = rs) by (subst e; symmetry; now apply app_removelast_last).
  destruct He as [->|[k ->]].
  - repeat wp1. cbn [is_nil negb]. repeat wp1. change (loads []) with (@gret (list val) []). repeat wp1.
    exists [], (Val VNil). rewrite app_nil_r. repeat split; [constructor|]. rewrite Hrs. eexists. repeat split. now left.
  - repeat wp1. cbn [is_nil negb]. repeat wp1. cbn [is_nil negb andb].
    change (kw "twirp" ++ TP "." :: kw "Error") with t_twirp. fold (is_twirp (VRef k)).
    assert (Hk : VRef k <> VNil) by discriminate.
    Ltac finish_inject Hr Hne Ha Hmarshal Hmeta Htw :=
      repeat wp1; apply wp_ask;
      lazymatch goal with |- context [w_ans ?W ?t (OCall (VPkg "json.Marshal") [?r])] =>
        change (OCall (VPkg "json.Marshal") [r]) with (marshal r);
        let E := fresh "E" in destruct (w_ans W t (marshal r)) as [vs|w|] eqn:E; cbv beta iota;
        [ destruct (Hmarshal _ _ _ E) as (j & x & ->) | |] end;
      [ repeat wp1; (eapply wp_define; [reflexivity | reflexivity | exact Hr | exact Ha |]);
        rewrite <- app_assoc; cbn [app]; rewrite app_length; cbn [length defines]; cbn [String.eqb Ascii.eqb Bool.eqb];
        repeat wp1; apply wp_ask;
        lazymatch goal with |- context [w_ans ?W ?t (OMeth ?e "WithMeta" [VString "request"; ?j])] =>
          change (OMeth e "WithMeta" [VString "request"; j]) with (with_meta e j);
          let E := fresh "E" in destruct (w_ans W t (with_meta e j)) as [vs|w|] eqn:E; cbv beta iota;
          [ destruct (Hmeta _ _ _ _ E) as (t' & ->) | |] end;
        [ repeat wp1; (eapply wp_set_ptr_error; [reflexivity | cell | exact Hr | exact Hne |]); repeat wp1
        | repeat wp1 | repeat wp1 ]
      | repeat wp1 | repeat wp1 ].
    destruct (is_twirp (VRef k)) eqn:Et.
    + eapply wp_define; [reflexivity | reflexivity | exact Hr | exact Ha |].
      eapply wp_define; [reflexivity | reflexivity | exact Hr | exact Ha |].
      rewrite <- !app_assoc. cbn [app]. rewrite !app_length. cbn [length]. repeat wp1.
      cbn [negb]. pose proof (T_is is_twirp (VRef k) Et) as Htw.
      finish_inject Hr Hne Ha Hmarshal Hmeta Htw. all: cbn [ms_trace ms_defers ms_store]. 
      all: [> eexists _, (Val (VRef _)); split; [eapply I_ok; [exact Hk | exact Htw]|];
        split; [now rewrite <- ?app_assoc|]; split; [reflexivity|]; eexists; split; [reflexivity|]; split; [reflexivity|]; right; eexists; reflexivity
      | eexists _, (Pan _); split; [eapply (I_meta_stops _ _ _ _ _ _ _ (APan _)); [exact Hk | exact Htw | exact eq_refl]|];
        split; [now rewrite <- ?app_assoc|]; split; [reflexivity|]; split; [reflexivity | eexists; reflexivity]
      | eexists _, Blk; split; [eapply (I_meta_stops _ _ _ _ _ _ _ ABlock); [exact Hk | exact Htw | exact eq_refl]|];
        split; [now rewrite <- ?app_assoc|]; split; reflexivity
      | eexists _, (Pan _); split; [eapply (I_marshal_stops _ _ _ _ _ (APan _)); [exact Hk | exact Htw | exact eq_refl]|];
        split; [now rewrite <- ?app_assoc|]; split; [reflexivity|]; split; [reflexivity | eexists; reflexivity]
      | eexists _, Blk; split; [eapply (I_marshal_stops _ _ _ _ _ ABlock); [exact Hk | exact Htw | exact eq_refl]|];
        split; [now rewrite <- ?app_assoc|]; split; reflexivity ].
    + eapply wp_define; [reflexivity | reflexivity | exact Hr | exact Ha |].
      eapply wp_define; [reflexivity | reflexivity | exact Hr | exact Ha |].
      rewrite <- !app_assoc. cbn [app]. rewrite !app_length. cbn [length]. repeat wp1.
      cbn [negb]. repeat wp1. apply wp_ask. fold (internal (VRef k)). destruct (w_ans W tr (internal (VRef k))) as [vs|w|] eqn:E1; cbv beta iota.
      * destruct (Hinternal _ _ _ E1) as [t ->]. pose proof (T_internal is_twirp (VRef k) (VRef t) Et) as Htw. repeat wp1.
        eapply wp_set_local; [reflexivity | exact Hr | exact Ha |]. rewrite set_nth_ex. cbn [set_nth].
        finish_inject Hr Hne Ha Hmarshal Hmeta Htw. all: cbn [ms_trace ms_defers ms_store]. 
      all: [> eexists _, (Val (VRef _)); split; [eapply I_ok; [exact Hk | exact Htw]|];
        split; [now rewrite <- ?app_assoc|]; split; [reflexivity|]; eexists; split; [reflexivity|]; split; [reflexivity|]; right; eexists; reflexivity
      | eexists _, (Pan _); split; [eapply (I_meta_stops _ _ _ _ _ _ _ (APan _)); [exact Hk | exact Htw | exact eq_refl]|];
        split; [now rewrite <- ?app_assoc|]; split; [reflexivity|]; split; [reflexivity | eexists; reflexivity]
      | eexists _, Blk; split; [eapply (I_meta_stops _ _ _ _ _ _ _ ABlock); [exact Hk | exact Htw | exact eq_refl]|];
        split; [now rewrite <- ?app_assoc|]; split; reflexivity
      | eexists _, (Pan _); split; [eapply (I_marshal_stops _ _ _ _ _ (APan _)); [exact Hk | exact Htw | exact eq_refl]|];
        split; [now rewrite <- ?app_assoc|]; split; [reflexivity|]; split; [reflexivity | eexists; reflexivity]
      | eexists _, Blk; split; [eapply (I_marshal_stops _ _ _ _ _ ABlock); [exact Hk | exact Htw | exact eq_refl]|];
        split; [now rewrite <- ?app_assoc|]; split; reflexivity ].
      * repeat wp1. eexists _, (Pan w). split; [eapply (I_internal_stops _ _ _ (APan w)); [exact Hk | exact Et | exact eq_refl]|].
        split; [reflexivity|]. split; [reflexivity|]. split; [reflexivity | eexists; reflexivity].
      * eexists _, Blk. split; [eapply (I_internal_stops _ _ _ ABlock); [exact Hk | exact Et | exact eq_refl]|].
        split; [reflexivity|]. split; reflexivity.
Qed.

Definition injection (req : val) : callable := KFun inject [req; VPtr R].

Lemma injections_meet : forall reqs rs ex tr p, m_returnsError m = true -> length rs = R ->
  last rs VNil = VNil \/ (exists e, last rs VNil = VRef e) ->
  wp (run_defers (invoke W m twirp_error_funcs L depth) (map injection reqs) p)
     (fun r s => exists tr1 o, injections is_twirp reqs (last rs VNil) p tr1 o /\ ms_trace s = tr ++ tr1
        /\ match o with
           | Val (e, p') => r = Val p' /\ exists ex', ms_store s = cells (VRec fs) (removelast rs ++ [e]) args ex'
           | Blk => r = Blk
           | _ => False
           end)
     (MState (cells (VRec fs) rs args ex) tr []).
Proof.
  induction reqs as [|req reqs IH]; intros rs ex tr p Hre Hr He; cbn [map].
  - repeat wp1. exists [], (Val (last rs VNil, p)). split; [constructor|]. split; [now rewrite app_nil_r|]. split; [reflexivity|].
    exists ex. cbn [ms_store]. rewrite <- app_removelast_last; [reflexivity|].
    intros E. rewrite E in Hr. destruct (wf_err m Hwf Hre) as [r [q [Er _]]]. unfold R in Hr. rewrite Er in Hr. destruct r; discriminate.
  - apply wp_defers_cons. unfold injection at 1. change depth with (S (S 0)). eapply wp_weaken; [apply (inject_meets req rs ex tr _ Hre Hr He)|].
    change (S (S 0)) with depth.
    intros r [st tr' ds] (tr1 & o & Hi & Et & Ed & Ho). cbn [ms_trace ms_defers ms_store] in *. subst tr' ds.
    assert (Hne : rs <> []).
    { intros E. rewrite E in Hr. destruct (wf_err m Hwf Hre) as [r' [q [Er _]]]. unfold R in Hr. rewrite Er in Hr. destruct r'; discriminate. }
    destruct o as [e|v| | |]; try contradiction.
    + destruct Ho as (ex' & -> & -> & He'). eapply wp_weaken; [apply (IH (removelast rs ++ [e])); [exact Hre | rewrite replace_last_length; assumption | now rewrite last_last]|].
      intros r s (tr2 & o & Hj & Et & Ho). exists (tr1 ++ tr2), o. split; [|split].
      * rewrite last_last in Hj. eapply J_val; eassumption.
      * now rewrite Et, app_assoc.
      * rewrite removelast_last in Ho. exact Ho.
    + destruct Ho as (-> & ex' & ->). eapply wp_weaken; [apply (IH rs ex' _ (Some v) Hre Hr He)|].
      intros r s (tr2 & o & Hj & Et & Ho). exists (tr1 ++ tr2), o. split; [|split].
      * eapply J_pan; eassumption.
      * now rewrite Et, app_assoc.
      * exact Ho.
    + subst r. exists tr1, Blk. split; [now apply J_blk|]. split; reflexivity.
Qed.

Definition defer_inject (p : param) : gstmt := SDefer (Bodies.call (var inject) [EVar [PH (p_name p)]; EUn "&" verr]).

Lemma defers_meet : forall l top tr ds Q, m_returnsError m = true ->
  (forall pv, In pv l -> In pv (combine (m_params m) args)) ->
  (forall top', wp (block W m twirp_error_funcs L (invoke W m twirp_error_funcs L depth) (seq 1 R) (method_env m) top' [pass_embedded name])
      Q (MState (cells (VRec fs) zeros args []) tr (rev (map (fun pv => injection (snd pv)) l) ++ ds))) ->
  wp (block W m twirp_error_funcs L (invoke W m twirp_error_funcs L depth) (seq 1 R) (method_env m) top
        (map (fun pv => defer_inject (fst pv)) l ++ [pass_embedded name]))
     Q (MState (cells (VRec fs) zeros args []) tr ds).
Proof.
  pose proof (fun H => lookup_err m Hwf H) as Hlerr.
  assert (Hg : lookup "injectRequestDataToError" (method_env m) = None) by (eapply lookup_fresh; [exact Hhyg | now left | discriminate]).
  induction l as [|[p v] l IH]; intros top tr ds Q Hre Hl H; [apply H|].
  specialize (Hlerr Hre).
  destruct (arg_lookup m [inject] args Hwf Hhyg p v (Hl _ (or_introl eq_refl))) as (i & Hlk & Hi & Hv).
  cbn [map app fst snd]. unfold defer_inject at 1. unfold Bodies.call, verr, var, inject. repeat wp1.
  rewrite wtext_hole. eapply wp_var; [exact Hlk | rewrite cells_param by assumption; exact Hv |]. cbv beta iota. repeat wp1.
  apply IH; [exact Hre | intros pv Hpv; apply Hl; now right |]. intros top'. cbn [map rev snd] in H. rewrite <- app_assoc in H.
  apply H.
Qed.

Theorem twirp_error_meets : m_returnsError m = true ->
  let '(r, tr) := run_method W m twirp_error_funcs L (twirp_error_body name m) (construct (base_ctor name typ) [VRef base]) zeros args in
  twirp_call is_twirp (OMeth (VRef base) (m_name m) args) (rev (subjects m args)) tr r.
Proof.
  intros Hre. apply run_method_wp. apply wp_activation. unfold twirp_error_body. rewrite Hre.
  assert (Hf : frame m (method_env m)) by (eapply frame_start; [apply Hwf | apply Hhyg]).
  assert (Er : construct (base_ctor name typ) [VRef base] = VRec fs) by (unfold construct; cbn; now rewrite sapp_nil_r).
  rewrite Er. clear Er. unfold subjects.
  assert (Es : map defer_inject (filter (not_ctx m) (m_params m)) =
               map (fun pv => defer_inject (fst pv)) (filter (fun pv => not_ctx m (fst pv)) (combine (m_params m) args))).
  { clear -Ha. revert args Ha. induction (m_params m) as [|p ps IH]; intros [|v l] E; try discriminate; [reflexivity|].
    cbn [combine filter map fst]. injection E as E. destruct (not_ctx m p); cbn [map fst]; now rewrite IH with (args := l). }
  change (fun p => SDefer (Bodies.call (var inject) [EVar [PH (p_name p)]; EUn "&" verr])) with defer_inject. rewrite Es. clear Es.
  set (l := filter _ (combine _ _)). cbn [ms_store ms_trace].
  apply defers_meet; [exact Hre | intros pv Hpv; now apply filter_In in Hpv |]. intros top'. rewrite app_nil_r.
  unfold pass_embedded, embedded, d_, var. repeat wp1.
  eapply wp_pass; [reflexivity | reflexivity | exact Hf | exact Hz | exact Ha | | apply Hbase |].
  { cbn [field_of fs]. now rewrite wtext_hole, String.eqb_refl. }
  assert (Ed : rev (map (fun pv : param * val => injection (snd pv)) l) = map injection (rev (map snd l))).
  { now rewrite <- map_rev, <- map_rev, map_map. }
  rewrite Ed. clear Ed.
  assert (Hz0 : last zeros VNil = VNil) by now apply Hzerr.
  destruct (w_ans W [] _) as [vs|w|] eqn:E; cbv beta iota; repeat wp1; cbn [ms_defers ms_store ms_trace app].
  - pose proof (Hbase _ _ _ E) as Hl. eapply wp_weaken; [apply (injections_meet _ vs); [exact Hre | exact Hl | eapply Herr, E]|].
    intros r [st tr ds] (tr1 & o & Hj & Et & Ho). cbn [ms_trace ms_store app] in *. subst tr.
    destruct o as [[e [v|]]|v| | |]; try contradiction.
    + destruct Ho as [-> _]. eapply TE_pan, Hj.
    + destruct Ho as [-> [ex' ->]]. cbv beta iota. apply wp_load_results; [|cbn [ms_trace]; now apply TE_ret].
      rewrite replace_last_length; [exact Hl|]. intros Ev. subst vs. destruct (wf_err m Hwf Hre) as [r' [q [Er _]]]. rewrite Er in Hl. destruct r'; discriminate.
    + subst r. now apply TE_blk.
  - eapply wp_weaken; [apply (injections_meet _ zeros); [exact Hre | exact Hz | now left]|].
    intros r [st tr ds] (tr1 & o & Hj & Et & Ho). cbn [ms_trace ms_store app] in *. subst tr. rewrite Hz0 in Hj.
    assert (Hn : forall reqs e p tr o, injections is_twirp reqs e p tr o -> e = VNil -> tr = [] /\ o = Val (VNil, p)).
    { clear. intros reqs e p tr o H. induction H as [|req reqs e p tr e' tr2 o Hi H IH|req reqs e p tr v tr2 o Hi H IH|req reqs e p tr Hi]; intros ->.
      - now split.
      - inversion Hi; subst; try contradiction. now destruct IH as [-> ->].
      - inversion Hi; subst; contradiction.
      - inversion Hi; subst; contradiction. }
    destruct (Hn _ _ _ _ _ Hj eq_refl) as [-> ->]. destruct Ho as [-> _]. now apply TE_base.
  - now apply TE_base.
Qed.
End TWIRP.
