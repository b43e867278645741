(** What a call of a method generated by templates/validate, twirp_validate and
    grpc_validate does. *)
From Verif Require Export Deco.
Open Scope nat_scope.

(** ** Specification *)

Inductive checked := Valid | Invalid (e : val) | Aborted (r : out (list val)).

(** checking the values in order, up to the first error *)
Inductive validations (has : val -> bool) : list val -> trace -> checked -> Prop :=
| V_nil : validations has [] [] Valid
| V_skip v l tr o : has v = false -> validations has l tr o -> validations has (v :: l) tr o
| V_ok v l tr o : has v = true -> validations has l tr o ->
    validations has (v :: l) ((OMeth v "Validate" [], ARet [VNil]) :: tr) o
| V_bad v l e : has v = true -> e <> VNil ->
    validations has (v :: l) [(OMeth v "Validate" [], ARet [e])] (Invalid e)
| V_fail v l a r : has v = true -> fails a r ->
    validations has (v :: l) [(OMeth v "Validate" [], a)] (Aborted r).

(** [wraps e tr o]: what happens to the validation error [e] before it is returned *)
Definition wrapping := val -> trace -> out val -> Prop.

Inductive as_is : wrapping := W_as_is e : as_is e [] (Val e).

(** a new error made from the text of [e] by a library function *)
Inductive rewrapped (f : string) (code : val) : wrapping :=
| W_new e s e' : rewrapped f code e [(OMeth e "Error" [], ARet [s]); (OCall (VPkg f) [code; s], ARet [e'])] (Val e')
| W_text_panics e v : rewrapped f code e [(OMeth e "Error" [], APan v)] (Pan v)
| W_text_hangs e : rewrapped f code e [(OMeth e "Error" [], ABlock)] Blk
| W_new_panics e s v : rewrapped f code e [(OMeth e "Error" [], ARet [s]); (OCall (VPkg f) [code; s], APan v)] (Pan v)
| W_new_hangs e s : rewrapped f code e [(OMeth e "Error" [], ARet [s]); (OCall (VPkg f) [code; s], ABlock)] Blk.

Inductive validate_call (wraps : wrapping) (has : val -> bool) (base : op) (zeros subjects : list val)
  : trace -> out (list val) -> Prop :=
| VC_valid tr a r : validations has subjects tr Valid -> ends a r ->
    validate_call wraps has base zeros subjects (tr ++ [(base, a)]) r
| VC_invalid tr e w e' : validations has subjects tr (Invalid e) -> wraps e w (Val e') ->
    validate_call wraps has base zeros subjects (tr ++ w) (Val (removelast zeros ++ [e']))
| VC_wrap_panics tr e w v : validations has subjects tr (Invalid e) -> wraps e w (Pan v) ->
    validate_call wraps has base zeros subjects (tr ++ w) (Pan v)
| VC_wrap_hangs tr e w : validations has subjects tr (Invalid e) -> wraps e w Blk ->
    validate_call wraps has base zeros subjects (tr ++ w) Blk
| VC_aborted tr r : validations has subjects tr (Aborted r) ->
    validate_call wraps has base zeros subjects tr r.

(** ** The generated methods meet it *)

(** the arguments that are looked at: those of the parameters other than the context *)
Definition subjects (m : method) (args : list val) : list val :=
  map snd (filter (fun pv => not_ctx m (fst pv)) (combine (m_params m) args)).

Section VALIDATE.
Variable W : gworld.
Variable m : method.
Variables name typ : string.
Variable base : nat.
Variable L : nat.
Variable ids : list string.
Variables zeros args : list val.
Variable wrap : list gstmt.
Variable wraps : wrapping.
Hypothesis Hwf : wf_method m.
Hypothesis Hhyg : hygienic m ids.
Hypothesis Hre : m_returnsError m = true.
Hypothesis Hz : length zeros = length (m_results m).
Hypothesis Hzerr : last zeros VNil = VNil.
Hypothesis Ha : length args = length (m_params m).
Hypothesis Hbase : base_typed W m base.
Definition has_validate (v : val) : bool := negb (is_nil v) && w_has W v t_validator.
Hypothesis Hobj : forall v, has_validate v = true -> exists k, v = VRef k.
Hypothesis Hval : forall tr k vs, w_ans W tr (OMeth (VRef k) "Validate" []) = ARet vs ->
  vs = [VNil] \/ exists e, vs = [VRef e].

Let R := length (m_results m).
Let P := length (m_params m).
Let fs := [(name, VRef base)].
Let inner (ex : list val) : loc_env :=
  ("_ok", S (R + P) + S (length ex)) :: ("_v", S (R + P) + length ex) :: method_env m.

Hypothesis Hwrap : forall v k ex tr,
  wp (block W m [] L (invoke W m [] L depth) (seq 1 R) (inner ex) [] (wrap ++ [SReturn]))
     (fun r s => exists w o, wraps (VRef k) w o /\ ms_trace s = tr ++ w /\ ms_defers s = []
        /\ match r, o with
           | Val c, Val e' => c = CRet /\ exists ex', ms_store s = cells (VRec fs) (removelast zeros ++ [e']) args ex'
           | Pan v, Pan v' => v = v'
           | Blk, Blk => True
           | _, _ => False
           end)
     (MState (cells (VRec fs) (removelast zeros ++ [VRef k]) args (ex ++ [v; VBool true])) tr []).

Lemma zeros_nonempty : zeros <> [].
Proof. intros E. rewrite E in Hz. destruct (wf_err m Hwf Hre) as [r [p [Er _]]]. rewrite Er in Hz. destruct r; discriminate. Qed.

Lemma zeros_nil : removelast zeros ++ [VNil] = zeros.
Proof. rewrite <- Hzerr at 1. symmetry. apply app_removelast_last. apply zeros_nonempty. Qed.

Lemma arg_lookup : forall p v, In (p, v) (combine (m_params m) args) ->
  exists i, lookup (p_name p) (method_env m) = Some (S (R + i)) /\ i < length args /\ nth_error args i = Some v.
Proof.
  intros p v H. apply In_nth_error in H. destruct H as [i Hi].
  assert (Hp : nth_error (m_params m) i = Some p /\ nth_error args i = Some v).
  { clear -Hi. revert args i Hi. induction (m_params m) as [|x l IH]; intros [|y a] [|i] Hi; cbn in *; try discriminate.
    - injection Hi as <- <-. auto.
    - auto. }
  destruct Hp as [Hp Hv]. exists i. split; [|split].
  - apply (lookup_param m i p Hwf); [eapply hygienic_less; [exact Hhyg | intros x []] | exact Hp].
  - apply nth_error_Some. now rewrite Hv.
  - exact Hv.
Qed.

Definition finished {A} (l : list val) (tr : trace) (r : out A) (s : mstate) : Prop :=
  exists tr2 o, validate_call wraps has_validate (OMeth (VRef base) (m_name m) args) zeros l tr2 o
    /\ ms_trace s = tr ++ tr2 /\ ms_defers s = []
    /\ match r, o with
       | Val _, Val vs => length vs = R /\ exists ex', ms_store s = cells (VRec fs) vs args ex'
       | Pan v, Pan v' => v = v'
       | Blk, Blk => True
       | _, _ => False
       end.

Lemma finished_skip : forall {A} v l tr (r : out A) s, has_validate v = false -> finished l tr r s -> finished (v :: l) tr r s.
Proof.
  intros A v l tr r s Hv (tr2 & o & Hc & H). exists tr2, o. split; [|exact H].
  destruct Hc; [eapply VC_valid | eapply VC_invalid | eapply VC_wrap_panics | eapply VC_wrap_hangs | eapply VC_aborted]; eauto; now apply V_skip.
Qed.

Lemma finished_ok : forall {A} v l tr (r : out A) s, has_validate v = true ->
  finished l (tr ++ [(OMeth v "Validate" [], ARet [VNil])]) r s -> finished (v :: l) tr r s.
Proof.
  intros A v l tr r s Hv (tr2 & o & Hc & Et & H). rewrite <- app_assoc in Et. eexists _, o. split; [|split; [exact Et | exact H]].
  cbn [app]. destruct Hc.
  - eapply (VC_valid _ _ _ _ _ (_ :: _)); eauto. now apply V_ok.
  - eapply (VC_invalid _ _ _ _ _ (_ :: _)); eauto. now apply V_ok.
  - eapply (VC_wrap_panics _ _ _ _ _ (_ :: _)); eauto. now apply V_ok.
  - eapply (VC_wrap_hangs _ _ _ _ _ (_ :: _)); eauto. now apply V_ok.
  - eapply VC_aborted. now apply V_ok.
Qed.

Lemma validate_block : forall l top ex tr, (forall pv, In pv l -> In pv (combine (m_params m) args)) ->
  wp (block W m [] L (invoke W m [] L depth) (seq 1 R) (method_env m) top
        (map (fun pv => check_param wrap (fst pv)) l ++ [pass_embedded name]))
     (finished (map snd l) tr) (MState (cells (VRec fs) zeros args ex) tr []).
Proof.
  assert (Hf : frame m (method_env m)) by (eapply frame_start; [apply Hwf | apply Hhyg]).
  pose proof (lookup_err m Hwf Hre) as Herr.
  pose proof (lookup_predeclared m _ "nil" Hhyg (or_introl eq_refl)) as Hnil.
  pose proof zeros_nonempty as Hzne.
  induction l as [|[p v] l IH]; intros top ex tr Hl.
  - cbn [map app]. unfold pass_embedded, embedded, d_, var. repeat wp1.
    eapply wp_pass; [reflexivity | reflexivity | exact Hf | exact Hz | exact Ha | | apply Hbase |].
    { cbn [field_of fs]. now rewrite wtext_hole, String.eqb_refl. }
    destruct (w_ans W tr _) as [vs|w|] eqn:E; cbv beta iota; repeat wp1.
    + eexists _, (Val vs). split; [apply (VC_valid _ _ _ _ _ [] (ARet vs)); [constructor | reflexivity]|].
      split; [reflexivity|]. split; [reflexivity|]. split; [exact (Hbase _ _ _ E) | now exists ex].
    + eexists _, (Pan w). split; [apply (VC_valid _ _ _ _ _ [] (APan w)); [constructor | reflexivity]|]. repeat split.
    + eexists _, Blk. split; [apply (VC_valid _ _ _ _ _ [] ABlock); [constructor | reflexivity]|]. repeat split.
  - destruct (arg_lookup p v (Hl _ (or_introl eq_refl))) as (i & Hlk & Hi & Hv).
    cbn [map app fst snd]. unfold check_param, verr, vnil, var, call0, Bodies.call. unfold R in *. repeat wp1.
    rewrite wtext_hole. eapply wp_var; [exact Hlk | rewrite cells_param by assumption; exact Hv |]. cbv beta iota. repeat wp1.
    fold (has_validate v). destruct (has_validate v) eqn:Ev.
    + eapply wp_define; [reflexivity | reflexivity | exact Hz | exact Ha |].
      eapply wp_define; [reflexivity | reflexivity | exact Hz | exact Ha |].
      rewrite <- app_assoc. cbn [app]. rewrite app_length. cbn [length].
      destruct (Hobj v Ev) as [k ->]. repeat wp1.
      apply wp_ask. destruct (w_ans W tr _) as [vs|w|] eqn:E.
      * destruct (Hval _ _ _ E) as [-> | [e ->]].
        -- repeat wp1. eapply wp_set_error; [exact Herr | exact Hz | exact Hzne |]. rewrite zeros_nil. repeat wp1.
           rewrite Hzerr. cbn [is_nil negb]. repeat wp1.
           eapply wp_weaken; [apply (IH top (ex ++ [VRef k; VBool true]))|].
           ++ intros pv Hpv. apply Hl. now right.
           ++ intros r s. now apply finished_ok.
        -- repeat wp1. eapply wp_set_error; [exact Herr | exact Hz | exact Hzne |]. repeat wp1.
           eapply wp_var; [exact Herr | |].
           { apply cells_err; [rewrite replace_last_length by exact Hzne; exact Hz | intros Z; now apply app_eq_nil in Z as [_ Z]]. }
           rewrite last_last. cbv beta iota. repeat wp1. cbn [is_nil negb]. repeat wp1.
           pose proof (Hwrap (VRef k) e ex (tr ++ [(OMeth (VRef k) "Validate" [], ARet [VRef e])])) as HW.
           unfold inner in HW. rewrite Nat.add_1_r. eapply wp_weaken; [exact HW|].
           intros r s (w & o & Hw & Et & Ed & Hr). rewrite <- app_assoc in Et.
           destruct r as [c|u| | |], o as [e'|u'| | |]; try contradiction.
           ++ destruct Hr as [-> [ex' Es]]. repeat wp1. eexists _, (Val (removelast zeros ++ [e'])).
              split; [|split; [exact Et | split; [exact Ed | split]]].
              ** eapply (VC_invalid _ _ _ _ _ [_] (VRef e)); [now apply V_bad | exact Hw].
              ** rewrite replace_last_length by exact Hzne. exact Hz.
              ** now exists ex'.
           ++ subst u'. eexists _, (Pan u). split; [eapply (VC_wrap_panics _ _ _ _ _ [_] (VRef e)); [now apply V_bad | exact Hw]|].
              now repeat split.
           ++ eexists _, Blk. split; [eapply (VC_wrap_hangs _ _ _ _ _ [_] (VRef e)); [now apply V_bad | exact Hw]|].
              now repeat split.
      * repeat wp1. eexists _, (Pan w). split; [apply VC_aborted; apply (V_fail _ _ _ (APan w)); [exact Ev | exact eq_refl]|]. now repeat split.
      * repeat wp1. eexists _, Blk. split; [apply VC_aborted; apply (V_fail _ _ _ ABlock); [exact Ev | exact eq_refl]|]. now repeat split.
    + eapply wp_define; [reflexivity | reflexivity | exact Hz | exact Ha |].
      eapply wp_define; [reflexivity | reflexivity | exact Hz | exact Ha |].
      rewrite <- app_assoc. cbn [app]. rewrite app_length. cbn [length].
      repeat wp1.
      eapply wp_weaken; [apply (IH top (ex ++ [VNil; VBool false]))|].
      * intros pv Hpv. apply Hl. now right.
      * intros r s. now apply finished_skip.
Qed.

Lemma subjects_split : forall ps (l : list val), length l = length ps -> map (check_param wrap) (filter (not_ctx m) ps) =
  map (fun pv => check_param wrap (fst pv)) (filter (fun pv => not_ctx m (fst pv)) (combine ps l)).
Proof.
  induction ps as [|p ps IH]; intros [|v l] E; try discriminate; [reflexivity|].
  cbn [combine filter map fst]. injection E as E. destruct (not_ctx m p); cbn [map fst]; now rewrite IH with (l := l).
Qed.

Theorem validate_checks :
  let '(r, tr) := run_method W m [] L (validate_with wrap name m) (construct (base_ctor name typ) [VRef base]) zeros args in
  validate_call wraps has_validate (OMeth (VRef base) (m_name m) args) zeros (subjects m args) tr r.
Proof.
  apply run_method_wp. apply wp_activation. unfold validate_with. rewrite Hre.
  assert (Er : construct (base_ctor name typ) [VRef base] = VRec fs) by (unfold construct; cbn; now rewrite sapp_nil_r).
  rewrite Er. clear Er. unfold subjects.
  rewrite (subjects_split _ _ Ha).
  cbn [ms_store ms_trace].
  eapply wp_weaken; [apply validate_block|].
  - intros pv Hpv. now apply filter_In in Hpv.
  - intros r s (tr2 & o & Hc & Et & Ed & Hr). destruct s as [st tr0 ds]. cbn [ms_trace ms_defers ms_store app] in *. subst tr0 ds.
    destruct r as [c|u| | |], o as [vs|u'| | |]; try contradiction; cbv beta iota zeta.
    + destruct Hr as [Hl [ex' ->]]. repeat wp1. apply wp_load_results; [exact Hl | exact Hc].
    + subst u'. repeat wp1. exact Hc.
    + exact Hc.
Qed.
End VALIDATE.

(** a method without an error result is passed through *)
Lemma pass_meets : forall W m funcs name typ base L zeros args,
  wf_method m -> hygienic m [] -> length zeros = length (m_results m) -> length args = length (m_params m) ->
  base_typed W m base ->
  let '(r, tr) := run_method W m funcs L [pass_embedded name] (construct (base_ctor name typ) [VRef base]) zeros args in
  exists a, tr = [(OMeth (VRef base) (m_name m) args, a)] /\ ends a r.
Proof.
  intros W m funcs name typ base L zeros args Hwf Hhyg Hz Ha Hbase. apply run_method_wp. apply wp_activation.
  assert (Hf : frame m (method_env m)) by (eapply frame_start; [apply Hwf | apply Hhyg]).
  assert (Er : construct (base_ctor name typ) [VRef base] = VRec [(name, VRef base)]) by (unfold construct; cbn; now rewrite sapp_nil_r).
  rewrite Er. unfold pass_embedded, embedded, d_, var. repeat wp1.
  eapply wp_pass; [reflexivity | reflexivity | exact Hf | exact Hz | exact Ha | | apply Hbase |].
  { cbn [field_of]. now rewrite wtext_hole, String.eqb_refl. }
  destruct (w_ans W [] _) as [vs|w|] eqn:E; cbv beta iota; repeat wp1.
  - apply wp_load_results; [exact (Hbase _ _ _ E)|]. eexists. split; reflexivity.
  - eexists. split; reflexivity.
  - eexists. split; reflexivity.
Qed.

(** what the three templates check: nothing when there is no error result to report with *)
Definition checked_args (m : method) (args : list val) : list val :=
  if m_returnsError m then subjects m args else [].

Section TEMPLATES.
Variable W : gworld.
Variable m : method.
Variables name typ : string.
Variable base : nat.
Variable L : nat.
Variables zeros args : list val.
Hypothesis Hwf : wf_method m.
Hypothesis Hz : length zeros = length (m_results m).
Hypothesis Hzerr : m_returnsError m = true -> last zeros VNil = VNil.
Hypothesis Ha : length args = length (m_params m).
Hypothesis Hbase : base_typed W m base.
Hypothesis Hobj : forall v, has_validate W v = true -> exists k, v = VRef k.
Hypothesis Hval : forall tr k vs, w_ans W tr (OMeth (VRef k) "Validate" []) = ARet vs ->
  vs = [VNil] \/ exists e, vs = [VRef e].

Lemma unchecked : forall wrap wraps, hygienic m [] -> m_returnsError m = false ->
  let '(r, tr) := run_method W m [] L (validate_with wrap name m) (construct (base_ctor name typ) [VRef base]) zeros args in
  validate_call wraps (has_validate W) (OMeth (VRef base) (m_name m) args) zeros (checked_args m args) tr r.
Proof.
  intros wrap wraps Hh Hre. unfold validate_with, checked_args. rewrite Hre. cbn [app].
  pose proof (pass_meets W m [] name typ base L zeros args Hwf Hh Hz Ha Hbase) as H.
  destruct (run_method _ _ _ _ _ _ _ _) as [r tr]. destruct H as [a [-> He]].
  apply (VC_valid _ _ _ _ _ []); [constructor | exact He].
Qed.

Theorem validate_meets : hygienic m ["_v"; "_ok"] ->
  let '(r, tr) := run_method W m [] L (validate_body name m) (construct (base_ctor name typ) [VRef base]) zeros args in
  validate_call as_is (has_validate W) (OMeth (VRef base) (m_name m) args) zeros (checked_args m args) tr r.
Proof.
  intros Hh. destruct (m_returnsError m) eqn:Hre; [|apply unchecked; [eapply hygienic_less; [exact Hh | intros x []] | exact Hre]].
  unfold checked_args. rewrite Hre.
  apply (validate_checks W m name typ base L _ zeros args [] as_is Hwf Hh Hre Hz (Hzerr eq_refl) Ha Hbase Hobj Hval).
  intros v k ex tr. cbn [app]. repeat wp1. exists [], (Val (VRef k)). rewrite app_nil_r. repeat split. now exists (ex ++ [v; VBool true]).
Qed.

Hypothesis Htext : forall tr k vs, w_ans W tr (OMeth (VRef k) "Error" []) = ARet vs -> exists s, vs = [s].

Ltac rewrapping Hh Hre Hnew :=
  intros v k ex tr;
  assert (Hf : frame m (method_env m)) by (eapply frame_start; [apply Hwf | apply Hh]);
  pose proof (lookup_err m Hwf Hre) as Herr;
  assert (Hzne : zeros <> []) by (eapply zeros_nonempty; [exact Hwf | exact Hre | exact Hz]);
  assert (Hle : forall x, length (removelast zeros ++ [x]) = length (m_results m))
    by (intros x; rewrite replace_last_length by exact Hzne; exact Hz);
  assert (Hne : forall x, removelast zeros ++ [x] <> []) by (intros x Z; now apply app_eq_nil in Z as [_ Z]);
  unfold verr, var, call0, Bodies.call; cbn [app]; repeat wp1;
  (eapply wp_var; [exact Herr | apply cells_err; [apply Hle | apply Hne] |]); rewrite last_last; cbv beta iota; repeat wp1;
  apply wp_ask; (destruct (w_ans W tr _) as [vs|w|] eqn:E; cbv beta iota; repeat wp1);
  [ destruct (Htext _ _ _ E) as [s ->]; repeat wp1; apply wp_ask;
    (destruct (w_ans W _ (OCall _ _)) as [vs|w|] eqn:E2; cbv beta iota; repeat wp1);
    [ destruct (Hnew _ _ _ E2) as [e' ->]; repeat wp1;
      eapply wp_set_error; [exact Herr | apply Hle | apply Hne |]; rewrite removelast_last; repeat wp1;
      eexists _, (Val e');
      split; [apply W_new | rewrite <- app_assoc; repeat split; now exists (ex ++ [v; VBool true])]
    | eexists _, (Pan w); split; [apply W_new_panics | now rewrite <- app_assoc]
    | eexists _, Blk; split; [apply W_new_hangs | now rewrite <- app_assoc] ]
  | eexists _, (Pan w); split; [apply W_text_panics | now repeat split]
  | eexists _, Blk; split; [apply W_text_hangs | now repeat split] ].

Theorem twirp_validate_meets : hygienic m ["_v"; "_ok"; "twirp"] ->
  (forall tr a vs, w_ans W tr (OCall (VPkg "twirp.NewError") a) = ARet vs -> exists e, vs = [e]) ->
  let '(r, tr) := run_method W m [] L (twirp_validate_body name m) (construct (base_ctor name typ) [VRef base]) zeros args in
  validate_call (rewrapped "twirp.NewError" (VPkg "twirp.InvalidArgument")) (has_validate W)
    (OMeth (VRef base) (m_name m) args) zeros (checked_args m args) tr r.
Proof.
  intros Hh Hnew. destruct (m_returnsError m) eqn:Hre; [|apply unchecked; [eapply hygienic_less; [exact Hh | intros x []] | exact Hre]].
  unfold checked_args. rewrite Hre.
  assert (Hpkg : lookup "twirp" (method_env m) = None) by (eapply lookup_fresh; [apply Hh | cbn; tauto | discriminate]).
  apply (validate_checks W m name typ base L _ zeros args _ _ Hwf Hh Hre Hz (Hzerr eq_refl) Ha Hbase Hobj Hval).
  rewrapping Hh Hre Hnew.
Qed.

Theorem grpc_validate_meets : hygienic m ["_v"; "_ok"; "grpc_status"; "grpc_codes"] ->
  (forall tr a vs, w_ans W tr (OCall (VPkg "grpc_status.Error") a) = ARet vs -> exists e, vs = [e]) ->
  let '(r, tr) := run_method W m [] L (grpc_validate_body name m) (construct (base_ctor name typ) [VRef base]) zeros args in
  validate_call (rewrapped "grpc_status.Error" (VPkg "grpc_codes.InvalidArgument")) (has_validate W)
    (OMeth (VRef base) (m_name m) args) zeros (checked_args m args) tr r.
Proof.
  intros Hh Hnew. destruct (m_returnsError m) eqn:Hre; [|apply unchecked; [eapply hygienic_less; [exact Hh | intros x []] | exact Hre]].
  unfold checked_args. rewrite Hre.
  assert (Hpkg : lookup "grpc_status" (method_env m) = None) by (eapply lookup_fresh; [apply Hh | cbn; tauto | discriminate]).
  assert (Hpkg2 : lookup "grpc_codes" (method_env m) = None) by (eapply lookup_fresh; [apply Hh | cbn; tauto | discriminate]).
  apply (validate_checks W m name typ base L _ zeros args _ _ Hwf Hh Hre Hz (Hzerr eq_refl) Ha Hbase Hobj Hval).
  rewrapping Hh Hre Hnew.
Qed.
End TEMPLATES.
