(** C45: the validation decorators call the base only with valid arguments. *)
From Verif Require Import Validate PropNaming.
Open Scope nat_scope.

(** ** Statement *)

(** the templates validate, twirp_validate and grpc_validate *)
Inductive vkind := Plain | Twirp | Grpc.

Definition vbody (k : vkind) : string -> method -> list gstmt :=
  match k with Plain => validate_body | Twirp => twirp_validate_body | Grpc => grpc_validate_body end.

(** identifiers the bodies use *)
Definition vids (k : vkind) : list string :=
  match k with
  | Plain => ["_v"; "_ok"]
  | Twirp => ["_v"; "_ok"; "twirp"]
  | Grpc => ["_v"; "_ok"; "grpc_status"; "grpc_codes"]
  end.

(** the library function a validation error goes through, and its code *)
Definition vlib (k : vkind) : option (string * string) :=
  match k with
  | Plain => None
  | Twirp => Some ("twirp.NewError", "twirp.InvalidArgument")
  | Grpc => Some ("grpc_status.Error", "grpc_codes.InvalidArgument")
  end.

(** the outside world has Go's types *)
Record validate_world (W : gworld) (m : method) (base : nat) (k : vkind) : Prop := {
  vw_base : base_typed W m base;
  vw_obj : forall v, is_nil v = false -> w_has W v t_validator = true -> exists k, v = VRef k;
  vw_validate : forall tr v vs, w_ans W tr (OMeth (VRef v) "Validate" []) = ARet vs -> vs = [VNil] \/ exists e, vs = [VRef e];
  vw_text : forall tr e vs, w_ans W tr (OMeth (VRef e) "Error" []) = ARet vs -> exists s, vs = [s];
  vw_lib : forall f c tr a vs, vlib k = Some (f, c) -> w_ans W tr (OCall (VPkg f) a) = ARet vs -> exists e, vs = [e]
}.

(** [reported k e tr r]: how the validation error [e] is turned into the call's error *)
Inductive reported : vkind -> val -> trace -> out val -> Prop :=
| R_plain e : reported Plain e [] (Val e)
| R_lib k f c e s e' : vlib k = Some (f, c) ->
    reported k e [(OMeth e "Error" [], ARet [s]); (OCall (VPkg f) [VPkg c; s], ARet [e'])] (Val e')
| R_fails k f c e pre o a : vlib k = Some (f, c) -> a = ABlock \/ (exists v, a = APan v) ->
    (pre = [] /\ o = OMeth e "Error" [] \/
     exists s, pre = [(OMeth e "Error" [], ARet [s])] /\ o = OCall (VPkg f) [VPkg c; s]) ->
    reported k e (pre ++ [(o, a)]) (match a with APan v => Pan v | _ => Blk end).

Definition says (o : ans) (v : val) : op * ans := (OMeth v "Validate" [], o).

(** [objects] are the arguments with a Validate method, in order *)
Inductive C45_call (k : vkind) (base : op) (zeros objects : list val) : trace -> out (list val) -> Prop :=
| C45_valid a r : ends a r ->
    C45_call k base zeros objects (map (says (ARet [VNil])) objects ++ [(base, a)]) r
| C45_invalid good bad rest e tr r : objects = good ++ bad :: rest -> e <> VNil -> reported k e tr r ->
    C45_call k base zeros objects (map (says (ARet [VNil])) good ++ says (ARet [e]) bad :: tr)
      (match r with Val e' => Val (removelast zeros ++ [e']) | Pan v => Pan v | Blk => Blk | NoFuel => NoFuel | Stuck => Stuck end)
| C45_fails good bad rest a r : objects = good ++ bad :: rest -> fails a r ->
    C45_call k base zeros objects (map (says (ARet [VNil])) good ++ [says a bad]) r.

(** the arguments of the parameters that are not the context and have a Validate method *)
Definition objects (W : gworld) (m : method) (args : list val) : list val :=
  if m_returnsError m
  then filter (fun v => negb (is_nil v) && w_has W v t_validator)
         (if m_acceptsContext m then tl args else args)
  else [].

(** ** Proof *)

Lemma validations_split : forall has l tr o, validations has l tr o ->
  match o with
  | Valid => tr = map (says (ARet [VNil])) (filter has l)
  | Invalid e => exists good bad rest, filter has l = good ++ bad :: rest /\ e <> VNil
      /\ tr = map (says (ARet [VNil])) good ++ [says (ARet [e]) bad]
  | Aborted r => exists good bad rest a, filter has l = good ++ bad :: rest /\ fails a r
      /\ tr = map (says (ARet [VNil])) good ++ [says a bad]
  end.
Proof.
  intros has l tr o H. induction H as [|v l tr o Hv H IH|v l tr o Hv H IH|v l e Hv He|v l a r Hv Hf]; cbn [filter]; try rewrite Hv.
  - reflexivity.
  - exact IH.
  - destruct o as [|e|r].
    + now rewrite IH.
    + destruct IH as (good & bad & rest & -> & He & ->). exists (v :: good), bad, rest. now repeat split.
    + destruct IH as (good & bad & rest & a & -> & Hf & ->). exists (v :: good), bad, rest, a. now repeat split.
  - exists [], v, (filter has l). now repeat split.
  - exists [], v, (filter has l), a. now repeat split.
Qed.

(** a method that takes a context has it first, and no other parameter has its name *)
Lemma subjects_tl : forall m args, wf_method m -> length args = length (m_params m) ->
  subjects m args = if m_acceptsContext m then tl args else args.
Proof.
  intros m args Hwf Ha. unfold subjects. assert (Hno : m_acceptsContext m = false \/ exists p r, m_params m = p :: r /\ p_name p = "ctx").
  { destruct (m_acceptsContext m) eqn:E; [right; now apply (wf_ctx m Hwf) | now left]. }
  assert (Hall : forall ps (l : list val), length l = length ps -> (forall p, In p ps -> not_ctx m p = true) ->
            map snd (filter (fun pv => not_ctx m (fst pv)) (combine ps l)) = l).
  { induction ps as [|p ps IH]; intros [|v l] E H; try discriminate; [reflexivity|].
    cbn [combine filter fst]. rewrite (H p (or_introl eq_refl)). cbn [map snd]. f_equal. apply IH; [now injection E|].
    intros q Hq. apply H. now right. }
  destruct (m_acceptsContext m) eqn:Ec.
  - destruct Hno as [E|(p & r & Ep & En)]; [discriminate|]. pose proof (wf_names m Hwf) as Hn. unfold param_names in Hn. rewrite Ep in *.
    destruct args as [|v args]; [discriminate|]. cbn [combine filter fst tl]. unfold not_ctx at 1. rewrite Ec, En. cbn [String.eqb Ascii.eqb Bool.eqb andb negb].
    apply Hall; [now injection Ha|]. intros q Hq. unfold not_ctx. rewrite Ec. cbn [andb].
    destruct (String.eqb_spec (p_name q) "ctx") as [E|]; [|reflexivity]. exfalso.
    apply NoDup_app_r in Hn. cbn [map] in Hn. inversion Hn as [|x l Hx _]. apply Hx. rewrite En, <- E. now apply in_map.
  - apply Hall; [exact Ha|]. intros p _. unfold not_ctx. now rewrite Ec.
Qed.

Theorem C45_validation : forall k W m name typ base L zeros args,
  wf_method m -> hygienic m (vids k) -> validate_world W m base k ->
  length zeros = length (m_results m) -> (m_returnsError m = true -> last zeros VNil = VNil) ->   (* the zero error is nil *)
  length args = length (m_params m) ->
  let '(r, tr) := run_method W m [] L (vbody k name m) (construct (base_ctor name typ) [VRef base]) zeros args in
  C45_call k (OMeth (VRef base) (m_name m) args) zeros (objects W m args) tr r.
Proof.
  intros k W m name typ base L zeros args Hwf Hh [Wb Wo Wv Wt Wl] Hz Hze Ha.
  assert (Ho : forall v, has_validate W v = true -> exists k, v = VRef k).
  { intros v H. apply andb_prop in H as [H1 H2]. apply Wo; [now apply Bool.negb_true_iff | exact H2]. }
  assert (H : let '(r, tr) := run_method W m [] L (vbody k name m) (construct (base_ctor name typ) [VRef base]) zeros args in
            validate_call (reported k) (has_validate W) (OMeth (VRef base) (m_name m) args) zeros (checked_args m args) tr r).
  { assert (Hwraps : forall (w1 w2 : wrapping) has b z l tr r, (forall e tr o, w1 e tr o -> w2 e tr o) ->
              validate_call w1 has b z l tr r -> validate_call w2 has b z l tr r).
    { intros w1 w2 has b z l tr r Hw H. destruct H; [eapply VC_valid | eapply VC_invalid | eapply VC_wrap_panics | eapply VC_wrap_hangs | eapply VC_aborted]; eauto. }
    assert (Hre : forall f c e tr o, vlib k = Some (f, c) -> rewrapped f (VPkg c) e tr o -> reported k e tr o).
    { intros f c e tr o Hk Hr. destruct Hr.
      - now apply R_lib.
      - apply (R_fails k f c e [] _ (APan v) Hk); eauto.
      - apply (R_fails k f c e [] _ ABlock Hk); eauto.
      - apply (R_fails k f c e [_] _ (APan v) Hk); eauto.
      - apply (R_fails k f c e [_] _ ABlock Hk); eauto. }
    destruct k; cbn [vbody vids vlib] in *.
    - pose proof (validate_meets W m name typ base L zeros args Hwf Hz Hze Ha Wb Ho Wv Hh) as H.
      destruct (run_method _ _ _ _ _ _ _ _) as [r tr]. eapply Hwraps; [|exact H]. intros e t o [x]. constructor.
    - pose proof (twirp_validate_meets W m name typ base L zeros args Hwf Hz Hze Ha Wb Ho Wv Wt Hh (fun t a vs => Wl _ _ t a vs eq_refl)) as H.
      destruct (run_method _ _ _ _ _ _ _ _) as [r tr]. eapply Hwraps; [|exact H]. intros e t o. now apply Hre.
    - pose proof (grpc_validate_meets W m name typ base L zeros args Hwf Hz Hze Ha Wb Ho Wv Wt Hh (fun t a vs => Wl _ _ t a vs eq_refl)) as H.
      destruct (run_method _ _ _ _ _ _ _ _) as [r tr]. eapply Hwraps; [|exact H]. intros e t o. now apply Hre. }
  destruct (run_method _ _ _ _ _ _ _ _) as [r tr].
  assert (Eo : objects W m args = filter (has_validate W) (checked_args m args)).
  { unfold objects, checked_args. destruct (m_returnsError m); [|reflexivity]. now rewrite subjects_tl. }
  rewrite Eo. clear Eo Hwf Hh Hze Ha. destruct H as [tr a r Hv He|tr e w e' Hv Hw|tr e w v Hv Hw|tr e w Hv Hw|tr r Hv];
    apply validations_split in Hv; cbv beta iota in Hv.
  - rewrite Hv. now apply C45_valid.
  - destruct Hv as (good & bad & rest & E & He & ->). rewrite <- app_assoc. apply (C45_invalid _ _ _ _ good bad rest e w (Val e')); assumption.
  - destruct Hv as (good & bad & rest & E & He & ->). rewrite <- app_assoc. apply (C45_invalid _ _ _ _ good bad rest e w (Pan v)); assumption.
  - destruct Hv as (good & bad & rest & E & He & ->). rewrite <- app_assoc. apply (C45_invalid _ _ _ _ good bad rest e w Blk); assumption.
  - destruct Hv as (good & bad & rest & a & E & Hf & ->). eapply C45_fails; eassumption.
Qed.

(** ** Example: two arguments with a Validate method, the second of which is invalid *)
Definition ex_vworld (bad : nat) : gworld :=
  GWorld (fun tr o => match o with
    | OMeth (VRef _) "Do" _ => ARet [VString "done"; VNil]
    | OMeth (VRef n) "Validate" [] => if n =? bad then ARet [VRef 50] else ARet [VNil]
    | OMeth (VRef _) "Error" [] => ARet [VString "bad"]
    | OCall (VPkg "twirp.NewError") [c; s] => ARet [VRef 60]
    | OCall (VPkg "grpc_status.Error") [c; s] => ARet [VRef 70]
    | _ => ABlock
    end) (fun v _ => match v with VRef _ => true | _ => false end).
Definition ex_vrun (k : vkind) (bad : nat) : out (list val) * trace :=
  run_method (ex_vworld bad) ex_m [] 0 (vbody k "Doer" ex_m) (construct (base_ctor "Doer" "pkg.Doer") [VRef 0])
    [VString ""; VNil] [VRef 3; VRef 4; VRef 5; VSlice [VRef 6]].

Example C45_nontrivial :
  wf_method ex_m /\ (forall k, hygienic ex_m (vids k)) /\ (forall k bad, validate_world (ex_vworld bad) ex_m 0 k) /\
  objects (ex_vworld 5) ex_m [VRef 3; VRef 4; VRef 5; VSlice [VRef 6]] = [VRef 4; VRef 5] /\
  ex_vrun Plain 9 = (Val [VString "done"; VNil],
    [says (ARet [VNil]) (VRef 4); says (ARet [VNil]) (VRef 5);
     (OMeth (VRef 0) "Do" [VRef 3; VRef 4; VRef 5; VSlice [VRef 6]], ARet [VString "done"; VNil])]) /\
  ex_vrun Plain 5 = (Val [VString ""; VRef 50], [says (ARet [VNil]) (VRef 4); says (ARet [VRef 50]) (VRef 5)]) /\
  ex_vrun Twirp 4 = (Val [VString ""; VRef 60],
    [says (ARet [VRef 50]) (VRef 4); (OMeth (VRef 50) "Error" [], ARet [VString "bad"]);
     (OCall (VPkg "twirp.NewError") [VPkg "twirp.InvalidArgument"; VString "bad"], ARet [VRef 60])]) /\
  fst (ex_vrun Grpc 4) = Val [VString ""; VRef 70].
Proof.
  split; [eapply NewMethod_wf, ex_NewMethod|]. split.
  { intros k x Hx Hin. destruct k; cbn in Hx, Hin; intuition (subst; discriminate). }
  split.
  { intros k bad. constructor.
    - intros tr a vs. cbn. intros E. injection E as <-. reflexivity.
    - intros v _ Hv. destruct v; try discriminate. eauto.
    - intros tr v vs. cbn. destruct (v =? bad); intros E; injection E as <-; eauto.
    - intros tr e vs. cbn. intros E. injection E as <-. eauto.
    - intros f c tr a vs Hk. destruct k; try discriminate Hk; injection Hk as <- <-; cbn; destruct a as [|x [|y [|z a]]]; try discriminate;
        intros E; injection E as <-; eauto. }
  vm_compute. repeat split; reflexivity.
Qed.

(** Variadic elements are not looked at: VRef 6 is invalid, yet the base is called with it *)
Example C45_variadic_not_validated :
  fst (ex_vrun Plain 6) = Val [VString "done"; VNil] /\
  In (OMeth (VRef 0) "Do" [VRef 3; VRef 4; VRef 5; VSlice [VRef 6]]) (map fst (snd (ex_vrun Plain 6))).
Proof. vm_compute. auto. Qed.

Print Assumptions C45_validation.
Print Assumptions C45_nontrivial.
