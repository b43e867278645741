(** What a call of a method generated by templates/timeout does. *)
From Verif Require Export Deco.
Open Scope nat_scope.

(** ** Specification *)

Definition with_timeout (c : val) (t : Z) : op := OCall (VPkg "context.WithTimeout") [c; VInt t].

(** [c] is the context of the caller, [t] the configured timeout, [fresh] what
    WithTimeout may return *)
Inductive timeout_call (b : val) (nm : string) (c : val) (rest : list val) (t : Z) (fresh : val -> Prop)
  : trace -> out (list val) -> Prop :=
| T_unlimited a r : (t <= 0)%Z -> ends a r -> timeout_call b nm c rest t fresh [(OMeth b nm (c :: rest), a)] r
| T_no_context a r : (0 < t)%Z -> fails a r -> timeout_call b nm c rest t fresh [(with_timeout c t, a)] r
| T_limited c' f a r cv : (0 < t)%Z -> fresh c' -> a <> ABlock -> ends a r ->
    timeout_call b nm c rest t fresh
      [(with_timeout c t, ARet [c'; VRef f]); (OMeth b nm (c' :: rest), a); (OCall (VRef f) [], ARet cv)] r
| T_hangs c' f : (0 < t)%Z -> fresh c' ->
    timeout_call b nm c rest t fresh [(with_timeout c t, ARet [c'; VRef f]); (OMeth b nm (c' :: rest), ABlock)] Blk.

Section TIMEOUT.
Variable W : gworld.
Variable m : method.
Variables dec name typ : string.
Variable config : list (string * val).
Variable t : Z.
Variable base : nat.
Variable L : nat.
Variables (zeros : list val) (ctx : val) (rest : list val).
Hypothesis Hwf : wf_method m.
Hypothesis Hhyg : hygienic m ["context"; "cancelFunc"].
Hypothesis Hac : m_acceptsContext m = true.
Hypothesis Hz : length zeros = length (m_results m).
Hypothesis Ha : length (ctx :: rest) = length (m_params m).
Hypothesis Hname : name <> "config".
Hypothesis Hconfig : field_of (m_name m ++ "Timeout") config = Some (VInt t).
Hypothesis Hbase : base_typed W m base.
Variable fresh : val -> Prop.
Hypothesis Hwith : forall tr vs, w_ans W tr (with_timeout ctx t) = ARet vs -> exists c' f, vs = [c'; VRef f] /\ fresh c'.
Hypothesis Hcancel : forall tr f, exists vs, w_ans W tr (OCall (VRef f) []) = ARet vs.

Theorem timeout_meets :
  let '(r, tr) := run_method W m [] L (timeout_body name m)
                    (construct (timeout_ctor dec name typ) [VRef base; VRec config]) zeros (ctx :: rest) in
  timeout_call (VRef base) (m_name m) ctx rest t fresh tr r.
Proof.
  apply run_method_wp. apply wp_activation. unfold timeout_body, timeout_field, pass_embedded, vctx, d_, var, call0, Bodies.call, embedded.
  assert (Hf : frame m (method_env m)) by (eapply frame_start; [apply Hwf | apply Hhyg]).
  pose proof (lookup_ctx m Hwf Hac) as Hctx.
  assert (Hpkg : lookup "context" (method_env m) = None) by (eapply lookup_fresh; [apply Hhyg | cbn; tauto | discriminate]).
  set (fs := [(name, VRef base); ("config", VRec config)]).
  assert (Er : construct (timeout_ctor dec name typ) [VRef base; VRec config] = VRec fs) by (unfold construct; cbn; now rewrite sapp_nil_r).
  rewrite Er. clear Er.
  assert (F1 : field_of "config" fs = Some (VRec config)).
  { cbn [field_of fs]. destruct (String.eqb_spec "config" name) as [E|_]; [now subst|]. reflexivity. }
  assert (F2 : field_of (wtext [PH name]) fs = Some (VRef base)) by (cbn [field_of fs]; now rewrite wtext_hole, String.eqb_refl).
  assert (F3 : field_of (wtext [PH (m_name m); PS "Timeout"]) config = Some (VInt t)) by exact Hconfig.
  clearbody fs.
  repeat wp1. eapply wp_alloc; [exact Hz | exact Ha |]. rewrite wtext_lit. repeat wp1.
  assert (Hf2 : frame m (("cancelFunc", S (length (m_results m) + length (m_params m)) + length (@nil val)) :: method_env m)).
  { apply frame_cons; [discriminate | apply Hhyg; cbn; tauto | exact Hf]. }
  wpif; repeat wp1.
  - fold (with_timeout ctx t). apply wp_ask. destruct (w_ans W [] (with_timeout ctx t)) as [vs|v|] eqn:E1.
    2:{ repeat wp1. apply T_no_context; [lia | reflexivity]. }
    2:{ apply T_no_context; [lia | reflexivity]. }
    destruct (Hwith _ _ E1) as (c' & f & -> & Hfresh). repeat wp1.
    eapply wp_set_ctx; [exact Hctx | exact Hz |]. repeat wp1.
    eapply wp_set_local; [reflexivity | exact Hz | exact Ha |]. cbn [set_nth length app]. repeat wp1.
    eapply wp_pass; [reflexivity | reflexivity | exact Hf2 | exact Hz | exact Ha | exact F2 | apply Hbase |].
    destruct (w_ans W _ (OMeth _ _ _)) as [vs|v|] eqn:E2; cbv beta iota.
    + pose proof (Hbase _ _ _ E2) as Hl. repeat wp1. apply wp_ask. destruct (Hcancel ([(with_timeout ctx t, ARet [c'; VRef f]); (OMeth (VRef base) (m_name m) (c' :: rest), ARet vs)]) f) as [cv Hcv].
      cbn [app]. rewrite Hcv. repeat wp1. apply wp_load_results; [exact Hl|]. cbn [ms_trace app].
      apply T_limited; [lia | exact Hfresh | discriminate | reflexivity].
    + repeat wp1. apply wp_ask. destruct (Hcancel ([(with_timeout ctx t, ARet [c'; VRef f]); (OMeth (VRef base) (m_name m) (c' :: rest), APan v)]) f) as [cv Hcv].
      cbn [app]. rewrite Hcv. repeat wp1. cbn [ms_trace app].
      apply T_limited; [lia | exact Hfresh | discriminate | reflexivity].
    + cbn [app ms_trace]. apply T_hangs; [lia | exact Hfresh].
  - eapply wp_pass; [reflexivity | reflexivity | exact Hf2 | exact Hz | exact Ha | exact F2 | apply Hbase |].
    destruct (w_ans W _ (OMeth _ _ _)) as [vs|v|] eqn:E2; cbv beta iota.
    + pose proof (Hbase _ _ _ E2) as Hl. repeat wp1. apply wp_load_results; [exact Hl|]. apply T_unlimited; [lia | reflexivity].
    + repeat wp1. apply T_unlimited; [lia | reflexivity].
    + apply T_unlimited; [lia | reflexivity].
Qed.
End TIMEOUT.
