(** What a call of a method generated by templates/elasticapm does. *)
From Verif Require Export Tracing Validate.
Open Scope nat_scope.

(** ** Specification *)

(** As observed_call, with a script between the start and the call of the base
    that runs after the deferred function was set. *)
Inductive labelled_call {A} (before : script A) (labels : A -> script unit) (base : A -> op) (zeros : list val)
    (after : A -> list val -> script unit) : trace -> out (list val) -> Prop :=
| LB_panics tr v : plays before tr (Pan v) -> labelled_call before labels base zeros after tr (Pan v)
| LB_blocks tr : plays before tr Blk -> labelled_call before labels base zeros after tr Blk
| LB_label_panics tr x tr1 v tr2 b r : plays before tr (Val x) -> plays (labels x) tr1 (Pan v) ->
    plays (after x zeros) tr2 b -> finish (APan v) b r -> labelled_call before labels base zeros after (tr ++ tr1 ++ tr2) r
| LB_label_blocks tr x tr1 : plays before tr (Val x) -> plays (labels x) tr1 Blk ->
    labelled_call before labels base zeros after (tr ++ tr1) Blk
| LB_hangs tr x tr1 : plays before tr (Val x) -> plays (labels x) tr1 (Val tt) ->
    labelled_call before labels base zeros after (tr ++ tr1 ++ [(base x, ABlock)]) Blk
| LB_done tr x tr1 a tr2 b r : plays before tr (Val x) -> plays (labels x) tr1 (Val tt) -> a <> ABlock ->
    plays (after x (results zeros a)) tr2 b -> finish a b r ->
    labelled_call before labels base zeros after (tr ++ tr1 ++ (base x, a) :: tr2) r.

(** the functions of the decorator's fields *)
Record apm := Apm { ap_start : nat; ap_end : nat; ap_label : nat; ap_capture : nat; ap_type : string }.

Definition apm_before (f : apm) (comp : string) (m : method) (ctx : val) (rest : list val) : script (val * val) :=
  Ask (OCall (VRef (ap_start f)) [ctx; VString (comp ++ "." ++ m_name m); VString (ap_type f)])
      (fun l => Done (nth 0 l VNil, nth 1 l VNil)).

Fixpoint apm_labels (f : apm) (snake : string -> string) (span : val) (l : list (string * val)) : script unit :=
  match l with
  | [] => Done tt
  | (x, v) :: l' => Ask (OCall (VRef (ap_label f)) [span; VString (snake x); v]) (fun _ => apm_labels f snake span l')
  end.

Definition apm_after (f : apm) (m : method) (span ctx : val) (rs : list val) : script unit :=
  andthen (if failed m rs then Ask (OCall (VRef (ap_capture f)) [ctx; last rs VNil]) (fun _ => Done tt) else Done tt)
          (fun _ => Ask (OCall (VRef (ap_end f)) [span]) (fun _ => Done tt)).

Section APM.
Variable W : gworld.
Variable m : method.
Variable snake : string -> string.
Variable comp : string.
Variable L : nat.
Variable base : nat.
Variable f : apm.
Variables (zeros : list val) (ctx : val) (rest : list val).
Hypothesis Hwf : wf_method m.
Hypothesis Hhyg : hygienic m ["span"].
Hypothesis Hac : m_acceptsContext m = true.
Hypothesis Hz : length zeros = length (m_results m).
Hypothesis Ha : length (ctx :: rest) = length (m_params m).
Hypothesis Hbase : base_typed W m base.
Hypothesis Hstart : forall tr a vs, w_ans W tr (OCall (VRef (ap_start f)) a) = ARet vs -> exists s c, vs = [s; c].
Definition apm_fields : list (string * val) :=
  [("base", VRef base); ("startSpan", VRef (ap_start f)); ("endSpan", VRef (ap_end f)); ("setLabel", VRef (ap_label f));
   ("captureError", VRef (ap_capture f)); ("spanType", VString (ap_type f))].
Let env := ("span", S (length (m_results m) + length (m_params m)) + 0) :: method_env m.

Lemma apm_frame : frame m env.
Proof. apply frame_cons; [discriminate | apply Hhyg; do 4 right; now left |]. eapply frame_start; [apply Hwf | apply Hhyg]. Qed.

Lemma apm_deferred_meets : forall span c' rs, length rs = length (m_results m) ->
  clo_meets W m [] L env (elasticapm_deferred m) (VRec apm_fields) rs (c' :: rest) [span] (apm_after f m span c' rs).
Proof.
  intros span c' rs Hrs tr. unfold elasticapm_deferred, Bodies.call, verr, vctx, vnil, d_, var, apm_after, failed.
  pose proof apm_frame as Hf. pose proof (fr_d m env Hf) as Hd.
  assert (Hnil : lookup "nil" env = None).
  { unfold env. cbn [lookup String.eqb Ascii.eqb Bool.eqb]. eapply lookup_predeclared; [apply Hhyg | tauto]. }
  assert (Hsp : lookup "span" env = Some (S (length (m_results m) + length (m_params m)) + 0)) by reflexivity.
  assert (Hctx : lookup "ctx" env = Some (S (length (m_results m)))) by exact (lookup_ctx m Hwf Hac).
  assert (F1 : field_of "captureError" apm_fields = Some (VRef (ap_capture f))) by reflexivity.
  assert (F2 : field_of "endSpan" apm_fields = Some (VRef (ap_end f))) by reflexivity.
  assert (Ha' : length (c' :: rest) = length (m_params m)) by exact Ha.
  assert (Herr : m_returnsError m = true -> lookup "err" env = Some (length (m_results m))) by (intros He; exact (lookup_err m Hwf He)).
  clearbody env. generalize dependent apm_fields. intros fs F1 F2.
  destruct (m_returnsError m) eqn:He; cbn [app andb].
  - specialize (Herr eq_refl). assert (Hne : rs <> []).
    { destruct (wf_err m Hwf He) as (r & p & E & _). intros ->. rewrite E, app_length, Nat.add_comm in Hrs. discriminate. }
    repeat wp1. wpif; repeat wp1; cbn [andthen].
    + ask; [ask; played | played | played].
    + ask; played.
  - repeat wp1. cbn [andthen]. ask; played.
Qed.

Definition label_stmt (p : param) : gstmt :=
  SExpr (Bodies.call (d_ .: "setLabel") [var "span"; EStr [PH (snake (p_name p))]; EVar [PH (p_name p)]]).

Lemma labels_meet : forall l span c' top tr ds tail (Q : out ctl -> mstate -> Prop),
  (forall pv, In pv l -> In pv (combine (m_params m) (c' :: rest))) ->
  (forall tr1, plays (apm_labels f snake span (map (fun pv => (p_name (fst pv), snd pv)) l)) tr1 (Val tt) ->
     wp (block W m [] L (invoke W m [] L 2) (seq 1 (length (m_results m))) env top tail) Q
        (MState (cells (VRec apm_fields) zeros (c' :: rest) [span]) (tr ++ tr1) ds)) ->
  (forall tr1 v, plays (apm_labels f snake span (map (fun pv => (p_name (fst pv), snd pv)) l)) tr1 (Pan v) ->
     Q (Pan v) (MState (cells (VRec apm_fields) zeros (c' :: rest) [span]) (tr ++ tr1) ds)) ->
  (forall tr1, plays (apm_labels f snake span (map (fun pv => (p_name (fst pv), snd pv)) l)) tr1 Blk ->
     Q Blk (MState (cells (VRec apm_fields) zeros (c' :: rest) [span]) (tr ++ tr1) ds)) ->
  wp (block W m [] L (invoke W m [] L 2) (seq 1 (length (m_results m))) env top (map label_stmt (map fst l) ++ tail)) Q
     (MState (cells (VRec apm_fields) zeros (c' :: rest) [span]) tr ds).
Proof.
  induction l as [|[p v] l IH]; intros span c' top tr ds tail Q Hl Hok Hpan Hblk.
  - cbn [map app]. specialize (Hok [] (P_done _)). rewrite app_nil_r in Hok. exact Hok.
  - assert (Ha' : length (c' :: rest) = length (m_params m)) by exact Ha.
    destruct (arg_lookup m ["span"] (c' :: rest) Hwf Hhyg p v (Hl _ (or_introl eq_refl))) as (i & Hlk & Hi & Hv).
    assert (Hlk2 : lookup (p_name p) env = Some (S (length (m_results m) + i))).
    { unfold env. cbn [lookup]. destruct (String.eqb_spec (p_name p) "span") as [E|_]; [|exact Hlk].
      exfalso. apply (Hhyg "span"); [do 4 right; now left|]. apply in_or_app. right. rewrite <- E. unfold param_names.
      apply in_map. eapply in_combine_l, Hl. now left. }
    assert (Hsp : lookup "span" env = Some (S (length (m_results m) + length (m_params m)) + 0)) by reflexivity.
    pose proof (fr_d m env apm_frame) as Hd. clearbody env.
    assert (F1 : field_of "setLabel" apm_fields = Some (VRef (ap_label f))) by reflexivity.
    generalize dependent apm_fields. intros fs IH Hok Hpan Hblk F1.
    cbn [map app fst snd]. unfold label_stmt at 1. unfold Bodies.call, d_, var. wp1. wps.
    rewrite ?wtext_hole. eapply wp_var; [exact Hlk2 | rewrite cells_param by assumption; exact Hv |]. wps.
    cbn [map fst snd apm_labels] in *. ask1.
    + apply IH; [intros pv Hpv; apply Hl; now right | | |].
      * intros tr1 Hp. rewrite <- app_assoc. apply Hok. now apply P_next.
      * intros tr1 w Hp. rewrite <- app_assoc. apply Hpan. now apply P_next.
      * intros tr1 Hp. rewrite <- app_assoc. apply Hblk. now apply P_next.
    + apply Hpan. plays.
    + apply Hblk. plays.
Qed.

Lemma labelled_params : filter (fun p => negb (String.eqb (p_name p) "ctx")) (m_params m) = tl (m_params m).
Proof.
  destruct (wf_ctx m Hwf Hac) as (p & r & E & Hp). pose proof (wf_names m Hwf) as Hnd.
  unfold param_names in Hnd. rewrite E in *. cbn [filter tl map] in *. rewrite Hp in *. change (String.eqb "ctx" "ctx") with true. cbn [negb].
  apply NoDup_remove in Hnd. destruct Hnd as [_ Hnd]. rewrite in_app_iff in Hnd.
  assert (Hr : ~ In "ctx" (map p_name r)) by tauto. clear - Hr. induction r as [|q r IH]; [reflexivity|].
  cbn [filter map In] in *. destruct (String.eqb_spec (p_name q) "ctx") as [Eq|_]; [tauto|]. cbn [negb]. f_equal. apply IH. tauto.
Qed.

Theorem apm_meets :
  let '(r, tr) := run_method W m [] L (elasticapm_body snake comp m) (VRec apm_fields) zeros (ctx :: rest) in
  labelled_call (apm_before f comp m ctx rest)
    (fun x => apm_labels f snake (fst x) (combine (tl (param_names m)) rest))
    (fun x => OMeth (VRef base) (m_name m) (snd x :: rest)) zeros
    (fun x => apm_after f m (fst x) (snd x)) tr r.
Proof.
  apply run_method_done. unfold elasticapm_body. rewrite labelled_params.
  pose proof apm_frame as Hf2. pose proof apm_deferred_meets as Hclo. pose proof labels_meet as Hlab.
  assert (Hf : frame m (method_env m)) by (eapply frame_start; [apply Hwf | apply Hhyg]).
  pose proof (fr_d m _ Hf) as Hd. pose proof (lookup_ctx m Hwf Hac) as Hctx.
  pose proof (mem_ctx m Hwf Hac) as Hmem.
  assert (F1 : field_of "startSpan" apm_fields = Some (VRef (ap_start f))) by reflexivity.
  assert (F2 : field_of "spanType" apm_fields = Some (VString (ap_type f))) by reflexivity.
  assert (F3 : field_of (wtext (id "base")) apm_fields = Some (VRef base)) by reflexivity.
  assert (El : map (fun pv => (p_name (fst pv), snd pv)) (combine (tl (m_params m)) rest) = combine (tl (param_names m)) rest).
  { unfold param_names. destruct (m_params m) as [|p r]; [reflexivity|]. cbn [tl map]. clear. revert rest.
    induction r as [|q r IH]; intros [|v l]; cbn; try reflexivity. now rewrite IH. }
  assert (Ef : map fst (combine (tl (m_params m)) rest) = tl (m_params m)).
  { clear - Ha. destruct (m_params m) as [|p r]; [reflexivity|]. cbn in *. injection Ha as Ha. clear p. revert r Ha. 
    induction rest as [|v l IH]; intros [|q r] Ha; cbn in *; try reflexivity; try discriminate. f_equal. apply IH. now injection Ha. }
  generalize dependent apm_fields. intros fs Hclo Hlab F1 F2 F3.
  unfold vctx, d_, call0, var. cbn [app]. unfold Bodies.call at 1. wp1. wps.
  rewrite wtext_hole. wps. ask1.
  2:{ apply done_panic, LB_panics. plays. }
  2:{ apply done_blocked, LB_blocks. plays. }
  destruct (Hstart _ _ _ Heqa) as (s & c & ->).
  eapply wp_define; [reflexivity | eapply top_fresh; [exact Hhyg | now left | discriminate] | exact Hz | exact Ha |].
  eapply wp_define_ctx; [exact Hmem | exact Hctx | exact Hz |].
  assert (Ha' : length (c :: rest) = length (m_params m)) by exact Ha.
  wps. cbn [app length]. unfold Bodies.call at 1. wp1. wps. rewrite <- Ef at 1.
  set (tr0 := [(OCall (VRef (ap_start f)) [ctx; VString (comp ++ "." ++ m_name m); VString (ap_type f)], ARet [s; c])]).
  assert (Hb : plays (apm_before f comp m ctx rest) tr0 (Val (s, c))) by (unfold tr0, apm_before; plays).
  eapply (Hlab (combine (tl (m_params m)) rest) s c).
  - intros pv Hpv. clear - Hpv. destruct (m_params m) as [|p r]; [destruct Hpv|]. right. exact Hpv.
  - rewrite El. intros tr1 Hp. eapply wp_observed; [exact Hf2 | exact Hz | exact Ha' | exact F3 | exact Hbase | | |].
    + intros rs Hrs _. apply Hclo. exact Hrs.
    + intros _. rewrite <- app_assoc.
      match goal with |- labelled_call ?b ?l ?c0 ?z ?d _ _ => exact (LB_hangs b l c0 z d tr0 (s, c) tr1 Hb Hp) end.
    + intros a tr2 b r Hne _ Hpl Hr. rewrite <- app_assoc.
      match goal with |- labelled_call ?b0 ?l ?c0 ?z ?d _ _ => exact (LB_done b0 l c0 z d tr0 (s, c) tr1 a tr2 b r Hb Hp Hne Hpl Hr) end.
  - rewrite El. intros tr1 v Hp.
    apply (wp_deferred W m [] L _ (elasticapm_deferred m) (VRec fs) zeros (c :: rest) [s] (apm_after f m s c zeros) _ (Some v)); [exact Hz | apply Hclo; exact Hz |].
    intros tr2 b r Hpl Hr. rewrite <- app_assoc.
    match goal with |- labelled_call ?b0 ?l ?c0 ?z ?d _ _ => eapply (LB_label_panics b0 l c0 z d tr0 (s, c) tr1 v tr2 b r Hb Hp Hpl) end.
    destruct b; exact Hr.
  - rewrite El. intros tr1 Hp. apply done_blocked.
    match goal with |- labelled_call ?b0 ?l ?c0 ?z ?d _ _ => exact (LB_label_blocks b0 l c0 z d tr0 (s, c) tr1 Hb Hp) end.
Qed.
End APM.
