(** What a call of a method generated by templates/prometheus does. *)
From Verif Require Export Observed.
Open Scope nat_scope.

(** ** Specification *)

(** the summary of the interface: [dn] is its name in lower case *)
Definition summary (dn : string) : string := dn ++ "DurationSummaryVec".

Definition prometheus_before (args : list val) : script (val * list val) :=
  Ask (OCall (VPkg "time.Now") []) (fun l => Done (hd VNil l, args)).

Definition prometheus_after (dn : string) (inst : val) (m : method) (since : val) (rs : list val) : script unit :=
  Ask (OCall (VPkg (summary dn ++ ".WithLabelValues"))
         [inst; VString (m_name m); VString (if failed m rs then "error" else "ok")])
    (fun o => Ask (OCall (VPkg "time.Since") [since])
       (fun d => Ask (OMeth (hd VNil d) "Seconds" [])
          (fun s => Ask (OMeth (hd VNil o) "Observe" [hd VNil s]) (fun _ => Done tt)))).

Record prometheus_typed (W : gworld) (dn : string) : Prop := {
  pt_now : forall tr vs, w_ans W tr (OCall (VPkg "time.Now") []) = ARet vs -> exists v, vs = [v];
  pt_with : forall tr l vs, w_ans W tr (OCall (VPkg (summary dn ++ ".WithLabelValues")) l) = ARet vs -> exists o, vs = [VRef o];
  pt_since : forall tr t vs, w_ans W tr (OCall (VPkg "time.Since") [t]) = ARet vs ->
    exists d, vs = [VRef d] /\ forall tr' vs', w_ans W tr' (OMeth (VRef d) "Seconds" []) = ARet vs' -> exists v, vs' = [v]
}.

Section PROMETHEUS.
Variable W : gworld.
Variable m : method.
Variables dn typ : string.
Variable L : nat.
Variable base : nat.
Variable inst : string.
Variables (zeros args : list val).
Hypothesis Hwf : wf_method m.
Hypothesis Hhyg : hygienic m ["time"; "_since"; "result"; summary dn].
Hypothesis Hz : length zeros = length (m_results m).
Hypothesis Ha : length args = length (m_params m).
Hypothesis Hbase : base_typed W m base.
Hypothesis Hty : prometheus_typed W dn.
Let fs := [("base", VRef base); ("instanceName", VString inst)].

Lemma summary_long : forall x, String.length x < 18 -> String.eqb (summary dn) x = false.
Proof.
  intros x H. apply String.eqb_neq. intros <-. unfold summary in H. rewrite slength_app in H. cbn in H. lia.
Qed.

Ltac observation Hsum Hty :=
  eapply wp_global; [apply Hsum |]; change (wtext [PH dn; PS "DurationSummaryVec"]) with (summary dn); rewrite !summary_long by (cbn; lia); repeat wp1; rewrite wtext_hole; ask;
  [ match goal with E : w_ans _ _ _ = ARet _ |- _ => destruct (pt_with _ _ Hty _ _ _ E) as [? ->] end; repeat wp1; ask;
    [ match goal with E : w_ans _ _ (OCall (VPkg "time.Since") _) = ARet _ |- _ => let Hs := fresh "Hsec" in destruct (pt_since _ _ Hty _ _ _ E) as (? & -> & Hs) end; repeat wp1; ask;
      [ match goal with E : w_ans _ _ (OMeth _ "Seconds" _) = ARet _, Hs : forall tr' vs', w_ans _ tr' _ = ARet vs' -> _ |- _ => destruct (Hs _ _ E) as [? ->] end; repeat wp1; ask; played
      | played | played ]
    | played | played ]
  | played | played ].

Lemma prometheus_deferred_meets : forall rs since,
  length rs = length (m_results m) ->
  clo_meets W m [] L (("_since", S (length (m_results m) + length (m_params m)) + 0) :: method_env m) (prometheus_deferred dn m)
    (VRec fs) rs args [since] (prometheus_after dn (VString inst) m since rs).
Proof.
  intros rs since Hrs tr.
  unfold prometheus_deferred, call0, Bodies.call, verr, vnil, d_, var, prometheus_after, failed.
  assert (Hf : frame m (method_env m)) by (eapply frame_start; [apply Hwf | apply Hhyg]).
  assert (Hnil : lookup "nil" (method_env m) = None) by (eapply lookup_predeclared; [apply Hhyg | tauto]).
  assert (Htime : lookup "time" (method_env m) = None) by (eapply lookup_fresh; [apply Hhyg | cbn; tauto | discriminate]).
  assert (Hsum : forall i j, lookup (wtext [PH dn; PS "DurationSummaryVec"]) (("result", i) :: ("_since", j) :: method_env m) = None).
  { intros i j. change (wtext [PH dn; PS "DurationSummaryVec"]) with (summary dn). cbn [lookup]. rewrite !summary_long by (cbn; lia).
    eapply lookup_fresh; [apply Hhyg | cbn; tauto |]. apply String.eqb_neq, summary_long. cbn; lia. }
  assert (F1 : field_of "instanceName" fs = Some (VString inst)) by reflexivity.
  clearbody fs.
  destruct (m_returnsError m) eqn:He; cbn [app].
  - pose proof (lookup_err m Hwf He) as Herr. assert (Hne : rs <> []).
    { destruct (wf_err m Hwf He) as (r & p & E & _). intros ->. rewrite E, app_length, Nat.add_comm in Hrs. discriminate. }
    repeat wp1. eapply wp_define; [reflexivity | reflexivity | exact Hrs | exact Ha |]. repeat wp1.
    wpif; repeat wp1.
    + eapply wp_set_local; [reflexivity | exact Hrs | exact Ha |]. cbn [set_nth length app]. repeat wp1. observation Hsum Hty.
    + observation Hsum Hty.
  - repeat wp1. eapply wp_define; [reflexivity | reflexivity | exact Hrs | exact Ha |]. repeat wp1. observation Hsum Hty.
Qed.

Theorem prometheus_meets :
  let '(r, tr) := run_method W m [] L (prometheus_body dn m) (construct (prometheus_ctor typ) [VRef base; VString inst]) zeros args in
  observed_call (prometheus_before args) (fun x => OMeth (VRef base) (m_name m) (snd x)) zeros
    (fun x => prometheus_after dn (VString inst) m (fst x)) tr r.
Proof.
  change (construct (prometheus_ctor typ) [VRef base; VString inst]) with (VRec fs).
  apply run_method_done. unfold prometheus_body, call0, Bodies.call, d_, var.
  assert (Hf : frame m (method_env m)) by (eapply frame_start; [apply Hwf | apply Hhyg]).
  assert (Htime : lookup "time" (method_env m) = None) by (eapply lookup_fresh; [apply Hhyg | cbn; tauto | discriminate]).
  assert (F3 : field_of (wtext (id "base")) fs = Some (VRef base)) by reflexivity.
  pose proof (prometheus_deferred_meets) as Hclo. clearbody fs. unfold prometheus_before.
  wp1. wps. ask1.
  2:{ apply done_panic, OB_panics. plays. }
  2:{ apply done_blocked, OB_blocks. plays. }
  destruct (pt_now _ _ Hty _ _ Heqa) as [since ->].
  eapply wp_define; [reflexivity | | exact Hz | exact Ha |].
  { eapply top_fresh; [exact Hhyg | cbn; tauto | discriminate]. }
  wps. match goal with |- wp (block _ _ _ _ _ _ ?e _ _) _ _ => assert (Hf2 : frame m e) end.
  { apply frame_cons; [discriminate | apply Hhyg; cbn; tauto | exact Hf]. }
  observe Hf2 Hz Ha F3 Hbase.
  - intros rs Hrs _. apply Hclo. exact Hrs.
  - intros Hblk. ob_hangs [(OCall (VPkg "time.Now") [], ARet [since])] (since, args).
  - intros a tr2 b r Hne _ Hpl Hr. ob_done [(OCall (VPkg "time.Now") [], ARet [since])] (since, args).
Qed.
End PROMETHEUS.
