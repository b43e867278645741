(** What a call of a method generated by templates/log or templates/logrus
    does. *)
From Verif Require Export Observed.
Open Scope nat_scope.

(** ** Specification *)

Definition println_op (sink : nat) (l : list val) : op := OMeth (VRef sink) "Println" l.

(** templates/log *)
Definition log_before (std : nat) (dec : string) (m : method) (args : list val) : script (list val) :=
  Ask (println_op std
         (if HasParams m then VString (dec ++ ": calling " ++ m_name m ++ " with params:") :: args
          else [VString (dec ++ ": calling " ++ m_name m)]))
      (fun _ => Done args).

Definition log_after (std errl : nat) (dec : string) (m : method) (rs : list val) : script unit :=
  Ask (println_op (if failed m rs then errl else std)
         (if HasResults m then VString (dec ++ ": " ++ m_name m ++ " returned results:") :: rs
          else [VString (dec ++ ": " ++ m_name m ++ " finished")]))
      (fun _ => Done tt).

(** templates/logrus: fields are attached to a new entry first *)
Definition log_entry (log : nat) (fields : option (list (string * val))) (level : string) (msg : string) : script unit :=
  match fields with
  | None => Ask (OMeth (VRef log) level [VString msg]) (fun _ => Done tt)
  | Some l => Ask (OMeth (VRef log) "WithFields" [VMap l])
                (fun e => Ask (OMeth (hd VNil e) level [VString msg]) (fun _ => Done tt))
  end.

Definition logrus_before (log : nat) (dec : string) (m : method) (args : list val) : script (list val) :=
  andthen (log_entry log (if HasParams m then Some (combine (param_names m) args) else None) "Debug"
                   (dec ++ ": calling " ++ m_name m)) (fun _ => Done args).

Definition logrus_after (log : nat) (dec : string) (m : method) (rs : list val) : script unit :=
  if HasResults m then
    if failed m rs
    then log_entry log (Some (combine (result_names m) rs)) "Error" (dec ++ ": method " ++ m_name m ++ " returned an error")
    else log_entry log (Some (combine (result_names m) rs)) "Debug" (dec ++ ": method " ++ m_name m ++ " finished")
  else log_entry log None "Debug" (dec ++ ": " ++ m_name m ++ " finished").

Section LOG.
Variable W : gworld.
Variable m : method.
Variable dec : string.
Variable L : nat.
Variables base std errl : nat.
Variables (zeros args : list val).
Hypothesis Hwf : wf_method m.
Hypothesis Hhyg : hygienic m ["_params"; "_results"].
Hypothesis Hz : length zeros = length (m_results m).
Hypothesis Ha : length args = length (m_params m).
Hypothesis Hbase : base_typed W m base.
Let fs := [("_stdlog", VRef std); ("_errlog", VRef errl); ("_base", VRef base)].

Lemma log_deferred_meets : forall env ex rs, frame m env -> lookup "nil" env = None ->
  (m_returnsError m = true -> lookup "err" env = Some (length (m_results m))) -> length rs = length (m_results m) ->
  clo_meets W m [] L env (log_deferred dec m) (VRec fs) rs args ex (log_after std errl dec m rs).
Proof.
  intros env ex rs Hf Hnil Herr Hrs tr. unfold log_deferred, println, call0, Bodies.call, verr, vnil, d_, var, log_after, failed.
  pose proof (fr_d m env Hf) as Hd.
  assert (F1 : field_of "_stdlog" fs = Some (VRef std)) by reflexivity.
  assert (F2 : field_of "_errlog" fs = Some (VRef errl)) by reflexivity.
  clearbody fs.
  destruct (HasResults m) eqn:Hr.
  2:{ replace (m_returnsError m) with false.
      2:{ symmetry. destruct (m_returnsError m) eqn:He; [|reflexivity]. destruct (wf_err m Hwf He) as (r & p & E & _).
          unfold HasResults in Hr. rewrite E in Hr. now destruct r. }
      cbn [andb]. repeat wp1.
      ask; played. }
  destruct (m_returnsError m) eqn:He.
  - specialize (Herr eq_refl). assert (Hne : rs <> []).
    { intros ->. unfold HasResults in Hr. destruct (m_results m); discriminate. }
    repeat wp1. eapply wp_results; [exact Hf | exact Hrs |]. repeat wp1.
    eapply wp_define; [reflexivity | reflexivity | exact Hrs | exact Ha |]. repeat wp1.
    wpif; repeat wp1; ask; played.
  - repeat wp1. eapply wp_results; [exact Hf | exact Hrs |]. repeat wp1.
    eapply wp_define; [reflexivity | reflexivity | exact Hrs | exact Ha |]. repeat wp1. ask; played.
Qed.

Theorem log_meets :
  let '(r, tr) := run_method W m [] L (log_body dec m) (VRec fs) zeros args in
  observed_call (log_before std dec m args) (OMeth (VRef base) (m_name m)) zeros (fun _ => log_after std errl dec m) tr r.
Proof.
  apply run_method_done. unfold log_body, println, call0, Bodies.call, verr, vnil, d_, var.
  assert (Hf : frame m (method_env m)) by (eapply frame_start; [apply Hwf | apply Hhyg]).
  assert (Hnil : lookup "nil" (method_env m) = None) by (eapply lookup_predeclared; [apply Hhyg | tauto]).
  assert (F1 : field_of "_stdlog" fs = Some (VRef std)) by reflexivity.
  assert (F3 : field_of (wtext (id "_base")) fs = Some (VRef base)) by reflexivity.
  pose proof (log_deferred_meets) as Hclo. clearbody fs. unfold log_before. destruct (HasParams m) eqn:Hp; cbn [app].
  - do 2 wp1. wps. eapply wp_params; [exact Hf | exact Hz | exact Ha |]. wps.
    eapply wp_define; [reflexivity | | exact Hz | exact Ha |].
    { eapply top_fresh; [exact Hhyg | cbn; tauto | discriminate]. }
    wps. wp1. wps. ask1.
    + match goal with |- wp (block _ _ _ _ _ _ ?e _ _) _ _ => assert (Hf2 : frame m e) end.
      { apply frame_cons; [discriminate | apply Hhyg; cbn; tauto | exact Hf]. }
      observe Hf2 Hz Ha F3 Hbase.
      * intros rs Hrs _. apply Hclo; [exact Hf2 | lk | | exact Hrs]. intros He. cbn [lookup String.eqb Ascii.eqb Bool.eqb]. now apply lookup_err.
      * intros Hblk. eapply (OB_hangs _ _ _ _ [_]). plays.
      * intros a tr2 b r Hne _ Hpl Hr. eapply (OB_done _ _ _ _ [_]); [plays | exact Hne | exact Hpl | exact Hr].
    + apply done_panic, OB_panics. plays.
    + apply done_blocked, OB_blocks. plays.
  - assert (Hw : wtext [PH dec; PS ": calling "; PH (m_name m)] = (dec ++ ": calling " ++ m_name m)%string) by (cbn; now rewrite sapp_nil_r). do 2 wp1. wps. rewrite Hw. ask1.
    + observe Hf Hz Ha F3 Hbase.
      * intros rs Hrs _. apply Hclo; [exact Hf | exact Hnil | | exact Hrs]. intros He. now apply lookup_err.
      * intros Hblk. eapply (OB_hangs _ _ _ _ [_]). plays.
      * intros a tr2 b r Hne _ Hpl Hr. eapply (OB_done _ _ _ _ [_]); [plays | exact Hne | exact Hpl | exact Hr].
    + apply done_panic, OB_panics. plays.
    + apply done_blocked, OB_blocks. plays.
Qed.
End LOG.

Section LOGRUS.
Variable W : gworld.
Variable m : method.
Variables dec typ : string.
Variable L : nat.
Variables base log : nat.
Variables (zeros args : list val).
Hypothesis Hwf : wf_method m.
Hypothesis Hhyg : hygienic m [].
Hypothesis Hz : length zeros = length (m_results m).
Hypothesis Ha : length args = length (m_params m).
Hypothesis Hbase : base_typed W m base.
Hypothesis Hwith : forall tr l vs, w_ans W tr (OMeth (VRef log) "WithFields" [VMap l]) = ARet vs -> exists e, vs = [VRef e].
Let fs := [("_base", VRef base); ("_log", VRef log)].

Ltac entry Hwith :=
  ask; [ match goal with E : w_ans _ _ _ = ARet ?l |- _ => destruct (Hwith _ _ _ E) as [? ->] end; repeat wp1; ask; played | played | played ].

Lemma logrus_deferred_meets : forall env ex rs, frame m env -> lookup "nil" env = None ->
  (m_returnsError m = true -> lookup "err" env = Some (length (m_results m))) -> length rs = length (m_results m) ->
  clo_meets W m [] L env (logrus_deferred dec m) (VRec fs) rs args ex (logrus_after log dec m rs).
Proof.
  intros env ex rs Hf Hnil Herr Hrs tr.
  unfold logrus_deferred, with_fields, call0, Bodies.call, verr, vnil, d_, var, logrus_after, log_entry, failed.
  pose proof (fr_d m env Hf) as Hd.
  assert (F1 : field_of "_log" fs = Some (VRef log)) by reflexivity.
  clearbody fs.
  destruct (HasResults m) eqn:Hr; [|repeat wp1; ask; played].
  destruct (m_returnsError m) eqn:He.
  - specialize (Herr eq_refl). assert (Hne : rs <> []).
    { intros ->. unfold HasResults in Hr. destruct (m_results m); discriminate. }
    repeat wp1. wpif; repeat wp1; (eapply wp_results; [exact Hf | exact Hrs |]); repeat wp1; entry Hwith.
  - repeat wp1. eapply wp_results; [exact Hf | exact Hrs |]. repeat wp1. entry Hwith.
Qed.

Theorem logrus_meets :
  let '(r, tr) := run_method W m [] L (logrus_body dec m) (construct (logrus_ctor typ) [VRef base; VRef log]) zeros args in
  observed_call (logrus_before log dec m args) (OMeth (VRef base) (m_name m)) zeros (fun _ => logrus_after log dec m) tr r.
Proof.
  change (construct (logrus_ctor typ) [VRef base; VRef log]) with (VRec fs).
  apply run_method_done. unfold logrus_body, with_fields, call0, Bodies.call, verr, vnil, d_, var.
  assert (Hf : frame m (method_env m)) by (eapply frame_start; [apply Hwf | apply Hhyg]).
  assert (Hnil : lookup "nil" (method_env m) = None) by (eapply lookup_predeclared; [apply Hhyg | tauto]).
  assert (F1 : field_of "_log" fs = Some (VRef log)) by reflexivity.
  assert (F3 : field_of (wtext (id "_base")) fs = Some (VRef base)) by reflexivity.
  assert (Hw : wtext [PH dec; PS ": calling "; PH (m_name m)] = (dec ++ ": calling " ++ m_name m)%string) by (cbn; now rewrite sapp_nil_r).
  pose proof (logrus_deferred_meets) as Hclo. clearbody fs. unfold logrus_before, log_entry. destruct (HasParams m) eqn:Hp; cbn [app andthen].
  - do 2 wp1. wps. eapply wp_params; [exact Hf | exact Hz | exact Ha |]. wps. ask1.
    2:{ apply done_panic, OB_panics. plays. }
    2:{ apply done_blocked, OB_blocks. plays. }
    destruct (Hwith _ _ _ Heqa) as [e ->]. wps. rewrite Hw. ask1.
    2:{ apply done_panic, OB_panics. plays. }
    2:{ apply done_blocked, OB_blocks. plays. }
    observe Hf Hz Ha F3 Hbase.
    + intros rs Hrs _. apply Hclo; [exact Hf | exact Hnil | | exact Hrs]. intros He. now apply lookup_err.
    + intros Hblk. rewrite <- app_assoc. eapply (OB_hangs _ _ _ _ [_; _]). plays.
    + intros a tr2 b r Hne _ Hpl Hr. eapply (OB_done _ _ _ _ [_; _]); [plays | exact Hne | exact Hpl | exact Hr].
  - do 2 wp1. wps. rewrite Hw. ask1.
    2:{ apply done_panic, OB_panics. plays. }
    2:{ apply done_blocked, OB_blocks. plays. }
    observe Hf Hz Ha F3 Hbase.
    + intros rs Hrs _. apply Hclo; [exact Hf | exact Hnil | | exact Hrs]. intros He. now apply lookup_err.
    + intros Hblk. eapply (OB_hangs _ _ _ _ [_]). plays.
    + intros a tr2 b r Hne _ Hpl Hr. eapply (OB_done _ _ _ _ [_]); [plays | exact Hne | exact Hpl | exact Hr].
Qed.
End LOGRUS.
