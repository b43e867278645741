(** C47: the logging decorators. *)
From Verif Require Import Log Honest PropNaming.
Open Scope nat_scope.

(** ** Statement *)

(** the method returned a non-nil error *)
Definition returned_error (m : method) (a : ans) : Prop :=
  m_returnsError m = true /\ exists vs, a = ARet vs /\ last vs VNil <> VNil.

(** [msgs] reads the messages off a part of a trace: whether each went to the
    error sink, and what it said *)
Inductive C47_call {M} (msgs : trace -> list (bool * M)) (first : M) (second : list val -> M)
    (m : method) (b : nat) (args zeros : list val) : trace -> out (list val) -> Prop :=
| C47_logged pre a post r toerr :
    msgs pre = [(false, first)] ->
    msgs post = [(toerr, second (match a with ARet vs => vs | _ => zeros end))] ->
    (toerr = true <-> returned_error m a) ->
    base_calls b (m_name m) pre = [] -> base_calls b (m_name m) post = [] ->
    a <> ABlock -> ends a r ->
    C47_call msgs first second m b args zeros (pre ++ (OMeth (VRef b) (m_name m) args, a) :: post) r
| C47_hangs pre :                                                        (* the base never returns *)
    msgs pre = [(false, first)] -> base_calls b (m_name m) pre = [] ->
    C47_call msgs first second m b args zeros (pre ++ [(OMeth (VRef b) (m_name m) args, ABlock)]) Blk.

(** log: calls of Println on one of the two loggers *)
Definition log_message (std errl : nat) (e : op * ans) : list (bool * list val) :=
  match e with
  | (OMeth (VRef k) f l, ARet _) =>
      if String.eqb f "Println" then (if k =? std then [(false, l)] else if k =? errl then [(true, l)] else []) else []
  | _ => []
  end.
Definition log_messages (std errl : nat) (tr : trace) : list (bool * list val) := flat_map (log_message std errl) tr.

(** logrus: Debug or Error on the logger or on an entry made from it *)
Fixpoint known_fields (known : list (nat * list (string * val))) (k : nat) : option (list (string * val)) :=
  match known with
  | [] => None
  | (j, l) :: known' => if k =? j then Some l else known_fields known' k
  end.
Fixpoint logrus_messages (known : list (nat * list (string * val))) (tr : trace) : list (bool * (list (string * val) * string)) :=
  match tr with
  | [] => []
  | (OMeth (VRef k) f [VMap l], ARet [VRef e]) :: tr' =>
      match known_fields known k with
      | Some l0 => if String.eqb f "WithFields" then logrus_messages ((e, l0 ++ l) :: known) tr' else logrus_messages known tr'
      | None => logrus_messages known tr'
      end
  | (OMeth (VRef k) f [VString s], ARet _) :: tr' =>
      match known_fields known k with
      | Some l0 => (if String.eqb f "Debug" then [(false, (l0, s))] else if String.eqb f "Error" then [(true, (l0, s))] else [])
                   ++ logrus_messages known tr'
      | None => logrus_messages known tr'
      end
  | _ :: tr' => logrus_messages known tr'
  end.

(** what the messages say *)
Definition log_first (dec : string) (m : method) (args : list val) : list val :=
  match args with
  | [] => [VString (dec ++ ": calling " ++ m_name m)]
  | _ => VString (dec ++ ": calling " ++ m_name m ++ " with params:") :: args
  end.
Definition log_second (dec : string) (m : method) (rs : list val) : list val :=
  match rs with
  | [] => [VString (dec ++ ": " ++ m_name m ++ " finished")]
  | _ => VString (dec ++ ": " ++ m_name m ++ " returned results:") :: rs
  end.
Definition logrus_first (dec : string) (m : method) (args : list val) : list (string * val) * string :=
  (combine (param_names m) args, (dec ++ ": calling " ++ m_name m)%string).
Definition logrus_second (dec : string) (m : method) (rs : list val) : list (string * val) * string :=
  (combine (result_names m) rs,
   if m_returnsError m && negb (is_nil (last rs VNil)) then (dec ++ ": method " ++ m_name m ++ " returned an error")%string
   else match rs with
        | [] => (dec ++ ": " ++ m_name m ++ " finished")%string
        | _ => (dec ++ ": method " ++ m_name m ++ " finished")%string
        end).

(** the outside world: the base has its Go type, loggers return *)
Record log_world (W : gworld) (m : method) (base std errl : nat) : Prop := {
  lw_base : base_typed W m base;
  lw_different : base <> std /\ base <> errl /\ std <> errl;
  lw_println : forall tr k l, k = std \/ k = errl -> exists vs, w_ans W tr (OMeth (VRef k) "Println" l) = ARet vs
}.
Record logrus_world (W : gworld) (m : method) (base log : nat) : Prop := {
  gw_base : base_typed W m base;
  gw_different : base <> log;
  gw_fields : forall tr l, exists e, w_ans W tr (OMeth (VRef log) "WithFields" [VMap l]) = ARet [VRef e] /\ e <> base;
  gw_message : forall tr k f l, k <> base -> f = "Debug" \/ f = "Error" -> exists vs, w_ans W tr (OMeth (VRef k) f l) = ARet vs
}.

Lemma base_calls_other : forall b nm k f l a tr, k <> b -> base_calls b nm ((OMeth (VRef k) f l, a) :: tr) = base_calls b nm tr.
Proof. intros b nm k f l a tr H. cbn. destruct (Nat.eqb_spec k b); [contradiction | reflexivity]. Qed.

Lemma failed_returned : forall m zeros a, a <> ABlock -> (m_returnsError m = true -> last zeros VNil = VNil) ->
  failed m (results zeros a) = true <-> returned_error m a.
Proof.
  intros m zeros a Ha Hz. unfold failed, returned_error, results. rewrite andb_true_iff, negb_true_iff. split.
  - intros [He Hn]. split; [exact He|]. destruct a as [vs|v|]; [|rewrite Hz in Hn by exact He; discriminate | contradiction].
    exists vs. split; [reflexivity|]. intros E. rewrite E in Hn. discriminate.
  - intros [He [vs [-> Hn]]]. split; [exact He|]. destruct (is_nil (last vs VNil)) eqn:E; [apply is_nil_spec in E; contradiction | reflexivity].
Qed.

Lemma HasParams_args : forall m (args : list val), length args = length (m_params m) -> HasParams m = match args with [] => false | _ => true end.
Proof. intros m args H. unfold HasParams. destruct (m_params m), args; try reflexivity; discriminate. Qed.

Lemma HasResults_results : forall m (rs : list val), length rs = length (m_results m) -> HasResults m = match rs with [] => false | _ => true end.
Proof. intros m rs H. unfold HasResults. destruct (m_results m), rs; try reflexivity; discriminate. Qed.

Theorem C47_log : forall W m dec L base std errl zeros args,
  wf_method m -> hygienic m ["_params"; "_results"] ->
  length zeros = length (m_results m) -> (m_returnsError m = true -> last zeros VNil = VNil) ->
  length args = length (m_params m) -> log_world W m base std errl ->
  let '(r, tr) := run_method W m [] L (log_body dec m)
      (VRec [("_stdlog", VRef std); ("_errlog", VRef errl); ("_base", VRef base)]) zeros args in
  C47_call (log_messages std errl) (log_first dec m args) (log_second dec m) m base args zeros tr r.
Proof.
  intros W m dec L base std errl zeros args Hwf Hh Hz Hze Ha [Wb [D1 [D2 D3]] Wp].
  pose proof (log_meets W m dec L base std errl zeros args Hwf Hh Hz Ha Wb) as H.
  pose proof (run_method_answered W m [] L (log_body dec m) (VRec [("_stdlog", VRef std); ("_errlog", VRef errl); ("_base", VRef base)]) zeros args) as Hans.
  destruct (run_method _ _ _ _ _ _ _ _) as [r tr]. cbn [snd] in Hans.
  assert (Hin : forall o a, In (o, a) tr -> exists t, w_ans W t o = a) by (intros o a; now apply answered_in with (tr := [])).
  assert (Sb : safe W (log_before std dec m args)).
  { apply safe_ask; [intros t; apply Wp; now left | intros; apply safe_done]. }
  assert (Sa : forall rs, safe W (log_after std errl dec m rs)).
  { intros rs. apply safe_ask; [|intros; apply safe_done]. intros t. apply Wp. destruct (failed m rs); tauto. }
  assert (Hmsg : forall tr x, plays (log_before std dec m args) tr (Val x) ->
            x = args /\ log_messages std errl tr = [(false, log_first dec m args)] /\ base_calls base (m_name m) tr = []).
  { intros t x Hp. unfold log_before in Hp. unplay. split; [reflexivity|]. split.
    - cbn. rewrite Nat.eqb_refl. cbn. unfold log_first. rewrite (HasParams_args m x Ha). now destruct x.
    - unfold println_op. rewrite base_calls_other by congruence. reflexivity. }
  destruct H as [t v Hp|t Hp|t x Hp|t x a t2 b r Hp Hne Hpa Hr].
  - destruct (plays_safe W _ _ _ Hp Sb Hin) as [? ?]. discriminate.
  - destruct (plays_safe W _ _ _ Hp Sb Hin) as [? ?]. discriminate.
  - destruct (Hmsg _ _ Hp) as (-> & M & B). now apply C47_hangs.
  - destruct (Hmsg _ _ Hp) as (-> & M & B).
    destruct (plays_safe W _ _ _ Hpa (Sa _)) as [u ->]; [intros o a' Hi; apply Hin, in_or_app; right; now right|].
    assert (Hl : length (results zeros a) = length (m_results m)).
    { destruct a as [vs| |]; cbn; try exact Hz. destruct (Hin (OMeth (VRef base) (m_name m) args) (ARet vs)) as [t' Ht'].
      - apply in_or_app. right. now left.
      - eapply Wb, Ht'. }
    apply (C47_logged _ _ _ m base args zeros t a t2 r (failed m (results zeros a))); try assumption.
    + unfold log_after in Hpa. unplay. cbn. fold (results zeros a). unfold log_second. rewrite (HasResults_results m _ Hl).
      destruct (failed m (results zeros a)); cbn.
      * destruct (Nat.eqb_spec errl std); [congruence|]. rewrite Nat.eqb_refl. cbn. now destruct (results zeros a).
      * rewrite Nat.eqb_refl. cbn. now destruct (results zeros a).
    + now apply failed_returned.
    + unfold log_after in Hpa. unplay. unfold println_op. rewrite base_calls_other by (destruct (failed m (results zeros a)); congruence). reflexivity.
Qed.

Theorem C47_logrus : forall W m dec typ L base log zeros args,
  wf_method m -> hygienic m [] ->
  length zeros = length (m_results m) -> (m_returnsError m = true -> last zeros VNil = VNil) ->
  length args = length (m_params m) -> logrus_world W m base log ->
  let '(r, tr) := run_method W m [] L (logrus_body dec m) (construct (logrus_ctor typ) [VRef base; VRef log]) zeros args in
  C47_call (logrus_messages [(log, [])]) (logrus_first dec m args) (logrus_second dec m) m base args zeros tr r.
Proof.
  intros W m dec typ L base log zeros args Hwf Hh Hz Hze Ha [Wb D Wf Wm].
  assert (Wt : forall tr l vs, w_ans W tr (OMeth (VRef log) "WithFields" [VMap l]) = ARet vs -> exists e, vs = [VRef e]).
  { intros t l vs E. destruct (Wf t l) as (e & E2 & _). rewrite E in E2. injection E2 as ->. now exists e. }
  pose proof (logrus_meets W m dec typ L base log zeros args Hwf Hh Hz Ha Wb Wt) as H.
  pose proof (run_method_answered W m [] L (logrus_body dec m) (construct (logrus_ctor typ) [VRef base; VRef log]) zeros args) as Hans.
  destruct (run_method _ _ _ _ _ _ _ _) as [r tr]. cbn [snd] in Hans.
  assert (Hin : forall o a, In (o, a) tr -> exists t, w_ans W t o = a) by (intros o a; now apply answered_in with (tr := [])).
  assert (Se : forall fl lv msg, lv = "Debug" \/ lv = "Error" -> safe W (log_entry log fl lv msg)).
  { intros fl lv msg Hlv. destruct fl as [l|]; cbn.
    - apply safe_ask; [intros t; destruct (Wf t l) as (e & E & _); eauto|]. intros t vs E. destruct (Wf t l) as (e & E2 & He).
      rewrite E in E2. injection E2 as ->. cbn. apply safe_ask; [intros t'; now apply Wm | intros; apply safe_done].
    - apply safe_ask; [intros t; apply Wm; [congruence | exact Hlv] | intros; apply safe_done]. }
  assert (Hme : forall fl lv msg t, lv = "Debug" \/ lv = "Error" -> (forall o a, In (o, a) t -> exists t', w_ans W t' o = a) ->
            plays (log_entry log fl lv msg) t (Val tt) ->
            logrus_messages [(log, [])] t = [(String.eqb lv "Error", (match fl with Some l => l | None => [] end, msg))]
            /\ base_calls base (m_name m) t = []).
  { intros fl lv msg t Hlv Hi Hp. destruct fl as [l|]; cbn [log_entry] in Hp; unplay.
    - match type of Hi with context [ARet ?ves] => rename ves into es end.
      destruct (Hi _ _ (or_introl eq_refl)) as [t' E]. destruct (Wf t' l) as (e & E2 & He). rewrite E in E2. injection E2 as ->.
      split; [|cbn [hd]; rewrite !base_calls_other by congruence; reflexivity].
      cbn. rewrite Nat.eqb_refl. cbn. rewrite Nat.eqb_refl. destruct Hlv as [-> | ->]; reflexivity.
    - split; [|rewrite base_calls_other by congruence; reflexivity].
      cbn. rewrite Nat.eqb_refl. destruct Hlv as [-> | ->]; reflexivity. }
  assert (Sb : safe W (logrus_before log dec m args)).
  { unfold logrus_before. apply safe_andthen; [apply Se; tauto | intros; apply safe_done]. }
  assert (Sa : forall rs, safe W (logrus_after log dec m rs)).
  { intros rs. unfold logrus_after. destruct (HasResults m); [destruct (failed m rs)|]; apply Se; tauto. }
  assert (Hmsg : forall t x, (forall o a, In (o, a) t -> exists t', w_ans W t' o = a) -> plays (logrus_before log dec m args) t (Val x) ->
            x = args /\ logrus_messages [(log, [])] t = [(false, logrus_first dec m args)] /\ base_calls base (m_name m) t = []).
  { intros t x Hi Hp. unfold logrus_before in Hp. apply plays_andthen_done in Hp as [[] [Hp ->]].
    destruct (Hme _ _ _ _ (or_introl eq_refl) Hi Hp) as [M B]. split; [reflexivity|]. split; [|exact B]. rewrite M. cbn.
    unfold logrus_first. rewrite (HasParams_args m args Ha). destruct args; [now destruct (param_names m) | reflexivity]. }
  destruct H as [t v Hp|t Hp|t x Hp|t x a t2 b r Hp Hne Hpa Hr].
  - destruct (plays_safe W _ _ _ Hp Sb Hin) as [? ?]. discriminate.
  - destruct (plays_safe W _ _ _ Hp Sb Hin) as [? ?]. discriminate.
  - destruct (Hmsg t x) as (-> & M & B); [intros; apply Hin, in_or_app; now left | exact Hp |]. now apply C47_hangs.
  - destruct (Hmsg t x) as (-> & M & B); [intros; apply Hin, in_or_app; now left | exact Hp |].
    assert (Hi2 : forall o a, In (o, a) t2 -> exists t', w_ans W t' o = a) by (intros o a' Hi; apply Hin, in_or_app; right; now right).
    destruct (plays_safe W _ _ _ Hpa (Sa _) Hi2) as [[] ->].
    assert (Hl : length (results zeros a) = length (m_results m)).
    { destruct a as [vs| |]; cbn; try exact Hz. destruct (Hin (OMeth (VRef base) (m_name m) args) (ARet vs)) as [t' Ht'].
      - apply in_or_app. right. now left.
      - eapply Wb, Ht'. }
    assert (Hlog : logrus_messages [(log, [])] t2 = [(failed m (results zeros a), logrus_second dec m (results zeros a))]
                   /\ base_calls base (m_name m) t2 = []).
    { unfold logrus_after in Hpa. unfold logrus_second. rewrite (HasResults_results m _ Hl) in Hpa.
      change (m_returnsError m && negb (is_nil (last (results zeros a) VNil))) with (failed m (results zeros a)).
      destruct (results zeros a) as [|v0 vs0] eqn:Er.
      - destruct (Hme _ _ _ _ (or_introl eq_refl) Hi2 Hpa) as [M2 B2]. split; [|exact B2]. rewrite M2.
        unfold failed. cbn. rewrite andb_false_r. now destruct (result_names m).
      - destruct (failed m (v0 :: vs0)) eqn:Ef.
        + exact (Hme _ _ _ _ (or_intror eq_refl) Hi2 Hpa).
        + exact (Hme _ _ _ _ (or_introl eq_refl) Hi2 Hpa). }
    apply (C47_logged _ _ _ m base args zeros t a t2 r (failed m (results zeros a))); try assumption; try apply Hlog.
    now apply failed_returned.
Qed.

(** ** Examples: a call that succeeds, one that fails, one whose base panics and one that
    never returns; 0 is the base, 1 and 2 are the loggers, 10 an entry with fields *)
Definition ex_log_world (a : ans) : gworld :=
  GWorld (fun tr o => match o with
    | OMeth (VRef 0) "Do" _ => a
    | OMeth (VRef _) "WithFields" _ => ARet [VRef 10]
    | OMeth (VRef _) _ _ => ARet []
    | _ => ABlock
    end) (fun _ _ => false).
Definition ex_args : list val := [VRef 3; VInt 7; VInt 8; VSlice []].
Definition ex_log_run (a : ans) : out (list val) * trace :=
  run_method (ex_log_world a) ex_m [] 0 (log_body "DoerWithLog" ex_m)
    (VRec [("_stdlog", VRef 1); ("_errlog", VRef 2); ("_base", VRef 0)]) [VString ""; VNil] ex_args.
Definition ex_logrus_run (a : ans) : out (list val) * trace :=
  run_method (ex_log_world a) ex_m [] 0 (logrus_body "DoerWithLogrus" ex_m)
    (construct (logrus_ctor "pkg.Doer") [VRef 0; VRef 1]) [VString ""; VNil] ex_args.

Example C47_nontrivial :
  wf_method ex_m /\ hygienic ex_m ["_params"; "_results"] /\ m_returnsError ex_m = true /\
  (forall a, (forall l, a = ARet l -> length l = 2) -> log_world (ex_log_world a) ex_m 0 1 2 /\ logrus_world (ex_log_world a) ex_m 0 1).
Proof.
  split; [eapply NewMethod_wf, ex_NewMethod|]. split.
  { intros x Hx Hin. cbn in Hx, Hin. intuition (subst; discriminate). }
  split; [reflexivity|]. intros a H. split; constructor.
  - intros tr l vs E. cbn in E. now apply H.
  - repeat split; discriminate.
  - intros tr k l [-> | ->]; now exists [].
  - intros tr l vs E. cbn in E. now apply H.
  - discriminate.
  - intros tr l. exists 10. split; [reflexivity | discriminate].
  - intros tr k f l Hk Hf. destruct k as [|k]; [contradiction|]. destruct Hf as [-> | ->]; now exists [].
Qed.

Example C47_runs :
  ex_log_run (ARet [VString "s"; VRef 100]) =
    (Val [VString "s"; VRef 100],
     [(OMeth (VRef 1) "Println" (VString "DoerWithLog: calling Do with params:" :: ex_args), ARet []);
      (OMeth (VRef 0) "Do" ex_args, ARet [VString "s"; VRef 100]);
      (OMeth (VRef 2) "Println" [VString "DoerWithLog: Do returned results:"; VString "s"; VRef 100], ARet [])]) /\
  log_messages 1 2 (snd (ex_log_run (ARet [VString "s"; VNil]))) =
    [(false, VString "DoerWithLog: calling Do with params:" :: ex_args);
     (false, [VString "DoerWithLog: Do returned results:"; VString "s"; VNil])] /\
  log_messages 1 2 (snd (ex_log_run (APan (VInt 1)))) =
    [(false, VString "DoerWithLog: calling Do with params:" :: ex_args);
     (false, [VString "DoerWithLog: Do returned results:"; VString ""; VNil])] /\
  fst (ex_log_run (APan (VInt 1))) = Pan (VInt 1) /\
  fst (ex_log_run ABlock) = Blk /\
  logrus_messages [(1, [])] (snd (ex_logrus_run (ARet [VString "s"; VRef 100]))) =
    [(false, (combine ["ctx"; "a"; "i1"; "rest"] ex_args, "DoerWithLogrus: calling Do"));
     (true, ([("s1", VString "s"); ("err", VRef 100)], "DoerWithLogrus: method Do returned an error"))] /\
  logrus_messages [(1, [])] (snd (ex_logrus_run (ARet [VString "s"; VNil]))) =
    [(false, (combine ["ctx"; "a"; "i1"; "rest"] ex_args, "DoerWithLogrus: calling Do"));
     (false, ([("s1", VString "s"); ("err", VNil)], "DoerWithLogrus: method Do finished"))].
Proof. vm_compute. repeat split; reflexivity. Qed.

Print Assumptions C47_log.
Print Assumptions C47_logrus.
Print Assumptions C47_nontrivial.
Print Assumptions C47_runs.
