(** What a call of a method generated by templates/retry does, for every method
    of the shape NewMethod gives and every behaviour of the base, the clock and
    the context. *)
From Verif Require Export Deco.
Open Scope nat_scope.

(** ** Specification: what retrying means *)

Inductive wait_end := Ticked | Cancelled | Failed (r : out (list val)).

(** waiting for the ticker, and for the context if there is one *)
Inductive waits (tick : val) : option val -> trace -> wait_end -> Prop :=
| W_tick v : waits tick None [(OSelect [tick], ARet [VInt 0; v])] Ticked
| W_fail a r : fails a r -> waits tick None [(OSelect [tick], a)] (Failed r)
| W_done_fail c a r : fails a r -> waits tick (Some c) [(OMeth c "Done" [], a)] (Failed r)
| W_ctx_fail c ch a r : fails a r ->
    waits tick (Some c) [(OMeth c "Done" [], ARet [ch]); (OSelect [ch; tick], a)] (Failed r)
| W_cancel c ch v :
    waits tick (Some c) [(OMeth c "Done" [], ARet [ch]); (OSelect [ch; tick], ARet [VInt 0; v])] Cancelled
| W_ctx_tick c ch v :
    waits tick (Some c) [(OMeth c "Done" [], ARet [ch]); (OSelect [ch; tick], ARet [VInt 1; v])] Ticked.

Definition error_of (vs : list val) : val := last vs VNil.

(** [retries n vs tr r]: with [n] retries left and the last attempt having
    returned [vs], the rest of the call does [tr] and ends as [r] *)
Inductive retries (base : op) (tick : val) (ctx : option val) : Z -> list val -> trace -> out (list val) -> Prop :=
| R_ok n vs : error_of vs = VNil -> retries base tick ctx n vs [] (Val vs)
| R_end n vs : (n <= 0)%Z -> retries base tick ctx n vs [] (Val vs)
| R_cancel n vs w : (0 < n)%Z -> error_of vs <> VNil -> waits tick ctx w Cancelled -> retries base tick ctx n vs w (Val vs)
| R_wait_fail n vs w r : (0 < n)%Z -> error_of vs <> VNil -> waits tick ctx w (Failed r) -> retries base tick ctx n vs w r
| R_fail n vs w a r : (0 < n)%Z -> error_of vs <> VNil -> waits tick ctx w Ticked -> fails a r ->
    retries base tick ctx n vs (w ++ [(base, a)]) r
| R_again n vs w vs' tr r : (0 < n)%Z -> error_of vs <> VNil -> waits tick ctx w Ticked ->
    retries base tick ctx (n - 1) vs' tr r ->
    retries base tick ctx n vs (w ++ (base, ARet vs') :: tr) r.

(** the call as a whole; [tickers] are the objects NewTicker may return *)
Inductive retry_call (base new_ticker : op) (tickers : nat -> Prop) (ctx : option val) (n : Z) : trace -> out (list val) -> Prop :=
| RC_fail a r : fails a r -> retry_call base new_ticker tickers ctx n [(base, a)] r
| RC_once vs : error_of vs = VNil \/ (n < 1)%Z -> retry_call base new_ticker tickers ctx n [(base, ARet vs)] (Val vs)
| RC_no_ticker vs a r : error_of vs <> VNil -> (1 <= n)%Z -> fails a r ->
    retry_call base new_ticker tickers ctx n [(base, ARet vs); (new_ticker, a)] r
| RC_blocked vs k tr : tickers k -> error_of vs <> VNil -> (1 <= n)%Z ->
    retries base (VOf (VRef k) "C") ctx n vs tr Blk ->
    retry_call base new_ticker tickers ctx n ([(base, ARet vs); (new_ticker, ARet [VRef k])] ++ tr) Blk
| RC_retried vs k tr r sv : tickers k -> error_of vs <> VNil -> (1 <= n)%Z -> r <> Blk ->
    retries base (VOf (VRef k) "C") ctx n vs tr r ->
    retry_call base new_ticker tickers ctx n
      ([(base, ARet vs); (new_ticker, ARet [VRef k])] ++ tr ++ [(OMeth (VRef k) "Stop" [], ARet sv)]) r.

(** ** The generated method meets it *)

Section RETRY.
Variable W : gworld.
Variable m : method.
Variables name typ : string.
Variable n : Z.
Variable interval : val.
Variable base : nat.
Variable L : nat.
Variables zeros args : list val.
Hypothesis Hwf : wf_method m.
Hypothesis Hhyg : hygienic m ["time"; "_ticker"; "_i"].
Hypothesis Hre : m_returnsError m = true.
Hypothesis Hz : length zeros = length (m_results m).
Hypothesis Ha : length args = length (m_params m).
Hypothesis Hn1 : name <> "_retryCount".
Hypothesis Hn2 : name <> "_retryInterval".
Hypothesis Hctx : m_acceptsContext m = true -> exists c r, args = VRef c :: r.

Definition recv : val := construct (retry_ctor name typ) [VRef base; VInt n; interval].
Definition call_op : op := OMeth (VRef base) (m_name m) args.
Definition ticker_op : op := OCall (VPkg "time.NewTicker") [interval].
Definition ctx_arg : option val := if m_acceptsContext m then Some (hd VNil args) else None.

(** the outside world respects the types of the functions that are called *)
Hypothesis Hbase : forall tr vs, w_ans W tr call_op = ARet vs -> length vs = length (m_results m).
Variable tickers : nat -> Prop.
Hypothesis Hticker : forall tr vs, w_ans W tr ticker_op = ARet vs -> exists k, vs = [VRef k] /\ tickers k.
Hypothesis Hstop : forall tr k, exists vs, w_ans W tr (OMeth (VRef k) "Stop" []) = ARet vs.
Hypothesis Hdone : forall tr c vs, w_ans W tr (OMeth (VRef c) "Done" []) = ARet vs -> exists ch, vs = [ch].
Hypothesis Hsel : forall tr chs vs, w_ans W tr (OSelect chs) = ARet vs ->
  exists i v, vs = [VInt i; v] /\ (0 <= i < Z.of_nat (length chs))%Z.
Hypothesis Hfuel : Z.to_nat n < L.

Let R := length (m_results m).
Let P := length (m_params m).

Lemma results_some : m_results m <> [].
Proof. destruct (wf_err m Hwf Hre) as [r [p [-> _]]]. now destruct r. Qed.

Lemma nonempty : forall vs : list val, length vs = R -> vs <> [].
Proof. intros vs H ->. apply results_some. destruct (m_results m); [reflexivity|discriminate]. Qed.

Lemma recv_fields : recv = VRec [(name, VRef base); ("_retryCount", VInt n); ("_retryInterval", interval)].
Proof. unfold recv, construct. cbn. now rewrite !sapp_nil_r. Qed.

Lemma field_count : field_of "_retryCount" [(name, VRef base); ("_retryCount", VInt n); ("_retryInterval", interval)] = Some (VInt n).
Proof. cbn [field_of]. destruct (String.eqb_spec "_retryCount" name) as [E|_]; [now subst|]. reflexivity. Qed.
Lemma field_interval : field_of "_retryInterval" [(name, VRef base); ("_retryCount", VInt n); ("_retryInterval", interval)] = Some interval.
Proof. cbn [field_of]. destruct (String.eqb_spec "_retryInterval" name) as [E|_]; [now subst|]. reflexivity. Qed.
Lemma field_base : field_of (wtext [PH name]) [(name, VRef base); ("_retryCount", VInt n); ("_retryInterval", interval)] = Some (VRef base).
Proof. cbn [field_of]. now rewrite wtext_hole, String.eqb_refl. Qed.


Let fs := [(name, VRef base); ("_retryCount", VInt n); ("_retryInterval", interval)].
Let env2 := ("_i", S (R + P) + 1) :: ("_ticker", S (R + P) + 0) :: method_env m.
Let call := invoke W m [] L depth.
Let locs := seq 1 (length (m_results m)).

Lemma frame2 : frame m env2.
Proof.
  assert (Hin : forall x, In x ["time"; "_ticker"; "_i"] -> ~ In x (result_names m ++ param_names m)).
  { intros x Hx. apply Hhyg. do 4 right. exact Hx. }
  apply frame_cons; [discriminate | apply Hin; cbn; tauto |].
  apply frame_cons; [discriminate | apply Hin; cbn; tauto |].
  eapply frame_start; [apply Hwf | apply Hhyg].
Qed.

Let loop_cond := (let& v := eval W m [] call env2 (EBin "&&" (EBin "<" (EVar (id "_i")) (ESel (EVar (id "_d")) (id "_retryCount")))
                                                  (EBin "!=" (EVar (id "err")) (EVar (id "nil")))) in as_bool v).
Let attempt := SResults (EMCall (ESel (EVar (id "_d")) [PH name])).
Let loop_body := block W m [] L call locs env2 [] [retry_wait m; attempt].
Let loop_post := (let& _ := exec W m [] L call locs env2 [] (SInc (EVar (id "_i"))) in gret tt).

(** how the loop can end, started with results [vs] and counter [i] *)
Definition ended {A} (k : nat) (i : Z) (vs : list val) (tr : trace) ds (r : out A) (s : mstate) : Prop :=
  exists vs' i' mid o, s = MState (cells (VRec fs) vs' args [VRef k; VInt i']) (tr ++ mid) ds
     /\ length vs' = R
     /\ retries call_op (VOf (VRef k) "C") ctx_arg (n - i) vs mid o
     /\ match r, o with
        | Val _, Val ws => vs' = ws
        | Pan v, Pan v' => v = v'
        | Blk, Blk => True
        | _, _ => False
        end.

Lemma loop_spec : forall k fuel i vs tr ds, (0 <= i)%Z -> Z.to_nat (n - i) < fuel -> length vs = R ->
  wp (loop loop_cond loop_body loop_post fuel) (ended k i vs tr ds)
     (MState (cells (VRec fs) vs args [VRef k; VInt i]) tr ds).
Proof.
  intros k.
  pose proof frame2 as Hf.
  pose proof (lookup_err m Hwf Hre) as Herr.
  pose proof (lookup_predeclared m _ "nil" Hhyg (or_introl eq_refl)) as Hnil.
  pose proof field_count as Hcount. pose proof field_base as Hfb. fold fs in Hcount, Hfb.
  induction fuel as [|fuel IH]; intros i vs tr ds Hi Hfl Hl; [lia|]. cbn [loop].
  assert (Hne : vs <> []) by (now apply nonempty).
  unfold loop_cond at 1, env2 at 1. unfold R, P in *. subst call locs. repeat wp1. wpif; repeat wp1.
  2:{ exists vs, i, [], (Val vs). rewrite app_nil_r. repeat split; auto. apply R_end. lia. }
  wpif; repeat wp1.
  2:{ exists vs, i, [], (Val vs). rewrite app_nil_r. repeat split; auto. apply R_ok.
      apply negb_false_iff, is_nil_spec in E0. exact E0. }
  assert (Hr : error_of vs <> VNil) by (apply negb_true_iff in E0; intros H; apply is_nil_spec in H; unfold error_of in H; congruence).
  assert (Hn : (0 < n - i)%Z) by lia.
  (* the attempt after a tick, and the rest of the loop *)
  assert (Hgo : forall w, waits (VOf (VRef k) "C") ctx_arg w Ticked ->
    wp (let& c := block W m [] L (invoke W m [] L depth) (seq 1 (length (m_results m))) env2 [] [attempt] in
        match c with CRet => gret CRet | CNext => let& _ := loop_post in loop loop_cond loop_body loop_post fuel end)
       (ended k i vs tr ds)
       (MState (cells (VRec fs) vs args [VRef k; VInt i]) (tr ++ w) ds)).
  { intros w Hw. unfold attempt. repeat wp1. eapply wp_base; [reflexivity | exact Hf | exact Hl | exact Ha | exact Hfb | reflexivity |].
    fold call_op. destruct (w_ans W (tr ++ w) call_op) as [vs2|v|] eqn:E2.
    - pose proof (Hbase _ _ E2) as Hl2. apply wp_set_results; try assumption. cbv beta iota. repeat wp1. unfold loop_post at 1, env2 at 1.
      repeat wp1. eapply wp_set_local; [reflexivity | assumption | assumption |]. cbv beta iota. repeat wp1. cbn [set_nth].
      eapply wp_weaken; [apply IH; [lia | lia | assumption]|]. cbv beta. intros r s (vs' & i' & mid & o & -> & Hl' & Hm & Ho).
      exists vs', i', (w ++ (call_op, ARet vs2) :: mid), o. rewrite <- !app_assoc. repeat split; auto.
      eapply R_again; eauto. now replace (n - i - 1)%Z with (n - (i + 1))%Z by lia.
    - exists vs, i, (w ++ [(call_op, APan v)]), (Pan v). rewrite <- !app_assoc. repeat split; auto. eapply R_fail; eauto. reflexivity.
    - exists vs, i, (w ++ [(call_op, ABlock)]), Blk. rewrite <- !app_assoc. repeat split; auto. eapply R_fail; eauto. reflexivity. }
  pose proof (fun w Hw => wp_unbind _ _ _ _ (Hgo w Hw)) as Hgo'.
  unfold loop_body at 1. unfold retry_wait, vctx, var, call0.
  destruct (m_acceptsContext m) eqn:Ec.
  - destruct (Hctx eq_refl) as [c [rest Hargs]].
    pose proof (lookup_ctx m Hwf Ec) as Hlctx. assert (Hhd : hd_error args = Some (VRef c)) by now rewrite Hargs.
    assert (Hc : hd VNil args = VRef c) by now rewrite Hargs. assert (Hca : ctx_arg = Some (VRef c)) by (unfold ctx_arg; rewrite Ec; congruence).
    unfold env2 at 1. repeat wp1. apply wp_ask. destruct (w_ans W tr (OMeth (VRef c) "Done" [])) as [dv|v|] eqn:E3.
    2:{ exists vs, i, [(OMeth (VRef c) "Done" [], APan v)], (Pan v). repeat split; auto. apply R_wait_fail; auto. rewrite Hca; now apply W_done_fail. }
    2:{ exists vs, i, [(OMeth (VRef c) "Done" [], ABlock)], Blk. repeat split; auto. apply R_wait_fail; auto. rewrite Hca; now apply W_done_fail. }
    destruct (Hdone _ _ _ E3) as [ch ->]. repeat wp1. apply wp_ask.
    destruct (w_ans W _ (OSelect [ch; VOf (VRef k) "C"])) as [sv|v|] eqn:E4.
    2:{ eexists vs, i, _, (Pan v). split; [rewrite <- app_assoc; reflexivity|]. repeat split; auto. apply R_wait_fail; auto. rewrite Hca; now apply W_ctx_fail. }
    2:{ eexists vs, i, _, Blk. split; [rewrite <- app_assoc; reflexivity|]. repeat split; auto. apply R_wait_fail; auto. rewrite Hca; now apply W_ctx_fail. }
    destruct (Hsel _ _ _ E4) as (z & v & -> & Hz0). cbv beta iota.
    assert (z = 0 \/ z = 1)%Z as [-> | ->] by (cbn in Hz0; lia).
    + change (0 =? 0)%Z with true. cbv iota. repeat wp1. eexists vs, i, _, (Val vs). split; [rewrite <- app_assoc; reflexivity|]. repeat split; auto. apply R_cancel; auto. rewrite Hca; apply W_cancel.
    + change (0 =? 1)%Z with false. change (0 + 1 =? 1)%Z with true. cbv iota. wps. rewrite <- app_assoc. apply Hgo'. rewrite Hca; apply W_ctx_tick.
  - assert (Hca : ctx_arg = None) by (unfold ctx_arg; now rewrite Ec).
    unfold env2 at 1. repeat wp1. apply wp_ask. destruct (w_ans W tr (OSelect [VOf (VRef k) "C"])) as [sv|v|] eqn:E3.
    + destruct (Hsel _ _ _ E3) as (z & v & -> & Hz0). assert (z = 0%Z) as -> by (cbn in Hz0; lia). wps.
      apply Hgo'. rewrite Hca. apply W_tick.
    + exists vs, i, [(OSelect [VOf (VRef k) "C"], APan v)], (Pan v). repeat split; auto. apply R_wait_fail; auto. rewrite Hca; now apply W_fail.
    + exists vs, i, [(OSelect [VOf (VRef k) "C"], ABlock)], Blk. repeat split; auto. apply R_wait_fail; auto. rewrite Hca; now apply W_fail.
Qed.

Theorem retry_meets :
  let '(r, tr) := run_method W m [] L (retry_body name m) recv zeros args in
  retry_call call_op ticker_op tickers ctx_arg n tr r.
Proof.
  apply run_method_wp. apply wp_activation. unfold retry_body, verr, vnil, vctx, d_, var, call0, Bodies.call, embedded.
  assert (Hf : frame m (method_env m)) by (eapply frame_start; [apply Hwf | apply Hhyg]).
  pose proof (lookup_err m Hwf Hre) as Herr.
  pose proof (lookup_predeclared m _ "nil" Hhyg (or_introl eq_refl)) as Hnil.
  assert (Htime : lookup "time" (method_env m) = None) by (eapply lookup_fresh; [apply Hhyg | cbn; tauto | discriminate]).
  pose proof field_count as Hcount. pose proof field_interval as Hint. pose proof field_base as Hfb.
  rewrite recv_fields. fold fs in Hcount, Hint, Hfb |- *. unfold R, P in *.
  repeat wp1. eapply wp_base; [reflexivity | exact Hf | exact Hz | exact Ha | exact Hfb | reflexivity |].
  fold call_op. destruct (w_ans W [] call_op) as [vs|v|] eqn:E0.
  2:{ repeat wp1. now apply RC_fail. }
  2:{ now apply RC_fail. }
  pose proof (Hbase _ _ E0) as Hl. assert (Hne : vs <> []) by (now apply nonempty).
  apply wp_set_results; try assumption. cbv beta iota. repeat wp1.
  wpif; repeat wp1.
  { apply wp_load_results; [exact Hl|]. apply RC_once. left. now apply is_nil_spec. }
  assert (Hr : error_of vs <> VNil) by (intros H; apply is_nil_spec in H; unfold error_of in H; congruence).
  wpif; repeat wp1.
  { apply wp_load_results; [exact Hl|]. apply RC_once. right. lia. }
  fold ticker_op. apply wp_ask. destruct (w_ans W _ ticker_op) as [tv|v|] eqn:E2.
  2:{ repeat wp1. apply RC_no_ticker; [exact Hr | lia | reflexivity]. }
  2:{ apply RC_no_ticker; [exact Hr | lia | reflexivity]. }
  destruct (Hticker _ _ E2) as [k [-> Hk]]. repeat wp1.
  eapply wp_define; [reflexivity | | exact Hl | exact Ha |].
  { eapply top_fresh; [apply Hhyg | cbn; tauto | discriminate]. }
  repeat wp1.
  eapply wp_define; [reflexivity | reflexivity | exact Hl | exact Ha |]. repeat wp1.
  eapply wp_weaken; [apply (loop_spec k L 0%Z vs _ _); [lia | rewrite Z.sub_0_r; exact Hfuel | exact Hl]|].
  cbv beta. intros r s (vs' & i' & mid & o & -> & Hl' & Hm & Ho). rewrite Z.sub_0_r in Hm.
  destruct (Hstop (([] ++ [(call_op, ARet vs)] ++ [(ticker_op, ARet [VRef k])]) ++ mid) k) as [sv Hsv].
  assert (H1 : (1 <= n)%Z) by lia.
  destruct r as [c|v| | |], o as [ws|v'| | |]; try contradiction.
  - subst vs'. destruct c; repeat wp1; apply wp_ask; rewrite <- ?app_assoc in Hsv |- *; cbn [app] in Hsv |- *; rewrite Hsv; repeat wp1;
    (apply wp_load_results; [exact Hl'|]); cbn [ms_trace]; rewrite <- ?app_assoc; eapply (RC_retried _ _ _ _ _ vs k); eauto; discriminate.
  - subst v'. repeat wp1; apply wp_ask; rewrite <- ?app_assoc in Hsv |- *; cbn [app] in Hsv |- *; rewrite Hsv; repeat wp1.
    cbn [ms_trace]; rewrite <- ?app_assoc. eapply (RC_retried _ _ _ _ _ vs k); eauto; discriminate.
  - cbn [ms_trace]; rewrite <- ?app_assoc. eapply (RC_blocked _ _ _ _ _ vs k); eauto.
Qed.
End RETRY.
