(** One call of a method generated by templates/fallback, run by the machine of
    Goroutines.v, is an execution of the transition system of Fallback.v. *)
From Verif Require Export FallbackBody Fallback Sem.
Open Scope nat_scope.

(** what the method needs for its code to mean what the template intends *)
Definition fallback_ids : list string :=
  ["_ch"; "_next"; "_errorsList"; "_ticker"; "_cancelFunc"; "_i"; "_impl"; "_res"; "_resultStruct";
   "make"; "len"; "append"; "time"; "context"; "errors"; "fmt"; "strings"].

Lemma nodup_l : forall (a c : list string), NoDup (a ++ c) -> NoDup a.
Proof.
  induction a as [|x a IH]; intros c H; [constructor|]. cbn in H. inversion H as [|? ? Hx H']; subst.
  constructor; [intros Hin; apply Hx, in_or_app; now left | now apply (IH c)].
Qed.
Lemma nodup_apart : forall (a c : list string) x, NoDup (a ++ c) -> In x a -> In x c -> False.
Proof.
  induction a as [|y a IH]; intros c x H Ha Hc; [destruct Ha|]. cbn in H. inversion H as [|? ? Hy H']; subst. destruct Ha as [-> | Ha].
  - apply Hy, in_or_app. now right.
  - now apply (IH c x).
Qed.

Section CALL.
Variable m : method.
Variable typ : string.
Variable tname : nat -> string.
Variable ctx_text : string.
Variable n : nat.
Variable interval : Z.
Variables zeros args : list cval.

Notation ctxm := (m_acceptsContext m).
Notation errm := (m_returnsError m).
Notation rs := (cresults m).
Notation ps := (cparams m).

Hypothesis Hwf : wf_method m.
Hypothesis Hids : hygienic m fallback_ids.
Hypothesis Hcompiles : errm = true -> ctxm = true.
Hypothesis Hinterval : (0 < interval)%Z.
Hypothesis Hzeros : length zeros = length rs.
Hypothesis Hargs : length args = length ps.
Hypothesis Hctx : ctxm = true -> exists r, args = CtxV 0 :: r.

Definition recv : cval := RecV [("implementations", SliceV (map ImplV (seq 0 n))); ("interval", IntV interval)].
(** the arguments once ctx is the derived context *)
Definition args1 : list cval := if ctxm then CtxV 1 :: tl args else args.

Notation K := (length (rs ++ ps)).
Notation b := (if errm then 1 else 0).
Definition E1 : cenv := ("_ch", (0, S K)) :: call_env m.
Definition E2 : cenv := ("_next", (0, S (S K))) :: E1.
Definition E3 : cenv := if errm then ("_errorsList", (0, 3 + K)) :: E2 else E2.
Definition E4 : cenv := ("_ticker", (0, 3 + K + b)) :: E3.
Definition E5 : cenv := if ctxm then ("_cancelFunc", (0, 4 + K + b)) :: E4 else E4.

(** the variables of goroutine 0 after the setup: results, errors so far and
    the later variables change *)
Definition seg (zs : list cval) (ev : cval) (tail : list cval) : list cval :=
  recv :: zs ++ args1 ++ [ChanV 0; ChanV 1] ++ (if errm then [ev] else []) ++ [TickerV 2]
  ++ (if ctxm then [CancelV 1] else []) ++ tail.

Lemma rs_eq : rs = result_names m. Proof. reflexivity. Qed.
Lemma ps_eq : ps = param_names m. Proof. reflexivity. Qed.

Lemma user_name : forall x y, In x (rs ++ ps) -> In y ("_d" :: "_" :: "nil" :: "true" :: fallback_ids) -> String.eqb y x = false.
Proof.
  intros x y Hx Hy. apply String.eqb_neq. intros ->. exact (Hids x Hy Hx).
Qed.
Lemma user_name' : forall x y, In x (rs ++ ps) -> In y ("_d" :: "_" :: "nil" :: "true" :: fallback_ids) -> String.eqb x y = false.
Proof. intros. rewrite String.eqb_sym. now apply user_name. Qed.

Lemma find_skip : forall y names ls e, (forall x, In x names -> String.eqb y x = false) -> where_is y (combine names ls ++ e) = where_is y e.
Proof.
  intros y names. induction names as [|x names IH]; intros ls e H; [reflexivity|]. destruct ls as [|l ls]; [reflexivity|].
  cbn. rewrite (H x) by now left. apply IH. intros z Hz. apply H. now right.
Qed.

Lemma find_in : forall names t k j x e, NoDup names -> nth_error names j = Some x ->
  where_is x (combine names (map (pair t) (seq k (length names))) ++ e) = Some (t, k + j).
Proof.
  intros names t. induction names as [|y names IH]; intros k j x e Hn Hj; [destruct j; discriminate|].
  inversion Hn as [|? ? Hy Hn']; subst. destruct j as [|j]; cbn.
  - injection Hj as ->. rewrite String.eqb_refl. now rewrite Nat.add_0_r.
  - cbn in Hj. assert (String.eqb x y = false) as ->.
    { apply String.eqb_neq. intros ->. apply Hy. eapply nth_error_In; eauto. }
    rewrite (IH (S k) j x e Hn' Hj). f_equal. f_equal. lia.
Qed.

Lemma find_call_env_id : forall y, In y ("_" :: "nil" :: "true" :: fallback_ids) -> where_is y (call_env m) = None.
Proof.
  intros y Hy. unfold call_env. cbn [where_is]. replace (String.eqb y "_d") with false.
  - rewrite <- (app_nil_r (combine _ _)). rewrite find_skip; [reflexivity|]. intros x Hx. apply user_name; [exact Hx|]. now right.
  - symmetry. cbn in Hy. intuition (subst; reflexivity).
Qed.

Lemma find_call_env : forall j x, nth_error (rs ++ ps) j = Some x -> where_is x (call_env m) = Some (0, S j).
Proof.
  intros j x Hj. unfold call_env. cbn [where_is]. rewrite user_name'; [|eapply nth_error_In; eauto | now left].
  rewrite <- (app_nil_r (combine _ _)). rewrite (find_in (rs ++ ps) 0 1 j); [reflexivity | apply (wf_names m Hwf) | exact Hj].
Qed.

Lemma find_E5_user : forall x, In x (rs ++ ps) -> where_is x E5 = where_is x (call_env m).
Proof.
  intros x Hx. unfold E5, E4, E3, E2, E1.
  destruct ctxm, errm; cbn [where_is]; rewrite !user_name' by (first [exact Hx | cbn; tauto]); reflexivity.
Qed.

Lemma find_d : where_is "_d" E5 = Some (0, 0).
Proof. unfold E5, E4, E3, E2, E1. destruct ctxm, errm; reflexivity. Qed.
Lemma find_ch : where_is "_ch" E5 = Some (0, S K).
Proof. unfold E5, E4, E3, E2, E1. destruct ctxm, errm; reflexivity. Qed.
Lemma find_next : where_is "_next" E5 = Some (0, S (S K)).
Proof. unfold E5, E4, E3, E2, E1. destruct ctxm, errm; reflexivity. Qed.
Lemma find_errs : errm = true -> where_is "_errorsList" E5 = Some (0, 3 + K).
Proof. intros H. unfold E5, E4, E3, E2, E1. rewrite H. destruct ctxm; reflexivity. Qed.
Lemma find_ticker : where_is "_ticker" E5 = Some (0, 3 + K + b).
Proof. unfold E5, E4, E3, E2, E1. destruct ctxm, errm; reflexivity. Qed.
Lemma find_pkg : forall y, In y ["nil"; "make"; "len"; "append"; "time"; "context"; "errors"; "fmt"; "strings"] -> where_is y E5 = None.
Proof.
  intros y Hy. unfold E5, E4, E3, E2, E1. pose proof (find_call_env_id y) as H. cbn in Hy.
  destruct ctxm, errm; intuition (subst; cbn; apply H; cbn; tauto).
Qed.
(** results come first, then parameters *)
Lemma find_result : forall j x, nth_error rs j = Some x -> where_is x E5 = Some (0, S j).
Proof.
  intros j x Hj. assert (nth_error (rs ++ ps) j = Some x) as H by (rewrite nth_error_app1; [exact Hj | eapply nth_lt; eauto]).
  rewrite find_E5_user by (eapply nth_error_In; eauto). now apply find_call_env.
Qed.
Lemma find_param : forall j x, nth_error ps j = Some x -> where_is x E5 = Some (0, S (length rs + j)).
Proof.
  intros j x Hj. assert (nth_error (rs ++ ps) (length rs + j) = Some x) as H.
  { rewrite nth_error_app2 by lia. replace (length rs + j - length rs) with j by lia. exact Hj. }
  rewrite find_E5_user by (eapply nth_error_In; eauto). now apply find_call_env.
Qed.
Lemma err_last : errm = true -> exists r, rs = r ++ ["err"].
Proof.
  intros H. destruct (wf_err m Hwf H) as (r & p & E & Ep). exists (map p_name r). unfold cresults. rewrite E, map_app. cbn. now rewrite Ep.
Qed.
Lemma rs_pos : errm = true -> length rs = S (length rs - 1) /\ nth_error rs (length rs - 1) = Some "err".
Proof.
  intros H. destruct (err_last H) as (r & E). rewrite E, app_length. cbn. split; [lia|].
  replace (length r + 1 - 1) with (length r) by lia. apply nth_app_last.
Qed.
Lemma find_err : errm = true -> where_is "err" E5 = Some (0, length rs).
Proof. intros H. destruct (rs_pos H) as [Hl Hn]. rewrite (find_result _ _ Hn). f_equal. f_equal. lia. Qed.
Lemma find_ctx : ctxm = true -> where_is "ctx" E5 = Some (0, S (length rs)).
Proof.
  intros H. destruct (wf_ctx m Hwf H) as (p & r & E & Ep).
  rewrite (find_param 0 "ctx"); [now rewrite Nat.add_0_r|]. unfold cparams. rewrite E. cbn. now rewrite Ep.
Qed.

(** *** reading and writing the variables of goroutine 0 *)
Lemma args1_length : length args1 = length ps.
Proof. unfold args1. destruct ctxm eqn:E; [|exact Hargs]. destruct (Hctx eq_refl) as [r ->]. exact Hargs. Qed.

Lemma nth_seg : forall zs ev tail k, length zs = length rs ->
  nth_error (seg zs ev tail) (S (K + k)) = nth_error ([ChanV 0; ChanV 1] ++ (if errm then [ev] else []) ++ [TickerV 2]
  ++ (if ctxm then [CancelV 1] else []) ++ tail) k.
Proof.
  intros zs ev tail k Hz. unfold seg. cbn [nth_error]. rewrite (app_assoc zs args1), nth_error_app2.
  - f_equal. rewrite !app_length, args1_length. lia.
  - rewrite !app_length, args1_length. lia.
Qed.
Lemma nth_seg_d : forall zs ev tail, nth_error (seg zs ev tail) 0 = Some recv. Proof. reflexivity. Qed.
Lemma nth_seg_ch : forall zs ev tail, length zs = length rs -> nth_error (seg zs ev tail) (S K) = Some (ChanV 0).
Proof. intros. replace (S K) with (S (K + 0)) by lia. now rewrite nth_seg. Qed.
Lemma nth_seg_next : forall zs ev tail, length zs = length rs -> nth_error (seg zs ev tail) (S (S K)) = Some (ChanV 1).
Proof. intros. replace (S (S K)) with (S (K + 1)) by lia. now rewrite nth_seg. Qed.
Lemma nth_seg_errs : forall zs ev tail, errm = true -> length zs = length rs -> nth_error (seg zs ev tail) (3 + K) = Some ev.
Proof. intros zs ev tail He Hz. replace (3 + K) with (S (K + 2)) by lia. rewrite nth_seg by exact Hz. now rewrite He. Qed.
Lemma nth_seg_ticker : forall zs ev tail, length zs = length rs -> nth_error (seg zs ev tail) (3 + K + b) = Some (TickerV 2).
Proof. intros zs ev tail Hz. replace (3 + K + b) with (S (K + (2 + b))) by lia. rewrite nth_seg by exact Hz. now destruct errm. Qed.
Lemma nth_seg_arg : forall zs ev tail j, length zs = length rs -> j < length ps ->
  nth_error (seg zs ev tail) (S (length rs + j)) = nth_error args1 j.
Proof.
  intros zs ev tail j Hz Hj. unfold seg. cbn [nth_error]. rewrite nth_error_app2 by lia.
  rewrite Hz. replace (length rs + j - length rs) with j by lia. rewrite nth_error_app1 by (rewrite args1_length; lia). reflexivity.
Qed.
Lemma nth_seg_ctx : forall zs ev tail, ctxm = true -> length zs = length rs -> nth_error (seg zs ev tail) (S (length rs)) = Some (CtxV 1).
Proof.
  intros zs ev tail Hc Hz. replace (S (length rs)) with (S (length rs + 0)) by lia. rewrite nth_seg_arg; [|exact Hz|].
  - unfold args1. now rewrite Hc.
  - rewrite <- Hargs. destruct (Hctx Hc) as [r ->]. cbn. lia.
Qed.
Lemma seg_grow : forall zs ev tail v, seg zs ev tail ++ [v] = seg zs ev (tail ++ [v]).
Proof. intros. unfold seg. cbn [app]. f_equal. rewrite <- !app_assoc. do 2 f_equal. cbn [app]. do 2 f_equal. rewrite <- !app_assoc. f_equal. cbn [app]. f_equal. now rewrite <- !app_assoc. Qed.
Lemma seg_length : forall zs ev tail, length zs = length rs ->
  length (seg zs ev tail) = 4 + K + b + (if ctxm then 1 else 0) + length tail.
Proof. intros zs ev tail Hz. unfold seg. cbn. rewrite !app_length, args1_length. cbn. rewrite !app_length. destruct errm, ctxm; cbn; rewrite ?app_length; lia. Qed.

Lemma upd_app1 : forall {A} (a : list A) c k v, k < length a -> upd k v (a ++ c) = upd k v a ++ c.
Proof. induction a as [|x a IH]; intros c k v Hk; cbn in *; [lia|]. destruct k as [|k]; cbn; [reflexivity|]. rewrite IH by lia. reflexivity. Qed.
Lemma upd_app2 : forall {A} (a : list A) c k v, upd (length a + k) v (a ++ c) = a ++ upd k v c.
Proof. induction a as [|x a IH]; intros c k v; cbn; [reflexivity|]. now rewrite IH. Qed.

Lemma seg_set_errs : forall zs ev tail v, errm = true -> length zs = length rs -> upd (3 + K) v (seg zs ev tail) = seg zs v tail.
Proof.
  intros zs ev tail v He Hz. unfold seg. rewrite He. replace (3 + K) with (S (length zs + (length args1 + 2))).
  - cbn [upd]. f_equal. rewrite !upd_app2. reflexivity.
  - rewrite app_length, args1_length. lia.
Qed.
Lemma seg_set_res : forall zs ev tail j v, j < length zs -> upd (S j) v (seg zs ev tail) = seg (upd j v zs) ev tail.
Proof. intros zs ev tail j v Hj. unfold seg. cbn [upd]. f_equal. now apply upd_app1. Qed.

(** ** How the machine and the transition system correspond *)
Notation V := (list cval).

(** what an implementation's results mean *)
Definition classify (vs : list cval) : result V :=
  if errm then match last vs NilV with ErrV e => Bad e | _ => Good vs end else Good vs.
(** the results of the call, given the answer *)
Definition with_err (t : string) : list cval := upd (length rs - 1) (ErrV t) zeros.
Definition results_of (a : answer V) : list cval :=
  match a with
  | Answer vs => vs
  | AllFailed t => with_err t
  | CtxErr t => if errm then with_err t else zeros
  end.

Definition errv (l : list string) : cval := match l with [] => NilV | _ => SliceV (map StrV l) end.
Definition record (vs : list cval) : cval := RecV (combine rs vs).

Definition D1 : list deferred := [DStop 2].
Definition D2 : list deferred := [DCancel 1; DStop 2].
Definition kE : code := [FEver E5 (wait_select m); FSeq E5 []].
Definition K2 : code := FSeq E5 [] :: kE.
Definition RES (j : nat) : cenv := ("_res", (0, j)) :: E5.
(** the environment in which a received result is looked at *)
Definition got_env (sg : list cval) (vs : list cval) (e : cenv) : Prop :=
  (HasResults m = true -> exists j, e = RES j /\ nth_error sg j = Some (record vs)) /\
  (HasResults m = false -> e = E5).

Definition typed (vs : list cval) : Prop := answer_typed m vs.

Definition after (errs : list string) : mpc V :=
  if Nat.eqb (length errs) n then MCancel (AllFailed (joined errs)) else MSelect.
(** deferred calls left, and the state of the transition system *)
Definition leaving (ds : list deferred) (a : answer V) (p : mpc V) : Prop :=
  (ds = D2 /\ ctxm = true /\ p = MCancel a) \/ (ds = D1 /\ p = MStop a).
Definition D : list deferred := if ctxm then D2 else D1.
Definition leave (a : answer V) : mpc V := if ctxm then MCancel a else MStop a.

(** the caller: variables, goroutine, state, errors so far, context done *)
Inductive main_at (sg : list cval) : gostate -> mpc V -> list string -> bool -> Prop :=
| ma_start dn tl : sg = seg zeros NilV tl -> main_at sg (Run [FSeq E5 (wait_body m)] D) MStart [] dn
| ma_ever p errs dn tl : ctxm = true -> p = MStart \/ p = MSelect -> sg = seg zeros (errv errs) tl -> main_at sg (Run kE D2) p errs dn
| ma_loop p errs dn tl : ctxm = true -> p = MStart \/ p = MSelect -> sg = seg zeros (errv errs) tl ->
    main_at sg (Run (FSeq E5 (wait_select m) :: kE) D2) p errs dn
| ma_next errs dn tl : ctxm = true -> sg = seg zeros (errv errs) tl -> main_at sg (Run K2 D2) MSelect errs dn
| ma_parked errs dn tl : ctxm = true -> sg = seg zeros (errv errs) tl ->
    main_at sg (Parked [(ORecv (ChanV 0), (res_var m, on_result m)); (ORecv (DoneV 1), (None, on_done m))] E5 K2 D2) MSelect errs dn
| ma_parked1 errs dn tl : ctxm = false -> sg = seg zeros (errv errs) tl ->
    main_at sg (Parked [(ORecv (ChanV 0), (res_var m, [CReturnStruct "_res"]))] E5 [] D1) MSelect errs dn
(* a result has been received *)
| ma_good errs dn tl vs e : errm = true -> ctxm = true -> sg = seg zeros (errv errs) tl -> typed vs -> classify vs = Good vs -> got_env sg vs e ->
    main_at sg (Run (FSeq e (on_result m) :: K2) D2) (MCancel (Answer vs)) errs dn
| ma_return errs dn tl vs e k : sg = seg zeros (errv errs) tl -> typed vs -> got_env sg vs e ->
    main_at sg (Run (FSeq e [CReturnStruct "_res"] :: k) D) (leave (Answer vs)) errs dn
| ma_bad errs dn tl vs e j : errm = true -> ctxm = true -> 0 < n -> sg = seg zeros (errv errs) tl -> typed vs -> classify vs = Bad e ->
    nth_error sg j = Some (record vs) ->
    main_at sg (Run (FSeq (RES j) (on_result m) :: K2) D2) (MSend e) errs dn
| ma_send errs dn tl vs e j : errm = true -> ctxm = true -> 0 < n -> sg = seg zeros (errv errs) tl -> typed vs -> classify vs = Bad e ->
    nth_error sg j = Some (record vs) ->
    main_at sg (Run (FSeq (RES j) [CComm (KSend (x_ "_next") XUnit); append_err; if_all_failed] :: K2) D2) (MSend e) errs dn
| ma_sending errs dn tl vs e j : errm = true -> ctxm = true -> 0 < n -> sg = seg zeros (errv errs) tl -> typed vs -> classify vs = Bad e ->
    nth_error sg j = Some (record vs) ->
    main_at sg (Parked [(OSnd (ChanV 1) UnitV, (None, [append_err; if_all_failed]))] (RES j) K2 D2) (MSend e) errs dn
| ma_append errs dn tl vs e j : errm = true -> ctxm = true -> 0 < n -> sg = seg zeros (errv errs) tl -> typed vs -> classify vs = Bad e ->
    nth_error sg j = Some (record vs) ->
    main_at sg (Run (FSeq (RES j) [append_err; if_all_failed] :: K2) D2) (after (errs ++ [e])) (errs ++ [e]) dn
| ma_test errs dn tl j : errm = true -> ctxm = true -> errs <> [] -> sg = seg zeros (errv errs) tl ->
    main_at sg (Run (FSeq (RES j) [if_all_failed] :: K2) D2) (after errs) errs dn
| ma_failed errs dn tl j k : errm = true -> ctxm = true -> errs <> [] -> sg = seg zeros (errv errs) tl ->
    main_at sg (Run (FSeq (RES j) [CSet "err" (XCall (XSel (x_ "errors") "New") [joined_]); CReturn] :: k) D2)
      (MCancel (AllFailed (joined errs))) errs dn
| ma_back errs dn tl j : errm = true -> ctxm = true -> sg = seg zeros (errv errs) tl ->
    main_at sg (Run (FSeq (RES j) [] :: K2) D2) MSelect errs dn
(* the context is done *)
| ma_done errs tl : ctxm = true -> sg = seg zeros (errv errs) tl ->
    main_at sg (Run (FSeq E5 (on_done m) :: K2) D2) (MCancel (CtxErr (ctx_text ++ ": " ++ joined errs))) errs true
(* the results are set *)
| ma_ret errs dn ev tl a e k : ctxm = true -> sg = seg (results_of a) ev tl -> length (results_of a) = length rs ->
    main_at sg (Run (FSeq e [CReturn] :: k) D2) (MCancel a) errs dn
| ma_leave errs dn ev tl a ds p : sg = seg (results_of a) ev tl -> length (results_of a) = length rs -> leaving ds a p ->
    main_at sg (Run [] ds) p errs dn
| ma_left errs dn ev tl a : sg = seg (results_of a) ev tl -> length (results_of a) = length rs ->
    main_at sg (Run [] []) (MStop a) errs dn
| ma_ended errs dn ev tl a : sg = seg (results_of a) ev tl -> length (results_of a) = length rs ->
    main_at sg Ended (MDone a) errs dn.

(** the launcher: variables, goroutine, state, implementations launched *)
Definition EL : cenv := ("_i", (1, 0)) :: E5.
Definition kL : code := [FPost EL "_i" launch_cond (launch_loop typ m); FSeq E5 []].
Inductive launcher_at : list cval -> gostate -> lpc -> nat -> Prop :=
| la_new : launcher_at [] (Run [FSeq E5 (launch_body typ m)] []) (LAt 0) 0
| la_cond i : i <= n -> launcher_at [IntV (Z.of_nat i)] (Run [FCond EL "_i" launch_cond (launch_loop typ m); FSeq E5 []] []) (LAt i) i
| la_go i : i < n -> launcher_at [IntV (Z.of_nat i)] (Run (FSeq EL (launch_loop typ m) :: kL) []) (LAt i) i
| la_test i : i < n -> launcher_at [IntV (Z.of_nat i)] (Run (FSeq EL [launch_wait] :: kL) []) (LTest i) (S i)
| la_wait i : S i < n -> launcher_at [IntV (Z.of_nat i)]
    (Run (FSeq EL [CSelect [(KRecv None (x_ "_next"), []); (KRecv None (XSel (x_ "_ticker") "C"), [])] false] :: FSeq EL [] :: kL) []) (LWait i) (S i)
| la_parked i : S i < n -> launcher_at [IntV (Z.of_nat i)]
    (Parked [(ORecv (ChanV 1), (None, [])); (ORecv (ChanV 2), (None, []))] EL (FSeq EL [] :: FSeq EL [] :: kL) []) (LWait i) (S i)
| la_post i k : i < n -> launcher_at [IntV (Z.of_nat i)] (Run (repeat (FSeq EL []) k ++ kL) []) (LAt (S i)) (S i)
| la_end sg k : launcher_at sg (Run (repeat (FSeq E5 []) k) []) LDone n
| la_ended sg : launcher_at sg Ended LDone n.

(** the implementation at position i *)
Definition EI (i : nat) : cenv := ("_impl", (2 + i, 0)) :: EL.
Definition EV (i : nat) : cenv := combine rs (map (pair (2 + i)) (seq 1 (length rs))) ++ EI i.
Definition offers (vs : list cval) : list branch :=
  [(OSnd (ChanV 0) (record vs), (None, [])); (ORecv (DoneV 1), (None, []))].
Inductive impl_at (i : nat) : list cval -> gostate -> ipc V -> Prop :=
| ia_new : impl_at i [ImplV i] (Run [FSeq (EI i) (impl_body m)] []) ILaunched
| ia_call : impl_at i [ImplV i] (InCall i (EI i) (impl_wrap m ++ [impl_deliver m]) [] []) IRunning
| ia_wrap vs : errm = true -> typed vs ->
    impl_at i (ImplV i :: vs) (Run [FSeq (EV i) (impl_wrap m ++ [impl_deliver m])] []) (IReady (wrap_result tname i (classify vs)))
| ia_set vs e : errm = true -> typed vs -> last vs NilV = ErrV e ->
    impl_at i (ImplV i :: vs)
      (Run [FSeq (EV i) [CSet "err" (XCall (XSel (x_ "fmt") "Errorf") [XStr "%T: %v"; x_ "_impl"; x_ "err"])]; FSeq (EV i) [impl_deliver m]] [])
      (IReady (Bad (tname i ++ ": " ++ e)))
| ia_block vs : typed vs -> impl_at i (ImplV i :: vs) (Run [FSeq (EV i) []; FSeq (EV i) [impl_deliver m]] []) (IReady (classify vs))
| ia_deliver vs : typed vs -> impl_at i (ImplV i :: vs) (Run [FSeq (EV i) [impl_deliver m]] []) (IReady (classify vs))
| ia_parked vs : typed vs -> ctxm = true ->
    impl_at i (ImplV i :: vs) (Parked (offers vs) (EV i) [FSeq (EV i) []] []) (IReady (classify vs))
| ia_end sg k : impl_at i sg (Run (repeat (FSeq (EV i) []) k) []) IExited
| ia_ended sg : impl_at i sg Ended IExited.

Definition ctxs_of (l : state V) : list context :=
  if ctxm then [Ctx None (parent l); Ctx (Some 0) (parent l || cancelled l)] else [].
Definition chans_of (l : state V) : list chan :=
  [Chan 0 []; Chan n (repeat UnitV (nexts l)); Chan 1 (if tick l then [UnitV] else [])].

(** the call after the launcher has been created *)
Inductive matches (s : gstate) (l : state V) : Prop :=
| Matches sg0 sg1 segs g0 g1 gs st :
    s = GState (sg0 :: sg1 :: segs) (chans_of l) (ctxs_of l) [(2, st)] (g0 :: g1 :: gs) ->
    (stopped l = true -> st = true) -> (g0 = Run [] [] -> st = true) ->
    main_at sg0 g0 (main l) (errorsList l) (ctx_done l) ->
    launcher_at sg1 g1 (launcher l) (length gs) ->
    length segs = length gs -> length gs <= n -> length (impls l) = n ->
    (forall i, i < length gs -> exists sg g p, nth_error segs i = Some sg /\ nth_error gs i = Some g /\
       nth_error (impls l) i = Some p /\ impl_at i sg g p) ->
    (forall i, length gs <= i < n -> nth_error (impls l) i = Some INew) ->
    matches s l.

(** ** Evaluating the expressions of the body *)
Lemma HasResults_err : errm = true -> HasResults m = true.
Proof. intros H. destruct (wf_err m Hwf H) as (r & p & E & _). unfold HasResults. rewrite E. now destruct r. Qed.
Lemma HasResults_rs : HasResults m = true <-> rs <> [].
Proof. unfold HasResults, cresults. destruct (m_results m); cbn; split; congruence. Qed.

(** a memory whose goroutine 0 has the variables [seg zs ev tl] *)
Definition has0 (mem : list (list cval)) (zs : list cval) (ev : cval) : Prop :=
  length zs = length rs /\ exists tl, nth_error mem 0 = Some (seg zs ev tl).

Lemma peek0 : forall mem zs ev k, has0 mem zs ev -> exists tl, peek mem (0, k) = nth_error (seg zs ev tl) k /\ length zs = length rs /\ nth_error mem 0 = Some (seg zs ev tl).
Proof. intros mem zs ev k [Hz [tl H]]. exists tl. unfold peek. cbn [fst snd]. now rewrite H. Qed.

Ltac look H := let t := fresh in let E := fresh in let Z := fresh in let M := fresh in
  match goal with |- context [peek ?mm (0, ?k)] => destruct (peek0 mm _ _ k H) as (t & E & Z & M); rewrite E; clear E end.

Lemma ev_impls : forall mem ctxs e zs ev, has0 mem zs ev -> where_is "_d" e = Some (0, 0) ->
  ceval m tname ctx_text mem ctxs e impls_ = Some (SliceV (map ImplV (seq 0 n))).
Proof. intros mem ctxs e zs ev H He. unfold impls_, x_. cbn [ceval]. rewrite He. destruct H as [_ [tl H]]. unfold peek. cbn [fst snd]. now rewrite H. Qed.
Lemma ev_n : forall mem ctxs e zs ev, has0 mem zs ev -> where_is "_d" e = Some (0, 0) -> where_is "len" e = None ->
  ceval m tname ctx_text mem ctxs e n_impls = Some (IntV (Z.of_nat n)).
Proof.
  intros mem ctxs e zs ev H He Hl. unfold n_impls, call1. cbn [ceval]. rewrite (ev_impls _ _ _ _ _ H He), Hl. cbn.
  now rewrite map_length, seq_length.
Qed.

Lemma L_d : where_is "_d" EL = Some (0, 0). Proof. exact find_d. Qed.
Lemma L_len : where_is "len" EL = None. Proof. apply (find_pkg "len"). cbn; tauto. Qed.
Lemma R_d j : where_is "_d" (RES j) = Some (0, 0). Proof. exact find_d. Qed.
Lemma R_len j : where_is "len" (RES j) = None. Proof. apply (find_pkg "len"). cbn; tauto. Qed.

(** the launcher's variable *)
Definition has1 (mem : list (list cval)) (i : nat) : Prop := nth_error mem 1 = Some [IntV (Z.of_nat i)].
Lemma ev_i : forall mem ctxs i, has1 mem i -> ceval m tname ctx_text mem ctxs EL (x_ "_i") = Some (IntV (Z.of_nat i)).
Proof. intros mem ctxs i H. cbn. unfold peek. cbn [fst snd]. now rewrite H. Qed.
Lemma ev_cond : forall mem ctxs zs ev i, has0 mem zs ev -> has1 mem i ->
  ceval m tname ctx_text mem ctxs EL launch_cond = Some (BoolV (i <? n)).
Proof.
  intros mem ctxs zs ev i H H1. unfold launch_cond. cbn [ceval]. fold (ceval m tname ctx_text). 

  rewrite (ev_i _ _ _ H1), (ev_n _ _ _ _ _ H L_d L_len). cbn - [Z.ltb Nat.ltb]. do 2 f_equal.
  destruct (Nat.ltb_spec i n), (Z.ltb_spec (Z.of_nat i) (Z.of_nat n)); lia || reflexivity.
Qed.
Lemma ev_more : forall mem ctxs zs ev i, has0 mem zs ev -> has1 mem i ->
  ceval m tname ctx_text mem ctxs EL (XBin "<" (x_ "_i") (XBin "-" n_impls (XNum "1"))) = Some (BoolV (S i <? n)).
Proof.
  intros mem ctxs zs ev i H H1. cbn [ceval]. 

  rewrite (ev_i _ _ _ H1), (ev_n _ _ _ _ _ H L_d L_len). cbn - [Z.sub Z.ltb Nat.ltb]. do 2 f_equal.
  destruct (Nat.ltb_spec (S i) n), (Z.ltb_spec (Z.of_nat i) (Z.of_nat n - 1)); lia || reflexivity.
Qed.
Lemma ev_pick : forall mem ctxs zs ev i, has0 mem zs ev -> has1 mem i -> i < n ->
  ceval m tname ctx_text mem ctxs EL (XIndex impls_ (x_ "_i")) = Some (ImplV i).
Proof.
  intros mem ctxs zs ev i H H1 Hi. cbn [ceval]. fold (ceval m tname ctx_text). rewrite (ev_impls _ _ _ _ _ H L_d).
 rewrite (ev_i _ _ _ H1).
  destruct (Z.ltb_spec (Z.of_nat i) 0); [lia|]. rewrite Nat2Z.id.
  erewrite map_nth_error; [reflexivity|]. rewrite nth_error_nth' with (d := 0) by now rewrite seq_length. now rewrite seq_nth.
Qed.

Lemma ev_var0 : forall mem ctxs e zs ev x k v, has0 mem zs ev -> where_is x e = Some (0, k) ->
  (forall tl, nth_error (seg zs ev tl) k = Some v) -> ceval m tname ctx_text mem ctxs e (x_ x) = Some v.
Proof. intros mem ctxs e zs ev x k v H He Hv. unfold x_. cbn [ceval]. rewrite He. look H. apply Hv. Qed.
Lemma ev_ch : forall mem ctxs e zs ev, has0 mem zs ev -> where_is "_ch" e = Some (0, S K) ->
  ceval m tname ctx_text mem ctxs e (x_ "_ch") = Some (ChanV 0).
Proof. intros mem ctxs e zs ev H He. eapply ev_var0; eauto. intros tl. apply nth_seg_ch, H. Qed.
Lemma ev_next : forall mem ctxs e zs ev, has0 mem zs ev -> where_is "_next" e = Some (0, S (S K)) ->
  ceval m tname ctx_text mem ctxs e (x_ "_next") = Some (ChanV 1).
Proof. intros mem ctxs e zs ev H He. eapply ev_var0; eauto. intros tl. apply nth_seg_next, H. Qed.
Lemma ev_tick : forall mem ctxs e zs ev, has0 mem zs ev -> where_is "_ticker" e = Some (0, 3 + K + b) ->
  ceval m tname ctx_text mem ctxs e (XSel (x_ "_ticker") "C") = Some (ChanV 2).
Proof.
  intros mem ctxs e zs ev H He. cbn [ceval]. fold (ceval m tname ctx_text).
  pose proof (ev_var0 mem ctxs e zs ev "_ticker" (3 + K + b) (TickerV 2) H He (fun tl => nth_seg_ticker zs ev tl (proj1 H))) as E.
  rewrite E. reflexivity.
Qed.
Lemma ev_ctx_done : forall mem ctxs e zs ev, ctxm = true -> has0 mem zs ev -> where_is "ctx" e = Some (0, S (length rs)) ->
  ceval m tname ctx_text mem ctxs e ctx_done_ = Some (DoneV 1).
Proof.
  intros mem ctxs e zs ev Hc H He.
  pose proof (ev_var0 mem ctxs e zs ev "ctx" (S (length rs)) (CtxV 1) H He (fun tl => nth_seg_ctx zs ev tl Hc (proj1 H))) as E.
  unfold ctx_done_. cbn [ceval]. rewrite E. reflexivity.
Qed.
Lemma ev_ctx_err : forall mem ctxs e zs ev, ctxm = true -> has0 mem zs ev -> where_is "ctx" e = Some (0, S (length rs)) ->
  is_done ctxs 1 = true ->
  ceval m tname ctx_text mem ctxs e (XCall (XSel (x_ "ctx") "Err") []) = Some (ErrV ctx_text).
Proof.
  intros mem ctxs e zs ev Hc H He Hd.
  pose proof (ev_var0 mem ctxs e zs ev "ctx" (S (length rs)) (CtxV 1) H He (fun tl => nth_seg_ctx zs ev tl Hc (proj1 H))) as E.
  cbn [ceval]. rewrite E. cbn. now rewrite Hd.
Qed.

Lemma ev_errs : forall mem ctxs e zs ev, errm = true -> has0 mem zs ev -> where_is "_errorsList" e = Some (0, 3 + K) ->
  ceval m tname ctx_text mem ctxs e (x_ "_errorsList") = Some ev.
Proof. intros mem ctxs e zs ev Hr H He. eapply ev_var0; eauto. intros tl. apply nth_seg_errs; [exact Hr | apply H]. Qed.

Lemma texts_map : forall l, texts (map StrV l) = Some l.
Proof. induction l as [|x l IH]; [reflexivity|]. cbn. now rewrite IH. Qed.
Lemma ev_joined : forall mem ctxs e zs errs, errm = true -> has0 mem zs (errv errs) -> where_is "_errorsList" e = Some (0, 3 + K) ->
  where_is "strings" e = None ->
  ceval m tname ctx_text mem ctxs e joined_ = Some (StrV (joined errs)).
Proof.
  intros mem ctxs e zs errs Hr H He Hs. pose proof (ev_errs mem ctxs e zs _ Hr H He) as E.
  unfold joined_. cbn [ceval]. rewrite E. unfold x_. cbn [ceval]. rewrite Hs. cbn.
  destruct errs as [|x errs]; [reflexivity|]. unfold errv. change (StrV x :: map StrV errs) with (map StrV (x :: errs)).
  cbn [map]. change (StrV x :: map StrV errs) with (map StrV (x :: errs)). now rewrite texts_map.
Qed.

Lemma field_combine : forall names vs j x v, NoDup names -> length vs = length names ->
  nth_error names j = Some x -> nth_error vs j = Some v -> fld x (combine names vs) = Some v.
Proof.
  induction names as [|y names IH]; intros vs j x v Hn Hl Hj Hv; [destruct j; discriminate|].
  destruct vs as [|w vs]; [destruct j; discriminate|]. inversion Hn as [|? ? Hy Hn']; subst. destruct j as [|j]; cbn in *.
  - injection Hj as ->. injection Hv as ->. now rewrite String.eqb_refl.
  - assert (String.eqb x y = false) as ->.
    { apply String.eqb_neq. intros ->. apply Hy. eapply nth_error_In; eauto. }
    eapply IH; eauto.
Qed.
Lemma nodup_rs : NoDup rs.
Proof. exact (nodup_l _ _ (wf_names m Hwf)). Qed.
Lemma append_nil_r : forall s : string, (s ++ "")%string = s.
Proof. induction s as [|c s IH]; [reflexivity|]. cbn. now rewrite IH. Qed.
Lemma nth_last : forall {A} (l : list A) d k, length l = S k -> nth_error l k = Some (last l d).
Proof.
  intros A l d. induction l as [|x l IH]; intros k Hk; [discriminate|]. cbn in Hk. injection Hk as Hk.
  destruct l as [|y l]; cbn in Hk; subst k; [reflexivity|]. cbn [nth_error]. change (last (x :: y :: l) d) with (last (y :: l) d). now apply IH.
Qed.
Lemma typed_length : forall vs, typed vs -> length vs = length rs.
Proof. intros vs [H _]. unfold cresults. now rewrite map_length. Qed.
Lemma record_err : forall vs, errm = true -> typed vs -> fld "err" (combine rs vs) = Some (last vs NilV).
Proof.
  intros vs He Ht. destruct (rs_pos He) as [Hl Hn]. pose proof (typed_length _ Ht) as Hv.
  apply (field_combine rs vs (length rs - 1)); [apply nodup_rs | exact Hv | exact Hn|]. apply nth_last. lia.
Qed.

Definition has_res (mem : list (list cval)) (j : nat) (vs : list cval) : Prop := peek mem (0, j) = Some (record vs).

Lemma ev_res : forall mem ctxs j vs, has_res mem j vs -> ceval m tname ctx_text mem ctxs (RES j) (x_ "_res") = Some (record vs).
Proof. intros mem ctxs j vs H. unfold x_. cbn [ceval]. exact H. Qed.
Lemma ev_res_err : forall mem ctxs j vs, errm = true -> typed vs -> has_res mem j vs ->
  ceval m tname ctx_text mem ctxs (RES j) (XSel (x_ "_res") "err") = Some (last vs NilV).
Proof. intros mem ctxs j vs He Ht H. cbn [ceval]. rewrite (ev_res _ _ _ _ H). cbn [select record]. now apply record_err. Qed.

Lemma nil_E5 : where_is "nil" E5 = None. Proof. apply find_pkg. cbn; tauto. Qed.
Lemma ev_nil : forall mem ctxs e, where_is "nil" e = None -> ceval m tname ctx_text mem ctxs e (x_ "nil") = Some NilV.
Proof. intros mem ctxs e H. unfold x_. cbn [ceval]. now rewrite H. Qed.

Lemma error_cases : forall vs, errm = true -> typed vs ->
  (last vs NilV = NilV /\ classify vs = Good vs) \/ (exists e, last vs NilV = ErrV e /\ classify vs = Bad e).
Proof. intros vs He [_ Ht]. unfold classify. rewrite He. destruct (Ht He) as [E | [t E]]; rewrite E; eauto. Qed.

Lemma ev_if_good : forall mem ctxs j vs, errm = true -> typed vs -> has_res mem j vs ->
  ceval m tname ctx_text mem ctxs (RES j) (XBin "==" (XSel (x_ "_res") "err") (x_ "nil")) =
  Some (BoolV (match classify vs with Good _ => true | Bad _ => false end)).
Proof.
  intros mem ctxs j vs He Ht H. pose proof (ev_res_err mem ctxs j vs He Ht H) as E.
  set (xe := XSel (x_ "_res") "err") in *. cbn [ceval]. rewrite E, ev_nil by exact nil_E5.
  destruct (error_cases vs He Ht) as [[-> ->] | (e & -> & ->)]; reflexivity.
Qed.
Lemma ev_append : forall mem ctxs j vs e zs errs, errm = true -> typed vs -> has_res mem j vs -> classify vs = Bad e ->
  has0 mem zs (errv errs) ->
  ceval m tname ctx_text mem ctxs (RES j) (XCall (XVar "append") [x_ "_errorsList"; XCall (XSel (XSel (x_ "_res") "err") "Error") []]) =
  Some (errv (errs ++ [e])).
Proof.
  intros mem ctxs j vs e zs errs He Ht H Hb H0. pose proof (ev_res_err mem ctxs j vs He Ht H) as E.
  set (xe := XSel (x_ "_res") "err") in *. cbn [ceval]. rewrite E.
  rewrite (ev_errs mem ctxs (RES j) zs (errv errs) He H0) by exact (find_errs He).
  destruct (error_cases vs He Ht) as [[_ E2] | (e' & E1 & E2)]; [congruence|]. rewrite E1. rewrite Hb in E2. injection E2 as <-.
  cbn [cmethod String.eqb Ascii.eqb Bool.eqb]. replace (where_is "append" (RES j)) with (@None cloc) by (symmetry; apply (find_pkg "append"); cbn; tauto).
  destruct errs as [|x errs]; cbn; [reflexivity|]. now rewrite map_app.
Qed.
Lemma errv_length : forall mem ctxs e zs errs, errm = true -> has0 mem zs (errv errs) -> where_is "_errorsList" e = Some (0, 3 + K) -> where_is "len" e = None ->
  ceval m tname ctx_text mem ctxs e (call1 "len" (x_ "_errorsList")) = Some (IntV (Z.of_nat (length errs))).
Proof.
  intros mem ctxs e zs errs He H Hw Hl. unfold call1. cbn [ceval]. rewrite (ev_errs mem ctxs e zs (errv errs) He H Hw), Hl. cbn.
  destruct errs as [|x errs]; [reflexivity|]. unfold errv. cbn -[Z.of_nat]. now rewrite map_length.
Qed.
Lemma ev_all_failed : forall mem ctxs j zs errs, errm = true -> has0 mem zs (errv errs) ->
  ceval m tname ctx_text mem ctxs (RES j) (XBin "==" (call1 "len" (x_ "_errorsList")) n_impls) = Some (BoolV (length errs =? n)).
Proof.
  intros mem ctxs j zs errs He H. cbn [ceval].
  rewrite (errv_length mem ctxs (RES j) zs errs He H (find_errs He) (R_len j)), (ev_n mem ctxs (RES j) zs _ H (R_d j) (R_len j)).
  cbn -[Z.eqb Nat.eqb]. do 2 f_equal. destruct (Nat.eqb_spec (length errs) n), (Z.eqb_spec (Z.of_nat (length errs)) (Z.of_nat n)); lia || reflexivity.
Qed.
Lemma ev_new : forall mem ctxs j zs errs, errm = true -> has0 mem zs (errv errs) ->
  ceval m tname ctx_text mem ctxs (RES j) (XCall (XSel (x_ "errors") "New") [joined_]) = Some (ErrV (joined errs)).
Proof.
  intros mem ctxs j zs errs He H. cbn [ceval].
  rewrite (ev_joined mem ctxs (RES j) zs errs He H (find_errs He)) by (apply (find_pkg "strings"); cbn; tauto).
  unfold x_. cbn [ceval]. replace (where_is "errors" (RES j)) with (@None cloc) by (symmetry; apply (find_pkg "errors"); cbn; tauto). reflexivity.
Qed.
Lemma ev_ctx_text : forall mem ctxs zs errs, errm = true -> ctxm = true -> is_done ctxs 1 = true -> has0 mem zs (errv errs) ->
  ceval m tname ctx_text mem ctxs E5 (XCall (XSel (x_ "fmt") "Errorf") [XStr "%w: %s"; XCall (XSel (x_ "ctx") "Err") []; joined_]) =
  Some (ErrV (ctx_text ++ ": " ++ joined errs)).
Proof.
  intros mem ctxs zs errs He Hc Hd H.
  pose proof (ev_ctx_err mem ctxs E5 zs _ Hc H (find_ctx Hc) Hd) as Ec.
  set (xc := XCall (XSel (x_ "ctx") "Err") []) in *. cbn [ceval]. rewrite Ec.
  rewrite (ev_joined mem ctxs E5 zs errs He H (find_errs He)) by (apply (find_pkg "strings"); cbn; tauto).
  unfold x_. cbn [ceval]. replace (where_is "fmt" E5) with (@None cloc) by (symmetry; apply (find_pkg "fmt"); cbn; tauto). cbn.
  do 2 f_equal. f_equal. f_equal. now rewrite append_nil_r.
Qed.

(** *** The implementations *)
Definition hasI (mem : list (list cval)) (i : nat) (vs : list cval) : Prop := nth_error mem (2 + i) = Some (ImplV i :: vs).
Lemma ev_impl : forall mem ctxs i vs e, hasI mem i vs -> where_is "_impl" e = Some (2 + i, 0) ->
  ceval m tname ctx_text mem ctxs e (x_ "_impl") = Some (ImplV i).
Proof. intros mem ctxs i vs e H He. unfold x_. cbn [ceval]. rewrite He. unfold peek. cbn [fst snd]. now rewrite H. Qed.

Lemma EI_user : forall i x, In x (rs ++ ps) -> where_is x (EI i) = where_is x E5.
Proof. intros i x Hx. unfold EI, EL. cbn [where_is]. now rewrite !user_name' by (first [exact Hx | cbn; tauto]). Qed.
Lemma EV_id : forall i y, In y ("_d" :: "_" :: "nil" :: "true" :: fallback_ids) -> where_is y (EV i) = where_is y (EI i).
Proof. intros i y Hy. unfold EV. apply find_skip. intros x Hx. apply user_name; [apply in_or_app; now left | exact Hy]. Qed.
Lemma EV_result : forall i j x, nth_error rs j = Some x -> where_is x (EV i) = Some (2 + i, S j).
Proof. intros i j x Hj. unfold EV. now rewrite (find_in rs (2 + i) 1 j x (EI i) nodup_rs Hj). Qed.
Lemma EV_param : forall i x, In x ps -> where_is x (EV i) = where_is x E5.
Proof.
  intros i x Hx. unfold EV. rewrite find_skip; [apply EI_user, in_or_app; now right|]. intros y Hy. apply String.eqb_neq. intros <-.
  exact (nodup_apart _ _ _ (wf_names m Hwf) Hy Hx).
Qed.
Lemma ctx_in : ctxm = true -> In "ctx" ps.
Proof. intros H. destruct (wf_ctx m Hwf H) as (p & r & E & Ep). unfold cparams. rewrite E. cbn. now left. Qed.
Lemma EV_err : forall i, errm = true -> where_is "err" (EV i) = Some (2 + i, length rs).
Proof. intros i He. destruct (rs_pos He) as [Hl Hn]. rewrite (EV_result i _ _ Hn). f_equal. f_equal. lia. Qed.

Lemma reads_seq : forall mem e t k names vs (Hf : forall j x, nth_error names j = Some x -> where_is x e = Some (t, k + j)) sg pre,
  nth_error mem t = Some sg -> k = length pre -> length names = length vs -> (exists post, sg = pre ++ vs ++ post) -> reads mem e names = Some vs.
Proof.
  intros mem e t k names. revert k. induction names as [|x names IH]; intros k vs Hf sg pre Hs Hk Hl [post Hp].
  - destruct vs; [reflexivity | discriminate].
  - destruct vs as [|v vs]; [discriminate|]. cbn. rewrite (Hf 0 x eq_refl). unfold peek. cbn [fst snd]. rewrite Hs, Nat.add_0_r.
    assert (nth_error sg k = Some v) as -> by (subst sg k; rewrite nth_error_app2, Nat.sub_diag by lia; reflexivity).
    fold (reads mem e). rewrite (IH (S k) vs) with (sg := sg) (pre := pre ++ [v]); [reflexivity| | exact Hs | | |].
    + intros j y Hj. rewrite (Hf (S j) y Hj). f_equal. f_equal. lia.
    + rewrite app_length. cbn. lia.
    + cbn in Hl. now injection Hl.
    + exists post. rewrite <- app_assoc. exact Hp.
Qed.
Lemma reads_params : forall mem i zs ev, has0 mem zs ev -> reads mem (EI i) ps = Some args1.
Proof.
  intros mem i zs ev [Hz [tl H]]. apply (reads_seq mem (EI i) 0 (S (length rs)) ps args1) with (sg := seg zs ev tl) (pre := recv :: zs).
  - intros j x Hj. rewrite EI_user by (apply in_or_app; right; eapply nth_error_In; eauto). rewrite (find_param j x Hj). f_equal. 
  - exact H.
  - cbn. now rewrite Hz.
  - symmetry. apply args1_length.
  - unfold seg. eexists. cbn [app]. f_equal. 
Qed.
Lemma ev_record : forall mem ctxs i vs t, hasI mem i vs -> typed vs ->
  ceval m tname ctx_text mem ctxs (EV i) (XResults t) = Some (record vs).
Proof.
  intros mem ctxs i vs t H Ht. cbn [ceval]. rewrite (reads_seq mem (EV i) (2 + i) 1 rs vs) with (sg := ImplV i :: vs) (pre := [ImplV i]).
  - reflexivity.
  - intros j x Hj. now rewrite (EV_result i j x Hj).
  - exact H.
  - reflexivity.
  - symmetry. now apply typed_length.
  - exists []. now rewrite app_nil_r.
Qed.
Lemma ev_err : forall mem ctxs i vs, errm = true -> typed vs -> hasI mem i vs ->
  ceval m tname ctx_text mem ctxs (EV i) (x_ "err") = Some (last vs NilV).
Proof.
  intros mem ctxs i vs He Ht H. unfold x_. cbn [ceval]. rewrite (EV_err i He). unfold peek. cbn [fst snd]. rewrite H.
  destruct (rs_pos He) as [Hl _]. rewrite Hl. cbn [nth_error]. apply nth_last. rewrite (typed_length _ Ht). lia.
Qed.
Lemma ev_err_not_nil : forall mem ctxs i vs, errm = true -> typed vs -> hasI mem i vs ->
  ceval m tname ctx_text mem ctxs (EV i) (XBin "!=" (x_ "err") (x_ "nil")) =
  Some (BoolV (match classify vs with Good _ => false | Bad _ => true end)).
Proof.
  intros mem ctxs i vs He Ht H. cbn [ceval]. rewrite (ev_err mem ctxs i vs He Ht H), ev_nil.
  - destruct (error_cases vs He Ht) as [[-> ->] | (e & -> & ->)]; reflexivity.
  - rewrite EV_id by (cbn; tauto). exact nil_E5.
Qed.
Lemma ev_wrapped : forall mem ctxs i vs e, errm = true -> typed vs -> hasI mem i vs -> last vs NilV = ErrV e ->
  ceval m tname ctx_text mem ctxs (EV i) (XCall (XSel (x_ "fmt") "Errorf") [XStr "%T: %v"; x_ "_impl"; x_ "err"]) =
  Some (ErrV (tname i ++ ": " ++ e)).
Proof.
  intros mem ctxs i vs e He Ht H El. cbn [ceval]. rewrite (ev_err mem ctxs i vs He Ht H), El.
  rewrite (ev_impl mem ctxs i vs (EV i) H) by (rewrite EV_id by (cbn; tauto); reflexivity).
  unfold x_. cbn [ceval]. replace (where_is "fmt" (EV i)) with (@None cloc).
  - cbn. do 2 f_equal. f_equal. f_equal. now rewrite append_nil_r.
  - symmetry. rewrite EV_id by (cbn; tauto). apply (find_pkg "fmt"). cbn; tauto.
Qed.

Notation lstep := (@step V ctxm errm n tname ctx_text).
Notation gostep := (gstep m tname ctx_text (result_locs m)).
Notation adv := (advance m tname ctx_text (result_locs m)).

(** ** What the events of the machine mean *)
Inductive means : event -> list (label V) -> Prop :=
| me_tau t : means (Tau t) []
| me_tau_caller : means (Tau 0) [Caller]
| me_tau_launcher : means (Tau 1) [Launcher]
| me_start : means (Spawned 0 1) []
| me_launch i : means (Spawned 1 (2 + i)) [Launch i]
| me_called i : means (Called (2 + i) i args1) [Begin i]
| me_answered i vs : typed vs -> means (Answered (2 + i) i vs) [ImplDone i (classify vs)]
| me_passed i vs : typed vs -> means (Passed (2 + i) 0 (record vs)) [Recv i (classify vs)]
| me_put : means (Put 0 1) [SendNext]
| me_next : means (Got 1 1) [TakeNext]
| me_tick : means (Got 1 2) [TakeTick]
| me_seen : means (SawDone 0 1) [Caller]
| me_drop i : means (SawDone (2 + i) 1) [Drop i]
| me_default i : means (Default (2 + i)) [Drop i]
| me_stop : means (Deferred 0 (DStop 2)) []
| me_cancel : means (Deferred 0 (DCancel 1)) [Caller]
| me_return a : means (Finished 0) [Returns a]
| me_end t : means (Finished (S t)) []
| me_ticked : means (Ticked 2) [Tick]
| me_done : means CallerDone [CtxDone].

Definition simulated (s' : gstate) (l : state V) (ev : event) : Prop :=
  exists ls l', means ev ls /\ run lstep l ls l' /\ matches s' l'.

Lemma main_has0 : forall sg g p errs dn, main_at sg g p errs dn -> exists zs ev tl, sg = seg zs ev tl /\ length zs = length rs.
Proof.
  intros sg g p errs dn H. destruct H; eauto 6.
Qed.
Lemma matches_has0 : forall sg g p errs dn r, main_at sg g p errs dn -> exists zs ev, has0 (sg :: r) zs ev.
Proof. intros sg g p errs dn r H. destruct (main_has0 _ _ _ _ _ H) as (zs & ev & tl & E & Hl). exists zs, ev. split; [exact Hl|]. exists tl. cbn. now rewrite E. Qed.

Lemma main_mono : forall sg g p errs dn dn', main_at sg g p errs dn -> (dn = true -> dn' = true) -> main_at sg g p errs dn'.
Proof.
  intros sg g p errs dn dn' H Hd. destruct H; try (econstructor; eassumption). rewrite (Hd eq_refl). econstructor; eassumption.
Qed.


(** ** Method.ReturnStruct sets the results *)
Lemma upd_here : forall {A} j (vs zs : list A) v, j < length zs -> length vs = length zs -> nth_error vs j = Some v ->
  upd j v (firstn j vs ++ skipn j zs) = firstn (S j) vs ++ skipn (S j) zs.
Proof.
  intros A j. induction j as [|j IH]; intros vs zs v Hj Hl Hv.
  - destruct vs as [|a vs]; [discriminate|]. destruct zs as [|z zs]; [cbn in Hj; lia|]. cbn in Hv. injection Hv as ->. reflexivity.
  - destruct vs as [|a vs]; [discriminate|]. destruct zs as [|z zs]; [cbn in Hj; lia|]. cbn in *.
    f_equal. apply (IH vs zs v); lia || assumption.
Qed.
Lemma poke0 : forall k v sg r, poke (0, k) v (sg :: r) = upd k v sg :: r.
Proof. reflexivity. Qed.
Lemma return_struct_from : forall vs ev tl r suf pre, length vs = length rs -> rs = pre ++ suf ->
  fold_left (fun mem p => match fld (fst p) (combine rs vs) with Some v => poke (0, snd p) v mem | None => mem end)
    (combine suf (seq (S (length pre)) (length suf)))
    (seg (firstn (length pre) vs ++ skipn (length pre) zeros) ev tl :: r) = seg vs ev tl :: r.
Proof.
  intros vs ev tl r suf. induction suf as [|x suf IH]; intros pre Hl E.
  - cbn. rewrite app_nil_r in E. rewrite E in Hl, Hzeros. rewrite firstn_all2 by lia. rewrite skipn_all2 by lia. now rewrite app_nil_r.
  - assert (length rs = length pre + S (length suf)) as Hlen by (rewrite E, app_length; reflexivity).
    assert (nth_error rs (length pre) = Some x) as Hx by (rewrite E, nth_error_app2, Nat.sub_diag by lia; reflexivity).
    destruct (nth_error vs (length pre)) as [v|] eqn:Ev; [|apply nth_error_None in Ev; lia].
    cbn [length seq combine fold_left]. cbn [fst snd].
    rewrite (field_combine rs vs (length pre) x v (nodup_rs) Hl Hx Ev).
    rewrite poke0, seg_set_res.
    + rewrite upd_here by (try lia; assumption). specialize (IH (pre ++ [x]) Hl). rewrite app_length, Nat.add_1_r in IH. apply IH.
      now rewrite <- app_assoc.
    + rewrite app_length, firstn_length, skipn_length. lia.
Qed.
Lemma return_struct : forall vs ev tl r, length vs = length rs ->
  fold_left (fun mem p => match fld (fst p) (combine rs vs) with Some v => poke (0, snd p) v mem | None => mem end)
    (combine rs (result_locs m)) (seg zeros ev tl :: r) = seg vs ev tl :: r.
Proof. intros vs ev tl r Hl. exact (return_struct_from vs ev tl r rs [] Hl eq_refl). Qed.

Ltac stay := eexists [], _; split; [constructor | split; [constructor |]].
Ltac go1 := eexists [_], _; split; [constructor | split; [apply run_one |]].
(** the rest of the state is as before *)
Ltac rebuild Hst Hla Hls Hlg Hli Him Hnew :=
  eapply Matches; [reflexivity | exact Hst | unfold K2, kE, D, D1, D2; try destruct ctxm; discriminate | | exact Hla | exact Hls | exact Hlg | exact Hli | exact Him | exact Hnew];
  cbn [main errorsList nexts tick stopped parent cancelled launcher impls set_main set_launcher set_impl].

Lemma res_at : forall sg r j vs, nth_error sg j = Some (record vs) -> has_res (sg :: r) j vs.
Proof. intros sg r j vs H. exact H. Qed.
Lemma two : forall x : bool, x = true \/ x = false.
Proof. intros []; auto. Qed.

(** what [advance] may say of goroutine [t]: never a fault *)
Definition polling (s : gstate) (l : state V) (t : nat) (bs : list branch) (e : cenv) (k : code) (ds : list deferred) : Prop :=
  exists i vs, t = 2 + i /\ ctxm = false /\ typed vs /\ bs = [(OSnd (ChanV 0) (record vs), (None, []))] /\
    nth_error (impls l) i = Some (IReady (classify vs)) /\ e = EV i /\ k = [FSeq (EV i) []] /\ ds = [].
Definition fine (t : nat) (s : gstate) (l : state V) (x : move) : Prop :=
  match x with
  | Local s' => simulated s' l (Tau t)
  | Spawn g vs body =>
      simulated (GState (g_mem s ++ [vs]) (g_chans s) (g_ctxs s) (g_tickers s) (upd t g (g_gos s) ++ [body])) l (Spawned t (length (g_gos s)))
  | Calls i vs g => simulated (set_go t g s) l (Called t i vs)
  | Polls bs e k ds => polling s l t bs e k ds
  | Runs (DStop c) g =>
      simulated (set_go t g (set_tickers (map (fun x => if Nat.eqb (fst x) c then (fst x, true) else x) (g_tickers s)) s)) l (Deferred t (DStop c))
  | Runs (DCancel i) g => simulated (set_go t g (set_ctxs (cancel i (g_ctxs s)) s)) l (Deferred t (DCancel i))
  | Ends => simulated (set_go t Ended s) l (Finished t)
  | Waits => True
  | Fault => False
  end.

Lemma main_fine : forall s l, matches s l -> fine 0 s l (adv 0 s).
Proof.
  intros s l [sg0 sg1 segs g0 g1 gs st Es Hst Hse Hm Hla Hls Hlg Hli Him Hnew]. remember (adv 0 s) as x eqn:HA. symmetry in HA. destruct l as [mn er nx tk sp pa ca la im].
  cbn [main errorsList nexts tick stopped parent cancelled launcher impls] in *.
  destruct (matches_has0 _ _ _ _ _ (sg1 :: segs) Hm) as (zs0 & ev0 & H0).
  unfold advance in HA. subst s. cbn [g_gos nth_error] in HA.
  remember (ctx_done _) as dn eqn:Edn in Hm.
  destruct Hm.
  - (* ma_start *) unfold wait_body in HA. destruct (two ctxm) as [Ec | Ec]; rewrite Ec in HA.
    + cbn [exec_stmt if_good append_err if_all_failed g_mem g_ctxs] in HA. subst x; cbn [fine]. stay. rebuild Hst Hla Hls Hlg Hli Him Hnew.
      unfold D. rewrite Ec. econstructor; eauto.
    + cbn [exec_stmt ready_offer receive_] in HA. rewrite (ev_ch _ _ _ _ _ H0 find_ch) in HA. cbn [is_chan] in HA.
      assert (He : errm = false) by (destruct (two errm) as [He|He]; [rewrite (Hcompiles He) in Ec; discriminate | exact He]).
      rewrite He in HA. subst x; cbn [fine]. go1; [apply s_reach; reflexivity|]. rebuild Hst Hla Hls Hlg Hli Him Hnew.
      unfold D. rewrite Ec. econstructor; eauto.
  - (* ma_ever *) cbn [kE] in HA. subst x; cbn [fine]. stay. rebuild Hst Hla Hls Hlg Hli Him Hnew. eapply ma_loop; eauto.
  - (* ma_loop *) cbn [kE] in HA. unfold wait_select in HA. cbn [exec_stmt branches ready_offer receive_] in HA.
    rewrite (ev_ch _ _ _ _ _ H0 find_ch), (ev_ctx_done _ _ _ _ _ H H0 (find_ctx H)) in HA. cbn [is_chan] in HA. subst x; cbn [fine].
    destruct H1 as [-> | ->].
    + go1; [apply s_reach; reflexivity|]. rebuild Hst Hla Hls Hlg Hli Him Hnew. eapply ma_parked; eauto.
    + stay. rebuild Hst Hla Hls Hlg Hli Him Hnew. eapply ma_parked; eauto.
  - (* ma_next *) cbn [K2] in HA. subst x; cbn [fine]. stay. rebuild Hst Hla Hls Hlg Hli Him Hnew. eapply ma_ever; eauto.
  - subst x. exact I.
  - subst x. exact I.
  - (* ma_good *) destruct (proj1 H5 (HasResults_err H)) as (j & -> & Hj).
    unfold on_result in HA. rewrite H in HA. cbn [exec_stmt if_good append_err if_all_failed g_mem g_ctxs] in HA.
    rewrite (ev_if_good _ _ _ _ H H3 (res_at _ _ _ _ Hj)), H4 in HA. subst x; cbn [fine]. stay. rebuild Hst Hla Hls Hlg Hli Him Hnew.
    replace (MCancel (Answer vs)) with (leave (Answer vs)) by (unfold leave; now rewrite H1). 
    replace D2 with D by (unfold D; now rewrite H1). eapply ma_return; eauto.
  - (* ma_return *) cbn [exec_stmt if_good append_err if_all_failed g_mem g_ctxs] in HA. pose proof (typed_length _ H1) as Hlen.
    assert (Hnil : m_results m = [] -> vs = zeros).
    { intros E. unfold cresults in *. rewrite E in *. destruct vs, zeros; discriminate || reflexivity. }
    assert (HL : exists r, x = Local (GState (seg vs (errv errs) tl :: sg1 :: segs) (chans_of (State (leave (Answer vs)) errs nx tk sp pa ca la im))
       (ctxs_of (State (leave (Answer vs)) errs nx tk sp pa ca la im)) [(2, st)] (Run [] D :: r)) /\ r = g1 :: gs).
    { destruct (m_results m) as [|rr rl] eqn:Er.
      - subst x. rewrite (Hnil eq_refl), H. eexists. split; reflexivity.
      - destruct (proj1 H2) as (j & -> & Hj); [unfold HasResults; now rewrite Er|].
        rewrite (ev_res _ _ _ vs (res_at _ _ _ _ Hj)) in HA. cbn [record Nat.eqb] in HA. subst x. unfold set_mem. cbn [g_mem]. rewrite H.
        fold rs. rewrite (return_struct vs (errv errs) tl (sg1 :: segs) Hlen). eexists. split; reflexivity. }
    destruct HL as (r & -> & ->). cbn [fine]. stay. rebuild Hst Hla Hls Hlg Hli Him Hnew. eapply ma_leave with (a := Answer vs); eauto.
    unfold leaving, D, leave. destruct (two ctxm) as [Ec|Ec]; rewrite Ec; auto.
  - (* ma_bad *) unfold on_result in HA. rewrite H in HA. cbn [exec_stmt if_good append_err if_all_failed g_mem g_ctxs] in HA.
    rewrite (ev_if_good _ _ _ _ H H4 (res_at _ _ _ _ H6)), H5 in HA. subst x; cbn [fine]. stay. rebuild Hst Hla Hls Hlg Hli Him Hnew.
    eapply ma_send; eauto.
  - (* ma_send *) cbn [exec_stmt ready_offer g_mem g_ctxs] in HA.
    rewrite (ev_next _ _ (RES j) _ _ H0 find_next) in HA. cbn [ceval is_chan] in HA. subst x; cbn [fine].
    stay. rebuild Hst Hla Hls Hlg Hli Him Hnew. eapply ma_sending; eauto.
  - subst x. exact I.
  - (* ma_append *) cbn [exec_stmt append_err g_mem g_ctxs] in HA.
    rewrite (ev_append _ _ _ _ _ zeros errs H H4 (res_at _ _ _ _ H6) H5) in HA by (split; [exact Hzeros | exists tl; cbn; now rewrite H3]).
    rewrite (find_errs H : where_is "_errorsList" (RES j) = _) in HA. subst x; cbn [fine]. unfold set_mem. cbn [g_mem g_chans g_ctxs g_tickers g_gos].
    rewrite poke0, H3, seg_set_errs by assumption. stay. rebuild Hst Hla Hls Hlg Hli Him Hnew. eapply ma_test; eauto. now destruct errs.
  - (* ma_test *) cbn [exec_stmt if_all_failed g_mem g_ctxs] in HA.
    rewrite (ev_all_failed _ _ _ zeros errs H) in HA by (split; [exact Hzeros | exists tl; cbn; now rewrite H3]).
    unfold after. destruct (length errs =? n); subst x; cbn [fine]; stay; rebuild Hst Hla Hls Hlg Hli Him Hnew.
    + eapply ma_failed; eauto.
    + eapply ma_back; eauto.
  - (* ma_failed *) cbn [exec_stmt g_mem g_ctxs] in HA.
    rewrite (ev_new _ _ _ zeros errs H) in HA by (split; [exact Hzeros | exists tl; cbn; now rewrite H3]).
    rewrite (find_err H : where_is "err" (RES j) = _) in HA. subst x; cbn [fine]. unfold set_mem. cbn [g_mem g_chans g_ctxs g_tickers g_gos].
    destruct (rs_pos H) as [Hl _]. rewrite Hl, poke0, H3, seg_set_res by lia. stay. rebuild Hst Hla Hls Hlg Hli Him Hnew.
    eapply ma_ret with (a := AllFailed (joined errs)); cbn [results_of]; unfold with_err; [exact H1 | reflexivity | now rewrite upd_length].
  - (* ma_back *) subst x; cbn [fine]. stay. rebuild Hst Hla Hls Hlg Hli Him Hnew. eapply ma_next; eauto.
  - (* ma_done *) unfold on_done in HA. destruct (two errm) as [He|He]; rewrite He in HA; cbn [app exec_stmt g_mem g_ctxs] in HA.
    + rewrite (ev_ctx_text _ _ zeros errs He H) in HA.
      * rewrite (find_err He) in HA. subst x; cbn [fine]. unfold set_mem. cbn [g_mem g_chans g_ctxs g_tickers g_gos].
        destruct (rs_pos He) as [Hl _]. rewrite Hl, poke0, H1, seg_set_res by lia. stay. rebuild Hst Hla Hls Hlg Hli Him Hnew.
        eapply ma_ret with (a := CtxErr (ctx_text ++ ": " ++ joined errs)); cbn [results_of]; unfold with_err; rewrite ?He; [exact H | reflexivity | now rewrite upd_length].
      * unfold ctxs_of. rewrite H. cbn. symmetry. exact Edn.
      * split; [exact Hzeros | exists tl; cbn; now rewrite H1].
    + subst x; cbn [fine]. stay. rebuild Hst Hla Hls Hlg Hli Him Hnew.
      eapply ma_leave with (a := CtxErr (ctx_text ++ ": " ++ joined errs)); cbn [results_of]; rewrite ?He; [exact H1 | exact Hzeros|].
      left. auto.
  - (* ma_ret *) subst x; cbn [fine]. stay. rebuild Hst Hla Hls Hlg Hli Him Hnew. eapply ma_leave; eauto. left. auto.
  - (* ma_leave *) match goal with L : leaving _ _ _ |- _ => destruct L as [(-> & Hc & ->) | (-> & ->)] end; subst x; cbn [fine D1 D2].
    + eexists [_], _. split; [constructor | split; [apply run_one, s_cancel; reflexivity|]].
      eapply Matches with (sg0 := sg0) (segs := segs) (g0 := Run [] D1) (gs := gs); [|exact Hst|discriminate| |exact Hla|exact Hls|exact Hlg|exact Hli|exact Him|exact Hnew].
      * unfold set_go, set_ctxs, ctxs_of, chans_of. cbn [g_mem g_chans g_ctxs g_tickers g_gos main errorsList nexts tick stopped parent cancelled launcher impls]. rewrite Hc.
        rewrite orb_true_r. destruct pa; destruct ca; reflexivity.
      * eapply ma_leave; eauto. right. auto.
    + eexists [], _. split; [constructor | split; [constructor|]].
      eapply Matches with (sg0 := sg0) (segs := segs) (gs := gs); [reflexivity | auto | auto | |exact Hla|exact Hls|exact Hlg|exact Hli|exact Him|exact Hnew].
      eapply ma_left; eauto.
  - (* ma_left *) subst x. cbn [fine]. eexists [_], _. split; [constructor | split; [apply run_one, s_stop; reflexivity|]].
    eapply Matches with (sg0 := sg0) (segs := segs) (gs := gs); [reflexivity | intros _; auto | discriminate | |exact Hla|exact Hls|exact Hlg|exact Hli|exact Him|exact Hnew].
    eapply ma_ended; eauto.
  - subst x. exact I.
Qed.
Ltac relaunch sg0 segs g0 gs Hst Hse Hm Hls Hlg Hli Him Hnew :=
  eapply Matches with (sg0 := sg0) (segs := segs) (g0 := g0) (gs := gs);
  [reflexivity | exact Hst | exact Hse | exact Hm | | exact Hls | exact Hlg | exact Hli | exact Him | exact Hnew];
  cbn [main errorsList nexts tick stopped parent cancelled launcher impls set_main set_launcher set_impl].

Lemma launcher_fine : forall s l, matches s l -> fine 1 s l (adv 1 s).
Proof.
  intros s l [sg0 sg1 segs g0 g1 gs st Es Hst Hse Hm Hla Hls Hlg Hli Him Hnew]. remember (adv 1 s) as x eqn:HA. symmetry in HA.
  destruct l as [mn er nx tk sp pa ca la im].
  cbn [main errorsList nexts tick stopped parent cancelled launcher impls] in *.
  destruct (matches_has0 _ _ _ _ _ (sg1 :: segs) Hm) as (zs0 & ev0 & H0).
  unfold advance in HA. subst s. cbn [g_gos nth_error] in HA.
  remember (length gs) as c eqn:Ec in Hla. destruct Hla.
  - (* la_new *) cbn [launch_body exec_stmt] in HA. subst x. cbn [fine]. stay. relaunch sg0 segs g0 gs Hst Hse Hm Hls Hlg Hli Him Hnew.
    rewrite <- Ec. apply (la_cond 0). lia.
  - (* la_cond *) cbn [g_mem g_ctxs] in HA. rewrite (ev_cond _ _ _ _ i H0 eq_refl) in HA. destruct (Nat.ltb_spec i n) as [Hi|Hi]; subst x; cbn [fine].
    + stay. relaunch sg0 segs g0 gs Hst Hse Hm Hls Hlg Hli Him Hnew. rewrite <- Ec. now apply la_go.
    + go1; [apply (s_loop_end _ _ _ _ _ _ i); [reflexivity | exact Hi]|]. relaunch sg0 segs g0 gs Hst Hse Hm Hls Hlg Hli Him Hnew.
      rewrite <- Ec. replace i with n by lia. apply (la_end _ 1).
  - (* la_go *) cbn [launch_loop exec_stmt cevals g_mem g_ctxs] in HA. rewrite (ev_pick _ _ _ _ i H0 eq_refl H) in HA. cbn [length Nat.eqb map] in HA.
    subst x. cbn [fine g_gos g_mem g_chans g_ctxs g_tickers length]. rewrite <- Ec.
    exists [Launch i]. eexists. split; [apply me_launch | split; [apply run_one, s_launch; [reflexivity|]; cbn [impls]; apply Hnew; lia|]].
    eapply Matches with (sg0 := sg0) (sg1 := [IntV (Z.of_nat i)]) (segs := segs ++ [[ImplV i]]) (g0 := g0)
      (g1 := Run (FSeq EL [launch_wait] :: kL) []) (gs := gs ++ [Run [FSeq (EI i) (impl_body m)] []]) (st := st);
      cbn [main errorsList nexts tick stopped parent cancelled launcher impls set_main set_launcher set_impl].
    + reflexivity.
    + exact Hst.
    + exact Hse.
    + exact Hm.
    + rewrite app_length. cbn [length]. rewrite <- Ec, Nat.add_1_r. now apply la_test.
    + rewrite !app_length. cbn. now rewrite Hls.
    + rewrite app_length. cbn. lia.
    + now rewrite upd_length.
    + intros j Hj. rewrite app_length in Hj. cbn in Hj. destruct (Nat.eq_dec j i) as [->|Hne].
      * exists [ImplV i], (Run [FSeq (EI i) (impl_body m)] []), ILaunched. rewrite !nth_error_app2 by lia.
        replace (i - length segs) with 0 by lia. replace (i - length gs) with 0 by lia. repeat split; try reflexivity.
        -- apply nth_upd_same. lia.
        -- constructor.
      * destruct (Him j ltac:(lia)) as (sg & g & p & A & B & C & F). exists sg, g, p. rewrite !nth_error_app1 by lia. repeat split; auto.
        rewrite nth_upd_other by lia. exact C.
    + intros j Hj. rewrite app_length in Hj. cbn in Hj. rewrite nth_upd_other by lia. apply Hnew. lia.
  - (* la_test *) cbn [launch_wait exec_stmt g_mem g_ctxs] in HA. rewrite (ev_more _ _ _ _ i H0 eq_refl) in HA. destruct (Nat.ltb_spec (S i) n) as [Hi|Hi]; subst x; cbn [fine].
    + go1; [apply (s_wait _ _ _ _ _ _ i); [reflexivity | lia]|]. relaunch sg0 segs g0 gs Hst Hse Hm Hls Hlg Hli Him Hnew. rewrite <- Ec. now apply la_wait.
    + go1; [apply (s_last _ _ _ _ _ _ i); [reflexivity | lia]|]. relaunch sg0 segs g0 gs Hst Hse Hm Hls Hlg Hli Him Hnew. rewrite <- Ec. now apply (la_post i 1).
  - (* la_wait *) cbn [exec_stmt branches ready_offer g_mem g_ctxs] in HA.
    rewrite (ev_next _ _ EL _ _ H0 find_next), (ev_tick _ _ EL _ _ H0 find_ticker) in HA. cbn [is_chan] in HA. subst x. cbn [fine].
    stay. relaunch sg0 segs g0 gs Hst Hse Hm Hls Hlg Hli Him Hnew. rewrite <- Ec. now apply la_parked.
  - subst x. exact I.
  - (* la_post *) destruct k as [|k]; cbn [repeat app] in HA.
    + cbn [kL] in HA. cbn in HA. subst x. cbn [fine]. stay. relaunch sg0 segs g0 gs Hst Hse Hm Hls Hlg Hli Him Hnew. rewrite <- Ec.
      replace (Z.of_nat i + 1)%Z with (Z.of_nat (S i)) by lia. apply la_cond. lia.
    + subst x. cbn [fine]. stay. relaunch sg0 segs g0 gs Hst Hse Hm Hls Hlg Hli Him Hnew. rewrite <- Ec. now apply la_post.
  - (* la_end *) destruct k as [|k]; cbn [repeat] in HA; subst x; cbn [fine].
    + stay. relaunch sg0 segs g0 gs Hst Hse Hm Hls Hlg Hli Him Hnew. rewrite <- Ec. apply la_ended.
    + stay. relaunch sg0 segs g0 gs Hst Hse Hm Hls Hlg Hli Him Hnew. rewrite <- Ec. apply la_end.
  - subst x. exact I.
Qed.

(** one implementation's goroutine changes *)
Lemma rematch : forall mn er nx tk sp pa ca la im sg0 sg1 segs g0 g1 gs st i segs' gs' sg' g' p' im',
  (sp = true -> st = true) -> (g0 = Run [] [] -> st = true) -> main_at sg0 g0 mn er (pa || ca) -> launcher_at sg1 g1 la (length gs) ->
  length segs = length gs -> length gs <= n -> length im = n ->
  (forall i, i < length gs -> exists sg g p, nth_error segs i = Some sg /\ nth_error gs i = Some g /\ nth_error im i = Some p /\ impl_at i sg g p) ->
  (forall i, length gs <= i < n -> nth_error im i = Some INew) ->
  i < length gs -> impl_at i sg' g' p' ->
  nth_error segs' i = Some sg' -> nth_error gs' i = Some g' -> nth_error im' i = Some p' ->
  (forall j, j <> i -> nth_error segs' j = nth_error segs j) -> (forall j, j <> i -> nth_error gs' j = nth_error gs j) ->
  (forall j, j <> i -> nth_error im' j = nth_error im j) ->
  length segs' = length segs -> length gs' = length gs -> length im' = length im ->
  matches (GState (sg0 :: sg1 :: segs') (chans_of (State mn er nx tk sp pa ca la im)) (ctxs_of (State mn er nx tk sp pa ca la im)) [(2, st)] (g0 :: g1 :: gs'))
          (State mn er nx tk sp pa ca la im').
Proof.
  intros mn er nx tk sp pa ca la im sg0 sg1 segs g0 g1 gs st i segs' gs' sg' g' p' im' Hst Hse Hm Hla Hls Hlg Hli Him Hnew Hi Ha A B C A' B' C' La Lb Lc.
  eapply Matches with (sg0 := sg0) (sg1 := sg1) (segs := segs') (g0 := g0) (g1 := g1) (gs := gs') (st := st);
    cbn [main errorsList nexts tick stopped parent cancelled launcher impls]; auto; try (rewrite ?Lb; lia || assumption).
  - intros j Hj. destruct (Nat.eq_dec j i) as [->|Hne]; [now exists sg', g', p'|]. rewrite A', B', C' by exact Hne. apply Him. lia.
  - intros j Hj. rewrite C' by lia. apply Hnew. lia.
Qed.

Lemma upd_id : forall {A} i (x : A) l, nth_error l i = Some x -> upd i x l = l.
Proof. intros A i. induction i as [|i IH]; intros x [|a l] H; try discriminate; cbn in *; [congruence|]. now rewrite IH. Qed.

Lemma typed_set_err : forall vs e, errm = true -> typed vs ->
  typed (upd (length rs - 1) (ErrV e) vs) /\ classify (upd (length rs - 1) (ErrV e) vs) = Bad e.
Proof.
  intros vs e He Ht. pose proof (typed_length _ Ht) as Hl. destruct (rs_pos He) as [Hp _].
  assert (last (upd (length rs - 1) (ErrV e) vs) NilV = ErrV e) as Hlast.
  { pose proof (nth_last (upd (length rs - 1) (ErrV e) vs) NilV (length rs - 1)) as H. rewrite upd_length in H.
    rewrite nth_upd_same in H by lia. specialize (H ltac:(lia)). congruence. }
  split.
  - split; [rewrite upd_length; apply Ht|]. intros _. rewrite Hlast. right. eauto.
  - unfold classify. now rewrite He, Hlast.
Qed.

Lemma set_go2 : forall i g mem ch cx tk g0 g1 gs, set_go (S (S i)) g (GState mem ch cx tk (g0 :: g1 :: gs)) = GState mem ch cx tk (g0 :: g1 :: upd i g gs).
Proof. reflexivity. Qed.
Ltac reimpl i := unfold to; cbn [Nat.add]; rewrite ?set_go2; eapply rematch with (i := i); [eassumption | eassumption | eassumption | eassumption | eassumption | eassumption | eassumption | eassumption | eassumption | eassumption | ..];
  cbn [main errorsList nexts tick stopped parent cancelled launcher impls set_main set_launcher set_impl];
  [ | first [eassumption | now apply nth_upd_same] | first [eassumption | now apply nth_upd_same]
    | first [eassumption | apply nth_upd_same; lia]
    | intros; first [reflexivity | apply nth_upd_other; congruence] | intros; first [reflexivity | apply nth_upd_other; congruence] | intros; first [reflexivity | apply nth_upd_other; congruence]
    | first [reflexivity | now rewrite upd_length] | first [reflexivity | now rewrite upd_length] | first [reflexivity | now rewrite upd_length] ].

Lemma seg_at : forall sg0 sg1 segs i vs, nth_error segs i = Some (ImplV i :: vs) -> hasI (sg0 :: sg1 :: segs) i vs.
Proof. intros sg0 sg1 segs i vs H. exact H. Qed.

Lemma impl_fine : forall s l i, matches s l -> 2 + i < length (g_gos s) -> fine (2 + i) s l (adv (2 + i) s).
Proof.
  intros s l i [sg0 sg1 segs g0 g1 gs st Es Hst Hse Hm Hla Hls Hlg Hli Him Hnew] Hi. remember (adv (2 + i) s) as x eqn:HA. symmetry in HA.
  destruct l as [mn er nx tk sp pa ca la im].
  cbn [main errorsList nexts tick stopped parent cancelled launcher impls] in *.
  destruct (matches_has0 _ _ _ _ _ (sg1 :: segs) Hm) as (zs0 & ev0 & H0).
  subst s. cbn [g_gos length] in Hi. assert (Hi' : i < length gs) by lia. clear Hi.
  assert (Hi2 : i < length segs) by lia.
  destruct (Him i Hi') as (sg & g & p & Nsg & Ng & Np & Hp). change (ctx_done (State mn er nx tk sp pa ca la im)) with (pa || ca)%bool in Hm.
  unfold advance in HA. cbn [g_gos nth_error Nat.add] in HA. rewrite Ng in HA. destruct Hp.
  - (* ia_new *) cbn [impl_body exec_stmt g_mem g_ctxs] in HA.
    rewrite (ev_impl _ _ i [] (EI i) (seg_at _ sg1 _ _ _ Nsg) eq_refl), (reads_params _ i _ _ H0) in HA. subst x. cbn [fine].
    exists [Begin i]. eexists. split; [apply (me_called i) | split; [apply run_one, s_begin; exact Np|]].
    reimpl i. constructor.
  - subst x. exact I.
  - (* ia_wrap *) unfold impl_wrap in HA. rewrite H in HA. cbn [app exec_stmt g_mem g_ctxs] in HA.
    rewrite (ev_err_not_nil _ _ i vs H H1 (seg_at _ sg1 _ _ _ Nsg)) in HA. destruct (error_cases vs H H1) as [[El Ecl] | (e & El & Ecl)]; rewrite Ecl in *; subst x; cbn [fine].
    + stay. reimpl i. cbn [wrap_result]. rewrite <- Ecl. now apply ia_deliver.
    + stay. reimpl i. cbn [wrap_result]. now apply ia_set.
  - (* ia_set *) cbn [exec_stmt g_mem g_ctxs] in HA. rewrite (ev_wrapped _ _ i vs e H H1 (seg_at _ sg1 _ _ _ Nsg) H2), (EV_err i H) in HA. subst x. cbn [fine].
    unfold set_mem. cbn [g_mem g_chans g_ctxs g_tickers g_gos]. unfold poke. cbn [fst snd nth_error Nat.add]. rewrite Nsg. cbn [upd].
    destruct (rs_pos H) as [Hp _]. rewrite Hp. cbn [upd]. destruct (typed_set_err vs (tname i ++ ": " ++ e) H H1) as [Ht Hc].
    stay. reimpl i. rewrite <- Hc. now apply ia_block.
  - (* ia_block *) subst x. cbn [fine]. stay. reimpl i. now apply ia_deliver.
  - (* ia_deliver *) unfold impl_deliver in HA. destruct (two ctxm) as [Ec|Ec]; rewrite Ec in HA; cbn [exec_stmt branches ready_offer g_mem g_ctxs] in HA.
    + rewrite (ev_record _ _ i vs _ (seg_at _ sg1 _ _ _ Nsg) H), (ev_ch _ _ (EV i) _ _ H0), (ev_ctx_done _ _ (EV i) _ _ Ec H0) in HA.
      * cbn [is_chan] in HA. subst x. cbn [fine]. stay. reimpl i. now apply ia_parked.
      * rewrite (EV_param i "ctx" (ctx_in Ec)). now apply find_ctx.
      * rewrite EV_id by (cbn; tauto). exact find_ch.
    + rewrite (ev_record _ _ i vs _ (seg_at _ sg1 _ _ _ Nsg) H), (ev_ch _ _ (EV i) _ _ H0) in HA by (rewrite EV_id by (cbn; tauto); exact find_ch).
      cbn [is_chan] in HA. subst x. cbn [fine]. exists i, vs. repeat split; auto; apply H.
  - subst x. exact I.
  - (* ia_end *) destruct k as [|k]; cbn [repeat] in HA; subst x; cbn [fine].
    + stay. reimpl i. apply ia_ended.
    + stay. reimpl i. apply ia_end.
  - subst x. exact I.
Qed.


(** ** Communications *)
Notation comm := (at_comm m tname ctx_text (result_locs m)).
Lemma launcher_fine' : forall s l, matches s l -> fine 1 s l (adv 1 s).
Proof. exact launcher_fine. Qed.

Lemma outside : forall s t, length (g_gos s) <= t -> adv t s = Waits.
Proof. intros s t H. unfold advance. now rewrite (proj2 (nth_error_None _ _) H). Qed.
Lemma all_fine : forall s l t, matches s l -> fine t s l (adv t s).
Proof.
  intros s l t H. destruct t as [|[|i]]; [now apply main_fine | now apply launcher_fine |].
  destruct (le_lt_dec (length (g_gos s)) (2 + i)) as [Hl|Hl]; [now rewrite (outside s (S (S i)) Hl) | now apply impl_fine].
Qed.

Lemma comm_main : forall s l bs e k ds, matches s l -> comm s 0 bs e k ds -> nth_error (g_gos s) 0 = Some (Parked bs e k ds).
Proof.
  intros s l bs e k ds H [? ? ? ? P | ? ? ? ? P]; [exact P|]. pose proof (main_fine s l H) as F. rewrite P in F. destruct F as (i & vs & E & _). discriminate.
Qed.
Lemma comm_launcher : forall s l bs e k ds, matches s l -> comm s 1 bs e k ds -> nth_error (g_gos s) 1 = Some (Parked bs e k ds).
Proof.
  intros s l bs e k ds H [? ? ? ? P | ? ? ? ? P]; [exact P|]. pose proof (launcher_fine s l H) as F. rewrite P in F. destruct F as (i & vs & E & _). discriminate.
Qed.
Definition sends (vs : list cval) : list branch := if ctxm then offers vs else [(OSnd (ChanV 0) (record vs), (None, []))].
Lemma comm_impl : forall s l i bs e k ds, matches s l -> comm s (2 + i) bs e k ds ->
  exists vs, typed vs /\ bs = sends vs /\ nth_error (impls l) i = Some (IReady (classify vs)) /\ e = EV i /\ k = [FSeq (EV i) []] /\ ds = [].
Proof.
  intros s l i bs e k ds H [? ? ? ? P | ? ? ? ? P].
  - destruct H as [sg0 sg1 segs g0 g1 gs st Es Hst Hse Hm Hla Hls Hlg Hli Him Hnew]. subst s. cbn [g_gos nth_error Nat.add] in P.
    destruct (Him i ltac:(eapply nth_lt; eauto)) as (sg & g & p & _ & Ng & Np & Hp). rewrite P in Ng. injection Ng as <-.
    inversion Hp as [| | | | | |vs Ht Ec| |]; subst. exists vs. unfold sends. rewrite Ec. repeat split; auto; apply Ht.
  - pose proof (all_fine s l (2 + i) H) as F. rewrite P in F. destruct F as (i' & vs & E & Ec & Ht & Eb & Np & -> & -> & ->).
    injection E as <-. exists vs. unfold sends. rewrite Ec. repeat split; auto; apply Ht.
Qed.

Lemma parked_main : forall s l bs e k ds, matches s l -> nth_error (g_gos s) 0 = Some (Parked bs e k ds) ->
  e = E5 /\ main l = MSelect /\ ctxm = true /\ bs = [(ORecv (ChanV 0), (res_var m, on_result m)); (ORecv (DoneV 1), (None, on_done m))] /\ k = K2 /\ ds = D2
  \/ e = E5 /\ main l = MSelect /\ ctxm = false /\ bs = [(ORecv (ChanV 0), (res_var m, [CReturnStruct "_res"]))] /\ k = [] /\ ds = D1
  \/ exists x, main l = MSend x /\ 0 < n /\ errm = true /\ ctxm = true /\ bs = [(OSnd (ChanV 1) UnitV, (None, [append_err; if_all_failed]))].
Proof.
  intros s l bs e k ds [sg0 sg1 segs g0 g1 gs st Es Hst Hse Hm Hla Hls Hlg Hli Him Hnew] P. subst s. cbn in P. injection P as ->.
  inversion Hm; subst; eauto 12.
Qed.
Lemma parked_launcher : forall s l bs e k ds, matches s l -> nth_error (g_gos s) 1 = Some (Parked bs e k ds) ->
  exists i, launcher l = LWait i /\ S i < n /\ bs = [(ORecv (ChanV 1), (None, [])); (ORecv (ChanV 2), (None, []))] /\ e = EL /\ k = FSeq EL [] :: FSeq EL [] :: kL /\ ds = [].
Proof.
  intros s l bs e k ds [sg0 sg1 segs g0 g1 gs st Es Hst Hse Hm Hla Hls Hlg Hli Him Hnew] P. subst s. cbn in P. injection P as ->.
  inversion Hla; subst; eauto 12.
Qed.

Ltac open_state H := destruct H as [sg0 sg1 segs g0 g1 gs st Es Hst Hse Hm Hla Hls Hlg Hli Him Hnew];
  match goal with l : state V |- _ => destruct l as [mn er nx tk sp pa ca la im] end;
  cbn [main errorsList nexts tick stopped parent cancelled launcher impls] in *; subst.

(** an implementation returns *)
Lemma answer_step : forall s l t i e l' k ds vs, matches s l -> nth_error (g_gos s) t = Some (InCall i e l' k ds) -> typed vs ->
  simulated (to t (FSeq (new_env rs (fresh_locs t (length vs) (g_mem s)) e) l' :: k) ds (set_mem (grow t vs (g_mem s)) s)) l (Answered t i vs).
Proof.
  intros s l t i e l' k ds vs H P Ht. open_state H. destruct t as [|[|j]]; cbn [g_gos nth_error] in P.
  - injection P as ->. inversion Hm.
  - injection P as ->. inversion Hla.
  - assert (Hj : j < length gs) by (eapply nth_lt; eauto). assert (Hj2 : j < length segs) by lia.
    destruct (Him j Hj) as (sg & g & p & Nsg & Ng & Np & Hp). rewrite P in Ng. injection Ng as <-. inversion Hp; subst. clear Hp.
    change (ctx_done (State mn er nx tk sp pa ca la im)) with (pa || ca)%bool in Hm.
    unfold fresh_locs, grow, set_mem. cbn [g_mem g_chans g_ctxs g_tickers g_gos nth_error]. rewrite Nsg. cbn [length].
    rewrite (typed_length vs Ht). fold (EV i). cbn [upd].
    exists [ImplDone i (classify vs)]. eexists. split; [now apply (me_answered i) | split; [apply run_one, s_done; [exact Np|] |]].
    { intros He. exists vs. unfold classify. now rewrite He. }
    destruct (two errm) as [He|He].
    + reimpl i. now apply ia_wrap.
    + assert (classify vs = Good vs) as Hc by (unfold classify; now rewrite He). 
      reimpl i. unfold new_env. fold (EV i). unfold impl_wrap. rewrite He. rewrite Hc. cbn [app wrap_result]. rewrite <- Hc. now apply ia_deliver.
Qed.

(** what is received from an implementation *)
Lemma got_main : forall sg errs tl dn vs e, ctxm = true -> sg = seg zeros (errv errs) tl -> typed vs -> 0 < n -> got_env sg vs e ->
  main_at sg (Run (FSeq e (on_result m) :: K2) D2) (received ctxm (classify vs)) errs dn.
Proof.
  intros sg errs tl dn vs e Hc Hs Ht Hn Hg. destruct (two errm) as [He|He].
  - destruct (error_cases vs He Ht) as [[El Ecl] | (t & El & Ecl)]; rewrite Ecl; cbn [received]; rewrite ?Hc.
    + eapply ma_good; eauto.
    + destruct (proj1 Hg (HasResults_err He)) as (j & -> & Hj). eapply ma_bad; eauto.
  - assert (classify vs = Good vs) as -> by (unfold classify; now rewrite He). unfold on_result. rewrite He. cbn [received].
    assert (D = D2) as <- by (unfold D; now rewrite Hc). fold (leave (Answer vs)). eapply ma_return; eauto.
Qed.
Lemma got_main1 : forall sg errs tl dn vs e, ctxm = false -> sg = seg zeros (errv errs) tl -> typed vs -> got_env sg vs e ->
  main_at sg (Run (FSeq e [CReturnStruct "_res"] :: []) D1) (received ctxm (classify vs)) errs dn.
Proof.
  intros sg errs tl dn vs e Hc Hs Ht Hg. destruct (two errm) as [He|He]; [rewrite (Hcompiles He) in Hc; discriminate|].
  assert (classify vs = Good vs) as -> by (unfold classify; now rewrite He). cbn [received].
  assert (D = D1) as <- by (unfold D; now rewrite Hc). fold (leave (Answer vs)). eapply ma_return; eauto.
Qed.

(** the variables of the caller after binding what was received *)
Definition bound (sg : list cval) (vs : list cval) : list cval := if HasResults m then sg ++ [record vs] else sg.
Definition bound_env (sg : list cval) : cenv := if HasResults m then RES (length sg) else E5.
Lemma bound_seg : forall zs ev tl vs, exists tl', bound (seg zs ev tl) vs = seg zs ev tl'.
Proof. intros zs ev tl vs. unfold bound. destruct (HasResults m); [rewrite seg_grow|]; eauto. Qed.
Lemma bound_got : forall sg vs, got_env (bound sg vs) vs (bound_env sg).
Proof.
  intros sg vs. unfold bound, bound_env. split; intros ->; [|reflexivity]. exists (length sg). split; [reflexivity|].
  rewrite nth_error_app2 by lia. now rewrite Nat.sub_diag.
Qed.
Lemma take_main : forall body vs k ds sg r ch cx tk g0 gs,
  Goroutines.take 0 (res_var m, body) (record vs) E5 k ds (GState (sg :: r) ch cx tk (g0 :: gs)) =
  GState (bound sg vs :: r) ch cx tk (Run (FSeq (bound_env sg) body :: k) ds :: gs).
Proof. intros. unfold Goroutines.take, res_var, bound, bound_env. cbn [fst snd]. destruct (HasResults m); reflexivity. Qed.
Lemma take_none : forall t body v e k ds s, Goroutines.take t (None, body) v e k ds s = set_go t (Run (FSeq e body :: k) ds) s.
Proof. reflexivity. Qed.

Lemma chans_eq : forall s l, matches s l -> g_chans s = chans_of l.
Proof. intros s l H. now destruct H; subst. Qed.
Lemma ctxs_eq : forall s l, matches s l -> g_ctxs s = ctxs_of l.
Proof. intros s l H. now destruct H; subst. Qed.
Lemma in_sends_snd : forall vs c v b0, In (OSnd c v, b0) (sends vs) -> c = ChanV 0 /\ v = record vs /\ b0 = (None, []).
Proof. intros vs c v b0 H. unfold sends, offers in H. destruct ctxm; cbn in H; intuition congruence. Qed.
Lemma in_sends_recv : forall vs c b0, In (ORecv c, b0) (sends vs) -> ctxm = true /\ c = DoneV 1 /\ b0 = (None, []).
Proof. intros vs c b0 H. unfold sends, offers in H. destruct ctxm; cbn in H; intuition congruence. Qed.

Lemma pass_step : forall s l t u c v bs e k ds b0 bs' e' k' ds' b' ch, matches s l -> t <> u -> comm s t bs e k ds -> In (OSnd (ChanV c) v, b0) bs ->
  nth_error (g_gos s) u = Some (Parked bs' e' k' ds') -> In (ORecv (ChanV c), b') bs' -> nth_error (g_chans s) c = Some ch -> ch_cap ch = 0 ->
  simulated (Goroutines.take u b' v e' k' ds' (Goroutines.take t b0 v e k ds s)) l (Passed t u v).
Proof.
  intros s l t u c v bs e k ds b0 bs' e' k' ds' b' ch H Htu Hc Hs Hu Hr Hch Hcap. destruct t as [|[|i]].
  - pose proof (comm_main _ _ _ _ _ _ H Hc) as P. destruct (parked_main _ _ _ _ _ _ H P) as [(_ & _ & _ & -> & _) | [(_ & _ & _ & -> & _) | (x & _ & Hn & _ & _ & ->)]].
    + cbn in Hs. intuition discriminate.
    + cbn in Hs. intuition discriminate.
    + destruct Hs as [Hs | []]. injection Hs as <- <- <-. rewrite (chans_eq _ _ H) in Hch. cbn in Hch. injection Hch as <-. cbn in Hcap. lia.
  - pose proof (comm_launcher _ _ _ _ _ _ H Hc) as P. destruct (parked_launcher _ _ _ _ _ _ H P) as (i & _ & _ & -> & _). cbn in Hs. intuition discriminate.
  - destruct (comm_impl _ _ _ _ _ _ _ H Hc) as (vs & Ht & -> & Np & -> & -> & ->). apply in_sends_snd in Hs as (E & -> & ->). injection E as ->.
    destruct u as [|[|j]].
    + pose proof (parked_main _ _ _ _ _ _ H Hu) as PM. rewrite take_none. open_state H.
      assert (Hi : i < length gs).
      { destruct (le_lt_dec (length gs) i) as [Hle|]; [|assumption]. rewrite Hnew in Np; [discriminate|]. split; [exact Hle|]. rewrite <- Hli. eapply nth_lt; eauto. }
      assert (Hi2 : i < length segs) by lia.
      change (ctx_done (State mn er nx tk sp pa ca la im)) with (pa || ca)%bool in Hm.
      rewrite set_go2. cbn in Hu. injection Hu as ->.
      assert (Hb : b' = (res_var m, if ctxm then on_result m else [CReturnStruct "_res"]) /\ e' = E5 /\ mn = MSelect).
      { destruct PM as [(-> & Hmn & -> & -> & _) | [(-> & Hmn & -> & -> & _) | (x & _ & _ & _ & _ & ->)]]; cbn in Hr; intuition congruence. }
      destruct Hb as (-> & -> & ->). rewrite take_main.
      exists [Recv i (classify vs)]. eexists. split; [now apply (me_passed i) | split; [apply run_one, s_recv; [reflexivity | exact Np] |]].
      assert (Hm' : main_at (bound sg0 vs) (Run (FSeq (bound_env sg0) (if ctxm then on_result m else [CReturnStruct "_res"]) :: k') ds') (received ctxm (classify vs)) er (pa || ca)).
      { inversion Hm as [| | | |errs dn tl0 Ec Hsg | errs dn tl0 Ec Hsg | | | | | | | | | | | | | |]; subst; pose proof (bound_seg zeros (errv er) tl0 vs) as (tl' & Htl); rewrite Ec at 1.
        - eapply got_main; eauto; [lia | apply bound_got].
        - eapply got_main1; eauto. apply bound_got. }
      destruct (Him i Hi) as (sgi & gi & pi & Nsg & _).
      eapply rematch with (mn := received ctxm (classify vs)) (im := im) (i := i) (p' := IExited) (g' := Run (repeat (FSeq (EV i) []) 2) []);
        [exact Hst | discriminate | exact Hm' | exact Hla | exact Hls | exact Hlg | exact Hli | exact Him | exact Hnew | exact Hi | apply ia_end | ..]; 
        cbn [main errorsList nexts tick stopped parent cancelled launcher impls set_main set_launcher set_impl].
      * exact Nsg.
      * now apply nth_upd_same.
      * apply nth_upd_same. lia.
      * reflexivity.
      * intros; apply nth_upd_other; congruence.
      * intros; apply nth_upd_other; congruence.
      * reflexivity.
      * now rewrite upd_length.
      * now rewrite upd_length.
    + destruct (parked_launcher _ _ _ _ _ _ H Hu) as (j & _ & _ & -> & _). cbn in Hr. intuition discriminate.
    + destruct (comm_impl _ _ j _ _ _ _ H (at_parked _ _ _ _ _ _ _ _ _ _ Hu)) as (vs' & _ & -> & _). apply in_sends_recv in Hr as (_ & E & _). discriminate.
Qed.

Lemma repeat_more : forall {A} (x : A) k, repeat x k ++ [x] = repeat x (S k).
Proof. intros A x k. induction k as [|k IH]; [reflexivity|]. cbn. now rewrite IH. Qed.

Lemma put_step : forall s l t c v bs e k ds b0 ch, matches s l -> comm s t bs e k ds -> In (OSnd (ChanV c) v, b0) bs ->
  nth_error (g_chans s) c = Some ch -> length (ch_buf ch) < ch_cap ch ->
  simulated (Goroutines.take t b0 v e k ds (set_chans (upd c (Chan (ch_cap ch) (ch_buf ch ++ [v])) (g_chans s)) s)) l (Put t c).
Proof.
  intros s l t c v bs e k ds b0 ch H Hc Hs Hch Hcap. destruct t as [|[|i]].
  - pose proof (comm_main _ _ _ _ _ _ H Hc) as P. destruct (parked_main _ _ _ _ _ _ H P) as [(_ & _ & _ & -> & _) | [(_ & _ & _ & -> & _) | (x & Hx & Hn & _ & _ & ->)]].
    + cbn in Hs. intuition discriminate.
    + cbn in Hs. intuition discriminate.
    + destruct Hs as [Hs | []]. injection Hs as <- <- <-. rewrite (chans_eq _ _ H) in *. cbn in Hch. injection Hch as <-. cbn [ch_buf ch_cap] in *.
      rewrite repeat_length in Hcap. rewrite take_none, repeat_more. open_state H. cbn in P. injection P as ->.
      go1; [apply (s_send _ _ _ _ _ _ x); [reflexivity | exact Hcap]|].
      eapply Matches with (sg0 := sg0) (sg1 := sg1) (segs := segs) (g1 := g1) (gs := gs) (st := st); [reflexivity | exact Hst | discriminate | | exact Hla | exact Hls | exact Hlg | exact Hli | exact Him | exact Hnew].
      cbn [main errorsList nexts tick stopped parent cancelled launcher impls]. inversion Hm; subst. eapply ma_append; eauto.
  - pose proof (comm_launcher _ _ _ _ _ _ H Hc) as P. destruct (parked_launcher _ _ _ _ _ _ H P) as (i & _ & _ & -> & _). cbn in Hs. intuition discriminate.
  - destruct (comm_impl _ _ _ _ _ _ _ H Hc) as (vs & Ht & -> & Np & -> & -> & ->). apply in_sends_snd in Hs as (E & -> & ->). injection E as ->.
    rewrite (chans_eq _ _ H) in Hch. cbn in Hch. injection Hch as <-. cbn in Hcap. lia.
Qed.

Lemma get_step : forall s l t c v rest bs e k ds b0 ch, matches s l -> comm s t bs e k ds -> In (ORecv (ChanV c), b0) bs ->
  nth_error (g_chans s) c = Some ch -> ch_buf ch = v :: rest ->
  simulated (Goroutines.take t b0 v e k ds (set_chans (upd c (Chan (ch_cap ch) rest) (g_chans s)) s)) l (Got t c).
Proof.
  intros s l t c v rest bs e k ds b0 ch H Hc Hs Hch Hbuf. destruct t as [|[|i]].
  - pose proof (comm_main _ _ _ _ _ _ H Hc) as P. rewrite (chans_eq _ _ H) in Hch.
    assert (c = 0) as ->.
    { destruct (parked_main _ _ _ _ _ _ H P) as [(_ & _ & _ & -> & _) | [(_ & _ & _ & -> & _) | (x & Hx & Hn & _ & _ & ->)]]; cbn in Hs; intuition congruence. }
    cbn in Hch. injection Hch as <-. discriminate.
  - pose proof (comm_launcher _ _ _ _ _ _ H Hc) as P. destruct (parked_launcher _ _ _ _ _ _ H P) as (i & Hi & Hn & -> & -> & -> & ->).
    rewrite (chans_eq _ _ H) in *. open_state H. cbn in P. injection P as ->.
    assert (Hla' : launcher_at sg1 (Run (repeat (FSeq EL []) 3 ++ kL) []) (LAt (S i)) (length gs)).
    { inversion Hla; subst. apply la_post. lia. }
    destruct Hs as [Hs | [Hs | []]]; injection Hs as <- <-; cbn in Hch; injection Hch as <-; cbn [ch_buf ch_cap] in *.
    + destruct nx as [|nx]; [discriminate|]. cbn in Hbuf. injection Hbuf as <- <-. rewrite take_none.
      go1; [apply (s_take_next _ _ _ _ _ _ i nx); reflexivity|].
      eapply Matches with (sg0 := sg0) (sg1 := sg1) (segs := segs) (g0 := g0) (gs := gs) (st := st); [reflexivity | exact Hst | exact Hse | exact Hm | exact Hla' | exact Hls | exact Hlg | exact Hli | exact Him | exact Hnew].
    + destruct tk; [|discriminate]. injection Hbuf as <- <-. rewrite take_none.
      go1; [apply (s_take_tick _ _ _ _ _ _ i); reflexivity|].
      eapply Matches with (sg0 := sg0) (sg1 := sg1) (segs := segs) (g0 := g0) (gs := gs) (st := st); [reflexivity | exact Hst | exact Hse | exact Hm | exact Hla' | exact Hls | exact Hlg | exact Hli | exact Him | exact Hnew].
  - destruct (comm_impl _ _ _ _ _ _ _ H Hc) as (vs & Ht & -> & Np & -> & -> & ->). apply in_sends_recv in Hs as (_ & E & _). discriminate.
Qed.

(** an implementation gives up *)
Lemma drop_step : forall s l i r, matches s l -> nth_error (impls l) i = Some (IReady r) -> lstep l (Drop i) (set_impl i IExited l) ->
  forall k ev, means ev [Drop i] ->
  simulated (set_go (2 + i) (Run (repeat (FSeq (EV i) []) k) []) s) l ev.
Proof.
  intros s l i r H Np Hstep k ev Hev. open_state H.
  assert (Hi : i < length gs).
  { destruct (le_lt_dec (length gs) i) as [Hle|]; [|assumption]. rewrite Hnew in Np; [discriminate|]. split; [exact Hle|]. rewrite <- Hli. eapply nth_lt; eauto. }
  assert (Hi2 : i < length segs) by lia. destruct (Him i Hi) as (sgi & gi & pi & Nsg & _).
  change (ctx_done (State mn er nx tk sp pa ca la im)) with (pa || ca)%bool in Hm.
  exists [Drop i]. eexists. split; [exact Hev | split; [apply run_one, Hstep|]]. reimpl i. apply ia_end.
Qed.

Lemma done_step : forall s l t i bs e k ds b0, matches s l -> comm s t bs e k ds -> In (ORecv (DoneV i), b0) bs -> is_done (g_ctxs s) i = true ->
  simulated (Goroutines.take t b0 UnitV e k ds s) l (SawDone t i).
Proof.
  intros s l t i bs e k ds b0 H Hc Hs Hd. destruct t as [|[|j]].
  - pose proof (comm_main _ _ _ _ _ _ H Hc) as P. destruct (parked_main _ _ _ _ _ _ H P) as [(-> & Hx & Ec & -> & -> & ->) | [(_ & _ & _ & -> & _) | (x & Hx & Hn & _ & _ & ->)]].
    + destruct Hs as [Hs | [Hs | []]]; [discriminate|]. injection Hs as <- <-. rewrite (ctxs_eq _ _ H) in Hd. unfold ctxs_of in Hd. rewrite Ec in Hd. cbn in Hd.
      rewrite take_none. open_state H. cbn in P. injection P as ->. 
      exists [Caller]. eexists. split; [apply me_seen | split; [apply run_one, s_main_ctx; [reflexivity | exact Ec | exact Hd]|]].
      eapply Matches with (sg0 := sg0) (sg1 := sg1) (segs := segs) (g1 := g1) (gs := gs) (st := st); [reflexivity | exact Hst | discriminate | | exact Hla | exact Hls | exact Hlg | exact Hli | exact Him | exact Hnew].
      cbn [main errorsList nexts tick stopped parent cancelled launcher impls set_main]. unfold ctx_done, set_main. cbn [parent cancelled]. rewrite Hd.
      inversion Hm; subst. eapply ma_done; eauto.
    + cbn in Hs. intuition discriminate.
    + cbn in Hs. intuition discriminate.
  - pose proof (comm_launcher _ _ _ _ _ _ H Hc) as P. destruct (parked_launcher _ _ _ _ _ _ H P) as (j & _ & _ & -> & _). cbn in Hs. intuition discriminate.
  - destruct (comm_impl _ _ _ _ _ _ _ H Hc) as (vs & Ht & -> & Np & -> & -> & ->). apply in_sends_recv in Hs as (Ec & E & ->). injection E as ->.
    rewrite take_none. rewrite (ctxs_eq _ _ H) in Hd. unfold ctxs_of in Hd. rewrite Ec in Hd. cbn in Hd.
    apply (drop_step s l j (classify vs) H Np (s_drop_ctx _ _ _ _ _ _ _ _ Np Ec Hd) 2). constructor.
Qed.

Lemma default_step : forall s l t bs e k ds, matches s l -> adv t s = Polls bs e k ds ->
  (forall o b, In (o, b) bs -> ~ buffered s o /\ ~ partner s t o) -> simulated (to t k ds s) l (Default t).
Proof.
  intros s l t bs e k ds H P Hn. pose proof (all_fine s l t H) as F. rewrite P in F. destruct F as (i & vs & -> & Ec & Ht & -> & Np & -> & -> & ->).
  apply (drop_step s l i (classify vs) H Np) with (k := 1); [|constructor]. eapply s_drop_default; [exact Np | exact Ec|].
  intros Hmain. destruct (Hn _ _ (or_introl eq_refl)) as [_ Hp]. apply Hp. exists 0. split; [discriminate|].
  open_state H. inversion Hm; subst; try congruence.
  - exists [(ORecv (ChanV 0), (res_var m, [CReturnStruct "_res"]))]. repeat eexists. now left.
  - unfold leave in *. match goal with H : (if _ then _ else _) = MSelect |- _ => rewrite Ec in H; discriminate end.
  - match goal with H : leaving _ _ MSelect |- _ => destruct H as [(_ & _ & HH) | [_ HH]]; discriminate end.
Qed.

Lemma tick_step : forall s l c ch, matches s l -> In (c, false) (g_tickers s) -> nth_error (g_chans s) c = Some ch ->
  simulated (set_chans (upd c (Chan (ch_cap ch) (if length (ch_buf ch) <? ch_cap ch then ch_buf ch ++ [UnitV] else ch_buf ch)) (g_chans s)) s) l (Ticked c).
Proof.
  intros s l c ch H Hin Hch. rewrite (chans_eq _ _ H) in *. open_state H. cbn [g_tickers] in Hin. destruct Hin as [E | []]. injection E as <- ->.
  cbn in Hch. injection Hch as <-. go1; [apply s_tick; destruct sp; [discriminate Hst; reflexivity | reflexivity]|].
  eapply Matches with (sg0 := sg0) (sg1 := sg1) (segs := segs) (g0 := g0) (g1 := g1) (gs := gs) (st := false); [ | exact Hst | exact Hse | exact Hm | exact Hla | exact Hls | exact Hlg | exact Hli | exact Him | exact Hnew].
  destruct tk; reflexivity.
Qed.

Lemma caller_step : forall s l, matches s l -> is_done (g_ctxs s) 0 = false -> 0 < length (g_ctxs s) ->
  simulated (set_ctxs (cancel 0 (g_ctxs s)) s) l CallerDone.
Proof.
  intros s l H Hd Hl. rewrite (ctxs_eq _ _ H) in *. unfold ctxs_of in Hd, Hl. destruct (two ctxm) as [Ec|Ec]; rewrite Ec in Hd, Hl; cbn in Hd, Hl; [|lia].
  open_state H. go1; [apply s_ctx; [exact Ec | reflexivity]|].
  eapply Matches with (sg0 := sg0) (sg1 := sg1) (segs := segs) (g0 := g0) (g1 := g1) (gs := gs) (st := st); [ | exact Hst | exact Hse | | exact Hla | exact Hls | exact Hlg | exact Hli | exact Him | exact Hnew].
  - unfold ctxs_of. rewrite Ec. cbn. destruct ca; reflexivity.
  - cbn [main errorsList ctx_done parent cancelled]. eapply main_mono; [exact Hm | reflexivity].
Qed.

(** every step of the machine is a step of the transition system, or none *)
Theorem step_simulated : forall s l ev s', matches s l -> gostep s ev s' -> simulated s' l ev.
Proof.
  intros s l ev s' H Hs. destruct Hs.
  - pose proof (all_fine s l t H) as F. now rewrite H0 in F.
  - pose proof (all_fine s l t H) as F. now rewrite H0 in F.
  - pose proof (all_fine s l t H) as F. now rewrite H0 in F.
  - eapply answer_step; eauto.
  - eapply pass_step; eauto.
  - pose proof (all_fine s l u H) as F. rewrite H1 in F. destruct F as (i & vs & _ & _ & _ & -> & _). cbn in H2. intuition discriminate.
  - eapply put_step; eauto.
  - eapply get_step; eauto.
  - eapply done_step; eauto.
  - eapply default_step; eauto.
  - pose proof (all_fine s l t H) as F. now rewrite H0 in F.
  - pose proof (all_fine s l t H) as F. now rewrite H0 in F.
  - pose proof (all_fine s l t H) as F. now rewrite H0 in F.
  - eapply tick_step; eauto.
  - eapply caller_step; eauto.
Qed.

(** ** The setup, before the launcher is created *)
Definition setup6 : list cstmt :=
  (if ctxm then [CWithCancel "ctx" "_cancelFunc"; CDefer (x_ "_cancelFunc")] else []) ++ CGo [] (launch_body typ m) [] :: wait_body m.
Definition setup4 : list cstmt := CTicker "_ticker" (XSel (x_ "_d") "interval") :: CDefer (XSel (x_ "_ticker") "Stop") :: setup6.
Definition setup2 : list cstmt :=
  CMake "_next" t_unit n_impls :: (if errm then [CVar "_errorsList" (cpunct "[]" ++ cword "string")] else []) ++ setup4.
Lemma setup_eq : fallback_body typ m = CType "_resultStruct" :: CMake "_ch" (cword "_resultStruct") (XNum "0") :: setup2.
Proof. unfold fallback_body, fallback_setup, setup2, setup4, setup6. rewrite <- !app_assoc. reflexivity. Qed.

(** the variables so far *)
Definition seg0 (a tl : list cval) : list cval := recv :: zeros ++ a ++ tl.
Definition errs0 : list cval := if errm then [NilV] else [].
Definition alone (sg : list cval) (ch : list chan) (cx : list context) (tk : list (nat * bool)) (e : cenv) (l : list cstmt) (ds : list deferred) : gstate :=
  GState [sg] ch cx tk [Run [FSeq e l] ds].
Definition start_ctxs (pa : bool) : list context := if ctxm then [Ctx None pa] else [].
Definition tick_buf (tk : bool) : list cval := if tk then [UnitV] else [].

Inductive setting (pa tk : bool) : gstate -> Prop :=
| su_type : tk = false -> setting pa tk (alone (seg0 args []) [] (start_ctxs pa) [] (call_env m) (fallback_body typ m) [])
| su_ch : tk = false -> setting pa tk (alone (seg0 args []) [] (start_ctxs pa) [] (call_env m) (CMake "_ch" (cword "_resultStruct") (XNum "0") :: setup2) [])
| su_next : tk = false -> setting pa tk (alone (seg0 args [ChanV 0]) [Chan 0 []] (start_ctxs pa) [] E1 setup2 [])
| su_errs : tk = false -> errm = true -> setting pa tk (alone (seg0 args [ChanV 0; ChanV 1]) [Chan 0 []; Chan n []] (start_ctxs pa) [] E2 (CVar "_errorsList" (cpunct "[]" ++ cword "string") :: setup4) [])
| su_ticker : tk = false -> setting pa tk (alone (seg0 args ([ChanV 0; ChanV 1] ++ errs0)) [Chan 0 []; Chan n []] (start_ctxs pa) [] E3 setup4 [])
| su_defer : setting pa tk (alone (seg0 args ([ChanV 0; ChanV 1] ++ errs0 ++ [TickerV 2])) [Chan 0 []; Chan n []; Chan 1 (tick_buf tk)] (start_ctxs pa) [(2, false)] E4
    (CDefer (XSel (x_ "_ticker") "Stop") :: setup6) [])
| su_ctx : ctxm = true -> setting pa tk (alone (seg0 args ([ChanV 0; ChanV 1] ++ errs0 ++ [TickerV 2])) [Chan 0 []; Chan n []; Chan 1 (tick_buf tk)] (start_ctxs pa) [(2, false)] E4 setup6 D1)
| su_defer2 : ctxm = true -> setting pa tk (alone (seg zeros NilV []) [Chan 0 []; Chan n []; Chan 1 (tick_buf tk)] [Ctx None pa; Ctx (Some 0) pa] [(2, false)] E5
    (CDefer (x_ "_cancelFunc") :: CGo [] (launch_body typ m) [] :: wait_body m) D1)
| su_go : setting pa tk (alone (seg zeros NilV []) [Chan 0 []; Chan n []; Chan 1 (tick_buf tk)] (if ctxm then [Ctx None pa; Ctx (Some 0) pa] else []) [(2, false)] E5
    (CGo [] (launch_body typ m) [] :: wait_body m) D).

Definition start_state (pa tk : bool) : state V := State MStart [] 0 tk false pa false (LAt 0) (repeat INew n).

Lemma seg0_len : forall tl, length (seg0 args tl) = S K + length tl.
Proof. intros. unfold seg0. cbn [length]. rewrite !app_length, Hzeros, Hargs. lia. Qed.
Lemma seg0_grow : forall a tl v, seg0 a tl ++ [v] = seg0 a (tl ++ [v]).
Proof. intros. unfold seg0. cbn [app]. now rewrite <- !app_assoc. Qed.
Lemma declare0 : forall x v e l k ds sg ch cx tk g,
  declare 0 x v e l k ds (GState [sg] ch cx tk [g]) = GState [sg ++ [v]] ch cx tk [Run (FSeq ((x, (0, length sg)) :: e) l :: k) ds].
Proof. reflexivity. Qed.

Lemma is_done_start : forall pa, ctxm = true -> is_done (start_ctxs pa) 0 = pa.
Proof. intros pa H. unfold start_ctxs. now rewrite H. Qed.
Lemma errs0_length : length errs0 = b.
Proof. unfold errs0. now destruct errm. Qed.
Lemma n_impls_early : forall e mem tl ctxs, where_is "_d" e = Some (0, 0) -> where_is "len" e = None -> mem = [seg0 args tl] ->
  ceval m tname ctx_text mem ctxs e n_impls = Some (IntV (Z.of_nat n)).
Proof.
  intros e mem tl ctxs Hd Hl ->. unfold n_impls, x_. cbn -[where_is peek apply select]. rewrite Hd, Hl. unfold seg0. cbn. now rewrite map_length, seq_length.
Qed.
Lemma poke_ctx : forall tl, ctxm = true -> poke (0, S (length rs)) (CtxV 1) [seg0 args tl] = [seg0 args1 tl].
Proof.
  intros tl Hc. unfold poke. cbn [fst snd nth_error upd seg0]. unfold seg0. cbn [upd]. do 2 f_equal.
  destruct (Hctx Hc) as (r & Er). rewrite <- Hzeros. replace (length zeros) with (length zeros + 0) by lia. rewrite upd_app2. f_equal.
  unfold args1. rewrite Hc, Er. reflexivity.
Qed.

Lemma setting_adv : forall pa tk s, setting pa tk s ->
  (exists s', adv 0 s = Local s' /\ setting pa tk s') \/
  (exists g vs body, adv 0 s = Spawn g vs body /\
    matches (GState (g_mem s ++ [vs]) (g_chans s) (g_ctxs s) (g_tickers s) (upd 0 g (g_gos s) ++ [body])) (start_state pa tk)).
Proof.
  intros pa tk s [Htk | Htk | Htk | Htk He | Htk | | Hc | Hc | ]; unfold advance, alone; cbn [g_gos nth_error].
  - left. rewrite setup_eq. eexists. split; [reflexivity|]. now apply su_ch.
  - left. unfold setup2 at 1. cbn [exec_stmt g_mem g_ctxs ceval String.eqb Ascii.eqb Bool.eqb]. unfold unbound. rewrite find_call_env_id by (cbn; tauto).
    cbn [Z.leb Z.compare andb]. eexists. split; [reflexivity|]. unfold set_chans. cbn [g_mem g_chans g_ctxs g_tickers g_gos app length Z.to_nat].
    rewrite declare0, seg0_len, seg0_grow. cbn [length app]. rewrite Nat.add_0_r. now apply su_next.
  - left. unfold setup2. cbn [exec_stmt g_mem g_ctxs].
    rewrite (n_impls_early E1 _ [ChanV 0]) by (reflexivity || (unfold E1; cbn [where_is String.eqb Ascii.eqb Bool.eqb]; apply find_call_env_id; cbn; tauto)).
    unfold unbound. replace (where_is "make" E1) with (@None cloc) by (symmetry; unfold E1; cbn [where_is String.eqb Ascii.eqb Bool.eqb]; apply find_call_env_id; cbn; tauto).
    replace (Z.leb 0 (Z.of_nat n)) with true by (symmetry; apply Z.leb_le; lia). cbn [andb]. eexists. split; [reflexivity|].
    unfold set_chans. cbn [g_mem g_chans g_ctxs g_tickers g_gos app length]. rewrite declare0, seg0_len, seg0_grow, Nat2Z.id. cbn [length app]. rewrite Nat.add_1_r. fold E2.
    destruct (two errm) as [He|He]; rewrite He; cbn [app].
    + now apply su_errs.
    + pose proof (su_ticker pa tk Htk) as P. unfold E3, errs0 in P. rewrite He in P. exact P.
  - left. cbn [exec_stmt]. eexists. split; [reflexivity|]. rewrite declare0, seg0_len, seg0_grow. cbn [length app]. rewrite Nat.add_comm. cbn [Nat.add].
    pose proof (su_ticker pa tk Htk) as P. unfold E3, errs0, alone in P. rewrite He in P. exact P.
  - left. unfold setup4. cbn [exec_stmt g_mem g_ctxs].
    assert (where_is "time" E3 = None) as Hu by (unfold E3, E2, E1; destruct errm; cbn [where_is String.eqb Ascii.eqb Bool.eqb]; apply find_call_env_id; cbn; tauto).
    assert (ceval m tname ctx_text [seg0 args ([ChanV 0; ChanV 1] ++ errs0)] (start_ctxs pa) E3 (XSel (x_ "_d") "interval") = Some (IntV interval)) as ->.
    { unfold x_. cbn [ceval]. replace (where_is "_d" E3) with (Some (0, 0)) by (unfold E3, E2, E1; destruct errm; reflexivity). reflexivity. }
    unfold unbound. rewrite Hu. replace (Z.ltb 0 interval) with true by (symmetry; now apply Z.ltb_lt). cbn [andb]. eexists. split; [reflexivity|].
    unfold set_chans, set_tickers. cbn [g_mem g_chans g_ctxs g_tickers g_gos app length]. rewrite declare0, seg0_len, seg0_grow. cbn [length app].
    rewrite errs0_length, Htk. replace (S K + S (S b)) with (3 + K + b) by lia. fold E4. apply su_defer.
  - left. cbn [exec_stmt g_mem g_ctxs].
    assert (ceval m tname ctx_text [seg0 args ([ChanV 0; ChanV 1] ++ errs0 ++ [TickerV 2])] (start_ctxs pa) E4 (x_ "_ticker") = Some (TickerV 2)) as ->.
    { unfold x_, E4. cbn [ceval where_is String.eqb Ascii.eqb Bool.eqb]. unfold peek. cbn [fst snd nth_error]. 
      assert (length (seg0 args ([ChanV 0; ChanV 1] ++ errs0)) = 3 + K + b) as Hl by (rewrite seg0_len; cbn [app length]; rewrite errs0_length; lia).
      rewrite app_assoc. replace (3 + K + b) with (length (seg0 args ([ChanV 0; ChanV 1] ++ errs0))) by lia.
      rewrite <- seg0_grow. rewrite nth_error_app2 by lia. now rewrite Nat.sub_diag. }
    cbn [String.eqb Ascii.eqb Bool.eqb]. eexists. split; [reflexivity|].
    destruct (two ctxm) as [Hc|Hc].
    + now apply su_ctx.
    + pose proof (su_go pa tk) as P. unfold setup6. rewrite Hc in *. unfold D, seg, E5, args1, to, set_go in *. rewrite Hc in P. unfold start_ctxs. rewrite Hc. exact P.
  - left. unfold setup6. rewrite Hc. cbn [app exec_stmt g_mem g_ctxs].
    assert (where_is "ctx" E4 = Some (0, S (length rs))) as Hw.
    { rewrite <- (find_ctx Hc). unfold E5. rewrite Hc. reflexivity. }
    rewrite Hw. unfold x_. cbn [ceval]. rewrite Hw.
    assert (peek [seg0 args (ChanV 0 :: ChanV 1 :: errs0 ++ [TickerV 2])] (0, S (length rs)) = Some (CtxV 0)) as ->.
    { unfold peek, seg0. cbn [fst snd nth_error]. destruct (Hctx Hc) as (r & ->). rewrite nth_error_app2 by lia. rewrite Hzeros, Nat.sub_diag. reflexivity. }
    assert (where_is "context" E4 = None) as Hu.
    { pose proof (find_pkg "context" ltac:(cbn; tauto)) as Hp. unfold E5 in Hp. rewrite Hc in Hp. exact Hp. }
    unfold unbound. rewrite Hu. eexists. split; [reflexivity|]. unfold set_mem, set_ctxs. cbn [g_mem g_chans g_ctxs g_tickers g_gos]. replace (length (start_ctxs pa)) with 1 by (unfold start_ctxs; now rewrite Hc). rewrite (poke_ctx _ Hc), declare0, (is_done_start pa Hc).
    replace (length (seg0 args1 (ChanV 0 :: ChanV 1 :: errs0 ++ [TickerV 2]))) with (4 + K + b).
    2:{ unfold seg0. cbn [length]. rewrite !app_length, Hzeros, args1_length. cbn [length]. rewrite app_length, errs0_length. cbn [length]. lia. }
    pose proof (su_defer2 pa tk Hc) as P. unfold alone, E5 in P. rewrite Hc in P. unfold start_ctxs. rewrite Hc. 
    replace (seg0 args1 (ChanV 0 :: ChanV 1 :: errs0 ++ [TickerV 2]) ++ [CancelV 1]) with (seg zeros NilV []); [exact P|].
    unfold seg, seg0. rewrite Hc. cbn [app]. f_equal. rewrite <- !app_assoc. f_equal. f_equal. cbn [app]. do 2 f_equal. rewrite <- !app_assoc. reflexivity.
  - left. cbn [exec_stmt g_mem g_ctxs].
    assert (ceval m tname ctx_text [seg zeros NilV []] [Ctx None pa; Ctx (Some 0) pa] E5 (x_ "_cancelFunc") = Some (CancelV 1)) as ->.
    { unfold x_. cbn [ceval]. unfold E5. rewrite Hc. cbn [where_is String.eqb Ascii.eqb Bool.eqb]. unfold peek. cbn [fst snd nth_error].
      replace (4 + K + b) with (S (K + (3 + b))) by lia. rewrite nth_seg by exact Hzeros. rewrite Hc. now destruct errm. }
    eexists. split; [reflexivity|]. pose proof (su_go pa tk) as P. unfold D in P. rewrite Hc in P. exact P.
  - right. cbn [exec_stmt g_mem g_ctxs cevals length Nat.eqb map seq new_env combine app]. do 3 eexists. split; [reflexivity|].
    cbn [g_mem g_chans g_ctxs g_tickers g_gos upd app].
    eapply Matches with (sg0 := seg zeros NilV []) (sg1 := []) (segs := []) (g0 := Run [FSeq E5 (wait_body m)] D) (gs := []) (st := false).
    + unfold chans_of, ctxs_of, start_state. cbn [nexts tick parent cancelled repeat]. rewrite orb_false_r. reflexivity.
    + discriminate.
    + discriminate.
    + eapply ma_start. reflexivity.
    + apply la_new.
    + reflexivity.
    + cbn. lia.
    + apply repeat_length.
    + cbn. lia.
    + intros i [_ Hi]. cbn [impls start_state]. now apply nth_error_repeat.
Qed.

Definition relates (s : gstate) (l : state V) : Prop :=
  matches s l \/ exists pa tk, l = start_state pa tk /\ setting pa tk s.

Lemma setting_gos : forall pa tk s, setting pa tk s -> exists e l ds, g_gos s = [Run [FSeq e l] ds].
Proof. intros pa tk s H. destruct H; unfold alone; cbn [g_gos]; eauto. Qed.
Lemma setting_waits : forall pa tk s t, setting pa tk s -> 0 < t -> adv t s = Waits.
Proof. intros pa tk s t H Ht. apply outside. destruct (setting_gos _ _ _ H) as (e & l & ds & ->). cbn. lia. Qed.
Lemma setting_tick : forall pa tk s c ch, setting pa tk s -> In (c, false) (g_tickers s) -> nth_error (g_chans s) c = Some ch ->
  setting pa true (set_chans (upd c (Chan (ch_cap ch) (if length (ch_buf ch) <? ch_cap ch then ch_buf ch ++ [UnitV] else ch_buf ch)) (g_chans s)) s) /\ c = 2.
Proof.
  intros pa tk s c ch H Hin Hch. destruct H; unfold alone in *; cbn [g_tickers g_chans] in *; try (destruct Hin; fail).
  all: destruct Hin as [E | []]; injection E as <-; cbn in Hch; injection Hch as <-.
  all: unfold set_chans; cbn [upd g_chans g_mem g_ctxs g_tickers g_gos ch_cap ch_buf]; split; [|reflexivity].
  all: replace (if length (tick_buf tk) <? 1 then tick_buf tk ++ [UnitV] else tick_buf tk) with (tick_buf true) by (destruct tk; reflexivity).
  - apply su_defer.
  - now apply su_ctx.
  - now apply su_defer2.
  - apply su_go.
Qed.
Lemma setting_caller : forall pa tk s, setting pa tk s -> is_done (g_ctxs s) 0 = false -> 0 < length (g_ctxs s) ->
  setting true tk (set_ctxs (cancel 0 (g_ctxs s)) s) /\ pa = false /\ ctxm = true.
Proof.
  intros pa tk s H Hd Hl.
  assert (Hc : ctxm = true).
  { destruct H; try assumption; unfold alone, start_ctxs in Hl; cbn [g_ctxs] in Hl; destruct (two ctxm) as [E|E]; rewrite E in Hl; cbn in Hl; lia || assumption. }
  assert (cancel 0 (start_ctxs pa) = start_ctxs true) as E1' by (unfold start_ctxs; rewrite Hc; cbn; now rewrite orb_true_r).
  assert (cancel 0 [Ctx None pa; Ctx (Some 0) pa] = [Ctx None true; Ctx (Some 0) true]) as E2' by (cbn; destruct pa; reflexivity).
  destruct H; unfold alone, set_ctxs in *; cbn [upd g_chans g_mem g_ctxs g_tickers g_gos] in *; rewrite ?Hc in Hd; rewrite ?Hc, ?E1', ?E2'; rewrite ?is_done_start in Hd by exact Hc; cbn in Hd; (split; [|split; [assumption | reflexivity]]).
  - now apply su_type.
  - now apply su_ch.
  - now apply su_next.
  - now apply su_errs.
  - now apply su_ticker.
  - now apply su_defer.
  - now apply su_ctx.
  - now apply su_defer2.
  - pose proof (su_go true tk) as P. unfold alone in P. rewrite Hc in P. exact P.
Qed.

Theorem related_step : forall s l ev s', relates s l -> gostep s ev s' -> exists ls l', means ev ls /\ run lstep l ls l' /\ relates s' l'.
Proof.
  intros s l ev s' [H | (pa & tk & -> & H)] Hs.
  { destruct (step_simulated _ _ _ _ H Hs) as (ls & l' & A & B' & C). exists ls, l'. repeat split; auto. now left. }
  assert (P : forall t bs e k ds, nth_error (g_gos s) t = Some (Parked bs e k ds) -> False).
  { intros t bs e k ds Hp. destruct (setting_gos _ _ _ H) as (e' & l & ds' & Eg). rewrite Eg in Hp. destruct t as [|[|t]]; discriminate. }
  assert (Q : forall t bs e k ds, adv t s = Polls bs e k ds -> False).
  { intros t bs e k ds Hp. destruct t as [|t]; [|rewrite (setting_waits _ _ _ _ H) in Hp by lia; discriminate].
    destruct (setting_adv _ _ _ H) as [(s1 & A & _) | (g & vs & body & A & _)]; congruence. }
  assert (R : forall t bs e k ds, comm s t bs e k ds -> False) by (intros t bs e k ds [? ? ? ? Hp | ? ? ? ? Hp]; eauto).
  assert (T : forall t x, adv t s = x -> x <> Waits -> t = 0) by (intros t x E Hx; destruct t as [|t]; [reflexivity|]; rewrite (setting_waits _ _ _ _ H) in E by lia; congruence).
  destruct Hs; try (exfalso; eauto; fail).
  - pose proof (T _ _ H0 ltac:(discriminate)) as ->. destruct (setting_adv _ _ _ H) as [(s1 & A & B') | (g & vs & body & A & _)]; [|congruence].
    assert (s1 = s') as -> by congruence. exists [], (start_state pa tk). split; [constructor | split; [constructor|]]. right. eauto.
  - pose proof (T _ _ H0 ltac:(discriminate)) as ->. destruct (setting_adv _ _ _ H) as [(s1 & A & _) | (g' & vs & body' & A & B')]; [congruence|].
    assert (g' = g /\ vs = args0 /\ body' = body) as (-> & -> & ->) by (rewrite A in H0; injection H0; auto).
    destruct (setting_gos _ _ _ H) as (e' & l & ds' & Eg). rewrite Eg. cbn [length]. exists [], (start_state pa tk). split; [constructor | split; [constructor|]]. left. rewrite Eg in B'. exact B'.
  - exfalso. pose proof (T _ _ H0 ltac:(discriminate)) as ->. destruct (setting_adv _ _ _ H) as [(s1 & A & _) | (g' & vs & body' & A & B')]; congruence.
  - exfalso. destruct (setting_gos _ _ _ H) as (e' & l' & ds' & Eg). rewrite Eg in H0. destruct t as [|[|t]]; discriminate.
  - exfalso. pose proof (T _ _ H0 ltac:(discriminate)) as ->. destruct (setting_adv _ _ _ H) as [(s1 & A & _) | (g' & vs & body' & A & B')]; congruence.
  - exfalso. pose proof (T _ _ H0 ltac:(discriminate)) as ->. destruct (setting_adv _ _ _ H) as [(s1 & A & _) | (g' & vs & body' & A & B')]; congruence.
  - exfalso. pose proof (T _ _ H0 ltac:(discriminate)) as ->. destruct (setting_adv _ _ _ H) as [(s1 & A & _) | (g' & vs & body' & A & B')]; congruence.
  - destruct (setting_tick _ _ _ _ _ H H0 H1) as [A ->]. exists [Tick], (start_state pa true). split; [constructor | split; [apply run_one, (s_tick _ _ _ _ _ (start_state pa tk) eq_refl)|]]. right. eauto.
  - destruct (setting_caller _ _ _ H H0 H1) as (A & -> & Hc). exists [CtxDone], (start_state true tk). split; [constructor | split; [apply run_one, (s_ctx _ _ _ _ _ (start_state false tk) Hc eq_refl)|]]. right. eauto.
Qed.

(** the labels of a list of events *)
Inductive meanings : list event -> list (label V) -> Prop :=
| mes_nil : meanings [] []
| mes_snoc ev evs ls ls' : meanings evs ls -> means ev ls' -> meanings (evs ++ [ev]) (ls ++ ls').

Lemma related_run : forall s evs s', run gostep s evs s' -> forall l, relates s l -> exists ls l', meanings evs ls /\ run lstep l ls l' /\ relates s' l'.
Proof.
  intros s evs s' H l Hr. induction H as [| evs s1 ev s2 _ IH Hs].
  - exists [], l. split; [constructor | split; [constructor | exact Hr]].
  - destruct IH as (ls & l1 & A & B' & C). destruct (related_step _ _ _ _ C Hs) as (ls' & l2 & A' & B2 & C').
    exists (ls ++ ls'), l2. split; [now constructor | split; [|exact C']]. eapply run_app; eauto.
Qed.

Theorem fallback_simulated : forall evs s, executes m tname ctx_text (fallback_body typ m) (start_ctxs false) recv zeros args evs s ->
  exists ls l, meanings evs ls /\ run lstep (init n) ls l /\ relates s l.
Proof.
  intros evs s H. apply (related_run _ _ _ H). right. exists false, false. split; [reflexivity|].
  pose proof (su_type false false eq_refl) as P. unfold alone, seg0 in P. rewrite app_nil_r in P. exact P.
Qed.

(** no goroutine ever panics or is stuck in a statement without meaning *)
Theorem never_faults : forall s l t, relates s l -> adv t s <> Fault.
Proof.
  intros s l t [H | (pa & tk & -> & H)] E.
  - pose proof (all_fine s l t H) as F. rewrite E in F. exact F.
  - destruct t as [|t]; [|rewrite (setting_waits _ _ _ _ H) in E by lia; discriminate].
    destruct (setting_adv _ _ _ H) as [(s1 & A & _) | (g & vs & body & A & _)]; congruence.
Qed.

(** what the call returns is the answer of the transition system *)
Theorem returned_answer : forall s l vs, relates s l -> returned m s vs -> exists a, main l = MDone a /\ vs = results_of a.
Proof.
  intros s l vs [H | (pa & tk & -> & H)] [He (sg & Hs & ->)].
  - destruct H as [sg0 sg1 segs g0 g1 gs st Es Hst Hse Hm Hla Hls Hlg Hli Him Hnew]. subst s. cbn in He, Hs. injection He as ->. injection Hs as ->.
    inversion Hm; subst. exists a. split; [congruence|]. unfold seg. cbn [skipn]. 
    match goal with H : length (results_of a) = _ |- _ => unfold cresults in H; rewrite map_length in H; rewrite <- H end.
    rewrite firstn_app, Nat.sub_diag, firstn_all. cbn. now rewrite app_nil_r.
  - destruct (setting_gos _ _ _ H) as (e & l & ds & Eg). rewrite Eg in He. discriminate.
Qed.
End CALL.
