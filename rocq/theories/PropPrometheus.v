(** C48: the prometheus decorator. *)
From Verif Require Import Prometheus PropLog Honest PropNaming.
Open Scope nat_scope.

(** ** Statement *)

(** the observations recorded in the summary [vec]: the labels the observer was made with and the
    value observed; [known] are the observers made so far *)
Fixpoint observations (vec : string) (known : list (nat * list val)) (tr : trace) : list (list val * val) :=
  match tr with
  | [] => []
  | (OCall (VPkg f) labels, ARet [VRef o]) :: tr' =>
      observations vec (if String.eqb f (vec ++ ".WithLabelValues") then (o, labels) :: known else known) tr'
  | (OMeth (VRef o) f [v], ARet _) :: tr' =>
      (if String.eqb f "Observe" then map (fun kl => (snd kl, v)) (filter (fun kl => fst kl =? o) known) else [])
      ++ observations vec known tr'
  | _ :: tr' => observations vec known tr'
  end.

(** [v] is the number of seconds since [t] *)
Definition measured (tr : trace) (t v : val) : Prop :=
  exists d vs, In (OCall (VPkg "time.Since") [t], ARet [VRef d]) tr /\ In (OMeth (VRef d) "Seconds" [], ARet (v :: vs)) tr.

Inductive C48_call (vec : string) (inst : val) (m : method) (b : nat) (args : list val) : trace -> out (list val) -> Prop :=
| C48_observed t pre a post r label v :
    observations vec [] pre = [] ->
    In (OCall (VPkg "time.Now") [], ARet [t]) pre ->
    observations vec [] post = [([inst; VString (m_name m); VString label], v)] ->
    (label = "error" /\ returned_error m a \/ label = "ok" /\ ~ returned_error m a) ->
    measured post t v ->
    base_calls b (m_name m) pre = [] -> base_calls b (m_name m) post = [] ->
    a <> ABlock -> ends a r ->
    C48_call vec inst m b args (pre ++ (OMeth (VRef b) (m_name m) args, a) :: post) r
| C48_hangs pre :
    observations vec [] pre = [] -> base_calls b (m_name m) pre = [] ->
    C48_call vec inst m b args (pre ++ [(OMeth (VRef b) (m_name m) args, ABlock)]) Blk.

(** the outside world: the base has its Go type, the functions of time and the summary
    return what their types say *)
Record prometheus_world (W : gworld) (vec : string) (m : method) (base : nat) : Prop := {
  pw_base : base_typed W m base;
  pw_now : forall tr, exists t, w_ans W tr (OCall (VPkg "time.Now") []) = ARet [t];
  pw_with : forall tr l, exists o, w_ans W tr (OCall (VPkg (vec ++ ".WithLabelValues")) l) = ARet [VRef o] /\ o <> base;
  pw_since : forall tr t, exists d, w_ans W tr (OCall (VPkg "time.Since") [t]) = ARet [VRef d] /\ d <> base;
  pw_seconds : forall tr d, d <> base -> exists v, w_ans W tr (OMeth (VRef d) "Seconds" []) = ARet [v];
  pw_observe : forall tr o v, o <> base -> exists vs, w_ans W tr (OMeth (VRef o) "Observe" [v]) = ARet vs
}.

Lemma vec_now : forall vec x, String.length x < 16 -> String.eqb x (vec ++ ".WithLabelValues") = false.
Proof. intros vec x H. apply String.eqb_neq. intros ->. rewrite slength_app in H. cbn in H. lia. Qed.

Theorem C48_prometheus : forall W m dn typ L base inst zeros args,
  wf_method m -> hygienic m ["time"; "_since"; "result"; summary dn] ->
  length zeros = length (m_results m) -> (m_returnsError m = true -> last zeros VNil = VNil) ->
  length args = length (m_params m) -> prometheus_world W (dn ++ "DurationSummaryVec") m base ->
  let '(r, tr) := run_method W m [] L (prometheus_body dn m) (construct (prometheus_ctor typ) [VRef base; VString inst]) zeros args in
  C48_call (dn ++ "DurationSummaryVec") (VString inst) m base args tr r.
Proof.
  intros W m dn typ L base inst zeros args Hwf Hh Hz Hze Ha [Wb Wn Ww Wi Ws Wo].
  fold (summary dn) in *.
  assert (Hty : prometheus_typed W dn).
  { constructor.
    - intros tr vs E. destruct (Wn tr) as [t E2]. rewrite E in E2. injection E2 as ->. eauto.
    - intros tr l vs E. destruct (Ww tr l) as (o & E2 & _). rewrite E in E2. injection E2 as ->. eauto.
    - intros tr t vs E. destruct (Wi tr t) as (d & E2 & Hd). rewrite E in E2. injection E2 as ->. exists d. split; [reflexivity|].
      intros tr' vs' E'. destruct (Ws tr' d Hd) as [v E3]. rewrite E' in E3. injection E3 as ->. eauto. }
  pose proof (prometheus_meets W m dn typ L base inst zeros args Hwf Hh Hz Ha Wb Hty) as H.
  pose proof (run_method_answered W m [] L (prometheus_body dn m) (construct (prometheus_ctor typ) [VRef base; VString inst]) zeros args) as Hans.
  destruct (run_method _ _ _ _ _ _ _ _) as [r tr]. cbn [snd] in Hans.
  assert (Hin : forall o a, In (o, a) tr -> exists t, w_ans W t o = a) by (intros o a; now apply answered_in with (tr := [])).
  assert (Sb : safe W (prometheus_before args)).
  { apply safe_ask; [intros t; destruct (Wn t) as [? E]; eauto | intros; apply safe_done]. }
  assert (Sa : forall s rs, safe W (prometheus_after dn (VString inst) m s rs)).
  { intros s rs. apply safe_ask; [intros t; destruct (Ww t [VString inst; VString (m_name m); VString (if failed m rs then "error" else "ok")]) as (? & E & _); eauto|].
    intros t vs E. destruct (Ww t [VString inst; VString (m_name m); VString (if failed m rs then "error" else "ok")]) as (o & E2 & Ho).
    rewrite E in E2. injection E2 as ->. cbn [hd].
    apply safe_ask; [intros t'; destruct (Wi t' s) as (? & E3 & _); eauto|].
    intros t' vs E3. destruct (Wi t' s) as (d & E4 & Hd). rewrite E3 in E4. injection E4 as ->. cbn [hd].
    apply safe_ask; [intros t2; destruct (Ws t2 d Hd) as (? & E5); eauto|].
    intros t2 vs E5. destruct (Ws t2 d Hd) as (v & E6). rewrite E5 in E6. injection E6 as ->. cbn [hd].
    apply safe_ask; [intros t3; now apply Wo | intros; apply safe_done]. }
  assert (Hpre : forall t x, (forall o a, In (o, a) t -> exists t', w_ans W t' o = a) -> plays (prometheus_before args) t (Val x) ->
            observations (summary dn) [] t = [] /\ In (OCall (VPkg "time.Now") [], ARet [fst x]) t /\ snd x = args /\ base_calls base (m_name m) t = []).
  { intros t x Hi Hp. unfold prometheus_before in Hp. unplay. destruct (Hi _ _ (or_introl eq_refl)) as [t' E]. destruct (Wn t') as [v E2].
    rewrite E in E2. injection E2 as ->. split; [|split; [now left | split; reflexivity]].
    cbn [observations hd]. destruct v; try reflexivity. }
  destruct H as [t v Hp|t Hp|t x Hp|t x a t2 b r Hp Hne Hpa Hr].
  - destruct (plays_safe W _ _ _ Hp Sb Hin) as [? ?]. discriminate.
  - destruct (plays_safe W _ _ _ Hp Sb Hin) as [? ?]. discriminate.
  - destruct (Hpre t x) as (M & N & -> & B); [intros; apply Hin, in_or_app; now left | exact Hp |]. now apply C48_hangs.
  - destruct (Hpre t x) as (M & N & X & B); [intros; apply Hin, in_or_app; now left | exact Hp |].
    assert (Hi2 : forall o a, In (o, a) t2 -> exists t', w_ans W t' o = a) by (intros o a' Hi; apply Hin, in_or_app; right; now right).
    destruct (plays_safe W _ _ _ Hpa (Sa _ _) Hi2) as [[] ->]. rewrite X.
    unfold prometheus_after in Hpa. unplay.
    destruct (Hi2 _ _ (or_introl eq_refl)) as [t1 E1]. destruct (Ww t1 [VString inst; VString (m_name m); VString (if failed m (results zeros a) then "error" else "ok")]) as (o & E1' & Ho).
    rewrite E1 in E1'. injection E1' as ->.
    destruct (Hi2 _ _ (or_intror (or_introl eq_refl))) as [t2 E2]. destruct (Wi t2 (fst x)) as (d & E2' & Hd). rewrite E2 in E2'. injection E2' as ->.
    destruct (Hi2 _ _ (or_intror (or_intror (or_introl eq_refl)))) as [t3 E3]. cbn [hd] in E3. destruct (Ws t3 d Hd) as (v & E3'). rewrite E3 in E3'. injection E3' as ->.
    cbn [hd] in *.
    eapply (C48_observed _ _ m base _ (fst x) t a _ r (if failed m (results zeros a) then "error" else "ok") v); try assumption.
    + cbn [observations]. rewrite !String.eqb_refl, !vec_now by (cbn; lia). cbn. now rewrite Nat.eqb_refl.
    + pose proof (failed_returned m zeros a Hne Hze) as Hf. destruct (failed m (results zeros a)); [left | right]; split; try reflexivity.
      * now apply Hf.
      * intros E. apply Hf in E. discriminate.
    + exists d, []. cbn. tauto.
    + cbn [base_calls flat_map]. unfold base_calls. cbn. destruct (Nat.eqb_spec d base); [contradiction|]. destruct (Nat.eqb_spec o base); [contradiction|]. reflexivity.
Qed.

(** ** Example: 0 is the base, 11 the observer, 12 the duration *)
Definition ex_prom_world (a : ans) : gworld :=
  GWorld (fun tr o => match o with
    | OMeth (VRef 0) "Do" _ => a
    | OCall (VPkg "time.Now") [] => ARet [VInt 1000]
    | OCall (VPkg "time.Since") _ => ARet [VRef 12]
    | OCall (VPkg "doerDurationSummaryVec.WithLabelValues") _ => ARet [VRef 11]
    | OMeth (VRef _) "Seconds" _ => ARet [VInt 5]
    | OMeth (VRef _) "Observe" _ => ARet []
    | _ => ABlock
    end) (fun _ _ => false).
Definition ex_prom_run (a : ans) : out (list val) * trace :=
  run_method (ex_prom_world a) ex_m [] 0 (prometheus_body "doer" ex_m)
    (construct (prometheus_ctor "pkg.Doer") [VRef 0; VString "i"]) [VString ""; VNil] ex_args.

Example C48_nontrivial :
  wf_method ex_m /\ hygienic ex_m ["time"; "_since"; "result"; summary "doer"] /\
  (forall a, (forall l, a = ARet l -> length l = 2) -> prometheus_world (ex_prom_world a) "doerDurationSummaryVec" ex_m 0).
Proof.
  split; [eapply NewMethod_wf, ex_NewMethod|]. split.
  { intros x Hx Hin. cbn in Hx, Hin. intuition (subst; discriminate). }
  intros a H. constructor.
  - intros tr l vs E. cbn in E. now apply H.
  - intros tr. now exists (VInt 1000).
  - intros tr l. exists 11. now split.
  - intros tr t. exists 12. now split.
  - intros tr d Hd. exists (VInt 5). destruct d; [contradiction | reflexivity].
  - intros tr o v Ho. exists []. destruct o; [contradiction | reflexivity].
Qed.

Example C48_runs :
  (let '(r, tr) := ex_prom_run (ARet [VString "s"; VRef 100]) in
   r = Val [VString "s"; VRef 100] /\
   observations "doerDurationSummaryVec" [] tr = [([VString "i"; VString "Do"; VString "error"], VInt 5)]) /\
  (let '(r, tr) := ex_prom_run (ARet [VString "s"; VNil]) in
   r = Val [VString "s"; VNil] /\
   observations "doerDurationSummaryVec" [] tr = [([VString "i"; VString "Do"; VString "ok"], VInt 5)]) /\
  (let '(r, tr) := ex_prom_run (APan (VInt 1)) in
   r = Pan (VInt 1) /\
   observations "doerDurationSummaryVec" [] tr = [([VString "i"; VString "Do"; VString "ok"], VInt 5)]) /\
  fst (ex_prom_run ABlock) = Blk.
Proof. vm_compute. repeat split; reflexivity. Qed.

Print Assumptions C48_prometheus.
Print Assumptions C48_nontrivial.
Print Assumptions C48_runs.
