(** What a call of a method generated by templates/circuitbreaker does. *)
From Verif Require Export Pools.
Open Scope nat_scope.

(** ** Specification *)

Definition truth (l : list val) : bool := match l with [VBool b] => b | _ => false end.
Definition single (l : list val) : val := hd VNil l.

Section SPEC.
(** the lock, the two shared fields, the message of the error *)
Variables (lock errs closes : nat) (msg : string).
Definition on_lock (f : string) : op := OMeth (VRef lock) f [].
Definition time_now : op := OCall (VPkg "time.Now") [].

(** lines 36-43; the answer is the error of a rejected call *)
Definition breaker_check : script (option val) :=
  let pass := Ask (on_lock "RUnlock") (fun _ => Done None) in
  Ask (on_lock "RLock") (fun _ =>
  Ask (OGet closes) (fun c =>
    if is_nil (single c) then pass else
    Ask (OGet closes) (fun c =>
    Ask time_now (fun n =>
    Ask (OMeth (single c) "After" [single n]) (fun b =>
      if truth b then
        Ask (on_lock "RUnlock") (fun _ =>
        Ask (OCall (VPkg "errors.New") [VString msg]) (fun e => Done (Some (single e))))
      else pass))))).

(** lines 50-52 and 57-59 *)
Definition breaker_reset : script unit :=
  Ask (OSet errs (VInt 0)) (fun _ => Ask (OSet closes VNil) (fun _ => Done tt)).

(** lines 55-56 *)
Fixpoint breaker_ignores (e : val) (l : list val) : script bool :=
  match l with
  | [] => Done false
  | x :: l' => Ask (OCall (VPkg "errors.Is") [e; x]) (fun b => if truth b then Done true else breaker_ignores e l')
  end.

(** lines 63-68 *)
Definition number (l : list val) : Z := match l with [VInt z] => z | _ => 0 end.
Definition breaker_count (max : Z) (interval : val) : script unit :=
  Ask (OGet errs) (fun n =>
  Ask (OSet errs (VInt (number n + 1))) (fun _ =>
  Ask (OGet errs) (fun n =>
    if Z.leb max (number n) then
      Ask time_now (fun t =>
      Ask (OMeth (single t) "Add" [interval]) (fun t =>
      Ask (OSet closes (single t)) (fun _ => Done tt)))
    else Done tt))).

(** lines 49-68 *)
Definition breaker_update (max : Z) (interval : val) (ignored : list val) (e : val) : script unit :=
  if is_nil e then breaker_reset
  else andthen (breaker_ignores e ignored) (fun b => if b then breaker_reset else breaker_count max interval).

Inductive breaker_call (base : op) (zeros : list val) (max : Z) (interval : val) (ignored : list val)
  : trace -> out (list val) -> Prop :=
| BC_stops tr v : plays breaker_check tr (Pan v) -> breaker_call base zeros max interval ignored tr (Pan v)
| BC_hangs tr : plays breaker_check tr Blk -> breaker_call base zeros max interval ignored tr Blk
| BC_rejected tr e : plays breaker_check tr (Val (Some e)) ->
    breaker_call base zeros max interval ignored tr (Val (removelast zeros ++ [e]))
| BC_base tr a r : plays breaker_check tr (Val None) -> fails a r ->
    breaker_call base zeros max interval ignored (tr ++ [(base, a)]) r
| BC_lock tr vs a r : plays breaker_check tr (Val None) -> fails a r ->
    breaker_call base zeros max interval ignored (tr ++ [(base, ARet vs); (on_lock "Lock", a)]) r
| BC_updating tr vs ls tr2 : plays breaker_check tr (Val None) ->
    plays (breaker_update max interval ignored (last vs VNil)) tr2 Blk ->
    breaker_call base zeros max interval ignored (tr ++ [(base, ARet vs); (on_lock "Lock", ARet ls)] ++ tr2) Blk
| BC_done tr vs ls tr2 b a r : plays breaker_check tr (Val None) ->
    plays (breaker_update max interval ignored (last vs VNil)) tr2 b ->
    match b with                                   (* Unlock is deferred *)
    | Val _ => ends (match a with ARet _ => ARet vs | _ => a end) r
    | Pan v => ends (match a with ARet _ => APan v | _ => a end) r
    | _ => False
    end ->
    breaker_call base zeros max interval ignored
      (tr ++ [(base, ARet vs); (on_lock "Lock", ARet ls)] ++ tr2 ++ [(on_lock "Unlock", a)]) r.
End SPEC.

(** ** Proof *)
Section BREAKER.
Variable W : gworld.
Variable m : method.
Variable L : nat.
Variables (name dec : string) (base lock errs closes : nat) (max : Z) (interval : val) (ignored : list val).
Variables (zeros args : list val).
Hypothesis Hwf : wf_method m.
Hypothesis Hhyg : hygienic m ["errors"; "time"; "closesAt"; "_e"].
Hypothesis He : m_returnsError m = true.
Hypothesis Hz : length zeros = length (m_results m).
Hypothesis Ha : length args = length (m_params m).
Hypothesis Hbase : base_typed W m base.
Let fs := [(name, VRef base); ("_lock", VRef lock); ("_maxConsecutiveErrors", VInt max); ("_consecutiveErrors", VRef errs);
           ("_openInterval", interval); ("_closesAt", VRef closes); ("_ignoreErrors", VSlice ignored)].
Hypothesis Hname : NoDup (map fst fs).
(** what the shared fields hold and the library functions return *)
Hypothesis Hcloses : forall tr vs, w_ans W tr (OGet closes) = ARet vs -> vs = [VNil] \/ exists t, t <> base /\ vs = [VRef t].
(** under the read lock a second look still finds a time *)
Hypothesis Hagain : forall ls t vs, let tr := [(on_lock lock "RLock", ARet ls)] in
  w_ans W tr (OGet closes) = ARet [VRef t] -> w_ans W (tr ++ [(OGet closes, ARet [VRef t])]) (OGet closes) = ARet vs ->
  exists u, u <> base /\ vs = [VRef u].
Hypothesis Herrs : forall tr vs, w_ans W tr (OGet errs) = ARet vs -> exists z, vs = [VInt z].
Hypothesis Hnow : forall tr vs, w_ans W tr time_now = ARet vs -> exists t, t <> base /\ vs = [VRef t].
Hypothesis Hafter : forall tr t x vs, t <> base -> w_ans W tr (OMeth (VRef t) "After" [x]) = ARet vs -> exists b, vs = [VBool b].
Hypothesis Hadd : forall tr t x vs, t <> base -> w_ans W tr (OMeth (VRef t) "Add" [x]) = ARet vs -> exists u, vs = [VRef u].
Hypothesis Hnew : forall tr x vs, w_ans W tr (OCall (VPkg "errors.New") [x]) = ARet vs -> exists e, vs = [e].
Hypothesis His : forall tr x y vs, w_ans W tr (OCall (VPkg "errors.Is") [x; y]) = ARet vs -> exists b, vs = [VBool b].

Let msg := (dec ++ ": circuit is open")%string.
Let R := length (m_results m).

Definition unlock : callable := KOp (on_lock lock "Unlock").

(** a block that plays a script with the lock's release deferred *)
Definition ran {A} (vs : list val) (sc : script unit) (tr : trace) (r : out A) (s : mstate) : Prop :=
  exists tr2 b, ms_trace s = tr ++ tr2 /\ plays sc tr2 b /\
    match b with
    | Val _ => (exists c, r = Val c) /\ (exists ex', ms_store s = cells (VRec fs) vs args ex') /\ ms_defers s = [unlock]
    | Pan w => r = Pan w /\ ms_defers s = [unlock]
    | Blk => r = Blk
    | _ => False
    end.

Ltac ran_ := unfold ran; eexists _, _; split;
  [ cbn [ms_trace]; rewrite <- ?app_assoc; cbn [app]; first [reflexivity | symmetry; apply app_nil_r]
  | split; [plays | cbn [ms_store ms_trace ms_defers];
                    first [ reflexivity | split; reflexivity
                          | split; [eexists; reflexivity | split; [eexists; reflexivity | reflexivity]] ]] ].

(** an environment of the method's body *)
Record scope (env : loc_env) : Prop := {
  sc_frame : frame m env;
  sc_err : lookup "err" env = Some R;
  sc_errors : lookup "errors" env = None;
  sc_time : lookup "time" env = None;
  sc_nil : lookup "nil" env = None }.

Lemma scope_start : scope (method_env m).
Proof.
  constructor.
  - eapply frame_start; [apply Hwf | exact Hhyg].
  - now apply lookup_err.
  - eapply lookup_fresh; [exact Hhyg | cbn; tauto | discriminate].
  - eapply lookup_fresh; [exact Hhyg | cbn; tauto | discriminate].
  - eapply lookup_predeclared; [exact Hhyg | now left].
Qed.

Lemma scope_cons : forall x n env, x = "_e" \/ x = "closesAt" -> scope env -> scope ((x, n) :: env).
Proof.
  intros x n env Hx [F E1 E2 E3 E4].
  assert (Hn : ~ In x (result_names m ++ param_names m)) by (apply Hhyg; destruct Hx; subst x; cbn; tauto).
  constructor; try (destruct Hx; subst x; assumption).
  apply frame_cons; [destruct Hx; subst x; discriminate | exact Hn | exact F].
Qed.

Lemma F_name : field_of name fs = Some (VRef base).
Proof. unfold fs. cbn [field_of]. now rewrite String.eqb_refl. Qed.

Lemma F_other : forall f v, In (f, v) (tl fs) -> field_of f fs = Some v.
Proof.
  assert (H : forall (l : list (string * val)) f v, NoDup (map fst l) -> In (f, v) l -> field_of f l = Some v).
  { induction l as [|[g w] l IH]; intros f v Hn Hi; [destruct Hi|]. cbn [field_of]. inversion Hn as [|? ? Hng Hnl]; subst.
    destruct Hi as [E|Hi].
    - injection E as -> ->. now rewrite String.eqb_refl.
    - destruct (String.eqb_spec f g) as [->|_].
      + exfalso. apply Hng. apply in_map_iff. exists (g, v). now split.
      + now apply IH. }
  intros f v Hi. apply H; [exact Hname | now right].
Qed.

Let call2 := invoke W m [] L 2.
Let locs := seq 1 R.

(** [plays] through tests decided by the context *)
Ltac plays_if := repeat first [ apply P_done | apply P_panics | apply P_hangs
  | eapply P_next; cbv beta; cbn [number single truth hd is_nil];
    try match goal with E : ?x = _ |- context [if ?x then _ else _] => rewrite E end ].
Ltac ran_if := unfold ran; eexists _, _; split;
  [ cbn [ms_trace]; rewrite <- ?app_assoc; cbn [app]; first [reflexivity | symmetry; apply app_nil_r]
  | split; [plays_if | cbn [ms_store ms_trace ms_defers];
                    first [ reflexivity | split; reflexivity
                          | split; [eexists; reflexivity | split; [eexists; reflexivity | reflexivity]] ]] ].

Lemma reset_meets : forall env vs ex tr,
  scope env -> length vs = R ->
  wp (block W m [] L call2 locs env [] breaker_close) (fun r s => r <> Val CNext /\ ran vs (breaker_reset errs closes) tr r s)
     (MState (cells (VRec fs) vs args ex) tr [unlock]).
Proof.
  intros env vs ex tr [F E1 E2 E3 E4] Hv. pose proof (fr_d m _ F) as Hd.
  assert (F1 : field_of "_consecutiveErrors" fs = Some (VRef errs)) by (apply F_other; cbn; tauto).
  assert (F2 : field_of "_closesAt" fs = Some (VRef closes)) by (apply F_other; cbn; tauto).
  unfold breaker_close, shared, vnil, d_, var. clearbody fs.
  repeat wp1. ask; [|split; [discriminate | ran_] ..]. ask; (split; [discriminate | ran_]).
Qed.
Lemma over_meets : forall env vs, scope env -> length vs = R ->
  forall l ex tr,
  wp (over (fun v => gbind (alloc v) (fun n => block W m [] L call2 locs (("_e", n) :: env) []
              [SIf None (Bodies.call (var "errors" .: "Is") [verr; var "_e"]) breaker_close []])) l)
     (fun r s =>
        (exists tr2 ex', r = Val CNext /\ s = MState (cells (VRec fs) vs args ex') (tr ++ tr2) [unlock] /\
                         plays (breaker_ignores (last vs VNil) l) tr2 (Val false)) \/
        (r <> Val CNext /\ forall k, ran vs (andthen (breaker_ignores (last vs VNil) l)
                                      (fun b => if b then breaker_reset errs closes else k)) tr r s))
     (MState (cells (VRec fs) vs args ex) tr [unlock]).
Proof.
  intros env vs S0 Hv. induction l as [|x l IH]; intros ex tr.
  - cbn [over]. apply wp_ret. left. exists [], ex. rewrite app_nil_r. split; [reflexivity|]. split; [reflexivity | apply P_done].
  - cbn [over]. apply wp_bind. apply wp_bind. eapply wp_alloc; [exact Hv | exact Ha |]. cbv beta iota.
    assert (S1 := scope_cons "_e" (S (length (m_results m) + length (m_params m)) + length ex) env (or_introl eq_refl) S0).
    destruct S1 as [F1 E1 E2 E3 E4].
    assert (Hne : vs <> []).
    { intros ->. destruct (wf_err m Hwf He) as (r & p & E & _). unfold R in Hv. rewrite E in Hv. destruct r; discriminate. }
    unfold Bodies.call, verr, var. repeat wp1.
    apply wp_ask. set (o := OCall _ _).
    destruct (w_ans W tr o) as [bs|v|] eqn:Eb; cbv beta iota; [|right|right].
    + destruct (His _ _ _ _ Eb) as [b ->]. repeat wp1. destruct b.
      * eapply wp_weaken; [apply reset_meets; [apply scope_cons; [now left | exact S0] | exact Hv]|].
        intros r s (Hr & tr2 & b & Ht & Hp & Hb).
        assert (G : forall k, ran vs (andthen (breaker_ignores (last vs VNil) (x :: l))
                       (fun b => if b then breaker_reset errs closes else k)) tr r s).
        { intros k. exists ((o, ARet [VBool true]) :: tr2), b. split; [rewrite Ht, <- app_assoc; reflexivity|].
          split; [|exact Hb]. cbn [breaker_ignores andthen]. apply P_next. cbn [truth andthen]. exact Hp. }
        destruct r as [[|]|v| | |]; cbv beta iota; try (now destruct Hr);
          try (right; split; [discriminate | exact G]).
      * repeat wp1. eapply wp_weaken; [apply IH|]. cbv beta. intros r s [(tr2 & ex' & -> & -> & Hp) | [Hr Hk]].
        -- left. exists ((o, ARet [VBool false]) :: tr2), ex'. rewrite <- app_assoc. split; [reflexivity|].
           split; [reflexivity|]. cbn [breaker_ignores]. now apply P_next.
        -- right. split; [exact Hr|]. intros k. destruct (Hk k) as (tr2 & b & Ht & Hp & Hb).
           exists ((o, ARet [VBool false]) :: tr2), b. split; [rewrite Ht, <- app_assoc; reflexivity|].
           split; [|exact Hb]. cbn [breaker_ignores andthen]. apply P_next. exact Hp.
    + split; [discriminate|]. intros k. exists [(o, APan v)], (Pan v). split; [reflexivity|]. split; [apply P_panics | now split].
    + split; [discriminate|]. intros k. exists [(o, ABlock)], Blk. split; [reflexivity|]. split; [apply P_hangs | reflexivity].
Qed.

Lemma count_meets : forall env top vs ex tr, scope env -> length vs = R ->
  wp (block W m [] L call2 locs env top
       [SInc (shared "_consecutiveErrors");
        SIf None (EBin ">=" (shared "_consecutiveErrors") (d_ .: "_maxConsecutiveErrors"))
          [SDefine [id "closesAt"] (Bodies.call (call0 (var "time" .: "Now") .: "Add") [d_ .: "_openInterval"]);
           SAssign [shared "_closesAt"] (EUn "&" (var "closesAt"))] [];
        SReturn])
     (ran vs (breaker_count errs closes max interval) tr) (MState (cells (VRec fs) vs args ex) tr [unlock]).
Proof.
  intros env top vs ex tr [F E1 E2 E3 E4] Hv. pose proof (fr_d m _ F) as Hd.
  assert (F1 : field_of "_consecutiveErrors" fs = Some (VRef errs)) by (apply F_other; cbn; tauto).
  assert (F2 : field_of "_closesAt" fs = Some (VRef closes)) by (apply F_other; cbn; tauto).
  assert (F3 : field_of "_maxConsecutiveErrors" fs = Some (VInt max)) by (apply F_other; cbn; tauto).
  assert (F4 : field_of "_openInterval" fs = Some interval) by (apply F_other; cbn; tauto).
  unfold shared, d_, var, call0, Bodies.call. clearbody fs.
  wp1. wps. ask1; [|ran_if ..]. destruct (Herrs _ _ Heqa) as [z ->]. wps. ask1; [|ran_if ..].
  wp1. wps. ask1; [|ran_if ..]. destruct (Herrs _ _ Heqa1) as [z' ->]. wps. destruct (Z.leb max z') eqn:Ez.
  - wp1. wps. fold time_now. ask1; [|ran_if ..]. destruct (Hnow _ _ Heqa2) as (t & Ht & ->). wps. ask1; [|ran_if ..].
    destruct (Hadd _ _ _ _ Ht Heqa3) as [u ->]. wps.
    eapply wp_define; [reflexivity | reflexivity | exact Hv | exact Ha |].
    repeat wp1. eapply wp_load.
    { erewrite cells_local by eassumption. rewrite nth_ex0. reflexivity. }
    wps. ask1; [wps; wp1; wps; ran_if | ran_if | ran_if].
  - repeat wp1. ran_if.
Qed.

Lemma update_meets : forall env top vs ex tr, scope env -> length vs = R ->
  wp (block W m [] L call2 locs env top
       (SIf None (EBin "==" verr vnil) breaker_close [] ::
        SRange (id "_e") (d_ .: "_ignoreErrors")
          [SIf None (Bodies.call (var "errors" .: "Is") [verr; var "_e"]) breaker_close []] ::
       [SInc (shared "_consecutiveErrors");
        SIf None (EBin ">=" (shared "_consecutiveErrors") (d_ .: "_maxConsecutiveErrors"))
          [SDefine [id "closesAt"] (Bodies.call (call0 (var "time" .: "Now") .: "Add") [d_ .: "_openInterval"]);
           SAssign [shared "_closesAt"] (EUn "&" (var "closesAt"))] [];
        SReturn]))
     (ran vs (breaker_update errs closes max interval ignored (last vs VNil)) tr) (MState (cells (VRec fs) vs args ex) tr [unlock]).
Proof.
  intros env top vs ex tr S0 Hv. pose proof S0 as [F E1 E2 E3 E4]. pose proof (fr_d m _ F) as Hd.
  assert (F1 : field_of "_ignoreErrors" fs = Some (VSlice ignored)) by (apply F_other; cbn; tauto).
  assert (Hne : vs <> []).
  { intros ->. destruct (wf_err m Hwf He) as (r & p & E & _). unfold R in Hv. rewrite E in Hv. destruct r; discriminate. }
  unfold breaker_update. wp1. unfold verr at 1, vnil at 1, var at 1 2. wps. destruct (is_nil (last vs VNil)) eqn:En.
  - eapply wp_weaken; [apply reset_meets; [exact S0 | exact Hv]|]. cbv beta.
    intros r s [Hr H]. destruct r as [[|]|v| | |]; cbv beta iota; try (now destruct Hr); try exact H.
  - wps. wp1. unfold d_ at 1, var at 1. wps. rewrite wtext_lit.
    eapply wp_weaken; [apply over_meets; [exact S0 | exact Hv]|]. cbv beta.
    intros r s [(tr2 & ex' & -> & -> & Hp) | [Hr Hk]].
    + wps. eapply wp_weaken; [apply count_meets; [exact S0 | exact Hv]|]. cbv beta.
      intros r s (tr3 & b & Ht & Hp3 & Hb). exists (tr2 ++ tr3), b. split; [rewrite Ht; symmetry; apply app_assoc|].
      split; [|exact Hb]. eapply plays_andthen; [exact Hp|]. exact Hp3.
    + specialize (Hk (breaker_count errs closes max interval)).
      destruct r as [[|]|v| | |]; cbv beta iota; try (now destruct Hr); try exact Hk.
Qed.

(** the lock's release after the update *)
Lemma unlock_meets : forall vs sc r s tr (Q : out (list val) -> trace -> Prop),
  length vs = R -> ran vs sc tr r s ->
  (forall tr2, plays sc tr2 Blk -> Q Blk (tr ++ tr2)) ->
  (forall tr2 b a r, plays sc tr2 b ->
     match b with
     | Val _ => ends (match a with ARet _ => ARet vs | _ => a end) r
     | Pan v => ends (match a with ARet _ => APan v | _ => a end) r
     | _ => False
     end -> Q r (tr ++ tr2 ++ [(on_lock lock "Unlock", a)])) ->
  body_done W m [] L Q r s.
Proof.
  intros vs sc r s tr Q Hv (tr2 & b & Ht & Hp & Hb) H1 H2. destruct s as [st t ds]. cbn [ms_store ms_trace ms_defers] in *. subst t.
  destruct b as [u|w| | |]; try (now destruct Hb).
  - destruct Hb as ([c ->] & (ex' & ->) & ->). unfold body_done. cbv zeta. cbn [ms_store ms_trace ms_defers].
    apply wp_defers_cons. unfold unlock. change (invoke W m [] L 2 (KOp ?o)) with (ask_op W o).
    apply wp_ask.
    destruct (w_ans W (tr ++ tr2) (on_lock lock "Unlock")) as [l|v|] eqn:E; cbv beta iota.
    + repeat wp1. apply wp_load_results; [exact Hv|]. cbn [ms_trace]. rewrite <- app_assoc. eapply H2; [exact Hp | reflexivity].
    + repeat wp1. cbn [ms_trace]. rewrite <- app_assoc. eapply H2; [exact Hp | reflexivity].
    + cbn [ms_trace]. rewrite <- app_assoc. eapply H2; [exact Hp | reflexivity].
  - destruct Hb as [-> ->]. unfold body_done. cbv zeta. cbn [ms_store ms_trace ms_defers].
    apply wp_defers_cons. unfold unlock. change (invoke W m [] L 2 (KOp ?o)) with (ask_op W o).
    apply wp_ask.
    destruct (w_ans W (tr ++ tr2) (on_lock lock "Unlock")) as [l|v|] eqn:E; cbv beta iota.
    + repeat wp1. cbn [ms_trace]. rewrite <- app_assoc. eapply H2; [exact Hp | reflexivity].
    + repeat wp1. cbn [ms_trace]. rewrite <- app_assoc. eapply H2; [exact Hp | reflexivity].
    + cbn [ms_trace]. rewrite <- app_assoc. eapply H2; [exact Hp | reflexivity].
  - subst r. unfold body_done. cbn [ms_trace]. now apply H1.
Qed.

Lemma tail_meets : forall ex tr top,
  (forall tr2 x, plays (Ask (on_lock lock "RUnlock") (fun _ => Done None)) tr2 x ->
     plays (breaker_check lock closes msg) (tr ++ tr2) x) ->
  wp (block W m [] L call2 locs (method_env m) top (tl (tl (circuitbreaker_body name dec m))))
     (body_done W m [] L (fun r tr => breaker_call lock errs closes msg (OMeth (VRef base) (m_name m) args) zeros max interval ignored tr r))
     (MState (cells (VRec fs) zeros args ex) tr []).
Proof.
  intros ex tr top H. unfold circuitbreaker_body. cbn [tl].
  pose proof scope_start as S0. pose proof S0 as [F E1 E2 E3 E4]. pose proof (fr_d m _ F) as Hd.
  assert (F0 : field_of "_lock" fs = Some (VRef lock)) by (apply F_other; cbn; tauto).
  assert (F3 : field_of name fs = Some (VRef base)) by apply F_name.
  unfold lock_call, embedded, call0, Bodies.call, d_, var.
  wp1. wps. fold (on_lock lock "RUnlock"). ask1.
  2:{ apply done_panic, BC_stops, H. plays. }
  2:{ apply done_blocked, BC_hangs, H. plays. }
  assert (Hck : plays (breaker_check lock closes msg) (tr ++ [(on_lock lock "RUnlock", ARet l)]) (Val None)) by (apply H; plays).
  wp1. wps.
  eapply wp_base; [reflexivity | exact F | exact Hz | exact Ha | rewrite wtext_hole; exact F3 | reflexivity |].
  destruct (w_ans W (tr ++ [(on_lock lock "RUnlock", ARet l)]) (OMeth (VRef base) (m_name m) args)) as [vs|v|] eqn:Eb.
  2:{ apply done_panic. now apply BC_base. }
  2:{ apply done_blocked. now apply BC_base. }
  pose proof (Hbase _ _ _ Eb) as Hv. apply wp_set_results; [exact F | exact Hz | exact Hv |]. cbv beta iota.
  wps. wp1. wps. fold (on_lock lock "Lock"). ask1.
  2:{ apply done_panic. rewrite <- (app_assoc (tr ++ _)). cbn [app]. apply BC_lock; [exact Hck | reflexivity]. }
  2:{ apply done_blocked. rewrite <- (app_assoc (tr ++ _)). cbn [app]. apply BC_lock; [exact Hck | reflexivity]. }
  wp1. wps. fold (on_lock lock "Unlock"). fold unlock. rewrite <- (app_assoc (tr ++ _)). cbn [app].
  eapply wp_weaken; [apply update_meets; [exact S0 | exact Hv]|].
  cbv beta. intros r s Hran. eapply unlock_meets; [exact Hv | exact Hran | |].
  - intros tr2 Hp. rewrite <- (app_assoc (tr ++ _)). now apply BC_updating.
  - intros tr2 b a r0 Hp Hr. rewrite <- (app_assoc (tr ++ _)). now apply BC_done with (b := b).
Qed.

Theorem circuitbreaker_meets :
  let '(r, tr) := run_method W m [] L (circuitbreaker_body name dec m) (VRec fs) zeros args in
  breaker_call lock errs closes msg (OMeth (VRef base) (m_name m) args) zeros max interval ignored tr r.
Proof.
  apply run_method_done.
  pose proof scope_start as S0. pose proof S0 as [F E1 E2 E3 E4]. pose proof (fr_d m _ F) as Hd.
  assert (F0 : field_of "_lock" fs = Some (VRef lock)) by (apply F_other; cbn; tauto).
  assert (F2 : field_of "_closesAt" fs = Some (VRef closes)) by (apply F_other; cbn; tauto).
  assert (Hne : zeros <> []).
  { intros ->. destruct (wf_err m Hwf He) as (r & p & E & _). rewrite E in Hz. destruct r; discriminate. }
  assert (Hb : circuitbreaker_body name dec m = firstn 2 (circuitbreaker_body name dec m) ++ tl (tl (circuitbreaker_body name dec m)))
    by reflexivity.
  rewrite Hb. unfold circuitbreaker_body at 1. cbn [firstn app].
  unfold lock_call at 1 2, shared, call0, Bodies.call, vnil, verr, d_, var.
  wp1. wps. fold (on_lock lock "RLock"). ask1.
  2:{ apply done_panic, BC_stops. plays. }
  2:{ apply done_blocked, BC_hangs. plays. }
  wp1. wps. ask1.
  2:{ apply done_panic, BC_stops. plays. }
  2:{ apply done_blocked, BC_hangs. plays. }
  destruct (Hcloses _ _ Heqa0) as [-> | (t & Ht & ->)].
  - wps. cbn [is_nil negb]. wps. apply tail_meets.
    intros tr2 x Hp. cbn [app]. apply P_next, P_next. exact Hp.
  - wps. cbn [is_nil negb]. wps. ask1.
    2:{ apply done_panic, BC_stops. plays_if. }
    2:{ apply done_blocked, BC_hangs. plays_if. }
    destruct (Hagain _ _ _ Heqa0 Heqa1) as (u & Hu & ->). wps. fold time_now. ask1.
    2:{ apply done_panic, BC_stops. plays_if. }
    2:{ apply done_blocked, BC_hangs. plays_if. }
    destruct (Hnow _ _ Heqa2) as (n & Hn & ->). wps. ask1.
    2:{ apply done_panic, BC_stops. plays_if. }
    2:{ apply done_blocked, BC_hangs. plays_if. }
    destruct (Hafter _ _ _ _ Hu Heqa3) as [[|] ->].
    + wps. wp1. wps. fold (on_lock lock "RUnlock"). ask1.
      2:{ apply done_panic, BC_stops. plays_if. }
      2:{ apply done_blocked, BC_hangs. plays_if. }
      wp1. wps. change (wtext [PH dec; PS ": circuit is open"]) with msg. ask1.
      2:{ apply done_panic, BC_stops. plays_if. }
      2:{ apply done_blocked, BC_hangs. plays_if. }
      destruct (Hnew _ _ _ Heqa5) as [e ->]. wps.
      eapply wp_set_error; [exact E1 | exact Hz | exact Hne |]. repeat wp1.
      unfold body_done. cbv zeta. cbn [ms_defers ms_store ms_trace]. apply wp_ret.
      apply wp_load_results; [rewrite replace_last_length; assumption|]. cbn [ms_trace app]. apply BC_rejected. plays_if.
    + wps. apply tail_meets. intros tr2 x Hp. cbn [app]. do 5 (apply P_next; cbn [single hd is_nil truth]). exact Hp.
Qed.
End BREAKER.
