(** What a call of a method generated by templates/syncpool, robinpool or
    ratelimit does. *)
From Verif Require Export Observed Generated4.
Open Scope nat_scope.

(** ** Passing on to a receiver other than a field *)
Section PASS.
Variable W : gworld.
Variable m : method.
Variable funcs : list (string * (list string * list gstmt)).
Variable L : nat.
Let R := length (m_results m).
Let P := length (m_params m).

Lemma wp_pass_to : forall call res_locs env top p e n recv rs ps ex tr ds (Q : out (ctl * (loc_env * list string)) -> mstate -> Prop),
  (forall o, call (KOp o) = ask_op W o) -> res_locs = seq 1 R ->
  frame m env -> length rs = R -> length ps = P ->
  (forall Q' : out val -> mstate -> Prop, Q' (Val (VRef n)) (MState (cells recv rs ps ex) tr ds) ->
     wp (eval W m funcs call env e) Q' (MState (cells recv rs ps ex) tr ds)) ->
  (forall l, w_ans W tr (OMeth (VRef n) (m_name m) ps) = ARet l -> length l = R) ->
  match w_ans W tr (OMeth (VRef n) (m_name m) ps) with
  | ARet l => Q (Val (CRet, (env, top))) (MState (cells recv l ps ex) (tr ++ [(OMeth (VRef n) (m_name m) ps, ARet l)]) ds)
  | APan v => Q (Pan v) (MState (cells recv rs ps ex) (tr ++ [(OMeth (VRef n) (m_name m) ps, APan v)]) ds)
  | ABlock => Q Blk (MState (cells recv rs ps ex) (tr ++ [(OMeth (VRef n) (m_name m) ps, ABlock)]) ds)
  end ->
  wp (exec W m funcs L call res_locs env top (SPass p e)) Q (MState (cells recv rs ps ex) tr ds).
Proof.
  intros call res_locs env top p e n recv rs ps ex tr ds Q Hcall Hl Hf Hr Hp He Hty H.
  rewrite exec_pass. apply wp_bind. apply wp_bind. unfold MiniGo.eval_multi, MiniGo.callee.
  apply wp_bind. apply wp_bind. apply He. apply wp_bind. apply wp_params; try assumption.
  cbn [method_target]. apply wp_ret. rewrite Hcall. apply wp_ask.
  destruct (w_ans W tr (OMeth (VRef n) (m_name m) ps)) as [l|v|]; [|exact H|exact H].
  specialize (Hty l eq_refl). case_eq (m_results m); [intros E | intros r0 rest E].
  - apply wp_ret. apply wp_ret. unfold R in Hr, Hty. rewrite E in Hr, Hty.
    destruct l; [|discriminate]. destruct rs; [|discriminate]. exact H.
  - apply wp_bind. rewrite Hl. eapply wp_store_results; [exact Hr | exact Hty |]. apply wp_ret. apply wp_ret. exact H.
Qed.

(** with one deferred closure *)
Lemma wp_observed_to : forall env env' top clo p e n recv zeros ps ex tr after (Q : out (list val) -> trace -> Prop),
  frame m env -> length zeros = R -> length ps = P ->
  (forall Q' : out val -> mstate -> Prop, Q' (Val (VRef n)) (MState (cells recv zeros ps ex) tr [KClo env' clo]) ->
     wp (eval W m funcs (invoke W m funcs L 2) env e) Q' (MState (cells recv zeros ps ex) tr [KClo env' clo])) ->
  base_typed W m n ->
  (forall rs, length rs = R -> clo_meets W m funcs L env' clo recv rs ps ex (after rs)) ->
  (w_ans W tr (OMeth (VRef n) (m_name m) ps) = ABlock -> Q Blk (tr ++ [(OMeth (VRef n) (m_name m) ps, ABlock)])) ->
  (forall a tr2 b r, a <> ABlock -> w_ans W tr (OMeth (VRef n) (m_name m) ps) = a ->
     plays (after (results zeros a)) tr2 b -> finish a b r -> Q r (tr ++ (OMeth (VRef n) (m_name m) ps, a) :: tr2)) ->
  wp (block W m funcs L (invoke W m funcs L 2) (seq 1 R) env top [SPass p e]) (body_done W m funcs L Q)
     (MState (cells recv zeros ps ex) tr [KClo env' clo]).
Proof.
  intros env env' top clo p e n recv zeros ps ex tr after Q Hf Hz Hp He Hb Hc Hblk Hdone.
  wp1. wp1. eapply wp_pass_to; [reflexivity | reflexivity | exact Hf | exact Hz | exact Hp | exact He | apply Hb |].
  destruct (w_ans W tr (OMeth (VRef n) (m_name m) ps)) as [vs|v|] eqn:E; cbv beta iota.
  - cbn [fst snd]. pose proof (Hb _ _ _ E) as Hl. apply wp_ret.
    apply (wp_deferred W m funcs L env' clo recv vs ps ex (after vs) _ None); [exact Hl | apply Hc; exact Hl|].
    intros tr2 b r Hpl Hr. rewrite <- app_assoc. cbn [app].
    apply (Hdone (ARet vs) tr2 b r); [discriminate | reflexivity | exact Hpl|]. destruct b; exact Hr.
  - apply (wp_deferred W m funcs L env' clo recv zeros ps ex (after zeros) _ (Some v)); [exact Hz | apply Hc; exact Hz|].
    intros tr2 b r Hpl Hr. rewrite <- app_assoc. cbn [app].
    apply (Hdone (APan v) tr2 b r); [discriminate | reflexivity | exact Hpl|]. destruct b; exact Hr.
  - apply Hblk. reflexivity.
Qed.

(** without *)
Lemma wp_plain_to : forall env top p e n recv zeros ps ex tr (Q : out (list val) -> trace -> Prop),
  frame m env -> length zeros = R -> length ps = P ->
  (forall Q' : out val -> mstate -> Prop, Q' (Val (VRef n)) (MState (cells recv zeros ps ex) tr []) ->
     wp (eval W m funcs (invoke W m funcs L 2) env e) Q' (MState (cells recv zeros ps ex) tr [])) ->
  base_typed W m n ->
  (forall a r, w_ans W tr (OMeth (VRef n) (m_name m) ps) = a -> ends a r -> Q r (tr ++ [(OMeth (VRef n) (m_name m) ps, a)])) ->
  wp (block W m funcs L (invoke W m funcs L 2) (seq 1 R) env top [SPass p e]) (body_done W m funcs L Q)
     (MState (cells recv zeros ps ex) tr []).
Proof.
  intros env top p e n recv zeros ps ex tr Q Hf Hz Hp He Hb HQ.
  wp1. wp1. eapply wp_pass_to; [reflexivity | reflexivity | exact Hf | exact Hz | exact Hp | exact He | apply Hb |].
  destruct (w_ans W tr (OMeth (VRef n) (m_name m) ps)) as [vs|v|] eqn:E; cbv beta iota.
  - cbn [fst snd]. pose proof (Hb _ _ _ E) as Hl. apply wp_ret. unfold body_done. cbv zeta. cbn [ms_defers ms_store ms_trace].
    apply wp_ret. apply wp_load_results; [exact Hl|]. cbn [ms_trace]. now apply HQ.
  - unfold body_done. cbv zeta. cbn [ms_defers ms_store ms_trace]. apply wp_ret. cbn [ms_trace]. now apply HQ.
  - unfold body_done. cbn [ms_trace]. now apply HQ.
Qed.
End PASS.

(** ** syncpool *)

(** the implementation received, put back when it is done *)
Definition syncpool_before (pool : val) : script nat :=
  Ask (OSelect [pool]) (fun l => Done (match l with [_; VRef i] => i | _ => 0 end)).
Definition syncpool_after (pool : val) (i : nat) : script unit := Ask (OSend pool (VRef i)) (fun _ => Done tt).

Section SYNCPOOL.
Variable W : gworld.
Variable m : method.
Variable L : nat.
Variable pool : nat.
Variables (zeros args : list val).
Hypothesis Hwf : wf_method m.
Hypothesis Hhyg : hygienic m ["_impl"].
Hypothesis Hz : length zeros = length (m_results m).
Hypothesis Ha : length args = length (m_params m).
Hypothesis Hpool : forall tr vs, w_ans W tr (OSelect [VRef pool]) = ARet vs -> exists i, vs = [VInt 0; VRef i] /\ base_typed W m i.
Let fs := [("pool", VRef pool)].

Theorem syncpool_meets :
  let '(r, tr) := run_method W m [] L (syncpool_body m) (VRec fs) zeros args in
  observed_call (syncpool_before (VRef pool)) (fun i => OMeth (VRef i) (m_name m) args) zeros
    (fun i _ => syncpool_after (VRef pool) i) tr r.
Proof.
  apply run_method_done. unfold syncpool_body, call0, Bodies.call, d_, var.
  assert (Hf : frame m (method_env m)) by (eapply frame_start; [apply Hwf | apply Hhyg]).
  pose proof (fr_d m _ Hf) as Hd.
  assert (F1 : field_of "pool" fs = Some (VRef pool)) by reflexivity. clearbody fs.
  wp1. wps. ask1.
  2:{ apply done_panic, OB_panics. plays. }
  2:{ apply done_blocked, OB_blocks. plays. }
  destruct (Hpool _ _ Heqa) as (i & -> & Hb). wps.
  eapply wp_define; [reflexivity | | exact Hz | exact Ha |].
  { eapply top_fresh; [exact Hhyg | cbn; tauto | discriminate]. }
  cbn [length app]. wps. wp1. wps.
  match goal with |- wp (block _ _ _ _ _ _ ?e _ _) _ _ => assert (Hf2 : frame m e) end.
  { apply frame_cons; [discriminate | apply Hhyg; cbn; tauto | exact Hf]. }
  eapply wp_observed_to with (n := i); [exact Hf2 | exact Hz | exact Ha | | exact Hb | | |].
  - intros Q' HQ. repeat wp1. exact HQ.
  - intros rs Hrs tr. repeat wp1. ask; played.
  - intros _. ob_hangs [(OSelect [VRef pool], ARet [VInt 0; VRef i])] i.
  - intros a tr2 b r Hne _ Hpl Hr. ob_done [(OSelect [VRef pool], ARet [VInt 0; VRef i])] i.
Qed.
End SYNCPOOL.

(** ** robinpool *)

Definition add_uint32 (counter : nat) : op := OCall (VPkg "atomic.AddUint32") [VRef counter; VInt 1].

Inductive robinpool_call (pool : list val) (size : Z) (counter : nat) (nm : string) (args : list val) : trace -> out (list val) -> Prop :=
| RP_stops a r : fails a r -> robinpool_call pool size counter nm args [(add_uint32 counter, a)] r
| RP_zero c : size = 0%Z -> robinpool_call pool size counter nm args [(add_uint32 counter, ARet [VInt c])] (Pan zero_division)
| RP_index c : size <> 0%Z -> (length pool <= Z.to_nat (Z.rem c size)) ->
    robinpool_call pool size counter nm args [(add_uint32 counter, ARet [VInt c])] (Pan bad_index)
| RP_serves c i a r : size <> 0%Z -> nth_error pool (Z.to_nat (Z.rem c size)) = Some (VRef i) -> ends a r ->
    robinpool_call pool size counter nm args
      [(add_uint32 counter, ARet [VInt c]); (OMeth (VRef i) nm args, a)] r.

Section ROBINPOOL.
Variable W : gworld.
Variable m : method.
Variable L : nat.
Variable pool : list val.
Variable size : Z.
Variable counter : nat.
Variables (zeros args : list val).
Hypothesis Hwf : wf_method m.
Hypothesis Hhyg : hygienic m ["_counter"; "atomic"].
Hypothesis Hz : length zeros = length (m_results m).
Hypothesis Ha : length args = length (m_params m).
Hypothesis Hpool : forall v, In v pool -> exists i, v = VRef i /\ base_typed W m i.
Hypothesis Hsize : (0 <= size)%Z.
Hypothesis Hadd : forall tr vs, w_ans W tr (add_uint32 counter) = ARet vs -> exists c, vs = [VInt c] /\ (0 <= c)%Z.
Let fs := [("pool", VSlice pool); ("poolSize", VInt size); ("counter", VRef counter)].

Lemma wp_rem : forall x y (Q : out val -> mstate -> Prop) s, y <> 0%Z -> Q (Val (VInt (Z.rem x y))) s -> wp (binop "%" (VInt x) (VInt y)) Q s.
Proof.
  intros x y Q s Hy H. unfold wp. change (binop "%" (VInt x) (VInt y)) with
    (if Z.eqb y 0 then @gpanic val zero_division else gret (VInt (Z.rem x y))).
  destruct (Z.eqb_spec y 0); [contradiction|]. exact H.
Qed.

Lemma wp_nth : forall l z v (Q : out val -> mstate -> Prop) s, (0 <= z)%Z -> nth_error l (Z.to_nat z) = Some v -> Q (Val v) s ->
  wp (index_of (VSlice l) (VInt z)) Q s.
Proof.
  intros l z v Q s Hz0 Hn H. unfold wp, index_of. destruct (Z.ltb_spec z 0); [lia|]. now rewrite Hn.
Qed.

Lemma wp_nth_out : forall l z (Q : out val -> mstate -> Prop) s, (0 <= z)%Z -> length l <= Z.to_nat z -> Q (Pan bad_index) s ->
  wp (index_of (VSlice l) (VInt z)) Q s.
Proof.
  intros l z Q s Hz0 Hn H. unfold wp, index_of. destruct (Z.ltb_spec z 0); [lia|].
  apply nth_error_None in Hn. now rewrite Hn.
Qed.

(** a receiver expression that panics *)
Lemma wp_pass_panics : forall env top p e v recv rs ps ex tr (Q : out (list val) -> trace -> Prop),
  (forall Q' : out val -> mstate -> Prop, Q' (Pan v) (MState (cells recv rs ps ex) tr []) ->
     wp (eval W m [] (invoke W m [] L 2) env e) Q' (MState (cells recv rs ps ex) tr [])) ->
  Q (Pan v) tr ->
  wp (block W m [] L (invoke W m [] L 2) (seq 1 (length (m_results m))) env top [SPass p e]) (body_done W m [] L Q)
     (MState (cells recv rs ps ex) tr []).
Proof.
  intros env top p e v recv rs ps ex tr Q He HQ. wp1. wp1. rewrite exec_pass. apply wp_bind. apply wp_bind.
  unfold MiniGo.eval_multi, MiniGo.callee. apply wp_bind. apply wp_bind. apply He. exact HQ.
Qed.

Theorem robinpool_meets :
  let '(r, tr) := run_method W m [] L (robinpool_body m) (VRec fs) zeros args in
  robinpool_call pool size counter (m_name m) args tr r.
Proof.
  apply run_method_done. unfold robinpool_body, call0, Bodies.call, d_, var.
  assert (Hf : frame m (method_env m)) by (eapply frame_start; [apply Hwf | apply Hhyg]).
  pose proof (fr_d m _ Hf) as Hd.
  assert (Hat : lookup "atomic" (method_env m) = None) by (eapply lookup_fresh; [apply Hhyg | cbn; tauto | discriminate]).
  assert (F1 : field_of "pool" fs = Some (VSlice pool)) by reflexivity.
  assert (F2 : field_of "poolSize" fs = Some (VInt size)) by reflexivity.
  assert (F3 : field_of "counter" fs = Some (VRef counter)) by reflexivity. clearbody fs.
  wp1. wps. fold (add_uint32 counter). ask1.
  2:{ apply done_panic. apply RP_stops. reflexivity. }
  2:{ apply done_blocked. apply RP_stops. reflexivity. }
  destruct (Hadd _ _ Heqa) as (c & -> & Hc). wps.
  eapply wp_define; [reflexivity | | exact Hz | exact Ha |].
  { eapply top_fresh; [exact Hhyg | cbn; tauto | discriminate]. }
  cbn [length app]. wps.
  match goal with |- wp (block _ _ _ _ _ _ ?e _ _) _ _ => assert (Hf2 : frame m e) end.
  { apply frame_cons; [discriminate | apply Hhyg; cbn; tauto | exact Hf]. }
  destruct (Z.eq_dec size 0) as [Es|Es].
  { eapply wp_pass_panics with (v := zero_division).
    - intros Q' HQ. repeat wp1. subst size. exact HQ.
    - now apply RP_zero. }
  assert (Hr : (0 <= Z.rem c size)%Z) by (apply Z.rem_nonneg; lia).
  destruct (nth_error pool (Z.to_nat (Z.rem c size))) as [v|] eqn:En.
  - destruct (Hpool v) as (i & -> & Hb); [eapply nth_error_In; exact En|].
    eapply wp_plain_to with (n := i); [exact Hf2 | exact Hz | exact Ha | | exact Hb |].
    + intros Q' HQ. repeat wp1. apply wp_rem; [exact Es|]. repeat wp1. eapply wp_nth; [exact Hr | exact En | exact HQ].
    + intros a r _ He. cbn [app]. now apply RP_serves.
  - apply nth_error_None in En. eapply wp_pass_panics with (v := bad_index).
    + intros Q' HQ. repeat wp1. apply wp_rem; [exact Es|]. repeat wp1. eapply wp_nth_out; [exact Hr | exact En | exact HQ].
    + now apply RP_index.
Qed.
End ROBINPOOL.

(** ** ratelimit *)

Definition ctx_done (c : val) : op := OMeth c "Done" [].
Definition ctx_err (c : val) : op := OMeth c "Err" [].

(** [zeros] are the zero values of the results *)
Inductive ratelimit_call (m : method) (b : nat) (ticks : nat) (zeros args : list val) : trace -> out (list val) -> Prop :=
| RL_waits a r :                                         (* plain receive, no token ever *)
    m_acceptsContext m && m_returnsError m = false -> fails a r ->
    ratelimit_call m b ticks zeros args [(OSelect [VRef ticks], a)] r
| RL_passes t a r :
    m_acceptsContext m && m_returnsError m = false -> ends a r ->
    ratelimit_call m b ticks zeros args [(OSelect [VRef ticks], ARet [VInt 0; t]); (OMeth (VRef b) (m_name m) args, a)] r
| RL_done_fails a r :
    m_acceptsContext m && m_returnsError m = true -> fails a r ->
    ratelimit_call m b ticks zeros args [(ctx_done (hd VNil args), a)] r
| RL_waits_ctx ch a r :
    m_acceptsContext m && m_returnsError m = true -> fails a r ->
    ratelimit_call m b ticks zeros args [(ctx_done (hd VNil args), ARet [ch]); (OSelect [ch; VRef ticks], a)] r
| RL_passes_ctx ch t a r :
    m_acceptsContext m && m_returnsError m = true -> ends a r ->
    ratelimit_call m b ticks zeros args
      [(ctx_done (hd VNil args), ARet [ch]); (OSelect [ch; VRef ticks], ARet [VInt 1; t]); (OMeth (VRef b) (m_name m) args, a)] r
| RL_err_fails ch t a r :
    m_acceptsContext m && m_returnsError m = true -> fails a r ->
    ratelimit_call m b ticks zeros args
      [(ctx_done (hd VNil args), ARet [ch]); (OSelect [ch; VRef ticks], ARet [VInt 0; t]); (ctx_err (hd VNil args), a)] r
| RL_cancelled ch t e :
    m_acceptsContext m && m_returnsError m = true ->
    ratelimit_call m b ticks zeros args
      [(ctx_done (hd VNil args), ARet [ch]); (OSelect [ch; VRef ticks], ARet [VInt 0; t]); (ctx_err (hd VNil args), ARet [e])]
      (Val (removelast zeros ++ [e])).

Section RATELIMIT.
Variable W : gworld.
Variable m : method.
Variable L : nat.
Variables base ticks : nat.
Variables (zeros args : list val).
Hypothesis Hwf : wf_method m.
Hypothesis Hhyg : hygienic m [].
Hypothesis Hz : length zeros = length (m_results m).
Hypothesis Ha : length args = length (m_params m).
Hypothesis Hbase : base_typed W m base.
(** the caller's context, when there is one *)
Hypothesis Hctx : m_acceptsContext m = true -> exists c, hd VNil args = VRef c.
Hypothesis Hticks : forall tr vs, w_ans W tr (OSelect [VRef ticks]) = ARet vs -> exists t, vs = [VInt 0; t].
Hypothesis Hselect : forall tr ch vs, w_ans W tr (OSelect [ch; VRef ticks]) = ARet vs -> exists z t, vs = [VInt z; t] /\ (z = 0 \/ z = 1)%Z.
Hypothesis Hdone : m_acceptsContext m = true -> forall tr vs, w_ans W tr (ctx_done (hd VNil args)) = ARet vs -> exists ch, vs = [ch].
Hypothesis Herr : m_acceptsContext m = true -> forall tr vs, w_ans W tr (ctx_err (hd VNil args)) = ARet vs -> exists e, vs = [e].
Let fs := [("_base", VRef base); ("_ticks", VRef ticks)].

Theorem ratelimit_meets :
  let '(r, tr) := run_method W m [] L (ratelimit_body m) (VRec fs) zeros args in
  ratelimit_call m base ticks zeros args tr r.
Proof.
  apply run_method_done. unfold ratelimit_body, ratelimit_wait, call0, Bodies.call, vctx, verr, d_, var.
  assert (Hf : frame m (method_env m)) by (eapply frame_start; [apply Hwf | apply Hhyg]).
  pose proof (fr_d m _ Hf) as Hd.
  assert (F1 : field_of "_base" fs = Some (VRef base)) by reflexivity.
  assert (F2 : field_of "_ticks" fs = Some (VRef ticks)) by reflexivity. clearbody fs.
  destruct (m_acceptsContext m && m_returnsError m) eqn:Hb.
  - apply andb_prop in Hb as Hb2. destruct Hb2 as [Hac He].
    destruct (Hctx Hac) as [c Hc]. pose proof (lookup_ctx m Hwf Hac) as Hlc.
    assert (Hhd : hd_error args = Some (VRef c)).
    { destruct args as [|x rest]; cbn in Hc |- *; [discriminate | now subst x]. }
    specialize (Hdone Hac). specialize (Herr Hac). rewrite Hc in Hdone, Herr.
    pose proof (lookup_err m Hwf He) as Hle.
    wp1. wps. fold (ctx_done (VRef c)). ask1.
    2:{ apply done_panic. rewrite <- Hc. apply RL_done_fails; [exact Hb | reflexivity]. }
    2:{ apply done_blocked. rewrite <- Hc. apply RL_done_fails; [exact Hb | reflexivity]. }
    destruct (Hdone _ _ Heqa) as [ch ->]. wps. ask1.
    2:{ apply done_panic. rewrite <- Hc. apply RL_waits_ctx; [exact Hb | reflexivity]. }
    2:{ apply done_blocked. rewrite <- Hc. apply RL_waits_ctx; [exact Hb | reflexivity]. }
    destruct (Hselect _ _ _ Heqa0) as (z & t & -> & [-> | ->]); cbv iota beta.
    + change (0 =? 0)%Z with true. cbv iota. repeat wp1. fold (ctx_err (VRef c)). ask1.
      2:{ apply done_panic. rewrite <- Hc. apply RL_err_fails; [exact Hb | reflexivity]. }
      2:{ apply done_blocked. rewrite <- Hc. apply RL_err_fails; [exact Hb | reflexivity]. }
      destruct (Herr _ _ Heqa1) as [e ->]. wps.
      assert (Hne : zeros <> []).
      { intros ->. destruct (wf_err m Hwf He) as (r & p & E & _). rewrite E in Hz. destruct r; discriminate. }
      eapply wp_set_error; [exact Hle | exact Hz | exact Hne |]. repeat wp1.
      unfold body_done. cbv zeta. cbn [ms_defers ms_store ms_trace]. apply wp_ret.
      apply wp_load_results; [rewrite replace_last_length; assumption|]. cbn [ms_trace app]. rewrite <- Hc. now apply RL_cancelled.
    + change (0 =? 1)%Z with false. change (0 + 1 =? 1)%Z with true. cbv iota. wps.
      eapply wp_plain_to with (n := base); [exact Hf | exact Hz | exact Ha | | exact Hbase |].
      * intros Q' HQ. repeat wp1. exact HQ.
      * intros a r _ Hr. cbn [app]. rewrite <- Hc. now apply RL_passes_ctx.
  - wp1. wps. ask1.
    2:{ apply done_panic. apply RL_waits; [exact Hb | reflexivity]. }
    2:{ apply done_blocked. apply RL_waits; [exact Hb | reflexivity]. }
    destruct (Hticks _ _ Heqa) as [t ->]. wps.
    eapply wp_plain_to with (n := base); [exact Hf | exact Hz | exact Ha | | exact Hbase |].
    + intros Q' HQ. repeat wp1. exact HQ.
    + intros a r _ Hr. cbn [app]. now apply RL_passes.
Qed.
End RATELIMIT.
