(** The body of templates/fallback obeys the rules of Typing.v. *)
From Verif Require Import Render TypesSpec TypesProofs PropNaming PropImplements PropClashes PropScope ScopingProofs ScopedFiles ScopedBodies.
From Verif Require Import TypedFiles TypedTactics TypedFallback.
Open Scope nat_scope.

Definition impl_fun (typ : string) (m : method) : tm := MFun [("_impl", hole typ)] (flat_map (cst m) (impl_body m)).

Ltac ex_more ::= lazymatch goal with
  | |- ety _ _ _ _ _ _ (MTuple _ _) _ => eapply tuple_typed; [bnd | let p := fresh "p" in let Hp := fresh "Hp" in intros p Hp;
       repeat first [apply bound_here; apply res_in; exact Hp | apply bound_out; [intros []|]] ]
  end.
Lemma impl_typed : forall typ methods structs aliases top m G, In m methods -> well_typed m -> NoDup (map p_name (m_results m)) ->
  bound G "_ch" (EVal (TyChan (res_struct m))) -> bound G "_resultStruct" (EType (res_struct m)) ->
  bound G "nil" (EVal TNil) -> bound G "fmt" (EPkg "fmt") -> (m_acceptsContext m = true -> bound G "ctx" (EVal t_ctx)) ->
  (forall x, In x (type_ids typ) -> outside top x G) ->
  (forall p, In p (m_params m) -> bound G (p_name p) (EVal (param_ty p)) /\ p_name p <> "_impl") ->
  clear_of (map p_name (m_results m)) ["_"; "_ch"; "_resultStruct"; "nil"; "fmt"; "_impl"] ->
  (m_acceptsContext m = true -> ~ In "ctx" (map p_name (m_results m))) ->
  ety typ methods structs aliases top G (impl_fun typ m) [TyFunc [TyName typ] None []].
Proof.
  intros typ methods structs aliases top m G Hm W N HC HR HN HF HX HT HP HA HA'.
  set (b := [("_impl", EVal (TyName typ))]).
  assert (K : clear_of (map fst (res_block m b)) ["_ch"; "_resultStruct"; "nil"; "fmt"]).
  { apply res_apart; [intros x Hx; apply HA; cbn in *; intuition | intros x Hx [E|[]]; subst x; cbn in Hx; intuition discriminate]. }
  assert (KI : In ("_impl", EVal (TyName typ)) (res_block m b)) by (apply res_old; now left).
  assert (KE : m_returnsError m = true -> In ("err", EVal t_error) (res_block m b)).
  { intros E. destruct W as (_ & H & _). destruct (H E) as (p & Hp & Np & Tp & Vp). pose proof (res_in m b p Hp) as I. unfold param_ty in I. rewrite Np, Tp, Vp in I. exact I. }
  assert (KC : m_acceptsContext m = true -> ~ In "ctx" (map fst (res_block m b))).
  { intros E. assert (X : clear_of (map fst (res_block m b)) ["ctx"]); [|apply X; now left].
    apply res_apart; [intros x [<-|[]]; auto | intros x [<-|[]] [E'|[]]; discriminate E']. }
  assert (KX : m_acceptsContext m = true -> bound (res_block m b :: G) "ctx" (EVal t_ctx)) by (intros E; apply bound_out; auto).
  unfold impl_fun, impl_body. eapply t_fun; [apply Forall2_cons; [apply dn_interface; exact HT | apply Forall2_nil] | nodups|].
  change (map val_of (combine (map fst [("_impl", hole typ)]) [TyName typ])) with b.
  change (flat_map (cst m) (CMCall (x_ "_impl") :: impl_wrap m ++ [impl_deliver m])) with (cst m (CMCall (x_ "_impl")) ++ flat_map (cst m) (impl_wrap m ++ [impl_deliver m])).
  eapply stys_app.
  - apply impl_called; auto.
    + intros p Hp. split; [intros E; apply (HA "_"); [now left | rewrite <- E; now apply in_map]|]. intros [E|[]]. cbn in E.
      apply (HA "_impl"); [cbn; intuition | rewrite E; now apply in_map].
    + apply t_var. apply bound_here. now left.
    + intros p Hp. destruct (HP p Hp) as [B Ne]. apply bound_out; [intros [E|[]]; cbn in E; congruence | exact B].
  - clearbody b. unfold impl_wrap, impl_deliver. destruct (m_returnsError m) eqn:E1, (m_acceptsContext m) eqn:E2;
      try pose proof (KE eq_refl); try pose proof (KX eq_refl);
      cbn -[sig_block names_of method_call result_tys universe res_struct]; sts.
Qed.

(** the goroutine that starts the implementations *)
Definition launch_fun (typ : string) (m : method) : tm := MFun [] (flat_map (cst m) (launch_body typ m)).
Definition launch_stmts (typ : string) (m : method) : list st :=
  [DBlock [DDefine ["_i"] MNum;
     DFor (Some (MBin "<" (MVar "_i") (MCall (MVar "len") [MSel (MVar "_d") "implementations"] false))) [DInc (MVar "_i")]
       [DGo (MCall (impl_fun typ m) [MIndex (MSel (MVar "_d") "implementations") (MVar "_i")] false);
        DIf (MBin "<" (MVar "_i") (MBin "-" (MCall (MVar "len") [MSel (MVar "_d") "implementations"] false) MNum))
          [DSelect [(DExpr (MUn "<-" (MVar "_next")), []); (DExpr (MUn "<-" (MSel (MVar "_ticker") "C")), [])]] []]]].
Lemma launch_same : forall typ m, flat_map (cst m) (launch_body typ m) = launch_stmts typ m.
Proof. reflexivity. Qed.
Lemma launch_typed : forall typ methods structs aliases top m dec G, In m methods -> well_typed m -> NoDup (map p_name (m_results m)) ->
  bound G "_ch" (EVal (TyChan (res_struct m))) -> bound G "_resultStruct" (EType (res_struct m)) ->
  bound G "_next" (EVal (TyChan (TyStruct "" []))) -> bound G "_ticker" (EVal (TyPtr (TyQual "time" "Ticker"))) ->
  bound G "_d" (EVal (TyName dec)) -> field typ structs top dec "implementations" (TySlice (TyName typ)) -> bound G "len" EBuiltin ->
  bound G "nil" (EVal TNil) -> bound G "fmt" (EPkg "fmt") -> (m_acceptsContext m = true -> bound G "ctx" (EVal t_ctx)) ->
  (forall x, In x (type_ids typ) -> outside top x G /\ x <> "_i") ->
  (forall p, In p (m_params m) -> bound G (p_name p) (EVal (param_ty p)) /\ p_name p <> "_impl" /\ p_name p <> "_i") ->
  clear_of (map p_name (m_results m)) ["_"; "_ch"; "_resultStruct"; "nil"; "fmt"; "_impl"] ->
  (m_acceptsContext m = true -> ~ In "ctx" (map p_name (m_results m))) ->
  ety typ methods structs aliases top G (launch_fun typ m) [thunk].
Proof.
  intros typ methods structs aliases top m dec G Hm W N HC HR HX HK HD HF HL HN HM Hctx HT HP HA HA'.
  assert (L : forall b1 b3, map fst b1 = [] -> map fst b3 = [] -> ety typ methods structs aliases top (b1 :: [("_i", EVal t_int)] :: b3 :: G) (impl_fun typ m) [TyFunc [TyName typ] None []]).
  { intros b1 b3 E1 E3. assert (B : forall x e, bound G x e -> x <> "_i" -> bound (b1 :: [("_i", EVal t_int)] :: b3 :: G) x e).
    { intros x e B Nx. apply bound_out; [rewrite E1; intros []|]. apply bound_out; [intros [E|[]]; cbn in E; congruence|]. apply bound_out; [rewrite E3; intros [] | exact B]. }
    apply impl_typed; auto; try (apply B; [assumption | discriminate]).
    - intros E. apply B; [auto | discriminate].
    - intros x Hx. destruct (HT x Hx) as [O Ne]. apply os_out; [rewrite E1; intros []|]. apply os_out; [intros [E|[]]; cbn in E; congruence|]. apply os_out; [rewrite E3; intros [] | exact O].
    - intros p Hp. destruct (HP p Hp) as (Bp & N1 & N2). split; [apply B; assumption | exact N1]. }
  unfold launch_fun. rewrite launch_same. unfold launch_stmts. eapply t_fun; [apply Forall2_nil | nodups|]. cbn [map combine fst snd].
  eapply ss_cons; [eapply s_block | apply ss_nil]. eapply ss_cons; [eapply s_define; [apply t_num | def]|].
  eapply ss_cons; [|apply ss_nil]. eapply s_for; [intros e E; injection E as <-; ex | sts|].
  eapply ss_cons; [eapply s_go; [constructor; discriminate|]; eapply t_call; [apply L; reflexivity | apply ca_func | exs | args]|]. sts.
Qed.
