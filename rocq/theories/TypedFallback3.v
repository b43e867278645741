(** The body of templates/fallback obeys the rules of Typing.v. *)
From Verif Require Import Render TypesSpec TypesProofs PropNaming PropImplements PropClashes PropScope ScopingProofs ScopedFiles ScopedBodies.
From Verif Require Import TypedFiles TypedTactics TypedFallback TypedFallback2.
Open Scope nat_scope.

Ltac st_more ::= lazymatch goal with
  | |- sty _ _ _ _ _ _ _ _ (DReturn _) _ => eapply returned; [assumption | intros; first [bnd | contradiction]]
  | |- sty _ _ _ _ _ _ _ _ (DType _ _) _ => eapply s_type; [discriminate | absent | assumption | eassumption]
  end.
Definition fallback_locals : list string := ["_resultStruct"; "_ch"; "_next"; "_errorsList"; "_ticker"; "_cancelFunc"; "_i"; "_impl"; "_res"].
Lemma nodup_later : forall (a b : list string), NoDup (a ++ b) -> NoDup b.
Proof. induction a as [|x a IH]; intros b H; [exact H|]. inversion H; subst. now apply IH. Qed.
Lemma nodup_apart : forall (a b : list string), NoDup (a ++ b) -> forall x, In x a -> In x b -> False.
Proof.
  induction a as [|y a IH]; intros b K x Ha Hb; [destruct Ha|]. inversion K as [|? ? K1 K2]; subst.
  destruct Ha as [->|Ha]; [apply K1; apply in_or_app; now right | exact (IH b K2 x Ha Hb)].
Qed.
Lemma fallback_typed : forall typ methods m P,
  let top := [[("errors", EPkg "errors"); ("fmt", EPkg "fmt"); ("strings", EPkg "strings"); ("time", EPkg "time"); ("context", EPkg "context")]; P; universe] in
  forall dec, In m methods -> well_typed m -> NoDup (map fst (sig_block m)) ->
  clear_of (map fst (sig_block m)) ("_" :: "_d" :: fallback_locals ++ ["nil"; "len"; "append"; "make"; "string"; "errors"; "fmt"; "strings"; "time"; "context"]) ->
  clear_of (map fst P) ["nil"; "len"; "append"; "make"; "string"] ->
  (forall x, In x (type_ids typ) -> ~ In x ("_d" :: fallback_locals ++ map fst (sig_block m))) ->
  (forall p x, In p (m_results m) -> In x (type_ids (p_type p)) -> ~ In x ("_d" :: fallback_locals ++ map fst (sig_block m))) ->
  body_typed typ methods [(dec, fallback_fields typ)] [] top (TyName dec) m (flat_map (cst m) (fallback_body typ m)).
Proof.
  intros typ methods m P top dec Hm W N HA HP HT HR.
  assert (NR : NoDup (map p_name (m_results m))).
  { rewrite sig_names in N. unfold names in N. exact (nodup_later _ _ N). }
  assert (AR : clear_of (map p_name (m_results m)) ["_"; "_ch"; "_resultStruct"; "nil"; "fmt"; "_impl"]).
  { intros x Hx I. apply (HA x); [cbn in *; intuition|]. rewrite sig_names. apply in_or_app. now right. }
  assert (AP : forall p, In p (m_params m) -> p_name p <> "_impl" /\ p_name p <> "_i").
  { intros p Hp. split; intros E.
    - apply (param_apart m _ p "_impl" HA Hp); [cbn; intuition | congruence].
    - apply (param_apart m _ p "_i" HA Hp); [cbn; intuition | congruence]. }
  assert (AC : m_acceptsContext m = true -> ~ In "ctx" (map p_name (m_results m))).
  { intros E I. rewrite sig_names in N. unfold names in N. destruct W as (H & _). destruct (H E) as (p & Hp & Np & _).
    apply (nodup_apart _ _ N "ctx"); [rewrite <- Np; now apply in_map | exact I]. }
  assert (IR : m_returnsError m = true -> In ("err", t_error) (res_fields m)).
  { intros E. destruct W as (_ & H & _). destruct (H E) as (p & Hp & Np & Tp & Vp). apply in_map_iff. exists p. split; [|exact Hp]. unfold param_ty. now rewrite Np, Tp, Vp. }
  assert (TY : forall p y, In p (m_results m) -> In y (type_ids (p_type p)) -> y <> "_resultStruct" /\ outside top y ((("_d", EVal (TyName dec)) :: sig_block m) :: top)).
  { intros p y Hp Hy. pose proof (HR p y Hp Hy) as K. split; [intros ->; apply K; cbn; auto|].
    apply os_out; [|apply os_top]. intros [E|E]; [cbn in E; apply K; now left | apply K; right; apply in_or_app; now right]. }
  subst top. unfold fallback_locals in *. cbn [app] in *.
  pose proof W as (_ & _ & V1 & V2). unfold fallback_body. rewrite flat_map_app. unfold fallback_setup.
  change (flat_map (cst m) (CGo [] (launch_body typ m) [] :: wait_body m)) with (DGo (MCall (launch_fun typ m) [] false) :: flat_map (cst m) (wait_body m)).
  assert (HH : HasResults m = false -> m_results m = []).
  { unfold HasResults. destruct (m_results m); [reflexivity | discriminate]. }
  destruct (m_acceptsContext m) eqn:E1, (m_returnsError m) eqn:E2, (HasResults m) eqn:E3; try (specialize (HH eq_refl));
    try (exfalso; specialize (IR eq_refl); unfold res_fields in IR; rewrite HH in IR; destruct IR; fail); try pose proof (sig_err m W E2); try pose proof (sig_ctx m W E1).
  all: eexists; eapply stys_app; [cbn -[sig_block names_of method_call result_tys universe res_struct]; sts|].
  all: eapply ss_cons; [eapply s_go; [constructor; discriminate | eapply t_call; [eapply (launch_typed _ _ _ _ _ _ dec); auto; try bnd | apply ca_func | apply Forall2_nil | args]]|].
  all: lazymatch goal with
    | |- field _ _ _ _ _ _ => fld
    | |- _ -> ~ In "ctx" _ => intros; congruence
    | |- _ -> bound _ "ctx" _ => let E := fresh in intros E; first [bnd | congruence]
    | |- forall x, In x (type_ids _) -> _ => let x := fresh in let Hx := fresh in let K := fresh in intros x Hx; pose proof (HT x Hx) as K; split;
        [apply os_out; [cbn [map fst In] in *; clear - K; intuition | apply os_top] | intros ->; apply K; cbn [In]; auto 20]
    | |- forall p, In p (m_params _) -> _ => let p := fresh "p" in let Hp := fresh in intros p Hp; split; [par | exact (AP p Hp)]
    | |- _ => idtac end.
  all: unfold wait_body, wait_select, receive_, res_var, on_result, on_done; rewrite ?E1, ?E2, ?E3.
  all: try specialize (IR eq_refl).
  all: cbn -[sig_block names_of method_call result_tys universe].
  all: sts.
Qed.
