(** The bodies of the stock templates obey the rules of Typing.v. *)
From Verif Require Import Render TypesSpec TypesProofs PropNaming PropImplements PropClashes PropScope ScopingProofs ScopedFiles ScopedBodies.
From Verif Require Import TypedFiles TypedTactics.
Open Scope nat_scope.


(** ** templates/fallback *)
Definition res_fields (m : method) : list (string * ty) := map (fun p => (p_name p, param_ty p)) (m_results m).
Definition res_struct (m : method) : ty := TyStruct "_resultStruct" (res_fields m).
Definition res_block (m : method) (b : block) : block := rev (map param_entry (m_results m)) ++ b.

Section FALLBACK.
Variable typ : string.
Variable methods : list method.
Variable structs : list (string * list (list gtok)).
Variable aliases : list (string * list gtok).
Variable top : env.
Notation ety := (ety typ methods structs aliases top).
Notation sty := (sty typ methods structs aliases top).
Notation stys := (stys typ methods structs aliases top).

Lemma param_defaults : forall p, defaults (param_ty p) (param_ty p).
Proof.
  intros p. apply de_same. unfold param_ty, text_ty, t_ctx. cbn [In].
  destruct (p_variadic p); [|destruct (String.eqb _ _)]; intuition discriminate.
Qed.
Lemma define_new : forall l b, NoDup (map p_name l) -> (forall p, In p l -> p_name p <> "_" /\ ~ In (p_name p) (map fst b)) ->
  define typ aliases top b (map p_name l) (map param_ty l) (rev (map param_entry l) ++ b).
Proof.
  induction l as [|p l IH]; intros b N H; cbn [map rev]; [apply df_nil|]. rewrite <- app_assoc. inversion N as [|? ? N1 N2]; subst.
  eapply df_new; [apply (H p); now left | apply (H p); now left | apply param_defaults|].
  apply IH; [exact N2|]. intros q Hq. split; [apply (H q); now right|]. intros [E|E].
  - apply N1. cbn in E. rewrite E. now apply in_map.
  - apply (H q); [now right | exact E].
Qed.
Lemma res_in : forall m b p, In p (m_results m) -> In (p_name p, EVal (param_ty p)) (res_block m b).
Proof. intros m b p H. apply in_or_app. left. apply -> in_rev. apply in_map_iff. exists p. auto. Qed.
Lemma res_old : forall m b x, In x b -> In x (res_block m b).
Proof. intros m b x H. apply in_or_app. now right. Qed.
Lemma res_apart : forall m b xs, clear_of (map p_name (m_results m)) xs -> clear_of (map fst b) xs -> clear_of (map fst (res_block m b)) xs.
Proof.
  intros m b xs A B x Hx H. unfold res_block in H. rewrite map_app, map_rev, map_map in H. apply in_app_or in H as [H|H].
  - apply in_rev in H. exact (A x Hx H).
  - exact (B x Hx H).
Qed.
(** results := _impl.Call *)
Lemma impl_called : forall R G b m r, In m methods -> well_typed m -> NoDup (map p_name (m_results m)) ->
  (forall p, In p (m_results m) -> p_name p <> "_" /\ ~ In (p_name p) (map fst b)) ->
  ety (b :: G) (cterm m r) [TyName typ] -> (forall p, In p (m_params m) -> bound (b :: G) (p_name p) (EVal (param_ty p))) ->
  stys R G b (cst m (CMCall r)) (res_block m b).
Proof.
  intros R G b m r Hm (_ & _ & V1 & V2) N H Hr Hp.
  pose proof (method_called _ _ structs aliases top _ _ _ Hm V1 Hr Hp) as C. unfold result_tys in C. rewrite (result_params _ V2) in C.
  pose proof (define_new _ b N H) as D. unfold res_block.
  cbn [cst]. revert C D. generalize (method_is_call m (cterm m r)). generalize (method_call m (cterm m r)). intros c I C D.
  destruct (m_results m) as [|q rs] eqn:E.
  - eapply ss_cons; [|apply ss_nil]. eapply s_call; [exact I | exact C].
  - eapply ss_cons; [|apply ss_nil]. eapply s_define; [exact C | exact D].
Qed.
(** _resultStruct{results} *)
Lemma tuple_typed : forall G m, bound G "_resultStruct" (EType (res_struct m)) ->
  (forall p, In p (m_results m) -> bound G (p_name p) (EVal (param_ty p))) ->
  ety G (MTuple "_resultStruct" (names_of (m_results m))) [res_struct m].
Proof.
  intros G m B H. eapply t_tuple; [exact B | apply names_typed; exact H|]. unfold res_fields. rewrite map_map. apply same_all.
Qed.
(** return _res.a, _res.b *)
Lemma returned : forall G b named m x, well_typed m -> (m_results m <> [] -> bound (b :: G) x (EVal (res_struct m))) ->
  sty (named, result_tys m) G b (DReturn (map (fun r => MSel (MVar x) (p_name r)) (m_results m))) b.
Proof.
  intros G b named m x (_ & _ & _ & V) H. unfold result_tys. rewrite (result_params _ V).
  destruct (m_results m) as [|q l] eqn:E; [apply s_return; now right|].
  assert (B : bound (b :: G) x (EVal (res_struct m))) by (apply H; discriminate). rewrite <- E in *.
  eapply s_return_all; [rewrite E; discriminate | | apply same_all].
  assert (K : forall l, incl l (m_results m) -> Forall2 (fun e u => ety (b :: G) e [u]) (map (fun r => MSel (MVar x) (p_name r)) l) (map param_ty l)).
  { induction l0 as [|p l0 IH]; intros I; cbn [map]; constructor.
    - eapply t_sel; [apply t_var; exact B|]. apply mb_local. apply in_map_iff. exists p. split; [reflexivity|]. apply I. now left.
    - apply IH. intros y Hy. apply I. now right. }
  apply K. apply incl_refl.
Qed.
End FALLBACK.
