(** Property C81, for templates/fallback: within a call, no goroutine assigns a
    variable that another one may use at the same time.  This is what lets
    Goroutines.v run statements without communication in one step. *)
From Verif Require Import FallbackBody FallbackCalls.
Open Scope nat_scope.

(** ** Specification: which variables statements use *)
Section USES.
Variable m : method.
(** a variable and whether it is assigned *)
Definition uses := list (string * bool).
Definition rd (xs : list string) : uses := map (fun x => (x, false)) xs.
Definition wr (xs : list string) : uses := map (fun x => (x, true)) xs.
(** [xs] are declared in here: the variables outside called so are others *)
Definition minus (xs : list string) (u : uses) : uses := filter (fun p => negb (existsb (String.eqb (fst p)) xs)) u.

Fixpoint xvars (e : cexpr) : list string :=
  match e with
  | XVar x => [x]
  | XStr _ | XNum _ | XUnit => []
  | XSel e _ => xvars e
  | XIndex a b | XBin _ a b => xvars a ++ xvars b
  | XCall f args => xvars f ++ flat_map xvars args
  | XResults _ => result_names m
  end.
Definition kvars (k : ccomm) : list string := match k with KRecv _ ch => xvars ch | KSend ch e => xvars ch ++ xvars e end.
Definition kdecl (k : ccomm) : list string := match k with KRecv (Some x) _ => [x] | _ => [] end.

(** what the rest of the block finds declared *)
Definition decl (s : cstmt) : list string :=
  match s with
  | CType x | CMake x _ _ | CVar x _ | CTicker x _ => [x]
  | CWithCancel _ c => [c]
  | CComm k => kdecl k
  | CMCall _ => result_names m
  | _ => []
  end.

(** the variables a statement uses, also in the goroutines it starts; a return
    uses the results of the method *)
Fixpoint suses (s : cstmt) : uses :=
  let buses := fix go (l : list cstmt) : uses := match l with [] => [] | s :: l' => suses s ++ minus (decl s) (go l') end in
  match s with
  | CType _ | CVar _ _ => []
  | CMake _ _ e => rd ("make" :: xvars e)
  | CTicker _ e => rd ("time" :: xvars e)
  | CWithCancel x _ => wr [x] ++ rd ["context"; x]
  | CDefer e => rd (xvars e)
  | CGo ps body args => rd (flat_map xvars args) ++ minus (map fst ps) (buses body)
  | CFor x c body => minus [x] (wr [x] ++ rd (x :: xvars c) ++ buses body)
  | CEver body => buses body
  | CIf c body => rd (xvars c) ++ buses body
  | CSelect cases _ => flat_map (fun c => rd (kvars (fst c)) ++ minus (kdecl (fst c)) (buses (snd c))) cases
  | CComm k => rd (kvars k)
  | CSet x e => wr [x] ++ rd (xvars e)
  | CReturn => rd (result_names m)
  | CReturnStruct x => rd [x] ++ wr (result_names m)
  | CMCall r => rd (xvars r ++ param_names m)
  end.
Fixpoint buses (l : list cstmt) : uses := match l with [] => [] | s :: l' => suses s ++ minus (decl s) (buses l') end.

Definition conflict (u v : uses) : Prop := exists x w w', In (x, w) u /\ In (x, w') v /\ (w || w')%bool = true.

(** [l] starts no goroutine that conflicts with what happens after: [k] is what
    follows the block, in loops also the loop itself *)
Fixpoint undisturbed (k : uses) (s : cstmt) : Prop :=
  let block := fix go (k : uses) (l : list cstmt) : Prop :=
    match l with [] => True | s :: l' => undisturbed (buses l' ++ k) s /\ go k l' end in
  match s with
  | CGo ps body _ => ~ conflict (minus (map fst ps) (buses body)) k /\ block [] body
  | CFor x c body => block (wr [x] ++ rd (x :: xvars c) ++ buses body ++ k) body
  | CEver body => block (buses body ++ k) body
  | CIf _ body => block k body
  | CSelect cases _ => (fix each (cs : list (ccomm * list cstmt)) : Prop := match cs with [] => True | c :: cs' => block k (snd c) /\ each cs' end) cases
  | _ => True
  end.
Fixpoint no_conflicts (k : uses) (l : list cstmt) : Prop :=
  match l with [] => True | s :: l' => undisturbed (buses l' ++ k) s /\ no_conflicts k l' end.
End USES.

(** ** Proof *)
Lemma in_minus : forall xs u p, In p (minus xs u) <-> In p u /\ ~ In (fst p) xs.
Proof.
  intros xs u p. unfold minus. rewrite filter_In, negb_true_iff. split; intros [H1 H2]; (split; [exact H1|]).
  - intros H. assert (existsb (String.eqb (fst p)) xs = true) by (apply existsb_exists; exists (fst p); split; [exact H | apply String.eqb_refl]). congruence.
  - destruct (existsb (String.eqb (fst p)) xs) eqn:E; [|reflexivity]. apply existsb_exists in E. destruct E as (x & Hx & E).
    apply String.eqb_eq in E. subst x. contradiction.
Qed.
Lemma in_rd : forall xs p, In p (rd xs) <-> In (fst p) xs /\ snd p = false.
Proof.
  intros xs [x w]. unfold rd. rewrite in_map_iff. cbn. split; [intros (y & E & H); injection E as <- <-; auto | intros [H ->]; eauto].
Qed.
Lemma in_wr : forall xs p, In p (wr xs) <-> In (fst p) xs /\ snd p = true.
Proof.
  intros xs [x w]. unfold wr. rewrite in_map_iff. cbn. split; [intros (y & E & H); injection E as <- <-; auto | intros [H ->]; eauto].
Qed.

Section FALLBACK.
Variables (typ : string) (m : method).
Hypothesis Hids : hygienic m fallback_ids.
Hypothesis Hnodup : NoDup (result_names m ++ param_names m).
Hypothesis Herr : m_returnsError m = true -> In "err" (result_names m).
Hypothesis Hctx : m_acceptsContext m = true -> In "ctx" (param_names m).

Ltac walk := repeat first
  [ rewrite in_app_iff | rewrite in_minus | rewrite in_rd | rewrite in_wr ];
  cbn [suses buses decl kdecl xvars kvars flat_map map fst snd app].
Ltac walk_in H := repeat (progress first
  [ rewrite in_app_iff in H | rewrite in_minus in H | rewrite in_rd in H | rewrite in_wr in H ];
  cbn [suses buses decl kdecl xvars kvars flat_map map fst snd app In] in H).

Lemma apart : forall x, In x (result_names m) -> ~ In x (param_names m).
Proof.
  intros x. revert Hnodup. generalize (result_names m). induction l as [|y l IH]; [intros _ []|]. cbn. intros N [<-|Hx] P; inversion N as [|? ? N1 N2]; subst.
  - apply N1, in_or_app. now right.
  - now apply IH.
Qed.

(** what one implementation's goroutine uses: it assigns nothing *)
Lemma impl_uses : forall p, In p (minus ["_impl"] (buses m (impl_body m))) ->
  snd p = false /\ (In (fst p) ["_ch"; "fmt"; "nil"] \/ In (fst p) (param_names m)).
Proof.
  intros [x w]. unfold impl_body, impl_wrap, impl_deliver, ctx_done_, x_.
  destruct (m_returnsError m) eqn:E1, (m_acceptsContext m) eqn:E2; cbn [app]; intros H; cbn [buses suses] in H; walk_in H; cbn [fst snd] in *;
  cbn [In]; rewrite ?E1, ?E2 in *; intuition (subst; auto); exfalso; auto.
Qed.

(** what the launcher uses, the goroutines it starts included *)
Lemma launch_uses : forall p, In p (buses m (launch_body typ m)) ->
  snd p = false /\ (In (fst p) ["_ch"; "fmt"; "nil"; "_d"; "len"; "_next"; "_ticker"] \/ In (fst p) (param_names m)).
Proof.
  intros p H. unfold launch_body, launch_loop in H. cbn [buses] in H.
  change (suses m (CFor "_i" launch_cond ?l)) with (minus ["_i"] (wr ["_i"] ++ rd ("_i" :: xvars m launch_cond) ++ buses m l)) in H.
  cbn [buses decl] in H.
  change (suses m (CGo ?ps ?b ?a)) with (rd (flat_map (xvars m) a) ++ minus (map fst ps) (buses m b)) in H. cbn [map fst] in H.
  rewrite app_nil_r in H.
  apply in_minus in H. destruct H as [H N].
  rewrite !in_app_iff, !in_minus in H. pose proof (impl_uses p) as I. rewrite in_minus in I.
  destruct p as [x w]. unfold launch_cond, launch_wait, n_impls, impls_, call1, x_ in H. walk_in H. cbn [fst snd In] in *.
  intuition (subst; auto).
Qed.

(** what the caller assigns afterwards *)
Lemma wait_writes : forall x, In (x, true) (buses m (wait_body m)) -> x = "_errorsList" \/ In x (result_names m).
Proof.
  intros x. unfold wait_body, wait_select, on_result, on_done, receive_, res_var, if_good, append_err, if_all_failed, n_impls, impls_, call1, ctx_done_, joined_, x_.
  destruct (m_returnsError m) eqn:E1, (m_acceptsContext m) eqn:E2, (HasResults m); intros H; cbn [buses suses app] in H; walk_in H; cbn [fst snd In] in *;
  rewrite ?E1, ?E2 in *; intuition (subst; auto; try discriminate).
Qed.

Lemma hyg : forall x, In x ("nil" :: "_d" :: fallback_ids) -> ~ In x (result_names m) /\ ~ In x (param_names m).
Proof.
  intros x Hx. assert (N : ~ In x (result_names m ++ param_names m)) by (apply Hids; cbn in *; intuition).
  rewrite in_app_iff in N. tauto.
Qed.

Lemma launcher_and_caller : ~ conflict (minus [] (buses m (launch_body typ m))) (buses m (wait_body m) ++ []).
Proof.
  intros (x & w & w' & H1 & H2 & E). rewrite app_nil_r in H2. apply in_minus in H1. destruct H1 as [H1 _].
  destruct (launch_uses _ H1) as [W L]. cbn in W, L. subst w. cbn in E. subst w'. destruct (wait_writes _ H2) as [->|R].
  - destruct L as [L|L]; [cbn in L; intuition discriminate|]. now destruct (hyg "_errorsList" ltac:(cbn; tauto)).
  - destruct L as [L|L]; [|now apply (apart x)]. destruct (hyg x); [cbn in *; tauto | contradiction].
Qed.

Lemma implementations : ~ conflict (minus ["_impl"] (buses m (impl_body m)))
  (buses m [launch_wait] ++ wr ["_i"] ++ rd ("_i" :: xvars m launch_cond) ++ buses m (launch_loop typ m) ++ []).
Proof.
  intros (x & w & w' & H1 & H2 & E). destruct (impl_uses _ H1) as [W L]. cbn in W, L. subst w. cbn in E. subst w'.
  assert (N : x <> "_i").
  { intros ->. destruct L as [L|L]; [intuition discriminate|]. now destruct (hyg "_i" ltac:(cbn; tauto)). }
  rewrite app_nil_r in H2. unfold launch_loop in H2. cbn [buses decl] in H2.
  change (suses m (CGo ?ps ?b ?a)) with (rd (flat_map (xvars m) a) ++ minus (map fst ps) (buses m b)) in H2. cbn [map fst] in H2.
  rewrite !in_app_iff in H2. pose proof (fun H => proj1 (impl_uses (x, true) H)) as I. cbn [snd] in I.
  unfold launch_wait in H2. walk_in H2. rewrite in_minus in I. cbn [fst snd In] in *. intuition (subst; auto; try discriminate).
Qed.

Theorem fallback_no_conflicts : no_conflicts m [] (fallback_body typ m).
Proof.
  assert (L : undisturbed m (buses m (wait_body m) ++ []) (CGo [] (launch_body typ m) [])).
  { cbn [undisturbed map]. split; [exact launcher_and_caller|]. unfold launch_body. split; [|exact I]. cbn [undisturbed]. unfold launch_loop.
    split; [|cbn; auto]. split; [exact implementations|]. unfold impl_body, impl_wrap, impl_deliver.
    destruct (m_returnsError m), (m_acceptsContext m); cbn; auto 10. }
  assert (W : no_conflicts m [] (wait_body m)).
  { unfold wait_body, wait_select, on_result, on_done, if_good, append_err, if_all_failed.
    destruct (m_returnsError m), (m_acceptsContext m); cbn; auto 20. }
  unfold fallback_body, fallback_setup.
  destruct (m_returnsError m), (m_acceptsContext m); cbn [app no_conflicts]; repeat (split; [first [exact L | exact I]|]); exact W.
Qed.
End FALLBACK.

Theorem C81_fallback : forall typ m, hygienic m fallback_ids -> NoDup (result_names m ++ param_names m) ->
  (m_returnsError m = true -> In "err" (result_names m)) -> (m_acceptsContext m = true -> In "ctx" (param_names m)) ->
  no_conflicts m [] (fallback_body typ m).
Proof. intros. now apply fallback_no_conflicts. Qed.

(** ** Examples *)

(** Get(ctx context.Context, key string) (value string, err error): the caller
    assigns ctx before it starts the launcher, which uses it, and the launcher's
    loop variable is used by the loop only *)
Definition ex_get_key : method := Method [] [] "Get"
  [Param [] [] "ctx" "context.Context" false; Param [] [] "key" "string" false]
  [Param [] [] "value" "string" false; Param [] [] "err" "error" false] true true.
Example C81_fallback_nontrivial :
  no_conflicts ex_get_key [] (fallback_body "Store" ex_get_key) /\ In ("ctx", true) (suses ex_get_key (CWithCancel "ctx" "_cancelFunc"))
  /\ In ("ctx", false) (buses ex_get_key (launch_body "Store" ex_get_key)) /\ In ("err", true) (buses ex_get_key (wait_body ex_get_key)).
Proof.
  split; [|split; [cbn; tauto | split; cbn; tauto]].
  apply C81_fallback; [| | cbn; tauto | cbn; tauto].
  - intros x Hx. cbn in *. intuition (subst; discriminate).
  - repeat constructor; cbn; intuition discriminate.
Qed.

(** The definitions do find conflicts: were the implementation taken inside the
    goroutine, it would use the loop variable while the loop increments it. *)
Example C81_loop_variable : ~ no_conflicts ex_get_key []
  [CFor "_i" launch_cond [CGo [] [CMCall (XIndex impls_ (x_ "_i"))] []; launch_wait]].
Proof.
  intros [[[H _] _] _]. apply H. exists "_i", false, true. split; [cbn; tauto|]. split; [cbn; tauto | reflexivity].
Qed.

(** Were the results assigned in the goroutine instead of declared there, they
    would be the method's, which the caller assigns. *)
Example C81_captured_result : ~ no_conflicts ex_get_key [] (CGo [] [CSet "err" (x_ "nil")] [] :: wait_body ex_get_key).
Proof. intros [[H _] _]. apply H. exists "err", true, true. split; [cbn; tauto|]. split; [cbn; tauto | reflexivity]. Qed.

(** The condition on names is needed: a parameter _i is hidden by the launcher's
    loop variable, which then is what the goroutines pass on while the loop
    increments it (a data race where loop variables are per loop, before Go
    1.22, and the wrong argument anyway). *)
Definition ex_nth : method := Method [] [] "Nth" [Param [] [] "_i" "int" false] [Param [] [] "s" "string" false] false false.
Theorem C81_names_refuted : NoDup (result_names ex_nth ++ param_names ex_nth) /\ ~ no_conflicts ex_nth [] (fallback_body "Store" ex_nth).
Proof.
  split; [repeat constructor; cbn; intuition discriminate|].
  intros (_ & _ & _ & _ & _ & (_ & H) & _). destruct H as [[[H _] _] _]. apply H. exists "_i", false, true. split; [cbn; tauto|]. split; [cbn; tauto | reflexivity].
Qed.

Print Assumptions C81_fallback.
Print Assumptions C81_names_refuted.
