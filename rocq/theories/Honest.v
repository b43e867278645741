(** Every answer in a trace is the one the world gives at that point. *)
From Verif Require Export Sem.
Open Scope nat_scope.

(** [l] happened after [tr] *)
Fixpoint answered (W : gworld) (tr l : trace) : Prop :=
  match l with
  | [] => True
  | (o, a) :: l' => w_ans W tr o = a /\ answered W (tr ++ [(o, a)]) l'
  end.

Lemma answered_app : forall W l1 l2 tr, answered W tr (l1 ++ l2) <-> answered W tr l1 /\ answered W (tr ++ l1) l2.
Proof.
  intros W. induction l1 as [|[o a] l1 IH]; intros l2 tr; cbn [app answered].
  - rewrite app_nil_r. tauto.
  - rewrite IH, <- app_assoc. cbn [app]. tauto.
Qed.

Lemma answered_in : forall W l tr o a, answered W tr l -> In (o, a) l -> exists tr', w_ans W tr' o = a.
Proof.
  intros W. induction l as [|[o' a'] l IH]; intros tr o a H Hin; [destruct Hin|]. destruct H as [H1 H2]. destruct Hin as [E|Hin].
  - injection E as -> ->. eauto.
  - eapply IH; eassumption.
Qed.

Section HONEST.
Variable W : gworld.
Variable m : method.
Variable funcs : list (string * (list string * list gstmt)).
Variable L : nat.

Definition honest {A} (c : G A) : Prop :=
  forall s, exists l, ms_trace (snd (c s)) = ms_trace s ++ l /\ answered W (ms_trace s) l.

Lemma honest_same : forall {A} (c : G A), (forall s, ms_trace (snd (c s)) = ms_trace s) -> honest c.
Proof. intros A c H s. exists []. rewrite H, app_nil_r. now split. Qed.

Lemma honest_ret : forall {A} (a : A), honest (gret a).
Proof. intros. now apply honest_same. Qed.

Lemma honest_stuck : forall {A}, honest (@gstuck A).
Proof. intros. now apply honest_same. Qed.

Lemma honest_panic : forall {A} v, honest (@gpanic A v).
Proof. intros. now apply honest_same. Qed.

Lemma honest_bind : forall {A B} (x : G A) (k : A -> G B), honest x -> (forall a, honest (k a)) -> honest (gbind x k).
Proof.
  intros A B x k Hx Hk s. unfold gbind. destruct (Hx s) as (l & E & Hl). destruct (x s) as [[a|v| | |] s']; cbn [snd] in *; eauto.
  destruct (Hk a s') as (l2 & E2 & Hl2). exists (l ++ l2). rewrite E2, E, <- app_assoc. split; [reflexivity|].
  apply answered_app. rewrite E in Hl2. now split.
Qed.

Lemma honest_ask : forall o, honest (ask_op W o).
Proof.
  intros o s. unfold ask_op. exists [(o, w_ans W (ms_trace s) o)].
  destruct (w_ans W (ms_trace s) o) eqn:E; cbn [snd ms_trace answered]; now repeat split.
Qed.

Ltac hon :=
  lazymatch goal with
  | |- honest (gbind _ _) => apply honest_bind; [|intros ?]
  | |- honest (gret _) => apply honest_ret
  | |- honest gstuck => apply honest_stuck
  | |- honest (gpanic _) => apply honest_panic
  | |- honest (ask_op _ _) => apply honest_ask
  | |- honest (match ?x with _ => _ end) => destruct x
  | |- honest (alloc _) => now apply honest_same
  | |- honest (store _ _) => now apply honest_same
  | |- honest (load _) => apply honest_same; intros ?; unfold load; now destruct (nth_error _ _)
  end.

Lemma honest_loads : forall l, honest (loads l).
Proof. induction l; cbn [loads]; repeat hon. exact IHl. Qed.

Lemma honest_stores : forall l vs, honest (stores l vs).
Proof. induction l; destruct vs; cbn [stores]; repeat hon. apply IHl. Qed.

Lemma honest_names : forall env xs, honest (read_names env xs).
Proof. intros. unfold read_names. repeat hon. apply honest_loads. Qed.

Lemma honest_ident : forall env x, honest (ident env x).
Proof. intros. unfold ident. destruct (lookup x env); [repeat hon | apply honest_ret]. Qed.

Lemma honest_field : forall v f, honest (select_field v f).
Proof. intros. unfold select_field. repeat hon. Qed.

Lemma honest_spread : forall t vs, honest (spread t vs).
Proof. intros. unfold spread. repeat hon. Qed.

Lemma honest_method_target : forall v f l, honest (method_target v f l).
Proof. intros. unfold method_target. repeat hon. Qed.

Lemma honest_call_target : forall v l, honest (call_target funcs v l).
Proof. intros. unfold call_target. repeat hon. Qed.

Lemma honest_binop : forall o a b, honest (binop o a b).
Proof. intros. unfold binop. repeat hon. Qed.

Lemma honest_addr : forall v f, honest (field_addr v f).
Proof. intros. unfold field_addr. repeat hon. Qed.

Lemma honest_index : forall v i, honest (index_of v i).
Proof. intros. unfold index_of. repeat hon. Qed.

Section LEVEL.
Variable call : callable -> G (list val).
Hypothesis Hcall : forall k, honest (call k).

Ltac hons := repeat first [ hon | apply honest_names | apply honest_ident | apply honest_field | apply honest_spread
  | apply honest_method_target | apply honest_call_target | apply honest_binop | apply honest_addr | apply honest_index | apply Hcall | apply honest_loads | apply honest_stores ].

Lemma honest_eval : forall e env, honest (eval W m funcs call env e).
Proof.
  fix IH 1. intros e env.
  assert (Hl : forall l : list gexpr, (forall x, In x l -> honest (eval W m funcs call env x)) ->
     honest ((fix evals (l : list gexpr) : G (list val) :=
       match l with [] => gret [] | x :: l' => let& v := eval W m funcs call env x in let& vs := evals l' in gret (v :: vs) end) l)).
  { induction l as [|x l IHl]; intros H; [apply honest_ret|]. apply honest_bind; [apply H; now left|]. intros v.
    apply honest_bind; [apply IHl; intros; apply H; now right|]. intros. apply honest_ret. }
  destruct e as [x|e f|w|n|o a b|o a|f args t|t e|e t|body|t e mac|r|p|r f|r f|r i].
  - cbn [eval]. hons.
  - pose proof (IH e env) as H1. cbn [eval]. hons. exact H1.
  - cbn [eval]. hons.
  - cbn [eval]. hons.
  - pose proof (IH a env) as H1. pose proof (IH b env) as H2. cbn [eval]. hons; assumption.
  - pose proof (IH a env) as H1. cbn [eval]. destruct (String.eqb o "&"); [destruct a; hons|]. hons. exact H1.
  - assert (Ha : forall x, In x args -> honest (eval W m funcs call env x)).
    { clear Hl. induction args as [|y args IHa]; intros x; [intros []|]. intros [<-|Hx]; [apply IH | now apply IHa]. }
    pose proof (Hl args Ha) as H1. pose proof (IH f env) as H2. destruct f; cbn [eval] in *;
      try (apply honest_bind; [exact H2|]; intros v; apply honest_bind; [exact H1|]; intros vs; hons).
    apply honest_bind; [apply IH|]; intros v; apply honest_bind; [exact H1|]; intros vs; hons.
  - pose proof (IH e env) as H1. exact H1.
  - cbn [eval]. hons.
  - cbn [eval]. hons.
  - pose proof (IH e env) as H1. cbn [eval]. apply honest_bind; [exact H1|]. intros. hons.
  - pose proof (IH r env) as H1. cbn [eval]. apply honest_bind; [exact H1|]. intros. hons.
  - cbn [eval]. hons.
  - pose proof (IH r env) as H1. cbn [eval]. apply honest_bind; [exact H1|]. intros. hons.
  - pose proof (IH r env) as H1. cbn [eval]. apply honest_bind; [exact H1|]. intros. hons.
  - pose proof (IH r env) as H1. pose proof (IH i env) as H2. cbn [eval]. apply honest_bind; [exact H1|]. intros.
    apply honest_bind; [exact H2|]. intros. hons.
Qed.

Lemma honest_evals : forall env l, honest (evals W m funcs call env l).
Proof. intros env. induction l; cbn [evals]; repeat hon; [apply honest_eval | exact IHl]. Qed.

Lemma honest_callee : forall env e, honest (callee W m funcs call env e).
Proof.
  intros env e. unfold callee. destruct e; try apply honest_stuck.
  - destruct e; (apply honest_bind; [apply honest_eval|]; intros; apply honest_bind; [apply honest_evals|]; intros; hons).
  - apply honest_bind; [apply honest_eval|]. intros. hons.
Qed.

Lemma honest_multi : forall env e, honest (eval_multi W m funcs call env e).
Proof.
  intros env e. unfold eval_multi.
  destruct e; try (apply honest_bind; [apply honest_eval | intros; apply honest_ret]);
    (apply honest_bind; [apply honest_callee | intros; apply Hcall]).
Qed.

Lemma honest_assign : forall env l v, honest (assign_to W env l v).
Proof.
  intros. unfold assign_to, pointee. hons.
Qed.

Lemma honest_assigns : forall env l vs, honest (assigns W env l vs).
Proof. intros env. induction l; destruct vs; cbn [assigns]; repeat hon; [apply honest_assign | apply IHl]. Qed.

Lemma honest_defines : forall xs vs top env, honest (defines top env xs vs).
Proof. induction xs; destruct vs; intros; cbn [defines]; repeat hon; apply IHxs. Qed.

Lemma honest_loop : forall c b p n, honest c -> honest b -> honest p -> honest (loop c b p n).
Proof.
  intros c b p n Hc Hb Hp. induction n; cbn [loop]; [now apply honest_same|]. repeat hon; try assumption.
Qed.

Lemma honest_over : forall b l, (forall v, honest (b v)) -> honest (over b l).
Proof. intros b l Hb. induction l; cbn [over]; repeat hon; [apply Hb | exact IHl]. Qed.

Lemma honest_slice : forall v, honest (as_slice v).
Proof. intros. unfold as_slice. repeat hon. Qed.

Lemma honest_bool : forall v, honest (as_bool v).
Proof. intros. unfold as_bool. repeat hon. Qed.

Variable locs : list nat.

Lemma honest_exec : forall st env top, honest (exec W m funcs L call locs env top st).
Proof.
  fix IH 1. intros st env top.
  assert (Hb : forall l : list gstmt, (forall x, In x l -> forall env top, honest (exec W m funcs L call locs env top x)) ->
     forall env top, honest ((fix block (env : loc_env) (top : list string) (l : list gstmt) : G ctl :=
        match l with
        | [] => gret CNext
        | s :: l' => let& r := exec W m funcs L call locs env top s in
                     match fst r with CRet => gret CRet | CNext => block (fst (snd r)) (snd (snd r)) l' end
        end) env top l)).
  { induction l as [|x l IHl]; intros H env' top'; [apply honest_ret|]. apply honest_bind; [apply H; now left|]. intros [c [e t]].
    cbn [fst snd]. destruct c; [apply IHl; intros; apply H; now right | apply honest_ret]. }
  assert (Hk : forall c : G ctl, honest c -> honest (let& x := c in gret (x, (env, top)))).
  { intros c Hc. apply honest_bind; [exact Hc | intros; apply honest_ret]. }
  assert (Hn : forall c : G unit, honest c -> honest (let& _ := c in gret (CNext, (env, top)))).
  { intros c Hc. apply honest_bind; [exact Hc | intros; apply honest_ret]. }
  destruct st as [lhs rhs|rhs|xs rhs|x t|e|init c a b|c a c2 b|init c post body|cases|x| |pfx recv|e|ch e|x e body]; cbn [exec].
  - apply Hn. apply honest_bind; [apply honest_multi | intros; apply honest_assigns].
  - apply Hn. apply honest_bind; [apply honest_multi | intros; apply honest_assigns].
  - apply honest_bind; [apply honest_multi | intros]. apply honest_bind; [apply honest_defines | intros; apply honest_ret].
  - hons.
  - apply Hn. unfold eval_stmt. apply honest_bind; [apply honest_multi | intros; apply honest_ret].
  - assert (Ha : forall x, In x a -> forall env top, honest (exec W m funcs L call locs env top x)).
    { clear Hb. induction a as [|y a IHa]; intros x; [intros []|]. intros [<-|Hx]; [apply IH | now apply IHa]. }
    assert (Hb' : forall x, In x b -> forall env top, honest (exec W m funcs L call locs env top x)).
    { clear Hb. induction b as [|y b IHb]; intros x; [intros []|]. intros [<-|Hx]; [apply IH | now apply IHb]. }
    pose proof (Hb a Ha) as Ha2. pose proof (Hb b Hb') as Hb2.
    apply Hk. apply honest_bind; [destruct init; [apply IH | apply honest_ret]|]. intros [c0 [e t]]. cbn [fst snd].
    apply honest_bind; [apply honest_eval|]. intros. apply honest_bind; [apply honest_bool|]. intros. destruct a1; [apply Ha2 | apply Hb2].
  - assert (Ha : forall x, In x a -> forall env top, honest (exec W m funcs L call locs env top x)).
    { clear Hb. induction a as [|y a IHa]; intros x; [intros []|]. intros [<-|Hx]; [apply IH | now apply IHa]. }
    assert (Hb' : forall x, In x b -> forall env top, honest (exec W m funcs L call locs env top x)).
    { clear Hb. induction b as [|y b IHb]; intros x; [intros []|]. intros [<-|Hx]; [apply IH | now apply IHb]. }
    pose proof (Hb a Ha) as Ha2. pose proof (Hb b Hb') as Hb2.
    apply Hk. apply honest_bind; [apply honest_eval|]. intros. apply honest_bind; [apply honest_bool|]. intros. destruct a1; [apply Ha2|].
    apply honest_bind; [apply honest_eval|]. intros. apply honest_bind; [apply honest_bool|]. intros. destruct a2; [apply Hb2 | apply honest_ret].
  - assert (Ha : forall x, In x body -> forall env top, honest (exec W m funcs L call locs env top x)).
    { clear Hb. induction body as [|y a IHa]; intros x; [intros []|]. intros [<-|Hx]; [apply IH | now apply IHa]. }
    pose proof (Hb body Ha) as Ha2. pose proof (IH post) as Hp.
    apply Hk. apply honest_bind; [apply IH|]. intros [c0 [e t]]. cbn [fst snd].
    apply honest_loop; [apply honest_bind; [apply honest_eval | intros; apply honest_bool] | apply Ha2 |].
    apply honest_bind; [apply Hp | intros; apply honest_ret].
  - assert (Ha : forall x, In x cases -> forall env top,
      honest ((fix block (env : loc_env) (top : list string) (l : list gstmt) : G ctl :=
        match l with
        | [] => gret CNext
        | s :: l' => let& r := exec W m funcs L call locs env top s in
                     match fst r with CRet => gret CRet | CNext => block (fst (snd r)) (snd (snd r)) l' end
        end) env top (snd x))).
    { induction cases as [|[e0 body] cases IHc]; intros x; [intros []|]. intros [<-|Hx]; [|now apply IHc]. cbn [snd]. apply Hb.
      clear -IH. induction body as [|y a IHa]; intros x; [intros []|]. intros [<-|Hx]; [apply IH | now apply IHa]. }
    apply Hk. apply honest_bind; [apply honest_evals|]. intros. apply honest_bind; [apply honest_ask|]. intros vs.
    destruct vs as [|[] [|? [|? ?]]]; try apply honest_stuck. generalize 0%Z. clear -Ha.
    induction cases as [|[e0 body] cases IHc]; intros i; [apply honest_stuck|].
    destruct (i =? z)%Z; [apply (Ha (e0, body)); now left | apply IHc; intros; apply Ha; now right].
  - apply Hn. apply honest_bind; [apply honest_eval|]. intros v. destruct v; try apply honest_stuck. apply honest_assign.
  - apply honest_ret.
  - apply Hk. apply honest_bind; [apply (honest_multi env (EMCall recv))|]. intros vs. destruct (m_results m); [apply honest_ret|].
    apply honest_bind; [apply honest_stores | intros; apply honest_ret].
  - apply Hn. apply honest_bind; [apply honest_callee|]. intros k. now apply honest_same.
  - apply Hn. apply honest_bind; [apply honest_eval|]. intros. apply honest_bind; [apply honest_eval|]. intros. hons.
  - assert (Ha : forall x, In x body -> forall env top, honest (exec W m funcs L call locs env top x)).
    { clear Hb. induction body as [|y a IHa]; intros z; [intros []|]. intros [<-|Hx]; [apply IH | now apply IHa]. }
    pose proof (Hb body Ha) as Ha2.
    apply Hk. apply honest_bind; [apply honest_eval|]. intros. apply honest_bind; [apply honest_slice|]. intros.
    apply honest_over. intros. apply honest_bind; [now apply honest_same|]. intros. apply Ha2.
Qed.

Lemma honest_block : forall l env top, honest (block W m funcs L call locs env top l).
Proof.
  induction l as [|x l IHl]; intros env top; cbn [block]; [apply honest_ret|]. apply honest_bind; [apply honest_exec|].
  intros [c [e t]]. cbn [fst snd]. destruct c; [apply IHl | apply honest_ret].
Qed.

Lemma honest_defers : forall l p, honest (run_defers call l p).
Proof.
  induction l as [|k l IH]; intros p; [apply honest_ret|]. intros s. cbn [run_defers]. destruct (Hcall k s) as (l1 & E1 & H1).
  destruct (call k s) as [[a|v| | |] s']; cbn [snd] in *; eauto;
  match goal with |- context [run_defers call l ?p' s'] => destruct (IH p' s') as (l2 & E2 & H2) end;
  exists (l1 ++ l2); rewrite E2, E1, <- app_assoc; (split; [reflexivity|]); apply answered_app; rewrite E1 in H2; now split.
Qed.

Lemma honest_activation : forall env top body, honest (activation W m funcs L call locs env top body).
Proof.
  intros env top body [st tr saved]. unfold activation. cbn [ms_store ms_trace ms_defers].
  destruct (honest_block body env top (MState st tr [])) as (l1 & E1 & H1).
  destruct (block W m funcs L call locs env top body (MState st tr [])) as [r s1]. cbn [snd ms_trace] in *. cbv zeta.
  destruct r as [c|v| | |]; eauto;
  match goal with |- context [run_defers call (ms_defers s1) ?p ?s] =>
    destruct (honest_defers (ms_defers s1) p s) as (l2 & E2 & H2); destruct (run_defers call (ms_defers s1) p s) as [r2 s2] end;
  cbn [snd ms_trace] in *; exists (l1 ++ l2);
  (assert (Ha : ms_trace s2 = tr ++ l1 ++ l2 /\ answered W tr (l1 ++ l2))
     by (split; [now rewrite E2, E1, app_assoc | apply answered_app; rewrite E1 in H2; now split]));
  destruct r2 as [[w|]|w| | |]; try exact Ha;
  destruct (honest_loads locs (MState (ms_store s2) (ms_trace s2) saved)) as (l3 & E3 & H3);
  (assert (Hl : forall l s, ms_trace (snd (loads l s)) = ms_trace s)
     by (clear; induction l as [|n l IH]; intros s; [reflexivity|]; cbn [loads]; unfold gbind, load;
         destruct (nth_error (ms_store s) n); [|reflexivity]; specialize (IH s); destruct (loads l s) as [[a|v'| | |] s']; exact IH));
  rewrite Hl; exact Ha.
Qed.
End LEVEL.

Lemma honest_allocs : forall names vs env, honest (allocs names vs env).
Proof. induction names; destruct vs; intros; cbn [allocs]; repeat hon. apply IHnames. Qed.

Lemma honest_invoke : forall d k, honest (invoke W m funcs L d k).
Proof.
  induction d as [|d IH]; intros k; destruct k; cbn [invoke]; try apply honest_ask; try apply honest_stuck.
  - apply honest_activation. exact IH.
  - destruct (find_func name funcs) as [[ps body]|]; [|apply honest_stuck].
    apply honest_bind; [apply honest_allocs | intros; apply honest_activation; exact IH].
Qed.

(** The trace of a call is what the world answered, in order. *)
Theorem run_method_answered : forall body recv zeros args,
  answered W [] (snd (run_method W m funcs L body recv zeros args)).
Proof.
  intros body recv zeros args. unfold run_method.
  destruct (honest_activation (invoke W m funcs L depth) (honest_invoke depth) (seq 1 (length (m_results m))) (method_env m)
              ("_d" :: result_names m ++ param_names m) body (MState (recv :: zeros ++ args) [] [])) as (l & E & H).
  destruct (activation _ _ _ _ _ _ _ _ _ _) as [r s]. cbn [snd ms_trace app] in *. now rewrite E.
Qed.
End HONEST.
