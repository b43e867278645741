(** No method body of MiniGo.v swallows a panic: Go recovers from one only in a
    deferred function that calls recover.  How a call ends and what it was
    answered fit together. *)
From Verif Require Export Bodies.
Open Scope nat_scope.

(** ** Specification *)

(** the panics of Go itself, MiniGo.v *)
Definition go_panic (v : val) : Prop := v = nil_deref \/ v = zero_division \/ v = bad_index.

(** the value of the last operation that panicked *)
Fixpoint last_panic (tr : trace) : option val :=
  match tr with
  | [] => None
  | (_, a) :: tr' => match last_panic tr', a with
                     | Some v, _ => Some v
                     | None, APan v => Some v
                     | None, _ => None
                     end
  end.
Definition returned (x : op * ans) : Prop := exists l, snd x = ARet l.
Definition ended (x : op * ans) : Prop := snd x <> ABlock.

(** how a call ends, given what was answered *)
Definition fits {A} (r : out A) (tr : trace) : Prop :=
  match r with
  | Val _ => Forall returned tr
  | Pan v => Forall ended tr /\ (last_panic tr = Some v \/ go_panic v)
  | Blk => exists tr' o, tr = tr' ++ [(o, ABlock)] /\ Forall ended tr'
  | _ => True
  end.

(** ** Proof *)
Lemma returned_ended : forall tr, Forall returned tr -> Forall ended tr.
Proof. intros tr H. eapply Forall_impl; [|exact H]. intros [o a] (l & E). cbn in E. subst a. unfold ended. cbn. discriminate. Qed.
Lemma last_returned : forall tr, Forall returned tr -> last_panic tr = None.
Proof. induction 1 as [|[o a] tr (l & E) _ IH]; [reflexivity|]. cbn in E. subst a. cbn. now rewrite IH. Qed.
Lemma last_app : forall a b, last_panic (a ++ b) = match last_panic b with Some v => Some v | None => last_panic a end.
Proof.
  induction a as [|[o x] a IH]; intros b; [cbn [app last_panic]; now destruct (last_panic b)|]. cbn [app last_panic]. rewrite IH. now destruct (last_panic b).
Qed.
Lemma fits_app : forall {A} (r : out A) a b, Forall returned a -> fits r b -> fits r (a ++ b).
Proof.
  intros A r a b Ha H. pose proof (returned_ended a Ha) as E. destruct r as [x|v| | |]; cbn in *; auto.
  - now apply Forall_app.
  - destruct H as [H1 [H2|H2]]; (split; [now apply Forall_app|]); [left; now rewrite last_app, H2 | now right].
  - destruct H as (b' & o & -> & H). exists (a ++ b'), o. split; [apply app_assoc | now apply Forall_app].
Qed.

Definition loud {A} (c : G A) : Prop := forall s, exists tr, ms_trace (snd (c s)) = ms_trace s ++ tr /\ fits (fst (c s)) tr.

Lemma loud_still : forall {A} (c : G A), (forall s, ms_trace (snd (c s)) = ms_trace s /\ match fst (c s) with Pan v => go_panic v | Blk => False | _ => True end) -> loud c.
Proof.
  intros A c H s. destruct (H s) as [E F]. exists []. rewrite app_nil_r. split; [exact E|].
  destruct (fst (c s)); cbn; auto; contradiction.
Qed.
Lemma loud_ret : forall {A} (a : A), loud (gret a).
Proof. intros. apply loud_still. now split. Qed.
Lemma loud_stuck : forall {A}, @loud A gstuck.
Proof. intros. apply loud_still. now split. Qed.
Lemma loud_fuel : forall {A}, @loud A (fun s => (NoFuel, s)).
Proof. intros. apply loud_still. now split. Qed.
Lemma loud_panic : forall {A} v, go_panic v -> @loud A (gpanic v).
Proof. intros. apply loud_still. now split. Qed.
Lemma loud_bind : forall {A B} (x : G A) (k : A -> G B), loud x -> (forall a, loud (k a)) -> loud (gbind x k).
Proof.
  intros A B x k Hx Hk s. unfold gbind. destruct (Hx s) as (tr & E & F). destruct (x s) as [[a|v| | |] s']; cbn [fst snd] in *;
    try (exists tr; split; [exact E | exact F]).
  destruct (Hk a s') as (tr2 & E2 & F2). exists (tr ++ tr2). split; [now rewrite E2, E, app_assoc | now apply fits_app].
Qed.
Lemma loud_alloc : forall v, loud (alloc v).
Proof. intros. apply loud_still. now split. Qed.
Lemma loud_load : forall n, loud (load n).
Proof. intros. apply loud_still. intros s. unfold load. now destruct (nth_error _ _). Qed.
Lemma loud_store : forall n v, loud (store n v).
Proof. intros. apply loud_still. now split. Qed.

Ltac loud_go :=
  repeat first
    [ assumption
    | apply loud_ret | apply loud_stuck | apply loud_fuel | apply loud_alloc | apply loud_load | apply loud_store
    | (apply loud_panic; unfold go_panic; tauto)
    | (apply loud_bind; [|intros])
    | match goal with
      | H : forall _, loud _ |- _ => apply H
      | H : forall _ _, loud _ |- _ => apply H
      | H : forall _ _ _, loud _ |- _ => apply H
      | |- loud (if ?x then _ else _) => destruct x
      | |- loud (match ?x with _ => _ end) => destruct x
      end ].

Lemma loud_loads : forall l, loud (loads l).
Proof. induction l; cbn [loads]; loud_go. Qed.
Lemma loud_stores : forall l vs, loud (stores l vs).
Proof. induction l; intros [|v vs]; cbn [stores]; loud_go. Qed.
Lemma loud_names : forall env xs, loud (read_names env xs).
Proof. intros. unfold read_names. pose proof loud_loads. loud_go. Qed.
Lemma loud_ident : forall env x, loud (ident env x).
Proof. intros. unfold ident. destruct (lookup x env); [apply loud_load | apply loud_ret]. Qed.
Lemma loud_field : forall v f, loud (select_field v f).
Proof. intros. unfold select_field. loud_go. Qed.
Lemma loud_spread : forall t vs, loud (spread t vs).
Proof. intros. unfold spread. loud_go. Qed.
Lemma loud_method_target : forall v f l, loud (method_target v f l).
Proof. intros. unfold method_target. loud_go. Qed.
Lemma loud_binop : forall o a b, loud (binop o a b).
Proof. intros. unfold binop. loud_go. Qed.
Lemma loud_addr : forall v f, loud (field_addr v f).
Proof. intros. unfold field_addr. loud_go. Qed.
Lemma loud_index : forall v i, loud (index_of v i).
Proof. intros. unfold index_of. loud_go. Qed.
Lemma loud_defines : forall xs vs top env, loud (defines top env xs vs).
Proof. induction xs; intros [|v vs] top env; cbn [defines]; loud_go. Qed.
Lemma loud_loop : forall c b p n, loud c -> loud b -> loud p -> loud (loop c b p n).
Proof. intros c b p n Hc Hb Hp. induction n; cbn [loop]; loud_go. Qed.
Lemma loud_over : forall b l, (forall v, loud (b v)) -> loud (over b l).
Proof. intros b l H. induction l; cbn [over]; loud_go. Qed.
Lemma loud_slice : forall v, loud (as_slice v).
Proof. intros. unfold as_slice. loud_go. Qed.
Lemma loud_bool : forall v, loud (as_bool v).
Proof. intros. unfold as_bool. loud_go. Qed.
Lemma loud_allocs : forall names vs env, loud (allocs names vs env).
Proof. induction names; intros [|v vs] env; cbn [allocs]; loud_go. Qed.
Lemma loud_pointee : forall v, loud (pointee v).
Proof. intros. unfold pointee. loud_go. Qed.
Lemma loud_defer : forall k : callable, loud (fun s => (Val tt, MState (ms_store s) (ms_trace s) (k :: ms_defers s))).
Proof. intros. apply loud_still. now split. Qed.

Section LOUD.
Variable W : gworld.
Variable m : method.
Variable funcs : list (string * (list string * list gstmt)).
Variable L : nat.

Lemma loud_ask : forall o, loud (ask_op W o).
Proof.
  intros o s. exists [(o, w_ans W (ms_trace s) o)]. unfold ask_op. destruct (w_ans W (ms_trace s) o) as [l|v|]; cbn [fst snd ms_trace fits]; (split; [reflexivity|]).
  - constructor; [now exists l | constructor].
  - split; [constructor; [discriminate | constructor] | now left].
  - exists [], o. split; [reflexivity | constructor].
Qed.
Lemma loud_call_target : forall v l, loud (call_target funcs v l).
Proof. intros. unfold call_target. loud_go. Qed.

Section LEVEL.
Variable call : callable -> G (list val).
Hypothesis Hcall : forall k, loud (call k).

Ltac loud_all := repeat first [progress loud_go | apply loud_ask | apply loud_names | apply loud_ident | apply loud_field | apply loud_spread
  | apply loud_method_target | apply loud_call_target | apply loud_binop | apply loud_addr | apply loud_index | apply loud_slice | apply loud_bool
  | apply loud_stores | apply loud_loads | apply loud_pointee | apply loud_defines | apply loud_defer].

Lemma loud_eval : forall e env, loud (eval W m funcs call env e).
Proof.
  fix IH 1. intros e env.
  assert (Hl : forall l : list gexpr, (forall x, In x l -> loud (eval W m funcs call env x)) ->
     loud ((fix evals (l : list gexpr) : G (list val) :=
       match l with [] => gret [] | x :: l' => let& v := eval W m funcs call env x in let& vs := evals l' in gret (v :: vs) end) l)).
  { induction l as [|x l IHl]; intros H; [apply loud_ret|]. apply loud_bind; [apply H; now left|]. intros v.
    apply loud_bind; [apply IHl; intros; apply H; now right|]. intros. apply loud_ret. }
  destruct e as [x|e f|w|n|o a b|o a|f args t|t e|e t|body|t e mac|r|p|r f|r f|r i].
  - cbn [eval]. apply loud_ident.
  - pose proof (IH e env) as H1. cbn [eval]. loud_all.
  - cbn [eval]. apply loud_ret.
  - cbn [eval]. loud_all.
  - pose proof (IH a env) as H1. pose proof (IH b env) as H2. cbn [eval]. clear IH Hl. loud_all.
  - pose proof (IH a env) as H1. cbn [eval]. clear IH Hl. destruct (String.eqb o "&"); [destruct a; loud_all | loud_all].
  - assert (Ha : forall x, In x args -> loud (eval W m funcs call env x)).
    { clear Hl. induction args as [|y args IHa]; intros x; [intros []|]. intros [<-|Hx]; [apply IH | now apply IHa]. }
    pose proof (Hl args Ha) as H1. pose proof (IH f env) as H2.
    assert (H3 : forall r g, f = ESel r g -> loud (eval W m funcs call env r)) by (destruct f; intros r g E; try discriminate; injection E as <- <-; apply IH).
    clear IH Hl Ha. destruct f; cbn [eval] in *; try (loud_all; fail).
    specialize (H3 _ _ eq_refl). clear H2. loud_all.
  - exact (IH e env).
  - cbn [eval]. apply loud_stuck.
  - cbn [eval]. apply loud_ret.
  - pose proof (IH e env) as H1. cbn [eval]. clear IH Hl. loud_all.
  - pose proof (IH r env) as H1. cbn [eval]. clear IH Hl. loud_all.
  - cbn [eval]. clear IH Hl. loud_all.
  - pose proof (IH r env) as H1. cbn [eval]. clear IH Hl. loud_all.
  - pose proof (IH r env) as H1. cbn [eval]. clear IH Hl. loud_all.
  - pose proof (IH r env) as H1. pose proof (IH i env) as H2. cbn [eval]. clear IH Hl. loud_all.
Qed.
Lemma loud_evals : forall env l, loud (evals W m funcs call env l).
Proof. pose proof loud_eval. induction l; cbn [evals]; loud_all. Qed.
Lemma loud_callee : forall env e, loud (callee W m funcs call env e).
Proof. intros. pose proof loud_eval. pose proof loud_evals. unfold callee. loud_all. Qed.
Lemma loud_multi : forall env e, loud (eval_multi W m funcs call env e).
Proof. intros. pose proof loud_eval. pose proof loud_callee. unfold eval_multi. destruct e; loud_all. Qed.
Lemma loud_assign : forall env l v, loud (assign_to W env l v).
Proof. intros. unfold assign_to. loud_all. Qed.
Lemma loud_assigns : forall env l vs, loud (assigns W env l vs).
Proof. pose proof loud_assign. induction l; intros [|v vs]; cbn [assigns]; loud_all. Qed.

Variable locs : list nat.

Lemma loud_exec : forall st env top, loud (exec W m funcs L call locs env top st).
Proof.
  fix IH 1. intros st env top.
  assert (Hb : forall l : list gstmt, (forall x, In x l -> forall env top, loud (exec W m funcs L call locs env top x)) ->
     forall env top, loud ((fix block (env : loc_env) (top : list string) (l : list gstmt) : G ctl :=
        match l with
        | [] => gret CNext
        | s :: l' => let& r := exec W m funcs L call locs env top s in
                     match fst r with CRet => gret CRet | CNext => block (fst (snd r)) (snd (snd r)) l' end
        end) env top l)).
  { induction l as [|x l IHl]; intros H env' top'; [apply loud_ret|]. apply loud_bind; [apply H; now left|]. intros [c [e t]].
    cbn [fst snd]. destruct c; [apply IHl; intros; apply H; now right | apply loud_ret]. }
  assert (Hall : forall l : list gstmt, (forall x, In x l -> forall env top, loud (exec W m funcs L call locs env top x)) -> True) by auto.
  pose proof loud_eval as He. pose proof loud_multi as Hm. pose proof loud_assigns as Ha0. pose proof loud_assign as Ha1. pose proof loud_callee as Hc0.
  pose proof loud_evals as Hes.
  destruct st as [lhs rhs|rhs|xs rhs|x t|e|init c a b|c a c2 b|init c post body|cases|x| |pfx recv|e|ch e|x e body]; cbn [exec].
  - clear IH Hb. loud_all.
  - clear IH Hb. loud_all.
  - clear IH Hb. loud_all.
  - clear IH Hb. loud_all.
  - clear IH Hb. unfold eval_stmt. loud_all.
  - assert (Ha : forall x, In x a -> forall env top, loud (exec W m funcs L call locs env top x)).
    { clear Hb. induction a as [|y a IHa]; intros x; [intros []|]. intros [<-|Hx]; [intros; apply IH | now apply IHa]. }
    assert (Hb' : forall x, In x b -> forall env top, loud (exec W m funcs L call locs env top x)).
    { clear Hb. induction b as [|y b IHb]; intros x; [intros []|]. intros [<-|Hx]; [intros; apply IH | now apply IHb]. }
    pose proof (Hb a Ha) as Ha2. pose proof (Hb b Hb') as Hb2.
    assert (Hi : loud (match init with None => gret (CNext, (env, [])) | Some i => exec W m funcs L call locs env [] i end)).
    { destruct init; [apply IH | apply loud_ret]. }
    clear IH Hb Ha Hb' Hall. apply loud_bind; [|intros; apply loud_ret]. apply loud_bind; [exact Hi|]. intros r. loud_all.
  - assert (Ha : forall x, In x a -> forall env top, loud (exec W m funcs L call locs env top x)).
    { clear Hb. induction a as [|y a IHa]; intros x; [intros []|]. intros [<-|Hx]; [intros; apply IH | now apply IHa]. }
    assert (Hb' : forall x, In x b -> forall env top, loud (exec W m funcs L call locs env top x)).
    { clear Hb. induction b as [|y b IHb]; intros x; [intros []|]. intros [<-|Hx]; [intros; apply IH | now apply IHb]. }
    pose proof (Hb a Ha) as Ha2. pose proof (Hb b Hb') as Hb2. clear IH Hb Ha Hb' Hall. loud_all.
  - assert (Ha : forall x, In x body -> forall env top, loud (exec W m funcs L call locs env top x)).
    { clear Hb. induction body as [|y a IHa]; intros x; [intros []|]. intros [<-|Hx]; [intros; apply IH | now apply IHa]. }
    pose proof (Hb body Ha) as Ha2. pose proof (fun env top => IH post env top) as Hp. pose proof (IH init env []) as Hi. clear IH Hb Ha Hall.
    apply loud_bind; [|intros; apply loud_ret]. apply loud_bind; [exact Hi|]. intros r. apply loud_loop; loud_all.
  - assert (Ha : forall x, In x cases -> forall env top,
      loud ((fix block (env : loc_env) (top : list string) (l : list gstmt) : G ctl :=
        match l with
        | [] => gret CNext
        | s :: l' => let& r := exec W m funcs L call locs env top s in
                     match fst r with CRet => gret CRet | CNext => block (fst (snd r)) (snd (snd r)) l' end
        end) env top (snd x))).
    { induction cases as [|[e0 body] cases IHc]; intros x; [intros []|]. intros [<-|Hx]; [|now apply IHc]. cbn [snd]. apply Hb.
      clear -IH. induction body as [|y a IHa]; intros x; [intros []|]. intros [<-|Hx]; [intros; apply IH | now apply IHa]. }
    apply loud_bind; [|intros; apply loud_ret]. apply loud_bind; [apply Hes|]. intros chs. apply loud_bind; [apply loud_ask|]. intros vs.
    destruct vs as [|[] [|? [|? ?]]]; try apply loud_stuck. generalize 0%Z. clear -Ha.
    induction cases as [|[e0 body] cases IHc]; intros i; [apply loud_stuck|].
    destruct (i =? z)%Z; [apply (Ha (e0, body)); now left | apply IHc; intros; apply Ha; now right].
  - clear IH Hb. loud_all.
  - apply loud_ret.
  - clear IH Hb. loud_all.
  - clear IH Hb. loud_all.
  - clear IH Hb. loud_all.
  - assert (Ha : forall x, In x body -> forall env top, loud (exec W m funcs L call locs env top x)).
    { clear Hb. induction body as [|y a IHa]; intros z; [intros []|]. intros [<-|Hx]; [intros; apply IH | now apply IHa]. }
    pose proof (Hb body Ha) as Ha2. clear IH Hb Ha Hall. apply loud_bind; [|intros; apply loud_ret]. apply loud_bind; [apply He|]. intros v.
    apply loud_bind; [apply loud_slice|]. intros l. apply loud_over. intros w. apply loud_bind; [apply loud_alloc|]. intros n. apply Ha2.
Qed.

Lemma loud_block : forall l env top, loud (block W m funcs L call locs env top l).
Proof.
  induction l as [|x l IHl]; intros env top; cbn [block]; [apply loud_ret|]. apply loud_bind; [apply loud_exec|]. intros [c [e t]]. cbn [fst snd].
  destruct c; [apply IHl | apply loud_ret].
Qed.

(** deferred calls, while panicking with [p] *)
Definition fits_defers (p : option val) (r : out (option val)) (tr : trace) : Prop :=
  match r with
  | Val q => (q = p /\ Forall returned tr) \/ exists v, q = Some v /\ Forall ended tr /\ (last_panic tr = Some v \/ go_panic v)
  | Pan v => False
  | Blk => exists tr' o, tr = tr' ++ [(o, ABlock)] /\ Forall ended tr'
  | _ => True
  end.
Lemma loud_defers : forall l p s, exists tr, ms_trace (snd (run_defers call l p s)) = ms_trace s ++ tr /\ fits_defers p (fst (run_defers call l p s)) tr.
Proof.
  induction l as [|k l IH]; intros p s; cbn [run_defers].
  { exists []. rewrite app_nil_r. split; [reflexivity|]. left. split; [reflexivity | constructor]. }
  destruct (Hcall k s) as (tr & E & F). destruct (call k s) as [[a|v| | |] s']; cbn [fst snd] in *.
  - destruct (IH p s') as (tr2 & E2 & F2). exists (tr ++ tr2). split; [now rewrite E2, E, app_assoc|]. pose proof (returned_ended _ F) as Fe.
    destruct (fst (run_defers call l p s')) as [q|v| | |]; cbn in *; auto.
    + destruct F2 as [(-> & H)|(v & -> & H1 & H2)]; [left; split; [reflexivity | now apply Forall_app] | right; exists v; split; [reflexivity|]].
      split; [now apply Forall_app|]. destruct H2 as [H2|H2]; [left; now rewrite last_app, H2 | now right].
    + destruct F2 as (b' & o & -> & H). exists (tr ++ b'), o. split; [apply app_assoc | now apply Forall_app].
  - destruct F as [F1 F3]. destruct (IH (Some v) s') as (tr2 & E2 & F2). exists (tr ++ tr2). split; [now rewrite E2, E, app_assoc|].
    destruct (fst (run_defers call l (Some v) s')) as [q|w| | |]; cbn in *; auto.
    + right. destruct F2 as [(-> & H)|(w & -> & H1 & H2)].
      * exists v. split; [reflexivity|]. split; [apply Forall_app; split; [exact F1 | now apply returned_ended]|].
        destruct F3 as [F3|F3]; [left; rewrite last_app, (last_returned _ H); exact F3 | now right].
      * exists w. split; [reflexivity|]. split; [now apply Forall_app|]. destruct H2 as [H2|H2]; [left; now rewrite last_app, H2 | now right].
    + destruct F2 as (b' & o & -> & H). exists (tr ++ b'), o. split; [apply app_assoc | now apply Forall_app].
  - exists tr. now split.
  - exists tr. now split.
  - exists tr. now split.
Qed.

Lemma loud_activation : forall env top body, loud (activation W m funcs L call locs env top body).
Proof.
  intros env top body s. unfold activation. destruct (loud_block body env top (MState (ms_store s) (ms_trace s) [])) as (tr & E & F).
  destruct (block W m funcs L call locs env top body (MState (ms_store s) (ms_trace s) [])) as [r s1]. cbn [fst snd ms_trace] in *. cbv zeta.
  assert (K : forall p, Forall ended tr -> (match p with None => Forall returned tr | Some v => last_panic tr = Some v \/ go_panic v end) ->
    let x := match run_defers call (ms_defers s1) p (MState (ms_store s1) (ms_trace s1) []) with
             | (Val (Some v), s2) => (Pan v, MState (ms_store s2) (ms_trace s2) (ms_defers s))
             | (Val None, s2) => loads locs (MState (ms_store s2) (ms_trace s2) (ms_defers s))
             | (Pan v, s2) => (Pan v, MState (ms_store s2) (ms_trace s2) (ms_defers s))
             | (Blk, s2) => (Blk, s2) | (NoFuel, s2) => (NoFuel, s2) | (Stuck, s2) => (Stuck, s2)
             end in
    exists tr, ms_trace (snd x) = ms_trace s ++ tr /\ fits (fst x) tr).
  { intros p He Hp. destruct (loud_defers (ms_defers s1) p (MState (ms_store s1) (ms_trace s1) [])) as (tr2 & E2 & F2).
    destruct (run_defers call (ms_defers s1) p (MState (ms_store s1) (ms_trace s1) [])) as [r2 s2]. cbn [fst snd ms_trace] in *. rewrite E, <- app_assoc in E2.
    destruct r2 as [[w|]|w| | |]; cbv zeta; cbn [fits_defers] in F2.
    - exists (tr ++ tr2). split; [exact E2|]. cbn [fst fits]. destruct F2 as [(Eq & H)|(v & Eq & H1 & H2)].
      + subst p. split; [apply Forall_app; split; [exact He | now apply returned_ended]|].
        destruct Hp as [Hp|Hp]; [left; rewrite last_app, (last_returned _ H); exact Hp | now right].
      + injection Eq as <-. split; [now apply Forall_app|]. destruct H2 as [H2|H2]; [left; now rewrite last_app, H2 | now right].
    - destruct F2 as [(Eq & H)|(v & Eq & _)]; [|discriminate]. subst p.
      destruct (loud_loads locs (MState (ms_store s2) (ms_trace s2) (ms_defers s))) as (tr3 & E3 & F3). cbn [ms_trace] in E3.
      exists ((tr ++ tr2) ++ tr3). split; [rewrite E3, E2; now rewrite !app_assoc|]. apply fits_app; [now apply Forall_app | exact F3].
    - contradiction.
    - exists (tr ++ tr2). split; [exact E2|]. destruct F2 as (b' & o & -> & H). exists (tr ++ b'), o. split; [apply app_assoc | now apply Forall_app].
    - exists (tr ++ tr2). now split.
    - exists (tr ++ tr2). now split. }
  destruct r as [c|v| | |].
  - apply (K None); [now apply returned_ended | exact F].
  - apply (K (Some v)); apply F.
  - exists tr. now split.
  - exists tr. now split.
  - exists tr. now split.
Qed.
End LEVEL.

Lemma loud_invoke : forall d k, loud (invoke W m funcs L d k).
Proof.
  induction d as [|d IH]; intros k; destruct k; cbn [invoke]; try apply loud_ask; try apply loud_stuck.
  - now apply loud_activation.
  - destruct (find_func name funcs) as [[ps body]|]; [|apply loud_stuck]. apply loud_bind; [apply loud_allocs|]. intros env. now apply loud_activation.
Qed.

Theorem run_fits : forall body recv zeros args r tr, run_method W m funcs L body recv zeros args = (r, tr) -> fits r tr.
Proof.
  intros body recv zeros args r tr H. unfold run_method in H.
  destruct (loud_activation (invoke W m funcs L depth) (loud_invoke depth) (seq 1 (length (m_results m))) (method_env m)
              ("_d" :: result_names m ++ param_names m) body (MState (recv :: zeros ++ args) [] [])) as (tr' & E & F).
  destruct (activation _ _ _ _ _ _ _ _ _ _) as [r' s]. cbn [fst snd ms_trace app] in *. injection H as <- <-. now rewrite E.
Qed.
End LOUD.
