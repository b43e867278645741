(** Method bodies that access no variable other calls may change: whatever the
    outside answers, a call never asks [OGet] or [OSet]. *)
From Verif Require Export Races Bodies.
Open Scope nat_scope.

(** ** Syntax: no field that other calls may change is read or assigned; its
    address may be passed on (templates/robinpool:38, to atomic.AddUint32) *)
Fixpoint quiet_e (e : gexpr) : bool :=
  match e with
  | EVar _ | EStr _ | EInt _ | EMap _ => true
  | ESel e _ | EUn _ e | EConv _ e | EAssert e _ | ESliceLit _ e _ | EMCall e | EAddr e _ => quiet_e e
  | EBin _ a b | EIndex a b => quiet_e a && quiet_e b
  | ECall f args _ => quiet_e f && forallb quiet_e args
  | EFun body => forallb quiet_s body
  | EShared _ _ => false
  end
with quiet_s (s : gstmt) : bool :=
  match s with
  | SAssign lhs rhs => forallb quiet_e lhs && quiet_e rhs
  | SResults e | SDefine _ e | SExpr e | SInc e | SPass _ e | SDefer e => quiet_e e
  | SVar _ _ | SReturn => true
  | SIf init c a b => match init with Some i => quiet_s i | None => true end && quiet_e c && forallb quiet_s a && forallb quiet_s b
  | SElseIf c a c2 b => quiet_e c && forallb quiet_s a && quiet_e c2 && forallb quiet_s b
  | SFor init c post body => quiet_s init && quiet_e c && quiet_s post && forallb quiet_s body
  | SSelect cases => forallb (fun c => quiet_e (fst c) && forallb quiet_s (snd c)) cases
  | SSend ch e => quiet_e ch && quiet_e e
  | SRange _ e body => quiet_e e && forallb quiet_s body
  end.
Definition quiet (body : list gstmt) : bool := forallb quiet_s body.

(** values: the closures in them are quiet; values from outside have none, see
    [VRef] in MiniGo.v *)
Fixpoint okv (v : val) : bool :=
  match v with
  | VClo _ body => quiet body
  | VOf v _ => okv v
  | VRec l | VMap l => forallb (fun p => okv (snd p)) l
  | VSlice l => forallb okv l
  | _ => true
  end.
Definition okvs (l : list val) : bool := forallb okv l.

Definition ok_answers (W : gworld) : Prop := forall tr o,
  match w_ans W tr o with ARet l => okvs l = true | APan v => okv v = true | ABlock => True end.

Definition no_access (o : op) : bool := match access o with None => true | Some _ => false end.

Section QUIET.
Variable W : gworld.
Variable m : method.
Variable funcs : list (string * (list string * list gstmt)).
Variable L : nat.
Hypothesis HW : ok_answers W.
Hypothesis Hfuncs : forallb (fun f => quiet (snd (snd f))) funcs = true.

Definition okk (k : callable) : bool :=
  match k with KOp o => no_access o | KClo _ body => quiet body | KFun _ args => okvs args end.
Definition inv (s : mstate) : Prop :=
  okvs (ms_store s) = true /\ forallb okk (ms_defers s) = true /\ forallb (fun x => no_access (fst x)) (ms_trace s) = true.
Definition safe {A} (P : A -> Prop) (c : G A) : Prop := forall s, inv s ->
  inv (snd (c s)) /\ match fst (c s) with Val a => P a | Pan v => okv v = true | _ => True end.
Definition any {A} (_ : A) : Prop := True.
Definition good (v : val) : Prop := okv v = true.
Definition goods (l : list val) : Prop := okvs l = true.

Lemma safe_ret : forall {A} (P : A -> Prop) a, P a -> safe P (gret a).
Proof. intros A P a H s I. now split. Qed.
Lemma safe_stuck : forall {A} (P : A -> Prop), safe P gstuck.
Proof. intros A P s I. now split. Qed.
Lemma safe_panic : forall {A} (P : A -> Prop) v, okv v = true -> safe P (gpanic v).
Proof. intros A P v H s I. now split. Qed.
Lemma safe_bind : forall {A B} (P : A -> Prop) (Q : B -> Prop) x k, safe P x -> (forall a, P a -> safe Q (k a)) -> safe Q (gbind x k).
Proof.
  intros A B P Q x k Hx Hk s I. unfold gbind. destruct (Hx s I) as [I1 H1]. destruct (x s) as [[a|v| | |] s']; cbn [fst snd] in *; try (now split).
  now apply Hk.
Qed.
Lemma safe_weak : forall {A} (P Q : A -> Prop) c, safe P c -> (forall a, P a -> Q a) -> safe Q c.
Proof. intros A P Q c H PQ s I. destruct (H s I) as [I1 H1]. split; [exact I1|]. destruct (fst (c s)); auto. Qed.

Lemma okvs_nth : forall l n v, okvs l = true -> nth_error l n = Some v -> okv v = true.
Proof. intros l n v H E. apply nth_error_In in E. now apply (proj1 (forallb_forall _ _) H). Qed.
Lemma okvs_set : forall l n v, okvs l = true -> okv v = true -> okvs (set_nth n v l) = true.
Proof.
  induction l as [|x l IH]; intros [|n] v H V; cbn in *; auto; apply andb_true_iff in H; destruct H as [H1 H2]; apply andb_true_iff; split; auto.
Qed.

Lemma safe_ask : forall o, no_access o = true -> safe goods (ask_op W o).
Proof.
  intros o N s (I1 & I2 & I3). unfold ask_op. pose proof (HW (ms_trace s) o) as A.
  assert (T : forall a, forallb (fun x : op * ans => no_access (fst x)) (ms_trace s ++ [(o, a)]) = true).
  { intros a. rewrite forallb_app, I3. cbn. now rewrite N. }
  destruct (w_ans W (ms_trace s) o); cbn [fst snd]; (split; [split; [exact I1 | split; [exact I2 | apply T]] | exact A]).
Qed.
Lemma safe_alloc : forall v, okv v = true -> safe any (alloc v).
Proof. intros v V s (I1 & I2 & I3). cbn. split; [|exact I]. split; [|now split]. cbn. unfold okvs in *. rewrite forallb_app, I1. cbn. now rewrite V. Qed.
Lemma safe_load : forall n, safe good (load n).
Proof. intros n s I. pose proof I as (I1 & _). unfold load. destruct (nth_error (ms_store s) n) eqn:E; cbn; [|now split]. split; [exact I|]. eapply okvs_nth; eassumption. Qed.
Lemma safe_store : forall n v, okv v = true -> safe any (store n v).
Proof. intros n v V s (I1 & I2 & I3). cbn. split; [|exact I]. split; [now apply okvs_set | now split]. Qed.

Lemma safe_loads : forall l, safe goods (loads l).
Proof.
  induction l as [|n l IH]; cbn [loads]; [now apply safe_ret|]. eapply safe_bind; [apply safe_load|]. intros v V.
  eapply safe_bind; [exact IH|]. intros vs Vs. apply safe_ret. unfold goods, okvs. cbn. now rewrite V.
Qed.
Lemma safe_stores : forall l vs, okvs vs = true -> safe any (stores l vs).
Proof.
  induction l as [|n l IH]; intros [|v vs] H; cbn [stores]; try apply safe_stuck; [now apply safe_ret|].
  cbn in H. apply andb_true_iff in H. destruct H as [H1 H2]. eapply safe_bind; [now apply safe_store|]. intros _ _. now apply IH.
Qed.
Lemma safe_names : forall env xs, safe goods (read_names env xs).
Proof. intros env xs. unfold read_names. destruct (lookups xs env); [apply safe_loads | apply safe_stuck]. Qed.
Lemma safe_ident : forall env x, safe good (ident env x).
Proof.
  intros env x. unfold ident. destruct (lookup x env); [apply safe_load|]. apply safe_ret. unfold good.
  destruct (String.eqb x "nil"); [reflexivity|]. now destruct (String.eqb x "true").
Qed.
Lemma field_ok : forall f l v, forallb (fun p : string * val => okv (snd p)) l = true -> field_of f l = Some v -> okv v = true.
Proof.
  induction l as [|[g w] l IH]; intros v H E; [discriminate|]. cbn in H, E. apply andb_true_iff in H. destruct H as [H1 H2].
  destruct (String.eqb f g); [now injection E as <- | now apply IH].
Qed.
Lemma safe_field : forall v f, okv v = true -> safe good (select_field v f).
Proof.
  intros v f V. unfold select_field. destruct v as [| | | | |v0 f0|l| | | | |]; try apply safe_stuck; try (now apply safe_panic); try (now apply safe_ret).
  cbn in V. destruct (field_of f l) eqn:E; [|apply safe_stuck]. apply safe_ret. eapply field_ok; eassumption.
Qed.
Lemma safe_spread : forall t vs, okvs vs = true -> safe goods (spread t vs).
Proof.
  intros t vs V. unfold spread. destruct t; try (now apply safe_ret). destruct vs as [|[| | | | | | | |l| | |] [|? ?]]; try apply safe_stuck.
  apply safe_ret. cbn in V. now rewrite andb_true_r in V.
Qed.
Definition goodk (k : callable) : Prop := okk k = true.
Lemma safe_method_target : forall v f l, okv v = true -> safe goodk (method_target v f l).
Proof.
  intros v f l V. unfold method_target. destruct v as [| | | | | |r| | | | |]; try apply safe_stuck; try (now apply safe_panic); try (now apply safe_ret).
  destruct (field_of f r) as [[]|]; try apply safe_stuck; try (now apply safe_panic); now apply safe_ret.
Qed.
Lemma safe_call_target : forall v l, okv v = true -> okvs l = true -> safe goodk (call_target funcs v l).
Proof.
  intros v l V Vs. unfold call_target. destruct v; try apply safe_stuck; try (now apply safe_panic); try (now apply safe_ret).
  - destruct (existsb _ _); now apply safe_ret.
  - destruct l; [now apply safe_ret | apply safe_stuck].
Qed.
Lemma safe_binop : forall o a b, safe good (binop o a b).
Proof.
  intros o a b. unfold binop.
  repeat match goal with |- safe _ (if ?x then _ else _) => destruct x | |- safe _ (match ?x with _ => _ end) => destruct x end;
    try apply safe_stuck; try (now apply safe_ret); now apply safe_panic.
Qed.
Lemma safe_addr : forall v f, safe any (field_addr v f).
Proof. intros v f. unfold field_addr. destruct v; try apply safe_stuck. destruct (field_of f l) as [[]|]; try apply safe_stuck. now apply safe_ret. Qed.
Lemma safe_index : forall v i, okv v = true -> safe good (index_of v i).
Proof.
  intros v i V. unfold index_of. destruct v; try apply safe_stuck. destruct i; try apply safe_stuck. destruct (z <? 0)%Z; [now apply safe_panic|].
  destruct (nth_error l (Z.to_nat z)) eqn:E; [|now apply safe_panic]. apply safe_ret. cbn in V. eapply okvs_nth; eassumption.
Qed.

Section LEVEL.
Variable call : callable -> G (list val).
Hypothesis Hcall : forall k, okk k = true -> safe goods (call k).

Lemma safe_one : forall rs, okvs rs = true -> safe good (match rs with [x] => gret x | _ => gstuck end).
Proof. intros [|x [|? ?]] H; try apply safe_stuck. apply safe_ret. cbn in H. now rewrite andb_true_r in H. Qed.

Lemma ok_entries : forall (xs : list string) vs, okvs vs = true -> okv (VMap (entries xs vs)) = true.
Proof.
  unfold entries. cbn [okv]. induction xs as [|x xs IH]; intros [|v vs] H; cbn in *; auto. apply andb_true_iff in H. destruct H as [H1 H2].
  rewrite H1. now apply IH.
Qed.

Lemma safe_eval : forall e env, quiet_e e = true -> safe good (eval W m funcs call env e).
Proof.
  fix IH 1. intros e env Q.
  assert (Hl : forall l : list gexpr, (forall x, In x l -> safe good (eval W m funcs call env x)) ->
     safe goods ((fix evals (l : list gexpr) : G (list val) :=
       match l with [] => gret [] | x :: l' => let& v := eval W m funcs call env x in let& vs := evals l' in gret (v :: vs) end) l)).
  { induction l as [|x l IHl]; intros H; [now apply safe_ret|]. eapply safe_bind; [apply H; now left|]. intros v V.
    eapply safe_bind; [apply IHl; intros; apply H; now right|]. intros vs Vs. apply safe_ret. unfold goods, okvs. cbn. now rewrite V. }
  destruct e as [x|e f|w|n|o a b|o a|f args t|t e|e t|body|t e mac|r|p|r f|r f|r i].
  - cbn [eval]. apply safe_ident.
  - cbn [quiet_e] in Q. cbn [eval]. eapply safe_bind; [now apply IH|]. intros v V. now apply safe_field.
  - cbn [eval]. now apply safe_ret.
  - cbn [eval]. destruct (parse_int n); [now apply safe_ret | apply safe_stuck].
  - cbn [quiet_e] in Q. apply andb_true_iff in Q. destruct Q as [Q1 Q2]. pose proof (IH a env Q1) as H1. pose proof (IH b env Q2) as H2.
    cbn [eval]. eapply safe_bind; [exact H1|]. intros x X.
    destruct (String.eqb o "||"); [destruct x as [|[]| | | | | | | | | |]; try apply safe_stuck; [now apply safe_ret | exact H2]|].
    destruct (String.eqb o "&&"); [destruct x as [|[]| | | | | | | | | |]; try apply safe_stuck; [exact H2 | now apply safe_ret]|].
    eapply safe_bind; [exact H2|]. intros y Y. apply safe_binop.
  - cbn [quiet_e] in Q. pose proof (IH a env Q) as H1. cbn [eval]. destruct (String.eqb o "&").
    + destruct a; try apply safe_stuck. destruct (lookup (wtext x) env); [now apply safe_ret | apply safe_stuck].
    + eapply safe_bind; [exact H1|]. intros x X. destruct (String.eqb o "*").
      { destruct x; try apply safe_stuck; [now apply safe_panic | apply safe_load]. }
      destruct (String.eqb o "!"); [destruct x; try apply safe_stuck; now apply safe_ret|].
      destruct (String.eqb o "<-"); [|apply safe_stuck]. eapply safe_bind; [now apply safe_ask|]. intros vs Vs.
      destruct vs as [|[| |[]| | | | | | | | |] [|v [|? ?]]]; try apply safe_stuck. apply safe_ret. unfold goods, okvs in Vs. cbn in Vs. unfold good. now destruct (okv v).
  - cbn [quiet_e] in Q. apply andb_true_iff in Q. destruct Q as [Q1 Q2].
    assert (Ha : forall x, In x args -> safe good (eval W m funcs call env x)).
    { clear Hl. induction args as [|y args IHa]; intros x; [intros []|]. cbn in Q2. apply andb_true_iff in Q2. destruct Q2 as [Q2 Q3].
      intros [<-|Hx]; [now apply IH | now apply IHa]. }
    pose proof (Hl args Ha) as H1. pose proof (IH f env Q1) as H2.
    assert (K : forall c : val -> list val -> G callable, (forall v vs, okv v = true -> okvs vs = true -> safe goodk (c v vs)) ->
              forall v vs, good v -> goods vs -> safe good (let& vs := spread t vs in let& k := c v vs in let& rs := call k in match rs with [x] => gret x | _ => gstuck end)).
    { intros c Hc v vs V Vs. eapply safe_bind; [now apply safe_spread|]. intros vs2 Vs2. eapply safe_bind; [now apply Hc|]. intros k Hk.
      eapply safe_bind; [now apply Hcall|]. intros rs Hr. now apply safe_one. }
    destruct f; cbn [eval] in *;
      try (eapply safe_bind; [exact H2|]; intros v V; eapply safe_bind; [exact H1|]; intros vs Vs; apply (K (call_target funcs)); auto using safe_call_target; fail).
    eapply safe_bind; [apply IH; exact Q1|]. intros v V. eapply safe_bind; [exact H1|]. intros vs Vs.
    apply (K (fun v vs => method_target v (wtext f0) vs)); auto using safe_method_target.
  - exact (IH e env Q).
  - cbn [eval]. apply safe_stuck.
  - cbn [eval]. now apply safe_ret.
  - cbn [quiet_e] in Q. pose proof (IH e env Q) as H1. cbn [eval]. eapply safe_bind; [exact H1|]. intros x X. eapply safe_bind; [apply safe_names|].
    intros vs Vs. apply safe_ret. unfold good. cbn. now rewrite X.
  - cbn [quiet_e] in Q. pose proof (IH r env Q) as H1. cbn [eval]. eapply safe_bind; [exact H1|]. intros v V. eapply safe_bind; [apply safe_names|].
    intros vs Vs. eapply safe_bind; [now apply safe_method_target|]. intros k Hk. eapply safe_bind; [now apply Hcall|]. intros rs Hr. now apply safe_one.
  - cbn [eval]. eapply safe_bind; [apply safe_names|]. intros vs Vs. apply safe_ret. now apply ok_entries.
  - discriminate.
  - cbn [quiet_e] in Q. pose proof (IH r env Q) as H1. cbn [eval]. eapply safe_bind; [exact H1|]. intros v V. eapply safe_bind; [apply safe_addr|].
    intros n _. now apply safe_ret.
  - cbn [quiet_e] in Q. apply andb_true_iff in Q. destruct Q as [Q1 Q2]. pose proof (IH r env Q1) as H1. pose proof (IH i env Q2) as H2. cbn [eval].
    eapply safe_bind; [exact H1|]. intros v V. eapply safe_bind; [exact H2|]. intros j J. now apply safe_index.
Qed.

Lemma safe_evals : forall env l, forallb quiet_e l = true -> safe goods (evals W m funcs call env l).
Proof.
  intros env. induction l as [|x l IH]; intros Q; cbn [evals]; [now apply safe_ret|]. cbn in Q. apply andb_true_iff in Q. destruct Q as [Q1 Q2].
  eapply safe_bind; [now apply safe_eval|]. intros v V. eapply safe_bind; [now apply IH|]. intros vs Vs. apply safe_ret. unfold goods, okvs. cbn. now rewrite V.
Qed.

Lemma safe_callee : forall env e, quiet_e e = true -> safe goodk (callee W m funcs call env e).
Proof.
  intros env e Q. unfold callee. destruct e; try apply safe_stuck.
  - cbn [quiet_e] in Q. apply andb_true_iff in Q. destruct Q as [Q1 Q2].
    destruct e; (eapply safe_bind; [now apply safe_eval|]; intros v V; eapply safe_bind; [now apply safe_evals|]; intros vs Vs;
                 eapply safe_bind; [now apply safe_spread|]; intros vs2 Vs2); first [now apply safe_method_target | now apply safe_call_target].
  - cbn [quiet_e] in Q. eapply safe_bind; [now apply safe_eval|]. intros v V. eapply safe_bind; [apply safe_names|]. intros vs Vs. now apply safe_method_target.
Qed.

Lemma safe_multi : forall env e, quiet_e e = true -> safe goods (eval_multi W m funcs call env e).
Proof.
  intros env e Q. unfold eval_multi.
  assert (S : safe goods (let& v := eval W m funcs call env e in gret [v])).
  { eapply safe_bind; [now apply safe_eval|]. intros v V. apply safe_ret. unfold goods, okvs. cbn. now rewrite V. }
  assert (C : safe goods (let& k := callee W m funcs call env e in call k)).
  { eapply safe_bind; [now apply safe_callee|]. intros k K. now apply Hcall. }
  destruct e; try exact S; try exact C.
  eapply safe_bind; [now apply safe_eval|]. intros v V. apply safe_ret. unfold goods. destruct (negb (is_nil v) && w_has W v t)%bool; [|reflexivity].
  unfold okvs. cbn. now rewrite V.
Qed.

Lemma safe_assign : forall env l v, quiet_e l = true -> okv v = true -> safe any (assign_to W env l v).
Proof.
  intros env l v Q V. unfold assign_to. destruct l; try apply safe_stuck.
  - destruct (lookup (wtext x) env); [now apply safe_store | apply safe_stuck].
  - destruct l; try apply safe_stuck. destruct (String.eqb op "*"); [|apply safe_stuck]. destruct (lookup (wtext x) env); [|apply safe_stuck].
    eapply safe_bind; [apply safe_load|]. intros p P. destruct p; try apply safe_stuck; [now apply safe_panic | now apply safe_store].
  - discriminate.
Qed.
Lemma safe_assigns : forall env l vs, forallb quiet_e l = true -> okvs vs = true -> safe any (assigns W env l vs).
Proof.
  intros env. induction l as [|x l IH]; intros [|v vs] Q V; cbn [assigns]; try apply safe_stuck; [now apply safe_ret|].
  cbn in Q, V. apply andb_true_iff in Q. apply andb_true_iff in V. destruct Q as [Q1 Q2], V as [V1 V2].
  eapply safe_bind; [now apply safe_assign|]. intros _ _. now apply IH.
Qed.
Lemma safe_defines : forall xs vs top env, okvs vs = true -> safe any (defines top env xs vs).
Proof.
  induction xs as [|x xs IH]; intros [|v vs] top env V; cbn [defines]; try apply safe_stuck; [now apply safe_ret|].
  cbn in V. apply andb_true_iff in V. destruct V as [V1 V2]. destruct (String.eqb x "_"); [now apply IH|]. destruct (mem x top).
  - destruct (lookup x env); [|apply safe_stuck]. eapply safe_bind; [now apply safe_store|]. intros _ _. now apply IH.
  - eapply safe_bind; [now apply safe_alloc|]. intros n _. now apply IH.
Qed.
Lemma safe_loop : forall c b p n, safe any c -> safe any b -> safe any p -> safe any (loop c b p n).
Proof.
  intros c b p n Hc Hb Hp. induction n; cbn [loop]; [intros s I; now split|]. eapply safe_bind; [exact Hc|]. intros [] _; [|now apply safe_ret].
  eapply safe_bind; [exact Hb|]. intros [] _; [|now apply safe_ret]. eapply safe_bind; [exact Hp|]. intros _ _. exact IHn.
Qed.
Lemma safe_over : forall b l, okvs l = true -> (forall v, okv v = true -> safe any (b v)) -> safe any (over b l).
Proof.
  intros b l V Hb. induction l as [|v l IH]; cbn [over]; [now apply safe_ret|]. cbn in V. apply andb_true_iff in V. destruct V as [V1 V2].
  eapply safe_bind; [now apply Hb|]. intros [] _; [now apply IH | now apply safe_ret].
Qed.
Lemma safe_slice : forall v, okv v = true -> safe goods (as_slice v).
Proof. intros v V. unfold as_slice. destruct v; try apply safe_stuck; now apply safe_ret. Qed.
Lemma safe_bool : forall v, safe any (as_bool v).
Proof. intros v. unfold as_bool. destruct v; try apply safe_stuck. now apply safe_ret. Qed.

Variable locs : list nat.

Lemma quiet_results : forall xs : list string, forallb quiet_e (map (fun x => EVar [PH x]) xs) = true.
Proof. induction xs; auto. Qed.

Lemma safe_exec : forall st env top, quiet_s st = true -> safe any (exec W m funcs L call locs env top st).
Proof.
  fix IH 1. intros st env top Q.
  assert (Hb : forall l : list gstmt, (forall x, In x l -> forall env top, safe any (exec W m funcs L call locs env top x)) ->
     forall env top, safe any ((fix block (env : loc_env) (top : list string) (l : list gstmt) : G ctl :=
        match l with
        | [] => gret CNext
        | s :: l' => let& r := exec W m funcs L call locs env top s in
                     match fst r with CRet => gret CRet | CNext => block (fst (snd r)) (snd (snd r)) l' end
        end) env top l)).
  { induction l as [|x l IHl]; intros H env' top'; [now apply safe_ret|]. eapply safe_bind; [apply H; now left|]. intros [c [e t]] _.
    cbn [fst snd]. destruct c; [apply IHl; intros; apply H; now right | now apply safe_ret]. }
  assert (Hk : forall c : G ctl, safe any c -> safe any (let& x := c in gret (x, (env, top)))).
  { intros c Hc. eapply safe_bind; [exact Hc | intros; now apply safe_ret]. }
  assert (Hn : forall c : G unit, safe any c -> safe any (let& _ := c in gret (CNext, (env, top)))).
  { intros c Hc. eapply safe_bind; [exact Hc | intros; now apply safe_ret]. }
  destruct st as [lhs rhs|rhs|xs rhs|x t|e|init c a b|c a c2 b|init c post body|cases|x| |pfx recv|e|ch e|x e body]; cbn [exec].
  - cbn [quiet_s] in Q. apply andb_true_iff in Q. destruct Q as [Q1 Q2]. apply Hn. eapply safe_bind; [now apply safe_multi | intros; now apply safe_assigns].
  - apply Hn. eapply safe_bind; [now apply safe_multi | intros; apply safe_assigns; [apply quiet_results | assumption]].
  - eapply safe_bind; [now apply safe_multi | intros]. eapply safe_bind; [now apply safe_defines | intros; now apply safe_ret].
  - eapply safe_bind; [now apply safe_alloc | intros; now apply safe_ret].
  - apply Hn. unfold eval_stmt. eapply safe_bind; [now apply safe_multi | intros; now apply safe_ret].
  - assert (Q0 : (match init with Some i => quiet_s i | None => true end = true /\ quiet_e c = true) /\ forallb quiet_s a = true /\ forallb quiet_s b = true).
    { cbn [quiet_s] in Q. apply andb_true_iff in Q. destruct Q as [Q Q4]. apply andb_true_iff in Q. destruct Q as [Q Q3]. apply andb_true_iff in Q. tauto. }
    clear Q. destruct Q0 as ((Q1 & Q2) & Q3 & Q4).
    assert (Ha : forall x, In x a -> forall env top, safe any (exec W m funcs L call locs env top x)).
    { clear Hb. induction a as [|y a IHa]; intros x; [intros []|]. cbn in Q3. apply andb_true_iff in Q3. destruct Q3 as [Q3 Q5].
      intros [<-|Hx]; [intros; now apply IH | now apply IHa]. }
    assert (Hb' : forall x, In x b -> forall env top, safe any (exec W m funcs L call locs env top x)).
    { clear Hb. induction b as [|y b IHb]; intros x; [intros []|]. cbn in Q4. apply andb_true_iff in Q4. destruct Q4 as [Q4 Q5].
      intros [<-|Hx]; [intros; now apply IH | now apply IHb]. }
    pose proof (Hb a Ha) as Ha2. pose proof (Hb b Hb') as Hb2.
    apply Hk. eapply safe_bind; [destruct init; [now apply IH | now apply safe_ret]|]. intros [c0 [e t]] _. cbn [fst snd].
    eapply safe_bind; [now apply safe_eval|]. intros v _. eapply safe_bind; [apply safe_bool|]. intros b0 _. destruct b0; [apply Ha2 | apply Hb2].
  - assert (Q0 : (quiet_e c = true /\ forallb quiet_s a = true) /\ quiet_e c2 = true /\ forallb quiet_s b = true).
    { cbn [quiet_s] in Q. apply andb_true_iff in Q. destruct Q as [Q Q4]. apply andb_true_iff in Q. destruct Q as [Q Q3]. apply andb_true_iff in Q. tauto. }
    clear Q. destruct Q0 as ((Q1 & Q3) & Q2 & Q4).
    assert (Ha : forall x, In x a -> forall env top, safe any (exec W m funcs L call locs env top x)).
    { clear Hb. induction a as [|y a IHa]; intros x; [intros []|]. cbn in Q3. apply andb_true_iff in Q3. destruct Q3 as [Q3 Q5].
      intros [<-|Hx]; [intros; now apply IH | now apply IHa]. }
    assert (Hb' : forall x, In x b -> forall env top, safe any (exec W m funcs L call locs env top x)).
    { clear Hb. induction b as [|y b IHb]; intros x; [intros []|]. cbn in Q4. apply andb_true_iff in Q4. destruct Q4 as [Q4 Q5].
      intros [<-|Hx]; [intros; now apply IH | now apply IHb]. }
    pose proof (Hb a Ha) as Ha2. pose proof (Hb b Hb') as Hb2.
    apply Hk. eapply safe_bind; [now apply safe_eval|]. intros v _. eapply safe_bind; [apply safe_bool|]. intros b0 _. destruct b0; [apply Ha2|].
    eapply safe_bind; [now apply safe_eval|]. intros v2 _. eapply safe_bind; [apply safe_bool|]. intros b1 _. destruct b1; [apply Hb2 | now apply safe_ret].
  - assert (Q0 : (quiet_s init = true /\ quiet_e c = true) /\ quiet_s post = true /\ forallb quiet_s body = true).
    { cbn [quiet_s] in Q. apply andb_true_iff in Q. destruct Q as [Q Q4]. apply andb_true_iff in Q. destruct Q as [Q Q3]. apply andb_true_iff in Q. tauto. }
    clear Q. destruct Q0 as ((Q1 & Q2) & Q3 & Q4).
    assert (Ha : forall x, In x body -> forall env top, safe any (exec W m funcs L call locs env top x)).
    { clear Hb. induction body as [|y a IHa]; intros x; [intros []|]. cbn in Q4. apply andb_true_iff in Q4. destruct Q4 as [Q4 Q5].
      intros [<-|Hx]; [intros; now apply IH | now apply IHa]. }
    pose proof (Hb body Ha) as Ha2. pose proof (fun env top => IH post env top Q3) as Hp.
    apply Hk. eapply safe_bind; [now apply IH|]. intros [c0 [e t]] _. cbn [fst snd].
    apply safe_loop; [eapply safe_bind; [now apply safe_eval | intros; apply safe_bool] | apply Ha2 |].
    eapply safe_bind; [apply Hp | intros; now apply safe_ret].
  - cbn [quiet_s] in Q.
    assert (Ha : forall x, In x cases -> forall env top,
      safe any ((fix block (env : loc_env) (top : list string) (l : list gstmt) : G ctl :=
        match l with
        | [] => gret CNext
        | s :: l' => let& r := exec W m funcs L call locs env top s in
                     match fst r with CRet => gret CRet | CNext => block (fst (snd r)) (snd (snd r)) l' end
        end) env top (snd x))).
    { induction cases as [|[e0 body] cases IHc]; intros x; [intros []|]. cbn [forallb fst snd] in Q. apply andb_true_iff in Q. destruct Q as [Q1 Q2].
      apply andb_true_iff in Q1. destruct Q1 as [_ Q1]. intros [<-|Hx]; [|now apply IHc]. cbn [snd]. apply Hb.
      clear -IH Q1. induction body as [|y a IHa]; intros x; [intros []|]. cbn in Q1. apply andb_true_iff in Q1. destruct Q1 as [Q1 Q3].
      intros [<-|Hx]; [intros; now apply IH | now apply IHa]. }
    assert (Q1 : forallb quiet_e (map fst cases) = true).
    { clear -Q. induction cases as [|[e0 body] cases IHc]; [reflexivity|]. cbn in Q |- *. apply andb_true_iff in Q. destruct Q as [Q1 Q2].
      apply andb_true_iff in Q1. destruct Q1 as [Q1 _]. rewrite Q1. now apply IHc. }
    apply Hk. eapply safe_bind; [now apply safe_evals|]. intros chs _. eapply safe_bind; [now apply safe_ask|]. intros vs _.
    destruct vs as [|[] [|? [|? ?]]]; try apply safe_stuck. generalize 0%Z. clear -Ha.
    induction cases as [|[e0 body] cases IHc]; intros i; [apply safe_stuck|].
    destruct (i =? z)%Z; [apply (Ha (e0, body)); now left | apply IHc; intros; apply Ha; now right].
  - apply Hn. eapply safe_bind; [now apply safe_eval|]. intros v _. destruct v; try apply safe_stuck. now apply safe_assign.
  - now apply safe_ret.
  - apply Hk. eapply safe_bind; [now apply (safe_multi env (EMCall recv))|]. intros vs Vs. destruct (m_results m); [now apply safe_ret|].
    eapply safe_bind; [now apply safe_stores | intros; now apply safe_ret].
  - apply Hn. eapply safe_bind; [now apply safe_callee|]. intros k K s (I1 & I2 & I3). cbn. split; [|exact I]. split; [exact I1|]. split; [|exact I3]. cbn.
    unfold goodk in K. now rewrite K.
  - cbn [quiet_s] in Q. apply andb_true_iff in Q. destruct Q as [Q1 Q2].
    apply Hn. eapply safe_bind; [now apply safe_eval|]. intros c _. eapply safe_bind; [now apply safe_eval|]. intros v _.
    eapply safe_bind; [now apply safe_ask|]. intros _ _. now apply safe_ret.
  - assert (Q0 : quiet_e e = true /\ forallb quiet_s body = true) by (now apply andb_true_iff). clear Q. destruct Q0 as (Q1 & Q4).
    assert (Ha : forall x, In x body -> forall env top, safe any (exec W m funcs L call locs env top x)).
    { clear Hb. induction body as [|y a IHa]; intros z; [intros []|]. cbn in Q4. apply andb_true_iff in Q4. destruct Q4 as [Q4 Q5].
      intros [<-|Hx]; [intros; now apply IH | now apply IHa]. }
    pose proof (Hb body Ha) as Ha2.
    apply Hk. eapply safe_bind; [now apply safe_eval|]. intros v V. eapply safe_bind; [now apply safe_slice|]. intros l Hl.
    apply safe_over; [exact Hl|]. intros w Hw. eapply safe_bind; [now apply safe_alloc|]. intros n _. apply Ha2.
Qed.

Lemma safe_block : forall l env top, quiet l = true -> safe any (block W m funcs L call locs env top l).
Proof.
  induction l as [|x l IHl]; intros env top Q; cbn [block]; [now apply safe_ret|]. cbn in Q. apply andb_true_iff in Q. destruct Q as [Q1 Q2].
  eapply safe_bind; [now apply safe_exec|]. intros [c [e t]] _. cbn [fst snd]. destruct c; [now apply IHl | now apply safe_ret].
Qed.

Definition goodp (p : option val) : Prop := match p with Some v => okv v = true | None => True end.
Lemma safe_defers : forall l p, forallb okk l = true -> goodp p -> safe goodp (run_defers call l p).
Proof.
  induction l as [|k l IH]; intros p K P; [now apply safe_ret|]. cbn in K. apply andb_true_iff in K. destruct K as [K1 K2].
  intros s I. cbn [run_defers]. destruct (Hcall k K1 s I) as [I1 H1]. destruct (call k s) as [[a|v| | |] s']; cbn [fst snd] in *; try (now split);
  now apply IH.
Qed.

Lemma safe_activation : forall env top body, quiet body = true -> safe goods (activation W m funcs L call locs env top body).
Proof.
  intros env top body Q s (I1 & I2 & I3). unfold activation.
  assert (J : inv (MState (ms_store s) (ms_trace s) [])) by (split; [exact I1 | split; [reflexivity | exact I3]]).
  destruct (safe_block body env top Q _ J) as [(K1 & K2 & K3) K].
  destruct (block W m funcs L call locs env top body (MState (ms_store s) (ms_trace s) [])) as [r s1]. cbn [fst snd] in *. cbv zeta.
  assert (F : forall p, goodp p ->
    let x := match run_defers call (ms_defers s1) p (MState (ms_store s1) (ms_trace s1) []) with
             | (Val (Some v), s2) => (Pan v, MState (ms_store s2) (ms_trace s2) (ms_defers s))
             | (Val None, s2) => loads locs (MState (ms_store s2) (ms_trace s2) (ms_defers s))
             | (Pan v, s2) => (Pan v, MState (ms_store s2) (ms_trace s2) (ms_defers s))
             | (Blk, s2) => (Blk, s2) | (NoFuel, s2) => (NoFuel, s2) | (Stuck, s2) => (Stuck, s2)
             end in
    inv (snd x) /\ match fst x with Val a => goods a | Pan v => okv v = true | _ => True end).
  { intros p P. assert (J1 : inv (MState (ms_store s1) (ms_trace s1) [])) by (split; [exact K1 | split; [reflexivity | exact K3]]).
    destruct (safe_defers (ms_defers s1) p K2 P _ J1) as [(M1 & M2 & M3) M].
    destruct (run_defers call (ms_defers s1) p (MState (ms_store s1) (ms_trace s1) [])) as [r2 s2]. cbn [fst snd] in *.
    assert (J2 : inv (MState (ms_store s2) (ms_trace s2) (ms_defers s))) by (split; [exact M1 | split; [exact I2 | exact M3]]).
    destruct r2 as [[w|]|w| | |]; cbv zeta; cbn [fst snd].
    - split; [exact J2 | exact M].
    - exact (safe_loads locs _ J2).
    - split; [exact J2 | exact M].
    - split; [split; [exact M1 | now split] | exact I].
    - split; [split; [exact M1 | now split] | exact I].
    - split; [split; [exact M1 | now split] | exact I]. }
  destruct r as [c|v| | |].
  - exact (F None I).
  - exact (F (Some v) K).
  - split; [split; [exact K1 | now split] | exact I].
  - split; [split; [exact K1 | now split] | exact I].
  - split; [split; [exact K1 | now split] | exact I].
Qed.
End LEVEL.

Lemma safe_allocs : forall names vs env, okvs vs = true -> safe any (allocs names vs env).
Proof.
  induction names as [|x names IH]; intros [|v vs] env V; cbn [allocs]; try apply safe_stuck; [now apply safe_ret|].
  cbn in V. apply andb_true_iff in V. destruct V as [V1 V2]. eapply safe_bind; [now apply safe_alloc|]. intros n _. now apply IH.
Qed.

Lemma find_quiet : forall f l ps body, forallb (fun f : string * (list string * list gstmt) => quiet (snd (snd f))) l = true ->
  find_func f l = Some (ps, body) -> quiet body = true.
Proof.
  induction l as [|[g [ps' b']] l IH]; intros ps body Q E; [discriminate|]. cbn in Q, E. apply andb_true_iff in Q. destruct Q as [Q1 Q2].
  destruct (String.eqb f g); [injection E as -> ->; exact Q1 | now apply (IH ps)].
Qed.

Lemma safe_invoke : forall d k, okk k = true -> safe goods (invoke W m funcs L d k).
Proof.
  induction d as [|d IH]; intros k K; destruct k; cbn [invoke]; try (now apply safe_ask); try apply safe_stuck.
  - apply safe_activation; [exact IH | exact K].
  - destruct (find_func name funcs) as [[ps body]|] eqn:E; [|apply safe_stuck].
    eapply safe_bind; [now apply safe_allocs|]. intros env _. apply safe_activation; [exact IH|]. eapply find_quiet; eassumption.
Qed.

Theorem quiet_run : forall body recv zeros args, quiet body = true -> okv recv = true -> okvs zeros = true -> okvs args = true ->
  forall o a, In (o, a) (snd (run_method W m funcs L body recv zeros args)) -> access o = None.
Proof.
  intros body recv zeros args Q R Z A o a Hin. unfold run_method in Hin.
  assert (I : inv (MState (recv :: zeros ++ args) [] [])).
  { split; [|now split]. cbn. unfold okvs. rewrite R, forallb_app. unfold okvs in Z, A. now rewrite Z, A. }
  destruct (safe_activation (invoke W m funcs L depth) (safe_invoke depth) (seq 1 (length (m_results m))) (method_env m)
              ("_d" :: result_names m ++ param_names m) body Q _ I) as [(_ & _ & T) _].
  destruct (activation _ _ _ _ _ _ _ _ _ _) as [r s]. cbn [snd] in *.
  apply (proj1 (forallb_forall _ _) T) in Hin. cbn in Hin. unfold no_access in Hin. now destruct (access o).
Qed.
End QUIET.
