(** Two runs of the interpreter compared.

    The second run is of the same body with its variables renamed by an
    injective [ren], in a world that gives the same answers to the same
    questions.  The two do the same: same outcome, same questions, same answers,
    up to the renaming.  With [ren] the identity and a first world that may stop
    answering ([may]), the first run is the second one cut short where the first
    world does not answer. *)
From Verif Require Export Honest.
Open Scope nat_scope.

Section RENAME.
Variable ren : string -> string.

(** ** Renaming syntax *)

(** variables only: fields, strings, numbers and types keep their text *)
Definition rword (x : word) : word :=
  if String.eqb (ren (wtext x)) (wtext x) then x
  else match x with [PH p] => [PH (ren p)] | _ => [PS (ren (wtext x))] end.

Fixpoint rexpr (e : gexpr) : gexpr :=
  match e with
  | EVar x => EVar (rword x)
  | ESel e f => ESel (rexpr e) f
  | EStr w => EStr w
  | EInt n => EInt n
  | EBin op a b => EBin op (rexpr a) (rexpr b)
  | EUn op a => EUn op (rexpr a)
  | ECall f args t => ECall (rexpr f) (map rexpr args) t
  | EConv t e => EConv t (rexpr e)
  | EAssert e t => EAssert (rexpr e) t
  | EFun body => EFun (map rstmt body)
  | ESliceLit t e mac => ESliceLit t (rexpr e) mac
  | EMCall r => EMCall (rexpr r)
  | EMap p => EMap p
  | EShared e f => EShared (rexpr e) f
  | EAddr e f => EAddr (rexpr e) f
  | EIndex e i => EIndex (rexpr e) (rexpr i)
  end
with rstmt (s : gstmt) : gstmt :=
  match s with
  | SAssign lhs rhs => SAssign (map rexpr lhs) (rexpr rhs)
  | SResults rhs => SResults (rexpr rhs)
  | SDefine xs rhs => SDefine (map rword xs) (rexpr rhs)
  | SVar x t => SVar (rword x) t
  | SExpr e => SExpr (rexpr e)
  | SIf init c a b =>
      SIf (match init with None => None | Some i => Some (rstmt i) end) (rexpr c) (map rstmt a) (map rstmt b)
  | SElseIf c a c2 b => SElseIf (rexpr c) (map rstmt a) (rexpr c2) (map rstmt b)
  | SFor init c post body => SFor (rstmt init) (rexpr c) (rstmt post) (map rstmt body)
  | SSelect cases => SSelect (map (fun c => (rexpr (fst c), map rstmt (snd c))) cases)
  | SInc x => SInc (rexpr x)
  | SReturn => SReturn
  | SPass p r => SPass p (rexpr r)
  | SDefer e => SDefer (rexpr e)
  | SSend c e => SSend (rexpr c) (rexpr e)
  | SRange x e body => SRange (rword x) (rexpr e) (map rstmt body)
  end.

(** the identifiers that occur as variables *)
Fixpoint enames (e : gexpr) : list string :=
  match e with
  | EVar x => [wtext x]
  | ESel e _ | EUn _ e | EConv _ e | EAssert e _ | ESliceLit _ e _ | EMCall e | EShared e _ | EAddr e _ => enames e
  | EStr _ | EInt _ | EMap _ => []
  | EBin _ a b | EIndex a b => enames a ++ enames b
  | ECall f args _ => enames f ++ flat_map enames args
  | EFun body => flat_map snames body
  end
with snames (s : gstmt) : list string :=
  match s with
  | SAssign lhs rhs => flat_map enames lhs ++ enames rhs
  | SResults e | SExpr e | SInc e | SPass _ e | SDefer e => enames e
  | SDefine xs rhs => map wtext xs ++ enames rhs
  | SVar x _ => [wtext x]
  | SIf init c a b =>
      match init with None => [] | Some i => snames i end ++ enames c ++ flat_map snames a ++ flat_map snames b
  | SElseIf c a c2 b => enames c ++ flat_map snames a ++ enames c2 ++ flat_map snames b
  | SFor init c post body => snames init ++ enames c ++ snames post ++ flat_map snames body
  | SSelect cases => flat_map (fun c => enames (fst c) ++ flat_map snames (snd c)) cases
  | SReturn => []
  | SSend c e => enames c ++ enames e
  | SRange x e body => wtext x :: enames e ++ flat_map snames body
  end.

(** ** What is related *)

Definition renv (env : loc_env) : loc_env := map (fun p => (ren (fst p), snd p)) env.

(** the names a body uses are the renamed variables or keep their meaning *)
Definition settled (env : loc_env) (names : list string) : Prop :=
  Forall (fun x => ren x = x \/ lookup x env <> None) names.

Inductive vrel : val -> val -> Prop :=
| r_nil : vrel VNil VNil
| r_bool b : vrel (VBool b) (VBool b)
| r_int z : vrel (VInt z) (VInt z)
| r_str s : vrel (VString s) (VString s)
| r_ref n : vrel (VRef n) (VRef n)
| r_of v v' f : vrel v v' -> vrel (VOf v f) (VOf v' f)
| r_rec l l' : frel l l' -> vrel (VRec l) (VRec l')
| r_map l l' : mrel l l' -> vrel (VMap l) (VMap l')
| r_slice l l' : vsrel l l' -> vrel (VSlice l) (VSlice l')
| r_pkg p : vrel (VPkg p) (VPkg p)
| r_ptr n : vrel (VPtr n) (VPtr n)
| r_clo env body : settled env (flat_map snames body) -> vrel (VClo env body) (VClo (renv env) (map rstmt body))
with vsrel : list val -> list val -> Prop :=
| vs_nil : vsrel [] []
| vs_cons v v' l l' : vrel v v' -> vsrel l l' -> vsrel (v :: l) (v' :: l')
with frel : list (string * val) -> list (string * val) -> Prop :=
| f_nil : frel [] []
| f_cons k v v' l l' : vrel v v' -> frel l l' -> frel ((k, v) :: l) ((k, v') :: l')
with mrel : list (string * val) -> list (string * val) -> Prop :=
| m_nil : mrel [] []
| m_cons k k' v v' l l' : k' = k \/ k' = ren k -> vrel v v' -> mrel l l' -> mrel ((k, v) :: l) ((k', v') :: l').

Inductive oprel : op -> op -> Prop :=
| o_call f f' l l' : vrel f f' -> vsrel l l' -> oprel (OCall f l) (OCall f' l')
| o_meth v v' n l l' : vrel v v' -> vsrel l l' -> oprel (OMeth v n l) (OMeth v' n l')
| o_select l l' : vsrel l l' -> oprel (OSelect l) (OSelect l')
| o_send c c' v v' : vrel c c' -> vrel v v' -> oprel (OSend c v) (OSend c' v')
| o_get x : oprel (OGet x) (OGet x)
| o_set x v v' : vrel v v' -> oprel (OSet x v) (OSet x v').

Inductive ansrel : ans -> ans -> Prop :=
| a_ret l l' : vsrel l l' -> ansrel (ARet l) (ARet l')
| a_pan v v' : vrel v v' -> ansrel (APan v) (APan v')
| a_block : ansrel ABlock ABlock.

Definition evrel (x y : op * ans) : Prop := oprel (fst x) (fst y) /\ ansrel (snd x) (snd y).
Definition trel : trace -> trace -> Prop := Forall2 evrel.

Inductive crel : callable -> callable -> Prop :=
| c_op o o' : oprel o o' -> crel (KOp o) (KOp o')
| c_clo env body : settled env (flat_map snames body) -> crel (KClo env body) (KClo (renv env) (map rstmt body))
| c_fun n l l' : vsrel l l' -> crel (KFun n l) (KFun n l').

Inductive outrel {A B} (R : A -> B -> Prop) : out A -> out B -> Prop :=
| or_val a b : R a b -> outrel R (Val a) (Val b)
| or_pan v v' : vrel v v' -> outrel R (Pan v) (Pan v')
| or_blk : outrel R Blk Blk
| or_fuel : outrel R NoFuel NoFuel
| or_stuck : outrel R Stuck Stuck.

Definition srel (s1 s2 : mstate) : Prop :=
  vsrel (ms_store s1) (ms_store s2) /\ trel (ms_trace s1) (ms_trace s2) /\
  Forall2 crel (ms_defers s1) (ms_defers s2).

(** the method whose names are renamed *)
Definition mren (m1 m2 : method) : Prop :=
  m_name m2 = m_name m1 /\ param_names m2 = map ren (param_names m1) /\
  result_names m2 = map ren (result_names m1).
End RENAME.

Scheme vrel_ind4 := Minimality for vrel Sort Prop
  with vsrel_ind4 := Minimality for vsrel Sort Prop
  with frel_ind4 := Minimality for frel Sort Prop
  with mrel_ind4 := Minimality for mrel Sort Prop.
Combined Scheme vrel_mut from vrel_ind4, vsrel_ind4, frel_ind4, mrel_ind4.

Section ALIKE.
Variable ren : string -> string.
Hypothesis ren_inj : forall x y, ren x = ren y -> x = y.
Hypothesis ren_blank : ren "_" = "_".
Variable W1 W2 : gworld.
Variable m1 m2 : method.
Hypothesis Hm : mren ren m1 m2.
Variable funcs1 funcs2 : list (string * (list string * list gstmt)).
Hypothesis Hfuncs : funcs2 = map (fun f => (fst f, (map ren (fst (snd f)), map (rstmt ren) (snd (snd f))))) funcs1.
Hypothesis Hsettled : Forall (fun f => Forall (fun x => ren x = x) (fst (snd f) ++ flat_map snames (snd (snd f)))) funcs1.
Variable L : nat.

(** the first world may leave questions unanswered that the second answers *)
Variable may : Prop.
Hypothesis Hans : forall t1 t2 o1 o2, trel ren t1 t2 -> oprel ren o1 o2 ->
  (may /\ w_ans W1 t1 o1 = ABlock) \/ ansrel ren (w_ans W1 t1 o1) (w_ans W2 t2 o2).
Hypothesis Hhas : forall v v' t, vrel ren v v' -> w_has W1 v t = w_has W2 v' t.

Notation vr := (vrel ren).
Notation vsr := (vsrel ren).
Notation sr := (srel ren).

Definition stopped (t1 t2 : trace) : Prop :=
  exists p1 p2 o1 o2 a q, t1 = p1 ++ [(o1, ABlock)] /\ t2 = p2 ++ (o2, a) :: q /\ trel ren p1 p2 /\ oprel ren o1 o2.

Definition alike {A B} (R : A -> B -> Prop) (x : G A) (y : G B) : Prop :=
  forall s1 s2, sr s1 s2 ->
    (may /\ fst (x s1) = Blk /\ stopped (ms_trace (snd (x s1))) (ms_trace (snd (y s2)))) \/
    (outrel ren R (fst (x s1)) (fst (y s2)) /\ sr (snd (x s1)) (snd (y s2))).

Lemma stopped_more : forall t1 t2 l, stopped t1 t2 -> stopped t1 (t2 ++ l).
Proof.
  intros t1 t2 l (p1 & p2 & o1 & o2 & a & q & -> & -> & H & H'). exists p1, p2, o1, o2, a, (q ++ l).
  rewrite <- app_assoc. now repeat split.
Qed.

(** ** Rules *)

Lemma alike_ret : forall {A B} (R : A -> B -> Prop) a b, R a b -> alike R (gret a) (gret b).
Proof. intros A B R a b H s1 s2 Hs. right. split; [now constructor | exact Hs]. Qed.

Lemma alike_stuck : forall {A B} (R : A -> B -> Prop), alike R gstuck gstuck.
Proof. intros A B R s1 s2 Hs. right. split; [constructor | exact Hs]. Qed.

Lemma alike_panic : forall {A B} (R : A -> B -> Prop) v v', vr v v' -> alike R (gpanic v) (gpanic v').
Proof. intros A B R v v' H s1 s2 Hs. right. split; [now constructor | exact Hs]. Qed.

Lemma alike_bind : forall {A B C D} (R : A -> B -> Prop) (S : C -> D -> Prop) x y k k',
  alike R x y -> (forall b, honest W2 (k' b)) -> (forall a b, R a b -> alike S (k a) (k' b)) ->
  alike S (gbind x k) (gbind y k').
Proof.
  intros A B C D R S x y k k' Hx Hh Hk s1 s2 Hs. unfold gbind. destruct (Hx s1 s2 Hs) as [(M & Hb & Hst)|(Ho & Hs')].
  - destruct (x s1) as [r s1']. cbn [fst snd] in *. subst r. left. split; [exact M|]. split; [reflexivity|]. cbn [snd].
    destruct (y s2) as [r s2']. cbn [snd] in *. destruct r; try exact Hst.
    destruct (Hh a s2') as (l & E & _). rewrite E. now apply stopped_more.
  - destruct (x s1) as [r s1']. destruct (y s2) as [r' s2']. cbn [fst snd] in *.
    destruct Ho; try (right; split; [now constructor | exact Hs']). now apply Hk.
Qed.

Lemma alike_ask : forall o o', oprel ren o o' -> alike vsr (ask_op W1 o) (ask_op W2 o').
Proof.
  intros o o' Ho s1 s2 Hs. unfold ask_op. destruct Hs as (H1 & H2 & H3).
  destruct (Hans (ms_trace s1) (ms_trace s2) o o' H2 Ho) as [(M & E)|E].
  - left. split; [exact M|]. rewrite E. cbn [fst snd ms_trace]. split; [reflexivity|].
    exists (ms_trace s1), (ms_trace s2), o, o', (w_ans W2 (ms_trace s2) o'), [].
    split; [reflexivity|]. split; [destruct (w_ans W2 (ms_trace s2) o'); reflexivity|]. now split.
  - right. remember (w_ans W1 (ms_trace s1) o) as a1. remember (w_ans W2 (ms_trace s2) o') as a2.
    assert (Hs' : sr (MState (ms_store s1) (ms_trace s1 ++ [(o, a1)]) (ms_defers s1))
                     (MState (ms_store s2) (ms_trace s2 ++ [(o', a2)]) (ms_defers s2))).
    { split; [exact H1|]. split; [|exact H3]. cbn [ms_trace]. apply Forall2_app; [exact H2|].
      constructor; [split; assumption | constructor]. }
    destruct E; (split; [now constructor | exact Hs']).
Qed.

(** ** Lists, stores and environments *)

Lemma vs_nth : forall l l' n, vsr l l' ->
  match nth_error l n, nth_error l' n with Some v, Some v' => vr v v' | None, None => True | _, _ => False end.
Proof.
  intros l l' n H. revert n. induction H; intros n; destruct n; cbn; auto. apply IHvsrel.
Qed.

Lemma vs_length : forall l l', vsr l l' -> length l = length l'.
Proof. induction 1; cbn; congruence. Qed.

Lemma vs_app : forall a a' b b', vsr a a' -> vsr b b' -> vsr (a ++ b) (a' ++ b').
Proof. induction 1; cbn; intros; [assumption|]. constructor; auto. Qed.

Lemma vs_set : forall l l' n v v', vsr l l' -> vr v v' -> vsr (set_nth n v l) (set_nth n v' l').
Proof.
  intros l l' n v v' H Hv. revert n. induction H; intros n; destruct n; cbn; constructor; auto.
Qed.

Lemma alike_load : forall n, alike vr (load n) (load n).
Proof.
  intros n s1 s2 Hs. right. unfold load. pose proof (vs_nth _ _ n (proj1 Hs)) as H.
  destruct (nth_error (ms_store s1) n), (nth_error (ms_store s2) n); try contradiction;
    (split; [now constructor | exact Hs]).
Qed.

Lemma alike_store : forall n v v', vr v v' -> alike (fun _ _ => True) (store n v) (store n v').
Proof.
  intros n v v' Hv s1 s2 (H1 & H2 & H3). right. split; [now constructor|]. repeat split; try assumption.
  now apply vs_set.
Qed.

Lemma alike_alloc : forall v v', vr v v' -> alike eq (alloc v) (alloc v').
Proof.
  intros v v' Hv s1 s2 (H1 & H2 & H3). right. split.
  - constructor. now apply vs_length.
  - repeat split; try assumption. apply vs_app; [exact H1|]. now repeat constructor.
Qed.

Lemma lookup_ren : forall env x, lookup (ren x) (renv ren env) = lookup x env.
Proof.
  induction env as [|[y n] env IH]; intros x; [reflexivity|]. cbn.
  destruct (String.eqb_spec x y) as [->|N]; [now rewrite String.eqb_refl|].
  destruct (String.eqb_spec (ren x) (ren y)) as [E|_]; [now apply ren_inj in E | apply IH].
Qed.

Lemma wtext_rword : forall x, wtext (rword ren x) = ren (wtext x).
Proof.
  intros x. unfold rword. destruct (String.eqb_spec (ren (wtext x)) (wtext x)) as [E|_]; [congruence|].
  destruct x as [|[p|p] [|q x]]; cbn; rewrite ?sapp_nil_r; reflexivity.
Qed.

Lemma lookup_rword : forall env x, lookup (wtext (rword ren x)) (renv ren env) = lookup (wtext x) env.
Proof. intros. rewrite wtext_rword. apply lookup_ren. Qed.

Lemma mem_ren : forall top x, mem (ren x) (map ren top) = mem x top.
Proof.
  induction top as [|y top IH]; intros x; [reflexivity|]. cbn.
  destruct (String.eqb_spec x y) as [->|N].
  - now rewrite String.eqb_refl.
  - destruct (String.eqb_spec (ren x) (ren y)) as [E|_]; [now apply ren_inj in E | apply IH].
Qed.

Lemma settled_more : forall env x n names, settled ren env names -> settled ren ((x, n) :: env) names.
Proof.
  intros env x n names H. eapply Forall_impl; [|exact H]. intros y [Hy|Hy]; [now left|]. right. cbn.
  destruct (String.eqb y x); [discriminate | exact Hy].
Qed.

Definition grows (e e' : loc_env) : Prop := forall x, lookup x e <> None -> lookup x e' <> None.
Lemma grows_refl : forall e, grows e e.
Proof. intros e x H. exact H. Qed.
Lemma grows_cons : forall e e' x n, grows e e' -> grows e ((x, n) :: e').
Proof. intros e e' x n H y Hy. cbn. destruct (String.eqb y x); [discriminate | now apply H]. Qed.
Lemma grows_trans : forall a b c, grows a b -> grows b c -> grows a c.
Proof. intros a b c H1 H2 x H. auto. Qed.
Lemma settled_grows : forall e e' names, grows e e' -> settled ren e names -> settled ren e' names.
Proof. intros e e' names G H. eapply Forall_impl; [|exact H]. intros y [Hy|Hy]; [now left | right; now apply G]. Qed.
Lemma settled_app : forall env a b, settled ren env (a ++ b) <-> settled ren env a /\ settled ren env b.
Proof. intros. unfold settled. apply Forall_app. Qed.

Ltac ho :=
  lazymatch goal with
  | |- honest _ (gbind _ _) => apply honest_bind; [|intros ?]
  | |- honest _ (gret _) => apply honest_ret
  | |- honest _ gstuck => apply honest_stuck
  | |- honest _ (gpanic _) => apply honest_panic
  | |- honest _ (ask_op _ _) => apply honest_ask
  | |- honest _ (match ?x with _ => _ end) => destruct x
  | |- honest _ (alloc _) => now apply honest_same
  | |- honest _ (store _ _) => now apply honest_same
  | |- honest _ (load _) => apply honest_same; intros ?; unfold load; now destruct (nth_error _ _)
  | |- honest _ (loads _) => apply honest_loads
  | |- honest _ (stores _ _) => apply honest_stores
  | |- honest _ (read_names _ _) => apply honest_names
  | |- honest _ (ident _ _) => apply honest_ident
  | |- honest _ (select_field _ _) => apply honest_field
  | |- honest _ (spread _ _) => apply honest_spread
  | |- honest _ (method_target _ _ _) => apply honest_method_target
  | |- honest _ (call_target _ _ _) => apply honest_call_target
  | |- honest _ (binop _ _ _) => apply honest_binop
  | |- honest _ (field_addr _ _) => apply honest_addr
  | |- honest _ (index_of _ _) => apply honest_index
  | |- honest _ (as_slice _) => apply honest_slice
  | |- honest _ (as_bool _) => apply honest_bool
  end.
Ltac hos := repeat ho.
(** one step of a comparison *)
Ltac al := eapply alike_bind; [| intros; try (now hos) | intros ? ? ?].

Lemma alike_loads : forall l, alike vsr (loads l) (loads l).
Proof.
  induction l as [|n l IH]; cbn [loads]; [apply alike_ret; constructor|].
  al; [apply alike_load|]. al; [exact IH|]. apply alike_ret. now constructor.
Qed.

Lemma alike_stores : forall l vs vs', vsr vs vs' -> alike (fun _ _ => True) (stores l vs) (stores l vs').
Proof.
  induction l as [|n l IH]; intros vs vs' H; destruct H; cbn [stores]; try apply alike_stuck; [now apply alike_ret|].
  al; [now apply alike_store|]. now apply IH.
Qed.

Lemma lookups_ren : forall xs env, lookups (map ren xs) (renv ren env) = lookups xs env.
Proof. induction xs as [|x xs IH]; intros env; [reflexivity|]. cbn. now rewrite lookup_ren, IH. Qed.

Lemma alike_names : forall env xs, alike vsr (read_names env xs) (read_names (renv ren env) (map ren xs)).
Proof.
  intros. unfold read_names. rewrite lookups_ren. destruct (lookups xs env); [apply alike_loads | apply alike_stuck].
Qed.

Lemma alike_params : forall env, alike vsr (read_names env (param_names m1)) (read_names (renv ren env) (param_names m2)).
Proof. intros. destruct Hm as (_ & -> & _). apply alike_names. Qed.
Lemma alike_results : forall env, alike vsr (read_names env (result_names m1)) (read_names (renv ren env) (result_names m2)).
Proof. intros. destruct Hm as (_ & _ & ->). apply alike_names. Qed.

Lemma alike_ident : forall env x, settled ren env [x] -> alike vr (ident env x) (ident (renv ren env) (ren x)).
Proof.
  intros env x H. unfold ident. rewrite lookup_ren. destruct (lookup x env) as [n|] eqn:E; [apply alike_load|].
  inversion H as [|? ? [Hx|Hx] _]; subst; [|now elim Hx]. rewrite Hx. apply alike_ret.
  destruct (String.eqb x "nil"); [constructor|]. destruct (String.eqb x "true"); constructor.
Qed.

Lemma field_rel : forall f l l', frel ren l l' ->
  match field_of f l, field_of f l' with Some v, Some v' => vr v v' | None, None => True | _, _ => False end.
Proof. intros f l l'. induction 1; cbn; auto. destruct (String.eqb f k); auto. Qed.

Lemma alike_field : forall v v' f, vr v v' -> alike vr (select_field v f) (select_field v' f).
Proof.
  intros v v' f H. destruct H; cbn [select_field]; try apply alike_stuck; try (apply alike_ret; repeat constructor; now try assumption).
  - apply alike_panic. constructor.
  - pose proof (field_rel f _ _ H) as K. destruct (field_of f l), (field_of f l'); try contradiction;
      [now apply alike_ret | apply alike_stuck].
Qed.

Lemma alike_spread : forall t vs vs', vsr vs vs' -> alike vsr (spread t vs) (spread t vs').
Proof.
  intros t vs vs' H. destruct t; cbn [spread]; try now apply alike_ret.
  destruct H as [|v v' l l' Hv Hl]; [apply alike_stuck|]. destruct Hl; [|destruct Hv; apply alike_stuck].
  destruct Hv; try apply alike_stuck. now apply alike_ret.
Qed.

Lemma alike_method_target : forall v v' f l l', vr v v' -> vsr l l' ->
  alike (crel ren) (method_target v f l) (method_target v' f l').
Proof.
  intros v v' f l l' H Hl. destruct H; cbn [method_target]; try apply alike_stuck;
    try (apply alike_ret; repeat constructor; assumption).
  - apply alike_panic. constructor.
  - pose proof (field_rel f _ _ H) as K. destruct (field_of f l0) as [x|], (field_of f l'0) as [x'|]; try contradiction; [|apply alike_stuck].
    destruct K; try apply alike_stuck; try (apply alike_panic; constructor); apply alike_ret; repeat constructor; assumption.
Qed.

Lemma existsb_funcs : forall p, existsb (fun f => String.eqb (fst f) p) funcs2 = existsb (fun f => String.eqb (fst f) p) funcs1.
Proof. intros p. rewrite Hfuncs. clear. induction funcs1 as [|f l IH]; [reflexivity|]. cbn. now rewrite IH. Qed.

Lemma alike_call_target : forall v v' l l', vr v v' -> vsr l l' ->
  alike (crel ren) (call_target funcs1 v l) (call_target funcs2 v' l').
Proof.
  intros v v' l l' H Hl. destruct H; cbn [call_target]; try apply alike_stuck;
    try (apply alike_ret; repeat constructor; assumption).
  - apply alike_panic. constructor.
  - rewrite existsb_funcs. destruct (existsb _ funcs1); apply alike_ret; repeat constructor; assumption.
  - destruct Hl; [apply alike_ret; now constructor | apply alike_stuck].
Qed.

Lemma rel_nil : forall v v', vr v v' -> is_nil v = is_nil v'.
Proof. destruct 1; reflexivity. Qed.

Lemma alike_binop : forall o a a' b b', vr a a' -> vr b b' -> alike vr (binop o a b) (binop o a' b').
Proof.
  intros o a a' b b' Ha Hb. unfold binop.
  destruct (String.eqb o "=="); [rewrite (rel_nil _ _ Ha); destruct Hb; try apply alike_stuck; apply alike_ret; constructor|].
  destruct (String.eqb o "!="); [rewrite (rel_nil _ _ Ha); destruct Hb; try apply alike_stuck; apply alike_ret; constructor|].
  destruct Ha; try apply alike_stuck; destruct Hb; try apply alike_stuck;
  repeat match goal with |- alike _ (if ?c then _ else _) _ => destruct c end;
    first [apply alike_stuck | apply alike_panic; constructor | apply alike_ret; constructor].
Qed.

Lemma alike_addr : forall v v' f, vr v v' -> alike eq (field_addr v f) (field_addr v' f).
Proof.
  intros v v' f H. destruct H; cbn [field_addr]; try apply alike_stuck.
  pose proof (field_rel f _ _ H) as K. destruct (field_of f l), (field_of f l'); try contradiction; [|apply alike_stuck].
  destruct K; try apply alike_stuck. now apply alike_ret.
Qed.

Lemma alike_index : forall v v' i i', vr v v' -> vr i i' -> alike vr (index_of v i) (index_of v' i').
Proof.
  intros v v' i i' H Hi. destruct H; cbn [index_of]; try apply alike_stuck. destruct Hi; try apply alike_stuck.
  destruct (Z.ltb z 0); [apply alike_panic; constructor|].
  pose proof (vs_nth _ _ (Z.to_nat z) H) as K. destruct (nth_error l _), (nth_error l' _); try contradiction;
    [now apply alike_ret | apply alike_panic; constructor].
Qed.

Lemma rel_entries : forall names l l', vsr l l' -> mrel ren (combine names l) (combine (map ren names) l').
Proof.
  induction names as [|x names IH]; intros l l' H; [constructor|]. destruct H; cbn; constructor; auto.
Qed.

Section LEVEL.
Variable call1 call2 : callable -> G (list val).
Hypothesis Hcall : forall k k', crel ren k k' -> alike vsr (call1 k) (call2 k').
Hypothesis Hcall2 : forall k, honest W2 (call2 k).

Notation ev1 := (eval W1 m1 funcs1 call1).
Notation ev2 := (eval W2 m2 funcs2 call2).

Ltac hoc := repeat first [ ho | apply Hcall2 | apply (honest_eval W2 m2 funcs2 call2 Hcall2)
                         | apply (honest_evals W2 m2 funcs2 call2 Hcall2) ].
Ltac alc := eapply alike_bind; [| intros; try (now hoc) | intros ? ? ?].

Lemma alike_one : forall k k', crel ren k k' ->
  alike vr (let& rs := call1 k in match rs with [x] => gret x | _ => gstuck end)
           (let& rs := call2 k' in match rs with [x] => gret x | _ => gstuck end).
Proof.
  intros k k' H. alc; [now apply Hcall|]. destruct H0 as [|v v' l l' Hv Hl]; [apply alike_stuck|].
  destruct Hl; [now apply alike_ret | apply alike_stuck].
Qed.

Lemma alike_call_parts : forall v v' vs vs' t tgt1 tgt2,
  vr v v' -> vsr vs vs' ->
  (forall l l', vsr l l' -> alike (crel ren) (tgt1 v l) (tgt2 v' l')) ->
  (forall l, honest W2 (tgt2 v' l)) ->
  alike vr (let& vs := spread t vs in let& k := tgt1 v vs in
            let& rs := call1 k in match rs with [x] => gret x | _ => gstuck end)
           (let& vs := spread t vs' in let& k := tgt2 v' vs in
            let& rs := call2 k in match rs with [x] => gret x | _ => gstuck end).
Proof.
  intros v v' vs vs' t tgt1 tgt2 Hv Hvs Ht Hh. eapply alike_bind; [now apply alike_spread| |].
  - intros. apply honest_bind; [apply Hh|]. intros. hoc.
  - intros. eapply alike_bind; [now apply Ht| |].
    + intros. hoc.
    + intros. now apply alike_one.
Qed.

Lemma alike_eval : forall e env, settled ren env (enames e) -> alike vr (ev1 env e) (ev2 (renv ren env) (rexpr ren e)).
Proof.
  fix IH 1. intros e env HS.
  assert (Hl : forall l : list gexpr,
     (forall x, In x l -> alike vr (ev1 env x) (ev2 (renv ren env) (rexpr ren x))) ->
     alike vsr ((fix evals (l : list gexpr) : G (list val) :=
        match l with [] => gret [] | x :: l' => let& v := ev1 env x in let& vs := evals l' in gret (v :: vs) end) l)
       ((fix evals (l : list gexpr) : G (list val) :=
        match l with [] => gret [] | x :: l' => let& v := ev2 (renv ren env) x in let& vs := evals l' in gret (v :: vs) end)
          (map (rexpr ren) l))).
  { induction l as [|x l IHl]; intros H; [apply alike_ret; constructor|]. cbn [map].
    eapply alike_bind; [apply H; now left | |].
    - intros b. apply honest_bind; [|intros; apply honest_ret].
      clear -Hcall2. induction (map (rexpr ren) l); hoc. assumption.
    - intros v v' Hv. eapply alike_bind; [apply IHl; intros; apply H; now right | intros; apply honest_ret |].
      intros. apply alike_ret. now constructor. }
  destruct e as [x|e f|w|n|o a b|o a|f args t|t e|e t|body|t e mac|r|p|r f|r f|r i]; cbn [enames] in HS.
  - cbn [eval rexpr]. rewrite wtext_rword. now apply alike_ident.
  - pose proof (IH e env HS) as H1. cbn [eval rexpr]. alc; [exact H1|]. now apply alike_field.
  - cbn [eval rexpr]. apply alike_ret. constructor.
  - cbn [eval rexpr]. destruct (parse_int n); [apply alike_ret; constructor | apply alike_stuck].
  - apply settled_app in HS as [Ha Hb]. pose proof (IH a env Ha) as H1. pose proof (IH b env Hb) as H2. cbn [eval rexpr].
    eapply alike_bind; [exact H1 | intros; hoc | intros x x' Hx].
    destruct (String.eqb o "||"); [destruct Hx; try apply alike_stuck; destruct b0; [apply alike_ret; constructor | exact H2]|].
    destruct (String.eqb o "&&"); [destruct Hx; try apply alike_stuck; destruct b0; [exact H2 | apply alike_ret; constructor]|].
    eapply alike_bind; [exact H2 | intros; hoc | intros y y' Hy]. now apply alike_binop.
  - pose proof (IH a env HS) as H1. cbn [eval rexpr]. destruct (String.eqb o "&").
    + destruct a; cbn [rexpr]; try apply alike_stuck. rewrite lookup_rword.
      destruct (lookup (wtext x) env); [apply alike_ret; constructor | apply alike_stuck].
    + eapply alike_bind; [exact H1 | intros; hoc | intros x x' Hx].
      destruct (String.eqb o "*"); [destruct Hx; try apply alike_stuck; [apply alike_panic; constructor | apply alike_load]|].
      destruct (String.eqb o "!"); [destruct Hx; try apply alike_stuck; apply alike_ret; constructor|].
      destruct (String.eqb o "<-"); [|apply alike_stuck].
      eapply alike_bind; [apply alike_ask; repeat constructor; assumption | intros; hoc |]. intros vs vs' Hvs.
      destruct Hvs as [|v v' l l' Hv Hvs]; [apply alike_stuck|]. destruct Hv; try apply alike_stuck.
      destruct z; try apply alike_stuck. destruct Hvs as [|v2 v2' l l' Hv2 Hvs]; [apply alike_stuck|].
      destruct Hvs; [now apply alike_ret | apply alike_stuck].
  - apply settled_app in HS as [Hf Ha].
    assert (Hargs : forall x, In x args -> alike vr (ev1 env x) (ev2 (renv ren env) (rexpr ren x))).
    { clear Hl. induction args as [|y args IHa]; intros x; [intros []|]. cbn [flat_map] in Ha. apply settled_app in Ha as [Hy Ha].
      intros [<-|Hx]; [now apply IH | now apply IHa]. }
    pose proof (Hl args Hargs) as H1. pose proof (IH f env Hf) as H2.
    assert (Hh : honest W2 ((fix evals (l : list gexpr) : G (list val) :=
        match l with [] => gret [] | x :: l' => let& v := ev2 (renv ren env) x in let& vs := evals l' in gret (v :: vs) end)
          (map (rexpr ren) args))).
    { clear -Hcall2. induction (map (rexpr ren) args); hoc. assumption. }
    destruct f; cbn [eval rexpr] in *;
      try (eapply alike_bind; [exact H2 | intros; apply honest_bind; [exact Hh | intros; hoc] |]; intros v v' Hv;
           eapply alike_bind; [exact H1 | intros; hoc |]; intros vs vs' Hvs;
           apply (alike_call_parts v v' vs vs' t (call_target funcs1) (call_target funcs2)); try assumption;
           [intros; now apply alike_call_target | intros; apply honest_call_target]).
    eapply alike_bind; [apply (IH f env Hf) | intros; apply honest_bind; [exact Hh | intros; hoc] |]. intros v v' Hv.
    eapply alike_bind; [exact H1 | intros; hoc |]. intros vs vs' Hvs.
    apply (alike_call_parts v v' vs vs' t (fun v l => method_target v (wtext f0) l) (fun v l => method_target v (wtext f0) l)); try assumption;
      [intros; now apply alike_method_target | intros; apply honest_method_target].
  - exact (IH e env HS).
  - cbn [eval rexpr]. apply alike_stuck.
  - cbn [eval rexpr]. apply alike_ret. now constructor.
  - pose proof (IH e env HS) as H1. cbn [eval rexpr]. eapply alike_bind; [exact H1 | intros; hoc |]. intros x x' Hx.
    eapply alike_bind with (R := vsr); [destruct mac; [apply alike_params | apply alike_results] | intros; hoc |].
    intros. apply alike_ret. repeat (constructor; try assumption).
  - pose proof (IH r env HS) as H1. cbn [eval rexpr]. eapply alike_bind; [exact H1 | intros; hoc |]. intros x x' Hx.
    eapply alike_bind; [apply alike_params | intros; hoc |]. intros vs vs' Hvs.
    destruct Hm as (-> & _). eapply alike_bind; [now apply alike_method_target | intros; hoc |]. intros. now apply alike_one.
  - cbn [eval rexpr]. eapply alike_bind with (R := vsr); [destruct p; [apply alike_params | apply alike_results] | intros; hoc |].
    intros vs vs' Hvs. apply alike_ret. constructor. unfold entries. destruct Hm as (_ & -> & ->). destruct p; now apply rel_entries.
  - pose proof (IH r env HS) as H1. cbn [eval rexpr]. eapply alike_bind; [exact H1 | intros; hoc |]. intros x x' Hx.
    eapply alike_bind; [now apply alike_addr | intros; hoc |]. intros k k' ->.
    eapply alike_bind; [apply alike_ask; constructor | intros; hoc |]. intros vs vs' Hvs.
    destruct Hvs as [|v v' l l' Hv Hvs]; [apply alike_stuck|]. destruct Hvs; [now apply alike_ret | apply alike_stuck].
  - pose proof (IH r env HS) as H1. cbn [eval rexpr]. eapply alike_bind; [exact H1 | intros; hoc |]. intros x x' Hx.
    eapply alike_bind; [now apply alike_addr | intros; hoc |]. intros k k' ->. apply alike_ret. constructor.
  - apply settled_app in HS as [Ha Hb]. pose proof (IH r env Ha) as H1. pose proof (IH i env Hb) as H2. cbn [eval rexpr].
    eapply alike_bind; [exact H1 | intros; hoc |]. intros x x' Hx. eapply alike_bind; [exact H2 | intros; hoc |]. intros y y' Hy.
    now apply alike_index.
Qed.

Lemma alike_evals : forall env l, settled ren env (flat_map enames l) ->
  alike vsr (evals W1 m1 funcs1 call1 env l) (evals W2 m2 funcs2 call2 (renv ren env) (map (rexpr ren) l)).
Proof.
  intros env. induction l as [|x l IH]; intros HS; cbn [evals map]; [apply alike_ret; constructor|].
  cbn [flat_map] in HS. apply settled_app in HS as [Hx Hl].
  eapply alike_bind; [now apply alike_eval | intros; hoc |]. intros.
  eapply alike_bind; [now apply IH | intros; hoc |]. intros. apply alike_ret. now constructor.
Qed.

Lemma alike_callee : forall env e, settled ren env (enames e) ->
  alike (crel ren) (callee W1 m1 funcs1 call1 env e) (callee W2 m2 funcs2 call2 (renv ren env) (rexpr ren e)).
Proof.
  intros env e HS. destruct e; cbn [rexpr callee]; try apply alike_stuck.
  - cbn [enames] in HS. apply settled_app in HS as [Hf Ha]. destruct e; cbn [rexpr];
      (eapply alike_bind;
        [first [apply (alike_eval _ env Hf) | cbn [enames] in Hf; apply (alike_eval _ env Hf)] | intros; hoc |]; intros v v' Hv;
       eapply alike_bind; [now apply alike_evals | intros; hoc |]; intros vs vs' Hvs;
       eapply alike_bind; [now apply alike_spread | intros; hoc |]; intros);
      first [now apply alike_method_target | now apply alike_call_target].
  - cbn [enames] in HS. eapply alike_bind; [now apply alike_eval | intros; hoc |]. intros v v' Hv.
    eapply alike_bind; [apply alike_params | intros; hoc |]. intros. destruct Hm as (-> & _). now apply alike_method_target.
Qed.

Lemma alike_multi : forall env e, settled ren env (enames e) ->
  alike vsr (eval_multi W1 m1 funcs1 call1 env e) (eval_multi W2 m2 funcs2 call2 (renv ren env) (rexpr ren e)).
Proof.
  intros env e HS.
  assert (K : alike vsr (let& v := ev1 env e in gret [v]) (let& v := ev2 (renv ren env) (rexpr ren e) in gret [v])).
  { eapply alike_bind; [now apply alike_eval | intros; hoc |]. intros. apply alike_ret. repeat constructor; assumption. }
  destruct e; cbn [eval_multi rexpr]; try exact K.
  - eapply alike_bind; [apply (alike_callee env (ECall e args t) HS) | intros; hoc |]. intros. now apply Hcall.
  - cbn [enames] in HS. eapply alike_bind; [apply (alike_eval e env HS) | intros; hoc |]. intros v v' Hv. apply alike_ret.
    rewrite (rel_nil _ _ Hv), (Hhas v v' t Hv). destruct (negb (is_nil v') && w_has W2 v' t); repeat constructor; assumption.
  - eapply alike_bind; [apply (alike_callee env (EMCall e) HS) | intros; hoc |]. intros. now apply Hcall.
Qed.

Lemma alike_assign : forall env l v v', settled ren env (enames l) -> vr v v' ->
  alike (fun _ _ => True) (assign_to W1 env l v) (assign_to W2 (renv ren env) (rexpr ren l) v').
Proof.
  intros env l v v' HS Hv. destruct l; cbn [rexpr assign_to]; try apply alike_stuck.
  - rewrite lookup_rword. destruct (lookup (wtext x) env); [now apply alike_store | apply alike_stuck].
  - destruct l; cbn [rexpr]; try apply alike_stuck. destruct (String.eqb op "*"); [|apply alike_stuck]. rewrite lookup_rword.
    destruct (lookup (wtext x) env); [|apply alike_stuck]. eapply alike_bind; [apply alike_load | intros; hoc |]. intros p p' Hp.
    destruct Hp; try apply alike_stuck; [apply alike_panic; constructor | now apply alike_store].
  - destruct l; cbn [rexpr]; try apply alike_stuck. rewrite wtext_rword. unfold pointee.
    eapply alike_bind; [now apply alike_ident | intros; hoc |]. intros s s' Hs.
    eapply alike_bind; [now apply alike_addr | intros; hoc |]. intros k k' ->.
    eapply alike_bind with (R := vr);
      [destruct Hv; try (apply alike_load); (apply alike_ret; now constructor) | intros; hoc |]. intros.
    eapply alike_bind; [apply alike_ask; now constructor | intros; hoc |]. intros. now apply alike_ret.
Qed.

Lemma alike_assigns : forall env l vs vs', settled ren env (flat_map enames l) -> vsr vs vs' ->
  alike (fun _ _ => True) (assigns W1 env l vs) (assigns W2 (renv ren env) (map (rexpr ren) l) vs').
Proof.
  intros env. induction l as [|x l IH]; intros vs vs' HS H; destruct H; cbn [assigns map]; try apply alike_stuck; [now apply alike_ret|].
  cbn [flat_map] in HS. apply settled_app in HS as [Hx Hl].
  eapply alike_bind; [now apply alike_assign | intros; apply honest_assigns |]. intros. now apply IH.
Qed.

(** what a statement leaves: the same control, the renamed environment *)
Definition left (env0 : loc_env) (r r' : ctl * (loc_env * list string)) : Prop :=
  fst r' = fst r /\ fst (snd r') = renv ren (fst (snd r)) /\ snd (snd r') = map ren (snd (snd r)) /\
  grows env0 (fst (snd r)).
Definition scope (env0 : loc_env) (r r' : loc_env * list string) : Prop :=
  fst r' = renv ren (fst r) /\ snd r' = map ren (snd r) /\ grows env0 (fst r).

Lemma alike_defines : forall xs vs vs' top env env0, grows env0 env -> vsr vs vs' ->
  alike (scope env0) (defines top env xs vs) (defines (map ren top) (renv ren env) (map ren xs) vs').
Proof.
  induction xs as [|x xs IH]; intros vs vs' top env env0 HG H; destruct H; cbn [defines map]; try apply alike_stuck.
  - apply alike_ret. repeat split. exact HG.
  - assert (String.eqb (ren x) "_" = String.eqb x "_") as ->.
    { destruct (String.eqb_spec x "_") as [->|N]; [now rewrite ren_blank|].
      destruct (String.eqb_spec (ren x) "_") as [E|_]; [|reflexivity]. rewrite <- ren_blank in E. now apply ren_inj in E. }
    destruct (String.eqb x "_"); [now apply IH|]. rewrite mem_ren, lookup_ren.
    destruct (mem x top).
    + destruct (lookup x env); [|apply alike_stuck].
      eapply alike_bind; [now apply alike_store | intros; apply honest_defines |]. intros. now apply IH.
    + eapply alike_bind; [now apply alike_alloc | intros; apply honest_defines |]. intros n n' ->.
      apply (IH l l' (x :: top) ((x, n') :: env) env0); [now apply grows_cons | assumption].
Qed.

Lemma alike_loop : forall c c' b b' p p' n,
  alike eq c c' -> alike eq b b' -> alike (fun _ _ => True) p p' ->
  honest W2 c' -> honest W2 b' -> honest W2 p' ->
  alike eq (loop c b p n) (loop c' b' p' n).
Proof.
  intros c c' b b' p p' n Hc Hb Hp Hhc Hhb Hhp. induction n as [|n IH]; cbn [loop].
  - intros s1 s2 Hs. right. split; [constructor | exact Hs].
  - assert (HL : honest W2 (loop c' b' p' n)) by (now apply honest_loop).
    eapply alike_bind; [exact Hc | intros; hoc; assumption |]. intros t t' ->. destruct t'; [|now apply alike_ret].
    eapply alike_bind; [exact Hb | intros; hoc; assumption |]. intros k k' ->. destruct k'; [|now apply alike_ret].
    eapply alike_bind; [exact Hp | intros; exact HL |]. intros. exact IH.
Qed.

Lemma alike_over : forall b b' l l', vsr l l' -> (forall v v', vr v v' -> alike eq (b v) (b' v')) ->
  (forall v, honest W2 (b' v)) -> alike eq (over b l) (over b' l').
Proof.
  intros b b' l l' Hl Hb Hh. induction Hl as [|v v' l l' Hv Hl IH]; cbn [over]; [now apply alike_ret|].
  eapply alike_bind; [now apply Hb | intros; hoc; now apply honest_over |]. intros k k' ->. destruct k'; [exact IH | now apply alike_ret].
Qed.

Lemma alike_slice : forall v v', vr v v' -> alike vsr (as_slice v) (as_slice v').
Proof. intros v v' H. destruct H; cbn [as_slice]; try apply alike_stuck; apply alike_ret; [constructor | assumption]. Qed.

Lemma alike_bool : forall v v', vr v v' -> alike eq (as_bool v) (as_bool v').
Proof. intros v v' H. destruct H; cbn [as_bool]; try apply alike_stuck; now apply alike_ret. Qed.

Variable locs : list nat.
Notation ex1 := (exec W1 m1 funcs1 L call1 locs).
Notation ex2 := (exec W2 m2 funcs2 L call2 locs).
Notation bl1 := (block W1 m1 funcs1 L call1 locs).
Notation bl2 := (block W2 m2 funcs2 L call2 locs).
Definition same_exec (s : gstmt) : Prop := forall env top, settled ren env (snames s) ->
  alike (left env) (ex1 env top s) (ex2 (renv ren env) (map ren top) (rstmt ren s)).

Lemma left_next : forall env top, left env (CNext, (env, top)) (CNext, (renv ren env, map ren top)).
Proof. intros. repeat split. apply grows_refl. Qed.

Lemma alike_block_of : forall l, (forall s, In s l -> same_exec s) ->
  forall env top, settled ren env (flat_map snames l) ->
  alike eq (bl1 env top l) (bl2 (renv ren env) (map ren top) (map (rstmt ren) l)).
Proof.
  induction l as [|s l IH]; intros H env top HS; cbn [block map]; [now apply alike_ret|].
  cbn [flat_map] in HS. apply settled_app in HS as [Hs Hl].
  eapply alike_bind; [apply (H s (or_introl eq_refl)); exact Hs| |].
  - intros [c [e t]]. cbn [fst snd]. destruct c; [|apply honest_ret]. apply (honest_block W2 m2 funcs2 L call2 Hcall2).
  - intros [c [e t]] [c' [e' t']] (E1 & E2 & E3 & G). cbn [fst snd] in *. subst. destruct c; [|now apply alike_ret].
    apply IH; [intros; apply H; now right|]. now apply (settled_grows env).
Qed.

Ltac hox := repeat first [ ho | apply Hcall2 | apply (honest_eval W2 m2 funcs2 call2 Hcall2)
                         | apply (honest_evals W2 m2 funcs2 call2 Hcall2)
                         | apply (honest_multi W2 m2 funcs2 call2 Hcall2)
                         | apply (honest_callee W2 m2 funcs2 call2 Hcall2)
                         | apply honest_assigns | apply honest_assign | apply honest_defines
                         | apply (honest_block W2 m2 funcs2 L call2 Hcall2)
                         | apply (honest_exec W2 m2 funcs2 L call2 Hcall2) ].

Lemma alike_keep : forall env top (c c' : G ctl), alike eq c c' ->
  alike (left env) (let& x := c in gret (x, (env, top))) (let& x := c' in gret (x, (renv ren env, map ren top))).
Proof.
  intros env top c c' H. eapply alike_bind; [exact H | intros; hoc |]. intros a b ->. apply alike_ret.
  repeat split. apply grows_refl.
Qed.

Lemma alike_next : forall env top (c c' : G unit), alike (fun _ _ => True) c c' ->
  alike (left env) (let& _ := c in gret (CNext, (env, top))) (let& _ := c' in gret (CNext, (renv ren env, map ren top))).
Proof. intros env top c c' H. eapply alike_bind; [exact H | intros; hoc |]. intros. apply alike_ret. apply left_next. Qed.

Lemma alike_set_results : forall env vs vs', vsr vs vs' ->
  alike (fun _ _ => True) (assigns W1 env (map (fun x => EVar [PH x]) (result_names m1)) vs)
    (assigns W2 (renv ren env) (map (fun x => EVar [PH x]) (result_names m2)) vs').
Proof.
  intros env. destruct Hm as (_ & _ & ->). induction (result_names m1) as [|x l IH]; intros vs vs' H; destruct H; cbn [assigns map];
    try apply alike_stuck; [now apply alike_ret|].
  eapply alike_bind with (R := fun _ _ => True); [|intros; apply honest_assigns | intros; now apply IH].
  cbn [assign_to]. replace (wtext [PH (ren x)]) with (ren (wtext [PH x])) by (cbn; now rewrite !sapp_nil_r).
  rewrite lookup_ren. destruct (lookup (wtext [PH x]) env); [now apply alike_store | apply alike_stuck].
Qed.

Lemma results_nil : m_results m1 = [] <-> m_results m2 = [].
Proof.
  destruct Hm as (_ & _ & H). unfold result_names in H. split; intros E; rewrite E in H; cbn in H.
  - now destruct (m_results m2).
  - now destruct (m_results m1).
Qed.

Lemma alike_exec : forall s, same_exec s.
Proof.
  fix IH 1. intros st env top HS.
  destruct st as [lhs rhs|rhs|xs rhs|x t|e|init c a b|c a c2 b|init c post body|cases|x| |pfx recv|e|ch e|x e body]; cbn [snames] in HS.
  - apply settled_app in HS as [Hl Hr]. cbn [exec rstmt]. apply alike_next.
    eapply alike_bind; [now apply alike_multi | intros; hox |]. intros. now apply alike_assigns.
  - cbn [exec rstmt]. apply alike_next.
    eapply alike_bind; [now apply alike_multi | intros; hox |]. intros. now apply alike_set_results.
  - apply settled_app in HS as [Hl Hr]. cbn [exec rstmt].
    eapply alike_bind; [now apply alike_multi | intros; hox |]. intros vs vs' Hvs. 
    replace (map wtext (map (rword ren) xs)) with (map ren (map wtext xs))
      by (rewrite !map_map; apply map_ext; intros; now rewrite wtext_rword).
    eapply alike_bind; [apply (alike_defines _ _ _ _ _ env (grows_refl env) Hvs) | intros; hox |].
    intros [e t] [e' t'] (E1 & E2 & G). cbn [fst snd] in *. subst. apply alike_ret. now repeat split.
  - cbn [exec rstmt]. eapply alike_bind; [apply alike_alloc; constructor | intros; hox |]. intros n n' ->.
    rewrite wtext_rword. apply alike_ret. repeat split. cbn [fst snd]. apply grows_cons, grows_refl.
  - cbn [exec rstmt]. apply alike_next. unfold eval_stmt.
    eapply alike_bind; [now apply alike_multi | intros; hox |]. intros. now apply alike_ret.
  - assert (Ha : forall x, In x a -> same_exec x).
    { clear HS. induction a as [|y a IHa]; intros x; [intros []|]. intros [<-|Hx]; [apply IH | now apply IHa]. }
    assert (Hb : forall x, In x b -> same_exec x).
    { clear HS. induction b as [|y b IHb]; intros x; [intros []|]. intros [<-|Hx]; [apply IH | now apply IHb]. }
    assert (Hi : match init with None => True | Some i => same_exec i end) by (clear HS; destruct init; [apply IH | exact I]).
    clear IH. rewrite !settled_app in HS. destruct HS as (Si & Sc & Sa & Sb). cbn [exec rstmt]. apply alike_keep.
    eapply alike_bind with (R := left env).
    + destruct init; [apply (Hi env []); exact Si|]. apply alike_ret. apply (left_next env []).
    + intros [c0 [e t]]. cbn [fst snd]. apply honest_bind; [hox|]. intros. apply honest_bind; [hox|]. intros.
      destruct a1; apply (honest_block W2 m2 funcs2 L call2 Hcall2).
    + intros [c0 [e t]] [c0' [e' t']] (E1 & E2 & E3 & G). cbn [fst snd] in *. subst.
      eapply alike_bind; [apply alike_eval; now apply (settled_grows env)| |].
      * intros. apply honest_bind; [hox|]. intros. destruct a0; apply (honest_block W2 m2 funcs2 L call2 Hcall2).
      * intros v v' Hv. eapply alike_bind; [now apply alike_bool| |].
        { intros d. destruct d; apply (honest_block W2 m2 funcs2 L call2 Hcall2). }
        intros d d' ->. destruct d'; [apply (alike_block_of a Ha e []) | apply (alike_block_of b Hb e [])]; now apply (settled_grows env).
  - assert (Ha : forall x, In x a -> same_exec x).
    { clear HS. induction a as [|y a IHa]; intros x; [intros []|]. intros [<-|Hx]; [apply IH | now apply IHa]. }
    assert (Hb : forall x, In x b -> same_exec x).
    { clear HS. induction b as [|y b IHb]; intros x; [intros []|]. intros [<-|Hx]; [apply IH | now apply IHb]. }
    clear IH. rewrite !settled_app in HS. destruct HS as (Sc & Sa & Sc2 & Sb). cbn [exec rstmt]. apply alike_keep.
    assert (HB : forall l e t, honest W2 (bl2 e t l)) by (intros; apply (honest_block W2 m2 funcs2 L call2 Hcall2)).
    eapply alike_bind; [now apply alike_eval| |].
    { intros. apply honest_bind; [hox|]. intros d. destruct d; [apply HB|]. hox; try apply HB. }
    intros v v' Hv. eapply alike_bind; [now apply alike_bool| |].
    { intros d. destruct d; [apply HB|]. hox; try apply HB. }
    intros d d' ->. destruct d'; [now apply (alike_block_of a Ha env [])|].
    eapply alike_bind; [now apply alike_eval| |].
    { intros. hox; try apply HB. }
    intros w w' Hw. eapply alike_bind; [now apply alike_bool| |].
    { intros d. hox; try apply HB. }
    intros d d' ->. destruct d'; [now apply (alike_block_of b Hb env []) | now apply alike_ret].
  - assert (Ha : forall x, In x body -> same_exec x).
    { clear HS. induction body as [|y a IHa]; intros x; [intros []|]. intros [<-|Hx]; [apply IH | now apply IHa]. }
    pose proof (IH init) as Hi. pose proof (IH post) as Hp. clear IH.
    rewrite !settled_app in HS. destruct HS as (Si & Sc & Sp & Sb). cbn [exec rstmt]. apply alike_keep.
    assert (HB : forall l e t, honest W2 (bl2 e t l)) by (intros; apply (honest_block W2 m2 funcs2 L call2 Hcall2)).
    eapply alike_bind; [apply (Hi env []); exact Si| |].
    { intros [c0 [e t]]. cbn [fst snd]. apply honest_loop; [hox | apply HB | hox]. }
    intros [c0 [e t]] [c0' [e' t']] (E1 & E2 & E3 & G). cbn [fst snd] in *. subst.
    apply alike_loop; [ | | | hox | apply HB | hox].
    + eapply alike_bind; [apply alike_eval; now apply (settled_grows env) | intros; hox |]. intros. now apply alike_bool.
    + apply (alike_block_of body Ha e []). now apply (settled_grows env).
    + eapply alike_bind; [apply (Hp e []); now apply (settled_grows env) | intros; hox |]. intros. now apply alike_ret.
  - assert (Ha : forall x, In x cases -> forall s, In s (snd x) -> same_exec s).
    { clear HS. induction cases as [|[e0 body] cases IHc]; intros x; [intros []|]. intros [<-|Hx]; [|now apply IHc]. cbn [snd].
      clear -IH. induction body as [|y a IHa]; intros x; [intros []|]. intros [<-|Hx]; [apply IH | now apply IHa]. }
    clear IH. change (rstmt ren (SSelect cases)) with (SSelect (map (fun c => (rexpr ren (fst c), map (rstmt ren) (snd c))) cases)).
    cbn [exec]. apply alike_keep.
    assert (HB : forall l e t, honest W2 (bl2 e t l)) by (intros; apply (honest_block W2 m2 funcs2 L call2 Hcall2)).
    rewrite map_map. cbn [fst].
    eapply alike_bind.
    { replace (map (fun x => rexpr ren (fst x)) cases) with (map (rexpr ren) (map fst cases)) by now rewrite map_map.
      apply alike_evals. clear -HS. induction cases as [|[e b] l IH]; [constructor|]. cbn in *. 
      rewrite !settled_app in *. tauto. }
    { intros. apply honest_bind; [hox|]. intros vs. destruct vs as [|[] [|? [|? ?]]]; try apply honest_stuck.
      generalize 0%Z. clear -HB. induction cases as [|[e0 body] cases IHc]; intros i; [apply honest_stuck|]. cbn [map fst snd].
      destruct (i =? z)%Z; [apply HB | apply IHc]. }
    intros chs chs' Hchs. eapply alike_bind; [apply alike_ask; now constructor| |].
    { intros vs. destruct vs as [|[] [|? [|? ?]]]; try apply honest_stuck.
      generalize 0%Z. clear -HB. induction cases as [|[e0 body] cases IHc]; intros i; [apply honest_stuck|]. cbn [map fst snd].
      destruct (i =? z)%Z; [apply HB | apply IHc]. }
    intros vs vs' Hvs. destruct Hvs as [|v v' l l' Hv Hl]; [apply alike_stuck|].
    destruct Hv; try apply alike_stuck. destruct Hl as [|w w' l l' Hw Hl]; [apply alike_stuck|]. destruct Hl; [|apply alike_stuck].
    generalize 0%Z. clear -HS Ha Hcall Hcall2 Hm Hfuncs Hsettled Hans Hhas ren_inj ren_blank.
    induction cases as [|[e0 body] cases IHc]; intros i; [apply alike_stuck|]. cbn [map fst snd].
    cbn [flat_map fst snd] in HS. rewrite !settled_app in HS. destruct HS as ((Se & Sb) & Sr).
    destruct (i =? z)%Z.
    + apply (alike_block_of body (Ha (e0, body) (or_introl eq_refl)) env []). exact Sb.
    + apply IHc; [exact Sr | intros; eapply Ha; [right; eassumption | assumption]].
  - cbn [exec rstmt]. apply alike_next. eapply alike_bind; [now apply alike_eval | intros; hox |]. intros v v' Hv.
    destruct Hv; try apply alike_stuck. apply alike_assign; [exact HS | constructor].
  - cbn [exec rstmt]. apply alike_ret. repeat split. apply grows_refl.
  - cbn [exec rstmt]. apply alike_keep. 
    eapply alike_bind; [apply (alike_multi env (EMCall recv)); exact HS | intros; hox |]. intros vs vs' Hvs.
    pose proof results_nil as HN. destruct (m_results m1), (m_results m2);
      try (now apply alike_ret); try (destruct HN as [N1 N2]; first [now specialize (N1 eq_refl) | now specialize (N2 eq_refl)]).
    eapply alike_bind; [now apply alike_stores | intros; hox |]. intros. now apply alike_ret.
  - cbn [exec rstmt]. apply alike_next. eapply alike_bind; [now apply alike_callee | intros; now apply honest_same |]. intros k k' Hk.
    intros s1 s2 (H1 & H2 & H3). right. split; [now constructor|]. repeat split; try assumption. now constructor.
  - apply settled_app in HS as [Sc Se]. cbn [exec rstmt]. apply alike_next.
    eapply alike_bind; [now apply alike_eval | intros; hox |]. intros.
    eapply alike_bind; [now apply alike_eval | intros; hox |]. intros.
    eapply alike_bind; [apply alike_ask; now constructor | intros; hox |]. intros. now apply alike_ret.
  - assert (Ha : forall x, In x body -> same_exec x).
    { clear HS. induction body as [|y a IHa]; intros z; [intros []|]. intros [<-|Hx]; [apply IH | now apply IHa]. }
    clear IH. assert (HB : forall l e t, honest W2 (bl2 e t l)) by (intros; apply (honest_block W2 m2 funcs2 L call2 Hcall2)).
    inversion HS as [|? ? Sx Sr]; subst. apply Forall_app in Sr as [Se Sb]. cbn [exec rstmt]. apply alike_keep.
    eapply alike_bind; [now apply alike_eval| |].
    { intros. apply honest_bind; [hox|]. intros. apply honest_over. intros. apply honest_bind; [hox | intros; apply HB]. }
    intros v v' Hv. eapply alike_bind; [now apply alike_slice| |].
    { intros. apply honest_over. intros. apply honest_bind; [hox | intros; apply HB]. }
    intros l l' Hl. apply alike_over; [exact Hl | | intros; apply honest_bind; [hox | intros; apply HB]].
    intros w w' Hw. eapply alike_bind; [now apply alike_alloc | intros; apply HB |]. intros n n' ->. rewrite wtext_rword.
    apply (alike_block_of body Ha ((wtext x, n') :: env) []). now apply settled_more.
Qed.

Lemma alike_block : forall l env top, settled ren env (flat_map snames l) ->
  alike eq (bl1 env top l) (bl2 (renv ren env) (map ren top) (map (rstmt ren) l)).
Proof. intros l. apply alike_block_of. intros s _. apply alike_exec. Qed.

Inductive prel : option val -> option val -> Prop :=
| p_none : prel None None
| p_some v v' : vr v v' -> prel (Some v) (Some v').

Lemma alike_defers : forall l l' p p', Forall2 (crel ren) l l' -> prel p p' ->
  alike prel (run_defers call1 l p) (run_defers call2 l' p').
Proof.
  intros l l' p p' H. revert p p'. induction H as [|k k' l l' Hk Hl IH]; intros p p' Hp; [now apply alike_ret|].
  intros s1 s2 Hs. cbn [run_defers]. destruct (Hcall k k' Hk s1 s2 Hs) as [(M & B & St)|(Ho & Hs')].
  - left. split; [exact M|]. destruct (call1 k s1) as [r s1']. cbn [fst snd] in *. subst r. split; [reflexivity|]. cbn [snd].
    destruct (call2 k' s2) as [[a|v| | |] s2']; cbn [snd] in *; try exact St.
    + destruct (honest_defers W2 call2 Hcall2 l' p' s2') as (q & E & _). rewrite E. now apply stopped_more.
    + destruct (honest_defers W2 call2 Hcall2 l' (Some v) s2') as (q & E & _). rewrite E. now apply stopped_more.
  - destruct (call1 k s1) as [r s1']. destruct (call2 k' s2) as [r' s2']. cbn [fst snd] in *.
    destruct Ho as [a b Hab|v v' Hv| | |]; try (right; split; [constructor | exact Hs']).
    + apply IH; assumption.
    + apply IH; [now constructor | assumption].
Qed.

Lemma alike_activation : forall env top body, settled ren env (flat_map snames body) ->
  alike vsr (activation W1 m1 funcs1 L call1 locs env top body)
    (activation W2 m2 funcs2 L call2 locs (renv ren env) (map ren top) (map (rstmt ren) body)).
Proof.
  intros env top body HS s1 s2 (H1 & H2 & H3). unfold activation.
  assert (H0 : sr (MState (ms_store s1) (ms_trace s1) []) (MState (ms_store s2) (ms_trace s2) [])) by (repeat split; try assumption; constructor).
  assert (Hfin : forall p p' t1 t2, prel p p' -> sr t1 t2 ->
    let fin (call : callable -> G (list val)) (s t : mstate) (p : option val) :=
      match run_defers call (ms_defers t) p (MState (ms_store t) (ms_trace t) []) with
      | (Val (Some v), s2) => (Pan v, MState (ms_store s2) (ms_trace s2) (ms_defers s))
      | (Val None, s2) => loads locs (MState (ms_store s2) (ms_trace s2) (ms_defers s))
      | (Pan v, s2) => (Pan v, MState (ms_store s2) (ms_trace s2) (ms_defers s))
      | (Blk, s2) => (Blk, s2)
      | (NoFuel, s2) => (NoFuel, s2)
      | (Stuck, s2) => (Stuck, s2)
      end in
    (may /\ fst (fin call1 s1 t1 p) = Blk /\ stopped (ms_trace (snd (fin call1 s1 t1 p))) (ms_trace (snd (fin call2 s2 t2 p')))) \/
    (outrel ren vsr (fst (fin call1 s1 t1 p)) (fst (fin call2 s2 t2 p')) /\ sr (snd (fin call1 s1 t1 p)) (snd (fin call2 s2 t2 p')))).
  { intros p p' t1 t2 Hp (T1 & T2 & T3). cbv zeta.
    assert (T0 : sr (MState (ms_store t1) (ms_trace t1) []) (MState (ms_store t2) (ms_trace t2) [])) by (repeat split; try assumption; constructor).
    destruct (alike_defers _ _ p p' T3 Hp _ _ T0) as [(M & B & St)|(Ho & (S1 & S2 & S3))];
    destruct (run_defers call1 (ms_defers t1) p _) as [r t1']; destruct (run_defers call2 (ms_defers t2) p' _) as [r' t2']; cbn [fst snd] in *.
    - subst r. left. split; [exact M|]. split; [reflexivity|]. cbn [snd]. 
      destruct r' as [[v|]|v| | |]; try exact St.
      destruct (honest_loads W2 locs (MState (ms_store t2') (ms_trace t2') (ms_defers s2))) as (q & E & _). rewrite E. now apply stopped_more.
    - destruct Ho as [a b Hab|v v' Hv| | |]; try (right; split; [constructor; assumption | now repeat split]); try (right; split; [constructor | now repeat split]).
      destruct Hab as [|v v' Hv]; [|right; split; [now constructor | now repeat split]].
      apply alike_loads. now repeat split. }
  assert (HF : forall t q, exists l, ms_trace (snd
      (match run_defers call2 (ms_defers t) q (MState (ms_store t) (ms_trace t) []) with
      | (Val (Some v), s3) => (Pan v, MState (ms_store s3) (ms_trace s3) (ms_defers s2))
      | (Val None, s3) => loads locs (MState (ms_store s3) (ms_trace s3) (ms_defers s2))
      | (Pan v, s3) => (Pan v, MState (ms_store s3) (ms_trace s3) (ms_defers s2))
      | (Blk, s3) => (Blk, s3)
      | (NoFuel, s3) => (NoFuel, s3)
      | (Stuck, s3) => (Stuck, s3)
      end)) = ms_trace t ++ l).
  { intros t q. destruct (honest_defers W2 call2 Hcall2 (ms_defers t) q (MState (ms_store t) (ms_trace t) [])) as (l & E & _).
    destruct (run_defers _ _ _ _) as [[[v|]|v| | |] s3]; cbn [snd ms_trace] in *; try (exists l; exact E).
    destruct (honest_loads W2 locs (MState (ms_store s3) (ms_trace s3) (ms_defers s2))) as (l2 & E2 & _). cbn [ms_trace] in *.
    exists (l ++ l2). now rewrite E2, E, app_assoc. }
  destruct (alike_block body env top HS _ _ H0) as [(M & B & St)|(Ho & Hs')];
  destruct (bl1 env top body _) as [r t1]; destruct (bl2 _ _ _ _) as [r' t2]; cbn [fst snd] in *.
  - subst r. left. split; [exact M|]. split; [reflexivity|]. cbn [snd]. destruct r' as [c|v| | |]; try exact St; cbv zeta.
    + destruct (HF t2 None) as (l & ->). now apply stopped_more.
    + destruct (HF t2 (Some v)) as (l & ->). now apply stopped_more.
  - cbv zeta in *. destruct Ho as [a b Hab|v v' Hv| | |]; try (right; split; [constructor | exact Hs']).
    + apply (Hfin None None t1 t2); [constructor | exact Hs'].
    + apply (Hfin (Some v) (Some v') t1 t2); [now constructor | exact Hs'].
Qed.
End LEVEL.

Lemma outrel_weaken : forall {A B} (R S : A -> B -> Prop) x y, (forall a b, R a b -> S a b) -> outrel ren R x y -> outrel ren S x y.
Proof. intros A B R S x y H Ho. destruct Ho; constructor; auto. Qed.

Lemma alike_allocs : forall names vs vs' env, vsr vs vs' ->
  alike (fun e e' => e' = renv ren e /\ grows env e) (allocs names vs env) (allocs (map ren names) vs' (renv ren env)).
Proof.
  induction names as [|x names IH]; intros vs vs' env H; destruct H; cbn [allocs map]; try apply alike_stuck.
  - apply alike_ret. split; [reflexivity | apply grows_refl].
  - eapply alike_bind; [now apply alike_alloc | intros; apply honest_allocs |]. intros n n' ->.
    intros s1 s2 Hs. destruct (IH l l' ((x, n') :: env) H0 s1 s2 Hs) as [K|(Ho & Hs')]; [left; exact K | right]. 
    split; [|exact Hs']. refine (outrel_weaken _ _ _ _ _ Ho). intros e e' [-> G].
    split; [reflexivity|]. eapply grows_trans; [|exact G]. apply grows_cons, grows_refl.
Qed.

Lemma find_func_ren : forall f,
  find_func f funcs2 = match find_func f funcs1 with Some (ps, body) => Some (map ren ps, map (rstmt ren) body) | None => None end.
Proof.
  intros f. rewrite Hfuncs. clear. induction funcs1 as [|[y [ps body]] l IH]; [reflexivity|]. cbn.
  destruct (String.eqb f y); [reflexivity | exact IH].
Qed.

Lemma find_func_settled : forall f ps body, find_func f funcs1 = Some (ps, body) -> forall env, settled ren env (flat_map snames body).
Proof.
  intros f ps body. revert Hsettled. clear. induction funcs1 as [|[y [ps' body']] l IH]; intros H E env; [discriminate|].
  inversion H as [|? ? Hx Hl]; subst. cbn in E. destruct (String.eqb f y); [|now apply IH].
  inversion E; subst. cbn [fst snd] in Hx. apply Forall_app in Hx as [_ Hx]. eapply Forall_impl; [|exact Hx]. intros; now left.
Qed.

Lemma alike_invoke : forall d k k', crel ren k k' ->
  alike vsr (invoke W1 m1 funcs1 L d k) (invoke W2 m2 funcs2 L d k').
Proof.
  induction d as [|d IH]; intros k k' H; destruct H; cbn [invoke]; try apply alike_stuck; try (now apply alike_ask).
  - apply (alike_activation _ _ IH (honest_invoke W2 m2 funcs2 L d) [] env [] body H).
  - rewrite find_func_ren. destruct (find_func n funcs1) as [[ps body]|] eqn:E; [|apply alike_stuck].
    eapply alike_bind; [apply (alike_allocs ps l l' [] H)| |].
    + intros. apply honest_activation. apply (honest_invoke W2 m2 funcs2 L d).
    + intros e e' [-> G]. apply (alike_activation _ _ IH (honest_invoke W2 m2 funcs2 L d) [] e ps body). now apply (find_func_settled n ps).
Qed.

Hypothesis ren_recv : ren "_d" = "_d".

Lemma method_env_ren : method_env m2 = renv ren (method_env m1).
Proof.
  destruct Hm as (_ & Hp & Hr). unfold method_env. rewrite Hp, Hr, <- map_app, map_length. cbn [renv map fst snd]. rewrite ren_recv.
  f_equal. generalize 1. induction (result_names m1 ++ param_names m1) as [|x l IH]; intros n; [reflexivity|]. cbn. now rewrite IH.
Qed.

Theorem run_method_alike : forall body recv recv' zeros zeros' args args',
  vr recv recv' -> vsr zeros zeros' -> vsr args args' ->
  settled ren (method_env m1) (flat_map snames body) ->
  let x := run_method W1 m1 funcs1 L body recv zeros args in
  let y := run_method W2 m2 funcs2 L (map (rstmt ren) body) recv' zeros' args' in
  (may /\ fst x = Blk /\ stopped (snd x) (snd y)) \/ (outrel ren vsr (fst x) (fst y) /\ trel ren (snd x) (snd y)).
Proof.
  intros body recv recv' zeros zeros' args args' Hr Hz Ha HS. cbv zeta. unfold run_method.
  replace (length (m_results m2)) with (length (m_results m1)).
  2: { destruct Hm as (_ & _ & E). apply (f_equal (@length string)) in E. unfold result_names in E. now rewrite !map_length in E. }
  rewrite method_env_ren.
  replace ("_d" :: result_names m2 ++ param_names m2) with (map ren ("_d" :: result_names m1 ++ param_names m1)).
  2: { destruct Hm as (_ & -> & ->). cbn [map]. now rewrite ren_recv, map_app. }
  assert (H0 : sr (MState (recv :: zeros ++ args) [] []) (MState (recv' :: zeros' ++ args') [] [])).
  { repeat split; try constructor; try assumption. now apply vs_app. }
  destruct (alike_activation _ _ (alike_invoke depth) (honest_invoke W2 m2 funcs2 L depth) (seq 1 (length (m_results m1)))
    (method_env m1) ("_d" :: result_names m1 ++ param_names m1) body HS _ _ H0) as [K|(Ho & Hs')];
  destruct (activation W1 _ _ _ _ _ _ _ _ _) as [r s1]; destruct (activation W2 _ _ _ _ _ _ _ _ _) as [r' s2]; cbn [fst snd] in *.
  - now left.
  - right. split; [exact Ho|]. apply Hs'.
Qed.
End ALIKE.
