(** Reasoning about MiniGo.run_method: weakest preconditions, the frame of a
    generated method, and the rules the decorator proofs use. *)
From Verif Require Export Bodies.
Open Scope nat_scope.

(** ** Methods as gowrap builds them *)

(** what PropNaming.v proves of every method NewMethod returns *)
Record wf_method (m : method) : Prop := {
  wf_names : NoDup (result_names m ++ param_names m);
  wf_ctx : m_acceptsContext m = true -> exists p r, m_params m = p :: r /\ p_name p = "ctx";
  wf_err : m_returnsError m = true -> exists r p, m_results m = r ++ [p] /\ p_name p = "err"
}.

(** none of the user's names is the receiver, a predeclared identifier the
    templates use, or one of [ids] *)
Definition hygienic (m : method) (ids : list string) : Prop :=
  forall x, In x ("_d" :: "_" :: "nil" :: "true" :: ids) -> ~ In x (result_names m ++ param_names m).

Lemma hygienic_less : forall m ids ids', hygienic m ids -> incl ids' ids -> hygienic m ids'.
Proof. intros m ids ids' H Hi x Hx. apply H. cbn in *. intuition. Qed.

(** ** Weakest preconditions *)

Definition wp {A} (x : G A) (Q : out A -> mstate -> Prop) (s : mstate) : Prop := Q (fst (x s)) (snd (x s)).

Lemma wp_ret : forall {A} (a : A) (Q : out A -> mstate -> Prop) s, Q (Val a) s -> wp (gret a) Q s.
Proof. intros. exact H. Qed.

Lemma wp_bind : forall {A B} (x : G A) (k : A -> G B) (Q : out B -> mstate -> Prop) s,
  wp x (fun r s' => match r with
                    | Val a => wp (k a) Q s'
                    | Pan v => Q (Pan v) s'
                    | Blk => Q Blk s'
                    | NoFuel => Q NoFuel s'
                    | Stuck => Q Stuck s'
                    end) s ->
  wp (gbind x k) Q s.
Proof. intros A B x k Q s H. unfold wp, gbind in *. destruct (x s) as [[a|v| | |] s']; exact H. Qed.

Lemma wp_unbind : forall {A B} (x : G A) (k : A -> G B) (Q : out B -> mstate -> Prop) s,
  wp (gbind x k) Q s ->
  wp x (fun r s' => match r with
                    | Val a => wp (k a) Q s'
                    | Pan v => Q (Pan v) s'
                    | Blk => Q Blk s'
                    | NoFuel => Q NoFuel s'
                    | Stuck => Q Stuck s'
                    end) s.
Proof. intros A B x k Q s H. unfold wp, gbind in *. destruct (x s) as [[a|v| | |] s']; exact H. Qed.

Lemma wp_weaken : forall {A} (x : G A) (P Q : out A -> mstate -> Prop) s,
  wp x P s -> (forall r s', P r s' -> Q r s') -> wp x Q s.
Proof. unfold wp. auto. Qed.

Lemma wp_run : forall {A} (x : G A) s, wp x (fun r s' => x s = (r, s')) s.
Proof. intros. unfold wp. now destruct (x s). Qed.

(** ** The store of a method: receiver, results, parameters, locals *)

Lemma nth_error_mid : forall {A} (a : list A) x b, nth_error (a ++ x :: b) (length a) = Some x.
Proof. induction a; cbn; auto. Qed.

Lemma set_nth_mid : forall {A} (a : list A) x y b, set_nth (length a) y (a ++ x :: b) = a ++ y :: b.
Proof. induction a; cbn; intros; [reflexivity|]. now rewrite IHa. Qed.

Lemma loads_mid : forall l a b tr ds,
  loads (seq (length a) (length l)) (MState (a ++ l ++ b) tr ds) = (Val l, MState (a ++ l ++ b) tr ds).
Proof.
  induction l as [|x l IH]; intros a b tr ds; [reflexivity|]. cbn [length seq loads].
  unfold gbind at 1. unfold load at 1. cbn [ms_store app]. rewrite nth_error_mid.
  specialize (IH (a ++ [x]) b tr ds). rewrite app_length in IH. cbn [length] in IH.
  rewrite Nat.add_1_r in IH. rewrite <- app_assoc in IH. cbn [app] in IH.
  unfold gbind. rewrite IH. reflexivity.
Qed.

Lemma stores_mid : forall l l' a b tr ds, length l = length l' ->
  stores (seq (length a) (length l)) l' (MState (a ++ l ++ b) tr ds) = (Val tt, MState (a ++ l' ++ b) tr ds).
Proof.
  induction l as [|x l IH]; intros [|y l'] a b tr ds H; try discriminate; [reflexivity|]. cbn [length seq stores].
  unfold gbind, store. cbn [ms_store ms_trace ms_defers app]. rewrite set_nth_mid.
  specialize (IH l' (a ++ [y]) b tr ds). rewrite app_length in IH. cbn [length] in IH.
  rewrite Nat.add_1_r, <- !app_assoc in IH. cbn [app] in IH. apply IH. now inversion H.
Qed.

(** ** Environments *)

Lemma lookup_combine : forall names k i x, NoDup names -> nth_error names i = Some x ->
  lookup x (combine names (seq k (length names))) = Some (k + i).
Proof.
  induction names as [|y names IH]; intros k i x Hnd Hi; [destruct i; discriminate|].
  inversion Hnd as [|? ? Hy Hnd']; subst. cbn [length seq combine lookup].
  destruct i as [|i]; cbn in Hi.
  - injection Hi as ->. rewrite String.eqb_refl. f_equal. lia.
  - destruct (String.eqb_spec x y) as [->|_].
    + exfalso. apply Hy. eapply nth_error_In, Hi.
    + rewrite (IH (S k) i x Hnd' Hi). f_equal. lia.
Qed.

Lemma lookup_combine_none : forall names l x, ~ In x names -> lookup x (combine names l) = None.
Proof.
  induction names as [|y names IH]; intros l x H; [reflexivity|]. destruct l as [|n l]; [reflexivity|]. cbn.
  destruct (String.eqb_spec x y) as [->|_]; [exfalso; apply H; now left|]. apply IH. intros Hx. apply H. now right.
Qed.

Lemma lookups_map : forall xs env f, (forall i x, nth_error xs i = Some x -> lookup x env = Some (f + i)) ->
  lookups xs env = Some (seq f (length xs)).
Proof.
  induction xs as [|x xs IH]; intros env f H; [reflexivity|]. cbn [lookups length seq].
  rewrite (H 0 x eq_refl). rewrite Nat.add_0_r. rewrite (IH env (S f)); [reflexivity|].
  intros i y Hy. rewrite (H (S i) y Hy). f_equal. lia.
Qed.

Lemma lookups_skip : forall xs x n env, ~ In x xs -> lookups xs ((x, n) :: env) = lookups xs env.
Proof.
  induction xs as [|y xs IH]; intros x n env H; [reflexivity|]. cbn [lookups lookup].
  destruct (String.eqb_spec y x) as [->|_]; [exfalso; apply H; now left|].
  rewrite IH; [reflexivity|]. intros Hx. apply H. now right.
Qed.

Section FRAME.
Variable m : method.
Let R := length (m_results m).
Let P := length (m_params m).

(** the method's own names mean what they mean at its start *)
Record frame (env : loc_env) : Prop := {
  fr_d : lookup "_d" env = Some 0;
  fr_results : lookups (result_names m) env = Some (seq 1 R);
  fr_params : lookups (param_names m) env = Some (seq (S R) P)
}.

Lemma frame_start : forall ids, NoDup (result_names m ++ param_names m) -> hygienic m ids -> frame (method_env m).
Proof.
  intros ids Hnd Hh. unfold method_env.
  assert (Hd : forall x, In x (result_names m ++ param_names m) -> String.eqb x "_d" = false).
  { intros x Hx. apply String.eqb_neq. intros ->. apply (Hh "_d"); [now left | exact Hx]. }
  constructor.
  - reflexivity.
  - replace R with (length (result_names m)) by apply map_length. apply lookups_map. intros i x Hi. cbn [lookup].
    rewrite Hd by (apply in_or_app; left; eapply nth_error_In, Hi).
    rewrite (lookup_combine _ 1 i x Hnd); [f_equal; lia|].
    rewrite nth_error_app1; [exact Hi|]. apply nth_error_Some. now rewrite Hi.
  - replace P with (length (param_names m)) by apply map_length. apply lookups_map. intros i x Hi. cbn [lookup].
    rewrite Hd by (apply in_or_app; right; eapply nth_error_In, Hi).
    rewrite (lookup_combine _ 1 (R + i) x Hnd); [f_equal; lia|].
    rewrite nth_error_app2; unfold result_names at 1; rewrite map_length; fold R; [|lia].
    replace (R + i - R) with i by lia. exact Hi.
Qed.

Lemma frame_cons : forall x n env, x <> "_d" -> ~ In x (result_names m ++ param_names m) ->
  frame env -> frame ((x, n) :: env).
Proof.
  intros x n env Hx Hin [H1 H2 H3]. rewrite in_app_iff in Hin. constructor.
  - cbn [lookup]. destruct (String.eqb_spec "_d" x) as [E|_]; [now exfalso; apply Hx|]. exact H1.
  - rewrite lookups_skip; tauto.
  - rewrite lookups_skip; tauto.
Qed.

Lemma lookup_fresh : forall ids x, hygienic m ids -> In x ids -> x <> "_d" -> lookup x (method_env m) = None.
Proof.
  intros ids x Hh Hx Hd. unfold method_env. cbn [lookup].
  destruct (String.eqb_spec x "_d") as [->|_]; [contradiction|].
  apply lookup_combine_none. apply Hh. do 4 right. exact Hx.
Qed.

Lemma lookup_predeclared : forall ids x, hygienic m ids -> x = "nil" \/ x = "true" -> lookup x (method_env m) = None.
Proof.
  intros ids x Hh Hx. unfold method_env. cbn [lookup].
  destruct (String.eqb_spec x "_d") as [->|_]; [now destruct Hx|].
  apply lookup_combine_none. apply Hh. destruct Hx as [-> | ->]; cbn; tauto.
Qed.

(** the error is the last result *)
Lemma lookup_err : wf_method m -> m_returnsError m = true -> lookup "err" (method_env m) = Some R.
Proof.
  intros Hwf He. destruct (wf_err m Hwf He) as [r [p [Hr Hp]]]. unfold method_env. cbn [lookup].
  change (String.eqb "err" "_d") with false. cbn iota.
  rewrite (lookup_combine _ 1 (length r) "err" (wf_names m Hwf)).
  - f_equal. unfold R. rewrite Hr, app_length. cbn. lia.
  - unfold result_names. rewrite Hr, map_app, <- app_assoc. cbn [map app]. rewrite Hp.
    rewrite <- (map_length p_name r). apply nth_error_mid.
Qed.

(** the context is the first parameter *)
Lemma lookup_ctx : wf_method m -> m_acceptsContext m = true -> lookup "ctx" (method_env m) = Some (S R).
Proof.
  intros Hwf Ha. destruct (wf_ctx m Hwf Ha) as [p [r [Hr Hp]]]. unfold method_env. cbn [lookup].
  change (String.eqb "ctx" "_d") with false. cbn iota.
  rewrite (lookup_combine _ 1 R "ctx" (wf_names m Hwf)); [f_equal; lia|].
  unfold param_names. rewrite Hr. cbn [map]. rewrite Hp.
  replace R with (length (result_names m)) by apply map_length. apply nth_error_mid.
Qed.

(** any parameter *)
Lemma lookup_param : forall i p, wf_method m -> hygienic m [] -> nth_error (m_params m) i = Some p ->
  lookup (p_name p) (method_env m) = Some (S (R + i)).
Proof.
  intros i p Hwf Hh Hi. unfold method_env. cbn [lookup].
  assert (Hin : nth_error (param_names m) i = Some (p_name p)) by (unfold param_names; now apply map_nth_error).
  destruct (String.eqb_spec (p_name p) "_d") as [E|_].
  { exfalso. apply (Hh "_d"); [now left|]. apply in_or_app. right. rewrite <- E. eapply nth_error_In, Hin. }
  rewrite (lookup_combine _ 1 (R + i) _ (wf_names m Hwf)); [f_equal; lia|].
  rewrite nth_error_app2; unfold result_names at 1; rewrite map_length; fold R; [|lia].
  replace (R + i - R) with i by lia. exact Hin.
Qed.
End FRAME.

(** ** The store *)

(** receiver, results, parameters, locals *)
Definition cells (recv : val) (rs ps ex : list val) : list val := recv :: rs ++ ps ++ ex.

Section STORE.
Variables R P : nat.

Lemma cells_recv : forall recv rs ps ex, nth_error (cells recv rs ps ex) 0 = Some recv.
Proof. reflexivity. Qed.

Lemma cells_err : forall recv rs ps ex, length rs = R -> rs <> [] ->
  nth_error (cells recv rs ps ex) R = Some (last rs VNil).
Proof.
  intros recv rs ps ex <- Hne. destruct (exists_last Hne) as [l [v ->]]. unfold cells.
  rewrite last_last, app_length, Nat.add_1_r, <- app_assoc. cbn [nth_error app]. apply nth_error_mid.
Qed.

Lemma cells_param : forall recv rs ps ex i, length rs = R -> i < length ps ->
  nth_error (cells recv rs ps ex) (S (R + i)) = nth_error ps i.
Proof.
  intros recv rs ps ex i <- Hi. unfold cells. cbn [nth_error].
  rewrite nth_error_app2 by lia. replace (length rs + i - length rs) with i by lia. now rewrite nth_error_app1.
Qed.

Lemma cells_first : forall recv rs c ps ex, length rs = R -> nth_error (cells recv rs (c :: ps) ex) (S R) = Some c.
Proof.
  intros recv rs c ps ex H. rewrite <- (Nat.add_0_r R). rewrite cells_param; [reflexivity | exact H | cbn; lia].
Qed.

Lemma cells_hd : forall recv rs ps c ex, hd_error ps = Some c -> length rs = R ->
  nth_error (cells recv rs ps ex) (S R) = Some c.
Proof. intros recv rs [|x ps] c ex H Hr; [discriminate|]. injection H as <-. now apply cells_first. Qed.

Lemma cells_local : forall recv rs ps ex k, length rs = R -> length ps = P ->
  nth_error (cells recv rs ps ex) (S (R + P) + k) = nth_error ex k.
Proof.
  intros recv rs ps ex k <- <-. unfold cells. cbn [nth_error Nat.add].
  rewrite !nth_error_app2 by lia. f_equal. lia.
Qed.

Lemma cells_length : forall recv rs ps ex, length rs = R -> length ps = P ->
  length (cells recv rs ps ex) = S (R + P) + length ex.
Proof. intros recv rs ps ex <- <-. unfold cells. cbn. rewrite !app_length. lia. Qed.

Lemma cells_add : forall recv rs ps ex v, cells recv rs ps ex ++ [v] = cells recv rs ps (ex ++ [v]).
Proof. intros. unfold cells. cbn. now rewrite <- !app_assoc. Qed.

Lemma set_nth_app2 : forall {A} (a b : list A) n v, length a <= n ->
  set_nth n v (a ++ b) = a ++ set_nth (n - length a) v b.
Proof.
  intros A. induction a as [|x a IH]; intros b n v H; cbn; [now rewrite Nat.sub_0_r|].
  destruct n as [|n]; cbn in H; [lia|]. cbn. rewrite IH by lia. reflexivity.
Qed.

Lemma cells_set_local : forall recv rs ps ex k v, length rs = R -> length ps = P ->
  set_nth (S (R + P) + k) v (cells recv rs ps ex) = cells recv rs ps (set_nth k v ex).
Proof.
  intros recv rs ps ex k v <- <-. unfold cells. cbn [set_nth Nat.add].
  rewrite !set_nth_app2 by lia. do 4 f_equal. lia.
Qed.

Lemma cells_set_err : forall recv rs ps ex v, length rs = R -> rs <> [] ->
  set_nth R v (cells recv rs ps ex) = cells recv (removelast rs ++ [v]) ps ex.
Proof.
  intros recv rs ps ex v <- Hne. destruct (exists_last Hne) as [l [e ->]]. unfold cells.
  rewrite removelast_last, app_length, Nat.add_1_r, <- !app_assoc. cbn [set_nth app]. now rewrite set_nth_mid.
Qed.

Lemma cells_set_first : forall recv rs c ps ex v, length rs = R ->
  set_nth (S R) v (cells recv rs (c :: ps) ex) = cells recv rs (v :: ps) ex.
Proof.
  intros recv rs c ps ex v <-. unfold cells. cbn [set_nth app]. now rewrite set_nth_mid.
Qed.
End STORE.

(** ** Rules *)

Lemma wtext_hole : forall s, wtext [PH s] = s.
Proof. intros. cbn. apply sapp_nil_r. Qed.

Section RULES.
Variable W : gworld.
Variable m : method.
Variable funcs : list (string * (list string * list gstmt)).
Variable L : nat.
Variable call : callable -> G (list val).
Variable res_locs : list nat.
Let R := length (m_results m).
Let P := length (m_params m).
Hypothesis Hcall : forall o, call (KOp o) = ask_op W o.

Notation eval := (eval W m funcs call).
Notation evals := (evals W m funcs call).
Notation assign_to := (MiniGo.assign_to W).
Notation assigns := (MiniGo.assigns W).
Notation exec := (exec W m funcs L call res_locs).
Notation block := (block W m funcs L call res_locs).
Notation callee := (callee W m funcs call).
Notation eval_multi := (eval_multi W m funcs call).

Lemma evals_local : forall env l,
  (fix evals (l : list gexpr) : G (list val) :=
     match l with
     | [] => gret []
     | x :: l' => let& v := eval env x in let& vs := evals l' in gret (v :: vs)
     end) l = evals env l.
Proof. induction l as [|x l IH]; [reflexivity|]. cbn [MiniGo.evals]. rewrite <- IH. reflexivity. Qed.

Definition one (vs : list val) : G val := match vs with [x] => gret x | _ => gstuck end.

Lemma eval_method_call : forall env r f args t,
  eval env (ECall (ESel r f) args t) =
  (let& v := eval env r in let& vs := evals env args in let& vs := spread t vs in
   let& k := method_target v (wtext f) vs in let& rs := call k in one rs).
Proof. intros. cbn [MiniGo.eval]. now rewrite evals_local. Qed.

(** outside operations *)
Lemma wp_ask : forall o (Q : out (list val) -> mstate -> Prop) st tr ds,
  match w_ans W tr o with
  | ARet l => Q (Val l) (MState st (tr ++ [(o, ARet l)]) ds)
  | APan v => Q (Pan v) (MState st (tr ++ [(o, APan v)]) ds)
  | ABlock => Q Blk (MState st (tr ++ [(o, ABlock)]) ds)
  end -> wp (ask_op W o) Q (MState st tr ds).
Proof. intros o Q st tr ds H. unfold wp, ask_op. cbn [ms_trace ms_store ms_defers]. now destruct (w_ans W tr o). Qed.

(** variables *)
Lemma wp_var : forall env x n v (Q : out val -> mstate -> Prop) st tr ds,
  lookup x env = Some n -> nth_error st n = Some v -> Q (Val v) (MState st tr ds) ->
  wp (ident env x) Q (MState st tr ds).
Proof. intros env x n v Q st tr ds Hl Hn H. unfold wp, ident. rewrite Hl. unfold load. cbn. now rewrite Hn. Qed.

Lemma wp_global : forall env x (Q : out val -> mstate -> Prop) s,
  lookup x env = None ->
  Q (Val (if String.eqb x "nil" then VNil else if String.eqb x "true" then VBool true else VPkg x)) s ->
  wp (ident env x) Q s.
Proof. intros env x Q s Hl H. unfold wp, ident. now rewrite Hl. Qed.

(** the method's parameters and results *)
Lemma wp_params : forall env recv rs ps ex tr ds (Q : out (list val) -> mstate -> Prop),
  frame m env -> length rs = R -> length ps = P -> Q (Val ps) (MState (cells recv rs ps ex) tr ds) ->
  wp (read_names env (param_names m)) Q (MState (cells recv rs ps ex) tr ds).
Proof.
  intros env recv rs ps ex tr ds Q Hf Hr Hp H. unfold wp, read_names. rewrite (fr_params m env Hf).
  change (recv :: rs ++ ps ++ ex) with ((recv :: rs) ++ ps ++ ex) in *.
  unfold cells in *. fold P. fold R. rewrite <- Hr, <- Hp.
  change (S (length rs)) with (length (recv :: rs)).
  change (recv :: rs ++ ps ++ ex) with ((recv :: rs) ++ ps ++ ex). rewrite loads_mid. exact H.
Qed.

Lemma wp_results : forall env recv rs ps ex tr ds (Q : out (list val) -> mstate -> Prop),
  frame m env -> length rs = R -> Q (Val rs) (MState (cells recv rs ps ex) tr ds) ->
  wp (read_names env (result_names m)) Q (MState (cells recv rs ps ex) tr ds).
Proof.
  intros env recv rs ps ex tr ds Q Hf Hr H. unfold wp, read_names. rewrite (fr_results m env Hf).
  unfold cells in *. fold R. rewrite <- Hr.
  change 1 with (length [recv]).
  change (recv :: rs ++ ps ++ ex) with ([recv] ++ rs ++ (ps ++ ex)). rewrite loads_mid. exact H.
Qed.

Lemma assigns_names : forall env xs locs vs s, lookups xs env = Some locs ->
  assigns env (map (fun x => EVar [PH x]) xs) vs s = stores locs vs s.
Proof.
  intros env. induction xs as [|x xs IH]; intros locs vs s H; cbn [lookups] in H.
  - injection H as <-. now destruct vs.
  - destruct (lookup x env) as [n|] eqn:Hx; [|discriminate]. destruct (lookups xs env) as [l|] eqn:Hl; [|discriminate].
    injection H as <-. destruct vs as [|v vs]; [reflexivity|]. cbn [map MiniGo.assigns stores]. unfold MiniGo.assign_to.
    rewrite wtext_hole, Hx. unfold gbind. destruct (store n v s) as [[u|w| | |] s1]; try reflexivity. now apply IH.
Qed.

Lemma wp_set_results : forall env recv rs vs ps ex tr ds (Q : out unit -> mstate -> Prop),
  frame m env -> length rs = R -> length vs = R -> Q (Val tt) (MState (cells recv vs ps ex) tr ds) ->
  wp (assigns env (map (fun x => EVar [PH x]) (result_names m)) vs) Q (MState (cells recv rs ps ex) tr ds).
Proof.
  intros env recv rs vs ps ex tr ds Q Hf Hr Hv H. unfold wp.
  rewrite (assigns_names env _ _ vs _ (fr_results m env Hf)). unfold cells in *. fold R. rewrite <- Hr.
  change 1 with (length [recv]).
  change (recv :: rs ++ ps ++ ex) with ([recv] ++ rs ++ (ps ++ ex)). rewrite stores_mid by congruence. exact H.
Qed.

Lemma wp_store_results : forall recv rs vs ps ex tr ds (Q : out unit -> mstate -> Prop),
  length rs = R -> length vs = R -> Q (Val tt) (MState (cells recv vs ps ex) tr ds) ->
  wp (stores (seq 1 R) vs) Q (MState (cells recv rs ps ex) tr ds).
Proof.
  intros recv rs vs ps ex tr ds Q Hr Hv H. unfold wp, cells in *. rewrite <- Hr.
  change 1 with (length [recv]).
  change (recv :: rs ++ ps ++ ex) with ([recv] ++ rs ++ (ps ++ ex)). rewrite stores_mid by congruence. exact H.
Qed.

(** locals *)
Lemma wp_alloc : forall recv rs ps ex v tr ds (Q : out nat -> mstate -> Prop),
  length rs = R -> length ps = P ->
  Q (Val (S (R + P) + length ex)) (MState (cells recv rs ps (ex ++ [v])) tr ds) ->
  wp (alloc v) Q (MState (cells recv rs ps ex) tr ds).
Proof.
  intros recv rs ps ex v tr ds Q Hr Hp H. unfold wp, alloc. cbn [ms_store ms_trace ms_defers fst snd].
  rewrite (cells_length R P) by assumption. rewrite cells_add. exact H.
Qed.

Lemma wp_define : forall top env x xs recv rs ps ex v vs tr ds (Q : out (loc_env * list string) -> mstate -> Prop),
  String.eqb x "_" = false -> mem x top = false -> length rs = R -> length ps = P ->
  wp (defines (x :: top) ((x, S (R + P) + length ex) :: env) xs vs) Q (MState (cells recv rs ps (ex ++ [v])) tr ds) ->
  wp (defines top env (x :: xs) (v :: vs)) Q (MState (cells recv rs ps ex) tr ds).
Proof.
  intros top env x xs recv rs ps ex v vs tr ds Q Hx Hm Hr Hp H. cbn [defines]. rewrite Hx, Hm.
  apply wp_bind. apply wp_alloc; assumption.
Qed.

(** the call of the same method on a field of the receiver *)
Lemma wp_base : forall env f fs b n rs ps ex tr ds (Q : out (list val) -> mstate -> Prop),
  frame m env -> length rs = R -> length ps = P -> field_of (wtext f) fs = Some b -> b = VRef n ->
  match w_ans W tr (OMeth b (m_name m) ps) with
  | ARet l => Q (Val l) (MState (cells (VRec fs) rs ps ex) (tr ++ [(OMeth b (m_name m) ps, ARet l)]) ds)
  | APan v => Q (Pan v) (MState (cells (VRec fs) rs ps ex) (tr ++ [(OMeth b (m_name m) ps, APan v)]) ds)
  | ABlock => Q Blk (MState (cells (VRec fs) rs ps ex) (tr ++ [(OMeth b (m_name m) ps, ABlock)]) ds)
  end ->
  wp (eval_multi env (EMCall (ESel d_ f))) Q (MState (cells (VRec fs) rs ps ex) tr ds).
Proof.
  intros env f fs b n rs ps ex tr ds Q Hf Hr Hp Hb -> H. unfold MiniGo.eval_multi, MiniGo.callee.
  apply wp_bind. apply wp_bind. change (eval env (ESel d_ f)) with (let& v := ident env "_d" in select_field v (wtext f)).
  apply wp_bind. eapply wp_var; [exact (fr_d m env Hf) | reflexivity |]. cbn [select_field]. rewrite Hb. apply wp_ret.
  apply wp_bind. apply wp_params; try assumption. cbn [method_target]. apply wp_ret. rewrite Hcall. now apply wp_ask.
Qed.

(** statements *)
Definition keep (env : loc_env) (top : list string) (c : G ctl) : G (ctl * (loc_env * list string)) :=
  let& x := c in gret (x, (env, top)).
Definition next (env : loc_env) (top : list string) (c : G unit) : G (ctl * (loc_env * list string)) :=
  let& _ := c in gret (CNext, (env, top)).

Lemma block_cons : forall env top s l,
  block env top (s :: l) =
  (let& r := exec env top s in
   match fst r with CRet => gret CRet | CNext => block (fst (snd r)) (snd (snd r)) l end).
Proof. reflexivity. Qed.

Lemma exec_if : forall env top c a b,
  exec env top (SIf None c a b) =
  keep env top (let& v := eval env c in let& t := as_bool v in
                if t : bool then block env [] a else block env [] b).
Proof. reflexivity. Qed.

Lemma exec_if_init : forall env top i c a b,
  exec env top (SIf (Some i) c a b) =
  keep env top (let& r := exec env [] i in
                let& v := eval (fst (snd r)) c in let& t := as_bool v in
                if t : bool then block (fst (snd r)) [] a else block (fst (snd r)) [] b).
Proof. reflexivity. Qed.

Lemma exec_elseif : forall env top c a c2 b,
  exec env top (SElseIf c a c2 b) =
  keep env top (let& v := eval env c in let& t := as_bool v in
                if t : bool then block env [] a
                else let& v2 := eval env c2 in let& t2 := as_bool v2 in
                     if t2 : bool then block env [] b else gret CNext).
Proof. reflexivity. Qed.

Lemma exec_for : forall env top i c post body,
  exec env top (SFor i c post body) =
  keep env top (let& r := exec env [] i in
                loop (let& v := eval (fst (snd r)) c in as_bool v) (block (fst (snd r)) [] body)
                     (let& _ := exec (fst (snd r)) [] post in gret tt) L).
Proof. reflexivity. Qed.

Lemma exec_select2 : forall env top e1 b1 e2 b2,
  exec env top (SSelect [(e1, b1); (e2, b2)]) =
  keep env top (let& chs := evals env [e1; e2] in
                let& vs := ask_op W (OSelect chs) in
                match vs with
                | [VInt z; _] => if Z.eqb 0 z then block env [] b1 else if Z.eqb (0 + 1) z then block env [] b2 else gstuck
                | _ => gstuck
                end).
Proof. reflexivity. Qed.

Lemma exec_results : forall env top e,
  exec env top (SResults e) =
  next env top (let& vs := eval_multi env e in assigns env (map (fun x => EVar [PH x]) (result_names m)) vs).
Proof. reflexivity. Qed.

Lemma exec_pass : forall env top p recv,
  exec env top (SPass p recv) =
  keep env top (let& vs := eval_multi env (EMCall recv) in
                match m_results m with
                | [] => gret CRet
                | _ => let& _ := stores res_locs vs in gret CRet
                end).
Proof. reflexivity. Qed.

(** passing on to the same method of a field of the receiver *)
Lemma wp_pass : forall env top p f fs n rs ps ex tr ds (Q : out (ctl * (loc_env * list string)) -> mstate -> Prop),
  res_locs = seq 1 R ->
  frame m env -> length rs = R -> length ps = P -> field_of (wtext f) fs = Some (VRef n) ->
  (forall l, w_ans W tr (OMeth (VRef n) (m_name m) ps) = ARet l -> length l = R) ->
  match w_ans W tr (OMeth (VRef n) (m_name m) ps) with
  | ARet l => Q (Val (CRet, (env, top))) (MState (cells (VRec fs) l ps ex) (tr ++ [(OMeth (VRef n) (m_name m) ps, ARet l)]) ds)
  | APan v => Q (Pan v) (MState (cells (VRec fs) rs ps ex) (tr ++ [(OMeth (VRef n) (m_name m) ps, APan v)]) ds)
  | ABlock => Q Blk (MState (cells (VRec fs) rs ps ex) (tr ++ [(OMeth (VRef n) (m_name m) ps, ABlock)]) ds)
  end ->
  wp (exec env top (SPass p (ESel (EVar (id "_d")) f))) Q (MState (cells (VRec fs) rs ps ex) tr ds).
Proof.
  intros env top p f fs n rs ps ex tr ds Q Hl Hf Hr Hp Hfld Hty H.
  rewrite exec_pass. apply wp_bind. apply wp_bind. eapply wp_base; [exact Hf | exact Hr | exact Hp | exact Hfld | reflexivity |].
  destruct (w_ans W tr (OMeth (VRef n) (m_name m) ps)) as [l|v|]; [|exact H|exact H].
  specialize (Hty l eq_refl). case_eq (m_results m); [intros E | intros r0 rest E].
  - apply wp_ret. apply wp_ret. unfold R in Hr, Hty. rewrite E in Hr, Hty.
    destruct l; [|discriminate]. destruct rs; [|discriminate]. exact H.
  - apply wp_bind. rewrite Hl. eapply wp_store_results; [exact Hr | exact Hty |]. apply wp_ret. apply wp_ret. exact H.
Qed.

Lemma exec_define : forall env top xs e,
  exec env top (SDefine xs e) =
  (let& vs := eval_multi env e in let& d := defines top env (map wtext xs) vs in gret (CNext, d)).
Proof. reflexivity. Qed.

Lemma exec_assign : forall env top xs e,
  exec env top (SAssign xs e) = next env top (let& vs := eval_multi env e in assigns env xs vs).
Proof. reflexivity. Qed.

Lemma exec_defer : forall env top e,
  exec env top (SDefer e) =
  next env top (let& k := callee env e in
                fun s => (Val tt, MState (ms_store s) (ms_trace s) (k :: ms_defers s))).
Proof. reflexivity. Qed.

Lemma exec_inc : forall env top x,
  exec env top (SInc x) =
  next env top (let& v := eval env x in match v with VInt z => assign_to env x (VInt (z + 1)) | _ => gstuck end).
Proof. reflexivity. Qed.

Lemma exec_var : forall env top x t,
  exec env top (SVar x t) = (let& n := alloc VNil in gret (CNext, ((wtext x, n) :: env, wtext x :: top))).
Proof. reflexivity. Qed.

Lemma wp_set_local : forall env x k recv rs ps ex v tr ds (Q : out unit -> mstate -> Prop),
  lookup x env = Some (S (R + P) + k) -> length rs = R -> length ps = P ->
  Q (Val tt) (MState (cells recv rs ps (set_nth k v ex)) tr ds) ->
  wp (assign_to env (EVar (id x)) v) Q (MState (cells recv rs ps ex) tr ds).
Proof.
  intros env x k recv rs ps ex v tr ds Q Hx Hr Hp H. unfold wp, MiniGo.assign_to.
  replace (wtext (id x)) with x by (cbn; symmetry; apply sapp_nil_r). rewrite Hx. unfold store. cbn [ms_store ms_trace ms_defers fst snd].
  rewrite (cells_set_local R P) by assumption. exact H.
Qed.

Lemma wp_set_ctx : forall env recv rs c ps ex v tr ds (Q : out unit -> mstate -> Prop),
  lookup "ctx" env = Some (S R) -> length rs = R ->
  Q (Val tt) (MState (cells recv rs (v :: ps) ex) tr ds) ->
  wp (assign_to env (EVar (id "ctx")) v) Q (MState (cells recv rs (c :: ps) ex) tr ds).
Proof.
  intros env recv rs c ps ex v tr ds Q Hx Hr H. unfold wp, MiniGo.assign_to. change (wtext (id "ctx")) with "ctx".
  rewrite Hx. unfold store. cbn [ms_store ms_trace ms_defers fst snd].
  rewrite (cells_set_first R) by assumption. exact H.
Qed.

Lemma wp_set_error : forall env recv rs ps ex v tr ds (Q : out unit -> mstate -> Prop),
  lookup "err" env = Some R -> length rs = R -> rs <> [] ->
  Q (Val tt) (MState (cells recv (removelast rs ++ [v]) ps ex) tr ds) ->
  wp (assign_to env (EVar (id "err")) v) Q (MState (cells recv rs ps ex) tr ds).
Proof.
  intros env recv rs ps ex v tr ds Q Hx Hr Hne H. unfold wp, MiniGo.assign_to. change (wtext (id "err")) with "err".
  rewrite Hx. unfold store. cbn [ms_store ms_trace ms_defers fst snd].
  rewrite (cells_set_err R) by assumption. exact H.
Qed.

Lemma exec_send : forall env top ch e,
  exec env top (SSend ch e) =
  next env top (let& c := eval env ch in let& v := eval env e in let& _ := ask_op W (OSend c v) in gret tt).
Proof. reflexivity. Qed.

Lemma exec_range : forall env top x e body,
  exec env top (SRange x e body) =
  keep env top (let& v := eval env e in let& l := as_slice v in
                over (fun v => let& n := alloc v in block ((wtext x, n) :: env) [] body) l).
Proof. reflexivity. Qed.

Lemma exec_expr : forall env top e,
  exec env top (SExpr e) = next env top (let& _ := eval_multi env e in gret tt).
Proof. reflexivity. Qed.
End RULES.

(** ** Activations *)

Lemma wp_activation : forall W m funcs L call locs env top body (Q : out (list val) -> mstate -> Prop) st tr saved,
  wp (block W m funcs L call locs env top body)
     (fun r s1 =>
        let finish p :=
          wp (run_defers call (ms_defers s1) p)
             (fun r2 s2 => match r2 with
                           | Val (Some v) => Q (Pan v) (MState (ms_store s2) (ms_trace s2) saved)
                           | Val None => wp (loads locs) Q (MState (ms_store s2) (ms_trace s2) saved)
                           | Pan v => Q (Pan v) (MState (ms_store s2) (ms_trace s2) saved)
                           | Blk => Q Blk s2
                           | NoFuel => Q NoFuel s2
                           | Stuck => Q Stuck s2
                           end) (MState (ms_store s1) (ms_trace s1) []) in
        match r with
        | Val _ => finish None
        | Pan v => finish (Some v)
        | Blk => Q Blk s1
        | NoFuel => Q NoFuel s1
        | Stuck => Q Stuck s1
        end) (MState st tr []) ->
  wp (activation W m funcs L call locs env top body) Q (MState st tr saved).
Proof.
  intros W m funcs L call locs env top body Q st tr saved H. unfold wp, activation in *. cbn [ms_store ms_trace ms_defers] in *.
  destruct (block W m funcs L call locs env top body (MState st tr [])) as [r s1]. cbn [fst snd] in H.
  destruct r as [c|v| | |]; cbv zeta in H; try exact H;
  match goal with |- context [run_defers call (ms_defers s1) ?p ?s] => destruct (run_defers call (ms_defers s1) p s) as [r2 s2] end;
  cbn [fst snd] in H; destruct r2 as [[w|]|w| | |]; exact H.
Qed.

(** the method as a whole *)
Lemma run_method_wp : forall W m funcs L body recv zeros args (Q : out (list val) -> trace -> Prop),
  wp (activation W m funcs L (invoke W m funcs L depth) (seq 1 (length (m_results m))) (method_env m)
        ("_d" :: result_names m ++ param_names m) body)
     (fun r s => Q r (ms_trace s)) (MState (cells recv zeros args []) [] []) ->
  let '(r, tr) := run_method W m funcs L body recv zeros args in Q r tr.
Proof.
  intros W m funcs L body recv zeros args Q H. unfold run_method. unfold wp, cells in H. rewrite app_nil_r in H.
  destruct (activation _ _ _ _ _ _ _ _ _ _) as [r s]. exact H.
Qed.

Lemma wp_load_results : forall m recv rs ps ex tr ds (Q : out (list val) -> mstate -> Prop),
  length rs = length (m_results m) -> Q (Val rs) (MState (cells recv rs ps ex) tr ds) ->
  wp (loads (seq 1 (length (m_results m)))) Q (MState (cells recv rs ps ex) tr ds).
Proof.
  intros m recv rs ps ex tr ds Q Hr H. unfold wp, cells in *. rewrite <- Hr. change 1 with (length [recv]).
  change (recv :: rs ++ ps ++ ex) with ([recv] ++ rs ++ (ps ++ ex)). rewrite loads_mid. exact H.
Qed.

(** ** Symbolic execution *)

Lemma wp_eq : forall {A} (x y : G A) (Q : out A -> mstate -> Prop) s, x = y -> wp y Q s -> wp x Q s.
Proof. intros A x y Q s -> H. exact H. Qed.

Lemma wtext_lit : forall s, wtext (id s) = s.
Proof. intros. cbn. apply sapp_nil_r. Qed.

Lemma wp_field_addr : forall f l n (Q : out nat -> mstate -> Prop) s,
  field_of f l = Some (VRef n) -> Q (Val n) s -> wp (field_addr (VRec l) f) Q s.
Proof. intros f l n Q s Hf H. unfold wp, field_addr. now rewrite Hf. Qed.

Lemma wp_field : forall f l v (Q : out val -> mstate -> Prop) s,
  field_of f l = Some v -> Q (Val v) s -> wp (select_field (VRec l) f) Q s.
Proof. intros f l v Q s Hf H. unfold wp, select_field. now rewrite Hf. Qed.

(** calling a function held in a field *)
Lemma wp_method_field : forall f l n args (Q : out callable -> mstate -> Prop) s,
  field_of f l = Some (VRef n) -> Q (Val (KOp (OCall (VRef n) args))) s -> wp (method_target (VRec l) f args) Q s.
Proof. intros f l n args Q s Hf H. unfold wp, method_target. now rewrite Hf. Qed.

(** the choice a test makes *)
Ltac wpif := lazymatch goal with |- wp (if ?b then _ else _) _ _ => let E := fresh "E" in destruct b eqn:E end.

Lemma top_fresh : forall m ids x, hygienic m ids -> In x ids -> x <> "_d" ->
  mem x ("_d" :: result_names m ++ param_names m) = false.
Proof.
  intros m ids x Hh Hx Hd. unfold mem. cbn [existsb]. destruct (String.eqb_spec x "_d") as [->|_]; [contradiction|]. cbn [orb].
  change (mem x (result_names m ++ param_names m) = false). apply mem_false. apply Hh. do 4 right. exact Hx.
Qed.

(** deferred calls *)
Lemma wp_defers_cons : forall call k l p (Q : out (option val) -> mstate -> Prop) s,
  wp (call k) (fun r s' => match r with
                           | Val _ => wp (run_defers call l p) Q s'
                           | Pan v => wp (run_defers call l (Some v)) Q s'
                           | Blk => Q Blk s'
                           | NoFuel => Q NoFuel s'
                           | Stuck => Q Stuck s'
                           end) s ->
  wp (run_defers call (k :: l) p) Q s.
Proof. intros call k l p Q s H. unfold wp in *. cbn [run_defers]. destruct (call k s) as [[a|v| | |] s']; exact H. Qed.

(** pointers *)
Lemma wp_load : forall n v (Q : out val -> mstate -> Prop) st tr ds,
  nth_error st n = Some v -> Q (Val v) (MState st tr ds) -> wp (load n) Q (MState st tr ds).
Proof. intros n v Q st tr ds Hn H. unfold wp, load. cbn [ms_store]. now rewrite Hn. Qed.

Lemma wp_addr : forall W m fs call env x n (Q : out val -> mstate -> Prop) s,
  lookup (wtext x) env = Some n -> Q (Val (VPtr n)) s -> wp (eval W m fs call env (EUn "&" (EVar x))) Q s.
Proof. intros W m fs call env x n Q s Hx H. unfold wp. cbn [eval]. rewrite String.eqb_refl, Hx. exact H. Qed.

Lemma wp_set_ptr_error : forall W m env x k recv rs ps ex v tr ds (Q : out unit -> mstate -> Prop),
  lookup (wtext x) env = Some k -> nth_error (cells recv rs ps ex) k = Some (VPtr (length (m_results m))) ->
  length rs = length (m_results m) -> rs <> [] ->
  Q (Val tt) (MState (cells recv (removelast rs ++ [v]) ps ex) tr ds) ->
  wp (assign_to W env (EUn "*" (EVar x)) v) Q (MState (cells recv rs ps ex) tr ds).
Proof.
  intros W m env x k recv rs ps ex v tr ds Q Hx Hk Hr Hne H. unfold wp, MiniGo.assign_to. rewrite String.eqb_refl, Hx.
  unfold gbind, load. cbn [ms_store]. rewrite Hk. unfold store. cbn [ms_store ms_trace ms_defers fst snd].
  rewrite (cells_set_err (length (m_results m))) by assumption. exact H.
Qed.

(** solve [lookup x env = _] *)
Ltac lk := cbn [lookup String.eqb Ascii.eqb Bool.eqb]; first [reflexivity | eassumption].

(** cells after [ex] *)
Lemma nth_ex : forall {A} (ex l : list A) i, nth_error (ex ++ l) (length ex + i) = nth_error l i.
Proof. intros A ex l i. rewrite nth_error_app2 by lia. f_equal. lia. Qed.

Lemma nth_ex0 : forall {A} (ex l : list A), nth_error (ex ++ l) (length ex) = nth_error l 0.
Proof. intros A ex l. rewrite nth_error_app2 by lia. f_equal. lia. Qed.

Lemma set_nth_ex : forall {A} (ex l : list A) i v, set_nth (length ex + i) v (ex ++ l) = ex ++ set_nth i v l.
Proof. intros A ex l i v. induction ex as [|x ex IH]; cbn; [reflexivity | now rewrite IH]. Qed.

(** solve [nth_error (cells ..) n = Some _] *)
Ltac cell :=
  first [ reflexivity
        | eassumption
        | apply cells_err; [assumption | eauto]
        | apply cells_first; assumption
        | eapply cells_hd; eassumption
        | erewrite cells_local by eassumption; reflexivity
        | erewrite cells_local by eassumption; rewrite ?app_length; cbn [length];
          rewrite ?nth_ex, ?nth_ex0; reflexivity ].

(** one structural step of the goal [wp x Q s] *)
Ltac wp1 :=
  lazymatch goal with
  | |- wp (gbind _ _) _ _ => apply wp_bind
  | |- wp (match fst (_, _) with CNext => _ | CRet => _ end) _ _ => cbn [fst snd]
  | |- wp (gret _) _ _ => apply wp_ret; cbv beta iota; cbn [fst snd]
  | |- wp (keep _ _ _) _ _ => apply wp_bind
  | |- wp (next _ _ _) _ _ => apply wp_bind
  | |- wp (one [_]) _ _ => apply wp_ret; cbv beta iota
  | |- wp (as_bool (VBool _)) _ _ => apply wp_ret; cbv beta iota
  | |- wp (spread TNone _) _ _ => apply wp_ret; cbv beta iota
  | |- wp (spread TComma _) _ _ => apply wp_ret; cbv beta iota
  | |- wp (spread TDots [VSlice ?l]) _ _ => change (spread TDots [VSlice l]) with (@gret (list val) l)
  | |- wp (ident _ (wtext (id ?x))) _ _ => rewrite (wtext_lit x)
  | |- wp (ident _ ?x) _ _ => first [ eapply wp_var; [lk | cell |]; cbv beta iota
                                    | eapply wp_global; [lk |]; cbv beta iota; cbn [String.eqb Ascii.eqb Bool.eqb] ]
  | |- wp (select_field _ (wtext (id ?x))) _ _ => rewrite (wtext_lit x)
  | |- wp (select_field (VRec _) ?f) _ _ => eapply wp_field; [first [eassumption | reflexivity] |]; cbv beta iota
  | |- wp (select_field (VPkg ?p) ?f) _ _ => change (select_field (VPkg p) f) with (gret (VPkg (p ++ "." ++ f)%string)); cbn [append]
  | |- wp (select_field (VRef ?p) ?f) _ _ => change (select_field (VRef p) f) with (gret (VOf (VRef p) f))
  | |- wp (select_field (VOf ?p ?q) ?f) _ _ => change (select_field (VOf p q) f) with (gret (VOf (VOf p q) f))
  | |- wp (method_target _ (wtext (id ?x)) _) _ _ => rewrite (wtext_lit x)
  | |- wp (method_target (VPkg ?p) ?f ?l) _ _ =>
      change (method_target (VPkg p) f l) with (gret (KOp (OCall (VPkg (p ++ "." ++ f)%string) l))); cbn [append]
  | |- wp (method_target (VRec ?fs) ?f ?l) _ _ => eapply wp_method_field; [first [eassumption | reflexivity] |]; cbv beta iota
  | |- wp (method_target (VRef ?p) ?f ?l) _ _ => change (method_target (VRef p) f l) with (gret (KOp (OMeth (VRef p) f l)))
  | |- wp (method_target (VOf ?p ?q) ?f ?l) _ _ => change (method_target (VOf p q) f l) with (gret (KOp (OMeth (VOf p q) f l)))
  | |- wp (binop "==" ?x VNil) _ _ => change (binop "==" x VNil) with (gret (VBool (is_nil x)))
  | |- wp (binop "!=" ?x VNil) _ _ => change (binop "!=" x VNil) with (gret (VBool (negb (is_nil x))))
  | |- wp (binop "<" (VInt ?x) (VInt ?y)) _ _ => change (binop "<" (VInt x) (VInt y)) with (gret (VBool (Z.ltb x y)))
  | |- wp (binop ">" (VInt ?x) (VInt ?y)) _ _ => change (binop ">" (VInt x) (VInt y)) with (gret (VBool (Z.ltb y x)))
  | |- wp (binop ">=" (VInt ?x) (VInt ?y)) _ _ => change (binop ">=" (VInt x) (VInt y)) with (gret (VBool (Z.leb y x)))
  | |- wp (binop "+" (VString ?x) (VString ?y)) _ _ =>
      change (binop "+" (VString x) (VString y)) with (gret (VString (x ++ y)%string))
  | |- wp (block _ _ _ _ _ _ _ _ []) _ _ => apply wp_ret; cbv beta iota
  | |- wp (block _ _ _ _ _ _ _ _ (_ :: _)) _ _ => eapply wp_eq; [apply block_cons|]
  | |- wp (exec _ _ _ _ _ _ _ _ ?s) _ _ =>
      lazymatch s with
      | SIf None _ _ _ => eapply wp_eq; [apply exec_if|]
      | SIf (Some _) _ _ _ => eapply wp_eq; [apply exec_if_init|]
      | SElseIf _ _ _ _ => eapply wp_eq; [apply exec_elseif|]
      | SFor _ _ _ _ => eapply wp_eq; [apply exec_for|]
      | SSelect [_; _] => eapply wp_eq; [apply exec_select2|]
      | SResults _ => eapply wp_eq; [apply exec_results|]
      | SDefine _ _ => eapply wp_eq; [apply exec_define|]
      | SAssign _ _ => eapply wp_eq; [apply exec_assign|]
      | SDefer _ => eapply wp_eq; [apply exec_defer|]
      | SExpr _ => eapply wp_eq; [apply exec_expr|]
      | SInc _ => eapply wp_eq; [apply exec_inc|]
      | SVar _ _ => eapply wp_eq; [apply exec_var|]
      | SSend _ _ => eapply wp_eq; [apply exec_send|]
      | SRange _ _ _ => eapply wp_eq; [apply exec_range|]
      | SReturn => apply wp_ret; cbv beta iota; cbn [fst snd]
      end
  | |- wp (eval ?W ?m ?fs ?call ?env ?e) _ _ =>
      lazymatch e with
      | EVar ?x => change (eval W m fs call env e) with (ident env (wtext x))
      | ESel ?r ?f => change (eval W m fs call env e) with (gbind (eval W m fs call env r) (fun v => select_field v (wtext f)))
      | EStr (id ?x) => change (eval W m fs call env e) with (@gret val (VString x))
      | EStr ?w => change (eval W m fs call env e) with (@gret val (VString (wtext w)))
      | EInt "0" => change (eval W m fs call env e) with (@gret val (VInt 0))
      | EInt "1" => change (eval W m fs call env e) with (@gret val (VInt 1))
      | EBin "||" ?a ?b => change (eval W m fs call env e) with
          (gbind (eval W m fs call env a)
             (fun x => match x with VBool true => gret x | VBool false => eval W m fs call env b | _ => gstuck end))
      | EBin "&&" ?a ?b => change (eval W m fs call env e) with
          (gbind (eval W m fs call env a)
             (fun x => match x with VBool true => eval W m fs call env b | VBool false => gret x | _ => gstuck end))
      | EBin ?o ?a ?b => change (eval W m fs call env e) with
          (gbind (eval W m fs call env a) (fun x => gbind (eval W m fs call env b) (fun y => binop o x y)))
      | ECall (ESel _ _) _ _ => eapply wp_eq; [apply eval_method_call|]
      | EConv _ ?a => change (eval W m fs call env e) with (eval W m fs call env a)
      | EUn "!" ?a => change (eval W m fs call env e) with
          (gbind (eval W m fs call env a) (fun x => match x with VBool b => gret (VBool (negb b)) | _ => gstuck end))
      | EUn "*" ?a => change (eval W m fs call env e) with
          (gbind (eval W m fs call env a) (fun x => match x with VPtr n => load n | VNil => gpanic nil_deref | _ => gstuck end))
      | EUn "&" (EVar ?x) => eapply wp_addr; [try rewrite (wtext_lit x); lk |]; cbv beta iota
      | EUn "<-" ?a => change (eval W m fs call env e) with
          (gbind (eval W m fs call env a) (fun x => gbind (ask_op W (OSelect [x])) (fun vs => match vs with [VInt 0; v] => gret v | _ => gstuck end)))
      | EShared ?r ?f => change (eval W m fs call env e) with
          (gbind (eval W m fs call env r) (fun v => gbind (field_addr v (wtext f)) (fun n =>
             gbind (ask_op W (OGet n)) (fun vs => match vs with [x] => gret x | _ => gstuck end))))
      | EAddr ?r ?f => change (eval W m fs call env e) with
          (gbind (eval W m fs call env r) (fun v => gbind (field_addr v (wtext f)) (fun n => gret (VRef n))))
      | EIndex ?a ?i => change (eval W m fs call env e) with
          (gbind (eval W m fs call env a) (fun x => gbind (eval W m fs call env i) (fun y => index_of x y)))
      | EFun ?b => change (eval W m fs call env e) with (@gret val (VClo env b))
      | ESliceLit _ ?a true => change (eval W m fs call env e) with
          (gbind (eval W m fs call env a) (fun x => gbind (read_names env (param_names m)) (fun vs => gret (VSlice (x :: vs)))))
      | ESliceLit _ ?a false => change (eval W m fs call env e) with
          (gbind (eval W m fs call env a) (fun x => gbind (read_names env (result_names m)) (fun vs => gret (VSlice (x :: vs)))))
      | EMap true => change (eval W m fs call env e) with
          (gbind (read_names env (param_names m)) (fun vs => gret (VMap (combine (param_names m) vs))))
      | EMap false => change (eval W m fs call env e) with
          (gbind (read_names env (result_names m)) (fun vs => gret (VMap (combine (result_names m) vs))))
      end
  | |- wp (evals _ _ _ _ _ _) _ _ => cbn [MiniGo.evals]
  | |- wp (callee ?W ?m ?fs ?call ?env (ECall (ESel ?r ?f) ?args ?t)) _ _ =>
      change (callee W m fs call env (ECall (ESel r f) args t)) with
        (gbind (eval W m fs call env r) (fun v => gbind (evals W m fs call env args) (fun vs =>
          gbind (spread t vs) (fun vs => method_target v (wtext f) vs))))
  | |- wp (callee ?W ?m ?fs ?call ?env (ECall (EVar ?x) ?args ?t)) _ _ =>
      change (callee W m fs call env (ECall (EVar x) args t)) with
        (gbind (eval W m fs call env (EVar x)) (fun v => gbind (evals W m fs call env args) (fun vs =>
          gbind (spread t vs) (fun vs => call_target fs v vs))))
  | |- wp (callee ?W ?m ?fs ?call ?env (ECall (EFun ?x) ?args ?t)) _ _ =>
      change (callee W m fs call env (ECall (EFun x) args t)) with
        (gbind (eval W m fs call env (EFun x)) (fun v => gbind (evals W m fs call env args) (fun vs =>
          gbind (spread t vs) (fun vs => call_target fs v vs))))
  | |- wp (call_target ?fs (VRef ?n) ?l) _ _ => change (call_target fs (VRef n) l) with (gret (KOp (OCall (VRef n) l)))
  | |- wp (call_target ?fs (VPkg ?p) ?l) _ _ =>
      change (call_target fs (VPkg p) l) with
        (if existsb (fun f => String.eqb (fst f) p) fs then gret (KFun p l) else gret (KOp (OCall (VPkg p) l)));
      cbn [existsb fst String.eqb Ascii.eqb Bool.eqb orb]
  | |- wp (call_target ?fs (VClo ?e ?b) []) _ _ => change (call_target fs (VClo e b) []) with (gret (KClo e b))
  | |- wp (invoke ?W ?m ?fs ?L ?d (KClo ?e ?b)) _ _ =>
      let d' := eval cbv in d in
      lazymatch d' with S ?d1 => change (invoke W m fs L d (KClo e b)) with (activation W m fs L (invoke W m fs L d1) [] e [] b) end;
      apply wp_activation; cbv zeta
  | |- wp (assigns ?W ?env (?x :: ?xs) (?v :: ?vs)) _ _ =>
      change (assigns W env (x :: xs) (v :: vs)) with (gbind (assign_to W env x v) (fun _ => assigns W env xs vs))
  | |- wp (assigns ?W ?env [] []) _ _ => change (assigns W env [] []) with (gret tt)
  | |- wp (assign_to ?W ?env (EShared (EVar ?r) ?f) ?v) _ _ =>
      change (assign_to W env (EShared (EVar r) f) v) with
        (gbind (ident env (wtext r)) (fun s => gbind (field_addr s (wtext f)) (fun n =>
          gbind (pointee v) (fun x => gbind (ask_op W (OSet n x)) (fun _ => gret tt)))))
  | |- wp (field_addr _ (wtext (id ?x))) _ _ => rewrite (wtext_lit x)
  | |- wp (field_addr (VRec _) ?f) _ _ => eapply wp_field_addr; [first [eassumption | reflexivity] |]; cbv beta iota
  | |- wp (pointee (VPtr ?k)) _ _ => change (pointee (VPtr k)) with (load k)
  | |- wp (pointee (VRef ?k)) _ _ => change (pointee (VRef k)) with (@gret val (VRef k))
  | |- wp (pointee (VInt ?k)) _ _ => change (pointee (VInt k)) with (@gret val (VInt k))
  | |- wp (pointee VNil) _ _ => change (pointee VNil) with (@gret val VNil)
  | |- wp (as_slice (VSlice ?l)) _ _ => change (as_slice (VSlice l)) with (@gret (list val) l)
  | |- wp (loads []) _ _ => change (loads []) with (@gret (list val) [])
  | |- wp (eval_multi ?W ?m ?fs ?call ?env ?e) _ _ =>
      lazymatch e with
      | EMCall _ => fail
      | EAssert ?a ?t => change (eval_multi W m fs call env e) with
          (gbind (eval W m fs call env a) (fun v =>
             gret (if negb (is_nil v) && w_has W v t then [v; VBool true] else [VNil; VBool false])))
      | ECall _ _ _ => change (eval_multi W m fs call env e) with (gbind (callee W m fs call env e) call)
      | _ => change (eval_multi W m fs call env e) with (gbind (eval W m fs call env e) (fun v => gret [v]))
      end
  | |- wp (defines ?t ?e [] []) _ _ => change (defines t e [] []) with (@gret (loc_env * list string) (e, t))
  | |- wp (defines _ _ (map wtext _) _) _ _ => cbn [map]; rewrite ?wtext_lit
  | |- wp _ _ (MState (ms_store _) _ _) => cbn [ms_store ms_trace ms_defers]
  | |- wp (run_defers ?call [] ?p) _ _ => change (run_defers call [] p) with (@gret (option val) p)
  | |- wp (run_defers _ (_ :: _) _) _ _ => apply wp_defers_cons
  | |- wp (run_defers _ (ms_defers _) _) _ _ => cbn [ms_defers ms_store ms_trace]
  | |- wp (fun s => (Val tt, MState (ms_store s) (ms_trace s) (?k :: ms_defers s))) _ (MState ?st ?tr ?ds) =>
      unfold wp at 1; cbn [fst snd ms_store ms_trace ms_defers]; cbv beta iota
  | |- wp (invoke ?W ?m ?fs ?L ?d (KOp ?o)) _ _ => change (invoke W m fs L d (KOp o)) with (ask_op W o)
  end.

(** steps up to the next statement *)
Ltac wps := repeat (lazymatch goal with |- wp (block _ _ _ _ _ _ _ _ (_ :: _)) _ _ => fail | _ => wp1 end).
