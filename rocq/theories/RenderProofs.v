(** What the stock templates generate: for every interface, the methods of
    Bodies.v, token by token. *)
From Coq Require Import Permutation.
From Verif Require Import Render.
From Verif Require Export Bodies.
Open Scope nat_scope.

(** ** Sorted methods: range over a map visits keys in increasing order *)

Fixpoint minsert (km : string * method) (l : methodsList) : methodsList :=
  match l with
  | [] => [km]
  | km' :: l' => if str_ltb (fst km') (fst km) then km' :: minsert km l' else km :: l
  end.
Definition msort (l : methodsList) : methodsList := fold_right minsert [] l.

Definition as_data (km : string * method) : string * tval := (fst km, DMethod (snd km)).

Lemma dinsert_map : forall km l, dinsert (fst km) (DMethod (snd km)) (map as_data l) = map as_data (minsert km l).
Proof.
  intros [k m]. induction l as [|[k' m'] l IH]; cbn; [reflexivity|].
  destruct (str_ltb k' k); cbn; [now rewrite <- IH | reflexivity].
Qed.

Lemma dsort_map : forall l, dsort (map as_data l) = map as_data (msort l).
Proof.
  induction l as [|km l IH]; [reflexivity|]. cbn [map dsort fold_right msort].
  change (fold_right _ [] (map as_data l)) with (dsort (map as_data l)). rewrite IH. apply dinsert_map.
Qed.

Lemma minsert_perm : forall km l, Permutation (minsert km l) (km :: l).
Proof.
  intros km. induction l as [|x l IH]; cbn; [reflexivity|]. destruct (str_ltb (fst x) (fst km)); [|reflexivity].
  rewrite IH. apply perm_swap.
Qed.

Lemma msort_perm : forall l, Permutation (msort l) l.
Proof. induction l as [|x l IH]; cbn; [reflexivity|]. rewrite minsert_perm. now constructor. Qed.

(** ** Sequences of nodes *)

Section WALK.
Variables lower upper : N -> N.

Fixpoint walk_env (env : tvars) (dot : tval) (l : list node) : tres (list chunk * tvars) :=
  match l with
  | [] => TOk ([], env)
  | n :: l' => tdo r <- walk lower upper env dot n; tdo q <- walk_env (snd r) dot l'; TOk (fst r ++ fst q, snd q)
  end.

Lemma walk_list_app : forall a env dot b,
  walk_list lower upper env dot (a ++ b) =
  tdo r <- walk_env env dot a; tdo o <- walk_list lower upper (snd r) dot b; TOk (fst r ++ o).
Proof.
  induction a as [|n a IH]; intros env dot b; cbn [app walk_list walk_env].
  - cbn. now destruct (walk_list lower upper env dot b).
  - destruct (walk lower upper env dot n) as [r|e|]; cbn; try reflexivity. rewrite IH.
    destruct (walk_env (snd r) dot a) as [q|e|]; cbn; try reflexivity.
    destruct (walk_list lower upper (snd q) dot b); cbn; try reflexivity. now rewrite app_assoc.
Qed.
End WALK.

(** ** Statement sequences *)

Fixpoint glue (d : bool) (l : list (list gtok)) : list gtok :=
  match l with [] => [] | x :: l' => due d ++ x ++ glue true l' end.
Definition some {A} (l : list A) : bool := match l with [] => false | _ => true end.

Lemma semis_glue : forall l, semis l = glue false l.
Proof.
  intros l. destruct l as [|x l]; [reflexivity|]. cbn [glue due app].
  revert x. induction l as [|y l IH]; intros x; [cbn; now rewrite app_nil_r|].
  cbn [semis]. f_equal. cbn [glue due app]. f_equal. apply IH.
Qed.

Definition at_line (d : bool) : lstate := LState LNone false d false.

(** the chunks [c], read from a line start, are the statements [l] *)
Definition lexes (c : list chunk) (l : list (list gtok)) : Prop :=
  forall d, lex_chunks (at_line d) c = (glue d l, at_line (d || some l)).

Lemma glue_app : forall a d b, glue d (a ++ b) = glue d a ++ glue (d || some a) b.
Proof.
  induction a as [|x a IH]; intros d b; cbn; [now rewrite orb_false_r|].
  rewrite orb_true_r. rewrite IH. cbn. now rewrite <- !app_assoc.
Qed.

Lemma lexes_app : forall a b x y, lexes a x -> lexes b y -> lexes (a ++ b) (x ++ y).
Proof.
  intros a b x y Ha Hb d. rewrite lex_chunks_app, Ha, Hb, glue_app. f_equal.
  unfold at_line. f_equal. destruct x; cbn; [now rewrite !orb_false_r | now rewrite !orb_true_r].
Qed.

Lemma lexes_flat : forall {A} (f : A -> list chunk) (g : A -> list (list gtok)) l,
  (forall x, In x l -> lexes (f x) (g x)) -> lexes (flat_map f l) (flat_map g l).
Proof.
  intros A f g l. induction l as [|x l IH]; intros H.
  - intros d. cbn. now rewrite orb_false_r.
  - cbn [flat_map]. apply lexes_app; [apply H; now left | apply IH; intros; apply H; now right].
Qed.

(** ** The decorator's name *)

Fixpoint var_value (x : string) (vars : list (string * varval)) : option varval :=
  match vars with
  | [] => None
  | (y, v) :: l => if String.eqb x y then Some v else var_value x l
  end.

(** [or .Vars.X dflt], printed *)
Definition or_var (x : string) (vars : list (string * varval)) (dflt : string) : string :=
  match var_value x vars with
  | Some VTrue => "true"
  | Some (VStr s) => if String.eqb s "" then dflt else s
  | None => dflt
  end.

(** its value *)
Definition or_val (x : string) (vars : list (string * varval)) (dflt : string) : tval :=
  match var_value x vars with Some VTrue => DBool true | _ => DStr (or_var x vars dflt) end.

Lemma dlookup_var : forall x vars,
  dlookup x (map (fun kv => (fst kv, dvar (snd kv))) vars) =
  match var_value x vars with Some v => Some (dvar v) | None => None end.
Proof. intros x. induction vars as [|[y v] l IH]; cbn; [reflexivity|]. now destruct (String.eqb x y). Qed.

Lemma print_or_val : forall x vars dflt, print_val (or_val x vars dflt) = TOk (or_var x vars dflt).
Proof. intros. unfold or_val, or_var. now destruct (var_value x vars) as [[|s]|]. Qed.

Lemma first_true_or : forall x vars dflt,
  first_true (match dlookup x (map (fun kv => (fst kv, dvar (snd kv))) vars) with Some v => v | None => DNone end) [DStr dflt]
  = or_val x vars dflt.
Proof.
  intros. rewrite dlookup_var. unfold or_val, or_var. destruct (var_value x vars) as [[|s]|]; cbn; try reflexivity.
  now destruct (String.eqb s "").
Qed.

(** ** Generated methods *)

(** [func (_d Dec) Declaration { body }], [star] for a pointer receiver *)
Definition method_toks (star : list gtok) (dec : string) (m : method) (body : list gtok) : list gtok :=
  kw "func" ++ [TP "("; TW (id "_d")] ++ star ++ [TW [PH dec]; TP ")"; TW [PH (Declaration m)]; TP "{"]
  ++ body ++ [TP "}"].

(** ** Files *)

(** the data of a body template *)
Record tdata := TData {
  td_name : string; td_type : string; td_gtypes : string; td_gparams : string;
  td_methods : methodsList; td_imports : list string; td_vars : list (string * varval)
}.
Definition data_of (t : tdata) : tval :=
  inputs (td_name t) (td_type t) (td_gtypes t) (td_gparams t) (td_methods t) (td_imports t) (td_vars t).

Section FILE.
Variables lower upper : N -> N.

Lemma range_lexes : forall {A} (f : tval -> tres (list chunk)) (g : A -> tval) (t : A -> list (list gtok)) l,
  (forall x, In x l -> exists c, f (g x) = TOk c /\ lexes c (t x)) ->
  exists c, range_loop f (map g l) = TOk c /\ lexes c (flat_map t l).
Proof.
  intros A f g t. induction l as [|x l IH]; intros H.
  - exists []. split; [reflexivity|]. intros d. cbn. now rewrite orb_false_r.
  - destruct (H x) as [c [Hc Hl]]; [now left|].
    destruct IH as [c' [Hc' Hl']]; [intros; apply H; now right|].
    exists (c ++ c'). cbn [map range_loop]. rewrite Hc. cbn. rewrite Hc'. cbn. split; [reflexivity|].
    cbn [flat_map]. now apply lexes_app.
Qed.

Definition over_methods : cmd := [AField ["Interface"; "Methods"]].
Definition sorted_methods (t : tdata) : list method := map snd (msort (td_methods t)).

Lemma eval_methods : forall t env,
  eval_cmd lower upper env (data_of t) over_methods = TOk (DMap (map as_data (td_methods t))).
Proof. reflexivity. Qed.

Lemma in_sorted : forall t m, In m (sorted_methods t) <-> In m (map snd (td_methods t)).
Proof.
  intros t m. unfold sorted_methods. split; apply Permutation_in; [|apply Permutation_sym];
  apply Permutation_map, msort_perm.
Qed.

(** a template is some nodes, a range over the methods, and more nodes *)
Lemma file_lexes : forall t h env hs body ms rest ts,
  (exists c, walk_env lower upper [("", data_of t)] (data_of t) h = TOk (c, env) /\ lexes c hs) ->
  (forall m, In m (map snd (td_methods t)) ->
     exists c, walk_list lower upper (("method", DMethod m) :: env) (DMethod m) body = TOk c /\ lexes c (ms m)) ->
  (exists c, walk_list lower upper env (data_of t) rest = TOk c /\ lexes c ts) ->
  exists c, execute lower upper (h ++ NRange "method" over_methods body :: rest) (data_of t) = TOk c
            /\ lexes c (hs ++ flat_map ms (sorted_methods t) ++ ts).
Proof.
  intros t h env hs body ms rest ts [ch [Hh Lh]] Hm [cr [Hr Lr]].
  destruct (range_lexes (fun d => walk_list lower upper (("method", d) :: env) d body) DMethod ms (sorted_methods t))
    as [cm [Hcm Lm]].
  { intros m Hin. apply Hm, in_sorted, Hin. }
  exists (ch ++ cm ++ cr). split.
  - unfold execute. rewrite walk_list_app, Hh. cbn [tbind fst snd walk_list].
    assert (Hw : walk lower upper env (data_of t) (NRange "method" over_methods body) = TOk (cm, env)).
    { cbn [walk]. rewrite eval_methods. unfold tbind. cbn [elements]. rewrite dsort_map, map_map. cbn [as_data snd].
      unfold sorted_methods in Hcm. rewrite map_map in Hcm.
      change (map (fun x : string * method => snd (as_data x)) (msort (td_methods t)))
        with (map (fun x : string * method => DMethod (snd x)) (msort (td_methods t))).
      match goal with |- context [range_loop ?f ?l] => change (range_loop f l) with
        (range_loop (fun d => walk_list lower upper (("method", d) :: env) d body) l) end.
      rewrite Hcm. reflexivity. }
    rewrite Hw. cbn [tbind fst snd]. rewrite Hr. reflexivity.
  - apply lexes_app; [exact Lh|]. now apply lexes_app.
Qed.

(** [or .Vars.X (printf fmt .Interface.Name)] *)
Lemma eval_or : forall t env x fmt dflt,
  sprintf fmt [DStr (td_name t)] = TOk dflt ->
  eval_cmd lower upper env (data_of t)
    [APipe [AFunc "or"; AField ["Vars"; x]; APipe [AFunc "printf"; AStr fmt; AField ["Interface"; "Name"]] []] []]
  = TOk (or_val x (td_vars t) dflt).
Proof.
  intros t env x fmt dflt H. unfold eval_cmd. cbn -[sprintf first_true or_val]. rewrite H. cbn -[first_true or_val].
  now rewrite first_true_or.
Qed.
End FILE.

(** ** Walking a template node by node *)

Section STEPS.
Variables lower upper : N -> N.

(** walking [l] succeeds and its chunks, after those in [acc] (reversed), satisfy [P] *)
Definition walks (env : tvars) (dot : tval) (l : list node) (acc : list chunk) (P : list chunk -> tvars -> Prop) : Prop :=
  exists c env', walk_env lower upper env dot l = TOk (c, env') /\ P (rev_append acc c) env'.

Lemma walks_nil : forall env dot acc (P : list chunk -> tvars -> Prop),
  P (rev_append acc []) env -> walks env dot [] acc P.
Proof. intros. exists [], env. auto. Qed.

Lemma walks_cons : forall env dot n l acc P o env1,
  walk lower upper env dot n = TOk (o, env1) -> walks env1 dot l (rev_append o acc) P ->
  walks env dot (n :: l) acc P.
Proof.
  intros env dot n l acc P o env1 Hn [c [env' [Hw HP]]]. exists (o ++ c), env'. cbn [walk_env].
  rewrite Hn. cbn [tbind fst snd]. rewrite Hw. cbn [tbind fst snd]. split; [reflexivity|].
  rewrite rev_append_rev in *. rewrite rev_append_rev, rev_app_distr, rev_involutive, <- app_assoc in HP. exact HP.
Qed.

Lemma walks_text : forall env dot s l acc P, walks env dot l (CT s :: acc) P -> walks env dot (NText s :: l) acc P.
Proof. intros. now apply (walks_cons env dot (NText s) l acc P [CT s] env). Qed.

Lemma walks_act : forall env dot c v s l acc P,
  eval_cmd lower upper env dot c = TOk v -> print_val v = TOk s ->
  walks env dot l (CV s :: acc) P -> walks env dot (NAct c :: l) acc P.
Proof.
  intros env dot c v s l acc P Hv Hs H. apply (walks_cons env dot (NAct c) l acc P [CV s] env); [|exact H].
  cbn [walk]. rewrite Hv. cbn [tbind]. rewrite Hs. reflexivity.
Qed.

Lemma walks_decl : forall env dot x c v l acc P,
  eval_cmd lower upper env dot c = TOk v -> walks ((x, v) :: env) dot l acc P -> walks env dot (NDecl x c :: l) acc P.
Proof.
  intros env dot x c v l acc P Hv H. apply (walks_cons env dot (NDecl x c) l acc P [] ((x, v) :: env)); [|exact H].
  cbn [walk]. rewrite Hv. reflexivity.
Qed.

Lemma walk_list_env : forall l env dot,
  walk_list lower upper env dot l = tdo r <- walk_env lower upper env dot l; TOk (fst r).
Proof.
  induction l as [|n l IH]; intros env dot; [reflexivity|]. cbn [walk_list walk_env].
  destruct (walk lower upper env dot n) as [r|e|]; cbn [tbind]; try reflexivity. rewrite IH.
  destruct (walk_env lower upper (snd r) dot l) as [q|e|]; reflexivity.
Qed.

Lemma walks_list : forall env dot l P, walks env dot l [] P ->
  exists c env', walk_list lower upper env dot l = TOk c /\ P c env'.
Proof. intros env dot l P [c [env' [H HP]]]. exists c, env'. rewrite walk_list_env, H. auto. Qed.

Lemma walks_if : forall env dot c v a b l acc P,
  eval_cmd lower upper env dot c = TOk v ->
  walks env dot (if truth v then a else b) [] (fun o _ => walks env dot l (rev_append o acc) P) ->
  walks env dot (NIf c a b :: l) acc P.
Proof.
  intros env dot c v a b l acc P Hv H. apply walks_list in H. destruct H as [o [e' [Ho H]]].
  apply (walks_cons env dot (NIf c a b) l acc P o env); [|exact H].
  cbn [walk]. rewrite Hv. cbn [tbind].
  match goal with |- tbind ?x _ = _ => assert (Hx : x = TOk o) end.
  { destruct (truth v); exact Ho. }
  rewrite Hx. reflexivity.
Qed.

(** a range over a list whose bodies are statements of their own *)
Lemma walks_range : forall {A} (g : A -> tval) (ts : A -> list (list gtok)) xs env dot x c v body l acc P,
  eval_cmd lower upper env dot c = TOk v -> elements v = TOk (map g xs) ->
  (forall y, In y xs -> walks ((x, g y) :: env) (g y) body [] (fun o _ => lexes o (ts y))) ->
  (forall o, lexes o (flat_map ts xs) -> walks env dot l (rev_append o acc) P) ->
  walks env dot (NRange x c body :: l) acc P.
Proof.
  intros A g ts xs env dot x c v body l acc P Hv He Hb Hl.
  destruct (range_lexes (fun d => walk_list lower upper ((x, d) :: env) d body) g ts xs) as [o [Ho Lo]].
  { intros y Hy. destruct (walks_list _ _ _ _ (Hb y Hy)) as [o [e [H1 H2]]]. exists o. auto. }
  apply (walks_cons env dot (NRange x c body) l acc P o env); [|exact (Hl o Lo)].
  cbn [walk]. rewrite Hv. cbn [tbind]. rewrite He. cbn [tbind].
  match goal with |- tbind ?x _ = _ => assert (Hx : x = TOk o) by exact Ho end.
  rewrite Hx. reflexivity.
Qed.

(** the same when the first body is not a statement of its own *)
Lemma walks_range_cons : forall {A} (g : A -> tval) (ts : A -> list (list gtok)) y xs env dot x c v body l acc P,
  eval_cmd lower upper env dot c = TOk v -> elements v = TOk (map g (y :: xs)) ->
  walks ((x, g y) :: env) (g y) body [] (fun o1 _ =>
    (forall z, In z xs -> walks ((x, g z) :: env) (g z) body [] (fun o _ => lexes o (ts z))) /\
    (forall o, lexes o (flat_map ts xs) -> walks env dot l (rev_append (o1 ++ o) acc) P)) ->
  walks env dot (NRange x c body :: l) acc P.
Proof.
  intros A g ts y xs env dot x c v body l acc P Hv He H. apply walks_list in H.
  destruct H as [o1 [e1 [Ho1 [Hb Hl]]]].
  destruct (range_lexes (fun d => walk_list lower upper ((x, d) :: env) d body) g ts xs) as [o [Ho Lo]].
  { intros z Hz. destruct (walks_list _ _ _ _ (Hb z Hz)) as [o [e [H1 H2]]]. exists o. auto. }
  apply (walks_cons env dot (NRange x c body) l acc P (o1 ++ o) env); [|exact (Hl o Lo)].
  cbn [walk]. rewrite Hv. cbn [tbind]. rewrite He. cbn [tbind].
  match goal with |- tbind ?r _ = _ => assert (Hx : r = TOk (o1 ++ o)) end.
  { change (range_loop (fun d => walk_list lower upper ((x, d) :: env) d body) (map g (y :: xs)) = TOk (o1 ++ o)).
    cbn [map range_loop]. rewrite Ho1. cbn [tbind]. rewrite Ho. reflexivity. }
  rewrite Hx. reflexivity.
Qed.
End STEPS.

(** nodes before the last range over the methods, its body, the nodes after *)
Fixpoint split_range (l : list node) : option (list node * list node * list node) :=
  match l with
  | [] => None
  | n :: l' =>
      match split_range l' with
      | Some (h, b, r) => Some (n :: h, b, r)
      | None => match n with
                | NRange "method" [AField ["Interface"; "Methods"]] b => Some ([], b, l')
                | _ => None
                end
      end
  end.
Definition sections (text : string) : list node * list node * list node :=
  match parse text with
  | Some l => match split_range l with Some s => s | None => ([], [], []) end
  | None => ([], [], [])
  end.

Definition generates (lower upper : N -> N) (text : string) (t : tdata) (decls : list (list gtok)) : Prop :=
  exists ns c, parse text = Some ns /\ execute lower upper ns (data_of t) = TOk c /\ lexes c decls.

Lemma generates_intro : forall lower upper text t s env hs ms ts,
  parse text = Some (fst (fst s) ++ NRange "method" over_methods (snd (fst s)) :: snd s) ->
  walks lower upper [("", data_of t)] (data_of t) (fst (fst s)) [] (fun c e => e = env /\ lexes c hs) ->
  (forall m, In m (map snd (td_methods t)) ->
     walks lower upper (("method", DMethod m) :: env) (DMethod m) (snd (fst s)) [] (fun c _ => lexes c (ms m))) ->
  walks lower upper env (data_of t) (snd s) [] (fun c _ => lexes c ts) ->
  generates lower upper text t (hs ++ flat_map ms (sorted_methods t) ++ ts).
Proof.
  intros lower upper text t s env hs ms ts Hp Hh Hm Ht.
  destruct Hh as [c1 [e1 [H1 [-> L1]]]].
  apply walks_list in Ht. destruct Ht as [c3 [e3 [H3 L3]]].
  destruct (file_lexes lower upper t (fst (fst s)) env hs (snd (fst s)) ms (snd s) ts) as [c [Hc Hl]]; [eauto| |eauto|].
  { intros m Hin. apply Hm, walks_list in Hin. destruct Hin as [c2 [e2 H2]]. eauto. }
  exists (fst (fst s) ++ NRange "method" over_methods (snd (fst s)) :: snd s), c. auto.
Qed.

(** ** Declarations *)
Definition struct_decl (dec : string) (fields : list (list gtok)) : list gtok :=
  kw "type" ++ [TW [PH dec]] ++ kw "struct" ++ [TP "{"] ++ semis fields ++ [TP "}"].
Definition import_decl (l : list (list gtok)) : list gtok := kw "import" ++ [TP "("] ++ semis l ++ [TP ")"].
Definition imp (s : string) : list gtok := [TS (id s)].

(** a constructor: parameters with their types, the literal's fields *)
Record ctor := Ctor { ct_params : list (string * list gtok); ct_fields : list (word * string) }.
Definition ctor_decl (dec : string) (c : ctor) : list gtok :=
  kw "func" ++ [TW [PS "New"; PH dec]; TP "("]
  ++ commas (map (fun p => kw (fst p) ++ snd p) (ct_params c)) ++ [TP ")"; TW [PH dec]; TP "{"]
  ++ kw "return" ++ [TW [PH dec]; TP "{"]
  ++ flat_map (fun f => [TW (fst f); TP ":"] ++ kw (snd f) ++ [TP ","]) (ct_fields c) ++ [TP "}"; TP "}"].

Definition hole (s : string) : list gtok := [TW [PH s]].
Definition dotted (a b : string) : list gtok := kw a ++ [TP "."] ++ kw b.

(** ** Statements in the middle *)

Lemma rev_append_mid : forall {A} (o acc k : list A), rev_append (rev_append o acc) k = rev acc ++ o ++ k.
Proof. intros. rewrite !rev_append_rev, rev_app_distr, rev_involutive. now rewrite <- app_assoc. Qed.

Lemma some_app : forall {A} (a b : list A), some (a ++ b) = some a || some b.
Proof. intros A [|x a] b; reflexivity. Qed.

(** declarations [l1], then one that starts with [x], goes on with the
    statements [l] and ends with [y], then declarations [l2] *)
Lemma lexes_mid_due : forall a o b l1 x e l y l2,
  (forall d, lex_chunks (at_line d) a = (glue d l1 ++ due (d || some l1) ++ x, at_line e)) ->
  lexes o l ->
  (forall d, lex_chunks (at_line d) b = (y d ++ glue true l2, at_line true)) ->
  lexes (a ++ o ++ b) (l1 ++ [x ++ glue e l ++ y (e || some l)] ++ l2).
Proof.
  intros a o b l1 x e l y l2 Ha Ho Hb d. rewrite lex_chunks_app, Ha, lex_chunks_app, Ho.
  rewrite Hb. rewrite glue_app. cbn [app glue]. f_equal.
  - rewrite <- !app_assoc. reflexivity.
  - f_equal. rewrite some_app. cbn. now rewrite !orb_true_r.
Qed.

Lemma lexes_mid : forall a o b l1 x l y l2,
  (forall d, lex_chunks (at_line d) a = (glue d l1 ++ due (d || some l1) ++ x, at_line false)) ->
  lexes o l ->
  (forall d, lex_chunks (at_line d) b = (y d ++ glue true l2, at_line true)) ->
  lexes (a ++ o ++ b) (l1 ++ [x ++ glue false l ++ y (some l)] ++ l2).
Proof. intros a o b l1 x l y l2. exact (lexes_mid_due a o b l1 x false l y l2). Qed.

Lemma flat_map_filter : forall {A B} (f : A -> B) (p : A -> bool) l,
  flat_map (fun x => if p x then [f x] else []) l = map f (filter p l).
Proof. intros A B f p. induction l as [|x l IH]; cbn; [reflexivity|]. rewrite IH. now destruct (p x). Qed.

Lemma btoks_app : forall m l s, btoks m (l ++ [s]) = glue false (map (stoks m) l) ++ due (some l) ++ stoks m s.
Proof.
  intros m l s. unfold btoks. rewrite semis_glue, map_app, glue_app. cbn. rewrite app_nil_r.
  now destruct l.
Qed.

(** ** Proof steps *)

(** forget how a template variable was computed *)
Ltac gen_or x vars dflt :=
  generalize (print_or_val x vars dflt);
  generalize (or_val x vars dflt), (or_var x vars dflt); intros ? ? ?.
Ltac pr := first [eassumption | reflexivity].
Ltac step := first
 [ eapply walks_text
 | eapply walks_act; [reflexivity | pr | ]
 | eapply walks_if; [reflexivity | cbn [truth first_false negb];
     repeat match goal with E : _ = _ :> bool |- _ => rewrite E end; cbn [truth first_false negb] ]
 | eapply walks_nil; cbn [rev_append app] ].
Ltac steps := repeat step.
Ltac lx := let d := fresh in intros d; destruct d; vm_compute; reflexivity.

