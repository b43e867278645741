(** Evaluation of the functions of Construct.v, one construct at a time. *)
From Coq Require Import Floats.SpecFloat.
From Verif Require Import Render.
From Verif Require Export Constructors.
Open Scope nat_scope.

(** ** Unfolding, one construct at a time *)
Lemma keval_KVar : forall M S0 L n env x st, keval M S0 L (S n) env (KVar x) st =
    match get x env with
    | Some a => match nth_error (cells st) a with Some v => ROk v st | None => RStuck end
    | None => if String.eqb x "nil" then ROk UNil st else if mem x packages then ROk (UPkg x) st else RStuck
    end.
Proof. reflexivity. Qed.
Lemma keval_KNum : forall M S0 L n env k st, keval M S0 L (S n) env (KNum k) st =
 match number_of k with Some z => ROk (UNum z) st | None => RStuck end.
Proof. reflexivity. Qed.
Lemma keval_KStr : forall M S0 L n env w st, keval M S0 L (S n) env (KStr w) st =
 ROk (UStr (wtext w)) st.
Proof. reflexivity. Qed.
Lemma keval_KSel : forall M S0 L n env e f st, keval M S0 L (S n) env (KSel e f) st =
 udo v, st1 <- keval M S0 L n env e st; match select v f st1 with Some w => ROk w st1 | None => RStuck end.
Proof. reflexivity. Qed.
Lemma keval_KCall : forall M S0 L n env f args st, keval M S0 L (S n) env (KCall f args) st =
    udo g, st1 <- keval M S0 L n env f st;
    udo vs, st2 <- eval_list (keval M S0 L n env) args st1;
    match g with
    | UFun ps body fenv =>
        if Nat.eqb (length ps) (length vs) then
          let '(env', st3) := bindings ps vs fenv st2 in
          udo fl, st4 <- kexecs M S0 L n env' body st3;
          match fl with FReturn [v] => ROk v st4 | FReturn _ => RStuck | FNext _ => ROk UNil st4 end
        else RStuck
    | _ => outside g vs st2
    end.
Proof. reflexivity. Qed.
Lemma keval_KConv : forall M S0 L n env pkg t e st, keval M S0 L (S n) env (KConv pkg t e) st =
 udo v, st1 <- keval M S0 L n env e st; match convert M pkg t v with Some w => ROk w st1 | None => RStuck end.
Proof. reflexivity. Qed.
Lemma keval_KLen : forall M S0 L n env e st, keval M S0 L (S n) env (KLen e) st =
    udo v, st1 <- keval M S0 L n env e st;
    match v with UList l => ROk (UNum (Z.of_nat (length l))) st1 | UNil => ROk (UNum 0) st1 | _ => RStuck end.
Proof. reflexivity. Qed.
Lemma keval_KMake : forall M S0 L n env t e st, keval M S0 L (S n) env (KMake t e) st =
    udo v, st1 <- keval M S0 L n env e st;
    match v with
    | UNum z => if (z <? 0)%Z then RPanic (UStr "makechan: size out of range") st1
                else let '(k, st2) := new_chan (Z.to_nat z) st1 in ROk (UChan k) st2
    | _ => RStuck
    end.
Proof. reflexivity. Qed.
Lemma keval_KLit : forall M S0 L n env addr lines t fs st, keval M S0 L (S n) env (KLit addr lines t fs) st =
    udo vs, st1 <- eval_list (keval M S0 L n env) (map snd fs) st;
    match literal S0 (wtext t) (combine (map (fun f => wtext (fst f)) fs) vs) with
    | Some r => if addr then let '(a, st2) := alloc r st1 in ROk (UPtr a) st2 else ROk r st1
    | None => RStuck
    end.
Proof. reflexivity. Qed.
Lemma keval_KAddr : forall M S0 L n env x st, keval M S0 L (S n) env (KAddr x) st =
 match get x env with Some a => ROk (UPtr a) st | None => RStuck end.
Proof. reflexivity. Qed.
Lemma keval_KIdx : forall M S0 L n env e i st, keval M S0 L (S n) env (KIdx e i) st =
    udo v, st1 <- keval M S0 L n env e st;
    udo j, st2 <- keval M S0 L n env i st1;
    match v, j with
    | UList l, UNum z =>
        match (if (z <? 0)%Z then None else nth_error l (Z.to_nat z)) with
        | Some w => ROk w st2
        | None => RPanic (UStr "index out of range") st2
        end
    | _, _ => RStuck
    end.
Proof. reflexivity. Qed.
Lemma keval_KBin : forall M S0 L n env op a b st, keval M S0 L (S n) env (KBin op a b) st =
    udo v, st1 <- keval M S0 L n env a st;
    if String.eqb op "&&" then
      match v with
      | UBool false => ROk (UBool false) st1
      | UBool true => udo w, st2 <- keval M S0 L n env b st1; match w with UBool _ => ROk w st2 | _ => RStuck end
      | _ => RStuck
      end
    else
      udo w, st2 <- keval M S0 L n env b st1;
      match binop op v w with Some r => ROk r st2 | None => RStuck end.
Proof. reflexivity. Qed.
Lemma keval_KFunc : forall M S0 L n env ps body st, keval M S0 L (S n) env (KFunc ps body) st =
 ROk (UFun (map fst ps) body env) st.
Proof. reflexivity. Qed.
Lemma kexec_JDef : forall M S0 L n env x e st, kexec M S0 L (S n) env (JDef x e) st =
 udo v, st1 <- keval M S0 L n env e st; let '(a, st2) := alloc v st1 in ROk (FNext ((x, a) :: env)) st2.
Proof. reflexivity. Qed.
Lemma kexec_JSet : forall M S0 L n env x f e st, kexec M S0 L (S n) env (JSet x f e) st =
    udo v, st1 <- keval M S0 L n env e st;
    match get x env with
    | None => RStuck
    | Some a =>
        match nth_error (cells st1) a with
        | Some (URec t fs) => if mem f (map fst fs) then ROk (FNext env) (set_cell a (URec t (put f v fs)) st1) else RStuck
        | Some (UPtr b) =>
            match nth_error (cells st1) b with
            | Some (URec t fs) => if mem f (map fst fs) then ROk (FNext env) (set_cell b (URec t (put f v fs)) st1) else RStuck
            | _ => RStuck
            end
        | _ => RStuck
        end
    end.
Proof. reflexivity. Qed.
Lemma kexec_JIf : forall M S0 L n env c body st, kexec M S0 L (S n) env (JIf c body) st =
    udo v, st1 <- keval M S0 L n env c st;
    match v with
    | UBool true => udo fl, st2 <- kexecs M S0 L n env body st1;
                    match fl with FReturn vs => ROk (FReturn vs) st2 | FNext _ => ROk (FNext env) st2 end
    | UBool false => ROk (FNext env) st1
    | _ => RStuck
    end.
Proof. reflexivity. Qed.
Lemma kexec_JEach : forall M S0 L n env x e body st, kexec M S0 L (S n) env (JEach x e body) st =
    udo v, st1 <- keval M S0 L n env e st;
    match v with
    | UList l => each (fun v st => let '(a, st') := alloc v st in kexecs M S0 L n ((x, a) :: env) body st') env l st1
    | UNil => ROk (FNext env) st1
    | _ => RStuck
    end.
Proof. reflexivity. Qed.
Lemma kexec_JCount : forall M S0 L n env i e body st, kexec M S0 L (S n) env (JCount i e body) st =
    let '(a, st1) := alloc (UNum 0) st in
    count (fun st => keval M S0 L n ((i, a) :: env) (KBin "<" (KVar i) e) st)
          (fun st => kexecs M S0 L n ((i, a) :: env) body st) a env L st1.
Proof. reflexivity. Qed.
Lemma kexec_JRange : forall M S0 L n env x e body st, kexec M S0 L (S n) env (JRange x e body) st =
 RStuck.
Proof. reflexivity. Qed.
Lemma kexec_JSend : forall M S0 L n env ch e st, kexec M S0 L (S n) env (JSend ch e) st =
    udo c, st1 <- keval M S0 L n env ch st;
    udo v, st2 <- keval M S0 L n env e st1;
    match c with
    | UChan k => match try_send k v st2 with Some st3 => ROk (FNext env) st3 | None => RBlock st2 end
    | UNil => RBlock st2
    | _ => RStuck
    end.
Proof. reflexivity. Qed.
Lemma kexec_JGo : forall M S0 L n env body st, kexec M S0 L (S n) env (JGo body) st =
 ROk (FNext env) (USt (cells st) (chans st) (tickers st) (spawned st ++ [(env, body)]) (outs st)).
Proof. reflexivity. Qed.
Lemma kexec_JDo : forall M S0 L n env e st, kexec M S0 L (S n) env (JDo e) st =
 udo _v, st1 <- keval M S0 L n env e st; ROk (FNext env) st1.
Proof. reflexivity. Qed.
Lemma kexec_JPanic : forall M S0 L n env w st, kexec M S0 L (S n) env (JPanic w) st =
 RPanic (UStr (wtext w)) st.
Proof. reflexivity. Qed.
Lemma kexec_JReturn : forall M S0 L n env es st, kexec M S0 L (S n) env (JReturn es) st =
 udo vs, st1 <- eval_list (keval M S0 L n env) es st; ROk (FReturn vs) st1.
Proof. reflexivity. Qed.
Lemma kexecs_nil : forall M S0 L n env st, kexecs M S0 L (S n) env [] st = ROk (FNext env) st.
Proof. reflexivity. Qed.
Lemma kexecs_cons : forall M S0 L n env s l st, kexecs M S0 L (S n) env (s :: l) st =
  udo fl, st1 <- kexec M S0 L n env s st;
  match fl with FReturn vs => ROk (FReturn vs) st1 | FNext env' => kexecs M S0 L n env' l st1 end.
Proof. reflexivity. Qed.

(** ** Tactics *)
Lemma nth_last : forall {A} (l : list A) x, nth_error (l ++ [x]) (length l) = Some x.
Proof. induction l; cbn; auto. Qed.
Lemma nth_keep : forall {A} (l : list A) x n v, nth_error l n = Some v -> nth_error (l ++ x) n = Some v.
Proof. intros. rewrite nth_error_app1; auto. apply nth_error_Some. congruence. Qed.
Lemma nput_last : forall {A} (l : list A) x y, nput (length l) y (l ++ [x]) = l ++ [y].
Proof. induction l as [|z l IH]; intros; cbn; [reflexivity|]. now rewrite IH. Qed.
Lemma nput_keep : forall {A} (l : list A) x n v, n < length l -> nput n v (l ++ x) = nput n v l ++ x.
Proof. induction l as [|z l IH]; intros x [|n] v H; cbn in *; try lia; [reflexivity|]. rewrite IH by lia. reflexivity. Qed.
Lemma not_in_eqb : forall x l, ~ In x l -> Forall (fun y => (x =? y)%string = false /\ (y =? x)%string = false) l.
Proof. intros x l H. apply Forall_forall. intros y Hy. split; apply String.eqb_neq; congruence. Qed.
Ltac others H :=
  apply not_in_eqb in H; repeat match goal with
  | H : Forall _ (_ :: _) |- _ => inversion_clear H
  | H : Forall _ [] |- _ => clear H
  | H : _ /\ _ |- _ => destruct H
  end.
Ltac look := match goal with |- context [nth_error ?c ?a] =>
  let H := fresh in eassert (H : nth_error c a = Some _) by (solve [repeat first [apply nth_last | eassumption | apply nth_keep]]); rewrite H; clear H end.
Ltac known := repeat match goal with H : unqualified _ = _ |- _ => rewrite H | H : get _ _ = Some _ |- _ => rewrite H | H : binop _ _ _ = Some _ |- _ => rewrite H | H : (_ =? _)%string = false |- _ => rewrite H end.
Ltac eqs := repeat match goal with |- context [String.eqb ?a ?b] =>
  let r := eval vm_compute in (String.eqb a b) in
  lazymatch r with true => change (String.eqb a b) with true | false => change (String.eqb a b) with false end end.
Ltac unfold1 :=
  match goal with
  | |- context [kexecs _ _ _ (S _) _ ?l _] => lazymatch l with _ :: _ => rewrite kexecs_cons | [] => rewrite kexecs_nil end
  | |- context [kexec _ _ _ (S _) _ ?s _] =>
      lazymatch s with
      | JDef _ _ => rewrite kexec_JDef | JSet _ _ _ => rewrite kexec_JSet | JIf _ _ => rewrite kexec_JIf | JEach _ _ _ => rewrite kexec_JEach
      | JCount _ _ _ => rewrite kexec_JCount | JSend _ _ => rewrite kexec_JSend | JGo _ => rewrite kexec_JGo | JDo _ => rewrite kexec_JDo
      | JPanic _ => rewrite kexec_JPanic | JReturn _ => rewrite kexec_JReturn
      end
  | |- context [keval _ _ _ (S _) _ ?e _] =>
      lazymatch e with
      | KVar _ => rewrite keval_KVar | KNum _ => rewrite keval_KNum | KStr _ => rewrite keval_KStr | KSel _ _ => rewrite keval_KSel
      | KCall _ _ => rewrite keval_KCall | KConv _ _ _ => rewrite keval_KConv | KLen _ => rewrite keval_KLen | KMake _ _ => rewrite keval_KMake
      | KLit _ _ _ _ => rewrite keval_KLit | KAddr _ => rewrite keval_KAddr | KIdx _ _ => rewrite keval_KIdx | KBin _ _ _ => rewrite keval_KBin
      | KFunc _ _ => rewrite keval_KFunc
      end
  end.
Lemma ltb_S : forall n, (0 <? Z.of_nat (S n))%Z = true.
Proof. intros. apply Z.ltb_lt. lia. Qed.
Lemma eqb_S : forall n, (Z.of_nat (S n) =? 0)%Z = false.
Proof. intros. apply Z.eqb_neq. lia. Qed.
Ltac numbers :=
  try match goal with |- context [binop ?o (UNum ?a) (UNum ?b)] => unfold binop end;
  try match goal with |- context [binop ?o (UFloat ?a) (UFloat ?b)] => unfold binop end;
  rewrite ?ltb_S, ?eqb_S, ?nput_last; change (Z.of_nat 0) with 0%Z; change (Z.to_nat 0) with 0; change (0 <? 0)%Z with false; change (0 =? 0)%Z with true;
  try match goal with |- context [nth_error (?x :: ?l) 0] => change (nth_error (x :: l) 0) with (Some x) end.
Ltac crunch1 :=
  unfold returns_literal, v_, log_logger_, robin_fields, keys, plain_new; try unfold1; unfold literal, number_of;
  cbn -[String.eqb nth_error nput binop Z.ltb Z.eqb Z.leb keval kexec kexecs each count float_of SFdiv whole Z.of_nat Z.to_nat Z.modulo struct_table];
  rewrite ?sapp_nil_r, ?String.eqb_refl; known; numbers; eqs; try look.
(** the declared fields, once and for all *)
Ltac table :=
  unfold call_func;
  match goal with |- context [struct_table ?d ?fs] =>
    let v := eval cbn -[String.eqb unqualified] in (snd (hd (d, []) (struct_table d fs))) in
    let H := fresh "Htable" in
    assert (H : get d (struct_table d fs) = Some v) by (unfold struct_table; cbn -[String.eqb unqualified]; now rewrite String.eqb_refl);
    rewrite ?sapp_nil_r in H; revert H; generalize (struct_table d fs); intros ? H
  end.
Ltac crunch := repeat (progress crunch1).
Ltac kept := split; [eexists; cbn [cells set_cell]; rewrite ?nput_last; rewrite <- ?app_assoc; reflexivity | repeat split].
