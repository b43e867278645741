(** C44: the deadline the base sees and the cleanup of the derived context. *)
From Verif Require Import Timeout PropNaming.
Open Scope nat_scope.

(** ** The part of package context the decorator relies on, read off a trace *)

(** a context that WithTimeout made *)
Definition made (e : op * ans) : option (nat * Z * nat * nat) :=   (* parent, timeout, context, cancel function *)
  match e with
  | (OCall (VPkg p) [VRef c; VInt t], ARet [VRef k; VRef f]) =>
      if String.eqb p "context.WithTimeout" then Some (c, t, k, f) else None
  | _ => None
  end.

Definition earlier (a : option Z) (b : Z) : option Z :=
  match a with None => Some b | Some x => Some (Z.min x b) end.

(** the deadline of context [k]: [known] are the deadlines before the call,
    [now tr] is the time after [tr]; the trace is read backwards *)
Fixpoint deadline (known : nat -> option Z) (now : trace -> Z) (back : trace) (k : nat) : option Z :=
  match back with
  | [] => known k
  | e :: back' =>
      match made e with
      | Some (c, t, k', _) =>
          if k' =? k then earlier (deadline known now back' c) (now (rev back') + t) else deadline known now back' k
      | None => deadline known now back' k
      end
  end.

(** [k] is [j] or was derived from it *)
Inductive descends (tr : trace) : nat -> nat -> Prop :=
| D_refl k : descends tr k k
| D_step e c t k f j : In e tr -> made e = Some (c, t, k, f) -> descends tr c j -> descends tr k j.

(** a cancel function of the context or of one it was derived from was called *)
Definition cancelled (tr : trace) (k : nat) : Prop :=
  exists a f cv b e c t j, tr = a ++ (OCall (VRef f) [], ARet cv) :: b /\ In e a /\ made e = Some (c, t, j, f) /\ descends tr k j.

(** ** C44 *)

(** the outside world: base, WithTimeout and the cancel functions have their Go types *)
Record timeout_world (W : gworld) (m : method) (base : nat) (c : nat) : Prop := {
  tw_base : base_typed W m base;
  tw_with : forall tr t vs, w_ans W tr (with_timeout (VRef c) t) = ARet vs ->
    exists k f, vs = [VRef k; VRef f] /\ k <> c;
  tw_cancel : forall tr f, exists vs, w_ans W tr (OCall (VRef f) []) = ARet vs
}.

(** what is claimed of a call with timeout [t] *)
Inductive C44_call (known : nat -> option Z) (now : trace -> Z) (b : nat) (nm : string) (c : nat) (rest : list val) (t : Z)
  : trace -> out (list val) -> Prop :=
| C44_unlimited a r : (t <= 0)%Z -> ends a r ->              (* the caller's context, unchanged; nothing else happens *)
    C44_call known now b nm c rest t [(OMeth (VRef b) nm (VRef c :: rest), a)] r
| C44_no_context a r : (0 < t)%Z -> fails a r ->             (* WithTimeout itself failed: the base is not called *)
    C44_call known now b nm c rest t [(with_timeout (VRef c) t, a)] r
| C44_limited k a r before after : (0 < t)%Z -> ends a r ->
    base_calls b nm before = [] -> base_calls b nm after = [] ->
    deadline known now (rev before) k = earlier (known c) (now [] + t) ->
    (a <> ABlock -> cancelled (before ++ (OMeth (VRef b) nm (VRef k :: rest), a) :: after) k) ->
    ~ cancelled (before ++ [(OMeth (VRef b) nm (VRef k :: rest), a)]) k ->        (* not before the base is done *)
    ~ cancelled (before ++ (OMeth (VRef b) nm (VRef k :: rest), a) :: after) c ->
    C44_call known now b nm c rest t (before ++ (OMeth (VRef b) nm (VRef k :: rest), a) :: after) r.

Lemma made_with : forall c t k f, made (with_timeout (VRef c) t, ARet [VRef k; VRef f]) = Some (c, t, k, f).
Proof. reflexivity. Qed.

Lemma made_meth : forall o nm l a, made (OMeth o nm l, a) = None.
Proof. reflexivity. Qed.

Lemma made_cancel : forall f a, made (OCall (VRef f) [], a) = None.
Proof. reflexivity. Qed.

Lemma descends_self : forall tr k j, (forall e c t f, In e tr -> made e <> Some (c, t, k, f)) -> descends tr k j -> j = k.
Proof. intros tr k j H D. destruct D as [|e c t k f j Hin He D]; [reflexivity|]. exfalso. eapply H; eauto. Qed.

Lemma cancelled_elem : forall tr k, cancelled tr k -> exists f cv, In (OCall (VRef f) [], ARet cv) tr.
Proof.
  intros tr k (a & f & cv & b & e & c & t & j & -> & _). exists f, cv. apply in_or_app. right. now left.
Qed.

Theorem C44_timeout : forall W m dec name typ config t base L zeros c rest known now,
  wf_method m -> hygienic m ["context"; "cancelFunc"] -> m_acceptsContext m = true ->
  length zeros = length (m_results m) -> length (VRef c :: rest) = length (m_params m) ->
  name <> "config" -> field_of (m_name m ++ "Timeout") config = Some (VInt t) ->
  timeout_world W m base c ->
  let '(r, tr) := run_method W m [] L (timeout_body name m)
                    (construct (timeout_ctor dec name typ) [VRef base; VRec config]) zeros (VRef c :: rest) in
  C44_call known now base (m_name m) c rest t tr r.
Proof.
  intros W m dec name typ config t base L zeros c rest known now Hwf Hh Hac Hz Ha Hn Hcfg [Wb Ww Wc].
  pose proof (timeout_meets W m dec name typ config t base L zeros (VRef c) rest
               Hwf Hh Hac Hz Ha Hn Hcfg Wb (fun x => exists k, x = VRef k /\ k <> c)) as H.
  specialize (H (fun tr vs E => match Ww tr t vs E with ex_intro _ k (ex_intro _ f (conj E1 E2)) =>
     ex_intro _ (VRef k) (ex_intro _ f (conj E1 (ex_intro _ k (conj eq_refl E2)))) end) Wc).
  destruct (run_method _ _ _ _ _ _ _ _) as [r tr].
  assert (Hw : forall x, made (with_timeout (VRef c) t, x) <> None -> exists k f, x = ARet [VRef k; VRef f]).
  { intros x Hx. destruct x as [[|[| | | |k| | | | | | | ] [|[| | | |f| | | | | | | ] [|? ?]]]|v|]; cbn in Hx; try congruence. eauto. }
  destruct H as [a r Ht He|a r Ht He|c' f a r cv Ht Hk Hb He|c' f Ht Hk].
  - now apply C44_unlimited.
  - now apply C44_no_context.
  - destruct Hk as (k & -> & Hk).
    apply (C44_limited known now base (m_name m) c rest t k a r [(with_timeout (VRef c) t, ARet [VRef k; VRef f])] [(OCall (VRef f) [], ARet cv)]);
      try assumption; try reflexivity.
    + cbn [rev app deadline]. rewrite made_with, Nat.eqb_refl. reflexivity.
    + intros _. exists [(with_timeout (VRef c) t, ARet [VRef k; VRef f]); (OMeth (VRef base) (m_name m) (VRef k :: rest), a)], f, cv, [],
        (with_timeout (VRef c) t, ARet [VRef k; VRef f]), c, t, k.
      repeat split; [now left | apply D_refl].
    + intros Hc. destruct (cancelled_elem _ _ Hc) as (g & gv & Hin). cbn in Hin. destruct Hin as [E|[E|[]]]; discriminate.
    + intros (a0 & g & gv & b0 & e & c0 & t0 & j & E & Hin & Hm & Hd).
      assert (j = c) as ->.
      { eapply descends_self; [|exact Hd]. intros e' c1 t1 f1 Hin' Hm'. cbn [app] in Hin'.
        destruct Hin' as [<-|[<-|[<-|[]]]]; [|now rewrite made_meth in Hm'|now rewrite made_cancel in Hm'].
        rewrite made_with in Hm'. injection Hm' as _ _ E1 _. contradiction. }
      assert (Hin' : In e ([(with_timeout (VRef c) t, ARet [VRef k; VRef f])] ++ (OMeth (VRef base) (m_name m) (VRef k :: rest), a) :: [(OCall (VRef f) [], ARet cv)])).
      { rewrite E. apply in_or_app. now left. }
      cbn [app] in Hin'. destruct Hin' as [<-|[<-|[<-|[]]]]; [|now rewrite made_meth in Hm|now rewrite made_cancel in Hm].
      rewrite made_with in Hm. injection Hm as _ _ E1 _. contradiction.
  - destruct Hk as (k & -> & Hk).
    apply (C44_limited known now base (m_name m) c rest t k ABlock Blk [(with_timeout (VRef c) t, ARet [VRef k; VRef f])] []);
      try assumption; try reflexivity.
    + cbn [rev app deadline]. rewrite made_with, Nat.eqb_refl. reflexivity.
    + intros Hx. now contradiction Hx.
    + intros Hc. destruct (cancelled_elem _ _ Hc) as (g & gv & Hin). cbn in Hin. destruct Hin as [E|[E|[]]]; discriminate.
    + intros Hc. destruct (cancelled_elem _ _ Hc) as (g & gv & Hin). cbn in Hin. destruct Hin as [E|[E|[]]]; discriminate.
Qed.

(** a call with a timeout of 30 by a caller whose context has no deadline, then
    one whose deadline is earlier, then one without timeout; the base panics *)
Definition ex_timeout_world (a : ans) : gworld :=
  GWorld (fun tr o => match o with
    | OMeth (VRef 0) "Do" _ => a
    | OCall (VPkg "context.WithTimeout") _ => ARet [VRef 5; VRef 6]
    | OCall (VRef _) [] => ARet []
    | _ => ABlock
    end) (fun _ _ => false).
Definition ex_timeout_run (t : Z) (a : ans) : out (list val) * trace :=
  run_method (ex_timeout_world a) ex_m [] 0 (timeout_body "Doer" ex_m)
    (construct (timeout_ctor "DoerWithTimeout" "Doer" "pkg.Doer") [VRef 0; VRec [("DoTimeout", VInt t)]])
    [VString ""; VNil] [VRef 3; VInt 7; VInt 8; VSlice []].

Example C44_nontrivial :
  wf_method ex_m /\ hygienic ex_m ["context"; "cancelFunc"] /\
  (forall a, (forall l, a = ARet l -> length l = 2) -> timeout_world (ex_timeout_world a) ex_m 0 3) /\
  ex_timeout_run 30 (APan VNil) =
    (Pan VNil, [(with_timeout (VRef 3) 30, ARet [VRef 5; VRef 6]);
                (OMeth (VRef 0) "Do" [VRef 5; VInt 7; VInt 8; VSlice []], APan VNil); (OCall (VRef 6) [], ARet [])]) /\
  ex_timeout_run 0 (ARet [VString "s"; VNil]) =
    (Val [VString "s"; VNil], [(OMeth (VRef 0) "Do" [VRef 3; VInt 7; VInt 8; VSlice []], ARet [VString "s"; VNil])]) /\
  deadline (fun _ => Some 20%Z) (fun _ => 1%Z) [(with_timeout (VRef 3) 30, ARet [VRef 5; VRef 6])] 5 = Some 20%Z /\
  deadline (fun _ => None) (fun _ => 1%Z) [(with_timeout (VRef 3) 30, ARet [VRef 5; VRef 6])] 5 = Some 31%Z.
Proof.
  split; [eapply NewMethod_wf, ex_NewMethod|]. split.
  { intros x Hx Hin. cbn in Hx, Hin. intuition (subst; discriminate). }
  split.
  { intros a H. constructor.
    - intros tr args vs E. cbn in E. now apply H.
    - intros tr t vs E. cbn in E. injection E as <-. exists 5, 6. now split.
    - intros tr f. now exists []. }
  vm_compute. repeat split; reflexivity.
Qed.

Print Assumptions C44_timeout.
Print Assumptions C44_nontrivial.
