(** What the decorator proofs share: how gowrap builds methods and receivers,
    and how traces are read. *)
From Coq Require Import Sorting.Permutation.
From Verif Require Export Generated Generated2 Sem TypesProofs.
Open Scope nat_scope.

(** every method NewMethod returns has the shape the decorator proofs assume *)
Theorem NewMethod_wf : forall O pr gts gps name fi m, NewMethod O pr gts gps name fi = Ok m -> wf_method m.
Proof.
  intros O pr gts gps name fi m H.
  assert (exists ps rs, f_type fi = FuncT ps rs) as (ps & rs & Hf).
  { pose proof H as H'. unfold NewMethod in H'. destruct (f_type fi); try discriminate. eauto. }
  constructor.
  - pose proof (NewMethod_NoDup O pr gts gps name fi m H) as Hnd. rewrite map_app in Hnd.
    eapply Permutation_NoDup; [apply Permutation_app_comm | exact Hnd].
  - intros Hc. destruct (NewMethod_ctx O pr gts gps name fi m ps rs H Hf) as [_ Hx].
    destruct (Hx Hc) as (p & l & E & Ep & _). eauto.
  - intros He. destruct (NewMethod_err O pr gts gps name fi m ps rs H Hf) as [_ [Hx _]].
    destruct (Hx He) as (l & p & E & Ep & _). eauto.
Qed.

(** the value the generated constructor returns for the given arguments: the
    composite literal sets each field to the parameter it names *)
Fixpoint arg_of (params : list (string * list gtok)) (vals : list val) (x : string) : val :=
  match params, vals with
  | p :: ps, v :: vs => if String.eqb x (fst p) then v else arg_of ps vs x
  | _, _ => VNil
  end.
Definition construct (c : ctor) (vals : list val) : val :=
  VRec (map (fun f => (wtext (fst f), arg_of (ct_params c) vals (snd f))) (ct_fields c)).

(** an operation that does not return ends the call *)
Lemma replace_last_length : forall {A} (l : list A) v, l <> [] -> length (removelast l ++ [v]) = length l.
Proof. intros A l v H. destruct (exists_last H) as [l' [x ->]]. now rewrite removelast_last, !app_length. Qed.

Definition fails (a : ans) (r : out (list val)) : Prop :=
  match a with ARet _ => False | APan v => r = Pan v | ABlock => r = Blk end.

Lemma is_nil_spec : forall v, is_nil v = true <-> v = VNil.
Proof. intros v. destruct v; cbn; split; intros; congruence. Qed.

(** the arguments and answers of the calls of method [nm] of the base *)
Definition base_calls (b : nat) (nm : string) (tr : trace) : list (list val * ans) :=
  flat_map (fun e => match fst e with
                     | OMeth (VRef c) f args => if (c =? b) && String.eqb f nm then [(args, snd e)] else []
                     | _ => []
                     end) tr.

Lemma base_calls_app : forall b nm a c, base_calls b nm (a ++ c) = base_calls b nm a ++ base_calls b nm c.
Proof. intros. apply flat_map_app. Qed.

(** the call ends as the base call that was answered [a] *)
Definition ends (a : ans) (r : out (list val)) : Prop :=
  match a with ARet l => r = Val l | APan v => r = Pan v | ABlock => r = Blk end.

(** the base returns as many values as the method declares *)
Definition base_typed (W : gworld) (m : method) (b : nat) : Prop :=
  forall tr args vs, w_ans W tr (OMeth (VRef b) (m_name m) args) = ARet vs -> length vs = length (m_results m).
