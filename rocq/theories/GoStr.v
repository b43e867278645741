(** Go runtime pieces used by gowrap: results with panics, byte strings and the
    parts of the [strings], [strconv]/[fmt] and [sort] packages that occur in
    /repo.  Go strings are byte strings: Coq [string] (a list of 8-bit [ascii])
    is exactly that. *)
From Coq Require Export String Ascii List Bool Arith NArith ZArith Lia.
From Coq Require Import DecimalString DecimalNat Decimal.
Export ListNotations.
Open Scope string_scope.
Open Scope list_scope.

(** ** Results *)

(** Go [error] values.  [Sentinel] is a package-level [errors.New]; [Wrapped]
    is github.com/pkg/errors [Wrap]/[Wrapf] (message ": " cause). *)
Inductive gerr : Type :=
| Sentinel (s : string)
| Wrapped (msg : string) (e : gerr).

Fixpoint cause (e : gerr) : string :=
  match e with Sentinel s => s | Wrapped _ e' => cause e' end.

Fixpoint err_text (e : gerr) : string :=
  match e with
  | Sentinel s => s
  | Wrapped m e' => (m ++ ": " ++ err_text e')%string
  end.

(** Outcome of a Go function returning [(A, error)]: a value with a nil error,
    a non-nil error, or a run-time panic. *)
Inductive res (A : Type) : Type :=
| Ok (a : A)
| Err (e : gerr)
| Panic (msg : string).
Arguments Ok {A} _. Arguments Err {A} _. Arguments Panic {A} _.

Definition rbind {A B} (r : res A) (f : A -> res B) : res B :=
  match r with Ok a => f a | Err e => Err e | Panic m => Panic m end.
Notation "'do' x <- r ; k" := (rbind r (fun x => k))
  (at level 200, x name, r at level 100, k at level 200).

Definition is_ok {A} (r : res A) : bool := match r with Ok _ => true | _ => false end.

Fixpoint mapM {A B} (f : A -> res B) (l : list A) : res (list B) :=
  match l with
  | [] => Ok []
  | x :: xs => do y <- f x; do ys <- mapM f xs; Ok (y :: ys)
  end.

(** ** Strings *)

(** strings.Join *)
Definition join (sep : string) (l : list string) : string := String.concat sep l.

(** strings.HasPrefix *)
Definition has_prefix (p s : string) : bool := String.prefix p s.

Definition byte_eqb (a b : ascii) : bool := Ascii.eqb a b.

(** s[n:] *)
Fixpoint drop (n : nat) (s : string) : string :=
  match n, s with
  | O, _ => s
  | S n', String _ s' => drop n' s'
  | S _, EmptyString => EmptyString
  end.

(** s[:n] *)
Fixpoint take (n : nat) (s : string) : string :=
  match n, s with
  | O, _ => EmptyString
  | S n', String c s' => String c (take n' s')
  | S _, EmptyString => EmptyString
  end.

(** last byte of a string *)
Fixpoint last_byte (s : string) : option ascii :=
  match s with
  | EmptyString => None
  | String c EmptyString => Some c
  | String _ s' => last_byte s'
  end.

Definition first_byte (s : string) : option ascii :=
  match s with EmptyString => None | String c _ => Some c end.

(** s[:len(s)-1] *)
Fixpoint drop_last (s : string) : string :=
  match s with
  | EmptyString => EmptyString
  | String _ EmptyString => EmptyString
  | String c s' => String c (drop_last s')
  end.

(** strings.Replace(s, old, new, 1): replaces the first occurrence *)
Fixpoint replace1 (old new s : string) : string :=
  if String.prefix old s then (new ++ drop (String.length old) s)%string
  else match s with
       | EmptyString => EmptyString
       | String c s' => String c (replace1 old new s')
       end.

(** strings.SplitN(s, sep, 2) for a one-byte separator *)
Fixpoint cut (sep : ascii) (s : string) : option (string * string) :=
  match s with
  | EmptyString => None
  | String c s' =>
      if byte_eqb c sep then Some (EmptyString, s')
      else match cut sep s' with
           | Some (a, b) => Some (String c a, b)
           | None => None
           end
  end.

(** fmt.Sprintf("%d", n) for n >= 0 *)
Definition dec (n : nat) : string := NilEmpty.string_of_uint (Nat.to_uint n).

(** membership in a string set (Go map[string]bool with only [true] values) *)
Definition mem (x : string) (l : list string) : bool := existsb (String.eqb x) l.

(** association list used for Go maps keyed by strings *)
Fixpoint assoc {A} (k : string) (m : list (string * A)) : option A :=
  match m with
  | [] => None
  | (k', v) :: m' => if String.eqb k k' then Some v else assoc k m'
  end.

(** m[k] = v on an association list with unique keys *)
Fixpoint assoc_set {A} (k : string) (v : A) (m : list (string * A)) : list (string * A) :=
  match m with
  | [] => [(k, v)]
  | (k', v') :: m' => if String.eqb k k' then (k, v) :: m' else (k', v') :: assoc_set k v m'
  end.

Definition keys {A} (m : list (string * A)) : list string := map fst m.

(** ** Lemmas about these functions *)

Lemma sapp_assoc (a b c : string) : ((a ++ b) ++ c = a ++ (b ++ c))%string.
Proof. induction a as [|x a IH]; cbn; [reflexivity | now rewrite IH]. Qed.

Lemma sapp_nil_r (a : string) : (a ++ "" = a)%string.
Proof. induction a as [|x a IH]; cbn; [reflexivity | now rewrite IH]. Qed.

Lemma slength_app (a b : string) :
  String.length (a ++ b)%string = String.length a + String.length b.
Proof. induction a as [|x a IH]; cbn; [reflexivity | now rewrite IH]. Qed.

Lemma sapp_inj_l (a b c : string) : (a ++ b = a ++ c)%string -> b = c.
Proof. induction a as [|x a IH]; cbn; intros H; [exact H | injection H as H; auto]. Qed.

Lemma sapp_inj_r (a b c : string) : (b ++ a = c ++ a)%string -> b = c.
Proof.
  revert c; induction b as [|x b IH]; intros c H; destruct c as [|y c]; cbn in H.
  - reflexivity.
  - exfalso. assert (L : String.length a = String.length (String y (c ++ a)%string)) by (rewrite <- H; reflexivity).
    cbn in L. rewrite slength_app in L. lia.
  - exfalso. assert (L : String.length a = String.length (String x (b ++ a)%string)) by (rewrite H; reflexivity).
    cbn in L. rewrite slength_app in L. lia.
  - injection H as Hx H. subst. f_equal. auto.
Qed.

Lemma mem_In x l : mem x l = true <-> In x l.
Proof.
  unfold mem. rewrite existsb_exists. split.
  - intros (y & Hy & E). apply String.eqb_eq in E. now subst.
  - intros H. exists x. split; [exact H | apply String.eqb_refl].
Qed.

Lemma mem_false x l : mem x l = false <-> ~ In x l.
Proof.
  rewrite <- mem_In. destruct (mem x l); split; intros H; auto; try discriminate.
  exfalso; now apply H.
Qed.

Lemma drop_app (a b : string) : drop (String.length a) (a ++ b)%string = b.
Proof. induction a as [|c a IH]; cbn; auto. Qed.

Lemma prefix_app (a b : string) : String.prefix a (a ++ b)%string = true.
Proof.
  induction a as [|c a IH]; cbn; [destruct b; reflexivity|].
  destruct (ascii_dec c c) as [_|N]; [exact IH | now destruct N].
Qed.

Lemma prefix_spec (p s : string) : String.prefix p s = true <-> exists t, s = (p ++ t)%string.
Proof.
  split.
  - revert s; induction p as [|c p IH]; intros s H; cbn in *.
    + now exists s.
    + destruct s as [|d s]; cbn in H; [discriminate|].
      revert H; destruct (ascii_dec c d) as [->|]; intros H; [|discriminate H].
      destruct (IH s H) as (t & ->). now exists t.
  - intros (t & ->). apply prefix_app.
Qed.

Lemma dec_inj m n : dec m = dec n -> m = n.
Proof.
  unfold dec. intros H.
  assert (E : NilEmpty.uint_of_string (NilEmpty.string_of_uint (Nat.to_uint m))
            = NilEmpty.uint_of_string (NilEmpty.string_of_uint (Nat.to_uint n))) by now rewrite H.
  rewrite !NilEmpty.usu in E. injection E as E.
  now apply Unsigned.to_uint_inj.
Qed.

Lemma assoc_set_same {A} k (v : A) m : assoc k (assoc_set k v m) = Some v.
Proof.
  induction m as [|[k' v'] m IH]; cbn.
  - now rewrite String.eqb_refl.
  - destruct (String.eqb_spec k k') as [->|N]; cbn.
    + now rewrite String.eqb_refl.
    + destruct (String.eqb_spec k k'); [contradiction | exact IH].
Qed.

Lemma assoc_set_other {A} k k' (v : A) m : k' <> k -> assoc k' (assoc_set k v m) = assoc k' m.
Proof.
  intros Hk. induction m as [|[k0 v0] m IH]; cbn.
  - destruct (String.eqb_spec k' k); [contradiction | reflexivity].
  - destruct (String.eqb_spec k k0) as [->|N]; cbn.
    + destruct (String.eqb_spec k' k0); [contradiction | reflexivity].
    + destruct (String.eqb_spec k' k0); [reflexivity | exact IH].
Qed.

Lemma assoc_In {A} k (v : A) m : assoc k m = Some v -> In (k, v) m.
Proof.
  induction m as [|[k' v'] m IH]; cbn; [discriminate|].
  destruct (String.eqb_spec k k') as [->|]; intros H; [left; congruence | right; auto].
Qed.

Lemma assoc_None {A} k (m : list (string * A)) : assoc k m = None <-> ~ In k (keys m).
Proof.
  induction m as [|[k' v'] m IH]; cbn; [tauto|].
  destruct (String.eqb_spec k k') as [->|N].
  - split; [discriminate | intros H; exfalso; apply H; now left].
  - rewrite IH. split; intros H; [intros [E|E]; [now subst | now apply H] | intros E; apply H; now right].
Qed.

Lemma assoc_Some_keys {A} k (m : list (string * A)) : In k (keys m) <-> exists v, assoc k m = Some v.
Proof.
  destruct (assoc k m) as [v|] eqn:E.
  - split; [intros _; now exists v | intros _]. apply assoc_In in E. unfold keys.
    change k with (fst (k, v)). now apply in_map.
  - apply assoc_None in E. split; [intros H; contradiction | intros (v & H); discriminate].
Qed.

Lemma keys_assoc_set {A} k (v : A) m k' :
  In k' (keys (assoc_set k v m)) <-> k' = k \/ In k' (keys m).
Proof.
  rewrite !assoc_Some_keys.
  destruct (String.eqb_spec k' k) as [->|N].
  - split; [now left | intros _; exists v; apply assoc_set_same].
  - rewrite assoc_set_other by exact N.
    split; [now right | intros [E|H]; [contradiction | exact H]].
Qed.

Lemma keys_assoc_set_NoDup {A} k (v : A) m : NoDup (keys m) -> NoDup (keys (assoc_set k v m)).
Proof.
  induction m as [|[k0 v0] m IH]; cbn; intros H.
  - constructor; [tauto | constructor].
  - inversion H as [|x l Hn Hd]; subst.
    destruct (String.eqb_spec k k0) as [->|N]; cbn.
    + now constructor.
    + constructor; [|auto]. intros Hi.
      change (In k0 (keys (assoc_set k v m))) in Hi.
      apply keys_assoc_set in Hi. destruct Hi as [->|Hi]; [now apply N | now apply Hn].
Qed.

Lemma In_assoc {A} k (v : A) m : NoDup (keys m) -> In (k, v) m -> assoc k m = Some v.
Proof.
  induction m as [|[k0 v0] m IH]; cbn; intros Hd Hi; [contradiction|].
  inversion Hd as [|x l Hn Hd']; subst.
  destruct Hi as [E|Hi].
  - injection E as -> ->. now rewrite String.eqb_refl.
  - destruct (String.eqb_spec k k0) as [->|N]; [|now apply IH].
    exfalso. apply Hn. change k0 with (fst (k0, v)). now apply in_map.
Qed.

Lemma mapM_length {A B} (f : A -> res B) l ys : mapM f l = Ok ys -> length ys = length l.
Proof.
  revert ys; induction l as [|x l IH]; cbn; intros ys H.
  - now injection H as <-.
  - destruct (f x) as [y| |]; cbn in H; try discriminate.
    destruct (mapM f l) as [zs| |]; cbn in H; try discriminate.
    injection H as <-. cbn. f_equal. now apply IH.
Qed.

Lemma mapM_Forall2 {A B} (f : A -> res B) l ys :
  mapM f l = Ok ys <-> Forall2 (fun x y => f x = Ok y) l ys.
Proof.
  revert ys; induction l as [|x l IH]; cbn; intros ys; split; intros H.
  - injection H as <-. constructor.
  - now inversion H.
  - destruct (f x) as [y| |] eqn:E; cbn in H; try discriminate.
    destruct (mapM f l) as [zs| |] eqn:E2; cbn in H; try discriminate.
    injection H as <-. constructor; [exact E | now apply IH].
  - inversion H as [|x' y' l' ys' Hx Hl]; subst. rewrite Hx. cbn.
    apply IH in Hl. now rewrite Hl.
Qed.

Lemma Forall2_length {A B} (R : A -> B -> Prop) l l' : Forall2 R l l' -> length l = length l'.
Proof. induction 1; cbn; congruence. Qed.

Lemma NoDup_app_l {A} (l l' : list A) : NoDup (l ++ l') -> NoDup l.
Proof.
  induction l as [|x l IH]; cbn; intros H; [constructor|].
  inversion H as [|y m Hn Hd]; subst. constructor; [|auto].
  intros Hi. apply Hn. rewrite in_app_iff. now left.
Qed.

Lemma NoDup_app_r {A} (l l' : list A) : NoDup (l ++ l') -> NoDup l'.
Proof. induction l as [|x l IH]; cbn; intros H; [exact H|]. inversion H; auto. Qed.

Lemma NoDup_app_disj {A} (l l' : list A) x : NoDup (l ++ l') -> In x l -> ~ In x l'.
Proof.
  induction l as [|y l IH]; cbn; intros H Hx; [contradiction|].
  inversion H as [|z m Hn Hd]; subst. destruct Hx as [->|Hx]; [|auto].
  intros Hi. apply Hn. rewrite in_app_iff. now right.
Qed.

Lemma NoDup_app_intro {A} (l l' : list A) :
  NoDup l -> NoDup l' -> (forall x, In x l -> ~ In x l') -> NoDup (l ++ l').
Proof.
  induction l as [|x l IH]; cbn; intros H1 H2 H3; [exact H2|].
  inversion H1 as [|y m Hn Hd]; subst. constructor.
  - rewrite in_app_iff. intros [Hi|Hi]; [contradiction | apply (H3 x); auto].
  - apply IH; auto.
Qed.

Lemma nth_error_firstn_lt {A} (l : list A) k j : j < k -> nth_error (firstn k l) j = nth_error l j.
Proof.
  revert k j; induction l as [|x l IH]; intros k j H; [now destruct k|].
  destruct k; [lia|]. destruct j; [reflexivity|]. cbn. apply IH. lia.
Qed.
