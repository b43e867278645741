(** State shared between generators: the backing array of Options.Imports
    (generator.go:221,247) and the package variable imports.LocalPrefix
    (generator.go:329-330). *)
From Verif Require Export NewGen.
Open Scope nat_scope.

(** ** Slices of strings.  An array is the list of its cells; a slice is a
    window into one. *)
Definition heap := list (list string).
Record slice := Slice { sl_arr : nat; sl_off : nat; sl_len : nat; sl_cap : nat }.

Definition cells (h : heap) (a : nat) : list string := nth a h [].
Definition elems (h : heap) (s : slice) : list string := firstn (sl_len s) (skipn (sl_off s) (cells h (sl_arr s))).

(** overwriting cells from position [i] *)
Definition write (i : nat) (xs arr : list string) : list string :=
  firstn i arr ++ xs ++ skipn (i + length xs) arr.
Fixpoint set_nth (n : nat) (x : list string) (h : heap) : heap :=
  match n, h with
  | O, _ :: h' => x :: h'
  | S n', a :: h' => a :: set_nth n' x h'
  | _, [] => []
  end.

(** append(s, xs...): in place when the capacity suffices, otherwise into a
    new array with some spare room [extra] chosen by the runtime *)
Definition go_append (extra : nat) (h : heap) (s : slice) (xs : list string) : heap * slice :=
  if sl_len s + length xs <=? sl_cap s then
    (set_nth (sl_arr s) (write (sl_off s + sl_len s) xs (cells h (sl_arr s))) h,
     Slice (sl_arr s) (sl_off s) (sl_len s + length xs) (sl_cap s))
  else
    (h ++ [elems h s ++ xs ++ repeat "" extra],
     Slice (length h) 0 (sl_len s + length xs) (sl_len s + length xs + extra)).

(** Generators under construction from one Options value: each has its copy of
    the slice header and the appends it has still to make (at most two:
    generator.go:221 and 247). *)
Record maker := Maker { mk_slice : slice; mk_done : list string; mk_todo : list (list string) }.

Fixpoint update {A} (n : nat) (x : A) (l : list A) : list A :=
  match n, l with
  | O, _ :: l' => x :: l'
  | S n', a :: l' => a :: update n' x l'
  | _, [] => []
  end.

(** one step: maker [i] performs its next append *)
Inductive astep : heap * list maker -> heap * list maker -> Prop :=
| astep_intro h ms i m xs rest extra :
    nth_error ms i = Some m -> mk_todo m = xs :: rest ->
    astep (h, ms)
          (fst (go_append extra h (mk_slice m) xs),
           update i (Maker (snd (go_append extra h (mk_slice m) xs)) (mk_done m ++ xs) rest) ms).

Inductive asteps : heap * list maker -> heap * list maker -> Prop :=
| asteps_refl s : asteps s s
| asteps_step s1 s2 s3 : asteps s1 s2 -> astep s2 s3 -> asteps s1 s3.

Definition start (s : slice) (todos : list (list (list string))) : list maker := map (Maker s []) todos.

(** the slice is inside its array *)
Definition slice_ok (h : heap) (s : slice) : Prop :=
  sl_arr s < length h /\ sl_len s <= sl_cap s /\ sl_off s + sl_cap s <= length (cells h (sl_arr s)).

(** ** imports.LocalPrefix: generator [i] first sets the variable, later
    imports.Process reads it *)
Inductive pc := Ready | Set_ | Done (used : string).
Record gstate := GState { gs_global : string; gs_pcs : list (string * pc) (* own prefix, position *) }.

Inductive gstep : nat -> gstate -> gstate -> Prop :=
| g_set i s p : nth_error (gs_pcs s) i = Some (p, Ready) ->
    gstep i s (GState p (update i (p, Set_) (gs_pcs s)))
| g_process i s p : nth_error (gs_pcs s) i = Some (p, Set_) ->
    gstep i s (GState (gs_global s) (update i (p, Done (gs_global s)) (gs_pcs s))).

Inductive gsteps : list nat -> gstate -> gstate -> Prop :=
| gsteps_nil s : gsteps [] s s
| gsteps_snoc l i s1 s2 s3 : gsteps l s1 s2 -> gstep i s2 s3 -> gsteps (l ++ [i]) s1 s3.

Definition ginit (g : string) (ps : list string) : gstate := GState g (map (fun p => (p, Ready)) ps).
