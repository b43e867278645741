(** Model of the decorator generated by templates/syncpool, for any number of
    concurrent calls.  Line numbers refer to /repo/templates/syncpool.

    Simplification: implementations are identified by their position in the
    argument list of the constructor; an implementation may return, panic or
    never return. *)
From Verif Require Export Lts.
Open Scope nat_scope.

(** a buffered channel: contents, oldest first, and capacity *)
Record chan := Chan { items : list nat; cap : nat }.
(** a send that does not block *)
Definition send (x : nat) (c : chan) : option chan :=
  if Nat.ltb (length (items c)) (cap c) then Some (Chan (items c ++ [x]) (cap c)) else None.

(** lines 16-18 *)
Fixpoint fill (impls : list nat) (c : chan) : option chan :=
  match impls with
  | [] => Some c
  | i :: rest => match send i c with None => None | Some c' => fill rest c' end
  end.
(** lines 10-21: [None] when the constructor panics or blocks *)
Definition new_pool (n : nat) : option chan :=
  if Nat.eqb n 0 then None else fill (seq 0 n) (Chan [] n).

(** position of one call *)
Inductive pc :=
| AtTake                                (* 26 *)
| Using (x : nat)                       (* 30 *)
| AtReturn (x : nat) (panicked : bool)  (* 27-29: the deferred function *)
| Returned (panicked : bool).

Record state := State { pool : chan; calls : list pc }.

Inductive label :=
| Call
| Take (i x : nat)                      (* implementation x is taken and called *)
| Done (i : nat) (panicked : bool)      (* it returned or panicked *)
| GiveBack (i x : nat).

Inductive step : state -> label -> state -> Prop :=
| s_call s : step s Call (State (pool s) (calls s ++ [AtTake]))
| s_take s i x q : nth_error (calls s) i = Some AtTake -> items (pool s) = x :: q ->
    step s (Take i x) (State (Chan q (cap (pool s))) (upd i (Using x) (calls s)))
| s_done s i x p : nth_error (calls s) i = Some (Using x) ->
    step s (Done i p) (State (pool s) (upd i (AtReturn x p) (calls s)))
| s_give s i x p c : nth_error (calls s) i = Some (AtReturn x p) -> send x (pool s) = Some c ->
    step s (GiveBack i x) (State c (upd i (Returned p) (calls s))).
