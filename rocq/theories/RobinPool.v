(** Model of the decorator generated by templates/robinpool, for any number of
    concurrent calls.  Line numbers refer to /repo/templates/robinpool.

    Simplification: implementations are identified by their position in the
    pool; what the chosen implementation does is left to it (line 39 passes the
    call on, see the rendering model). *)
From Verif Require Export Lts.
Open Scope Z_scope.

(** uint32 arithmetic *)
Definition two32 : Z := 4294967296.
Definition u32 (x : Z) : Z := x mod two32.

(** lines 17-23: New; [None] is the error, otherwise the size stored *)
Definition new_pool (n : nat) : option Z :=
  if Nat.eqb n 0 then None else Some (u32 (Z.of_nat n)).
(** lines 27-33: MustNew; [None] is the panic *)
Definition must_new_pool (n : nat) : option Z :=
  if Nat.eqb n 0 then None else Some (u32 (Z.of_nat n)).

(** position of one call *)
Inductive pc :=
| AtAdd                   (* 38 *)
| AtPick (c : Z)          (* 39: [_counter] = c *)
| Served (k : Z)          (* 39: implementation k called *)
| Crashed.                (* 39: the operator % or the index panicked *)

Record state := State { counter : Z; calls : list pc }.

Inductive label :=
| Call
| Add (i : nat) (c : Z)        (* atomic.AddUint32 returned c *)
| Serve (i : nat) (k : Z)      (* pool[k] is called *)
| Crash (i : nat).

Section Pool.
  Variable len : nat.          (* len(pool) *)
  Variable size : Z.           (* poolSize *)

  (** _d.pool[_counter % _d.poolSize] *)
  Definition pick (c : Z) : option Z :=
    if Z.eqb size 0 then None
    else let k := c mod size in if Z.ltb k (Z.of_nat len) then Some k else None.

  Inductive step : state -> label -> state -> Prop :=
  | s_call s : step s Call (State (counter s) (calls s ++ [AtAdd]))
  | s_add s i : nth_error (calls s) i = Some AtAdd ->                        (* 38 *)
      let c := u32 (counter s + 1) in
      step s (Add i c) (State c (upd i (AtPick c) (calls s)))
  | s_serve s i c k : nth_error (calls s) i = Some (AtPick c) -> pick c = Some k ->   (* 39 *)
      step s (Serve i k) (State (counter s) (upd i (Served k) (calls s)))
  | s_crash s i c : nth_error (calls s) i = Some (AtPick c) -> pick c = None ->
      step s (Crash i) (State (counter s) (upd i Crashed (calls s))).

  Definition init : state := State 0 [].
End Pool.
