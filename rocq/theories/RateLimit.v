(** Model of the decorator generated by templates/ratelimit, for any number of
    concurrent calls.  Line numbers refer to /repo/templates/ratelimit.

    Simplifications: the delay between ticks (line 25, a floating point
    division) is a parameter, positive or not; the clock is represented by its
    ticks, which may come at any moment; tokens are counted, since nothing
    reads the time.Time values in [_ticks]; what the base does between start and
    end of a call is left to it. *)
From Verif Require Export Lts.
Open Scope nat_scope.

(** the goroutine of lines 27-31 *)
Inductive feeder := AtRange      (* 28: receiving from time.Tick *)
                  | AtSend.      (* 29: sending to [_ticks] *)

(** position of one call; [sel]: lines 40-45 (context and error), otherwise
    line 47; [ctxdone]: ctx.Done() is closed *)
Inductive pc :=
| Waiting (sel ctxdone : bool)
| Holding                        (* 49, token taken *)
| Running                        (* in the base *)
| Returned
| Cancelled.                     (* 42-43 *)

Record state := State {
  buf : nat;                     (* len(_ticks) *)
  feed : feeder;
  pending : bool;                (* time.Tick's channel has capacity 1 *)
  calls : list pc
}.

Inductive label :=
| Tick (dropped : bool)          (* the runtime's ticker fires *)
| Feed                           (* 28 *)
| Put                            (* 29, into the buffer *)
| Call (sel : bool)
| CtxDone (i : nat)
| Take (i : nat)                 (* 44 or 47 *)
| Cancel (i : nat)               (* 41 *)
| Start (i : nat)                (* the base is called *)
| Finish (i : nat).

Section RateLimit.
  Variable burst : nat.
  Variable delay : Z.

  Inductive step : state -> label -> state -> Prop :=
  | s_tick s : (0 < delay)%Z ->        (* time.Tick(d) is a nil channel for d <= 0 *)
      step s (Tick (pending s)) (State (buf s) (feed s) true (calls s))
  | s_feed s : feed s = AtRange -> pending s = true ->
      step s Feed (State (buf s) AtSend false (calls s))
  | s_put s : feed s = AtSend -> buf s < burst ->
      step s Put (State (S (buf s)) AtRange (pending s) (calls s))
  | s_call s sel : step s (Call sel) (State (buf s) (feed s) (pending s) (calls s ++ [Waiting sel false]))
  | s_ctx s i sel : nth_error (calls s) i = Some (Waiting sel false) ->
      step s (CtxDone i) (State (buf s) (feed s) (pending s) (upd i (Waiting sel true) (calls s)))
  | s_take s i sel cd b : nth_error (calls s) i = Some (Waiting sel cd) -> buf s = S b ->
      step s (Take i) (State b (feed s) (pending s) (upd i Holding (calls s)))
  | s_handoff s i sel cd : nth_error (calls s) i = Some (Waiting sel cd) -> burst = 0 -> feed s = AtSend ->
      step s (Take i) (State (buf s) AtRange (pending s) (upd i Holding (calls s)))
  | s_cancel s i : nth_error (calls s) i = Some (Waiting true true) ->
      step s (Cancel i) (State (buf s) (feed s) (pending s) (upd i Cancelled (calls s)))
  | s_start s i : nth_error (calls s) i = Some Holding ->
      step s (Start i) (State (buf s) (feed s) (pending s) (upd i Running (calls s)))
  | s_finish s i : nth_error (calls s) i = Some Running ->
      step s (Finish i) (State (buf s) (feed s) (pending s) (upd i Returned (calls s))).

  (** lines 15-23 *)
  Definition init : state := State burst AtRange false [].
End RateLimit.

(** make(chan, n) panics for negative n (line 17); [None] is the panic *)
Definition new_limiter (burst : Z) : option state :=
  if Z.ltb burst 0 then None else Some (init (Z.to_nat burst)).
