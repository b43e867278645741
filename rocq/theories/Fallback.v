(** Model of one call of a method of the decorator generated by
    templates/fallback.  Line numbers refer to /repo/templates/fallback.

    Three of the four shapes of methods are modelled: context and error,
    context without error, neither.  The code generated for a method with an
    error but without a context does not compile (lines 95-100 end without a
    return statement), so it has no executions.

    Goroutines: the caller (lines 69-104), the launcher (37-67) and one per
    implementation (39-58).  Simplifications: the results of an implementation
    other than the error are one value; error texts are given by err.Error(),
    and "%T" of an implementation by a function of its position; an
    implementation that panics takes the process down and is left out; the
    clock is represented by the ticks of [_ticker], which may fire at any
    moment until it is stopped. *)
From Verif Require Export Lts GoStr.
Open Scope nat_scope.

(** what an implementation's call returned *)
Inductive result (V : Type) := Good (v : V) | Bad (e : string).
Arguments Good {V} _.
Arguments Bad {V} _.

(** what the decorated call returns *)
Inductive answer (V : Type) :=
| Answer (v : V)               (* 75, 84, 102 *)
| AllFailed (text : string)    (* 80 *)
| CtxErr (text : string).      (* 88, 90 *)
Arguments Answer {V} _.
Arguments AllFailed {V} _.
Arguments CtxErr {V} _.

(** the caller *)
Inductive mpc (V : Type) :=
| MStart                       (* after line 67, not yet at a receive *)
| MSelect                      (* 71, 95 *)
| MSend (e : string)           (* 77, with the text of the error received *)
| MCancel (a : answer V)       (* 34: deferred _cancelFunc *)
| MStop (a : answer V)         (* 30: deferred _ticker.Stop *)
| MDone (a : answer V).
Arguments MStart {V}.
Arguments MSelect {V}.
Arguments MSend {V} _.
Arguments MCancel {V} _.
Arguments MStop {V} _.
Arguments MDone {V} _.

(** the launcher *)
Inductive lpc :=
| LAt (i : nat)                (* 38: loop condition *)
| LTest (i : nat)              (* 60 *)
| LWait (i : nat)              (* 61 *)
| LDone.

(** an implementation's goroutine *)
Inductive ipc (V : Type) :=
| INew                         (* not launched *)
| ILaunched                    (* created in line 39, not yet running *)
| IRunning                     (* 40 *)
| IReady (r : result V)        (* 48, 53 *)
| IExited.
Arguments INew {V}.
Arguments ILaunched {V}.
Arguments IRunning {V}.
Arguments IReady {V} _.
Arguments IExited {V}.

Record state (V : Type) := State {
  main : mpc V;
  errorsList : list string;    (* _errorsList *)
  nexts : nat;                 (* len(_next); capacity n *)
  tick : bool;                 (* _ticker.C holds a tick; capacity 1 *)
  stopped : bool;              (* _ticker.Stop called *)
  parent : bool;               (* the caller's context is done *)
  cancelled : bool;            (* _cancelFunc called *)
  launcher : lpc;
  impls : list (ipc V)
}.
Arguments State {V} _ _ _ _ _ _ _ _ _.
Arguments main {V} _.
Arguments errorsList {V} _.
Arguments nexts {V} _.
Arguments tick {V} _.
Arguments stopped {V} _.
Arguments parent {V} _.
Arguments cancelled {V} _.
Arguments launcher {V} _.
Arguments impls {V} _.

Inductive label (V : Type) :=
| Tick                         (* _ticker fires *)
| CtxDone                      (* the caller's context becomes done *)
| Launch (i : nat)             (* 39: goroutine created *)
| Begin (i : nat)              (* 40: implementation i is called *)
| ImplDone (i : nat) (r : result V)  (* ... and returned r *)
| Recv (i : nat) (r : result V)      (* 72/95 with 49/54: the caller receives *)
| Drop (i : nat)               (* 50/55: goroutine i ends without delivering *)
| SendNext                     (* 77-82 *)
| TakeNext                     (* 62 *)
| TakeTick                     (* 63 *)
| Launcher                     (* other steps of the launcher *)
| Caller                       (* other steps of the caller *)
| Returns (a : answer V).      (* the call returns *)
Arguments Tick {V}.
Arguments CtxDone {V}.
Arguments Launch {V} _.
Arguments Begin {V} _.
Arguments ImplDone {V} _ _.
Arguments Recv {V} _ _.
Arguments Drop {V} _.
Arguments SendNext {V}.
Arguments TakeNext {V}.
Arguments TakeTick {V}.
Arguments Launcher {V}.
Arguments Caller {V}.
Arguments Returns {V} _.

Section Fallback.
  Context {V : Type}.
  Variable ctxm : bool.            (* $method.AcceptsContext *)
  Variable errm : bool.            (* $method.ReturnsError *)
  Variable n : nat.                (* len(_d.implementations) *)
  Variable tname : nat -> string.  (* "%T" of the i-th implementation *)
  Variable ctx_text : string.      (* ctx.Err().Error() *)

  Notation state := (state V).
  Notation label := (label V).

  Definition set_main (m : mpc V) (s : state) : state :=
    State m (errorsList s) (nexts s) (tick s) (stopped s) (parent s) (cancelled s) (launcher s) (impls s).
  Definition set_impl (i : nat) (p : ipc V) (s : state) : state :=
    State (main s) (errorsList s) (nexts s) (tick s) (stopped s) (parent s) (cancelled s) (launcher s) (upd i p (impls s)).
  Definition set_launcher (l : lpc) (s : state) : state :=
    State (main s) (errorsList s) (nexts s) (tick s) (stopped s) (parent s) (cancelled s) l (impls s).

  (** the context derived in line 33 *)
  Definition ctx_done (s : state) : bool := parent s || cancelled s.

  (** lines 41-45 *)
  Definition wrap_result (i : nat) (r : result V) : result V :=
    match r with Good v => Good v | Bad e => Bad (tname i ++ ": " ++ e)%string end.

  (** where the caller goes on receiving [r]: 73-85, 95-103 *)
  Definition received (r : result V) : mpc V :=
    match r with
    | Good v => if ctxm then MCancel (Answer v) else MStop (Answer v)
    | Bad e => MSend e
    end.

  Definition joined (l : list string) : string := join ";" l.

  Inductive step : state -> label -> state -> Prop :=
  (* the environment *)
  | s_tick s : stopped s = false ->
      step s Tick (State (main s) (errorsList s) (nexts s) true (stopped s) (parent s) (cancelled s) (launcher s) (impls s))
  | s_ctx s : ctxm = true -> parent s = false ->
      step s CtxDone (State (main s) (errorsList s) (nexts s) (tick s) (stopped s) true (cancelled s) (launcher s) (impls s))
  (* the launcher *)
  | s_launch s i : launcher s = LAt i -> nth_error (impls s) i = Some INew ->
      step s (Launch i) (set_launcher (LTest i) (set_impl i ILaunched s))
  | s_loop_end s i : launcher s = LAt i -> n <= i -> step s Launcher (set_launcher LDone s)
  | s_last s i : launcher s = LTest i -> n <= i + 1 -> step s Launcher (set_launcher (LAt (S i)) s)
  | s_wait s i : launcher s = LTest i -> i + 1 < n -> step s Launcher (set_launcher (LWait i) s)
  | s_take_next s i k : launcher s = LWait i -> nexts s = S k ->
      step s TakeNext (State (main s) (errorsList s) k (tick s) (stopped s) (parent s) (cancelled s) (LAt (S i)) (impls s))
  | s_take_tick s i : launcher s = LWait i -> tick s = true ->
      step s TakeTick (State (main s) (errorsList s) (nexts s) false (stopped s) (parent s) (cancelled s) (LAt (S i)) (impls s))
  (* the implementations *)
  | s_begin s i : nth_error (impls s) i = Some ILaunched -> step s (Begin i) (set_impl i IRunning s)
  | s_done s i r : nth_error (impls s) i = Some IRunning -> (errm = false -> exists v, r = Good v) ->
      step s (ImplDone i r) (set_impl i (IReady (wrap_result i r)) s)
  | s_drop_ctx s i r : nth_error (impls s) i = Some (IReady r) -> ctxm = true -> ctx_done s = true ->      (* 50 *)
      step s (Drop i) (set_impl i IExited s)
  | s_drop_default s i r : nth_error (impls s) i = Some (IReady r) -> ctxm = false -> main s <> MSelect -> (* 55 *)
      step s (Drop i) (set_impl i IExited s)
  (* the caller *)
  | s_reach s : main s = MStart -> step s Caller (set_main MSelect s)
  | s_recv s i r : main s = MSelect -> nth_error (impls s) i = Some (IReady r) ->
      step s (Recv i r) (set_main (received r) (set_impl i IExited s))
  | s_main_ctx s : main s = MSelect -> ctxm = true -> ctx_done s = true ->                                 (* 86-90 *)
      step s Caller (set_main (MCancel (CtxErr (ctx_text ++ ": " ++ joined (errorsList s))%string)) s)
  | s_send s e : main s = MSend e -> nexts s < n ->                                                       (* 77-82 *)
      let errs := (errorsList s ++ [e])%list in
      step s SendNext (State (if Nat.eqb (length errs) n then MCancel (AllFailed (joined errs)) else MSelect)
                             errs (S (nexts s)) (tick s) (stopped s) (parent s) (cancelled s) (launcher s) (impls s))
  | s_cancel s a : main s = MCancel a ->                                                                   (* 34 *)
      step s Caller (State (MStop a) (errorsList s) (nexts s) (tick s) (stopped s) (parent s) true (launcher s) (impls s))
  | s_stop s a : main s = MStop a ->                                                                       (* 30 *)
      step s (Returns a) (State (MDone a) (errorsList s) (nexts s) (tick s) true (parent s) (cancelled s) (launcher s) (impls s)).

  (** lines 25-37: after the launcher goroutine has been created *)
  Definition init : state := State MStart [] 0 false false false false (LAt 0) (repeat INew n).
End Fallback.

(** time.NewTicker panics for a non-positive interval (line 29); [None] is the
    panic *)
Definition call_starts {V} (interval : Z) (n : nat) : option (state V) :=
  if Z.leb interval 0 then None else Some (init n).
