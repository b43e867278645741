(** Model of the decorator generated by templates/circuitbreaker, for any
    number of concurrent calls of its methods.  Line numbers refer to
    /repo/templates/circuitbreaker.

    Simplifications: the Go [int] counter is unbounded; time.Now() gives
    integer instants that never decrease (Go's monotonic clock); the contents
    of the results other than the error are left out (they are the base's, see
    [ResultsNames = base call] in line 45 and the sequential model).  The lock
    is a readers-writer lock without sync.RWMutex's preference for waiting
    writers, so the model has at least the schedules of the real one. *)
From Verif Require Export Lts.
Open Scope nat_scope.

(** what the base call did: nil error, an error matching none of ignoreErrors,
    an error for which errors.Is finds one of them, or a panic *)
Inductive outcome := Success | Counted | Ignored | Panicked.

(** position of one call *)
Inductive pc :=
| AtRLock                     (* 36: before RLock *)
| AtCheck                     (* 38: holding the read lock *)
| AtRUnlockReject             (* 39 *)
| AtRUnlockPass               (* 43 *)
| AtBase                      (* 45: before or in the base call *)
| AtLock (o : outcome)        (* 46: base returned *)
| AtUpdate (o : outcome)      (* 49-63: holding the write lock *)
| AtIncremented               (* 65: counter incremented, lock held *)
| AtUnlock (o : outcome)      (* 47/70: leaving, lock held *)
| Rejected | Returned (o : outcome).

Record state := State {
  now : Z;                    (* the clock *)
  readers : nat; writer : bool;         (* _lock *)
  errs : nat;                 (* _consecutiveErrors *)
  closesAt : option Z;        (* _closesAt *)
  calls : list pc
}.

Inductive label :=
| Clock                                  (* time passes *)
| Call                                   (* a new call *)
| Internal (i : nat)
| Check (i : nat) (t : Z) (reject : bool) (* line 38, with the instant of time.Now() *)
| Base (i : nat)                         (* base called *)
| BaseDone (i : nat) (o : outcome)       (* base returned (or panicked) *)
| Complete (i : nat) (o : outcome) (t : Z). (* the update of lines 49-68 is done *)

Section Breaker.
  Variable max : Z.           (* _maxConsecutiveErrors *)
  Variable interval : Z.      (* _openInterval *)

  Definition set_call (i : nat) (p : pc) (s : state) : state :=
    State (now s) (readers s) (writer s) (errs s) (closesAt s) (upd i p (calls s)).
  Definition set_lock (r : nat) (w : bool) (s : state) : state :=
    State (now s) r w (errs s) (closesAt s) (calls s).
  Definition set_data (e : nat) (c : option Z) (s : state) : state :=
    State (now s) (readers s) (writer s) e c (calls s).

  (** _d._closesAt != nil && _d._closesAt.After(time.Now()) *)
  Definition is_open (c : option Z) (t : Z) : bool :=
    match c with None => false | Some x => Z.ltb t x end.

  Inductive step : state -> label -> state -> Prop :=
  | s_clock s t : (now s <= t)%Z ->
      step s Clock (State t (readers s) (writer s) (errs s) (closesAt s) (calls s))
  | s_call s :
      step s Call (State (now s) (readers s) (writer s) (errs s) (closesAt s) (calls s ++ [AtRLock]))
  | s_rlock s i : nth_error (calls s) i = Some AtRLock -> writer s = false ->
      step s (Internal i) (set_call i AtCheck (set_lock (S (readers s)) false s))
  | s_check s i : nth_error (calls s) i = Some AtCheck ->
      step s (Check i (now s) (is_open (closesAt s) (now s)))
        (set_call i (if is_open (closesAt s) (now s) then AtRUnlockReject else AtRUnlockPass) s)
  | s_reject s i : nth_error (calls s) i = Some AtRUnlockReject ->
      step s (Internal i) (set_call i Rejected (set_lock (pred (readers s)) (writer s) s))
  | s_pass s i : nth_error (calls s) i = Some AtRUnlockPass ->
      step s (Base i) (set_call i AtBase (set_lock (pred (readers s)) (writer s) s))
  | s_base s i o : nth_error (calls s) i = Some AtBase ->
      step s (BaseDone i o) (set_call i (match o with Panicked => Returned Panicked | _ => AtLock o end) s)
  | s_lock s i o : nth_error (calls s) i = Some (AtLock o) -> writer s = false -> readers s = 0 ->
      step s (Internal i) (set_call i (AtUpdate o) (set_lock 0 true s))
  | s_reset s i o : nth_error (calls s) i = Some (AtUpdate o) -> o <> Counted ->     (* 49-61 *)
      step s (Complete i o (now s)) (set_call i (AtUnlock o) (set_data 0 None s))
  | s_incr s i : nth_error (calls s) i = Some (AtUpdate Counted) ->                  (* 63 *)
      step s (Internal i) (set_call i AtIncremented (set_data (S (errs s)) (closesAt s) s))
  | s_trip s i : nth_error (calls s) i = Some AtIncremented -> (max <= Z.of_nat (errs s))%Z -> (* 65-68 *)
      step s (Complete i Counted (now s))
        (set_call i (AtUnlock Counted) (set_data (errs s) (Some (now s + interval)%Z) s))
  | s_notrip s i : nth_error (calls s) i = Some AtIncremented -> (Z.of_nat (errs s) < max)%Z ->
      step s (Complete i Counted (now s)) (set_call i (AtUnlock Counted) s)
  | s_unlock s i o : nth_error (calls s) i = Some (AtUnlock o) ->
      step s (Internal i) (set_call i (Returned o) (set_lock (readers s) false s)).

  (** a fresh decorator at time [t] *)
  Definition init (t : Z) : state := State t 0 false 0 None [].
End Breaker.
