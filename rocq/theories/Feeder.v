(** The goroutine started by NewXWithRateLimit (templates/ratelimit:27-31),
    run one channel operation at a time while others use the same channels.

    Simplifications: a channel that is ranged over has a buffer (time.Tick's
    has); goroutines started by this one are not run; receivers other than
    this goroutine only take values. *)
From Coq Require Import Floats.SpecFloat.
From Verif Require Import Render.
From Verif Require Export Constructors.
Open Scope nat_scope.

(** for [x] := range [ch] { [body] } and the statements after it *)
Inductive frame := Frame (x : string) (ch : uval) (body : list kstmt) (env : uenv) (rest : list kstmt).
Inductive task :=
| TStmts (env : uenv) (l : list kstmt) (fr : list frame)   (* these statements, inside these loops *)
| TRange (f : frame) (fr : list frame).                    (* at the receive of a loop *)

Inductive glabel :=
| GTau
| GRecv (k : nat) (v : uval)      (* the goroutine receives *)
| GSend (k : nat) (v : uval)      (* it sends into a buffer *)
| GHand (k : nat) (v : uval)      (* it sends to a waiting receiver of a channel without buffer *)
| GTick (k : nat) (v : uval)      (* a ticker of the time package fires *)
| GTake (k : nat) (v : uval).     (* somebody else receives *)

Definition on_channel (s : kstmt) : bool := match s with JSend _ _ | JRange _ _ _ => true | _ => false end.

Section STEP.
Variable machine : spec_float -> Z.
Variable structs : list (string * list (string * uval)).
Variables L n : nat.

(** time.sendTime: a tick is dropped when the buffer is full *)
Definition ticked (k c : nat) (b : list uval) (v : uval) (st : ust) : ust :=
  if length b <? c then set_chan k (UCh c (b ++ [v])) st else st.

Inductive gstep : task * ust -> glabel -> task * ust -> Prop :=
| g_plain env s l fr st env' st' : on_channel s = false -> kexec machine structs L n env s st = ROk (FNext env') st' ->
    gstep (TStmts env (s :: l) fr, st) GTau (TStmts env' l fr, st')
| g_range env x e body l fr st ch st' : keval machine structs L n env e st = ROk ch st' ->
    gstep (TStmts env (JRange x e body :: l) fr, st) GTau (TRange (Frame x ch body env l) fr, st')
| g_recv x body env l fr st k c v b : nth_error (chans st) k = Some (UCh c (v :: b)) ->
    gstep (TRange (Frame x (UChan k) body env l) fr, st) (GRecv k v)
          (TStmts ((x, length (cells st)) :: env) body (Frame x (UChan k) body env l :: fr),
           snd (alloc v (set_chan k (UCh c b) st)))
| g_again env f fr st : gstep (TStmts env [] (f :: fr), st) GTau (TRange f fr, st)
| g_send env ch e l fr st k st1 v st2 st3 : keval machine structs L n env ch st = ROk (UChan k) st1 ->
    keval machine structs L n env e st1 = ROk v st2 -> try_send k v st2 = Some st3 ->
    gstep (TStmts env (JSend ch e :: l) fr, st) (GSend k v) (TStmts env l fr, st3)
| g_hand env ch e l fr st k st1 v st2 : keval machine structs L n env ch st = ROk (UChan k) st1 ->
    keval machine structs L n env e st1 = ROk v st2 -> nth_error (chans st2) k = Some (UCh 0 []) ->
    gstep (TStmts env (JSend ch e :: l) fr, st) (GHand k v) (TStmts env l fr, st2)
| g_tick t st k c b v : In k (tickers st) -> nth_error (chans st) k = Some (UCh c b) ->
    gstep (t, st) (GTick k v) (t, ticked k c b v st)
| g_take t st k c v b : ~ In k (tickers st) -> nth_error (chans st) k = Some (UCh c (v :: b)) ->
    gstep (t, st) (GTake k v) (t, set_chan k (UCh c b) st).
End STEP.
