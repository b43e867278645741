(** Goroutines: the part of Go templates/fallback uses inside method bodies, its
    tokens, and an interleaving small-step semantics with shared variables,
    channels, select, contexts and tickers.

    MiniGo.v runs one call as one sequence of operations; here the statements
    of all goroutines of a call are interleaved.  Simplifications:
    - a statement without communication runs in one step (templates/fallback
      has no variable that one goroutine writes while another uses it, see
      FallbackCalls.v);
    - a select without a ready case and a single send or receive first park
      the goroutine and are answered later; a goroutine that parks although a
      case is ready is allowed, which only adds executions;
    - an error is represented by its text (what its Error method returns);
    - a panic ends the execution of the process: a goroutine whose statement
      panics has no step ([Fault]), an implementation never panics. *)
From Verif Require Export GoTok Lts.
Open Scope nat_scope.

(** ** Syntax *)
Inductive cexpr :=
| XVar (x : string)
| XStr (s : string)
| XNum (s : string)
| XSel (e : cexpr) (f : string)
| XIndex (e i : cexpr)
| XBin (op : string) (a b : cexpr)
| XCall (f : cexpr) (args : list cexpr)
| XUnit                                          (* struct{}{} *)
| XResults (t : string).                         (* t{ ResultsNames } *)

(** a communication *)
Inductive ccomm :=
| KRecv (x : option string) (ch : cexpr)         (* <-ch, x := <-ch *)
| KSend (ch e : cexpr).                          (* ch <- e *)

Inductive cstmt :=
| CType (x : string)                             (* type x ResultsStruct *)
| CMake (x : string) (t : list gtok) (cap : cexpr)   (* var x = make(chan t, cap) *)
| CVar (x : string) (t : list gtok)              (* var x t *)
| CTicker (x : string) (e : cexpr)               (* var x = time.NewTicker(e) *)
| CWithCancel (x c : string)                     (* x, c := context.WithCancel(x), x a parameter *)
| CDefer (e : cexpr)                             (* defer e() *)
| CGo (ps : list (string * string)) (body : list cstmt) (args : list cexpr)  (* go func(ps) { body }(args) *)
| CFor (x : string) (c : cexpr) (body : list cstmt)  (* for x := 0; c; x++ { body } *)
| CEver (body : list cstmt)                      (* for { body } *)
| CIf (c : cexpr) (body : list cstmt)
| CSelect (cases : list (ccomm * list cstmt)) (dflt : bool)   (* with an empty default case if [dflt] *)
| CComm (k : ccomm)
| CSet (x : string) (e : cexpr)
| CReturn
| CReturnStruct (x : string)                     (* Method.ReturnStruct x *)
| CMCall (recv : cexpr).                         (* ResultsNames := recv.Call *)

(** ** Tokens *)
Definition cpunct : string -> list gtok :=
  fix go s := match s with EmptyString => [] | String c s' => TP c :: go s' end.
Definition cword (s : string) : list gtok := [TW [PS s]].
Fixpoint csep (l : list (list gtok)) : list gtok :=
  match l with [] => [] | [x] => x | x :: l' => x ++ TP "," :: csep l' end.
Fixpoint csemis (l : list (list gtok)) : list gtok :=
  match l with [] => [] | [x] => x | x :: l' => x ++ TSemi :: csemis l' end.
(** a value inserted by the template; an empty string inserts nothing but still
    delimits a word, see lex_value in GoTok.v *)
Definition inserted (s : string) : list gtok := [TW [PH s]].

Section TOKENS.
Variable m : method.

Fixpoint xtoks (e : cexpr) : list gtok :=
  match e with
  | XVar x => cword x
  | XStr s => [TS [PS s]]
  | XNum s => cword s
  | XSel e f => xtoks e ++ TP "." :: cword f
  | XIndex e i => xtoks e ++ TP "[" :: xtoks i ++ [TP "]"]
  | XBin op a b => xtoks a ++ cpunct op ++ xtoks b
  | XCall f args => xtoks f ++ TP "(" :: csep (map xtoks args) ++ [TP ")"]
  | XUnit => cword "struct" ++ cpunct "{}{}"
  | XResults t => cword t ++ TP "{" :: inserted (ResultsNames m) ++ [TP "}"]
  end.

Definition ktoks (k : ccomm) : list gtok :=
  match k with
  | KRecv None ch => cpunct "<-" ++ xtoks ch
  | KRecv (Some x) ch => cword x ++ cpunct ":=<-" ++ xtoks ch
  | KSend ch e => xtoks ch ++ cpunct "<-" ++ xtoks e
  end.

Fixpoint ctoks (s : cstmt) : list gtok :=
  let braces l := TP "{" :: csemis (map ctoks l) ++ [TP "}"] in
  match s with
  | CType x => cword "type" ++ cword x ++ inserted (ResultsStruct m)
  | CMake x t cap => cword "var" ++ cword x ++ TP "=" :: cword "make" ++ TP "(" :: cword "chan" ++ t ++ TP "," :: xtoks cap ++ [TP ")"]
  | CVar x t => cword "var" ++ cword x ++ t
  | CTicker x e => cword "var" ++ cword x ++ TP "=" :: xtoks (XCall (XSel (XVar "time") "NewTicker") [e])
  | CWithCancel x c => csep [cword x; cword c] ++ cpunct ":=" ++ xtoks (XCall (XSel (XVar "context") "WithCancel") [XVar x])
  | CDefer e => cword "defer" ++ xtoks e ++ cpunct "()"
  | CGo ps body args =>
      cword "go" ++ cword "func" ++ TP "(" :: csep (map (fun p => cword (fst p) ++ inserted (snd p)) ps) ++ [TP ")"]
      ++ braces body ++ TP "(" :: csep (map xtoks args) ++ [TP ")"]
  | CFor x c body =>
      cword "for" ++ cword x ++ cpunct ":=" ++ cword "0" ++ TSemi :: xtoks c ++ TSemi :: cword x ++ cpunct "++" ++ braces body
  | CEver body => cword "for" ++ braces body
  | CIf c body => cword "if" ++ xtoks c ++ braces body
  | CSelect cases dflt =>
      cword "select" ++ TP "{" ::
      (fix go (l : list (ccomm * list cstmt)) : list gtok :=
         match l with
         | [] => if dflt then cword "default" ++ [TP ":"] else []
         | (k, body) :: l' =>
             cword "case" ++ ktoks k ++ TP ":" :: csemis (map ctoks body)
             ++ (match body, l' with _ :: _, _ :: _ => [TSemi] | _, _ => [] end) ++ go l'
         end) cases ++ [TP "}"]
  | CComm k => ktoks k
  | CSet x e => cword x ++ TP "=" :: xtoks e
  | CReturn => cword "return"
  | CReturnStruct x => inserted (ReturnStruct m x)
  | CMCall recv => (if HasResults m then inserted (ResultsNames m) ++ cpunct ":=" else []) ++ xtoks recv ++ TP "." :: inserted (Call m)
  end.

Definition cbody (l : list cstmt) : list gtok := csemis (map ctoks l).
End TOKENS.

(** ** Values, variables and the state of a call *)

(** a variable: the goroutine that created it and its number there *)
Definition cloc := (nat * nat)%type.
Definition cenv := list (string * cloc).

Inductive cval :=
| NilV
| IntV (z : Z)
| BoolV (b : bool)
| StrV (s : string)
| ErrV (text : string)                  (* a non-nil error *)
| ImplV (i : nat)                       (* the implementation at position i *)
| ChanV (c : nat)
| DoneV (k : nat)                       (* the channel of context k *)
| CtxV (k : nat)
| CancelV (k : nat)                     (* the cancel function of context k *)
| TickerV (c : nat)                     (* a ticker, by its channel *)
| SliceV (l : list cval)
| RecV (l : list (string * cval))
| UnitV
| OtherV (n : nat)                      (* any value of the user *)
| PkgV (p : string).                    (* a package-level or predeclared name *)

(** code still to run, innermost block first *)
Inductive frame :=
| FSeq (e : cenv) (l : list cstmt)
| FCond (e : cenv) (x : string) (c : cexpr) (body : list cstmt)   (* at the condition of a for *)
| FPost (e : cenv) (x : string) (c : cexpr) (body : list cstmt)   (* at its post statement *)
| FEver (e : cenv) (body : list cstmt).
Definition code := list frame.

(** a deferred call *)
Inductive deferred := DStop (c : nat) | DCancel (k : nat).

(** a communication with its operands evaluated *)
Inductive offer := ORecv (ch : cval) | OSnd (ch v : cval).
(** ... what it binds and runs next *)
Definition branch := (offer * (option string * list cstmt))%type.

Inductive gostate :=
| Run (k : code) (ds : list deferred)
| InCall (i : nat) (e : cenv) (rest : list cstmt) (k : code) (ds : list deferred)   (* implementation i is running *)
| Parked (bs : list branch) (e : cenv) (k : code) (ds : list deferred)
| Ended.

Record chan := Chan { ch_cap : nat; ch_buf : list cval }.
(** a context: the one it derives from, whether it is done *)
Record context := Ctx { cx_parent : option nat; cx_done : bool }.

Record gstate := GState {
  g_mem : list (list cval);               (* the variables, by goroutine *)
  g_chans : list chan;
  g_ctxs : list context;
  g_tickers : list (nat * bool);          (* channel, stopped *)
  g_gos : list gostate
}.

Definition set_mem (mem : list (list cval)) (s : gstate) : gstate := GState mem (g_chans s) (g_ctxs s) (g_tickers s) (g_gos s).
Definition set_chans (x : list chan) (s : gstate) : gstate := GState (g_mem s) x (g_ctxs s) (g_tickers s) (g_gos s).
Definition set_ctxs (x : list context) (s : gstate) : gstate := GState (g_mem s) (g_chans s) x (g_tickers s) (g_gos s).
Definition set_tickers (x : list (nat * bool)) (s : gstate) : gstate := GState (g_mem s) (g_chans s) (g_ctxs s) x (g_gos s).
Definition set_go (t : nat) (x : gostate) (s : gstate) : gstate := GState (g_mem s) (g_chans s) (g_ctxs s) (g_tickers s) (upd t x (g_gos s)).

Fixpoint where_is (x : string) (e : cenv) : option cloc :=
  match e with [] => None | (y, l) :: e' => if String.eqb x y then Some l else where_is x e' end.
Fixpoint fld (x : string) (l : list (string * cval)) : option cval :=
  match l with [] => None | (y, v) :: l' => if String.eqb x y then Some v else fld x l' end.

Definition peek (mem : list (list cval)) (l : cloc) : option cval :=
  match nth_error mem (fst l) with Some seg => nth_error seg (snd l) | None => None end.
Definition poke (l : cloc) (v : cval) (mem : list (list cval)) : list (list cval) :=
  match nth_error mem (fst l) with Some seg => upd (fst l) (upd (snd l) v seg) mem | None => mem end.
(** goroutine [t] creates variables *)
Definition grow (t : nat) (vs : list cval) (mem : list (list cval)) : list (list cval) :=
  match nth_error mem t with Some seg => upd t (seg ++ vs) mem | None => mem end.
Definition fresh_locs (t k : nat) (mem : list (list cval)) : list cloc :=
  match nth_error mem t with Some seg => map (pair t) (seq (length seg) k) | None => [] end.

(** cancelling context [k] also ends those derived from it; a context comes
    after the one it derives from *)
Fixpoint cancel_from (k i : nat) (dead : list nat) (l : list context) : list context :=
  match l with
  | [] => []
  | c :: l' =>
      let d := cx_done c || Nat.eqb i k || match cx_parent c with Some p => existsb (Nat.eqb p) dead | None => false end in
      Ctx (cx_parent c) d :: cancel_from k (S i) (if d then i :: dead else dead) l'
  end.
Definition cancel (k : nat) (l : list context) : list context := cancel_from k 0 [] l.

Definition is_done (ctxs : list context) (k : nat) : bool :=
  match nth_error ctxs k with Some c => cx_done c | None => false end.

Section MACHINE.
Variable m : method.
Variable tname : nat -> string.      (* "%T" of the i-th implementation *)
Variable ctx_text : string.          (* what ctx.Err().Error() returns once ctx is done *)

Definition cparams : list string := map p_name (m_params m).
Definition cresults : list string := map p_name (m_results m).

(** *** Formatting: the verbs %T, %v, %w and %s *)
Definition show (verb : ascii) (v : cval) : option string :=
  match v with
  | StrV s => if byte_eqb verb "T" then Some "string" else Some s
  | ErrV t => if byte_eqb verb "T" then None else Some t
  | NilV => if byte_eqb verb "w" then Some "%!w(<nil>)" else if byte_eqb verb "s" then Some "%!s(<nil>)" else Some "<nil>"
  | ImplV i => if byte_eqb verb "T" then Some (tname i) else None
  | _ => None
  end.
Fixpoint format (f : string) (args : list cval) : option string :=
  match f with
  | EmptyString => match args with [] => Some EmptyString | _ => None end
  | String "%" (String verb f') =>
      match args with
      | v :: args' => match show verb v, format f' args' with Some a, Some b => Some (a ++ b)%string | _, _ => None end
      | [] => None
      end
  | String c f' => match format f' args with Some s => Some (String c s) | None => None end
  end.

Fixpoint texts (l : list cval) : option (list string) :=
  match l with
  | [] => Some []
  | StrV s :: l' => match texts l' with Some r => Some (s :: r) | None => None end
  | _ => None
  end.

(** functions of the language and of other packages without effect *)
Definition apply (f : string) (args : list cval) : option cval :=
  if String.eqb f "len" then match args with [SliceV l] => Some (IntV (Z.of_nat (length l))) | [NilV] => Some (IntV 0) | _ => None end
  else if String.eqb f "append" then match args with [SliceV l; v] => Some (SliceV (l ++ [v])) | [NilV; v] => Some (SliceV [v]) | _ => None end
  else if String.eqb f "strings.Join" then
    match args with
    | [SliceV l; StrV sep] => match texts l with Some ss => Some (StrV (join sep ss)) | None => None end
    | [NilV; StrV _] => Some (StrV EmptyString)
    | _ => None
    end
  else if String.eqb f "errors.New" then match args with [StrV s] => Some (ErrV s) | _ => None end
  else if String.eqb f "fmt.Errorf" then
    match args with StrV s :: args' => match format s args' with Some t => Some (ErrV t) | None => None end | _ => None end
  else None.

Definition cmethod (ctxs : list context) (v : cval) (f : string) (args : list cval) : option cval :=
  match v, args with
  | ErrV t, [] => if String.eqb f "Error" then Some (StrV t) else None
  | CtxV k, [] => if String.eqb f "Done" then Some (DoneV k)
                  else if String.eqb f "Err" then Some (if is_done ctxs k then ErrV ctx_text else NilV) else None
  | _, _ => None
  end.

Definition select (v : cval) (f : string) : option cval :=
  match v with
  | RecV l => fld f l
  | TickerV c => if String.eqb f "C" then Some (ChanV c) else None
  | PkgV p => Some (PkgV (p ++ "." ++ f)%string)
  | _ => None
  end.

Definition binary (op : string) (a b : cval) : option cval :=
  match a, b with
  | IntV x, IntV y =>
      if String.eqb op "<" then Some (BoolV (Z.ltb x y))
      else if String.eqb op "==" then Some (BoolV (Z.eqb x y))
      else if String.eqb op "-" then Some (IntV (x - y)) else None
  | v, NilV =>
      let nil := match v with NilV => true | _ => false end in
      if String.eqb op "==" then Some (BoolV nil) else if String.eqb op "!=" then Some (BoolV (negb nil)) else None
  | _, _ => None
  end.

Definition reads (mem : list (list cval)) (e : cenv) : list string -> option (list cval) :=
  fix go xs := match xs with
               | [] => Some []
               | x :: xs' => match where_is x e with
                             | Some l => match peek mem l, go xs' with Some v, Some vs => Some (v :: vs) | _, _ => None end
                             | None => None
                             end
               end.

(** expressions; None: a run-time panic or an ill-typed expression *)
Fixpoint ceval (mem : list (list cval)) (ctxs : list context) (e : cenv) (x : cexpr) : option cval :=
  match x with
  | XVar x => match where_is x e with
              | Some l => peek mem l
              | None => Some (if String.eqb x "nil" then NilV else PkgV x)
              end
  | XStr s => Some (StrV s)
  | XNum s => if String.eqb s "0" then Some (IntV 0) else if String.eqb s "1" then Some (IntV 1) else None
  | XSel r f => match ceval mem ctxs e r with Some v => select v f | None => None end
  | XIndex a i =>
      match ceval mem ctxs e a, ceval mem ctxs e i with
      | Some (SliceV l), Some (IntV z) => if Z.ltb z 0 then None else nth_error l (Z.to_nat z)
      | _, _ => None
      end
  | XBin op a b => match ceval mem ctxs e a, ceval mem ctxs e b with Some u, Some v => binary op u v | _, _ => None end
  | XCall f args =>
      let fix go l := match l with
                      | [] => Some []
                      | a :: l' => match ceval mem ctxs e a, go l' with Some v, Some vs => Some (v :: vs) | _, _ => None end
                      end in
      match go args with
      | None => None
      | Some vs =>
          match f with
          | XSel r g => match ceval mem ctxs e r with
                        | Some (PkgV p) => apply (p ++ "." ++ g)%string vs
                        | Some v => cmethod ctxs v g vs
                        | None => None
                        end
          | _ => match ceval mem ctxs e f with Some (PkgV p) => apply p vs | _ => None end
          end
      end
  | XUnit => Some UnitV
  | XResults _ => match reads mem e cresults with Some vs => Some (RecV (combine cresults vs)) | None => None end
  end.

Definition cevals (mem : list (list cval)) (ctxs : list context) (e : cenv) : list cexpr -> option (list cval) :=
  fix go l := match l with
              | [] => Some []
              | a :: l' => match ceval mem ctxs e a, go l' with Some v, Some vs => Some (v :: vs) | _, _ => None end
              end.

(** the operands of a communication: a channel that is not nil *)
Definition is_chan (v : cval) : bool := match v with ChanV _ | DoneV _ => true | _ => false end.
Definition ready_offer (mem : list (list cval)) (ctxs : list context) (e : cenv) (k : ccomm) : option (offer * option string) :=
  match k with
  | KRecv x ch => match ceval mem ctxs e ch with Some v => if is_chan v then Some (ORecv v, x) else None | None => None end
  | KSend ch a => match ceval mem ctxs e ch, ceval mem ctxs e a with
                  | Some v, Some w => if is_chan v then Some (OSnd v w, None) else None
                  | _, _ => None
                  end
  end.
Definition branches (mem : list (list cval)) (ctxs : list context) (e : cenv) : list (ccomm * list cstmt) -> option (list branch) :=
  fix go l := match l with
              | [] => Some []
              | (k, body) :: l' =>
                  match ready_offer mem ctxs e k, go l' with
                  | Some (o, x), Some bs => Some ((o, (x, body)) :: bs)
                  | _, _ => None
                  end
              end.

(** *** What a goroutine does next *)
Inductive move :=
| Local (s : gstate)                     (* a step of its own *)
| Spawn (g : gostate) (args : list cval) (body : gostate) (* ... that creates a goroutine with these variables *)
| Calls (i : nat) (args : list cval) (g : gostate)  (* calls implementation i *)
| Polls (bs : list branch) (e : cenv) (k : code) (ds : list deferred)   (* a select with a default case *)
| Runs (d : deferred) (g : gostate)      (* a deferred call *)
| Ends                                   (* the function returns to its caller *)
| Waits                                  (* in a call or parked, or ended *)
| Fault.                                 (* run-time panic or no meaning *)

Definition new_env (xs : list string) (ls : list cloc) (e : cenv) : cenv := combine xs ls ++ e.

(** run [l] in a block of its own, then [k] *)
Definition to (t : nat) (k : code) (ds : list deferred) (s : gstate) : gstate := set_go t (Run k ds) s.

(** declare [x := v] and go on *)
Definition declare (t : nat) (x : string) (v : cval) (e : cenv) (l : list cstmt) (k : code) (ds : list deferred) (s : gstate) : gstate :=
  to t (FSeq (new_env [x] (fresh_locs t 1 (g_mem s)) e) l :: k) ds (set_mem (grow t [v] (g_mem s)) s).

Definition unbound (x : string) (e : cenv) : bool := match where_is x e with None => true | Some _ => false end.

Definition exec_stmt (t : nat) (s : gstate) (e : cenv) (st : cstmt) (l : list cstmt) (k : code) (ds : list deferred) (res : list nat) : move :=
  let ev := ceval (g_mem s) (g_ctxs s) e in
  let rest := FSeq e l :: k in
  match st with
  | CType _ => Local (to t rest ds s)
  | CMake x _ cap =>
      match ev cap with
      | Some (IntV z) =>
          if (Z.leb 0 z && unbound "make" e)%bool
          then Local (declare t x (ChanV (length (g_chans s))) e l k ds (set_chans (g_chans s ++ [Chan (Z.to_nat z) []]) s))
          else Fault
      | _ => Fault
      end
  | CVar x _ => Local (declare t x NilV e l k ds s)
  | CTicker x d =>
      match ev d with
      | Some (IntV z) =>
          if (Z.ltb 0 z && unbound "time" e)%bool     (* NewTicker panics otherwise *)
          then let c := length (g_chans s) in
               Local (declare t x (TickerV c) e l k ds (set_chans (g_chans s ++ [Chan 1 []]) (set_tickers (g_tickers s ++ [(c, false)]) s)))
          else Fault
      | _ => Fault
      end
  | CWithCancel x c =>
      match where_is x e, ev (XVar x) with
      | Some lx, Some (CtxV p) =>
          if unbound "context" e
          then let i := length (g_ctxs s) in
               Local (declare t c (CancelV i) e l k ds
                        (set_mem (poke lx (CtxV i) (g_mem s)) (set_ctxs (g_ctxs s ++ [Ctx (Some p) (is_done (g_ctxs s) p)]) s)))
          else Fault
      | _, _ => Fault
      end
  | CDefer f =>
      match (match f with
             | XSel r g => match ev r with
                           | Some (TickerV c) => if String.eqb g "Stop" then Some (DStop c) else None
                           | _ => None
                           end
             | _ => match ev f with Some (CancelV i) => Some (DCancel i) | _ => None end
             end) with
      | Some d => Local (to t rest (d :: ds) s)
      | None => Fault
      end
  | CGo ps body args =>
      match cevals (g_mem s) (g_ctxs s) e args with
      | Some vs => if Nat.eqb (length vs) (length ps)
                   then Spawn (Run rest ds) vs
                          (Run [FSeq (new_env (map fst ps) (map (pair (length (g_gos s))) (seq 0 (length vs))) e) body] [])
                   else Fault
      | None => Fault
      end
  | CFor x c body =>
      Local (to t (FCond (new_env [x] (fresh_locs t 1 (g_mem s)) e) x c body :: rest) ds (set_mem (grow t [IntV 0] (g_mem s)) s))
  | CEver body => Local (to t (FEver e body :: rest) ds s)
  | CIf c body =>
      match ev c with
      | Some (BoolV true) => Local (to t (FSeq e body :: rest) ds s)
      | Some (BoolV false) => Local (to t rest ds s)
      | _ => Fault
      end
  | CSelect cases dflt =>
      match branches (g_mem s) (g_ctxs s) e cases with
      | Some bs => if dflt then Polls bs e rest ds else Local (set_go t (Parked bs e rest ds) s)
      | None => Fault
      end
  | CComm c =>
      match ready_offer (g_mem s) (g_ctxs s) e c with
      | Some (o, x) => Local (set_go t (Parked [(o, (x, l))] e k ds) s)
      | None => Fault
      end
  | CSet x a =>
      match where_is x e, ev a with
      | Some lx, Some v => Local (to t rest ds (set_mem (poke lx v (g_mem s)) s))
      | _, _ => Fault
      end
  | CReturn => Local (to t [] ds s)
  | CReturnStruct x =>
      (* assigns the fields to the results, which live at [res] of goroutine 0 *)
      match m_results m with
      | [] => Local (to t [] ds s)
      | _ =>
          match ev (XVar x) with
          | Some (RecV fs) =>
              if Nat.eqb t 0
              then Local (to t [] ds (set_mem (fold_left (fun mem p => match fld (fst p) fs with Some v => poke (0, snd p) v mem | None => mem end)
                                                         (combine cresults res) (g_mem s)) s))
              else Fault
          | _ => Fault
          end
      end
  | CMCall r =>
      match ev r, reads (g_mem s) e cparams with
      | Some (ImplV i), Some vs => Calls i vs (InCall i e l k ds)
      | _, _ => Fault
      end
  end.

(** the goroutine's next step; [res] is where goroutine 0 keeps the results *)
Definition advance (res : list nat) (t : nat) (s : gstate) : move :=
  match nth_error (g_gos s) t with
  | Some (Run (FSeq e (st :: l) :: k) ds) => exec_stmt t s e st l k ds res
  | Some (Run (FSeq e [] :: k) ds) => Local (to t k ds s)
  | Some (Run (FCond e x c body :: k) ds) =>
      match ceval (g_mem s) (g_ctxs s) e c with
      | Some (BoolV true) => Local (to t (FSeq e body :: FPost e x c body :: k) ds s)
      | Some (BoolV false) => Local (to t k ds s)
      | _ => Fault
      end
  | Some (Run (FPost e x c body :: k) ds) =>
      match where_is x e with
      | Some lx => match peek (g_mem s) lx with
                   | Some (IntV z) => Local (to t (FCond e x c body :: k) ds (set_mem (poke lx (IntV (z + 1)) (g_mem s)) s))
                   | _ => Fault
                   end
      | None => Fault
      end
  | Some (Run (FEver e body :: k) ds) => Local (to t (FSeq e body :: FEver e body :: k) ds s)
  | Some (Run [] (d :: ds)) => Runs d (Run [] ds)
  | Some (Run [] []) => Ends
  | Some (InCall _ _ _ _ _) | Some (Parked _ _ _ _) | Some Ended | None => Waits
  end.

(** *** Steps of the whole call *)
Inductive event :=
| Tau (t : nat)                          (* goroutine t alone *)
| Spawned (t u : nat)                    (* t creates goroutine u *)
| Called (t i : nat) (args : list cval)  (* t calls implementation i *)
| Answered (t i : nat) (vs : list cval)  (* ... which returns vs *)
| Passed (t u : nat) (v : cval)          (* t sends v to u over an unbuffered channel *)
| Put (t c : nat)                        (* t sends to a buffer *)
| Got (t c : nat)                        (* t receives from a buffer *)
| SawDone (t k : nat)                    (* t receives from the channel of context k *)
| Default (t : nat)                      (* no case was ready *)
| Deferred (t : nat) (d : deferred)
| Finished (t : nat)
| Ticked (c : nat)                       (* a ticker fires *)
| CallerDone.                            (* the caller's context becomes done *)

(** a case was chosen: bind the value received, run its body *)
Definition take (t : nat) (b : option string * list cstmt) (v : cval) (e : cenv) (k : code) (ds : list deferred) (s : gstate) : gstate :=
  match fst b with
  | Some x => declare t x v e (snd b) k ds s
  | None => to t (FSeq e (snd b) :: k) ds s
  end.

(** goroutine [u] waits to receive from [ch] *)
Definition receiving (s : gstate) (u : nat) (ch : cval) : Prop :=
  exists bs b e k ds, nth_error (g_gos s) u = Some (Parked bs e k ds) /\ In (ORecv ch, b) bs.
Definition sending (s : gstate) (u : nat) (ch : cval) : Prop :=
  exists bs v b e k ds, nth_error (g_gos s) u = Some (Parked bs e k ds) /\ In (OSnd ch v, b) bs.

(** a communication that need not wait, apart from other goroutines *)
Definition buffered (s : gstate) (o : offer) : Prop :=
  match o with
  | ORecv (ChanV c) => exists ch, nth_error (g_chans s) c = Some ch /\ ch_buf ch <> []
  | ORecv (DoneV k) => is_done (g_ctxs s) k = true
  | OSnd (ChanV c) _ => exists ch, nth_error (g_chans s) c = Some ch /\ length (ch_buf ch) < ch_cap ch
  | _ => False
  end.
Definition partner (s : gstate) (t : nat) (o : offer) : Prop :=
  match o with
  | ORecv ch => exists u, u <> t /\ sending s u ch
  | OSnd ch _ => exists u, u <> t /\ receiving s u ch
  end.

(** the cases goroutine [t] can be answered at: parked or polling *)
Inductive at_comm (res : list nat) (s : gstate) (t : nat) : list branch -> cenv -> code -> list deferred -> Prop :=
| at_parked bs e k ds : nth_error (g_gos s) t = Some (Parked bs e k ds) -> at_comm res s t bs e k ds
| at_poll bs e k ds : advance res t s = Polls bs e k ds -> at_comm res s t bs e k ds.

(** the results of an implementation: one value per result; an error is nil or
    an error, what comes before it is not looked at *)
Definition is_error (v : cval) : Prop := v = NilV \/ exists t, v = ErrV t.
Definition answer_typed (vs : list cval) : Prop :=
  length vs = length (m_results m) /\ (m_returnsError m = true -> is_error (last vs NilV)).

Inductive gstep (res : list nat) (s : gstate) : event -> gstate -> Prop :=
| g_local t s' : advance res t s = Local s' -> gstep res s (Tau t) s'
| g_spawn t g args body : advance res t s = Spawn g args body ->
    gstep res s (Spawned t (length (g_gos s)))
      (GState (g_mem s ++ [args]) (g_chans s) (g_ctxs s) (g_tickers s) (upd t g (g_gos s) ++ [body]))
| g_call t i args g : advance res t s = Calls i args g -> gstep res s (Called t i args) (set_go t g s)
| g_answer t i e l k ds vs : nth_error (g_gos s) t = Some (InCall i e l k ds) -> answer_typed vs ->
    gstep res s (Answered t i vs)
      (to t (FSeq (new_env cresults (fresh_locs t (length vs) (g_mem s)) e) l :: k) ds (set_mem (grow t vs (g_mem s)) s))
| g_pass t u c v bs e k ds b bs' e' k' ds' b' ch : t <> u ->
    at_comm res s t bs e k ds -> In (OSnd (ChanV c) v, b) bs ->
    nth_error (g_gos s) u = Some (Parked bs' e' k' ds') -> In (ORecv (ChanV c), b') bs' ->
    nth_error (g_chans s) c = Some ch -> ch_cap ch = 0 ->
    gstep res s (Passed t u v) (take u b' v e' k' ds' (take t b v e k ds s))
| g_poll_recv t u c v bs e k ds b bs' e' k' ds' b' ch : t <> u ->
    advance res u s = Polls bs' e' k' ds' -> In (ORecv (ChanV c), b') bs' ->
    nth_error (g_gos s) t = Some (Parked bs e k ds) -> In (OSnd (ChanV c) v, b) bs ->
    nth_error (g_chans s) c = Some ch -> ch_cap ch = 0 ->
    gstep res s (Passed t u v) (take u b' v e' k' ds' (take t b v e k ds s))
| g_put t c v bs e k ds b ch : at_comm res s t bs e k ds -> In (OSnd (ChanV c) v, b) bs ->
    nth_error (g_chans s) c = Some ch -> length (ch_buf ch) < ch_cap ch ->
    gstep res s (Put t c) (take t b v e k ds (set_chans (upd c (Chan (ch_cap ch) (ch_buf ch ++ [v])) (g_chans s)) s))
| g_get t c v rest bs e k ds b ch : at_comm res s t bs e k ds -> In (ORecv (ChanV c), b) bs ->
    nth_error (g_chans s) c = Some ch -> ch_buf ch = v :: rest ->
    gstep res s (Got t c) (take t b v e k ds (set_chans (upd c (Chan (ch_cap ch) rest) (g_chans s)) s))
| g_done t i bs e k ds b : at_comm res s t bs e k ds -> In (ORecv (DoneV i), b) bs -> is_done (g_ctxs s) i = true ->
    gstep res s (SawDone t i) (take t b UnitV e k ds s)
| g_default t bs e k ds : advance res t s = Polls bs e k ds ->
    (forall o b, In (o, b) bs -> ~ buffered s o /\ ~ partner s t o) ->
    gstep res s (Default t) (to t k ds s)
| g_stop t c g : advance res t s = Runs (DStop c) g ->
    gstep res s (Deferred t (DStop c))
      (set_go t g (set_tickers (map (fun x => if Nat.eqb (fst x) c then (fst x, true) else x) (g_tickers s)) s))
| g_cancel t i g : advance res t s = Runs (DCancel i) g ->
    gstep res s (Deferred t (DCancel i)) (set_go t g (set_ctxs (cancel i (g_ctxs s)) s))
| g_end t : advance res t s = Ends -> gstep res s (Finished t) (set_go t Ended s)
| g_tick c ch : In (c, false) (g_tickers s) -> nth_error (g_chans s) c = Some ch ->
    gstep res s (Ticked c)       (* a full buffer drops the tick *)
      (set_chans (upd c (Chan (ch_cap ch) (if length (ch_buf ch) <? ch_cap ch then ch_buf ch ++ [UnitV] else ch_buf ch)) (g_chans s)) s)
| g_caller : is_done (g_ctxs s) 0 = false -> 0 < length (g_ctxs s) ->
    gstep res s CallerDone (set_ctxs (cancel 0 (g_ctxs s)) s).

(** ** A call of a generated method

    Variables of goroutine 0: receiver, results, parameters. *)
Definition call_env : cenv := ("_d", (0, 0)) :: combine (cresults ++ cparams) (map (pair 0) (seq 1 (length (cresults ++ cparams)))).
Definition result_locs : list nat := seq 1 (length cresults).
(** [ctxs]: one context, the caller's, if the method takes one *)
Definition call_start (ctxs : list context) (body : list cstmt) (recv : cval) (zeros args : list cval) : gstate :=
  GState [recv :: zeros ++ args] [] ctxs [] [Run [FSeq call_env body] []].

Definition executes (body : list cstmt) (ctxs : list context) (recv : cval) (zeros args : list cval) : list event -> gstate -> Prop :=
  run (gstep result_locs) (call_start ctxs body recv zeros args).

(** what the call returned, once goroutine 0 has ended *)
Definition returned (s : gstate) (vs : list cval) : Prop :=
  nth_error (g_gos s) 0 = Some Ended /\
  exists seg, nth_error (g_mem s) 0 = Some seg /\ vs = firstn (length (m_results m)) (skipn 1 seg).
End MACHINE.

(** ** A scheduler given its choices, to compute executions *)
Inductive choice :=
| Move (t : nat)                         (* goroutine t goes on by itself *)
| Reply (t : nat) (vs : list cval)       (* the implementation t calls returns *)
| Pass (t u : nat)                       (* t, waiting to send, hands over to u *)
| Put_ (t : nat) | Get_ (t : nat) (c : nat) | Done_ (t : nat)
| Skip (t : nat)                         (* the default case of a select with a single send *)
| Fire (c : nat) | Cancelled.

Section PLAY.
Variable m : method.
Variable tname : nat -> string.
Variable ctx_text : string.
Variable res : list nat.

Fixpoint find_send (bs : list branch) : option (nat * cval * (option string * list cstmt)) :=
  match bs with [] => None | (OSnd (ChanV c) v, b) :: _ => Some (c, v, b) | _ :: r => find_send r end.
Fixpoint find_recv (c : nat) (bs : list branch) : option (option string * list cstmt) :=
  match bs with [] => None | (ORecv (ChanV d), b) :: r => if Nat.eqb c d then Some b else find_recv c r | _ :: r => find_recv c r end.
Fixpoint find_done (bs : list branch) : option (nat * (option string * list cstmt)) :=
  match bs with [] => None | (ORecv (DoneV k), b) :: _ => Some (k, b) | _ :: r => find_done r end.
Definition waiting (s : gstate) (t : nat) : option (list branch * cenv * code * list deferred) :=
  match nth_error (g_gos s) t with
  | Some (Parked bs e k ds) => Some (bs, e, k, ds)
  | _ => match advance m tname ctx_text res t s with Polls bs e k ds => Some (bs, e, k, ds) | _ => None end
  end.
(** nobody waits to receive from channel [c] *)
Definition nobody (s : gstate) (c : nat) : bool :=
  forallb (fun g => match g with Parked bs _ _ _ => match find_recv c bs with Some _ => false | None => true end | _ => true end) (g_gos s).
Definition typed_b (vs : list cval) : bool :=
  Nat.eqb (length vs) (length (m_results m)) &&
  (negb (m_returnsError m) || match last vs NilV with NilV | ErrV _ => true | _ => false end).

Definition play (s : gstate) (c : choice) : option (event * gstate) :=
  match c with
  | Move t =>
      match advance m tname ctx_text res t s with
      | Local s' => Some (Tau t, s')
      | Spawn g vs body => Some (Spawned t (length (g_gos s)), GState (g_mem s ++ [vs]) (g_chans s) (g_ctxs s) (g_tickers s) (upd t g (g_gos s) ++ [body]))
      | Calls i vs g => Some (Called t i vs, set_go t g s)
      | Runs (DStop x) g => Some (Deferred t (DStop x), set_go t g (set_tickers (map (fun y => if Nat.eqb (fst y) x then (fst y, true) else y) (g_tickers s)) s))
      | Runs (DCancel i) g => Some (Deferred t (DCancel i), set_go t g (set_ctxs (cancel i (g_ctxs s)) s))
      | Ends => Some (Finished t, set_go t Ended s)
      | _ => None
      end
  | Reply t vs =>
      match nth_error (g_gos s) t with
      | Some (InCall i e l k ds) =>
          if typed_b vs
          then Some (Answered t i vs, to t (FSeq (new_env (cresults m) (fresh_locs t (length vs) (g_mem s)) e) l :: k) ds (set_mem (grow t vs (g_mem s)) s))
          else None
      | _ => None
      end
  | Pass t u =>
      match waiting s t, nth_error (g_gos s) u with
      | Some (bs, e, k, ds), Some (Parked bs' e' k' ds') =>
          match find_send bs with
          | Some (c, v, b) =>
              match find_recv c bs', nth_error (g_chans s) c with
              | Some b', Some ch => if (Nat.eqb (ch_cap ch) 0 && negb (Nat.eqb t u))%bool then Some (Passed t u v, take u b' v e' k' ds' (take t b v e k ds s)) else None
              | _, _ => None
              end
          | None => None
          end
      | _, _ => None
      end
  | Put_ t =>
      match waiting s t with
      | Some (bs, e, k, ds) =>
          match find_send bs with
          | Some (c, v, b) =>
              match nth_error (g_chans s) c with
              | Some ch => if length (ch_buf ch) <? ch_cap ch
                           then Some (Put t c, take t b v e k ds (set_chans (upd c (Chan (ch_cap ch) (ch_buf ch ++ [v])) (g_chans s)) s)) else None
              | None => None
              end
          | None => None
          end
      | None => None
      end
  | Get_ t c =>
      match waiting s t with
      | Some (bs, e, k, ds) =>
          match find_recv c bs, nth_error (g_chans s) c with
          | Some b, Some ch => match ch_buf ch with
                               | v :: rest => Some (Got t c, take t b v e k ds (set_chans (upd c (Chan (ch_cap ch) rest) (g_chans s)) s))
                               | [] => None
                               end
          | _, _ => None
          end
      | None => None
      end
  | Done_ t =>
      match waiting s t with
      | Some (bs, e, k, ds) =>
          match find_done bs with
          | Some (i, b) => if is_done (g_ctxs s) i then Some (SawDone t i, take t b UnitV e k ds s) else None
          | None => None
          end
      | None => None
      end
  | Skip t =>
      match advance m tname ctx_text res t s with
      | Polls [(OSnd (ChanV c) v, b)] e k ds =>
          match nth_error (g_chans s) c with
          | Some ch => if (negb (length (ch_buf ch) <? ch_cap ch) && nobody s c)%bool then Some (Default t, to t k ds s) else None
          | None => None
          end
      | _ => None
      end
  | Fire c =>
      match nth_error (g_chans s) c with
      | Some ch => if existsb (fun x => (Nat.eqb (fst x) c && negb (snd x))%bool) (g_tickers s)
                   then Some (Ticked c, set_chans (upd c (Chan (ch_cap ch) (if length (ch_buf ch) <? ch_cap ch then ch_buf ch ++ [UnitV] else ch_buf ch)) (g_chans s)) s)
                   else None
      | None => None
      end
  | Cancelled => if (negb (is_done (g_ctxs s) 0) && (0 <? length (g_ctxs s)))%bool then Some (CallerDone, set_ctxs (cancel 0 (g_ctxs s)) s) else None
  end.

Fixpoint plays (s : gstate) (cs : list choice) : option (list event * gstate) :=
  match cs with
  | [] => Some ([], s)
  | c :: cs' => match play s c with
                | Some (ev, s') => match plays s' cs' with Some (evs, s2) => Some (ev :: evs, s2) | None => None end
                | None => None
                end
  end.

Lemma find_send_in : forall bs c v b, find_send bs = Some (c, v, b) -> In (OSnd (ChanV c) v, b) bs.
Proof.
  induction bs as [|[o b'] bs IH]; intros c v b H; [discriminate|]. cbn in H. destruct o as [ch|[] w]; try (right; now apply IH). injection H as -> -> ->. now left.
Qed.
Lemma find_recv_in : forall bs c b, find_recv c bs = Some b -> In (ORecv (ChanV c), b) bs.
Proof.
  induction bs as [|[o b'] bs IH]; intros c b H; [discriminate|]. cbn in H. destruct o as [[]|]; try (right; now apply IH).
  destruct (Nat.eqb_spec c c0) as [->|]; [injection H as ->; now left | right; now apply IH].
Qed.
Lemma find_recv_none : forall bs c b, find_recv c bs = None -> ~ In (ORecv (ChanV c), b) bs.
Proof.
  induction bs as [|[o b'] bs IH]; intros c b H; [intros []|]. cbn in H. intros [E|E].
  - injection E as -> ->. now rewrite Nat.eqb_refl in H.
  - destruct o as [[]|]; try (now apply (IH c b)). destruct (Nat.eqb c c0); [discriminate | now apply (IH c b)].
Qed.
Lemma find_done_in : forall bs i b, find_done bs = Some (i, b) -> In (ORecv (DoneV i), b) bs.
Proof.
  induction bs as [|[o b'] bs IH]; intros i b H; [discriminate|]. cbn in H. destruct o as [[]|]; try (right; now apply IH). injection H as -> ->. now left.
Qed.
Lemma waiting_comm : forall s t bs e k ds, waiting s t = Some (bs, e, k, ds) -> at_comm m tname ctx_text res s t bs e k ds.
Proof.
  intros s t bs e k ds H. unfold waiting in H. destruct (nth_error (g_gos s) t) as [[]|] eqn:E.
  3:{ injection H as -> -> -> ->. now apply at_parked. }
  all: destruct (advance m tname ctx_text res t s) eqn:A; try discriminate; injection H as -> -> -> ->; now apply at_poll.
Qed.
Lemma typed_b_ok : forall vs, typed_b vs = true -> answer_typed m vs.
Proof.
  intros vs H. apply andb_prop in H as [A B]. apply Nat.eqb_eq in A. split; [exact A|]. intros He. rewrite He in B. cbn in B. unfold is_error.
  destruct (last vs NilV); try discriminate; eauto.
Qed.
Lemma play_sound : forall s c ev s', play s c = Some (ev, s') -> gstep m tname ctx_text res s ev s'.
Proof.
  intros s c ev s' H. destruct c; cbn [play] in H.
  - destruct (advance m tname ctx_text res t s) as [| | | |[] | | |] eqn:A; try discriminate; injection H as <- <-.
    + now apply g_local.
    + now apply g_spawn.
    + now apply g_call.
    + now apply g_stop.
    + now apply g_cancel.
    + now apply g_end.
  - destruct (nth_error (g_gos s) t) as [[| i e l k ds| |]|] eqn:E; try discriminate. destruct (typed_b vs) eqn:T; [|discriminate]. injection H as <- <-.
    apply g_answer with (i := i) (e := e) (l := l) (k := k) (ds := ds); [exact E | now apply typed_b_ok].
  - destruct (waiting s t) as [[[[bs e] k] ds]|] eqn:W; [|discriminate]. destruct (nth_error (g_gos s) u) as [[| | bs' e' k' ds' |]|] eqn:E; try discriminate.
    destruct (find_send bs) as [[[c v] b]|] eqn:F; [|discriminate]. destruct (find_recv c bs') as [b'|] eqn:R; [|discriminate]. destruct (nth_error (g_chans s) c) as [ch|] eqn:C; [|discriminate].
    destruct (Nat.eqb_spec (ch_cap ch) 0) as [Z|]; [|discriminate]. destruct (Nat.eqb_spec t u) as [|N]; [discriminate|]. injection H as <- <-.
    apply g_pass with (c := c) (bs := bs) (bs' := bs') (ch := ch); auto; [now apply waiting_comm | now apply find_send_in | now apply find_recv_in].
  - destruct (waiting s t) as [[[[bs e] k] ds]|] eqn:W; [|discriminate]. destruct (find_send bs) as [[[c v] b]|] eqn:F; [|discriminate]. destruct (nth_error (g_chans s) c) as [ch|] eqn:C; [|discriminate].
    destruct (Nat.ltb_spec (length (ch_buf ch)) (ch_cap ch)) as [L|]; [|discriminate]. injection H as <- <-. apply g_put with (bs := bs); auto; [now apply waiting_comm | now apply find_send_in].
  - destruct (waiting s t) as [[[[bs e] k] ds]|] eqn:W; [|discriminate]. destruct (find_recv c bs) as [b'|] eqn:R; [|discriminate]. destruct (nth_error (g_chans s) c) as [ch|] eqn:C; [|discriminate].
    destruct (ch_buf ch) as [|v rest] eqn:B; [discriminate|]. injection H as <- <-. apply g_get with (bs := bs); auto; [now apply waiting_comm | now apply find_recv_in].
  - destruct (waiting s t) as [[[[bs e] k] ds]|] eqn:W; [|discriminate]. destruct (find_done bs) as [[i b]|] eqn:F; [|discriminate]. destruct (is_done (g_ctxs s) i) eqn:I; [|discriminate].
    injection H as <- <-. apply g_done with (bs := bs); auto; [now apply waiting_comm | now apply find_done_in].
  - destruct (advance m tname ctx_text res t s) as [| | |bs e k ds | | | |] eqn:A; try discriminate.
    destruct bs as [|[[|[]] b] [|]]; try discriminate. destruct (nth_error (g_chans s) c) as [ch|] eqn:C; [|discriminate].
    destruct (Nat.ltb_spec (length (ch_buf ch)) (ch_cap ch)) as [|L]; [discriminate|]. destruct (nobody s c) eqn:N; [|discriminate]. injection H as <- <-.
    eapply g_default; [exact A|]. intros o b' [E|[]]. injection E as <- <-. split.
    + intros (ch' & E' & L'). rewrite C in E'. injection E' as <-. lia.
    + intros (u & _ & bs & b0 & e0 & k0 & ds0 & Hu & Hin). unfold nobody in N. rewrite forallb_forall in N. specialize (N _ (nth_error_In _ _ Hu)). cbn in N.
      destruct (find_recv c bs) eqn:R; [discriminate|]. eapply find_recv_none; eauto.
  - destruct (nth_error (g_chans s) c) as [ch|] eqn:C; [|discriminate]. destruct (existsb _ _) eqn:X; [|discriminate]. injection H as <- <-.
    apply existsb_exists in X as ([x b] & Hx & B). cbn in B. apply andb_prop in B as [B1 B2]. apply Nat.eqb_eq in B1. subst x. destruct b; [discriminate|].
    now apply g_tick.
  - destruct (is_done (g_ctxs s) 0) eqn:D; [discriminate|]. destruct (Nat.ltb_spec 0 (length (g_ctxs s))) as [L|]; [|discriminate]. injection H as <- <-. now apply g_caller.
Qed.
Lemma plays_sound : forall cs s evs s', plays s cs = Some (evs, s') -> run (gstep m tname ctx_text res) s evs s'.
Proof.
  induction cs as [|c cs IH]; intros s evs s' H; cbn in H; [injection H as <- <-; constructor|].
  destruct (play s c) as [[ev s1]|] eqn:P; [|discriminate]. destruct (plays s1 cs) as [[evs1 s2]|] eqn:Q; [|discriminate]. injection H as <- <-.
  eapply run_cons; [eapply play_sound; exact P | now apply IH].
Qed.

(** only creating a goroutine changes how many there are *)
Lemma local_gos : forall t s s', advance m tname ctx_text res t s = Local s' -> length (g_gos s') = length (g_gos s).
Proof.
  intros t s s' H. unfold advance, exec_stmt in H.
  repeat (match type of H with
          | match ?x with _ => _ end = _ => destruct x eqn:?; try discriminate
          | (if ?x then _ else _) = _ => destruct x eqn:?; try discriminate
          | Local _ = Local _ => injection H as <-
          end).
  all: unfold declare, to, set_go, set_mem, set_chans, set_ctxs, set_tickers; cbn; rewrite ?upd_length; reflexivity.
Qed.
End PLAY.
