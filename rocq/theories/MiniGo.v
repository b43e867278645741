(** The part of Go the stock templates use inside method bodies: syntax, its
    tokens, and an interpreter.

    A body refers to the method it implements through a few forms whose text is
    produced by Types.v: the call of the same method on another receiver
    (Method.Call), passing on to it (Method.Pass), the parameter and result
    names and the maps of both. *)
From Verif Require Export GoTok.
Open Scope nat_scope.

(** ** Syntax *)

(** what follows the last argument of a call: nothing, [...], or a comma *)
Inductive tail := TNone | TDots | TComma.

Inductive gexpr :=
| EVar (x : word)                                   (* identifier, including nil, true and package names *)
| ESel (e : gexpr) (f : word)                       (* e.f *)
| EStr (w : word)                                   (* string literal *)
| EInt (n : string)                                 (* number *)
| EBin (op : string) (a b : gexpr)
| EUn (op : string) (a : gexpr)                     (* &x, *p, !b, <-ch *)
| ECall (f : gexpr) (args : list gexpr) (t : tail)
| EConv (t : list gtok) (e : gexpr)                 (* T(e), T given by its tokens *)
| EAssert (e : gexpr) (t : list gtok)               (* e.(T) *)
| EFun (body : list gstmt)                          (* func() { body } *)
| ESliceLit (t : list gtok) (e : gexpr) (mac : bool)(* T{e, names}: true: parameters, false: results *)
| EMCall (recv : gexpr)                             (* recv.Call *)
| EMap (params : bool)                              (* ParamsMap, ResultsMap *)
| EShared (e : gexpr) (f : word)                    (* e.f, a field that other calls may change: see [OGet] *)
| EAddr (e : gexpr) (f : word)                      (* &e.f, of such a field *)
| EIndex (e i : gexpr)                              (* e[i] *)
with gstmt :=
| SAssign (lhs : list gexpr) (rhs : gexpr)
| SResults (rhs : gexpr)                            (* ResultsNames = rhs *)
| SDefine (xs : list word) (rhs : gexpr)
| SVar (x : word) (t : list gtok)
| SExpr (e : gexpr)
| SIf (init : option gstmt) (c : gexpr) (a b : list gstmt)   (* else branch printed unless empty *)
| SElseIf (c : gexpr) (a : list gstmt) (c2 : gexpr) (b : list gstmt)
| SFor (init : gstmt) (c : gexpr) (post : gstmt) (body : list gstmt)
| SSelect (cases : list (gexpr * list gstmt))       (* case <-e: body *)
| SInc (x : gexpr)
| SReturn
| SPass (prefix : string) (recv : gexpr)            (* Method.Pass prefix; recv is what the prefix denotes *)
| SDefer (e : gexpr)
| SSend (ch e : gexpr)                              (* ch <- e *)
| SRange (x : word) (e : gexpr) (body : list gstmt).  (* for _, x := range e { body } *)

(** identifiers *)
Definition id (s : string) : word := [PS s].
Definition var (s : string) : gexpr := EVar (id s).
Infix ".:" := (fun e f => ESel e (id f)) (at level 20, left associativity).

(** ** Tokens *)

Fixpoint punct (s : string) : list gtok :=
  match s with EmptyString => [] | String c s' => TP c :: punct s' end.
Definition kw (s : string) : list gtok := [TW (id s)].

(** comma separated *)
Fixpoint commas (l : list (list gtok)) : list gtok :=
  match l with
  | [] => []
  | [x] => x
  | x :: l' => x ++ TP "," :: commas l'
  end.

(** statements separated by statement ends *)
Fixpoint semis (l : list (list gtok)) : list gtok :=
  match l with
  | [] => []
  | [x] => x
  | x :: l' => x ++ TSemi :: semis l'
  end.

Section TOKENS.
Variable m : method.

Fixpoint etoks (e : gexpr) : list gtok :=
  match e with
  | EVar x => [TW x]
  | ESel e f => etoks e ++ [TP "."; TW f]
  | EStr w => [TS w]
  | EInt n => [TW (id n)]
  | EBin op a b => etoks a ++ punct op ++ etoks b
  | EUn op a => punct op ++ etoks a
  | ECall f args t =>
      etoks f ++ [TP "("] ++ commas (map etoks args)
      ++ match t with TNone => [] | TDots => punct "..." | TComma => [TP ","] end ++ [TP ")"]
  | EConv t e => t ++ [TP "("] ++ etoks e ++ [TP ")"]
  | EAssert e t => etoks e ++ punct ".(" ++ t ++ [TP ")"]
  | EFun body => kw "func" ++ punct "(){" ++ semis (map stoks body) ++ [TP "}"]
  | ESliceLit t e mac =>
      t ++ [TP "{"] ++ etoks e ++ [TP ","; TW [PH (if mac then ParamsNames m else ResultsNames m)]; TP "}"]
  | EMCall recv => etoks recv ++ [TP "."; TW [PH (Call m)]]
  | EMap true => [TW [PH (ParamsMap m)]]
  | EMap false => [TW [PH (ResultsMap m)]]
  | EShared e f => etoks e ++ [TP "."; TW f]
  | EAddr e f => TP "&" :: etoks e ++ [TP "."; TW f]
  | EIndex e i => etoks e ++ [TP "["] ++ etoks i ++ [TP "]"]
  end
with stoks (s : gstmt) : list gtok :=
  match s with
  | SAssign lhs rhs => commas (map etoks lhs) ++ [TP "="] ++ etoks rhs
  | SResults rhs => [TW [PH (ResultsNames m)]; TP "="] ++ etoks rhs
  | SDefine xs rhs => commas (map (fun x => [TW x]) xs) ++ punct ":=" ++ etoks rhs
  | SVar x t => kw "var" ++ [TW x] ++ t
  | SExpr e => etoks e
  | SIf init c a b =>
      kw "if" ++ match init with Some i => stoks i ++ [TSemi] | None => [] end
      ++ etoks c ++ [TP "{"] ++ semis (map stoks a) ++ [TP "}"]
      ++ match b with [] => [] | _ => kw "else" ++ [TP "{"] ++ semis (map stoks b) ++ [TP "}"] end
  | SElseIf c a c2 b =>
      kw "if" ++ etoks c ++ [TP "{"] ++ semis (map stoks a) ++ [TP "}"]
      ++ kw "else" ++ kw "if" ++ etoks c2 ++ [TP "{"] ++ semis (map stoks b) ++ [TP "}"]
  | SFor init c post body =>
      kw "for" ++ stoks init ++ [TSemi] ++ etoks c ++ [TSemi] ++ stoks post
      ++ [TP "{"] ++ semis (map stoks body) ++ [TP "}"]
  | SSelect cases =>
      kw "select" ++ [TP "{"]
      ++ semis (map (fun c => kw "case" ++ punct "<-" ++ etoks (fst c) ++ [TP ":"] ++ semis (map stoks (snd c))) cases)
      ++ [TP "}"]
  | SInc x => etoks x ++ punct "++"
  | SReturn => kw "return"
  | SPass prefix _ => [TW [PH (Pass prefix m)]]
  | SDefer e => kw "defer" ++ etoks e
  | SSend ch e => etoks ch ++ punct "<-" ++ etoks e
  | SRange x e body =>
      kw "for" ++ kw "_" ++ [TP ","; TW x] ++ punct ":=" ++ kw "range" ++ etoks e
      ++ [TP "{"] ++ semis (map stoks body) ++ [TP "}"]
  end.

Definition btoks (l : list gstmt) : list gtok := semis (map stoks l).
End TOKENS.

(** ** Values and the outside world *)

Inductive val :=
| VNil
| VBool (b : bool)
| VInt (z : Z)
| VString (s : string)
| VRef (n : nat)                          (* any other value from outside *)
| VOf (v : val) (f : string)              (* a field of a value from outside *)
| VRec (l : list (string * val))          (* a struct of the decorator *)
| VMap (l : list (string * val))
| VSlice (l : list val)
| VPkg (p : string)                       (* package-level name *)
| VPtr (loc : nat)
| VClo (env : list (string * nat)) (body : list gstmt).

(** what a body asks from the outside: calling a function value or a
    package-level function, calling a method, receiving, selecting among
    receives, sending, reading and writing a variable other calls may change *)
Inductive op :=
| OCall (f : val) (args : list val)
| OMeth (recv : val) (name : string) (args : list val)
| OSelect (chans : list val)
| OSend (ch v : val)
| OGet (x : nat)
| OSet (x : nat) (v : val).

(** the answer: results, a panic, or no answer ever *)
Inductive ans := ARet (l : list val) | APan (v : val) | ABlock.

Definition trace := list (op * ans).

(** The outside world: what it answers may depend on everything that happened;
    [w_has v t] says whether the dynamic type of [v] has the methods of the
    interface type with tokens [t]. *)
Record gworld := GWorld {
  w_ans : trace -> op -> ans;
  w_has : val -> list gtok -> bool
}.

(** ** Interpreter *)

(** outcomes: a value, a panic, blocked forever, loop fuel used up, or a
    construct the interpreter gives no meaning to (ill-typed program) *)
Inductive out (A : Type) := Val (a : A) | Pan (v : val) | Blk | NoFuel | Stuck.
Arguments Val {A} _. Arguments Pan {A} _. Arguments Blk {A}. Arguments NoFuel {A}. Arguments Stuck {A}.

(** something that can be called: outside operation, closure, declared function *)
Inductive callable :=
| KOp (o : op)
| KClo (env : list (string * nat)) (body : list gstmt)
| KFun (name : string) (args : list val).

Record mstate := MState { ms_store : list val; ms_trace : trace; ms_defers : list callable }.

Definition G (A : Type) := mstate -> out A * mstate.
Definition gret {A} (a : A) : G A := fun s => (Val a, s).
Definition gbind {A B} (x : G A) (k : A -> G B) : G B :=
  fun s => match x s with
           | (Val a, s') => k a s'
           | (Pan v, s') => (Pan v, s')
           | (Blk, s') => (Blk, s')
           | (NoFuel, s') => (NoFuel, s')
           | (Stuck, s') => (Stuck, s')
           end.
Notation "'let&' x := r 'in' k" := (gbind r (fun x => k))
  (at level 200, x name, r at level 100, k at level 200).
Definition gpanic {A} (v : val) : G A := fun s => (Pan v, s).
Definition gstuck {A} : G A := fun s => (Stuck, s).

Definition loc_env := list (string * nat).
Fixpoint lookup (x : string) (env : loc_env) : option nat :=
  match env with
  | [] => None
  | (y, n) :: env' => if String.eqb x y then Some n else lookup x env'
  end.

Fixpoint set_nth {A} (n : nat) (v : A) (l : list A) : list A :=
  match l, n with
  | [], _ => []
  | _ :: l', 0 => v :: l'
  | x :: l', S n' => x :: set_nth n' v l'
  end.

Definition alloc (v : val) : G nat :=
  fun s => (Val (length (ms_store s)), MState (ms_store s ++ [v]) (ms_trace s) (ms_defers s)).
Definition load (n : nat) : G val :=
  fun s => match nth_error (ms_store s) n with Some v => (Val v, s) | None => (Stuck, s) end.
Definition store (n : nat) (v : val) : G unit :=
  fun s => (Val tt, MState (set_nth n v (ms_store s)) (ms_trace s) (ms_defers s)).

Fixpoint field_of (f : string) (l : list (string * val)) : option val :=
  match l with
  | [] => None
  | (y, v) :: l' => if String.eqb f y then Some v else field_of f l'
  end.

Definition is_nil (v : val) : bool := match v with VNil => true | _ => false end.
Definition nil_deref : val := VString "invalid memory address or nil pointer dereference".
Definition zero_division : val := VString "integer divide by zero".
Definition bad_index : val := VString "index out of range".

Fixpoint stores (locs : list nat) (vs : list val) : G unit :=
  match locs, vs with
  | [], [] => gret tt
  | n :: locs', v :: vs' => let& _ := store n v in stores locs' vs'
  | _, _ => gstuck
  end.

Fixpoint loads (locs : list nat) : G (list val) :=
  match locs with
  | [] => gret []
  | n :: l => let& v := load n in let& vs := loads l in gret (v :: vs)
  end.

Fixpoint lookups (xs : list string) (env : loc_env) : option (list nat) :=
  match xs with
  | [] => Some []
  | x :: xs' => match lookup x env, lookups xs' env with
                | Some n, Some l => Some (n :: l)
                | _, _ => None
                end
  end.

Definition parse_int (s : string) : option Z :=
  match s with "0" => Some 0%Z | "1" => Some 1%Z | _ => None end.

Section INTERP.
Variable W : gworld.
Variable m : method.
Variable funcs : list (string * (list string * list gstmt)).   (* functions the template declares *)
Variable L : nat.                                              (* loop fuel *)

Definition ask_op (o : op) : G (list val) :=
  fun s => let a := w_ans W (ms_trace s) o in
           let s' := MState (ms_store s) (ms_trace s ++ [(o, a)]) (ms_defers s) in
           match a with
           | ARet l => (Val l, s')
           | APan v => (Pan v, s')
           | ABlock => (Blk, s')
           end.

(** the values of variables by name *)
Definition read_names (env : loc_env) (xs : list string) : G (list val) :=
  match lookups xs env with Some l => loads l | None => gstuck end.

Definition param_names : list string := map p_name (m_params m).
Definition result_names : list string := map p_name (m_results m).

(** identifiers: variables, then nil and true, then package-level names *)
Definition ident (env : loc_env) (x : string) : G val :=
  match lookup x env with
  | Some n => load n
  | None => gret (if String.eqb x "nil" then VNil
                  else if String.eqb x "true" then VBool true
                  else VPkg x)
  end.

Definition select_field (v : val) (f : string) : G val :=
  match v with
  | VRec l => match field_of f l with Some x => gret x | None => gstuck end
  | VPkg p => gret (VPkg (p ++ "." ++ f)%string)
  | VNil => gpanic nil_deref
  | VRef _ | VOf _ _ => gret (VOf v f)
  | _ => gstuck
  end.

(** the arguments of a call: [f(a, s...)] passes the elements of the slice *)
Definition spread (t : tail) (vs : list val) : G (list val) :=
  match t with
  | TDots => match vs with [VSlice l] => gret l | _ => gstuck end
  | _ => gret vs
  end.

(** [v.f(args)] *)
Definition method_target (v : val) (f : string) (args : list val) : G callable :=
  match v with
  | VRec l => match field_of f l with
              | Some (VClo env body) => gstuck
              | Some VNil => gpanic nil_deref
              | Some x => gret (KOp (OCall x args))
              | None => gstuck
              end
  | VPkg p => gret (KOp (OCall (VPkg (p ++ "." ++ f)%string) args))
  | VNil => gpanic nil_deref
  | VBool _ | VInt _ | VMap _ | VSlice _ | VPtr _ | VClo _ _ => gstuck
  | _ => gret (KOp (OMeth v f args))
  end.

(** [v(args)] *)
Definition call_target (v : val) (args : list val) : G callable :=
  match v with
  | VNil => gpanic nil_deref
  | VClo env body => match args with [] => gret (KClo env body) | _ => gstuck end
  | VPkg p => if existsb (fun f => String.eqb (fst f) p) funcs then gret (KFun p args)
              else gret (KOp (OCall v args))
  | VRef _ | VOf _ _ => gret (KOp (OCall v args))
  | _ => gstuck
  end.

Definition binop (op : string) (a b : val) : G val :=
  if String.eqb op "==" then match b with VNil => gret (VBool (is_nil a)) | _ => gstuck end
  else if String.eqb op "!=" then match b with VNil => gret (VBool (negb (is_nil a))) | _ => gstuck end
  else match a, b with
       | VInt x, VInt y =>
           if String.eqb op "<" then gret (VBool (Z.ltb x y))
           else if String.eqb op ">" then gret (VBool (Z.ltb y x))
           else if String.eqb op ">=" then gret (VBool (Z.leb y x))
           else if String.eqb op "%" then (if Z.eqb y 0 then gpanic zero_division else gret (VInt (Z.rem x y)))
           else gstuck
       | VString x, VString y => if String.eqb op "+" then gret (VString (x ++ y)%string) else gstuck
       | _, _ => gstuck
       end.

(** the address of a shared field: the decorator's record holds it in place of
    a value *)
Definition field_addr (v : val) (f : string) : G nat :=
  match v with
  | VRec l => match field_of f l with Some (VRef n) => gret n | _ => gstuck end
  | _ => gstuck
  end.

Definition index_of (v i : val) : G val :=
  match v, i with
  | VSlice l, VInt z => if Z.ltb z 0 then gpanic bad_index
                        else match nth_error l (Z.to_nat z) with Some x => gret x | None => gpanic bad_index end
  | _, _ => gstuck
  end.

Section LEVEL.
(** how to run a callable *)
Variable call : callable -> G (list val).

Definition entries (names : list string) (vs : list val) : list (string * val) := combine names vs.

Fixpoint eval (env : loc_env) (e : gexpr) : G val :=
  let fix evals (l : list gexpr) : G (list val) :=
    match l with
    | [] => gret []
    | x :: l' => let& v := eval env x in let& vs := evals l' in gret (v :: vs)
    end in
  match e with
  | EVar x => ident env (wtext x)
  | ESel r f => let& v := eval env r in select_field v (wtext f)
  | EStr w => gret (VString (wtext w))
  | EInt n => match parse_int n with Some z => gret (VInt z) | None => gstuck end
  | EBin op a b =>
      let& x := eval env a in
      if String.eqb op "||" then match x with VBool true => gret x | VBool false => eval env b | _ => gstuck end
      else if String.eqb op "&&" then match x with VBool true => eval env b | VBool false => gret x | _ => gstuck end
      else let& y := eval env b in binop op x y
  | EUn op a =>
      if String.eqb op "&" then
        match a with EVar x => match lookup (wtext x) env with Some n => gret (VPtr n) | None => gstuck end | _ => gstuck end
      else let& x := eval env a in
           if String.eqb op "*" then match x with VPtr n => load n | VNil => gpanic nil_deref | _ => gstuck end
           else if String.eqb op "!" then match x with VBool b => gret (VBool (negb b)) | _ => gstuck end
           else if String.eqb op "<-" then
             let& vs := ask_op (OSelect [x]) in match vs with [VInt 0; v] => gret v | _ => gstuck end
           else gstuck
  | EConv _ a => eval env a
  | EAssert _ _ => gstuck                 (* only in its comma-ok form *)
  | EFun body => gret (VClo env body)
  | ESliceLit _ a mac =>
      let& x := eval env a in
      let& vs := read_names env (if mac then param_names else result_names) in
      gret (VSlice (x :: vs))
  | EMap p =>
      let names := if p then param_names else result_names in
      let& vs := read_names env names in gret (VMap (entries names vs))
  | EShared r f =>
      let& v := eval env r in let& n := field_addr v (wtext f) in
      let& vs := ask_op (OGet n) in match vs with [x] => gret x | _ => gstuck end
  | EAddr r f => let& v := eval env r in let& n := field_addr v (wtext f) in gret (VRef n)
  | EIndex a i => let& x := eval env a in let& y := eval env i in index_of x y
  | ECall (ESel r f) args t =>
      let& v := eval env r in let& vs := evals args in let& vs := spread t vs in
      let& k := method_target v (wtext f) vs in
      let& rs := call k in match rs with [x] => gret x | _ => gstuck end
  | ECall f args t =>
      let& v := eval env f in let& vs := evals args in let& vs := spread t vs in
      let& k := call_target v vs in
      let& rs := call k in match rs with [x] => gret x | _ => gstuck end
  | EMCall r =>
      let& v := eval env r in let& vs := read_names env param_names in
      let& k := method_target v (m_name m) vs in
      let& rs := call k in match rs with [x] => gret x | _ => gstuck end
  end.

Fixpoint evals (env : loc_env) (l : list gexpr) : G (list val) :=
  match l with
  | [] => gret []
  | x :: l' => let& v := eval env x in let& vs := evals env l' in gret (v :: vs)
  end.

(** the callable a call expression denotes, with its arguments evaluated *)
Definition callee (env : loc_env) (e : gexpr) : G callable :=
  match e with
  | ECall (ESel r f) args t =>
      let& v := eval env r in let& vs := evals env args in let& vs := spread t vs in method_target v (wtext f) vs
  | ECall f args t =>
      let& v := eval env f in let& vs := evals env args in let& vs := spread t vs in call_target v vs
  | EMCall r => let& v := eval env r in let& vs := read_names env param_names in method_target v (m_name m) vs
  | _ => gstuck
  end.

(** an expression that yields any number of values *)
Definition eval_multi (env : loc_env) (e : gexpr) : G (list val) :=
  match e with
  | ECall _ _ _ | EMCall _ => let& k := callee env e in call k
  | EAssert a t => let& v := eval env a in
                   gret (if negb (is_nil v) && w_has W v t then [v; VBool true] else [VNil; VBool false])
  | _ => let& v := eval env e in gret [v]
  end.

(** a call used as a statement drops its results; [<-ch] may stand alone *)
Definition eval_stmt (env : loc_env) (e : gexpr) : G unit :=
  let& _ := eval_multi env e in gret tt.

Inductive ctl := CNext | CRet.

(** what is put in a shared variable; a pointer to a local variable is stored
    as the value it points to: no template assigns to a variable after storing
    its address *)
Definition pointee (v : val) : G val := match v with VPtr k => load k | _ => gret v end.

Definition assign_to (env : loc_env) (l : gexpr) (v : val) : G unit :=
  match l with
  | EVar x => match lookup (wtext x) env with Some n => store n v | None => gstuck end
  | EUn op (EVar x) =>
      if String.eqb op "*" then
        match lookup (wtext x) env with
        | Some n => let& p := load n in match p with VPtr n' => store n' v | VNil => gpanic nil_deref | _ => gstuck end
        | None => gstuck
        end
      else gstuck
  | EShared (EVar r) f =>
      let& s := ident env (wtext r) in let& n := field_addr s (wtext f) in
      let& x := pointee v in
      let& _ := ask_op (OSet n x) in gret tt
  | _ => gstuck
  end.
Fixpoint assigns (env : loc_env) (l : list gexpr) (vs : list val) : G unit :=
  match l, vs with
  | [], [] => gret tt
  | x :: l', v :: vs' => let& _ := assign_to env x v in assigns env l' vs'
  | _, _ => gstuck
  end.

(** [top] are the names declared in the same scope: := assigns to those and
    declares the others *)
Fixpoint defines (top : list string) (env : loc_env) (xs : list string) (vs : list val) : G (loc_env * list string) :=
  match xs, vs with
  | [], [] => gret (env, top)
  | x :: xs', v :: vs' =>
      if String.eqb x "_" then defines top env xs' vs'
      else if mem x top then
        match lookup x env with
        | Some n => let& _ := store n v in defines top env xs' vs'
        | None => gstuck
        end
      else let& n := alloc v in defines (x :: top) ((x, n) :: env) xs' vs'
  | _, _ => gstuck
  end.

(** one step of a for loop, iterated at most [L] times *)
Section LOOP.
  Variable cond : G bool.
  Variable body : G ctl.
  Variable post : G unit.
  Fixpoint loop (n : nat) : G ctl :=
    match n with
    | 0 => fun s => (NoFuel, s)
    | S n' =>
        let& b := cond in
        if b : bool then
          let& c := body in
          match c with CRet => gret CRet | CNext => let& _ := post in loop n' end
        else gret CNext
    end.
End LOOP.

(** one iteration per element *)
Section RANGE.
  Variable body : val -> G ctl.
  Fixpoint over (l : list val) : G ctl :=
    match l with
    | [] => gret CNext
    | v :: l' => let& c := body v in match c with CRet => gret CRet | CNext => over l' end
    end.
End RANGE.

Definition as_slice (v : val) : G (list val) :=
  match v with VSlice l => gret l | VNil => gret [] | _ => gstuck end.
Definition as_bool (v : val) : G bool := match v with VBool b => gret b | _ => gstuck end.

Variable res_locs : list nat.     (* where the function's named results live *)

(** statements; yields how control leaves, the environment and the names
    declared in the current scope *)
Fixpoint exec (env : loc_env) (top : list string) (s : gstmt) : G (ctl * (loc_env * list string)) :=
  let fix block (env : loc_env) (top : list string) (l : list gstmt) : G ctl :=
    match l with
    | [] => gret CNext
    | s :: l' =>
        let& r := exec env top s in
        match fst r with
        | CRet => gret CRet
        | CNext => block (fst (snd r)) (snd (snd r)) l'
        end
    end in
  let keep (c : G ctl) : G (ctl * (loc_env * list string)) := let& x := c in gret (x, (env, top)) in
  let next (c : G unit) : G (ctl * (loc_env * list string)) := let& _ := c in gret (CNext, (env, top)) in
  match s with
  | SAssign lhs rhs =>
      next (let& vs := eval_multi env rhs in assigns env lhs vs)
  | SResults rhs =>
      next (let& vs := eval_multi env rhs in assigns env (map (fun x => EVar [PH x]) result_names) vs)
  | SDefine xs rhs =>
      let& vs := eval_multi env rhs in
      let& e := defines top env (map wtext xs) vs in gret (CNext, e)
  | SVar x t => let& n := alloc VNil in gret (CNext, ((wtext x, n) :: env, wtext x :: top))
  | SExpr e => next (eval_stmt env e)
  | SIf init c a b =>
      keep (let& r := match init with
                      | None => gret (CNext, (env, []))
                      | Some i => exec env [] i
                      end in
            let env' := fst (snd r) in
            let& v := eval env' c in let& t := as_bool v in
            if t : bool then block env' [] a else block env' [] b)
  | SElseIf c a c2 b =>
      keep (let& v := eval env c in let& t := as_bool v in
            if t : bool then block env [] a
            else let& v2 := eval env c2 in let& t2 := as_bool v2 in
                 if t2 : bool then block env [] b else gret CNext)
  | SFor init c post body =>
      keep (let& r := exec env [] init in
            let env' := fst (snd r) in
            loop (let& v := eval env' c in as_bool v) (block env' [] body)
                 (let& _ := exec env' [] post in gret tt) L)
  | SSelect cases =>
      keep (let& chs := evals env (map fst cases) in
            let& vs := ask_op (OSelect chs) in
            match vs with
            | [VInt z; _] =>
                (fix pick (l : list (gexpr * list gstmt)) (i : Z) : G ctl :=
                   match l with
                   | [] => gstuck
                   | (_, body) :: l' => if Z.eqb i z then block env [] body else pick l' (i + 1)%Z
                   end) cases 0%Z
            | _ => gstuck
            end)
  | SInc x =>
      next (let& v := eval env x in match v with VInt z => assign_to env x (VInt (z + 1)) | _ => gstuck end)
  | SReturn => gret (CRet, (env, top))
  | SPass _ recv =>
      keep (let& vs := eval_multi env (EMCall recv) in
            match m_results m with
            | [] => gret CRet
            | _ => let& _ := stores res_locs vs in gret CRet
            end)
  | SDefer e =>
      next (let& k := callee env e in
            fun s => (Val tt, MState (ms_store s) (ms_trace s) (k :: ms_defers s)))
  | SSend ch e =>
      next (let& c := eval env ch in let& v := eval env e in let& _ := ask_op (OSend c v) in gret tt)
  | SRange x e body =>
      keep (let& v := eval env e in let& l := as_slice v in
            over (fun v => let& n := alloc v in block ((wtext x, n) :: env) [] body) l)
  end.

Fixpoint block (env : loc_env) (top : list string) (l : list gstmt) : G ctl :=
  match l with
  | [] => gret CNext
  | s :: l' =>
      let& r := exec env top s in
      match fst r with
      | CRet => gret CRet
      | CNext => block (fst (snd r)) (snd (snd r)) l'
      end
  end.

(** deferred calls run in reverse order, also when panicking; a panic in one of
    them replaces the current panic *)
Fixpoint run_defers (l : list callable) (p : option val) : G (option val) :=
  match l with
  | [] => gret p
  | k :: l' =>
      fun s => match call k s with
               | (Val _, s') => run_defers l' p s'
               | (Pan v, s') => run_defers l' (Some v) s'
               | (Blk, s') => (Blk, s')
               | (NoFuel, s') => (NoFuel, s')
               | (Stuck, s') => (Stuck, s')
               end
  end.

(** a function activation: the body, then its deferred calls, then the values
    of the named results *)
Definition activation (env : loc_env) (top : list string) (body : list gstmt) : G (list val) :=
  fun s =>
    let saved := ms_defers s in
    let '(r, s1) := block env top body (MState (ms_store s) (ms_trace s) []) in
    let finish (p : option val) :=
      match run_defers (ms_defers s1) p (MState (ms_store s1) (ms_trace s1) []) with
      | (Val (Some v), s2) => (Pan v, MState (ms_store s2) (ms_trace s2) saved)
      | (Val None, s2) => loads res_locs (MState (ms_store s2) (ms_trace s2) saved)
      | (Pan v, s2) => (Pan v, MState (ms_store s2) (ms_trace s2) saved)
      | (Blk, s2) => (Blk, s2)
      | (NoFuel, s2) => (NoFuel, s2)
      | (Stuck, s2) => (Stuck, s2)
      end in
    match r with
    | Val _ => finish None
    | Pan v => finish (Some v)
    | Blk => (Blk, s1)
    | NoFuel => (NoFuel, s1)
    | Stuck => (Stuck, s1)
    end.
End LEVEL.

Fixpoint find_func (x : string) (l : list (string * (list string * list gstmt))) : option (list string * list gstmt) :=
  match l with
  | [] => None
  | (y, f) :: l' => if String.eqb x y then Some f else find_func x l'
  end.

Fixpoint allocs (names : list string) (vs : list val) (env : loc_env) : G loc_env :=
  match names, vs with
  | [], [] => gret env
  | x :: names', v :: vs' => let& n := alloc v in allocs names' vs' ((x, n) :: env)
  | _, _ => gstuck
  end.

(** running a callable, with closures and declared functions nested at most
    [d] deep *)
Fixpoint invoke (d : nat) (k : callable) : G (list val) :=
  match k with
  | KOp o => ask_op o
  | KClo env body => match d with 0 => gstuck | S d' => activation (invoke d') [] env [] body end
  | KFun f args =>
      match d with
      | 0 => gstuck
      | S d' => match find_func f funcs with
                | None => gstuck
                | Some (ps, body) =>
                    let& env := allocs ps args [] in
                    activation (invoke d') [] env ps body
                end
      end
  end.

(** the deepest nesting in the stock templates: a deferred closure or declared
    function, in the method *)
Definition depth : nat := 2.

(** A call of the generated method: receiver, arguments, and the zero values of
    the results.  Locations: receiver 0, results, parameters. *)
Definition method_env : loc_env :=
  ("_d", 0) :: combine (result_names ++ param_names) (seq 1 (length (result_names ++ param_names))).

Definition run_method (body : list gstmt) (recv : val) (zeros args : list val) : out (list val) * trace :=
  let s0 := MState (recv :: zeros ++ args) [] [] in
  let '(r, s) := activation (invoke depth) (seq 1 (length (m_results m))) method_env
                   ("_d" :: result_names ++ param_names) body s0 in
  (r, ms_trace s).
End INTERP.
