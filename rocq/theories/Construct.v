(** A second fragment of Go: the functions that build decorators.

    MiniGo.v runs the methods of generated decorators; this file runs the
    functions the templates declare beside them, New.., MustNew.. and, for
    elasticapm, the options.  They need composite literals, pointers, channels,
    function values and the go statement.  Constructors.v says which functions
    the templates declare (token by token); their lines are cited there.

    Simplifications.  What an imported package's function returns is an opaque
    value, a new one for every call ([URes]), and the call is recorded; the
    exception is time.Tick, of which the result is received from.  Integers are
    not bounded, except in the conversions to uint32 and time.Duration.  make
    panics for a negative size, but memory is never exhausted.  Conversions
    T(x) are told from calls f(x) by the syntax tree; both have the same tokens. *)
From Coq Require Import Floats.SpecFloat.
From Verif Require Export MiniGo FieldName.
Open Scope nat_scope.

(** ** Syntax *)
Inductive kexpr :=
| KVar (x : string)                                  (* variable, package or nil *)
| KNum (n : string)
| KStr (w : word)
| KSel (e : kexpr) (f : string)                      (* e.f *)
| KCall (f : kexpr) (args : list kexpr)
| KConv (pkg : string) (t : string) (e : kexpr)      (* pkg.t(e), t(e) when pkg is "" *)
| KLen (e : kexpr)
| KMake (t : list gtok) (n : kexpr)                  (* make(chan t, n) *)
| KLit (addr : bool) (lines : bool) (t : word) (fs : list (word * kexpr))
                                                     (* T{f: e, ..} or &T{f: e, ..}, on one line or many *)
| KAddr (x : string)                                 (* &x *)
| KIdx (e i : kexpr)
| KBin (op : string) (a b : kexpr)
| KFunc (ps : list (string * list gtok)) (body : list kstmt)
with kstmt :=
| JDef (x : string) (e : kexpr)                      (* x := e *)
| JSet (x f : string) (e : kexpr)                    (* x.f = e *)
| JIf (c : kexpr) (body : list kstmt)
| JEach (x : string) (e : kexpr) (body : list kstmt) (* for _, x := range e, a slice *)
| JCount (i : string) (n : kexpr) (body : list kstmt)(* for i := 0; i < n; i++ *)
| JRange (x : string) (e : kexpr) (body : list kstmt)(* for x := range e, a channel *)
| JSend (ch e : kexpr)
| JGo (body : list kstmt)                            (* go func() { body }() *)
| JDo (e : kexpr)
| JPanic (w : word)                                  (* panic("w") *)
| JReturn (es : list kexpr).

(** a function declaration; the type of a variadic parameter starts with dots *)
Record gofunc := GoFunc {
  f_name : word;
  f_params : list (string * list gtok);
  f_results : list gtok;
  f_body : list kstmt
}.

(** ** Tokens *)
Definition qualified (pkg t : string) : list gtok :=
  match pkg with EmptyString => kw t | _ => kw pkg ++ [TP "."] ++ kw t end.

Fixpoint ktoks (e : kexpr) : list gtok :=
  match e with
  | KVar x => kw x
  | KNum n => kw n
  | KStr w => [TS w]
  | KSel e f => ktoks e ++ [TP "."] ++ kw f
  | KCall f args => ktoks f ++ [TP "("] ++ commas (map ktoks args) ++ [TP ")"]
  | KConv pkg t e => qualified pkg t ++ [TP "("] ++ ktoks e ++ [TP ")"]
  | KLen e => kw "len" ++ [TP "("] ++ ktoks e ++ [TP ")"]
  | KMake t n => kw "make" ++ [TP "("] ++ kw "chan" ++ t ++ [TP ","] ++ ktoks n ++ [TP ")"]
  | KLit addr lines t fs =>
      (if addr then [TP "&"] else []) ++ [TW t; TP "{"]
      ++ (let l := map (fun f => [TW (fst f); TP ":"] ++ ktoks (snd f)) fs in
          if lines then flat_map (fun x => x ++ [TP ","]) l else commas l)
      ++ [TP "}"]
  | KAddr x => TP "&" :: kw x
  | KIdx e i => ktoks e ++ [TP "["] ++ ktoks i ++ [TP "]"]
  | KBin op a b => ktoks a ++ punct op ++ ktoks b
  | KFunc ps body =>
      kw "func" ++ [TP "("] ++ commas (map (fun p => kw (fst p) ++ snd p) ps) ++ [TP ")"; TP "{"]
      ++ semis (map jtoks body) ++ [TP "}"]
  end
with jtoks (s : kstmt) : list gtok :=
  match s with
  | JDef x e => kw x ++ punct ":=" ++ ktoks e
  | JSet x f e => kw x ++ [TP "."] ++ kw f ++ [TP "="] ++ ktoks e
  | JIf c body => kw "if" ++ ktoks c ++ [TP "{"] ++ semis (map jtoks body) ++ [TP "}"]
  | JEach x e body =>
      kw "for" ++ kw "_" ++ [TP ","] ++ kw x ++ punct ":=" ++ kw "range" ++ ktoks e
      ++ [TP "{"] ++ semis (map jtoks body) ++ [TP "}"]
  | JCount i n body =>
      kw "for" ++ kw i ++ punct ":=" ++ kw "0" ++ [TSemi] ++ kw i ++ punct "<" ++ ktoks n ++ [TSemi] ++ kw i ++ punct "++"
      ++ [TP "{"] ++ semis (map jtoks body) ++ [TP "}"]
  | JRange x e body =>
      kw "for" ++ kw x ++ punct ":=" ++ kw "range" ++ ktoks e ++ [TP "{"] ++ semis (map jtoks body) ++ [TP "}"]
  | JSend ch e => ktoks ch ++ punct "<-" ++ ktoks e
  | JGo body => kw "go" ++ kw "func" ++ punct "(){" ++ semis (map jtoks body) ++ punct "}()"
  | JDo e => ktoks e
  | JPanic w => kw "panic" ++ [TP "("; TS w; TP ")"]
  | JReturn es => kw "return" ++ commas (map ktoks es)
  end.

Definition func_toks (f : gofunc) : list gtok :=
  kw "func" ++ [TW (f_name f); TP "("] ++ commas (map (fun p => kw (fst p) ++ snd p) (f_params f)) ++ [TP ")"]
  ++ f_results f ++ [TP "{"] ++ semis (map jtoks (f_body f)) ++ [TP "}"].

(** ** Values *)
Inductive uval :=
| UNil
| UNum (z : Z)
| UStr (s : string)
| UBool (b : bool)
| UFloat (f : spec_float)                            (* float64 *)
| UPkg (p : string)
| USel (v : uval) (f : string)                       (* a name of a package, a field or method of an opaque value *)
| URes (n : nat)                                     (* what the n-th call of an opaque function returned *)
| UPtr (a : nat)                                     (* the address of a cell *)
| URec (t : string) (fs : list (string * uval))      (* struct *)
| UChan (k : nat)
| UList (l : list uval)                              (* slice *)
| UFun (ps : list string) (body : list kstmt) (env : list (string * nat))
| UZero (t : string)                                 (* zero value of another struct type *)
| UGiven (n : nat).                                  (* a value of the caller's *)

Definition uenv := list (string * nat).              (* variables are cells *)
Record uchan := UCh { ch_cap : nat; ch_buf : list uval }.
Record ust := USt {
  cells : list uval;
  chans : list uchan;
  tickers : list nat;                                (* channels time.Tick returned *)
  spawned : list (uenv * list kstmt);                (* goroutines started *)
  outs : list (uval * list uval)                     (* opaque functions called *)
}.

Inductive ures A :=
| ROk (a : A) (st : ust)
| RPanic (v : uval) (st : ust)
| RBlock (st : ust)                                  (* a send that nothing receives *)
| RFuel
| RStuck.                                            (* Go's compiler would reject it, or not modelled *)
Arguments ROk {A}. Arguments RPanic {A}. Arguments RBlock {A}. Arguments RFuel {A}. Arguments RStuck {A}.
Definition ubind {A B} (r : ures A) (k : A -> ust -> ures B) : ures B :=
  match r with
  | ROk a st => k a st | RPanic v st => RPanic v st | RBlock st => RBlock st | RFuel => RFuel | RStuck => RStuck
  end.
Notation "'udo' a , st <- r ; k" := (ubind r (fun a st => k)) (at level 200, a name, st name, r at level 100, k at level 200).

Fixpoint get {A} (x : string) (l : list (string * A)) : option A :=
  match l with [] => None | (y, v) :: l' => if String.eqb y x then Some v else get x l' end.
Fixpoint put {A} (x : string) (v : A) (l : list (string * A)) : list (string * A) :=
  match l with [] => [] | (y, w) :: l' => if String.eqb y x then (y, v) :: l' else (y, w) :: put x v l' end.
Fixpoint nput {A} (n : nat) (v : A) (l : list A) : list A :=
  match l, n with [], _ => [] | _ :: l', 0 => v :: l' | x :: l', S n' => x :: nput n' v l' end.

Definition alloc (v : uval) (st : ust) : nat * ust :=
  (length (cells st), USt (cells st ++ [v]) (chans st) (tickers st) (spawned st) (outs st)).
Definition set_cell (a : nat) (v : uval) (st : ust) : ust :=
  USt (nput a v (cells st)) (chans st) (tickers st) (spawned st) (outs st).
Definition new_chan (c : nat) (st : ust) : nat * ust :=
  (length (chans st), USt (cells st) (chans st ++ [UCh c []]) (tickers st) (spawned st) (outs st)).
Definition set_chan (k : nat) (c : uchan) (st : ust) : ust :=
  USt (cells st) (nput k c (chans st)) (tickers st) (spawned st) (outs st).
Definition bindings (ps : list string) (vs : list uval) (env : uenv) (st : ust) : uenv * ust :=
  fold_left (fun es pv => let '(a, st') := alloc (snd pv) (snd es) in ((fst pv, a) :: fst es, st')) (combine ps vs) (env, st).

(** a send that finds room *)
Definition try_send (k : nat) (v : uval) (st : ust) : option ust :=
  match nth_error (chans st) k with
  | Some (UCh c b) => if Nat.ltb (length b) c then Some (set_chan k (UCh c (b ++ [v])) st) else None
  | None => None
  end.

(** ** Conversions and operators *)

(** an integral part that fits int64; other values convert to what the machine
    makes of them (Go specification, "Conversions between numeric types") *)
Definition whole (f : spec_float) : option Z :=
  match f with
  | S754_zero _ => Some 0%Z
  | S754_finite s m e =>
      let a := (if 0 <=? e then Z.pos m * 2 ^ e else Z.pos m / 2 ^ (- e))%Z in
      let z := (if s then - a else a)%Z in
      if ((- 9223372036854775808 <=? z) && (z <=? 9223372036854775807))%Z%bool then Some z else None
  | _ => None
  end.
Definition float_of (z : Z) : spec_float := binary_normalize 53 1024 z 0 false.

Section RUN.
Variable machine : spec_float -> Z.                  (* conversions that Go leaves to the machine *)
Variable structs : list (string * list (string * uval)).  (* declared struct types: fields with their zero values *)
Variable L : nat.                                    (* bound on the iterations of one counting loop *)

Definition convert (pkg t : string) (v : uval) : option uval :=
  match v with
  | UNum z =>
      if String.eqb pkg "" && String.eqb t "uint32" then Some (UNum (z mod 4294967296))
      else if String.eqb pkg "" && String.eqb t "float64" then Some (UFloat (float_of z)) else None
  | UFloat f =>
      if String.eqb pkg "time" && String.eqb t "Duration" then Some (UNum (match whole f with Some z => z | None => machine f end)) else None
  | _ => None
  end%Z.

Definition binop (op : string) (a b : uval) : option uval :=
  match a, b with
  | UNum x, UNum y =>
      if String.eqb op "==" then Some (UBool (Z.eqb x y))
      else if String.eqb op "<" then Some (UBool (Z.ltb x y))
      else if String.eqb op ">" then Some (UBool (Z.ltb y x)) else None
  | UFloat x, UFloat y => if String.eqb op "/" then Some (UFloat (SFdiv 53 1024 x y)) else None
  | v, UNil => if String.eqb op "!=" then Some (UBool (match v with UNil => false | _ => true end)) else None
  | _, _ => None
  end.

Definition number_of (n : string) : option Z := if String.eqb n "0" then Some 0%Z else None.
Definition packages := ["time"; "log"; "errors"; "apm"].
Definition select (v : uval) (f : string) (st : ust) : option uval :=
  match v with
  | UPtr a => match nth_error (cells st) a with Some (URec _ fs) => get f fs | _ => None end
  | URec _ fs => get f fs
  | UPkg p => if String.eqb p "time" && String.eqb f "Second" then Some (UNum 1000000000) else Some (USel v f)
  | USel _ _ | URes _ | UGiven _ => Some (USel v f)
  | _ => None
  end.
Fixpoint no_twice (l : list string) : bool := match l with [] => true | x :: l' => negb (mem x l') && no_twice l' end.
(** T{f: e, ..}: every key is a field, none twice; the other fields are zero *)
Definition literal (t : string) (given : list (string * uval)) : option uval :=
  match get t structs with
  | None => None
  | Some fs =>
      if forallb (fun g => mem (fst g) (map fst fs)) given && no_twice (map fst given)
      then Some (URec t (map (fun f => (fst f, match get (fst f) given with Some v => v | None => snd f end)) fs))
      else None
  end.

(** a call of a function that is not the program's.  time.Tick: a nil channel
    for d <= 0, otherwise one with a buffer for one tick *)
Definition is_tick (f : uval) : bool :=
  match f with USel (UPkg p) g => String.eqb p "time" && String.eqb g "Tick" | _ => false end.
Definition outside (f : uval) (args : list uval) (st : ust) : ures uval :=
  let st1 := USt (cells st) (chans st) (tickers st) (spawned st) (outs st ++ [(f, args)]) in
  match f with
  | USel _ _ =>
      if is_tick f then
        match args with
        | [UNum d] =>
            if (d <=? 0)%Z then ROk UNil st1
            else let '(k, st2) := new_chan 1 st1 in
                 ROk (UChan k) (USt (cells st2) (chans st2) (tickers st2 ++ [k]) (spawned st2) (outs st2))
        | _ => RStuck
        end
      else ROk (URes (length (outs st))) st1
  | _ => RStuck
  end.

Fixpoint eval_list (ev : kexpr -> ust -> ures uval) (l : list kexpr) (st : ust) : ures (list uval) :=
  match l with
  | [] => ROk [] st
  | e :: l' => udo v, st1 <- ev e st; udo vs, st2 <- eval_list ev l' st1; ROk (v :: vs) st2
  end.

(** what a statement does: the variables after it, or the values returned *)
Inductive flow := FNext (env : uenv) | FReturn (vs : list uval).

Fixpoint each (body : uval -> ust -> ures flow) (env : uenv) (l : list uval) (st : ust) : ures flow :=
  match l with
  | [] => ROk (FNext env) st
  | v :: l' =>
      udo fl, st1 <- body v st;
      match fl with FReturn vs => ROk (FReturn vs) st1 | FNext _ => each body env l' st1 end
  end.
Fixpoint count (cond : ust -> ures uval) (body : ust -> ures flow) (i : nat) (env : uenv) (fuel : nat) (st : ust) : ures flow :=
  match fuel with
  | 0 => RFuel
  | S fuel' =>
      udo c, st1 <- cond st;
      match c with
      | UBool false => ROk (FNext env) st1
      | UBool true =>
          udo fl, st2 <- body st1;
          match fl, nth_error (cells st2) i with
          | FReturn vs, _ => ROk (FReturn vs) st2
          | FNext _, Some (UNum z) => count cond body i env fuel' (set_cell i (UNum (z + 1)) st2)
          | _, _ => RStuck
          end
      | _ => RStuck
      end
  end.

(** [n] bounds the depth of nesting *)
Fixpoint keval (n : nat) (env : uenv) (e : kexpr) (st : ust) {struct n} : ures uval :=
  match n with
  | 0 => RFuel
  | S n =>
      match e with
      | KVar x =>
          match get x env with
          | Some a => match nth_error (cells st) a with Some v => ROk v st | None => RStuck end
          | None => if String.eqb x "nil" then ROk UNil st else if mem x packages then ROk (UPkg x) st else RStuck
          end
      | KNum k => match number_of k with Some z => ROk (UNum z) st | None => RStuck end
      | KStr w => ROk (UStr (wtext w)) st
      | KSel e f => udo v, st1 <- keval n env e st; match select v f st1 with Some w => ROk w st1 | None => RStuck end
      | KCall f args =>
          udo g, st1 <- keval n env f st;
          udo vs, st2 <- eval_list (keval n env) args st1;
          match g with
          | UFun ps body fenv =>
              if Nat.eqb (length ps) (length vs) then
                let '(env', st3) := bindings ps vs fenv st2 in
                udo fl, st4 <- kexecs n env' body st3;
                match fl with FReturn [v] => ROk v st4 | FReturn _ => RStuck | FNext _ => ROk UNil st4 end
              else RStuck
          | _ => outside g vs st2
          end
      | KConv pkg t e => udo v, st1 <- keval n env e st; match convert pkg t v with Some w => ROk w st1 | None => RStuck end
      | KLen e =>
          udo v, st1 <- keval n env e st;
          match v with UList l => ROk (UNum (Z.of_nat (length l))) st1 | UNil => ROk (UNum 0) st1 | _ => RStuck end
      | KMake _ e =>
          udo v, st1 <- keval n env e st;
          match v with
          | UNum z => if (z <? 0)%Z then RPanic (UStr "makechan: size out of range") st1
                      else let '(k, st2) := new_chan (Z.to_nat z) st1 in ROk (UChan k) st2
          | _ => RStuck
          end
      | KLit addr _ t fs =>
          udo vs, st1 <- eval_list (keval n env) (map snd fs) st;
          match literal (wtext t) (combine (map (fun f => wtext (fst f)) fs) vs) with
          | Some r => if addr then let '(a, st2) := alloc r st1 in ROk (UPtr a) st2 else ROk r st1
          | None => RStuck
          end
      | KAddr x => match get x env with Some a => ROk (UPtr a) st | None => RStuck end
      | KIdx e i =>
          udo v, st1 <- keval n env e st;
          udo j, st2 <- keval n env i st1;
          match v, j with
          | UList l, UNum z =>
              match (if (z <? 0)%Z then None else nth_error l (Z.to_nat z)) with
              | Some w => ROk w st2
              | None => RPanic (UStr "index out of range") st2
              end
          | _, _ => RStuck
          end
      | KBin op a b =>
          udo v, st1 <- keval n env a st;
          if String.eqb op "&&" then
            match v with
            | UBool false => ROk (UBool false) st1
            | UBool true => udo w, st2 <- keval n env b st1; match w with UBool _ => ROk w st2 | _ => RStuck end
            | _ => RStuck
            end
          else
            udo w, st2 <- keval n env b st1;
            match binop op v w with Some r => ROk r st2 | None => RStuck end
      | KFunc ps body => ROk (UFun (map fst ps) body env) st
      end
  end
with kexecs (n : nat) (env : uenv) (l : list kstmt) (st : ust) {struct n} : ures flow :=
  match n with
  | 0 => RFuel
  | S n =>
      match l with
      | [] => ROk (FNext env) st
      | s :: l' =>
          udo fl, st1 <- kexec n env s st;
          match fl with FReturn vs => ROk (FReturn vs) st1 | FNext env' => kexecs n env' l' st1 end
      end
  end
with kexec (n : nat) (env : uenv) (s : kstmt) (st : ust) {struct n} : ures flow :=
  match n with
  | 0 => RFuel
  | S n =>
      match s with
      | JDef x e => udo v, st1 <- keval n env e st; let '(a, st2) := alloc v st1 in ROk (FNext ((x, a) :: env)) st2
      | JSet x f e =>
          udo v, st1 <- keval n env e st;
          match get x env with
          | None => RStuck
          | Some a =>
              match nth_error (cells st1) a with
              | Some (URec t fs) => if mem f (map fst fs) then ROk (FNext env) (set_cell a (URec t (put f v fs)) st1) else RStuck
              | Some (UPtr b) =>
                  match nth_error (cells st1) b with
                  | Some (URec t fs) => if mem f (map fst fs) then ROk (FNext env) (set_cell b (URec t (put f v fs)) st1) else RStuck
                  | _ => RStuck
                  end
              | _ => RStuck
              end
          end
      | JIf c body =>
          udo v, st1 <- keval n env c st;
          match v with
          | UBool true => udo fl, st2 <- kexecs n env body st1;
                          match fl with FReturn vs => ROk (FReturn vs) st2 | FNext _ => ROk (FNext env) st2 end
          | UBool false => ROk (FNext env) st1
          | _ => RStuck
          end
      | JEach x e body =>
          udo v, st1 <- keval n env e st;
          match v with
          | UList l => each (fun v st => let '(a, st') := alloc v st in kexecs n ((x, a) :: env) body st') env l st1
          | UNil => ROk (FNext env) st1
          | _ => RStuck
          end
      | JCount i e body =>
          let '(a, st1) := alloc (UNum 0) st in
          count (fun st => keval n ((i, a) :: env) (KBin "<" (KVar i) e) st)
                (fun st => kexecs n ((i, a) :: env) body st) a env L st1
      | JRange _ _ _ => RStuck                       (* only in goroutines: Feeder.v *)
      | JSend ch e =>
          udo c, st1 <- keval n env ch st;
          udo v, st2 <- keval n env e st1;
          match c with
          | UChan k => match try_send k v st2 with Some st3 => ROk (FNext env) st3 | None => RBlock st2 end
          | UNil => RBlock st2
          | _ => RStuck
          end
      | JGo body => ROk (FNext env) (USt (cells st) (chans st) (tickers st) (spawned st ++ [(env, body)]) (outs st))
      | JDo e => udo _v, st1 <- keval n env e st; ROk (FNext env) st1
      | JPanic w => RPanic (UStr (wtext w)) st
      | JReturn es => udo vs, st1 <- eval_list (keval n env) es st; ROk (FReturn vs) st1
      end
  end.

(** a call with arguments [args], those of a variadic parameter one by one *)
Definition variadic (t : list gtok) : bool := match t with TP "." :: TP "." :: TP "." :: _ => true | _ => false end.
Fixpoint pack (ps : list (string * list gtok)) (args : list uval) : option (list uval) :=
  match ps, args with
  | [], [] => Some []
  | (_, t) :: ps', _ =>
      if variadic t then match ps' with [] => Some [UList args] | _ => None end
      else match args with a :: args' => option_map (cons a) (pack ps' args') | [] => None end
  | [], _ => None
  end.
Definition call_func (n : nat) (f : gofunc) (args : list uval) (st : ust) : ures (list uval) :=
  match pack (f_params f) args with
  | None => RStuck
  | Some vs =>
      let '(env, st1) := bindings (map fst (f_params f)) vs [] st in
      udo fl, st2 <- kexecs n env (f_body f) st1;
      match fl with FReturn vs => ROk vs st2 | FNext _ => RStuck end
  end.
End RUN.

(** ** Struct declarations: fields and zero values *)

(** the type in a field declaration *)
Fixpoint field_type (l : list gtok) : list gtok :=
  match l with
  | [] => []
  | [_] => l                                         (* embedded *)
  | TW _ :: TP c :: r => if byte_eqb c "," then field_type r else TP c :: r
  | _ :: r => r
  end.
Definition zero_of (t : list gtok) : uval :=
  match t with
  | [TW [PS n]] => if mem n ["int"; "uint32"] then UNum 0 else if String.eqb n "string" then UStr "" else UNil
  | [TW [PS p]; TP "."; TW [PS n]] =>
      if String.eqb p "time" && String.eqb n "Duration" then UNum 0 else UZero (p ++ "." ++ n)%string
  | [TW [PH d; PS n]] => UZero (d ++ n)%string       (* a struct type beside the decorator *)
  | _ => UNil                                        (* pointers, slices, channels, functions; the interface type *)
  end.
Definition struct_table (dec : string) (fields : list (list gtok)) : list (string * list (string * uval)) :=
  [(dec, flat_map (fun d => map (fun f => (f, zero_of (field_type d))) (declared_fields d)) fields)].

(** nothing yet *)
Definition empty : ust := USt [] [] [] [] [].
