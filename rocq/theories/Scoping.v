(** Go's rules for declarations and scope (Go spec, "Declarations and scope",
    "Short variable declarations", "Return statements", and the implementation
    restriction of "Variable declarations"), over an abstract of a function body
    that only keeps blocks, declarations and uses of names; and the abstracts of
    the three fragments of Go the stock templates are modelled in. *)
From Verif Require Import Render.
From Verif Require Export Constructors FallbackBody.
Open Scope nat_scope.

(** ** Rules *)

Inductive item :=
| IUse (x : string)              (* the value, type or package called x is used *)
| IAssign (x : string)           (* x = .., x++: not a use *)
| IDefine (xs : list string)     (* xs := .. *)
| IVar (x : string)              (* var x *)
| IParam (x : string)            (* a parameter or a type: may stay unused *)
| IReturn (rs : list string)     (* return without values in a function with results rs *)
| IBlock (l : list item)
| IFun (l : list item).          (* the block of a function literal *)

(** the names an item adds to the block it stands in *)
Definition added (i : item) : list string :=
  match i with IDefine xs => xs | IVar x | IParam x => [x] | _ => [] end.

(** the variable [x] of an enclosing block is used *)
Fixpoint used_in (x : string) (i : item) : Prop :=
  match i with
  | IUse y => y = x
  | IBlock l | IFun l =>
      (fix go (l : list item) : Prop :=
         match l with [] => False | j :: r => used_in x j \/ (~ In x (added j) /\ go r) end) l
  | _ => False
  end.
(** the variable [x] is used in the rest of its block *)
Definition used (x : string) (rest : list item) : Prop := exists i, In i rest /\ used_in x i.

(** [blocks] are the names of the blocks the item stands in, innermost first;
    [d] of them are inside of the block of the function *)
Definition visible (blocks : list (list string)) (x : string) : Prop := x <> "_" /\ exists b, In b blocks /\ In x b.
Definition fresh (blocks : list (list string)) (x : string) : Prop := x <> "_" /\ ~ In x (hd [] blocks).
Definition enter (i : item) (blocks : list (list string)) : list (list string) :=
  match blocks with [] => [added i] | b :: r => (added i ++ b) :: r end.

Fixpoint item_ok (blocks : list (list string)) (d : nat) (rest : list item) (i : item) {struct i} : Prop :=
  let all := fix all (blocks : list (list string)) (d : nat) (l : list item) : Prop :=
    match l with [] => True | j :: r => item_ok blocks d r j /\ all (enter j blocks) d r end in
  match i with
  | IUse x => visible blocks x
  | IAssign x => x = "_" \/ visible blocks x
  | IDefine xs =>
      (exists x, In x xs /\ fresh blocks x)                     (* no new variables on left side of := *)
      /\ NoDup (filter (fun x => negb (String.eqb x "_")) xs)   (* x repeated on left side of := *)
      /\ forall x, In x xs -> fresh blocks x -> used x rest     (* declared and not used *)
  | IVar x => fresh blocks x /\ used x rest                     (* x redeclared in this block *)
  | IParam x => fresh blocks x
  | IReturn rs => forall r b, In r rs -> In b (firstn d blocks) -> ~ In r b   (* result not in scope at return *)
  | IBlock l => all ([] :: blocks) (S d) l
  | IFun l => all ([] :: blocks) 0 l
  end.
Fixpoint items_ok (blocks : list (list string)) (d : nat) (l : list item) : Prop :=
  match l with [] => True | i :: r => item_ok blocks d r i /\ items_ok (enter i blocks) d r end.

(** a function: its receiver, parameters and results are declared in the block of its body *)
Definition function_ok (globals params results : list string) (body : list item) : Prop :=
  NoDup (params ++ results) /\ ~ In "_" (params ++ results) /\ items_ok [params ++ results; globals] 0 body.

(** ** Names in types *)
Definition keywords : list string := ["interface"; "func"; "map"; "chan"; "struct"].
Definition dot (x : gtok) : bool := match x with TP c => byte_eqb c "." | _ => false end.
Definition paren (x : gtok) : bool := match x with TP c => byte_eqb c "(" | _ => false end.
(** the identifiers of a type that is not a function type, except the interface
    type inserted by the template and what follows the dot of a selector or
    precedes a parenthesis (methods of an interface type); [sel] after the
    identifier before a dot and that dot *)
Definition next_dot (l : list gtok) : bool := match l with x :: _ => dot x | [] => false end.
Fixpoint type_names (typ : string) (sel : bool) (l : list gtok) : list string :=
  match l with
  | [] => []
  | TW w :: r =>
      (if sel || existsb (String.eqb (wtext w)) (typ :: keywords) || match r with x :: _ => paren x | [] => false end
       then [] else [wtext w]) ++ type_names typ (next_dot r) r
  | x :: r => type_names typ (sel && dot x) r
  end.
(** the identifiers before the dot of a selector *)
Definition digit_first (s : string) : bool := match s with String c _ => existsb (byte_eqb c) ["0"; "1"; "2"; "3"; "4"; "5"; "6"; "7"; "8"; "9"]%char | _ => false end.
Fixpoint qualifiers (sel : bool) (l : list gtok) : list string :=
  match l with
  | [] => []
  | TW w :: r => (if next_dot r && negb sel && negb (digit_first (wtext w)) then [wtext w] else []) ++ qualifiers (next_dot r) r
  | x :: r => qualifiers (sel && dot x) r
  end.

(** of a function type, whose parameters have names, only the qualifiers *)
Definition is_func (x : gtok) : bool := match x with TW w => String.eqb (wtext w) "func" | _ => false end.
Definition names_in (typ : string) (t : list gtok) : list string := if existsb is_func t then qualifiers false t else type_names typ false t.

(** ** Method bodies (MiniGo.v) *)
Definition uses (xs : list string) : list item := map IUse xs.
Section BODIES.
Variable m : method.
Let params := map p_name (m_params m).
Let results := map p_name (m_results m).

Fixpoint eitems (e : gexpr) : list item :=
  match e with
  | EVar x => [IUse (wtext x)]
  | ESel e _ | EUn _ e | EShared e _ | EAddr e _ => eitems e
  | EStr _ | EInt _ => []
  | EBin _ a b | EIndex a b => eitems a ++ eitems b
  | ECall f args _ => eitems f ++ flat_map eitems args
  | EConv t e => uses (names_in "" t) ++ eitems e
  | EAssert e t => eitems e ++ uses (names_in "" t)
  | EFun body => [IFun (flat_map sitems body)]
  | ESliceLit t e mac => uses (names_in "" t) ++ eitems e ++ uses (if mac then params else results)
  | EMCall recv => eitems recv ++ uses params
  | EMap mac => uses (if mac then params else results)
  end
with sitems (s : gstmt) : list item :=
  match s with
  | SAssign lhs rhs => eitems rhs ++ flat_map (fun e => match e with EVar x => [IAssign (wtext x)] | _ => eitems e end) lhs
  | SResults rhs => eitems rhs ++ map IAssign results
  | SDefine xs rhs => eitems rhs ++ [IDefine (map wtext xs)]
  | SVar x t => uses (names_in "" t) ++ [IVar (wtext x)]
  | SExpr e | SDefer e => eitems e
  | SIf init c a b =>
      [IBlock (match init with Some i => sitems i | None => [] end ++ eitems c ++ [IBlock (flat_map sitems a); IBlock (flat_map sitems b)])]
  | SElseIf c a c2 b => [IBlock (eitems c ++ [IBlock (flat_map sitems a); IBlock (eitems c2 ++ [IBlock (flat_map sitems b)])])]
  | SFor init c post body => [IBlock (sitems init ++ eitems c ++ sitems post ++ [IBlock (flat_map sitems body)])]
  | SSelect cases => map (fun c => IBlock (eitems (fst c) ++ flat_map sitems (snd c))) cases
  | SInc x => match x with EVar w => [IAssign (wtext w)] | _ => eitems x end
  | SReturn => [IReturn results]
  | SPass _ recv => eitems recv ++ uses params
  | SSend ch e => eitems ch ++ eitems e
  | SRange x e body => eitems e ++ [IBlock [IDefine ["_"; wtext x]; IBlock (flat_map sitems body)]]
  end.
Definition body_items (l : list gstmt) : list item := flat_map sitems l.
End BODIES.

(** ** The body of templates/fallback (Goroutines.v) *)
Section FALLBACK.
Variable m : method.
Let params := map p_name (m_params m).
Let results := map p_name (m_results m).

Fixpoint xitems (e : cexpr) : list item :=
  match e with
  | XVar x => [IUse x]
  | XStr _ | XNum _ | XUnit => []
  | XSel e _ => xitems e
  | XIndex a b | XBin _ a b => xitems a ++ xitems b
  | XCall f args => xitems f ++ flat_map xitems args
  | XResults t => IUse t :: uses results
  end.
Definition comm_items (k : ccomm) : list item :=
  match k with
  | KRecv None ch => xitems ch
  | KRecv (Some x) ch => xitems ch ++ [IDefine [x]]
  | KSend ch e => xitems ch ++ xitems e
  end.
Fixpoint citems (s : cstmt) : list item :=
  match s with
  | CType x => [IParam x]
  | CMake x t cap => uses ("make" :: names_in "" t) ++ xitems cap ++ [IVar x]
  | CVar x t => uses (names_in "" t) ++ [IVar x]
  | CTicker x e => IUse "time" :: xitems e ++ [IVar x]
  | CWithCancel x c => [IUse "context"; IUse x; IDefine [x; c]]
  | CDefer e => xitems e
  | CGo ps body args => flat_map xitems args ++ [IFun (map (fun p => IParam (fst p)) ps ++ flat_map citems body)]
  | CFor x c body => [IBlock (IDefine [x] :: xitems c ++ [IAssign x; IBlock (flat_map citems body)])]
  | CEver body => [IBlock (flat_map citems body)]
  | CIf c body => [IBlock (xitems c ++ [IBlock (flat_map citems body)])]
  | CSelect cases _ => map (fun c => IBlock (comm_items (fst c) ++ flat_map citems (snd c))) cases
  | CComm k => comm_items k
  | CSet x e => xitems e ++ [IAssign x]
  | CReturn => [IReturn results]
  | CReturnStruct x => match results with [] => [] | _ => [IUse x] end
  | CMCall recv => xitems recv ++ uses params ++ match results with [] => [] | _ => [IDefine results] end
  end.
Definition fallback_items (l : list cstmt) : list item := flat_map citems l.
End FALLBACK.

(** ** Functions (Construct.v); [typ] is the interface type *)
Section FUNCTIONS.
Variable typ : string.

Fixpoint kitems (e : kexpr) : list item :=
  match e with
  | KVar x | KAddr x => [IUse x]
  | KNum _ | KStr _ => []
  | KSel e _ => kitems e
  | KCall f args => kitems f ++ flat_map kitems args
  | KConv pkg t e => IUse (match pkg with EmptyString => t | _ => pkg end) :: kitems e
  | KLen e => IUse "len" :: kitems e
  | KMake t n => uses ("make" :: names_in typ t) ++ kitems n
  | KLit _ _ t fs => IUse (wtext t) :: flat_map (fun f => kitems (snd f)) fs
  | KIdx a b | KBin _ a b => kitems a ++ kitems b
  | KFunc ps body => uses (flat_map (fun p => names_in typ (snd p)) ps) ++ [IFun (map (fun p => IParam (fst p)) ps ++ flat_map jitems body)]
  end
with jitems (s : kstmt) : list item :=
  match s with
  | JDef x e => kitems e ++ [IDefine [x]]
  | JSet x _ e => IUse x :: kitems e
  | JIf c body => [IBlock (kitems c ++ [IBlock (flat_map jitems body)])]
  | JEach x e body => kitems e ++ [IBlock [IDefine ["_"; x]; IBlock (flat_map jitems body)]]
  | JCount i n body => [IBlock (IDefine [i] :: IUse i :: kitems n ++ [IAssign i; IBlock (flat_map jitems body)])]
  | JRange x e body => kitems e ++ [IBlock [IDefine [x]; IBlock (flat_map jitems body)]]
  | JSend ch e => kitems ch ++ kitems e
  | JGo body => [IFun (flat_map jitems body)]
  | JDo e => kitems e
  | JPanic _ => [IUse "panic"]
  | JReturn es => flat_map kitems es
  end.
End FUNCTIONS.

(** ** What a generated file declares *)
Inductive gocode :=
| GMethod (star : list gtok) (dec : string) (m : method) (body : list gstmt)
| GFallback (dec : string) (m : method) (body : list cstmt)
| GFunc (f : gofunc)
| GInject.                       (* injectRequestDataToError (templates/twirp_error:33-44) *)

Definition code_toks (c : gocode) : list gtok :=
  match c with
  | GMethod star dec m body => method_toks star dec m (btoks m body)
  | GFallback dec m body => fallback_header dec m ++ TP "{" :: cbody m body ++ [TP "}"]
  | GFunc f => func_toks f
  | GInject => inject_decl no_method
  end.

(** a declaration without a body *)
Inductive bodiless : list gtok -> Prop :=
| bl_import l : bodiless (kw "import" ++ l)
| bl_type l : bodiless (kw "type" ++ l)
| bl_var l : bodiless (kw "var" ++ l).

(** the function obeys the rules when [globals] are the names of the file, the package and the language *)
Definition code_ok (typ : string) (globals : list string) (c : gocode) : Prop :=
  match c with
  | GMethod _ _ m body =>
      function_ok globals ("_d" :: map p_name (m_params m)) (map p_name (m_results m)) (body_items m body)
  | GFallback _ m body =>
      function_ok globals ("_d" :: map p_name (m_params m)) (map p_name (m_results m)) (fallback_items m body)
  | GFunc f =>
      Forall (visible [globals]) (flat_map (fun p => names_in typ (snd p)) (f_params f) ++ names_in typ (f_results f))
      /\ function_ok globals (map fst (f_params f)) [] (flat_map (jitems typ) (f_body f))
  | GInject => function_ok globals ["req"; "perr"] [] (body_items no_method inject_body)
  end.
