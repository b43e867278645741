(** Model of printer/printer.go. *)
From Verif Require Export Ast.

(** State-passing over the Printer's shared bytes.Buffer (printer.go:18). *)
Definition M (A : Type) := string -> res A * string.
Definition mret {A} (a : A) : M A := fun b => (Ok a, b).
Definition mfail {A} (e : gerr) : M A := fun b => (Err e, b).
Definition mbind {A B} (m : M A) (f : A -> M B) : M B :=
  fun b => match m b with
           | (Ok a, b') => f a b'
           | (Err e, b') => (Err e, b')
           | (Panic p, b') => (Panic p, b')
           end.
Notation "'let!' x := m 'in' k" := (mbind m (fun x => k))
  (at level 200, x name, m at level 100, k at level 200).

(** [defer p.buf.Reset()] (printer.go:39, 51): runs however the body ends. *)
Definition with_reset {A} (m : M A) : M A := fun b => (fst (m b), "").

(** [err := printer.Fprint(p.buf, p.fs, node); return p.buf.String(), err]
    (printer.go:41-43, 76-77, 154-155) *)
Definition fprint_m (O : oracle) (e : expr) : M string :=
  fun b =>
    let '(s, err) := fprint O e in
    let b' := (b ++ s)%string in
    match err with
    | None => (Ok b', b')
    | Some er => (Err er, b')
    end.

Definition errUnexportedType : gerr := Sentinel "unexported type". (* printer.go:134 *)

(** chanTypes (printer.go:94-98) *)
Definition chanType (d : chandir) : string :=
  match d with
  | SendRecv => "chan "
  | SendOnly => "chan<- "
  | RecvOnly => "<-chan "
  end.

Section Printer.
  Variable O : oracle.
  Variable types : list typespec.   (* p.types *)
  Variable prefix : string.         (* p.typesPrefix *)

  (** Print (printer.go:35-44); [None] is a nil node. *)
  Definition print_node (node : option expr) : M string :=
    match node with
    | None => mret ""
    | Some e => with_reset (fprint_m O e)
    end.

  (** printIdent (printer.go:136-156): loop over p.types *)
  Fixpoint printIdent_loop (ts : list typespec) (n : string) : M string :=
    match ts with
    | [] => fprint_m O (Ident n)
    | t :: ts' =>
        if String.eqb n (ts_name t) then
          if negb (String.eqb prefix "") then
            fun b =>
              match looks_unexported (o_lower O) (ts_name t) with
              | Ok true => (Err (Wrapped (ts_name t) errUnexportedType), b)
              | Ok false => (Ok (prefix ++ "." ++ n)%string, b)
              | Err e => (Err e, b)
              | Panic p => (Panic p, b)
              end
          else mret n
        else printIdent_loop ts' n
    end.
  Definition printIdent (n : string) : M string := printIdent_loop types n.

  (** The body of the loop in printGenericList (printer.go:178-192): [first]
      elements are followed by ", ", the last one by "]". *)
  Fixpoint generic_list_tail (l : list string) : string :=
    match l with
    | [] => ""
    | [x] => (x ++ "]")%string
    | x :: l' => (x ++ ", " ++ generic_list_tail l')%string
    end.

  (** PrintType (printer.go:50-78) with printArray (80-92), printChan (100-107),
      printFunc (109-120), printMap (122-132), printGeneric (158-170),
      printGenericList (172-193), printPointer (195-202), printStruct (204-211),
      printVariadicParam (213-220) and fieldList (222-244) inlined, because they
      are mutually recursive.  Every exit resets the buffer. *)
  Fixpoint printType (e : expr) : M string :=
    let fieldList := fix fieldList (l : list field) : M (list string) :=
      match l with
      | [] => mret []
      | f :: l' =>
          let! paramType := printType (f_type f) in
          let! rest := fieldList l' in
          mret ((join ", " (f_names f) ++ " " ++ paramType)%string :: rest)
      end in
    with_reset
    match e with
    | FuncT ps rs =>
        let! params := fieldList ps in
        let! results := match rs with None => mret [] | Some l => fieldList l end in
        mret ("func(" ++ join ", " params ++ ") (" ++ join ", " results ++ ")")%string
    | Star x =>
        let! pointerTo := printType x in
        mret ("*" ++ pointerTo)%string
    | Ellipsis x =>
        let! sliceType := printType x in
        mret ("..." ++ sliceType)%string
    | ChanT d v =>
        let! valueType := printType v in
        mret (chanType d ++ valueType)%string
    | ArrayT len elt =>
        let! sliceType := printType elt in
        let! l := print_node len in
        mret ("[" ++ l ++ "]" ++ sliceType)%string
    | MapT k v =>
        let! keyType := printType k in
        let! valueType := printType v in
        mret ("map[" ++ keyType ++ "]" ++ valueType)%string
    | StructT fs =>
        let! fields := fieldList fs in
        mret ("struct{" ++ String "010" (join (String "010" "") fields ++ String "010" "}"))%string
    | Ident n => printIdent n
    | IndexE x i =>
        let! t := printType x in
        let! generic := printType i in
        mret (t ++ "[" ++ generic ++ "]")%string
    | IndexListE x indices =>
        let! t := printType x in
        let! gs := (fix go (l : list expr) : M (list string) :=
                      match l with
                      | [] => mret []
                      | y :: l' => let! g := printType y in let! rest := go l' in mret (g :: rest)
                      end) indices in
        mret (t ++ "[" ++ generic_list_tail gs)%string
    | _ => fprint_m O e
    end.

  (** A fresh printer: the buffer is empty (printer.New, printer.go:25-32). *)
  Definition PrintType (e : expr) : res string := fst (printType e "").
End Printer.
