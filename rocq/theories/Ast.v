(** The fragment of go/ast that gowrap inspects (go/ast as used by
    generator/*.go and printer/printer.go). *)
From Verif Require Export GoStr Utf8.

(** ast.ChanDir *)
Inductive chandir := SendRecv | SendOnly | RecvOnly.

(** *ast.Field.  [f_names = []] models a nil [Names] (anonymous parameter or
    embedded element), which is what go/parser produces; positions are not
    modelled.  [f_tag] is the struct tag literal. *)
Record field_ (E : Type) := Field {
  f_doc : list string;
  f_comment : list string;
  f_names : list string;
  f_type : E;
  f_tag : option string
}.
Arguments Field {E} _ _ _ _ _. Arguments f_doc {E} _. Arguments f_comment {E} _.
Arguments f_names {E} _. Arguments f_type {E} _. Arguments f_tag {E} _.

(** ast.Expr.  [FuncT] parameters are never nil (go/ast: "non-nil"); the result
    list and an interface's method list may be nil ([None]) or present.
    [ArrayT None] is a slice.  Nodes gowrap never distinguishes carry only what
    go/printer needs. *)
Inductive expr : Type :=
| Ident (n : string)
| Selector (x : expr) (sel : string)
| Star (x : expr)
| Ellipsis (elt : expr)
| ArrayT (len : option expr) (elt : expr)
| MapT (key val : expr)
| ChanT (dir : chandir) (val : expr)
| FuncT (params : list (field_ expr)) (results : option (list (field_ expr)))
| StructT (fields : list (field_ expr))
| InterfaceT (methods : option (list (field_ expr)))
| IndexE (x index : expr)
| IndexListE (x : expr) (indices : list expr)
| UnaryE (op : string) (x : expr)
| BinaryE (op : string) (x y : expr)
| ParenE (x : expr)
| SliceE (x : expr)
| BasicLit (lit : string).

Definition field := field_ expr.

(** *ast.TypeSpec *)
Record typespec := TypeSpec {
  ts_name : string;
  ts_tparams : option (list field);
  ts_type : expr
}.

(** *ast.ImportSpec: optional name and the quoted path literal *)
Record importspec := ImportSpec {
  im_name : option string;
  im_path : string
}.

(** What the model takes from outside:
    - [o_fprint]: go/printer.Fprint on nodes other than identifiers, selectors
      on identifiers and literals: text written and error;
    - [o_lower]: unicode.ToLower outside ASCII. *)
Record oracle := Oracle {
  o_fprint : expr -> string * option gerr;
  o_lower : N -> N
}.

(** go/printer.Fprint.  Identifiers, qualified identifiers and literals are
    printed verbatim; everything else is the oracle's business. *)
Definition fprint (O : oracle) (e : expr) : string * option gerr :=
  match e with
  | Ident n => (n, None)
  | BasicLit s => (s, None)
  | Selector (Ident p) s => ((p ++ "." ++ s)%string, None)
  | _ => o_fprint O e
  end.

(** ** Induction principle for [expr] through lists and options *)
Section expr_ind'.
  Variable P : expr -> Prop.
  Definition Pf (f : field) := P (f_type f).
  Hypothesis HIdent : forall n, P (Ident n).
  Hypothesis HSelector : forall x s, P x -> P (Selector x s).
  Hypothesis HStar : forall x, P x -> P (Star x).
  Hypothesis HEllipsis : forall x, P x -> P (Ellipsis x).
  Hypothesis HArray : forall l x, (forall y, l = Some y -> P y) -> P x -> P (ArrayT l x).
  Hypothesis HMap : forall k v, P k -> P v -> P (MapT k v).
  Hypothesis HChan : forall d v, P v -> P (ChanT d v).
  Hypothesis HFunc : forall ps rs, Forall Pf ps -> (forall l, rs = Some l -> Forall Pf l) -> P (FuncT ps rs).
  Hypothesis HStruct : forall fs, Forall Pf fs -> P (StructT fs).
  Hypothesis HInterface : forall ms, (forall l, ms = Some l -> Forall Pf l) -> P (InterfaceT ms).
  Hypothesis HIndex : forall x i, P x -> P i -> P (IndexE x i).
  Hypothesis HIndexList : forall x l, P x -> Forall P l -> P (IndexListE x l).
  Hypothesis HUnary : forall o x, P x -> P (UnaryE o x).
  Hypothesis HBinary : forall o x y, P x -> P y -> P (BinaryE o x y).
  Hypothesis HParen : forall x, P x -> P (ParenE x).
  Hypothesis HSlice : forall x, P x -> P (SliceE x).
  Hypothesis HLit : forall s, P (BasicLit s).

  Fixpoint expr_ind' (e : expr) : P e :=
    let fields := fix go (l : list field) : Forall Pf l :=
      match l return Forall Pf l with
      | [] => Forall_nil _
      | f :: l' => Forall_cons f (match f return Pf f with Field _ _ _ t _ => expr_ind' t end) (go l')
      end in
    match e return P e with
    | Ident n => HIdent n
    | Selector x s => HSelector x s (expr_ind' x)
    | Star x => HStar x (expr_ind' x)
    | Ellipsis x => HEllipsis x (expr_ind' x)
    | ArrayT l x =>
        HArray l x (match l return (forall y, l = Some y -> P y) with
                    | Some z => fun y H => match H in _ = o return match o with Some y' => P y' | None => True end with
                                           | eq_refl => expr_ind' z end
                    | None => fun y H => match H in _ = o return match o with Some y' => P y' | None => True end with
                                         | eq_refl => I end
                    end) (expr_ind' x)
    | MapT k v => HMap k v (expr_ind' k) (expr_ind' v)
    | ChanT d v => HChan d v (expr_ind' v)
    | FuncT ps rs =>
        HFunc ps rs (fields ps)
          (match rs return (forall l, rs = Some l -> Forall Pf l) with
           | Some z => fun y H => match H in _ = o return match o with Some y' => Forall Pf y' | None => True end with
                                  | eq_refl => fields z end
           | None => fun y H => match H in _ = o return match o with Some y' => Forall Pf y' | None => True end with
                                | eq_refl => I end
           end)
    | StructT fs => HStruct fs (fields fs)
    | InterfaceT ms =>
        HInterface ms
          (match ms return (forall l, ms = Some l -> Forall Pf l) with
           | Some z => fun y H => match H in _ = o return match o with Some y' => Forall Pf y' | None => True end with
                                  | eq_refl => fields z end
           | None => fun y H => match H in _ = o return match o with Some y' => Forall Pf y' | None => True end with
                                | eq_refl => I end
           end)
    | IndexE x i => HIndex x i (expr_ind' x) (expr_ind' i)
    | IndexListE x l =>
        HIndexList x l (expr_ind' x)
          ((fix go (l : list expr) : Forall P l :=
              match l return Forall P l with
              | [] => Forall_nil _
              | y :: l' => Forall_cons y (expr_ind' y) (go l')
              end) l)
    | UnaryE o x => HUnary o x (expr_ind' x)
    | BinaryE o x y => HBinary o x y (expr_ind' x) (expr_ind' y)
    | ParenE x => HParen x (expr_ind' x)
    | SliceE x => HSlice x (expr_ind' x)
    | BasicLit s => HLit s
    end.
End expr_ind'.
