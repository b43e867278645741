(** Model of generator/generics.go. *)
From Verif Require Export Ast.

(** genericParam / genericParams (generics.go:25-30) *)
Inductive genericParam := GParam (gp_name : string) (gp_params : list genericParam).

Definition gp_name (g : genericParam) : string := let 'GParam n _ := g in n.

(** genericParam.String (generics.go:32-42) *)
Fixpoint gp_string (g : genericParam) : string :=
  let 'GParam name params := g in
  match params with
  | [] => name
  | _ => (name ++ "[" ++ join ", " (map gp_string params) ++ "]")%string
  end.

(** genericType (generics.go:46-49) *)
Record genericType := GType { gt_type : string; gt_names : list string }.

(** buildGenericsWithBrackets (generics.go:51-56) *)
Definition buildGenericsWithBrackets (t : string) : string :=
  if String.eqb t "" then t else ("[" ++ t ++ "]")%string.

(** State of the nested loops of buildVars (generics.go:58-79).  Inner loop:
    accumulates paramsByType/params with their separators. *)
Fixpoint buildVars_inner (names : list string) (byType byTypeSep params paramsSep : string)
  : string * string * string :=
  match names with
  | [] => (byType, params, paramsSep)
  | n :: ns =>
      buildVars_inner ns (byType ++ byTypeSep ++ n)%string ", "
                      (params ++ paramsSep ++ n)%string ", "
  end.

Fixpoint buildVars_outer (g : list genericType) (types typesSep params paramsSep : string)
  : string * string :=
  match g with
  | [] => (types, params)
  | t :: g' =>
      let '(byType, params', paramsSep') := buildVars_inner (gt_names t) "" "" params paramsSep in
      if String.eqb byType "" then buildVars_outer g' types typesSep params' paramsSep'
      else buildVars_outer g' (types ++ typesSep ++ byType ++ " " ++ gt_type t)%string ", " params' paramsSep'
  end.

(** genericTypes.buildVars: (Types, Params) *)
Definition buildVars (g : list genericType) : string * string :=
  let '(types, params) := buildVars_outer g "" "" "" "" in
  (buildGenericsWithBrackets types, buildGenericsWithBrackets params).

(** getPrefix (generics.go:139-152) *)
Definition getPrefix (n : string) (allTypes : list typespec) (typesPrefix : string) : string :=
  if String.eqb typesPrefix "" then ""
  else if existsb (fun at_ => String.eqb (ts_name at_) n) allTypes
       then (typesPrefix ++ ".")%string else "".

(** parseGenericType and parseBinaryExpr (generics.go:108-137).  A selector
    whose left side is not an identifier panics (failed type assertion,
    generics.go:125). *)
Fixpoint parseGenericType (e : expr) (allTypes : list typespec) (typesPrefix : string) : res string :=
  match e with
  | Ident n => Ok (getPrefix n allTypes typesPrefix ++ n)%string
  | Selector x s =>
      match x with
      | Ident p => Ok (p ++ "." ++ s)%string
      | _ => Panic "interface conversion: ast.Expr is not *ast.Ident"
      end
  | UnaryE op x =>
      if String.eqb op "~" then
        match x with
        | Ident n => Ok ("~" ++ n)%string
        | _ => Ok ""
        end
      else Ok ""
  | BinaryE op x y =>
      if String.eqb op "|" then
        do l <- parseGenericType x allTypes typesPrefix;
        do r <- parseGenericType y allTypes typesPrefix;
        Ok (l ++ " | " ++ r)%string
      else Ok ""
  | _ => Ok ""
  end.

(** buildGenericTypesFromSpec (generics.go:81-106); [None] TypeParams is nil. *)
Definition buildGenericTypesFromSpec (ts : typespec) (allTypes : list typespec) (typesPrefix : string)
  : res (list genericType) :=
  match ts_tparams ts with
  | None => Ok []
  | Some l =>
      mapM (fun f => do t <- parseGenericType (f_type f) allTypes typesPrefix;
                     Ok (GType t (f_names f))) l
  end.

(** buildGenericParamsString (generics.go:154-167): [i] counts all names seen *)
Fixpoint bgps_names (typeStr : string) (names : list string) (i : nat) (params : list genericParam)
  : option string + nat :=
  match names with
  | [] => inr i
  | n :: ns =>
      if String.eqb n typeStr then
        match nth_error params i with
        | Some p => inl (Some (gp_string p))
        | None => bgps_names typeStr ns (S i) params
        end
      else bgps_names typeStr ns (S i) params
  end.

Fixpoint bgps_types (typeStr : string) (g : list genericType) (i : nat) (params : list genericParam) : string :=
  match g with
  | [] => typeStr
  | t :: g' =>
      match bgps_names typeStr (gt_names t) i params with
      | inl (Some s) => s
      | inl None => typeStr
      | inr i' => bgps_types typeStr g' i' params
      end
  end.

Definition buildGenericParamsString (typeStr : string) (g : list genericType) (params : list genericParam) : string :=
  bgps_types typeStr g 0 params.
