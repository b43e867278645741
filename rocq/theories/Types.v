(** Model of generator/types.go. *)
From Verif Require Export Ast Printer Generics.

(** Param (types.go:26-32) *)
Record param := Param {
  p_doc : list string;
  p_comment : list string;
  p_name : string;
  p_type : string;
  p_variadic : bool
}.

(** Method (types.go:14-23) *)
Record method := Method {
  m_doc : list string;
  m_comment : list string;
  m_name : string;
  m_params : list param;
  m_results : list param;
  m_returnsError : bool;
  m_acceptsContext : bool
}.

(** genName (types.go:221-228).  The Go function recurses without bound; the
    fuel is shown sufficient in TypesProofs.v. *)
Fixpoint genName (fuel : nat) (prefix : string) (n : nat) (used : list string) : option string :=
  let name := (prefix ++ dec n)%string in
  if mem name used then
    match fuel with
    | O => None
    | S f => genName f prefix (S n) used
    end
  else Some name.

(** typePrefix (types.go:196-219).  [t.Name[0:1]] panics on an empty name. *)
Fixpoint typePrefix (O : oracle) (e : expr) : res string :=
  match e with
  | Selector _ sel =>
      match sel with
      | EmptyString => Panic "slice bounds out of range"
      | String c _ => Ok (go_lower (o_lower O) (String c ""))
      end
  | Star x => do p <- typePrefix O x; Ok (p ++ "p")%string
  | SliceE x => do p <- typePrefix O x; Ok (p ++ "s")%string
  | ArrayT _ elt => do p <- typePrefix O elt; Ok (p ++ "a")%string
  | MapT _ _ => Ok "m"
  | ChanT _ _ => Ok "ch"
  | StructT _ => Ok "st"
  | FuncT _ _ => Ok "f"
  | Ident n =>
      match n with
      | EmptyString => Panic "slice bounds out of range"
      | String c _ => Ok (go_lower (o_lower O) (String c ""))
      end
  | _ => Ok "p"
  end.

Definition is_ellipsis (e : expr) : bool := match e with Ellipsis _ => true | _ => false end.

Section Types.
  Variable O : oracle.
  (** the typePrinter passed in (types.go:9-11): any function *)
  Variable pr : expr -> res string.
  Variable gts : list genericType.
  Variable gps : list genericParam.

  (** NewParam (types.go:129-165).  [usedNames] is threaded as a list. *)
  Definition NewParam (name : string) (fi : field) (used : list string) : res (param * list string) :=
    do name' <- (if String.eqb name "" || mem name used then
                   do pfx <- typePrefix O (f_type fi);
                   match genName (length used) pfx 1 used with
                   | Some n => Ok n
                   | None => Panic "stack overflow"
                   end
                 else Ok name);
    let used' := name' :: used in
    do t <- pr (f_type fi);
    Ok (Param (f_doc fi) (f_comment fi) name' (buildGenericParamsString t gts gps)
              (is_ellipsis (f_type fi)), used').

  (** the inner loop over p.Names (types.go:183-189) *)
  Fixpoint makeParams_names (names : list string) (fi : field) (used : list string)
    : res (list param * list string) :=
    match names with
    | [] => Ok ([], used)
    | n :: ns =>
        do pu <- NewParam n fi used;
        do rest <- makeParams_names ns fi (snd pu);
        Ok (fst pu :: fst rest, snd rest)
    end.

  (** makeParams (types.go:167-194): the loop over params.List; nil list
      ([None]) gives nil. *)
  Fixpoint makeParams_list (l : list field) (used : list string) : res (list param * list string) :=
    match l with
    | [] => Ok ([], used)
    | f :: l' =>
        do pu <- match f_names f with
                 | [] => makeParams_names [""] f used
                 | ns => makeParams_names ns f used
                 end;
        do rest <- makeParams_list l' (snd pu);
        Ok (fst pu ++ fst rest, snd rest)
    end.

  Definition makeParams (l : option (list field)) (used : list string) : res (list param * list string) :=
    match l with None => Ok ([], used) | Some l => makeParams_list l used end.

  Definition set_name (n : string) (p : param) : param :=
    Param (p_doc p) (p_comment p) n (p_type p) (p_variadic p).

  (** m.Results[len(m.Results)-1].Name = "err" *)
  Fixpoint rename_last (n : string) (l : list param) : list param :=
    match l with
    | [] => []
    | [p] => [set_name n p]
    | p :: l' => p :: rename_last n l'
    end.

  (** m.Params[0].Name = "ctx" *)
  Definition rename_first (n : string) (l : list param) : list param :=
    match l with [] => [] | p :: l' => set_name n p :: l' end.

  (** types.go:93-97: f.Results.List[len-1] panics when the list is present but
      empty (a method declared with an explicit empty result list, [F() ()]). *)
  Definition returns_error (results : option (list field)) : res bool :=
    match results with
    | None => Ok false
    | Some l =>
        match List.rev l with
        | [] => Panic "index out of range [-1]"
        | f :: _ => match f_type f with
                    | Ident n => Ok (String.eqb n "error")
                    | _ => Ok false
                    end
        end
    end.

  (** types.go:99-104: first parameter's type is a selector; does it end in
      .Context? *)
  Definition first_selector (params : list field) : option string :=
    match params with
    | [] => None
    | f :: _ => match f_type f with Selector _ s => Some s | _ => None end
    end.

  (** NewMethod (types.go:69-126) *)
  Definition NewMethod (name : string) (fi : field) : res method :=
    match f_type fi with
    | FuncT ps rs =>
        do re <- returns_error rs;
        let used1 := match rs with None => [] | Some _ => ["err"] end in
        let ac := match first_selector ps with Some s => String.eqb s "Context" | None => false end in
        let used2 := match first_selector ps with Some _ => "ctx" :: used1 | None => used1 end in
        do pu <- makeParams (Some ps) used2;
        do ru <- makeParams rs (snd pu);
        (* types.go:118 / 122: index expressions panic on empty slices *)
        if re && (match fst ru with [] => true | _ => false end) then Panic "index out of range [-1]"
        else if ac && (match fst pu with [] => true | _ => false end) then Panic "index out of range [0]"
        else
        Ok (Method (f_doc fi) (f_comment fi) name
              (if ac then rename_first "ctx" (fst pu) else fst pu)
              (if re then rename_last "err" (fst ru) else fst ru)
              re ac)
    | _ => Err (Sentinel (name ++ " is not a method"))
    end.
End Types.

(** ** String renderings of a method (types.go:230-369) *)

(** Param.Pass (types.go:61-66) *)
Definition param_pass (p : param) : string :=
  if p_variadic p then (p_name p ++ "...")%string else p_name p.

(** ParamsSlice.String (types.go:38-45) *)
Definition params_string (ps : list param) : string :=
  join ", " (map (fun p => (p_name p ++ " " ++ p_type p)%string) ps).

(** ParamsSlice.Pass (types.go:50-57) *)
Definition params_pass (ps : list param) : string := join ", " (map param_pass ps).

(** Method.Call (types.go:231-238) *)
Definition Call (m : method) : string :=
  (m_name m ++ "(" ++ join ", " (map param_pass (m_params m)) ++ ")")%string.

Definition nl : string := String "010" "".

(** Method.Pass (types.go:242-248) *)
Definition Pass (prefix : string) (m : method) : string :=
  match m_results m with
  | [] => (prefix ++ Call m ++ nl ++ "return")%string
  | _ => ("return " ++ prefix ++ Call m)%string
  end.

(** Method.ParamsNames (types.go:251-257) / ResultsNames (260-266) *)
Definition ParamsNames (m : method) : string := join ", " (map p_name (m_params m)).
Definition ResultsNames (m : method) : string := join ", " (map p_name (m_results m)).

(** Method.ParamsStruct (types.go:270-280) *)
Definition ParamsStruct (m : method) : string :=
  ("struct{" ++ nl ++ join (nl ++ " ")
     (map (fun p => if p_variadic p then (p_name p ++ " " ++ replace1 "..." "[]" (p_type p))%string
                    else (p_name p ++ " " ++ p_type p)%string) (m_params m)) ++ "}")%string.

(** Method.ParamPtrsStruct (types.go:284-294) *)
Definition ParamPtrsStruct (m : method) : string :=
  ("struct{" ++ nl ++ join (nl ++ " ")
     (map (fun p => if p_variadic p then (p_name p ++ " *" ++ replace1 "..." "[]" (p_type p))%string
                    else (p_name p ++ " *" ++ p_type p)%string) (m_params m)) ++ "}")%string.

(** Method.ResultsStruct (types.go:298-304) *)
Definition ResultsStruct (m : method) : string :=
  ("struct{" ++ nl ++ join (nl ++ " ")
     (map (fun r => (p_name r ++ " " ++ p_type r)%string) (m_results m)) ++ "}")%string.

Definition quote : string := String "034" "".

Definition map_entries (ps : list param) : list string :=
  map (fun p => (quote ++ p_name p ++ quote ++ ": " ++ p_name p)%string) ps.

(** Method.ParamsMap (types.go:308-314) / ResultsMap (318-324) *)
Definition ParamsMap (m : method) : string :=
  ("map[string]interface{}{" ++ nl ++ join ("," ++ nl ++ " ") (map_entries (m_params m)) ++ "}")%string.
Definition ResultsMap (m : method) : string :=
  ("map[string]interface{}{" ++ nl ++ join ("," ++ nl ++ " ") (map_entries (m_results m)) ++ "}")%string.

(** Method.HasParams / HasResults (types.go:327-334) *)
Definition HasParams (m : method) : bool := match m_params m with [] => false | _ => true end.
Definition HasResults (m : method) : bool := match m_results m with [] => false | _ => true end.

(** Method.ReturnStruct (types.go:338-348) *)
Definition ReturnStruct (m : method) (structName : string) : string :=
  match m_results m with
  | [] => "return"
  | rs => ("return " ++ join ", " (map (fun r => (structName ++ "." ++ p_name r)%string) rs))%string
  end.

(** Method.Signature (types.go:352-364) *)
Definition Signature (m : method) : string :=
  ("(" ++ params_string (m_params m) ++ ") (" ++ params_string (m_results m) ++ ")")%string.

(** Method.Declaration (types.go:367-369) *)
Definition Declaration (m : method) : string := (m_name m ++ Signature m)%string.
