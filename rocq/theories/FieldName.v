(** The names a field declaration of a Go struct declares (Go specification,
    "Struct types"). *)
From Verif Require Export GoTok.
Open Scope nat_scope.

(** the type name an embedded field is called by: [pkg.Doer[T]] is called Doer *)
Fixpoint before_bracket (s : string) : string :=
  match s with EmptyString => EmptyString | String c s' => if byte_eqb c "[" then EmptyString else String c (before_bracket s') end.
Fixpoint after_dot (s : string) : string :=
  match s with
  | EmptyString => EmptyString
  | String c s' => if byte_eqb c "." then s' else match after_dot s' with EmptyString => EmptyString | r => r end
  end.
Definition unqualified (s : string) : string := let b := before_bracket s in match after_dot b with EmptyString => b | n => n end.
(** names a field declaration declares: one type name, or names with a type *)
Fixpoint declared_fields (l : list gtok) : list string :=
  match l with
  | [] => []
  | TW w :: r =>
      match r with
      | [] => [unqualified (wtext w)]
      | TP c :: ((_ :: _) as r') => if byte_eqb c "," then wtext w :: declared_fields r' else [wtext w]
      | _ => [wtext w]
      end
  | _ => []
  end.
