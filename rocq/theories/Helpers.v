(** Model of the template helper functions defined by gowrap itself in
    cmd_generate.go: upFirst, downFirst, toSnakeCase. *)
From Verif Require Export Utf8.
Open Scope nat_scope.

(** ** upFirst, downFirst (cmd_generate.go:280-292)

    [for _, v := range s] decodes the first rune [v]; the rest of the string is
    taken as [s[len(string(v)):]], which is the length of the re-encoded rune
    and not the number of bytes consumed.  Slicing beyond the end panics. *)
Definition change_first (f : N -> N) (s : string) : res string :=
  match decode_rune s with
  | None => Ok ""
  | Some (v, _) =>
      let n := String.length (encode_rune v) in
      if n <=? String.length s then Ok (encode_rune (f v) ++ drop n s)%string
      else Panic "slice bounds out of range"
  end.

Definition upFirst (upper : N -> N) (s : string) : res string := change_first (rune_upper upper) s.
Definition downFirst (lower : N -> N) (s : string) : res string := change_first (rune_lower lower) s.

(** ** toSnakeCase (cmd_generate.go:294-301) *)

Definition is_upper (c : ascii) : bool := is_upper_ascii (byte c).
Definition is_lower (c : ascii) : bool := is_lower_ascii (byte c).
Definition is_digit (c : ascii) : bool := in_range 48 57 (byte c).
Definition newline : ascii := "010".

(** longest prefix of bytes satisfying [p], and the rest *)
Fixpoint span (p : ascii -> bool) (s : string) : string * string :=
  match s with
  | EmptyString => ("", "")
  | String c s' => if p c then let '(a, b) := span p s' in (String c a, b) else ("", s)
  end.

(** regexp.ReplaceAllString: [m s] is the match at the start of [s], given as
    replacement text and the rest of the input.  Matches are leftmost and do
    not overlap. *)
Fixpoint replace_all (m : string -> option (string * string)) (fuel : nat) (s : string) : string :=
  match fuel with
  | 0 => s
  | S f =>
      match m s with
      | Some (r, rest) => (r ++ replace_all m f rest)%string
      | None => match s with
                | EmptyString => EmptyString
                | String c s' => String c (replace_all m f s')
                end
      end
  end.

(** matchFirstCap: (.)([A-Z][a-z]+), replaced by ${1}_${2}.  The dot matches
    one rune other than a newline.  Bytes instead of runes: the byte before the
    capital letter is the last byte of its rune, the text before it is copied
    in both cases, and a match never ends inside a rune. *)
Definition first_cap (s : string) : option (string * string) :=
  match s with
  | String a (String b r) =>
      if negb (byte_eqb a newline) && is_upper b then
        match span is_lower r with
        | (EmptyString, _) => None
        | (ls, rest) => Some (String a (String "_" (String b ls)), rest)
        end
      else None
  | _ => None
  end.

(** matchAllCap: ([a-z0-9])([A-Z]), replaced by ${1}_${2} *)
Definition all_cap (s : string) : option (string * string) :=
  match s with
  | String a (String b r) =>
      if (is_lower a || is_digit a) && is_upper b
      then Some (String a (String "_" (String b "")), r) else None
  | _ => None
  end.

Definition replace_all_string (m : string -> option (string * string)) (s : string) : string :=
  replace_all m (String.length s) s.

Definition toSnakeCase (lower : N -> N) (s : string) : string :=
  go_lower lower (replace_all_string all_cap (replace_all_string first_cap s)).
