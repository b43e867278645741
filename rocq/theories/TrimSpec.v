(** What trimming white space means: Unicode's White_Space, UTF-8 encoded. *)
From Verif Require Import Utf8.
Open Scope N_scope.

(** Unicode White_Space: TAB to CR, SPACE, NEL, NO-BREAK SPACE, OGHAM SPACE MARK,
    EN QUAD to HAIR SPACE, LINE and PARAGRAPH SEPARATOR, NARROW NO-BREAK SPACE,
    MEDIUM MATHEMATICAL SPACE, IDEOGRAPHIC SPACE *)
Definition white (r : N) : Prop :=
  In r [9; 10; 11; 12; 13; 32; 133; 160; 5760; 8192; 8193; 8194; 8195; 8196; 8197; 8198; 8199; 8200; 8201; 8202; 8232; 8233; 8239; 8287; 12288].

Inductive blank : string -> Prop :=
| blank_nil : blank ""
| blank_cons r s : white r -> blank s -> blank (encode_rune r ++ s).

(** [t] is [s] without the white space around it *)
Definition trimmed (s t : string) : Prop :=
  (exists a b, s = (a ++ t ++ b)%string /\ blank a /\ blank b) /\
  (forall r u, white r -> t <> (encode_rune r ++ u)%string) /\
  (forall r u, white r -> t <> (u ++ encode_rune r)%string).
