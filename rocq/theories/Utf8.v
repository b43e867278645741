(** UTF-8 as Go's [for range], [[]rune(s)], [string(r)] and [strings.ToLower]
    see it (unicode/utf8, strings.Map). *)
From Verif Require Export GoStr.
Open Scope N_scope.

Definition byte (c : ascii) : N := N_of_ascii c.
Definition RuneError : N := 65533.

Definition in_range (lo hi b : N) : bool := (lo <=? b) && (b <=? hi).

(** utf8.DecodeRuneInString: rune and width in bytes; [None] on the empty
    string.  Invalid encodings give (RuneError, 1). *)
Definition decode_rune (s : string) : option (N * nat) :=
  match s with
  | EmptyString => None
  | String c0 s1 =>
      let b0 := byte c0 in
      if b0 <? 128 then Some (b0, 1%nat)
      else
        match s1 with
        | EmptyString => Some (RuneError, 1%nat)
        | String c1 s2 =>
            let b1 := byte c1 in
            if in_range 194 223 b0 then
              if in_range 128 191 b1 then Some ((b0 - 192) * 64 + (b1 - 128), 2%nat)
              else Some (RuneError, 1%nat)
            else
              match s2 with
              | EmptyString => Some (RuneError, 1%nat)
              | String c2 s3 =>
                  let b2 := byte c2 in
                  if in_range 224 239 b0 then
                    let lo := if b0 =? 224 then 160 else 128 in
                    let hi := if b0 =? 237 then 159 else 191 in
                    if in_range lo hi b1 && in_range 128 191 b2
                    then Some ((b0 - 224) * 4096 + (b1 - 128) * 64 + (b2 - 128), 3%nat)
                    else Some (RuneError, 1%nat)
                  else
                    match s3 with
                    | EmptyString => Some (RuneError, 1%nat)
                    | String c3 _ =>
                        let b3 := byte c3 in
                        if in_range 240 244 b0 then
                          let lo := if b0 =? 240 then 144 else 128 in
                          let hi := if b0 =? 244 then 143 else 191 in
                          if in_range lo hi b1 && in_range 128 191 b2 && in_range 128 191 b3
                          then Some ((b0 - 240) * 262144 + (b1 - 128) * 4096 + (b2 - 128) * 64 + (b3 - 128), 4%nat)
                          else Some (RuneError, 1%nat)
                        else Some (RuneError, 1%nat)
                    end
              end
        end
  end.

Definition str1 (b : N) (s : string) : string := String (ascii_of_N b) s.

(** string(r): UTF-8 encoding; surrogates and out-of-range runes encode as
    U+FFFD. *)
Definition encode_rune (r : N) : string :=
  if r <? 128 then str1 r ""
  else if r <? 2048 then str1 (192 + r / 64) (str1 (128 + r mod 64) "")
  else if in_range 55296 57343 r || (1114111 <? r) then
    str1 239 (str1 191 (str1 189 ""))
  else if r <? 65536 then
    str1 (224 + r / 4096) (str1 (128 + (r / 64) mod 64) (str1 (128 + r mod 64) ""))
  else
    str1 (240 + r / 262144) (str1 (128 + (r / 4096) mod 64)
      (str1 (128 + (r / 64) mod 64) (str1 (128 + r mod 64) ""))).

(** []rune(s) *)
Fixpoint runes_aux (fuel : nat) (s : string) : list N :=
  match fuel with
  | O => []
  | S f =>
      match decode_rune s with
      | None => []
      | Some (r, w) => r :: runes_aux f (drop w s)
      end
  end.
Definition runes (s : string) : list N := runes_aux (String.length s) s.

Definition is_upper_ascii (b : N) : bool := in_range 65 90 b.
Definition is_lower_ascii (b : N) : bool := in_range 97 122 b.

(** unicode.ToLower / unicode.ToUpper: exact on ASCII, an arbitrary function
    [u] (the Unicode tables) on other code points. *)
Definition rune_lower (u : N -> N) (r : N) : N :=
  if r <? 128 then (if is_upper_ascii r then r + 32 else r) else u r.
Definition rune_upper (u : N -> N) (r : N) : N :=
  if r <? 128 then (if is_lower_ascii r then r - 32 else r) else u r.

(** strings.ToLower: rune-wise map (strings.Map(unicode.ToLower, s)); invalid
    bytes become U+FFFD. *)
Definition go_lower (u : N -> N) (s : string) : string :=
  join "" (map (fun r => encode_rune (rune_lower u r)) (runes s)).

(** []rune(s)[0]; indexing an empty slice panics. *)
Definition rune0 (s : string) : res N :=
  match runes s with
  | [] => Panic "index out of range [0] with length 0"
  | r :: _ => Ok r
  end.

(** The test used twice in gowrap for "unexported":
    [[]rune(n)[0] == []rune(strings.ToLower(n))[0]]
    (printer/printer.go:144, generator/generator.go:242). *)
Definition looks_unexported (u : N -> N) (n : string) : res bool :=
  do a <- rune0 n; do b <- rune0 (go_lower u n); Ok (a =? b).

(** ** Facts *)

Lemma byte_of_N b : b < 256 -> byte (ascii_of_N b) = b.
Proof. intros H. unfold byte. now apply N_ascii_embedding. Qed.

Lemma byte_lt c : byte c < 256.
Proof.
  unfold byte. apply N_ascii_bounded.
Qed.

Lemma runes_cons_ascii c s : byte c < 128 -> runes (String c s) = byte c :: runes s.
Proof.
  intros H. unfold runes. cbn [String.length runes_aux].
  unfold decode_rune. apply N.ltb_lt in H. rewrite H. reflexivity.
Qed.

Lemma runes_nonempty c s : runes (String c s) <> [].
Proof.
  unfold runes. cbn [String.length runes_aux].
  destruct (decode_rune (String c s)) as [[r w]|] eqn:E; [discriminate|].
  exfalso. revert E. cbn [decode_rune].
  repeat match goal with |- context [match ?x with _ => _ end] => destruct x end; discriminate.
Qed.
