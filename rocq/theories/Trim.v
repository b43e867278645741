(** strings.TrimSpace (strings/strings.go, unicode/utf8/utf8.go, unicode/graphic.go
    of the Go library; used in generator/generator.go and loader/loader.go). The
    ASCII fast path of TrimSpace gives the result of TrimFunc and is left out. *)
From Verif Require Export Utf8.
Open Scope N_scope.

(** unicode.IsSpace: Latin-1 by cases, else the table White_Space *)
Definition is_space_rune (r : N) : bool :=
  if r <=? 255 then existsb (N.eqb r) [9; 10; 11; 12; 13; 32; 133; 160]
  else (r =? 5760) || in_range 8192 8202 r || in_range 8232 8233 r || (r =? 8239) || (r =? 8287) || (r =? 12288).

(** utf8.RuneStart *)
Definition rune_start (c : ascii) : bool := negb (in_range 128 191 (byte c)).

Definition suffix (k : nat) (s : string) : string := drop (String.length s - k) s.
Fixpoint last_start (ks : list nat) (s : string) : option string :=
  match ks with
  | [] => None
  | k :: ks' =>
      if (k <=? String.length s)%nat
      then match suffix k s with String c _ => if rune_start c then Some (suffix k s) else last_start ks' s | "" => None end
      else None
  end.

(** utf8.DecodeLastRuneInString: looks for the start of the last rune among the
    bytes before the last one, at most four bytes in all *)
Definition decode_last_rune (s : string) : option (N * nat) :=
  match suffix 1 s with
  | "" => None
  | String c _ =>
      if byte c <? 128 then Some (byte c, 1%nat)
      else match last_start [2; 3; 4]%nat s with
           | None => Some (RuneError, 1%nat)
           | Some x => match decode_rune x with
                       | Some (r, w) => if Nat.eqb w (String.length x) then Some (r, w) else Some (RuneError, 1%nat)
                       | None => Some (RuneError, 1%nat)
                       end
           end
  end.

(** strings.TrimLeftFunc(s, unicode.IsSpace) *)
Fixpoint trim_left_aux (fuel : nat) (s : string) : string :=
  match fuel with
  | O => s
  | S f => match decode_rune s with
           | Some (r, w) => if is_space_rune r then trim_left_aux f (drop w s) else s
           | None => s
           end
  end.
Definition trim_left (s : string) : string := trim_left_aux (String.length s) s.

(** strings.TrimRightFunc(s, unicode.IsSpace) *)
Fixpoint trim_right_aux (fuel : nat) (s : string) : string :=
  match fuel with
  | O => s
  | S f => match decode_last_rune s with
           | Some (r, w) => if is_space_rune r then trim_right_aux f (take (String.length s - w) s) else s
           | None => s
           end
  end.
Definition trim_right (s : string) : string := trim_right_aux (String.length s) s.

(** strings.TrimSpace *)
Definition trim_space (s : string) : string := trim_right (trim_left s).
