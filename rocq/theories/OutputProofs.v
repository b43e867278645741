(** fmt.Fprintf without operands: the loop as equations. *)
From Verif Require Import Output Utf8.
Open Scope nat_scope.

Local Notation len := String.length.
Lemma skip_flags_length : forall s, len (skip_flags s) <= len s.
Proof. induction s as [|c s IH]; [apply le_n|]. cbn [skip_flags]. destruct (flag_char c); [cbn [String.length]; lia|apply le_n]. Qed.
Lemma parsenum_length : forall s n b, len (snd (parsenum n b s)) <= len s.
Proof.
  induction s as [|c s IH]; intros n b; [apply le_n|]. cbn [parsenum]. destruct (digit c); [|apply le_n].
  destruct (N.ltb 1000000 n); cbn [String.length snd]; [lia|]. etransitivity; [apply IH|lia].
Qed.
Lemma cut_length : forall c s a b, cut c s = Some (a, b) -> len a + len b < len s.
Proof.
  intros c s. induction s as [|d s IH]; intros a b H; [discriminate|]. cbn [cut] in H. destruct (byte_eqb d c).
  - injection H as <- <-. cbn [String.length]. lia.
  - destruct (cut c s) as [(a1, b1)|]; [|discriminate]. injection H as <- <-. specialize (IH _ _ eq_refl). cbn [String.length]. lia.
Qed.
Lemma argNumber_length : forall s, len (snd (fst (argNumber s))) <= len s.
Proof.
  intros [|c r]; [apply le_n|]. cbn [argNumber]. destruct (byte_eqb c "["); [|apply le_n].
  destruct (len (String c r) <? 3); [cbn [fst snd String.length]; lia|].
  destruct (cut "]" r) as [(a, b)|] eqn:E; [|cbn [fst snd String.length]; lia].
  apply cut_length in E. destruct (parsenum 0 false a). cbn [fst snd String.length]. lia.
Qed.
Lemma drop_length : forall n s, len (drop n s) <= len s.
Proof. induction n as [|n IH]; intros [|c s]; try apply le_n. cbn [drop String.length]. etransitivity; [apply IH|lia]. Qed.

(** the parts of [directive] *)
Definition width_part (s2 : string) (idx1 : bool) : string * string * bool :=
  match s2 with
  | String "*" r => ("%!(BADWIDTH)", r, false)
  | _ => ("", snd (parsenum 0 false s2), idx1)
  end.
Definition prec_part (s3 : string) (idx2 : bool) : bool * string * string * bool :=
  match s3 with
  | String "." r =>
      let '(b, r1, i) := argNumber r in
      match r1 with
      | String "*" r2 => (b, "%!(BADPREC)", r2, false)
      | _ => (b, "", snd (parsenum 0 false r1), i)
      end
  | _ => (false, "", s3, idx2)
  end.
Lemma width_length : forall s i, len (snd (fst (width_part s i))) <= len s.
Proof.
  intros s i. assert (D : (exists r, s = String "*" r) \/ width_part s i = ("", snd (parsenum 0 false s), i)).
  { destruct s as [|c r]; [right; reflexivity|]. destruct (ascii_dec c "*") as [->|N]; [left; eauto|right].
    destruct c as [[] [] [] [] [] [] [] []]; try reflexivity. now elim N. }
  destruct D as [(r & ->)|D]; [cbn; lia|]. rewrite D. cbn [fst snd]. apply parsenum_length.
Qed.
Lemma prec_length : forall s i, len (snd (fst (prec_part s i))) <= len s.
Proof.
  intros s i. assert (D : (exists r, s = String "." r) \/ prec_part s i = (false, "", s, i)).
  { destruct s as [|c r]; [right; reflexivity|]. destruct (ascii_dec c ".") as [->|N]; [left; eauto|right].
    destruct c as [[] [] [] [] [] [] [] []]; try reflexivity. now elim N. }
  destruct D as [(r & ->)|D]; [|rewrite D; apply le_n].
  cbn [prec_part]. pose proof (argNumber_length r) as L. destruct (argNumber r) as [[b r1] j]. cbn [fst snd] in L.
  assert (D : (exists r2, r1 = String "*" r2) \/ (match r1 with String "*" r2 => (b, "%!(BADPREC)", r2, false) | _ => (b, "", snd (parsenum 0 false r1), j) end) = (b, "", snd (parsenum 0 false r1), j)).
  { destruct r1 as [|c r2]; [right; reflexivity|]. destruct (ascii_dec c "*") as [->|N]; [left; eauto|right].
    destruct c as [[] [] [] [] [] [] [] []]; try reflexivity. now elim N. }
  destruct D as [(r2 & ->)|D]; [cbn in *; lia|]. rewrite D. cbn [fst snd String.length]. pose proof (parsenum_length r1 0 false). lia.
Qed.

Definition verb_part (w p : string) (bad : bool) (s5 : string) : string * string :=
  match decode_rune s5 with
  | None => ((w ++ p ++ "%!(NOVERB)")%string, "")
  | Some (v, n) =>
      ((w ++ p ++ if N.eqb v 37 then "%" else "%!" ++ encode_rune v ++ if bad then "(BADINDEX)" else "(MISSING)")%string, drop n s5)
  end.
Lemma directive_eq : forall s, directive s =
  let '(bad1, s2, idx1) := argNumber (skip_flags s) in
  let '(w, s3, idx2) := width_part s2 idx1 in
  let '(bad2, p, s4, idx3) := prec_part s3 idx2 in
  let '(bad3, s5) := if idx3 then (false, s4) else let '(b, r, _) := argNumber s4 in (b, r) in
  verb_part w p (bad1 || bad2 || bad3) s5.
Proof. reflexivity. Qed.
Lemma directive_length : forall s, len (snd (directive s)) <= len s.
Proof.
  intros s. rewrite directive_eq. pose proof (skip_flags_length s) as L1. pose proof (argNumber_length (skip_flags s)) as L2.
  destruct (argNumber (skip_flags s)) as [[bad1 s2] idx1]. cbn [fst snd] in L2.
  pose proof (width_length s2 idx1) as L3. destruct (width_part s2 idx1) as [[w s3] idx2]. cbn [fst snd] in L3.
  pose proof (prec_length s3 idx2) as L4. destruct (prec_part s3 idx2) as [[[bad2 p] s4] idx3]. cbn [fst snd] in L4.
  assert (L5 : len (snd (if idx3 then (false, s4) else let '(b, r, _) := argNumber s4 in (b, r))) <= len s4).
  { destruct idx3; [apply le_n|]. pose proof (argNumber_length s4) as L. destruct (argNumber s4) as [[b r] i]. exact L. }
  destruct (if idx3 then (false, s4) else _) as [bad3 s5]. cbn [snd] in L5.
  unfold verb_part. destruct (decode_rune s5) as [[v n]|]; cbn [snd String.length]; [|lia]. pose proof (drop_length n s5). lia.
Qed.

Lemma format_fuel : forall n m s, len s <= n -> len s <= m -> format n s = format m s.
Proof.
  induction n as [|n IH]; intros m s H1 H2.
  - destruct s; [|cbn in H1; lia]. destruct m; reflexivity.
  - destruct s as [|c r]; [destruct m; reflexivity|]. destruct m as [|m]; [cbn in H2; lia|]. cbn [format]. cbn [String.length] in *.
    destruct (byte_eqb c "%").
    + pose proof (directive_length r) as L. destruct (directive r) as [o rest]. cbn [snd] in L. f_equal. apply IH; lia.
    + f_equal. apply IH; lia.
Qed.
Lemma printf_nil : printf "" = "".
Proof. reflexivity. Qed.
Lemma printf_char : forall c r, c <> "%"%char -> printf (String c r) = String c (printf r).
Proof. intros c r H. unfold printf. cbn [String.length format]. unfold byte_eqb. destruct (Ascii.eqb_spec c "%"); [contradiction|reflexivity]. Qed.
Lemma printf_percent : forall r, printf (String "%" r) = (fst (directive r) ++ printf (snd (directive r)))%string.
Proof.
  intros r. unfold printf at 1. cbn [String.length format]. change (byte_eqb "%" "%") with true. cbn iota.
  pose proof (directive_length r) as L. destruct (directive r) as [o rest]. cbn [fst snd] in *. f_equal. apply format_fuel; [exact L|apply le_n].
Qed.
