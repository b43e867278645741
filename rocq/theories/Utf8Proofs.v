(** Decoding inverts encoding; the lower-case test of gowrap against Go's
    definition of exported names. *)
From Coq Require Import ZifyN Zify ZArith.
From Verif Require Import Utf8.
Open Scope N_scope.
Ltac Zify.zify_post_hook ::= Z.to_euclidean_division_equations.

Definition valid_rune (r : N) : Prop := r < 55296 \/ 57344 <= r <= 1114111.

Lemma in_range_true a b x : a <= x <= b -> in_range a b x = true.
Proof. unfold in_range. intros H. rewrite andb_true_iff, !N.leb_le. lia. Qed.
Lemma in_range_false a b x : x < a \/ b < x -> in_range a b x = false.
Proof. unfold in_range. intros H. rewrite andb_false_iff, !N.leb_gt. lia. Qed.
Lemma in_range_iff a b x : in_range a b x = true <-> a <= x <= b.
Proof. unfold in_range. rewrite andb_true_iff, !N.leb_le. lia. Qed.

Lemma decode_valid s r w : decode_rune s = Some (r, w) -> valid_rune r.
Proof.
  unfold valid_rune. destruct s as [|c0 s]; cbn [decode_rune]; [discriminate|].
  assert (RuneError = 65533) as -> by reflexivity.
  pose proof (byte_lt c0) as L0. set (b0 := byte c0) in *. clearbody b0.
  destruct (N.ltb_spec b0 128); [intros [= <- <-]; lia|].
  destruct s as [|c1 s]; [intros [= <- <-]; lia|].
  pose proof (byte_lt c1) as L1. set (b1 := byte c1) in *. clearbody b1.
  destruct (in_range 194 223 b0) eqn:E0.
  { apply in_range_iff in E0. destruct (in_range 128 191 b1) eqn:E1; intros [= <- <-]; [|lia]. apply in_range_iff in E1. lia. }
  destruct s as [|c2 s]; [intros [= <- <-]; lia|].
  pose proof (byte_lt c2) as L2. set (b2 := byte c2) in *. clearbody b2.
  destruct (in_range 224 239 b0) eqn:E1.
  { apply in_range_iff in E1. cbv zeta.
    match goal with |- context [if ?b then _ else _] => destruct b eqn:E2 end; intros [= <- <-]; [|lia].
    apply andb_true_iff in E2. destruct E2 as [E2 E3]. apply in_range_iff in E2, E3.
    destruct (N.eqb_spec b0 224), (N.eqb_spec b0 237); try lia. }
  destruct s as [|c3 s]; [intros [= <- <-]; lia|].
  pose proof (byte_lt c3) as L3. set (b3 := byte c3) in *. clearbody b3.
  destruct (in_range 240 244 b0) eqn:E2; [|intros [= <- <-]; lia].
  apply in_range_iff in E2. cbv zeta.
  match goal with |- context [if ?b then _ else _] => destruct b eqn:E3 end; intros [= <- <-]; [|lia].
  apply andb_true_iff in E3. destruct E3 as [E3 E5]. apply andb_true_iff in E3. destruct E3 as [E3 E4].
  apply in_range_iff in E3, E4, E5.
  destruct (N.eqb_spec b0 240), (N.eqb_spec b0 244); try lia.
Qed.

Lemma decode_encode r t : valid_rune r ->
  decode_rune (encode_rune r ++ t)%string = Some (r, String.length (encode_rune r)).
Proof.
  intros V. unfold encode_rune, str1.
  destruct (N.ltb_spec r 128).
  { cbn [append decode_rune String.length]. rewrite byte_of_N by lia. destruct (N.ltb_spec r 128); [reflexivity | lia]. }
  destruct (N.ltb_spec r 2048).
  { cbn [append decode_rune String.length]. rewrite !byte_of_N by lia.
    destruct (N.ltb_spec (192 + r / 64) 128); [lia|].
    rewrite !in_range_true by lia. do 2 f_equal. lia. }
  rewrite in_range_false by (destruct V; lia). destruct (N.ltb_spec 1114111 r); [destruct V; lia|]. cbn [orb].
  destruct (N.ltb_spec r 65536).
  { cbn [append decode_rune String.length]. rewrite !byte_of_N by lia.
    destruct (N.ltb_spec (224 + r / 4096) 128); [lia|].
    rewrite (in_range_false 194 223) by lia. rewrite (in_range_true 224 239) by lia. cbv zeta.
    rewrite !in_range_true.
    - cbn [andb]. do 2 f_equal. lia.
    - lia.
    - destruct (N.eqb_spec (224 + r / 4096) 224), (N.eqb_spec (224 + r / 4096) 237); destruct V; lia. }
  cbn [append decode_rune String.length]. rewrite !byte_of_N by lia.
  destruct (N.ltb_spec (240 + r / 262144) 128); [lia|].
  rewrite (in_range_false 194 223) by lia. rewrite (in_range_false 224 239) by lia. rewrite (in_range_true 240 244) by lia. cbv zeta.
  rewrite !in_range_true.
  - cbn [andb]. do 2 f_equal. lia.
  - lia.
  - lia.
  - destruct (N.eqb_spec (240 + r / 262144) 240), (N.eqb_spec (240 + r / 262144) 244); lia.
Qed.

Lemma runes_cons s : s <> ""%string -> exists r w, decode_rune s = Some (r, w) /\ exists l, runes s = r :: l.
Proof.
  destruct s as [|c s]; [congruence|]. intros _. unfold runes. cbn [String.length runes_aux].
  destruct (decode_rune (String c s)) as [[r w]|] eqn:E; [eauto|].
  exfalso. revert E. cbn [decode_rune].
  repeat match goal with |- context [match ?x with _ => _ end] => destruct x end; discriminate.
Qed.

Lemma runes_encode r t : valid_rune r -> exists l, runes (encode_rune r ++ t)%string = r :: l.
Proof.
  intros V. destruct (runes_cons (encode_rune r ++ t)%string) as (r' & w & E & l & H).
  - intros E. pose proof (decode_encode r t V) as D. rewrite E in D. discriminate.
  - rewrite (decode_encode r t V) in E. injection E as <- <-. eauto.
Qed.

(** the lower-case test is: the first rune is its own lower case *)
Lemma looks_unexported_rune u n r l : runes n = r :: l -> valid_rune (rune_lower u r) ->
  looks_unexported u n = Ok (rune_lower u r =? r).
Proof.
  intros H V. unfold looks_unexported, rune0. rewrite H. cbn [rbind]. unfold go_lower. rewrite H. cbn [map].
  assert (E : exists t, join "" (encode_rune (rune_lower u r) :: map (fun r => encode_rune (rune_lower u r)) l)
              = (encode_rune (rune_lower u r) ++ t)%string).
  { destruct l; cbn; [exists ""%string; now rewrite sapp_nil_r | eexists; reflexivity]. }
  destruct E as (t & ->). destruct (runes_encode _ t V) as (l' & ->). cbn [rbind]. now rewrite N.eqb_sym.
Qed.

Lemma runes_first_valid s r l : runes s = r :: l -> valid_rune r.
Proof.
  unfold runes. destruct s as [|c s]; [discriminate|]. cbn [String.length runes_aux].
  destruct (decode_rune (String c s)) as [[r' w]|] eqn:E; [|discriminate]. intros [= <- _]. eapply decode_valid; eauto.
Qed.

Lemma str1_byte c s : String c s = str1 (byte c) s.
Proof. unfold str1, byte. now rewrite ascii_N_embedding. Qed.

(** encoding inverts decoding, except for invalid bytes *)
Lemma encode_decode s r w : decode_rune s = Some (r, w) -> r <> RuneError ->
  exists t, s = (encode_rune r ++ t)%string /\ w = String.length (encode_rune r).
Proof.
  destruct s as [|c0 s]; cbn [decode_rune]; [discriminate|].
  assert (RuneError = 65533) as -> by reflexivity. rewrite (str1_byte c0).
  pose proof (byte_lt c0) as L0. set (b0 := byte c0) in *. clearbody b0.
  destruct (N.ltb_spec b0 128) as [H0|H0].
  { intros [= <- <-] _. exists s. unfold encode_rune. rewrite (proj2 (N.ltb_lt _ _) H0). split; reflexivity. }
  destruct s as [|c1 s]; [intros [= <- <-]; lia|]. rewrite (str1_byte c1).
  pose proof (byte_lt c1) as L1. set (b1 := byte c1) in *. clearbody b1.
  destruct (in_range 194 223 b0) eqn:E0.
  { apply in_range_iff in E0. destruct (in_range 128 191 b1) eqn:E1; intros [= <- <-] HR; [|lia]. apply in_range_iff in E1.
    exists s. unfold encode_rune. set (r := (b0 - 192) * 64 + (b1 - 128)) in *.
    rewrite (proj2 (N.ltb_ge r 128)) by lia. rewrite (proj2 (N.ltb_lt r 2048)) by lia.
    replace (192 + r / 64) with b0 by lia. replace (128 + r mod 64) with b1 by lia. split; reflexivity. }
  destruct s as [|c2 s]; [intros [= <- <-]; lia|]. rewrite (str1_byte c2).
  pose proof (byte_lt c2) as L2. set (b2 := byte c2) in *. clearbody b2.
  destruct (in_range 224 239 b0) eqn:E1.
  { apply in_range_iff in E1. cbv zeta.
    match goal with |- context [if ?b then _ else _] => destruct b eqn:E2 end; intros [= <- <-] HR; [|lia].
    apply andb_true_iff in E2. destruct E2 as [E2 E3]. apply in_range_iff in E2, E3.
    exists s. unfold encode_rune. set (r := (b0 - 224) * 4096 + (b1 - 128) * 64 + (b2 - 128)) in *.
    assert (R1 : 2048 <= r) by (destruct (N.eqb_spec b0 224); lia).
    assert (R2 : r < 55296 \/ 57344 <= r) by (destruct (N.eqb_spec b0 237); lia).
    assert (R3 : r < 65536) by (destruct (N.eqb_spec b0 237); lia).
    rewrite (proj2 (N.ltb_ge r 128)) by lia. rewrite (proj2 (N.ltb_ge r 2048)) by lia.
    rewrite in_range_false by lia. rewrite (proj2 (N.ltb_ge 1114111 r)) by lia. cbn [orb]. rewrite (proj2 (N.ltb_lt r 65536)) by lia.
    assert (B1 : 128 <= b1 <= 191) by (destruct (N.eqb_spec b0 224), (N.eqb_spec b0 237); lia).
    replace (224 + r / 4096) with b0 by lia. replace (128 + (r / 64) mod 64) with b1 by lia. replace (128 + r mod 64) with b2 by lia.
    split; reflexivity. }
  destruct s as [|c3 s]; [intros [= <- <-]; lia|]. rewrite (str1_byte c3).
  pose proof (byte_lt c3) as L3. set (b3 := byte c3) in *. clearbody b3.
  destruct (in_range 240 244 b0) eqn:E2; [|intros [= <- <-]; lia].
  apply in_range_iff in E2. cbv zeta.
  match goal with |- context [if ?b then _ else _] => destruct b eqn:E3 end; intros [= <- <-] HR; [|lia].
  apply andb_true_iff in E3. destruct E3 as [E3 E5]. apply andb_true_iff in E3. destruct E3 as [E3 E4].
  apply in_range_iff in E3, E4, E5.
  exists s. unfold encode_rune. set (r := (b0 - 240) * 262144 + (b1 - 128) * 4096 + (b2 - 128) * 64 + (b3 - 128)) in *.
  assert (B1 : 128 <= b1 <= 191) by (destruct (N.eqb_spec b0 240), (N.eqb_spec b0 244); lia).
  assert (R1 : 65536 <= r <= 1114111) by (destruct (N.eqb_spec b0 240), (N.eqb_spec b0 244); lia).
  rewrite (proj2 (N.ltb_ge r 128)) by lia. rewrite (proj2 (N.ltb_ge r 2048)) by lia.
  rewrite in_range_false by lia. rewrite (proj2 (N.ltb_ge 1114111 r)) by lia. cbn [orb]. rewrite (proj2 (N.ltb_ge r 65536)) by lia.
  replace (240 + r / 262144) with b0 by lia. replace (128 + (r / 4096) mod 64) with b1 by lia.
  replace (128 + (r / 64) mod 64) with b2 by lia. replace (128 + r mod 64) with b3 by lia.
  split; reflexivity.
Qed.
