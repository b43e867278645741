(** float64(time.Second) / rps in IEEE 754 arithmetic (Coq's SpecFloat): the
    quotient as a Duration.  Proofs. *)
From Coq Require Import ZArith Lia Floats.SpecFloat.
From Verif Require Import Construct.
Open Scope Z_scope.

Lemma digits_spec : forall p, 2 ^ (Z.pos (digits2_pos p) - 1) <= Z.pos p < 2 ^ Z.pos (digits2_pos p).
Proof.
  induction p as [p IH|p IH|]; cbn [digits2_pos]; [| |cbn; lia];
    rewrite Pos2Z.inj_succ; replace (Z.succ (Z.pos (digits2_pos p)) - 1) with (Z.pos (digits2_pos p)) by lia;
    rewrite Z.pow_succ_r by lia;
    replace (Z.pos (digits2_pos p)) with (Z.succ (Z.pos (digits2_pos p) - 1)) at 1 by lia; rewrite Z.pow_succ_r by lia; lia.
Qed.
Lemma digits_unique : forall p d, 0 < d -> 2 ^ (d - 1) <= Z.pos p < 2 ^ d -> Z.pos (digits2_pos p) = d.
Proof.
  intros p d Hd (H1 & H2). pose proof (digits_spec p) as (H3 & H4). set (k := Z.pos (digits2_pos p)) in *. assert (0 < k) by (unfold k; lia).
  destruct (Z.lt_trichotomy k d) as [H'|[H'|H']]; [exfalso|exact H'|exfalso].
  - assert (2 ^ k <= 2 ^ (d - 1)) by (apply Z.pow_le_mono_r; lia). lia.
  - assert (2 ^ d <= 2 ^ (k - 1)) by (apply Z.pow_le_mono_r; lia). lia.
Qed.
Lemma Zdigits_unique : forall z d, 0 < d -> 2 ^ (d - 1) <= z < 2 ^ d -> Zdigits2 z = d.
Proof.
  intros z d Hd H. assert (0 < 2 ^ (d - 1)) by (apply Z.pow_pos_nonneg; lia). destruct z as [|p|p]; try lia. now apply digits_unique.
Qed.

(** where the remainder [r] of a division by [m] lies *)
Lemma location_spec : forall m r, 0 < m -> 0 <= r < m ->
  match new_location m r with
  | loc_Exact => r = 0
  | loc_Inexact Lt => 0 < 2 * r < m
  | loc_Inexact Eq => 2 * r = m
  | loc_Inexact Gt => m < 2 * r
  end.
Proof.
  intros m r Hm Hr. unfold new_location. destruct (Z.even m) eqn:E.
  - unfold new_location_even. destruct (Zeq_bool r 0) eqn:E0; [now apply Zeq_bool_eq in E0|].
    apply Zeq_bool_neq in E0. destruct (Z.compare_spec (2 * r) m); lia.
  - unfold new_location_odd. destruct (Zeq_bool r 0) eqn:E0; [now apply Zeq_bool_eq in E0|].
    apply Zeq_bool_neq in E0. assert (m = 2 * Z.div2 m + 1) by (rewrite <- (Z.div2_odd m) at 1 || idtac; pose proof (Z.div2_odd m) as D; rewrite <- Z.negb_even, E in D; exact D).
    destruct (Z.compare_spec (2 * r + 1) m); lia.
Qed.

Section ROUND.
Variable e0 : Z.
Hypothesis He0 : -1074 <= e0 <= 901.
Notation fe := (fexp 53 1024).

Lemma fexp_53 : fe (53 + e0) - e0 = 0.
Proof. unfold fexp, emin. lia. Qed.
Lemma fexp_54 : fe (54 + e0) - e0 = 1.
Proof. unfold fexp, emin. lia. Qed.

Lemma shr_1_pos : forall m r s, 0 < m -> shr_1 (Build_shr_record m r s) = Build_shr_record (m / 2) (Z.odd m) (orb r s).
Proof.
  intros m r s H. destruct m as [|p|p]; [lia| |lia]. destruct p as [p|p|]; cbn [shr_1 Z.odd Pos.testbit]; [| |reflexivity]; f_equal.
  - change (Z.pos p~1) with (2 * Z.pos p + 1). rewrite Z.mul_comm, Z.div_add_l by lia. change (1 / 2) with 0. lia.
  - change (Z.pos p~0) with (2 * Z.pos p). rewrite Z.mul_comm, Z.div_mul; lia.
Qed.
End ROUND.

(** the second half of rounding: a mantissa of 53 bits, or 2^53 *)
Lemma finish : forall M e, -1074 <= e <= 901 -> 2 ^ 52 <= M <= 2 ^ 53 ->
  exists p E, (let '(mrs'', e'') := shr_fexp 53 1024 M e loc_Exact in
    match shr_m mrs'' with
    | Z0 => S754_zero false
    | Zpos m => if Zle_bool e'' (1024 - 53) then S754_finite false m e'' else S754_infinity false
    | _ => S754_nan
    end) = S754_finite false p E /\ e <= E <= e + 1 /\ Z.pos p * 2 ^ (E - e) = M.
Proof.
  intros M e He HM. unfold shr_fexp. destruct (Z.eq_dec M (2 ^ 53)) as [->|N].
  - rewrite (Zdigits_unique (2 ^ 53) 54) by (split; [reflexivity|reflexivity || lia] || lia). rewrite fexp_54 by exact He.
    cbn [shr iter_pos shr_record_of_loc]. rewrite shr_1_pos by reflexivity. cbn [shr_m]. change (2 ^ 53 / 2) with 4503599627370496.
    cbv iota. destruct (Zle_bool (e + 1) (1024 - 53)) eqn:E; [|apply Z.leb_gt in E; lia].
    eexists _, _. split; [reflexivity|]. split; [lia|]. replace (e + 1 - e) with 1 by lia. reflexivity.
  - rewrite (Zdigits_unique M 53) by (change (53 - 1) with 52; lia). rewrite fexp_53 by exact He.
    cbn [shr shr_record_of_loc shr_m]. destruct M as [|p|p]; [lia| |lia].
    destruct (Zle_bool e (1024 - 53)) eqn:E; [|apply Z.leb_gt in E; lia].
    eexists _, _. split; [reflexivity|]. split; [lia|]. rewrite Z.sub_diag. cbn. lia.
Qed.

Lemma loc_record : forall m l, loc_of_shr_record (shr_record_of_loc m l) = l.
Proof. intros m [|[]]; reflexivity. Qed.
Lemma record_m : forall m l, shr_m (shr_record_of_loc m l) = m.
Proof. intros m [|[]]; reflexivity. Qed.

(** rounding [q + r/m], [q] of 53 or 54 bits: the result is [N], within half a
    unit of its last place *)
Lemma round_quotient : forall q r m e, -1074 <= e <= 900 -> 0 < m -> 0 <= r < m -> 2 ^ 52 <= q < 2 ^ 54 ->
  exists p E N u, binary_round_aux 53 1024 false q e (new_location m r) = S754_finite false p E /\
    e <= E <= e + 2 /\ N = Z.pos p * 2 ^ (E - e) /\
    (u = 1 /\ q < 2 ^ 53 \/ u = 2 /\ 2 ^ 53 <= q /\ Z.even N = true) /\
    2 * Z.abs (N * m - (q * m + r)) <= u * m.
Proof.
  intros q r m e He Hm Hr Hq. pose proof (location_spec m r Hm Hr) as HL. unfold binary_round_aux.
  destruct (Z.ltb_spec q (2 ^ 53)) as [Hs|Hs].
  - unfold shr_fexp at 1. rewrite (Zdigits_unique q 53) by (change (53 - 1) with 52; lia). rewrite fexp_53 by lia. cbn [shr].
    rewrite loc_record, record_m. set (M := round_nearest_even q (new_location m r)).
    assert (HM : 2 ^ 52 <= M <= 2 ^ 53 /\ 2 * Z.abs (M * m - (q * m + r)) <= m).
    { unfold M, round_nearest_even. destruct (new_location m r) as [|[]]; [split; nia| |split; nia|split; nia]. destruct (Z.even q); split; nia. }
    destruct (finish M e ltac:(lia) (proj1 HM)) as (p & E & HF & HE & HP). exists p, E, M, 1. split; [exact HF|]. split; [lia|]. split; [lia|]. split; [now left|lia].
  - unfold shr_fexp at 1. rewrite (Zdigits_unique q 54) by (change (54 - 1) with 53; lia). rewrite fexp_54 by lia. unfold shr.
    change (SpecFloat.iter_pos shr_1 1 (shr_record_of_loc q (new_location m r))) with (shr_1 (shr_record_of_loc q (new_location m r))).
    assert (HR : exists s, shr_1 (shr_record_of_loc q (new_location m r)) = Build_shr_record (q / 2) (Z.odd q) s /\ (s = false -> r = 0) /\ (s = true -> 0 < r)).
    { destruct (new_location m r) as [|[]]; cbn [shr_record_of_loc]; rewrite shr_1_pos by lia; eexists; (split; [reflexivity|]); cbn; split; intros; try discriminate; lia. }
    destruct HR as (s & -> & HS1 & HS2). cbn [shr_m]. set (M := round_nearest_even _ _).
    assert (Hq2 : q = 2 * (q / 2) + Z.b2z (Z.odd q)).
    { pose proof (Z.div2_odd q) as D. rewrite Z.div2_div in D. exact D. }
    assert (HM : 2 ^ 52 <= M <= 2 ^ 53 /\ Z.abs (2 * M * m - (q * m + r)) <= m).
    { unfold M, round_nearest_even, loc_of_shr_record. destruct (Z.odd q); cbn [Z.b2z] in Hq2.
      - destruct s; [specialize (HS2 eq_refl)|specialize (HS1 eq_refl); destruct (Z.even (q / 2))]; split; try nia; lia.
      - destruct s; split; try nia; lia. }
    destruct (finish M (e + 1) ltac:(lia) (proj1 HM)) as (p & E & HF & HE & HP). exists p, E, (2 * M), 2. split; [exact HF|]. split; [lia|]. split.
    + rewrite <- HP. replace (E - e) with (1 + (E - (e + 1))) by lia. rewrite Z.pow_add_r by lia. lia.
    + split; [right|nia]. split; [reflexivity|]. split; [exact Hs|]. now rewrite Z.even_mul.
Qed.

Definition second : positive := 8388608000000000.   (* 10^9 * 2^23 *)
Lemma float_second : float_of 1000000000 = S754_finite false second (-23).
Proof. vm_compute. reflexivity. Qed.

(** a float64 not below 2^-23, in lowest terms of [bounded] *)
Definition normal (m : positive) (e : Z) : Prop := 2 ^ 52 <= Z.pos m < 2 ^ 53 /\ -75 <= e <= 971.

Lemma div_spec : forall m e, normal m e ->
  exists p E N u, SFdiv 53 1024 (float_of 1000000000) (S754_finite false m e) = S754_finite false p E /\
    -76 - e <= E <= -74 - e /\ N = Z.pos p * 2 ^ (E + 76 + e) /\
    (u = 1 \/ u = 2 /\ Z.even N = true) /\ u * 2 ^ 52 * Z.pos m <= Z.pos second * 2 ^ 53 /\ Z.pos second * 2 ^ 53 < 2 ^ 54 * Z.pos m /\
    2 * Z.abs (N * Z.pos m - Z.pos second * 2 ^ 53) <= u * Z.pos m.
Proof.
  intros m e (Hm & He). rewrite float_second. unfold SFdiv, SFdiv_core_binary. cbn [xorb].
  rewrite (Zdigits_unique (Z.pos second) 53); [|reflexivity|split; [discriminate|reflexivity]]. rewrite (Zdigits_unique (Z.pos m) 53) by (change (53 - 1) with 52; lia).
  assert (EE : Z.min (fexp 53 1024 (53 + -23 - (53 + e))) (-23 - e) = -76 - e) by (unfold fexp, emin; lia). rewrite EE.
  replace (-23 - e - (-76 - e)) with 53 by lia. cbv iota. change (Z.shiftl (Z.pos second) 53) with (Z.pos second * 2 ^ 53).
  pose proof (Z.div_eucl_eq (Z.pos second * 2 ^ 53) (Z.pos m) ltac:(lia)) as HD.
  pose proof (Z.mod_pos_bound (Z.pos second * 2 ^ 53) (Z.pos m) ltac:(lia)) as HB. unfold Z.modulo in HB.
  destruct (Z.div_eucl (Z.pos second * 2 ^ 53) (Z.pos m)) as (q, r).
  assert (HS : 2 ^ 52 <= Z.pos second < 2 ^ 53) by (split; [discriminate|reflexivity]).
  assert (Hq : 2 ^ 52 <= q < 2 ^ 54) by (split; nia).
  destruct (round_quotient q r (Z.pos m) (-76 - e) ltac:(lia) ltac:(lia) HB Hq) as (p & E & N & u & H1 & H2 & H3 & H4 & H5).
  exists p, E, N, u. split; [exact H1|]. split; [lia|]. split; [rewrite H3; f_equal; f_equal; lia|].
  split; [destruct H4 as [[-> _]|(-> & _ & H4)]; auto|].
  split; [destruct H4 as [[-> _]|(-> & H4 & _)]; nia|]. split; [nia|]. replace (Z.pos second * 2 ^ 53) with (q * Z.pos m + r) by lia. exact H5.
Qed.
