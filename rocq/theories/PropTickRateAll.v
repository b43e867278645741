(** C73 for the remaining float64 values: rates below 2^-23, zero, negative
    rates, infinities and NaN. *)
From Coq Require Import ZArith Lia Floats.SpecFloat Bool.
From Verif Require Import Construct FloatDiv PropConstructors2 PropConstructors3 PropTickRate.
From Verif Require Lts.
Open Scope Z_scope.

(** ** Division by any finite float64 *)

Lemma fexp_53' : forall e, -1074 <= e -> fexp 53 1024 (53 + e) - e = 0.
Proof. intros. unfold fexp, emin. lia. Qed.
Lemma fexp_54' : forall e, -1074 <= e -> fexp 53 1024 (54 + e) - e = 1.
Proof. intros. unfold fexp, emin. lia. Qed.

(** [M * 2^e], as a float64, or an overflow *)
Definition made (s : bool) (M e : Z) (f : spec_float) : Prop :=
  (exists p E, f = S754_finite s p E /\ e <= E <= e + 1 /\ Z.pos p * 2 ^ (E - e) = M) \/ (f = S754_infinity s /\ 970 <= e).

Lemma finish_all : forall s M e, -1074 <= e -> 2 ^ 52 <= M <= 2 ^ 53 ->
  made s M e (let '(mrs'', e'') := shr_fexp 53 1024 M e loc_Exact in
    match shr_m mrs'' with
    | Z0 => S754_zero s
    | Zpos m => if Zle_bool e'' (1024 - 53) then S754_finite s m e'' else S754_infinity s
    | _ => S754_nan
    end).
Proof.
  intros s M e He HM. unfold shr_fexp. destruct (Z.eq_dec M (2 ^ 53)) as [->|N].
  - rewrite (Zdigits_unique (2 ^ 53) 54) by (split; [reflexivity|reflexivity || lia] || lia). rewrite fexp_54' by exact He.
    cbn [shr iter_pos shr_record_of_loc]. rewrite shr_1_pos by reflexivity. cbn [shr_m]. change (2 ^ 53 / 2) with 4503599627370496.
    cbv iota. destruct (Zle_bool (e + 1) (1024 - 53)) eqn:E; [left|right; apply Z.leb_gt in E; split; [reflexivity|lia]].
    eexists _, _. split; [reflexivity|]. split; [lia|]. replace (e + 1 - e) with 1 by lia. reflexivity.
  - rewrite (Zdigits_unique M 53) by (change (53 - 1) with 52; lia). rewrite fexp_53' by exact He.
    cbn [shr shr_record_of_loc shr_m]. destruct M as [|p|p]; [lia| |lia].
    destruct (Zle_bool e (1024 - 53)) eqn:E; [left|right; apply Z.leb_gt in E; split; [reflexivity|lia]].
    eexists _, _. split; [reflexivity|]. split; [lia|]. rewrite Z.sub_diag. cbn. lia.
Qed.

Definition rounded (s : bool) (N e : Z) (f : spec_float) : Prop :=
  (exists p E, f = S754_finite s p E /\ e <= E <= e + 2 /\ N = Z.pos p * 2 ^ (E - e)) \/ (f = S754_infinity s /\ 969 <= e).

Lemma round_all : forall s q r m e, -1074 <= e -> 0 < m -> 0 <= r < m -> 2 ^ 52 <= q < 2 ^ 54 ->
  exists N u, rounded s N e (binary_round_aux 53 1024 s q e (new_location m r)) /\ 2 ^ 52 <= N /\
    (u = 1 \/ u = 2 /\ 2 ^ 53 <= q) /\ 2 * Z.abs (N * m - (q * m + r)) <= u * m.
Proof.
  intros s q r m e He Hm Hr Hq. pose proof (location_spec m r Hm Hr) as HL. unfold binary_round_aux.
  destruct (Z.ltb_spec q (2 ^ 53)) as [Hs|Hs].
  - unfold shr_fexp at 1. rewrite (Zdigits_unique q 53) by (change (53 - 1) with 52; lia). rewrite fexp_53' by lia. cbn [shr].
    rewrite loc_record, record_m. set (M := round_nearest_even q (new_location m r)).
    assert (HM : 2 ^ 52 <= M <= 2 ^ 53 /\ 2 * Z.abs (M * m - (q * m + r)) <= m).
    { unfold M, round_nearest_even. destruct (new_location m r) as [|[]]; [split; nia| |split; nia|split; nia]. destruct (Z.even q); split; nia. }
    exists M, 1. split; [|split; [lia|split; [now left|lia]]]. destruct (finish_all s M e He (proj1 HM)) as [(p & E & HF & HE & HP)|(HF & HE)].
    + left. exists p, E. split; [exact HF|]. split; lia.
    + right. split; [exact HF|lia].
  - unfold shr_fexp at 1. rewrite (Zdigits_unique q 54) by (change (54 - 1) with 53; lia). rewrite fexp_54' by lia. unfold shr.
    change (SpecFloat.iter_pos shr_1 1 (shr_record_of_loc q (new_location m r))) with (shr_1 (shr_record_of_loc q (new_location m r))).
    assert (HR : exists s, shr_1 (shr_record_of_loc q (new_location m r)) = Build_shr_record (q / 2) (Z.odd q) s /\ (s = false -> r = 0) /\ (s = true -> 0 < r)).
    { destruct (new_location m r) as [|[]]; cbn [shr_record_of_loc]; rewrite shr_1_pos by lia; eexists; (split; [reflexivity|]); cbn; split; intros; try discriminate; lia. }
    destruct HR as (b & -> & HS1 & HS2). cbn [shr_m]. set (M := round_nearest_even _ _).
    assert (Hq2 : q = 2 * (q / 2) + Z.b2z (Z.odd q)).
    { pose proof (Z.div2_odd q) as D. rewrite Z.div2_div in D. exact D. }
    assert (HM : 2 ^ 52 <= M <= 2 ^ 53 /\ Z.abs (2 * M * m - (q * m + r)) <= m).
    { unfold M, round_nearest_even, loc_of_shr_record. destruct (Z.odd q); cbn [Z.b2z] in Hq2.
      - destruct b; [specialize (HS2 eq_refl)|specialize (HS1 eq_refl); destruct (Z.even (q / 2))]; split; try nia; lia.
      - destruct b; split; try nia; lia. }
    exists (2 * M), 2. split; [|split; [lia|split; [right; now split|nia]]].
    destruct (finish_all s M (e + 1) ltac:(lia) (proj1 HM)) as [(p & E & HF & HE & HP)|(HF & HE)].
    + left. exists p, E. split; [exact HF|]. split; [lia|]. rewrite <- HP. replace (E - e) with (1 + (E - (e + 1))) by lia. rewrite Z.pow_add_r by lia. lia.
    + right. split; [exact HF|lia].
Qed.

(** the mantissas and exponents of float64: 53 bits, or fewer of numbers below
    2^-1022 (IEEE 754) *)
Definition float64 (m : positive) (e : Z) : Prop :=
  2 ^ 52 <= Z.pos m < 2 ^ 53 /\ -1074 <= e <= 971 \/ Z.pos m < 2 ^ 52 /\ e = -1074.

Lemma div_all : forall s m e, float64 m e ->
  exists d N u, 2 ^ (d - 1) <= Z.pos m < 2 ^ d /\ 1 <= d <= 53 /\
    rounded s N (-23 - d - e) (SFdiv 53 1024 (float_of 1000000000) (S754_finite s m e)) /\ 2 ^ 52 <= N /\
    (u = 1 \/ u = 2) /\ u * 2 ^ 52 * Z.pos m <= Z.pos second * 2 ^ d /\
    2 * Z.abs (N * Z.pos m - Z.pos second * 2 ^ d) <= u * Z.pos m.
Proof.
  intros s m e Hf. pose proof (digits_spec m) as HD0. set (d := Z.pos (digits2_pos m)) in *. assert (1 <= d) by (unfold d; lia).
  assert (Hd : d <= 53).
  { destruct (Z_le_gt_dec d 53); [assumption|]. assert (2 ^ 53 <= 2 ^ (d - 1)) by (apply Z.pow_le_mono_r; lia). destruct Hf; lia. }
  assert (He : -1074 <= e <= 971) by (destruct Hf; lia).
  rewrite float_second. unfold SFdiv, SFdiv_core_binary. change (xorb false s) with (if s then true else false). replace (if s then true else false) with s by now destruct s.
  rewrite (Zdigits_unique (Z.pos second) 53); [|reflexivity|split; [discriminate|reflexivity]]. change (Zdigits2 (Z.pos m)) with d.
  assert (EE : Z.min (fexp 53 1024 (53 + -23 - (d + e))) (-23 - e) = -23 - d - e) by (unfold fexp, emin; lia). rewrite EE.
  replace (-23 - e - (-23 - d - e)) with d by lia. fold d. assert (DP : d = Z.pos (digits2_pos m)) by reflexivity.
  replace (match d with Z0 => Z.pos second | Z.pos _ => Z.shiftl (Z.pos second) d | Z.neg _ => Z0 end) with (Z.pos second * 2 ^ d)
    by (rewrite <- Z.shiftl_mul_pow2 by lia; rewrite DP; reflexivity).
  pose proof (Z.div_eucl_eq (Z.pos second * 2 ^ d) (Z.pos m) ltac:(lia)) as HE.
  pose proof (Z.mod_pos_bound (Z.pos second * 2 ^ d) (Z.pos m) ltac:(lia)) as HB. unfold Z.modulo in HB.
  destruct (Z.div_eucl (Z.pos second * 2 ^ d) (Z.pos m)) as (q, r).
  assert (HS : 2 ^ 52 <= Z.pos second < 2 ^ 53) by (split; [discriminate|reflexivity]).
  assert (HP : 2 ^ d = 2 * 2 ^ (d - 1)) by (replace d with (1 + (d - 1)) at 1 by lia; rewrite Z.pow_add_r by lia; reflexivity).
  assert (Hq : 2 ^ 52 <= q < 2 ^ 54) by (split; nia).
  destruct (round_all s q r (Z.pos m) (-23 - d - e) ltac:(lia) ltac:(lia) HB Hq) as (N & u & H1 & H2 & H3 & H4).
  exists d, N, u. split; [exact HD0|]. split; [lia|]. split; [exact H1|]. split; [exact H2|]. split; [tauto|].
  split; [destruct H3 as [->|(-> & H3)]; nia|]. rewrite HE. lia.
Qed.

(** what the conversion to a whole number makes of it, exponents from 0 on *)
Lemma whole_rounded : forall s N e f, 0 <= e -> 2 ^ 52 <= N -> rounded s N e f ->
  whole f = (if s then if N * 2 ^ e <=? 2 ^ 63 then Some (- (N * 2 ^ e)) else None else if N * 2 ^ e <? 2 ^ 63 then Some (N * 2 ^ e) else None).
Proof.
  intros s N e f He HN [(p & E & -> & HE & HP)|(-> & HE)].
  - unfold whole. assert (0 <=? E = true) as -> by (apply Z.leb_le; lia).
    assert (Z.pos p * 2 ^ E = N * 2 ^ e) as ->.
    { rewrite HP. replace E with (E - e + e) at 1 by lia. rewrite Z.pow_add_r by lia. lia. }
    assert (0 <= N * 2 ^ e) by (apply Z.mul_nonneg_nonneg; [lia|apply Z.pow_nonneg; lia]). set (a := N * 2 ^ e) in *.
    destruct s; cbv zeta.
    + assert (- a <=? 9223372036854775807 = true) as -> by (apply Z.leb_le; lia). rewrite andb_true_r.
      destruct (Z.leb_spec (-9223372036854775808) (- a)), (Z.leb_spec a (2 ^ 63)); try reflexivity; lia.
    + assert (-9223372036854775808 <=? a = true) as -> by (apply Z.leb_le; lia). rewrite andb_true_l.
      destruct (Z.leb_spec a 9223372036854775807), (Z.ltb_spec a (2 ^ 63)); try reflexivity; lia.
  - cbn [whole]. assert (2 ^ 63 < N * 2 ^ e).
    { assert (2 ^ 12 <= 2 ^ e) by (apply Z.pow_le_mono_r; lia). change (2 ^ 63) with (2 ^ 52 * 2 ^ 11). nia. }
    destruct s; [destruct (Z.leb_spec (N * 2 ^ e) (2 ^ 63))|destruct (Z.ltb_spec (N * 2 ^ e) (2 ^ 63))]; try reflexivity; lia.
Qed.

(** ** Rates below 2^-23 *)

(** [d] nanoseconds is 10^9 / rps to one part in 2^53 *)
Definition close_period (m : positive) (e : Z) (d : Z) : Prop :=
  2 ^ 53 * Z.abs (d * Z.pos m - 1000000000 * 2 ^ (- e)) <= 1000000000 * 2 ^ (- e).
(** 10^9 / rps nanoseconds are 2^63 or more, to one part in 2^53 *)
Definition too_long (m : positive) (e : Z) : Prop :=
  2 ^ 63 * 2 ^ 53 * Z.pos m <= 1000000000 * 2 ^ (- e) * (2 ^ 53 + 1).
Definition quotient (rps : spec_float) : spec_float := SFdiv 53 1024 (float_of 1000000000) rps.

Lemma slow_scaled : forall m e d N u, 0 <= -23 - d - e -> 1 <= d <= 53 -> (u = 1 \/ u = 2) -> u * 2 ^ 52 * Z.pos m <= Z.pos second * 2 ^ d ->
  2 * Z.abs (N * Z.pos m - Z.pos second * 2 ^ d) <= u * Z.pos m -> close_period m e (N * 2 ^ (-23 - d - e)).
Proof.
  intros m e d N u He Hd Hu H1 H2. unfold close_period. set (k := -23 - d - e) in *.
  assert (ES : 1000000000 * 2 ^ (- e) = Z.pos second * 2 ^ d * 2 ^ k).
  { replace (- e) with (23 + (d + k)) by lia. rewrite !Z.pow_add_r by lia. change (Z.pos second) with (1000000000 * 2 ^ 23). lia. }
  rewrite ES. set (h := 2 ^ k). assert (0 < h) by (apply Z.pow_pos_nonneg; lia). set (X := Z.pos second * 2 ^ d) in *.
  replace (N * h * Z.pos m - X * h) with ((N * Z.pos m - X) * h) by lia. rewrite Z.abs_mul, (Z.abs_eq h) by lia.
  assert (2 ^ 53 * Z.abs (N * Z.pos m - X) <= X) by (change (2 ^ 53) with (2 ^ 52 * 2); nia). nia.
Qed.

Lemma below_exponent : forall m e, float64 m e -> e < -75 -> forall d, 2 ^ (d - 1) <= Z.pos m < 2 ^ d -> 1 <= d <= 53 -> 0 <= -23 - d - e.
Proof. intros m e Hf He d HD Hd. destruct Hf as [(Hm & _)|(Hm & ->)]; lia. Qed.

Theorem C73_slow : forall machine m e, float64 m e -> e < -75 ->
  close_period m e (delay_of machine (S754_finite false m e)) /\ 0 < delay_of machine (S754_finite false m e) < 2 ^ 63 \/
  too_long m e /\ delay_of machine (S754_finite false m e) = machine (quotient (S754_finite false m e)).
Proof.
  intros machine m e Hf He. destruct (div_all false m e Hf) as (d & N & u & HD & Hd & HR & HN & HU & H1 & H2).
  pose proof (below_exponent m e Hf He d HD Hd) as HE. pose proof (whole_rounded _ _ _ _ HE HN HR) as HW.
  pose proof (slow_scaled m e d N u HE Hd HU H1 H2) as HC. unfold delay_of. fold (quotient (S754_finite false m e)) in *. rewrite HW.
  assert (0 < N * 2 ^ (-23 - d - e)) by (apply Z.mul_pos_pos; [lia|apply Z.pow_pos_nonneg; lia]).
  destruct (Z.ltb_spec (N * 2 ^ (-23 - d - e)) (2 ^ 63)) as [HL|HL].
  - left. split; [exact HC|]. lia.
  - right. split; [|reflexivity]. unfold too_long, close_period in *. nia.
Qed.

(** ** Negative rates *)

(** The delay is not positive, or so long that the conversion is the machine's. *)
Theorem C73_negative : forall machine m e, float64 m e ->
  delay_of machine (S754_finite true m e) <= 0 \/
  too_long m e /\ delay_of machine (S754_finite true m e) = machine (quotient (S754_finite true m e)).
Proof.
  intros machine m e Hf. destruct (div_all true m e Hf) as (d & N & u & HD & Hd & HR & HN & HU & H1 & H2).
  unfold delay_of. fold (quotient (S754_finite true m e)) in *. destruct (Z_lt_le_dec (-23 - d - e) 0) as [HE|HE].
  - (* a quotient below 2^54 *)
    destruct HR as [(p & E & -> & HR & HP)|(_ & HR)]; [|lia]. left. unfold whole.
    assert (HA : 0 <= (if 0 <=? E then Z.pos p * 2 ^ E else Z.pos p / 2 ^ (- E)) <= 2 * N).
    { assert (1 <= 2 ^ (E - (-23 - d - e))) by (assert (0 < 2 ^ (E - (-23 - d - e))) by (apply Z.pow_pos_nonneg; lia); lia).
      assert (Z.pos p <= N) by nia. destruct (Z.leb_spec 0 E) as [P|P].
      - assert (2 ^ E <= 2 ^ (E - (-23 - d - e))) by (apply Z.pow_le_mono_r; lia). assert (0 <= 2 ^ E) by (apply Z.pow_nonneg; lia). nia.
      - assert (0 < 2 ^ (- E)) by (apply Z.pow_pos_nonneg; lia). split; [apply Z.div_pos; lia|].
        apply Z.div_le_upper_bound; nia. }
    set (a := if 0 <=? E then _ else _) in *. assert (HB : N <= 2 ^ 55).
    { assert (2 ^ d = 2 * 2 ^ (d - 1)) by (replace d with (1 + (d - 1)) at 1 by lia; rewrite Z.pow_add_r by lia; reflexivity).
      assert (Z.pos second * 2 ^ d < 2 ^ 54 * Z.pos m) by (change (2 ^ 54) with (2 ^ 53 * 2); assert (Z.pos second < 2 ^ 53) by reflexivity; nia). nia. }
    cbv zeta. assert (-9223372036854775808 <=? - a = true) as -> by (apply Z.leb_le; lia). assert (- a <=? 9223372036854775807 = true) as -> by (apply Z.leb_le; lia).
    cbn [andb]. lia.
  - pose proof (whole_rounded _ _ _ _ HE HN HR) as HW. pose proof (slow_scaled m e d N u HE Hd HU H1 H2) as HC. rewrite HW.
    assert (0 < N * 2 ^ (-23 - d - e)) by (apply Z.mul_pos_pos; [lia|apply Z.pow_pos_nonneg; lia]).
    destruct (Z.leb_spec (N * 2 ^ (-23 - d - e)) (2 ^ 63)) as [HL|HL].
    + left. lia.
    + right. split; [|reflexivity]. unfold too_long, close_period in *. nia.
Qed.

(** ** Zero, infinities, NaN *)
Theorem C73_special : forall machine,
  delay_of machine (S754_infinity false) = 0 /\ delay_of machine (S754_infinity true) = 0 /\
  delay_of machine (S754_zero false) = machine (S754_infinity false) /\ delay_of machine (S754_zero true) = machine (S754_infinity true) /\
  delay_of machine S754_nan = machine S754_nan.
Proof. intros. unfold delay_of. rewrite float_second. repeat split. Qed.

(** ** All float64 values, on the two common architectures *)

(** amd64: CVTTSD2SQ gives the "integer indefinite" value (Intel SDM vol. 2) *)
Definition amd64 (f : spec_float) : Z := - 2 ^ 63.
(** arm64: FCVTZS saturates, and gives zero for NaN (Arm ARM) *)
Definition arm64 (f : spec_float) : Z :=
  match f with
  | S754_nan => 0
  | S754_infinity true | S754_finite true _ _ => - 2 ^ 63
  | _ => 2 ^ 63 - 1
  end.

(** the float64 values *)
Definition a_float64 (f : spec_float) : Prop := match f with S754_finite _ m e => float64 m e | _ => True end.

(** There is a delay for every rate up to 10^9 a second whose period fits an
    int64; for the others there is none, and the decorator starves after its
    burst ([C73_starves]): *)
Theorem C73_ticks_amd64 : forall rps, a_float64 rps -> 0 < delay_of amd64 rps ->
  exists m e, rps = S754_finite false m e /\ (-75 <= e -> units m e <= 1000000000 * 2 ^ 75) /\ (e < -75 -> close_period m e (delay_of amd64 rps)).
Proof.
  intros [s|s| |s m e] Hf HP; [destruct s; vm_compute in HP; discriminate|destruct s; vm_compute in HP; discriminate|vm_compute in HP; discriminate|].
  cbn in Hf. destruct s.
  - exfalso. destruct (C73_negative amd64 m e Hf) as [H|(_ & H)]; [lia|]. rewrite H in HP. unfold amd64 in HP. lia.
  - exists m, e. split; [reflexivity|]. split.
    + intros He. assert (Hn : normal m e) by (destruct Hf as [(H1 & H2)|(_ & H2)]; [split; lia|lia]).
      destruct (Z_le_gt_dec (units m e) (1000000000 * 2 ^ 75)) as [|G]; [assumption|exfalso].
      assert (1000000000 * 2 ^ 75 < units m e) as G' by lia. apply (C73_too_fast amd64 m e Hn) in G'. lia.
    + intros He. destruct (C73_slow amd64 m e Hf He) as [(H & _)|(_ & H)]; [exact H|]. rewrite H in HP. unfold amd64 in HP. lia.
Qed.
(** On arm64 a period that does not fit becomes the longest one, 292 years. *)
Theorem C73_slow_arm64 : forall m e, float64 m e -> e < -75 ->
  0 < delay_of arm64 (S754_finite false m e) < 2 ^ 63 /\
  (close_period m e (delay_of arm64 (S754_finite false m e)) \/ too_long m e /\ delay_of arm64 (S754_finite false m e) = 2 ^ 63 - 1).
Proof.
  intros m e Hf He. destruct (C73_slow arm64 m e Hf He) as [(H1 & H2)|(H1 & H2)]; [now auto|].
  assert (HQ : arm64 (quotient (S754_finite false m e)) = 2 ^ 63 - 1).
  { destruct (div_all false m e Hf) as (d & N & u & _ & _ & HR & _). unfold quotient. destruct HR as [(p & E & -> & _)|(-> & _)]; reflexivity. }
  rewrite H2, HQ. split; [lia|]. right. split; [exact H1|reflexivity].
Qed.

(** The claim for all positive rates, on amd64: it is false even for rates
    that are not too fast.  One call in 300 years: no token ever comes. *)
Definition some_tick (machine : spec_float -> Z) : Prop := forall m e, float64 m e -> (e < -75 \/ units m e <= 1000000000 * 2 ^ 75) ->
  0 < delay_of machine (S754_finite false m e).
Theorem C73_slow_refuted : ~ some_tick amd64.
Proof.
  intros H. specialize (H 1%positive (-1074)). assert (Hf : float64 1 (-1074)) by (right; split; [reflexivity|reflexivity]).
  specialize (H Hf (or_introl eq_refl)). vm_compute in H. discriminate H.
Qed.
(** On a machine that saturates it is true. *)
Theorem C73_some_tick_arm64 : some_tick arm64.
Proof.
  intros m e Hf HD. destruct (Z_lt_le_dec e (-75)) as [He|He].
  - now destruct (C73_slow_arm64 m e Hf He).
  - destruct HD as [HD|HD]; [lia|]. assert (Hn : normal m e) by (destruct Hf as [(H1 & H2)|(_ & H2)]; [split; lia|lia]).
    destruct (C73_delay arm64 m e Hn) as (H1 & _). pose proof (C73_too_fast arm64 m e Hn). destruct (Z.eq_dec (delay_of arm64 (S754_finite false m e)) 0); lia.
Qed.

(** The decorator for a rate that is not one: zero, negative or NaN.  Nothing
    is let through after the burst. *)
Theorem C73_no_rate_starves : forall rps L k dec typ st base burst, a_float64 rps ->
  (forall m e, rps <> S754_finite false m e) -> (burst < L)%nat -> Forall (fun j => (j < length (chans st))%nat) (tickers st) ->
  exists a env st', call_func amd64 (struct_table dec (ratelimit_fields typ)) L (20 + k) (ratelimit_new dec typ) [base; UNum (Z.of_nat burst); UFloat rps] st
      = ROk [UPtr a] st' /\
    forall T L' k' tr t2 st2, Lts.run (gstep amd64 T L' (20 + k')) (TStmts env feeder_body [], st') tr (t2, st2) ->
      (tokens (length (chans st)) tr <= burst)%nat.
Proof.
  intros rps L k dec typ st base burst Hf NP HL HT.
  destruct (C73_starves amd64 L k dec typ st base burst rps HL HT) as (a & env & st' & H1 & H2 & H3).
  - destruct (Z_le_gt_dec (delay_of amd64 rps) 0) as [|G]; [assumption|exfalso].
    destruct (C73_ticks_amd64 rps Hf ltac:(lia)) as (m & e & -> & _). exact (NP m e eq_refl).
  - exists a, env, st'. split; [exact H1|exact H3].
Qed.

(** ** Examples *)

(** one call a year: float64(1)/31536000 *)
Definition a_year : spec_float := SFdiv 53 1024 (float_of 1) (float_of 31536000).
Example year_ex : exists m e, a_year = S754_finite false m e /\ float64 m e /\ e < -75 /\ delay_of amd64 a_year = 31536000000000000.
Proof.
  exists 4791848282972750%positive, (-77). split; [vm_compute; reflexivity|]. split; [left; lia|]. split; [lia|]. vm_compute. reflexivity.
Qed.
(** one call in 300 years: no token on amd64, one in 292 years on arm64 *)
Example three_centuries_ex : let f := SFdiv 53 1024 (float_of 1) (float_of 9460800000) in
  a_float64 f /\ delay_of amd64 f < 0 /\ delay_of arm64 f = 2 ^ 63 - 1.
Proof. cbv zeta. split; [|split; vm_compute; reflexivity]. left. vm_compute. intuition discriminate. Qed.
(** NewXWithRateLimit(base, 3, 0) returns, and three calls pass *)
Example zero_rate_ex : exists a env st', call_func amd64 (struct_table "D" (ratelimit_fields "I")) 10 (20 + 0) (ratelimit_new "D" "I") [UNil; UNum 3; UFloat (S754_zero false)] empty = ROk [UPtr a] st' /\
  forall T L' k' tr t2 st2, Lts.run (gstep amd64 T L' (20 + k')) (TStmts env feeder_body [], st') tr (t2, st2) -> (tokens 0 tr <= 3)%nat.
Proof. apply (C73_no_rate_starves (S754_zero false) 10 0 "D" "I" empty UNil 3); [exact I|discriminate|lia|constructor]. Qed.

Print Assumptions C73_slow.
Print Assumptions C73_negative.
Print Assumptions C73_special.
Print Assumptions C73_ticks_amd64.
Print Assumptions C73_slow_arm64.
Print Assumptions C73_slow_refuted.
Print Assumptions C73_some_tick_arm64.
Print Assumptions C73_no_rate_starves.
