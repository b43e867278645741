(** C73: a rate limiter made for rps calls a second gets a token every 1/rps
    seconds. *)
From Coq Require Import ZArith Lia Floats.SpecFloat.
From Verif Require Import Construct FloatDiv PropConstructors2 PropConstructors3.
From Verif Require PropRateLimitCalls RateLimit Lts Threads.
Open Scope Z_scope.

(** ** Specification *)

(** rps in units of 2^-75 (every float64 from 2^-23 on is a multiple of that) *)
Definition units (m : positive) (e : Z) : Z := Z.pos m * 2 ^ (e + 75).
(** [d] nanoseconds is the time between tokens at [rps] a second, rounded down:
    d <= 10^9 / rps < d + 1 *)
Definition period (m : positive) (e : Z) (d : Z) : Prop :=
  d * units m e <= 1000000000 * 2 ^ 75 < (d + 1) * units m e.

(** the decorator never gets more than [rps] tokens a second: the period is at
    least 10^9 / rps *)
Definition never_faster (machine : spec_float -> Z) : Prop := forall m e, normal m e ->
  1000000000 * 2 ^ 75 <= delay_of machine (S754_finite false m e) * units m e.
(** and it does get tokens *)
Definition always_ticks (machine : spec_float -> Z) : Prop := forall m e, normal m e -> 0 < delay_of machine (S754_finite false m e).

(** ** Proofs *)

Lemma delay_spec : forall machine m e, normal m e ->
  exists N u, delay_of machine (S754_finite false m e) = N / 2 ^ (76 + e) /\ 0 <= N /\
    (u = 1 \/ u = 2 /\ Z.even N = true) /\ u * 2 ^ 52 * Z.pos m <= Z.pos second * 2 ^ 53 /\
    2 * Z.abs (N * Z.pos m - Z.pos second * 2 ^ 53) <= u * Z.pos m.
Proof.
  intros machine m e Hn. destruct (div_spec m e Hn) as (p & E & N & u & H1 & H2 & H3 & H4 & H5 & H6 & H7). destruct Hn as (Hm & He).
  exists N, u. unfold delay_of. rewrite H1. unfold whole.
  assert (HK : 2 <= 2 ^ (76 + e)) by (change 2 with (2 ^ 1) at 1; apply Z.pow_le_mono_r; lia).
  assert (HN : 0 <= N) by (rewrite H3; apply Z.mul_nonneg_nonneg; [lia|apply Z.pow_nonneg; lia]).
  assert (HU : u = 1 \/ u = 2) by tauto.
  assert (HB : N <= 2 ^ 54 + 1) by nia.
  assert (HD : (if 0 <=? E then Z.pos p * 2 ^ E else Z.pos p / 2 ^ (- E)) = N / 2 ^ (76 + e)).
  { destruct (Z.leb_spec 0 E) as [P|P].
    - rewrite H3. replace (E + 76 + e) with (E + (76 + e)) by lia. rewrite Z.pow_add_r by lia. rewrite Z.mul_assoc, Z.div_mul; [reflexivity|lia].
    - assert (2 ^ (76 + e) = 2 ^ (- E) * 2 ^ (E + 76 + e)) as -> by (rewrite <- Z.pow_add_r by lia; f_equal; lia). rewrite H3.
      rewrite Z.div_mul_cancel_r; [reflexivity| |]; apply Z.pow_nonzero; lia. }
  rewrite HD. assert (0 <= N / 2 ^ (76 + e) <= 2 ^ 54 + 1).
  { split; [apply Z.div_pos; lia|]. etransitivity; [|exact HB]. apply Z.div_le_upper_bound; nia. }
  destruct ((-9223372036854775808 <=? N / 2 ^ (76 + e)) && (N / 2 ^ (76 + e) <=? 9223372036854775807))%bool eqn:EB.
  - auto.
  - exfalso. apply andb_false_iff in EB. rewrite !Z.leb_gt in EB. lia.
Qed.

(** For every rps: the delay is the period rounded down, but for the rounding
    of the division, which adds at most one part in 2^53. *)
Theorem C73_delay : forall machine m e, normal m e -> let d := delay_of machine (S754_finite false m e) in
  0 <= d /\ 1000000000 * 2 ^ 75 < (d + 1) * units m e /\ d * units m e * 2 ^ 53 <= 1000000000 * 2 ^ 75 * (2 ^ 53 + 1).
Proof.
  intros machine m e Hn. destruct (delay_spec machine m e Hn) as (N & u & HD & HN & HU & HX & HR). cbv zeta. rewrite HD. clear HD.
  destruct Hn as (Hm & He). unfold units. change (1000000000 * 2 ^ 75) with (Z.pos second * 2 ^ 52).
  assert (EK : 2 ^ (76 + e) = 2 * 2 ^ (e + 75)) by (replace (76 + e) with (1 + (e + 75)) by lia; rewrite Z.pow_add_r by lia; reflexivity).
  set (h := 2 ^ (e + 75)) in *. assert (Hh : 1 <= h) by (assert (0 < h) by (apply Z.pow_pos_nonneg; lia); lia).
  rewrite EK. clear EK. pose proof (Z.div_mod N (2 * h) ltac:(lia)) as DM. pose proof (Z.mod_pos_bound N (2 * h) ltac:(lia)) as MB.
  set (d := N / (2 * h)) in *. assert (Hd : 0 <= d) by (apply Z.div_pos; lia). set (X := Z.pos second) in *. assert (0 < X) by reflexivity.
  change (2 ^ 53) with (2 * 2 ^ 52) in *. set (b := 2 ^ 52) in *. assert (0 < b) by reflexivity. split; [exact Hd|]. split.
  - assert (HT : N < (d + 1) * (2 * h)) by lia. destruct (Z_lt_le_dec (X * b) ((d + 1) * (Z.pos m * h))) as [|C]; [assumption|exfalso].
    assert (C' : (d + 1) * (2 * h) * Z.pos m <= X * (2 * b)) by nia.
    destruct HU as [->|(-> & HE)].
    + assert (N * Z.pos m <= ((d + 1) * (2 * h) - 1) * Z.pos m) by nia. lia.
    + apply Z.even_spec in HE. destruct HE as (n & ->). assert (n <= (d + 1) * h - 1) by lia.
      assert (2 * n * Z.pos m <= ((d + 1) * (2 * h) - 2) * Z.pos m) by nia. lia.
  - assert (d * (2 * h) * Z.pos m <= N * Z.pos m) by nia. nia.
Qed.

(** Every rate above 10^9 a second gives a delay of zero, every other one a
    positive delay. *)
Theorem C73_too_fast : forall machine m e, normal m e ->
  (delay_of machine (S754_finite false m e) = 0 <-> 1000000000 * 2 ^ 75 < units m e).
Proof.
  intros machine m e Hn. destruct (C73_delay machine m e Hn) as (H1 & H2 & H3). set (d := delay_of _ _) in *. split.
  - intros E. rewrite E in H2. lia.
  - intros H. destruct (Z.eq_dec d 0) as [|N]; [assumption|exfalso]. assert (D1 : 1 <= d) by lia.
    assert (HR : units m e * 2 ^ 53 <= 1000000000 * 2 ^ 75 * (2 ^ 53 + 1)) by nia.
    unfold units in *. destruct Hn as (Hm & He).
    destruct (Z.lt_trichotomy e (-23)) as [P|[->|P]].
    + assert (2 ^ (e + 75) <= 2 ^ 51) by (apply Z.pow_le_mono_r; lia).
      assert (Z.pos m * 2 ^ (e + 75) <= 2 ^ 53 * 2 ^ 51) by (apply Z.mul_le_mono_nonneg; try lia; apply Z.pow_nonneg; lia).
      change (2 ^ 53 * 2 ^ 51) with 20282409603651670423947251286016 in *. change (1000000000 * 2 ^ 75) with 37778931862957161709568000000000 in *. lia.
    + change (-23 + 75) with 52 in *. lia.
    + assert (2 ^ 53 <= 2 ^ (e + 75)) by (apply Z.pow_le_mono_r; lia).
      assert (2 ^ 52 * 2 ^ 53 <= Z.pos m * 2 ^ (e + 75)) by (apply Z.mul_le_mono_nonneg; lia). lia.
Qed.

(** whole numbers of calls a second *)
Lemma aux_exact : forall M e, -1074 <= e <= 900 -> 2 ^ 52 <= Z.pos M < 2 ^ 53 -> binary_round_aux 53 1024 false (Z.pos M) e loc_Exact = S754_finite false M e.
Proof.
  intros M e He HM. unfold binary_round_aux, shr_fexp. rewrite (Zdigits_unique (Z.pos M) 53) by (change (53 - 1) with 52; lia). rewrite fexp_53 by lia.
  cbn [shr shr_record_of_loc loc_of_shr_record shr_m round_nearest_even]. rewrite (Zdigits_unique (Z.pos M) 53) by (change (53 - 1) with 52; lia). rewrite fexp_53 by lia.
  cbn [shr shr_record_of_loc shr_m]. destruct (Z.leb_spec e (1024 - 53)); [reflexivity|lia].
Qed.
Lemma float_whole : forall k, 1 <= k < 2 ^ 53 -> exists m e, float_of k = S754_finite false m e /\ normal m e /\ units m e = k * 2 ^ 75.
Proof.
  intros [|p|p] Hk; [lia| |lia]. unfold float_of, binary_normalize, binary_round. rewrite Z.add_0_r.
  pose proof (digits_spec p) as HD. set (d := Z.pos (digits2_pos p)) in *. assert (Hd : 1 <= d <= 53).
  { split; [unfold d; lia|]. destruct (Z_le_gt_dec d 53); [assumption|]. assert (2 ^ 53 <= 2 ^ (d - 1)) by (apply Z.pow_le_mono_r; lia). lia. }
  assert (EF : fexp 53 1024 d = d - 53) by (unfold fexp, emin; lia). rewrite EF. unfold shl_align. rewrite Z.sub_0_r.
  assert (HP : forall j, 0 <= j -> 0 < 2 ^ j) by (intros; apply Z.pow_pos_nonneg; lia).
  destruct (d - 53) as [|j|j] eqn:EJ; [|lia|].
  - assert (D53 : d = 53) by lia. rewrite D53 in HD. change (53 - 1) with 52 in HD. assert (HN : 2 ^ 52 <= Z.pos p < 2 ^ 53) by lia.
    exists p, 0. split; [apply aux_exact; lia|]. split; [split; lia|]. reflexivity.
  - assert (ES : Z.pos (shift_pos j p) = Z.pos p * 2 ^ (53 - d)).
    { rewrite shift_pos_correct. rewrite Z.mul_comm. f_equal. replace (53 - d) with (Z.pos j) by lia. reflexivity. }
    assert (HN : 2 ^ 52 <= Z.pos (shift_pos j p) < 2 ^ 53).
    { rewrite ES. replace (2 ^ 52) with (2 ^ (d - 1) * 2 ^ (53 - d)) by (rewrite <- Z.pow_add_r by lia; f_equal; lia).
      replace (2 ^ 53) with (2 ^ d * 2 ^ (53 - d)) by (rewrite <- Z.pow_add_r by lia; f_equal; lia). specialize (HP (53 - d) ltac:(lia)). nia. }
    exists (shift_pos j p), (Z.neg j). split; [apply aux_exact; lia|]. split; [split; lia|].
    unfold units. rewrite ES, <- Z.mul_assoc, <- Z.pow_add_r by lia. f_equal. f_equal. lia.
Qed.
Theorem C73_whole : forall machine k, 1 <= k < 2 ^ 53 -> delay_of machine (float_of k) = 1000000000 / k.
Proof.
  intros machine k Hk. destruct (float_whole k Hk) as (m & e & -> & Hn & HU).
  destruct (C73_delay machine m e Hn) as (H1 & H2 & H3). set (d := delay_of _ _) in *. rewrite HU in H2, H3.
  apply Z.div_unique with (r := 1000000000 - k * d); [left|lia]. nia.
Qed.
(** a period rounded down, for every whole rate *)
Corollary C73_period_partial : forall machine k, 1 <= k < 2 ^ 53 -> exists m e, float_of k = S754_finite false m e /\ period m e (delay_of machine (float_of k)).
Proof.
  intros machine k Hk. rewrite C73_whole by exact Hk. destruct (float_whole k Hk) as (m & e & E & _ & HU). exists m, e. split; [exact E|].
  unfold period. rewrite HU. pose proof (Z.div_mod 1000000000 k ltac:(lia)). pose proof (Z.mod_pos_bound 1000000000 k ltac:(lia)). nia.
Qed.

(** ** Without ticks *)
Section STARVES.
Local Open Scope nat_scope.
Variable machine : spec_float -> Z.
Variable T : list (string * list (string * uval)).
Variables L k : nat.
Variables (dec : string) (ticks burst : nat) (delay : Z).
Hypothesis Hdelay : (delay <= 0)%Z.

(** tokens given out *)
Fixpoint tokens (tr : list glabel) : nat :=
  match tr with
  | [] => 0
  | GTake j _ :: tr' | GHand j _ :: tr' => (if Nat.eqb j ticks then 1 else 0) + tokens tr'
  | _ :: tr' => tokens tr'
  end.
Lemma tokens_app : forall a b, tokens (a ++ b) = tokens a + tokens b.
Proof. induction a as [|x a IH]; intros b; [reflexivity|]. destruct x; cbn; rewrite ?IH; lia. Qed.

Lemma starve_step : forall t st b cl l t' st', feeds dec ticks burst delay (t, st) (Limiter b RateLimit.AtRange false cl) ->
  gstep machine T L (20 + k) (t, st) l (t', st') ->
  exists b', feeds dec ticks burst delay (t', st') (Limiter b' RateLimit.AtRange false cl) /\ b = b' + tokens [l].
Proof.
  intros t st b cl l t' st' HF HS. assert (NR : forall j, ~ ranges t j).
  { destruct HF as (buf & a & env & fs & _ & _ & _ & _ & _ & _ & HP). cbn in HP. intros j HR.
    inversion HP; subst; cbn in HR; try contradiction; try (unfold ticker in *; destruct (Z.leb_spec delay 0); [|lia]; intuition congruence). }
  destruct (C69_feeder _ _ _ _ _ _ _ _ _ _ _ _ _ _ _ _ _ HF HS) as (s' & HF' & HX).
  destruct l as [|j v|j v|j v|j v|j v]; cbn [seen tokens] in *.
  - subst s'. exists b. split; [exact HF'|lia].
  - inversion HX.
  - destruct HX as (_ & HX). inversion HX.
  - destruct HX as (-> & HX). specialize (HX 0 1 (fun _ => 0) (fun _ => MiniGo.VNil) MiniGo.VNil). rewrite Nat.eqb_refl.
    inversion HX; subst. eexists. split; [exact HF'|lia].
  - destruct HX as (_ & HX). rewrite (HX (NR j)) in HF'. exists b. split; [exact HF'|lia].
  - destruct HX as (H1 & H2). destruct (Nat.eqb_spec j ticks) as [->|N].
    + specialize (H1 eq_refl 0 1 (fun _ => 0) (fun _ => MiniGo.VNil) MiniGo.VNil). inversion H1; subst. eexists. split; [exact HF'|lia].
    + rewrite (H2 N) in HF'. exists b. split; [exact HF'|lia].
Qed.
Lemma starve_run : forall t st b cl tr t' st', feeds dec ticks burst delay (t, st) (Limiter b RateLimit.AtRange false cl) ->
  Lts.run (gstep machine T L (20 + k)) (t, st) tr (t', st') -> tokens tr <= b.
Proof.
  intros t st b cl tr t' st' HF HR.
  assert (exists b', feeds dec ticks burst delay (t', st') (Limiter b' RateLimit.AtRange false cl) /\ b = b' + tokens tr) as (b' & _ & E); [|lia].
  remember (t, st) as c eqn:Ec. remember (t', st') as c' eqn:Ec'. revert t' st' Ec'. induction HR as [|tr c2 l c3 HR IH HS]; intros t' st' Ec'.
  - subst. injection Ec' as <- <-. exists b. split; [exact HF|cbn; lia].
  - subst. destruct c2 as (t2 & st2). destruct (IH _ _ eq_refl) as (b2 & F2 & E2). destruct (starve_step _ _ _ _ _ _ _ F2 HS) as (b3 & F3 & E3).
    exists b3. split; [exact F3|]. rewrite tokens_app. lia.
Qed.
End STARVES.

(** A decorator whose delay is zero lets through as many calls as its burst,
    and no further ones, however it runs on. *)
Theorem C73_starves : forall machine L k dec typ st base burst rps, (burst < L)%nat -> Forall (fun j => (j < length (chans st))%nat) (tickers st) ->
  delay_of machine rps <= 0 ->
  exists a env st', call_func machine (struct_table dec (ratelimit_fields typ)) L (20 + k) (ratelimit_new dec typ) [base; UNum (Z.of_nat burst); UFloat rps] st
      = ROk [UPtr a] st' /\ spawned st' = (spawned st ++ [(env, feeder_body)])%list /\
    forall T L' k' tr t2 st2, Lts.run (gstep machine T L' (20 + k')) (TStmts env feeder_body [], st') tr (t2, st2) ->
      (tokens (length (chans st)) tr <= burst)%nat.
Proof.
  intros machine L k dec typ st base burst rps HL HT HD.
  destruct (C69_ratelimit_starts machine L k dec typ st base burst rps HL HT) as (a & env & st' & H1 & H2 & H3).
  exists a, env, st'. split; [exact H1|]. split; [exact H2|]. intros T L' k' tr t2 st2 HR.
  unfold PropRateLimitCalls.fresh in H3. cbn [Threads.cf_shared] in H3. eapply starve_run; [exact HD|exact H3|exact HR].
Qed.

(** ** What is false *)

(** 3 calls a second: a token every 333333333 ns, three in 999999999 ns. *)
Theorem C73_never_faster_refuted : forall machine, ~ never_faster machine.
Proof.
  intros machine H. destruct (float_whole 3) as (m & e & E & Hn & HU); [lia|]. specialize (H m e Hn).
  rewrite <- E, C73_whole, HU in H by lia. vm_compute in H. apply H. reflexivity.
Qed.
(** two thousand million calls a second: no token at all after the burst *)
Theorem C73_always_ticks_refuted : forall machine, ~ always_ticks machine.
Proof.
  intros machine H. destruct (float_whole 2000000000) as (m & e & E & Hn & HU); [lia|]. specialize (H m e Hn).
  rewrite <- E, C73_whole in H by lia. vm_compute in H. discriminate H.
Qed.

(** ** Examples *)

Example four_a_second : forall machine, delay_of machine (float_of 4) = 250000000.
Proof. intros. rewrite C73_whole by lia. reflexivity. Qed.
Example half_a_second : exists m e, normal m e /\ S754_finite false m e = SFdiv 53 1024 (float_of 1) (float_of 2) /\ period m e 2000000000.
Proof. exists 4503599627370496%positive, (-53). split; [unfold normal; lia|]. split; [reflexivity|]. unfold period, units. vm_compute. split; [intros D; discriminate D|reflexivity]. Qed.
Example too_fast_ex : forall machine, delay_of machine (float_of 2000000000) <= 0.
Proof. intros. rewrite C73_whole by lia. vm_compute. intros D. discriminate D. Qed.
(** the constructor for it, applied *)
Example starves_ex : exists a env st', call_func (fun _ => 0) (struct_table "D" (ratelimit_fields "I")) 10 (20 + 0) (ratelimit_new "D" "I") [UNil; UNum 3; UFloat (float_of 2000000000)] empty = ROk [UPtr a] st'
  /\ spawned st' = [(env, feeder_body)].
Proof.
  destruct (C73_starves (fun _ => 0) 10 0 "D" "I" empty UNil 3 (float_of 2000000000)) as (a & env & st' & H1 & H2 & _); [lia|constructor|apply too_fast_ex|].
  exists a, env, st'. split; [exact H1|exact H2].
Qed.

Print Assumptions C73_delay.
Print Assumptions C73_too_fast.
Print Assumptions C73_whole.
Print Assumptions C73_period_partial.
Print Assumptions C73_starves.
Print Assumptions C73_never_faster_refuted.
Print Assumptions C73_always_ticks_refuted.
