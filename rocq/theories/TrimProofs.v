(** strings.TrimSpace against TrimSpec.v *)
From Verif Require Import Trim TrimSpec Utf8Proofs.
Open Scope nat_scope.

Lemma is_space_white : forall r, is_space_rune r = true <-> white r.
Proof.
  intros r. unfold is_space_rune, white. split.
  - destruct (N.leb_spec r 255).
    + intros H1. apply existsb_exists in H1 as (x & Hx & E). apply N.eqb_eq in E as <-. cbn [In] in *. intuition.
    + rewrite !orb_true_iff, !in_range_iff, !N.eqb_eq. intros H1.
      assert (X : (r = 5760 \/ r = 8192 \/ r = 8193 \/ r = 8194 \/ r = 8195 \/ r = 8196 \/ r = 8197 \/ r = 8198 \/ r = 8199 \/ r = 8200 \/ r = 8201 \/ r = 8202
        \/ r = 8232 \/ r = 8233 \/ r = 8239 \/ r = 8287 \/ r = 12288)%N) by lia.
      cbn [In]. intuition.
  - cbn [In]. intros H. repeat destruct H as [<-|H]; try reflexivity. destruct H.
Qed.

Lemma white_valid : forall r, white r -> valid_rune r.
Proof. intros r H. unfold valid_rune. cbn [white In] in H. repeat destruct H as [<-|H]; try lia; try (now left); now destruct H. Qed.

Lemma white_nonempty : forall r, white r -> encode_rune r <> "".
Proof. intros r H. cbn [white In] in H. repeat destruct H as [<-|H]; try discriminate. destruct H. Qed.

Lemma decode_white s r w : decode_rune s = Some (r, w) -> white r -> exists t, s = (encode_rune r ++ t)%string /\ w = String.length (encode_rune r).
Proof. intros H W. apply encode_decode in H; [exact H|]. intros ->. cbn [white In] in W. now repeat destruct W as [W|W]. Qed.

Lemma length_app (a b : string) : String.length (a ++ b) = String.length a + String.length b.
Proof. induction a as [|c a IH]; cbn; [reflexivity | now rewrite IH]. Qed.
Lemma app_inj_l (p a b : string) : (p ++ a = p ++ b)%string -> a = b.
Proof. induction p as [|c p IH]; cbn; intros H; [exact H|]. injection H as H. now apply IH. Qed.
Lemma app_inj_r : forall (a b q : string), (a ++ q = b ++ q)%string -> a = b.
Proof.
  induction a as [|c a IH]; intros [|d b] q H; [reflexivity|..].
  - apply (f_equal String.length) in H. cbn in H. rewrite length_app in H. lia.
  - apply (f_equal String.length) in H. cbn in H. rewrite length_app in H. lia.
  - cbn in H. injection H as -> H. now rewrite (IH b q H).
Qed.
Lemma app_eq_app : forall (a b c d : string), (a ++ b = c ++ d)%string -> (exists l, a = (c ++ l)%string) \/ (exists l, c = (a ++ l)%string /\ l <> "" /\ b = (l ++ d)%string).
Proof.
  induction a as [|x a IH]; intros b [|y c] d H; cbn in H.
  - left. now exists "".
  - right. exists (String y c). repeat split; [discriminate | exact H].
  - left. now exists (String x a).
  - injection H as <- H. destruct (IH _ _ _ H) as [(l & ->) | (l & -> & N & ->)]; [left; now exists l | right; now exists l].
Qed.
Lemma take_app_len (a b : string) : take (String.length a) (a ++ b) = a.
Proof. induction a as [|c a IH]; cbn; [now destruct b | now rewrite IH]. Qed.
Lemma take_drop : forall n s, (take n s ++ drop n s)%string = s.
Proof. induction n as [|n IH]; intros [|c s]; try reflexivity. cbn. now rewrite IH. Qed.

Lemma suffix_app (a b : string) : suffix (String.length b) (a ++ b) = b.
Proof. unfold suffix. rewrite length_app. replace (_ + _ - _) with (String.length a) by lia. apply drop_app. Qed.
Lemma suffix_length : forall k s, k <= String.length s -> String.length (suffix k s) = k.
Proof.
  intros k s H. unfold suffix. pose proof (f_equal String.length (take_drop (String.length s - k) s)) as E. rewrite length_app in E.
  assert (L : forall n s, n <= String.length s -> String.length (take n s) = n).
  { clear. induction n as [|n IH]; intros [|c s] Hn; cbn in *; try lia. rewrite IH; lia. }
  rewrite L in E by lia. lia.
Qed.
Lemma suffix_cut k s : s = (take (String.length s - k) s ++ suffix k s)%string.
Proof. symmetry. apply take_drop. Qed.

(** the last rune is white exactly when the string ends in its encoding *)
Lemma decode_last_white s r w : decode_last_rune s = Some (r, w) -> white r -> exists t, s = (t ++ encode_rune r)%string /\ w = String.length (encode_rune r).
Proof.
  intros H W. unfold decode_last_rune in H. destruct (suffix 1 s) as [|c x] eqn:E1; [discriminate|].
  assert (X : r <> RuneError) by (intros ->; cbn [white In] in W; now repeat destruct W as [W|W]).
  destruct (N.ltb_spec (byte c) 128) as [Hc|Hc].
  - injection H as <- <-. exists (take (String.length s - 1) s). unfold encode_rune. rewrite (proj2 (N.ltb_lt _ _) Hc). split; [|reflexivity].
    rewrite <- str1_byte. rewrite (suffix_cut 1 s) at 1. rewrite E1. f_equal.
    destruct s as [|d s]; [discriminate|]. pose proof (suffix_length 1 (String d s) ltac:(cbn; lia)) as L. rewrite E1 in L. cbn in L. destruct x; [reflexivity | discriminate].
  - destruct (last_start [2; 3; 4] s) as [x'|] eqn:E; [|injection H as <- <-; now elim X].
    destruct (decode_rune x') as [[r' w']|] eqn:D; [|injection H as <- <-; now elim X].
    destruct (Nat.eqb_spec w' (String.length x')) as [El|]; [|injection H as <- <-; now elim X]. injection H as <- <-.
    destruct (decode_white _ _ _ D W) as (t & Et & Ew).
    assert (t = "") as ->.
    { destruct t as [|d t]; [reflexivity|]. exfalso. rewrite Et, length_app in El. cbn in El. lia. }
    assert (Y : exists k, x' = suffix k s).
    { revert E. generalize [2; 3; 4]. induction l as [|k l IH]; cbn [last_start]; [discriminate|].
      destruct (k <=? String.length s); [|discriminate]. destruct (suffix k s) as [|d y] eqn:Es; [discriminate|].
      destruct (rune_start d); [|exact IH]. intros [= <-]. now exists k. }
    destruct Y as (k & ->). exists (take (String.length s - k) s). split; [|exact Ew].
    rewrite (suffix_cut k s) at 1. f_equal. rewrite Et. clear. induction (encode_rune r') as [|d y IH]; cbn; [reflexivity | now rewrite IH].
Qed.

Lemma suffix_mid (t a b : string) : suffix (String.length b) (t ++ (a ++ b)) = b.
Proof. rewrite <- sapp_assoc. apply suffix_app. Qed.
Ltac at_end L := let E := fresh in pose proof L as E; change (String.length (String ?a "")) with 1 in E; change (String.length (String ?a (String ?b ""))) with 2 in E;
  change (String.length (String ?a (String ?b (String ?c "")))) with 3 in E; cbn [append] in E; rewrite E; clear E.
Lemma last1 t a r : (byte a <? 128)%N = true -> r = byte a -> decode_last_rune (t ++ String a "") = Some (r, 1).
Proof. intros H ->. unfold decode_last_rune. at_end (suffix_app t (String a "")). rewrite H. reflexivity. Qed.
Lemma last2 t a b r : (byte b <? 128)%N = false -> rune_start a = true -> decode_rune (String a (String b "")) = Some (r, 2) ->
  decode_last_rune (t ++ String a (String b "")) = Some (r, 2).
Proof.
  intros H1 H2 H3. unfold decode_last_rune. at_end (suffix_mid t (String a "") (String b "")). rewrite H1.
  cbn [last_start]. at_end (suffix_app t (String a (String b ""))). rewrite H2, length_app. cbn [String.length].
  rewrite (proj2 (Nat.leb_le 2 _)) by lia. rewrite H3. reflexivity.
Qed.
Lemma last3 t a b c r : (byte c <? 128)%N = false -> rune_start b = false -> rune_start a = true -> decode_rune (String a (String b (String c ""))) = Some (r, 3) ->
  decode_last_rune (t ++ String a (String b (String c ""))) = Some (r, 3).
Proof.
  intros H1 H2 H3 H4. unfold decode_last_rune. at_end (suffix_mid t (String a (String b "")) (String c "")). rewrite H1.
  cbn [last_start]. at_end (suffix_mid t (String a "") (String b (String c ""))). rewrite H2.
  at_end (suffix_app t (String a (String b (String c "")))). rewrite H3, length_app. cbn [String.length].
  rewrite (proj2 (Nat.leb_le 2 _)) by lia. rewrite (proj2 (Nat.leb_le 3 _)) by lia. rewrite H4. reflexivity.
Qed.
Lemma decode_last_encode t r : white r -> decode_last_rune (t ++ encode_rune r) = Some (r, String.length (encode_rune r)).
Proof.
  intros W. cbn [white In] in W. repeat destruct W as [<-|W]; try contradiction W.
  all: first [apply last1; reflexivity | apply last2; reflexivity | apply last3; reflexivity].
Qed.

Lemma prefix_free r q u v : white r -> white q -> (encode_rune r ++ u = encode_rune q ++ v)%string -> r = q /\ u = v.
Proof.
  intros Wr Wq E. pose proof (decode_encode r u (white_valid r Wr)) as D. rewrite E, (decode_encode q v (white_valid q Wq)) in D.
  injection D as -> _. split; [reflexivity|]. now apply app_inj_l in E.
Qed.
Lemma suffix_free r q u v : white r -> white q -> (u ++ encode_rune r = v ++ encode_rune q)%string -> r = q /\ u = v.
Proof.
  intros Wr Wq E. pose proof (decode_last_encode u r Wr) as D. rewrite E, (decode_last_encode v q Wq) in D.
  injection D as -> _. split; [reflexivity|]. now apply app_inj_r in E.
Qed.
(** an encoding starts with a byte that is inside of none *)
Lemma white_inside r q t c l l' : white r -> white q -> encode_rune r = (t ++ String c l)%string -> t <> "" -> encode_rune q = String c l' -> False.
Proof.
  intros Wr Wq Er Nt Eq.
  assert (A : rune_start c = true).
  { clear -Wq Eq. cbn [white In] in Wq. repeat destruct Wq as [<-|Wq]; try contradiction; vm_compute in Eq; injection Eq as <- _; reflexivity. }
  assert (B : rune_start c = false); [|congruence]. clear -Wr Er Nt.
  cbn [white In] in Wr. repeat destruct Wr as [<-|Wr]; try contradiction.
  all: destruct t as [|d1 [|d2 [|d3 t]]]; try (now elim Nt); vm_compute in Er; try discriminate Er.
  all: try (injection Er as _ <- _; reflexivity); try (injection Er as _ _ <- _; reflexivity).
  all: try (injection Er as _ Er; discriminate Er).
  all: try (injection Er as _ _ Er; discriminate Er).
  all: try (injection Er as _ _ _ Er; destruct t; discriminate Er).
Qed.

Definition starts_white (s : string) : Prop := exists r u, white r /\ s = (encode_rune r ++ u)%string.
Definition ends_white (s : string) : Prop := exists r u, white r /\ s = (u ++ encode_rune r)%string.

Lemma blank_app a b : blank a -> blank b -> blank (a ++ b).
Proof. intros Ha Hb. induction Ha as [|r s W Ha IH]; [exact Hb|]. rewrite sapp_assoc. now constructor. Qed.
Lemma blank_one r : white r -> blank (encode_rune r).
Proof. intros W. rewrite <- (sapp_nil_r (encode_rune r)). constructor; [exact W | constructor]. Qed.
Lemma blank_snoc s : blank s -> s = "" \/ exists r u, white r /\ blank u /\ s = (u ++ encode_rune r)%string.
Proof.
  induction 1 as [|r s W B IH]; [now left|]. right. destruct IH as [-> | (q & u & Wq & Bu & ->)].
  - exists r, "". rewrite sapp_nil_r. repeat split; [exact W | constructor].
  - exists q, (encode_rune r ++ u)%string. rewrite sapp_assoc. repeat split; [exact Wq|]. now constructor.
Qed.

Lemma starts_white_app t b : t <> "" -> ~ starts_white t -> blank b -> ~ starts_white (t ++ b).
Proof.
  intros Nt Ns Bb (r & u & Wr & E). destruct Bb as [|q b Wq Bb]; [apply Ns; exists r, u; rewrite sapp_nil_r in E; auto|].
  destruct (app_eq_app _ _ _ _ E) as [(l & ->) | (l & El & Nl & Eb)]; [apply Ns; exists r, l; auto|].
  destruct l as [|c l]; [congruence|]. pose proof (white_nonempty q Wq) as Nq. destruct (encode_rune q) as [|c' l'] eqn:Eq; [congruence|].
  cbn in Eb. injection Eb as -> _. exact (white_inside r q t c l l' Wr Wq El Nt Eq).
Qed.

Lemma blank_prefix_unique a1 : blank a1 -> forall a2 u1 u2, blank a2 -> (a1 ++ u1 = a2 ++ u2)%string -> ~ starts_white u1 -> ~ starts_white u2 -> u1 = u2.
Proof.
  induction 1 as [|r s W B IH]; intros a2 u1 u2 B2 E N1 N2.
  - destruct B2 as [|q s Wq Bs]; [exact E|]. elim N1. exists q, (s ++ u2)%string. split; [exact Wq|]. cbn in E. now rewrite E, sapp_assoc.
  - destruct B2 as [|q s' Wq Bs].
    + elim N2. exists r, (s ++ u1)%string. split; [exact W|]. cbn in E. now rewrite <- E, sapp_assoc.
    + rewrite !sapp_assoc in E. apply prefix_free in E as [_ E]; [|exact W|exact Wq]. eauto.
Qed.
Lemma blank_suffix_unique : forall n b1, String.length b1 <= n -> forall t1 t2 b2, blank b1 -> blank b2 -> (t1 ++ b1 = t2 ++ b2)%string ->
  ~ ends_white t1 -> ~ ends_white t2 -> t1 = t2.
Proof.
  induction n as [|n IH]; intros b1 L t1 t2 b2 B1 B2 E N1 N2.
  - destruct b1; [|cbn in L; lia]. rewrite sapp_nil_r in E. subst t1.
    destruct (blank_snoc _ B2) as [-> | (r & u & W & _ & ->)]; [now rewrite sapp_nil_r|]. elim N1. exists r, (t2 ++ u)%string. split; [exact W|]. now rewrite sapp_assoc.
  - destruct (blank_snoc _ B1) as [-> | (r & u & W & Bu & ->)].
    + rewrite sapp_nil_r in E. subst t1.
      destruct (blank_snoc _ B2) as [-> | (r & u & W & _ & ->)]; [now rewrite sapp_nil_r|]. elim N1. exists r, (t2 ++ u)%string. split; [exact W|]. now rewrite sapp_assoc.
    + destruct (blank_snoc _ B2) as [-> | (q & v & Wq & Bv & ->)].
      * rewrite sapp_nil_r in E. subst t2. elim N2. exists r, (t1 ++ u)%string. split; [exact W|]. now rewrite sapp_assoc.
      * rewrite <- !sapp_assoc in E. apply suffix_free in E as [_ E]; [|exact W|exact Wq].
        apply (IH u) with (b2 := v); auto.
        rewrite length_app in L. pose proof (white_nonempty r W). destruct (encode_rune r); [congruence|]. cbn in L. lia.
Qed.

(** ** the algorithm *)
Lemma trim_left_spec : forall f s, String.length s <= f -> exists a, s = (a ++ trim_left_aux f s)%string /\ blank a /\ ~ starts_white (trim_left_aux f s).
Proof.
  assert (N : forall s r w, decode_rune s = Some (r, w) -> is_space_rune r = false -> ~ starts_white s).
  { intros s r w D Hs (q & u & W & ->). rewrite (decode_encode q u (white_valid q W)) in D. injection D as <- _.
    apply is_space_white in W. congruence. }
  induction f as [|f IH]; intros s L.
  - destruct s; [|cbn in L; lia]. exists "". repeat split; [constructor|]. intros (q & u & W & E). pose proof (white_nonempty q W). destruct (encode_rune q); [congruence | discriminate].
  - cbn [trim_left_aux]. destruct (decode_rune s) as [[r w]|] eqn:D.
    + destruct (is_space_rune r) eqn:Es.
      * apply is_space_white in Es. destruct (decode_white _ _ _ D Es) as (t & -> & ->). rewrite drop_app.
        destruct (IH t) as (a & Ea & Ba & Na).
        { rewrite length_app in L. pose proof (white_nonempty r Es). destruct (encode_rune r); [congruence|]. cbn in L. lia. }
        exists (encode_rune r ++ a)%string. rewrite sapp_assoc, <- Ea. split; [reflexivity|]. split; [now constructor | exact Na].
      * exists "". split; [reflexivity|]. split; [constructor|]. eapply N; eauto.
    + exists "". split; [reflexivity|]. split; [constructor|]. intros (q & u & W & ->). rewrite (decode_encode q u (white_valid q W)) in D. discriminate.
Qed.
Lemma trim_right_spec : forall f s, String.length s <= f -> exists b, s = (trim_right_aux f s ++ b)%string /\ blank b /\ ~ ends_white (trim_right_aux f s).
Proof.
  induction f as [|f IH]; intros s L.
  - destruct s; [|cbn in L; lia]. exists "". repeat split; [constructor|]. intros (q & u & W & E). pose proof (white_nonempty q W). destruct u, (encode_rune q); try congruence; discriminate.
  - cbn [trim_right_aux]. destruct (decode_last_rune s) as [[r w]|] eqn:D.
    + destruct (is_space_rune r) eqn:Es.
      * apply is_space_white in Es. destruct (decode_last_white _ _ _ D Es) as (t & -> & ->).
        rewrite length_app. replace (_ + _ - _) with (String.length t) by lia. rewrite take_app_len.
        destruct (IH t) as (b & Eb & Bb & Nb).
        { rewrite length_app in L. pose proof (white_nonempty r Es). destruct (encode_rune r); [congruence|]. cbn in L. lia. }
        exists (b ++ encode_rune r)%string. rewrite <- sapp_assoc, <- Eb. split; [reflexivity|]. split; [apply blank_app; [exact Bb | now apply blank_one] | exact Nb].
      * exists "". rewrite sapp_nil_r. split; [reflexivity|]. split; [constructor|]. intros (q & u & W & ->). rewrite (decode_last_encode u q W) in D. injection D as <- _.
        apply is_space_white in W. congruence.
    + exists "". rewrite sapp_nil_r. split; [reflexivity|]. split; [constructor|]. intros (q & u & W & ->). rewrite (decode_last_encode u q W) in D. discriminate.
Qed.

Lemma trim_space_trimmed s : trimmed s (trim_space s).
Proof.
  unfold trim_space, trim_left, trim_right. destruct (trim_left_spec (String.length s) s (le_n _)) as (a & E1 & B1 & H1).
  set (l := trim_left_aux (String.length s) s) in *. destruct (trim_right_spec (String.length l) l (le_n _)) as (b & E2 & B2 & H2).
  set (t := trim_right_aux (String.length l) l) in *. split; [|split].
  - exists a, b. rewrite <- E2. auto.
  - intros r u W E. apply H1. exists r, (u ++ b)%string. split; [exact W|]. rewrite E2, E. apply sapp_assoc.
  - intros r u W E. apply H2. exists r, u. auto.
Qed.

Lemma trimmed_blank s t : trimmed s t -> blank s -> t = "".
Proof.
  intros ((a & b & E & Ba & Bb) & F & _) Bs. destruct (string_dec t "") as [|N]; [assumption|exfalso].
  assert (Ns : ~ starts_white (t ++ b)) by (apply starts_white_app; [exact N | intros (r & u & W & E'); now apply (F r u W) | exact Bb]).
  assert (X : (t ++ b)%string = "").
  { symmetry. apply (blank_prefix_unique s Bs a "" (t ++ b)); [exact Ba | now rewrite sapp_nil_r | | exact Ns].
    intros (q & u & W & E'). pose proof (white_nonempty q W). destruct (encode_rune q); [congruence | discriminate]. }
  destruct t; [now elim N | discriminate].
Qed.
Lemma trimmed_unique s t1 t2 : trimmed s t1 -> trimmed s t2 -> t1 = t2.
Proof.
  intros T1 T2. destruct (string_dec t1 "") as [->|N1]; [|destruct (string_dec t2 "") as [->|N2]].
  - symmetry. apply (trimmed_blank s); [exact T2|]. destruct T1 as ((a & b & -> & Ba & Bb) & _). now apply blank_app.
  - apply (trimmed_blank s); [exact T1|]. destruct T2 as ((a & b & -> & Ba & Bb) & _). now apply blank_app.
  - destruct T1 as ((a1 & b1 & E1 & Ba1 & Bb1) & F1 & L1), T2 as ((a2 & b2 & E2 & Ba2 & Bb2) & F2 & L2).
    assert (E : (t1 ++ b1 = t2 ++ b2)%string).
    { apply (blank_prefix_unique a1 Ba1 a2); [exact Ba2 | congruence | |].
      - apply starts_white_app; [exact N1 | intros (r & u & W & E'); now apply (F1 r u W) | exact Bb1].
      - apply starts_white_app; [exact N2 | intros (r & u & W & E'); now apply (F2 r u W) | exact Bb2]. }
    apply (blank_suffix_unique (String.length b1) b1 (le_n _) t1 t2 b2 Bb1 Bb2 E).
    + intros (r & u & W & E'). now apply (L1 r u W).
    + intros (r & u & W & E'). now apply (L2 r u W).
Qed.
Lemma trimmed_iff s t : trimmed s t <-> t = trim_space s.
Proof. split; [intros H; eapply trimmed_unique; [exact H | apply trim_space_trimmed] | intros ->; apply trim_space_trimmed]. Qed.

(** NO-BREAK SPACE, IDEOGRAPHIC SPACE; a lone continuation byte is not trimmed *)
Example trim_space_unicode :
  trim_space (encode_rune 160 ++ " fmt" ++ encode_rune 12288 ++ encode_rune 10) = "fmt" /\
  trim_space (str1 160 "x" ++ str1 194 (encode_rune 8233)) = (str1 160 "x" ++ str1 194 "")%string.
Proof. vm_compute. split; reflexivity. Qed.
