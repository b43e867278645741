(** C29, C30: the helper functions toSnakeCase, upFirst and downFirst. *)
From Verif Require Import Helpers Utf8Proofs.
Open Scope nat_scope.

(** ** Specification of snake case

    One left-to-right pass: an underscore goes before a capital letter that is
    not the first character when the character before it is a lower-case
    letter or a digit, or when the character after it is a lower-case letter
    (and the one before is not a newline). *)
Definition ascii_byte (c : ascii) : Prop := nat_of_ascii c < 128.
Fixpoint ascii_only (s : string) : Prop :=
  match s with EmptyString => True | String c s' => ascii_byte c /\ ascii_only s' end.

Definition upper_letter (c : ascii) : Prop := 65 <= nat_of_ascii c <= 90.
Definition lower_letter (c : ascii) : Prop := 97 <= nat_of_ascii c <= 122.
Definition digit (c : ascii) : Prop := 48 <= nat_of_ascii c <= 57.
Definition to_lower (c : ascii) : ascii :=
  if (65 <=? nat_of_ascii c) && (nat_of_ascii c <=? 90) then ascii_of_nat (nat_of_ascii c + 32) else c.

Definition next_is_lower (s : string) : Prop :=
  match s with EmptyString => False | String d _ => lower_letter d end.

(** an underscore belongs between [p] (the character before, if any) and [c] *)
Definition boundary (p : option ascii) (c : ascii) (after : string) : Prop :=
  match p with
  | None => False
  | Some p => upper_letter c /\
      (lower_letter p \/ digit p \/ (p <> "010"%char /\ next_is_lower after))
  end.

(** [snaked p s t]: [t] is the snake case of [s] when [p] is before [s] *)
Inductive snaked : option ascii -> string -> string -> Prop :=
| sn_nil p : snaked p "" ""
| sn_sep p c s t : boundary p c s -> snaked (Some c) s t ->
    snaked p (String c s) (String "_" (String (to_lower c) t))
| sn_keep p c s t : ~ boundary p c s -> snaked (Some c) s t ->
    snaked p (String c s) (String (to_lower c) t).

Fixpoint without_underscores (s : string) : string :=
  match s with
  | EmptyString => EmptyString
  | String c s' => if Ascii.eqb c "_" then without_underscores s' else String c (without_underscores s')
  end.
Fixpoint lowered (s : string) : string :=
  match s with EmptyString => EmptyString | String c s' => String (to_lower c) (lowered s') end.
Fixpoint no_upper (s : string) : Prop :=
  match s with EmptyString => True | String c s' => ~ upper_letter c /\ no_upper s' end.

(** ** Proofs *)

Lemma byte_nat c : byte c = N.of_nat (nat_of_ascii c).
Proof. unfold byte, nat_of_ascii. now rewrite N2Nat.id. Qed.

Lemma is_upper_spec c : is_upper c = true <-> upper_letter c.
Proof.
  unfold is_upper, is_upper_ascii, upper_letter. rewrite in_range_iff, byte_nat. lia.
Qed.
Lemma is_lower_spec c : is_lower c = true <-> lower_letter c.
Proof. unfold is_lower, is_lower_ascii, lower_letter. rewrite in_range_iff, byte_nat. lia. Qed.
Lemma is_digit_spec c : is_digit c = true <-> digit c.
Proof. unfold is_digit, digit. rewrite in_range_iff, byte_nat. lia. Qed.

Definition lowdig (c : ascii) : bool := is_lower c || is_digit c.
Definition next_lower (s : string) : bool := match s with String d _ => is_lower d | _ => false end.

(** the specification as a function, before lowering *)
Definition boundaryb (p : option ascii) (c : ascii) (after : string) : bool :=
  match p with
  | None => false
  | Some p => is_upper c && (lowdig p || (negb (byte_eqb p newline) && next_lower after))
  end.
Fixpoint sep (p : option ascii) (s : string) : string :=
  match s with
  | EmptyString => EmptyString
  | String c s' =>
      if boundaryb p c s' then String "_" (String c (sep (Some c) s'))
      else String c (sep (Some c) s')
  end.

Lemma boundary_spec p c s : boundaryb p c s = true <-> boundary p c s.
Proof.
  destruct p as [p|]; cbn; [|split; [discriminate|tauto]].
  unfold lowdig. rewrite andb_true_iff, orb_true_iff, orb_true_iff, andb_true_iff, negb_true_iff.
  rewrite is_upper_spec, is_lower_spec, is_digit_spec.
  assert (E : byte_eqb p newline = false <-> p <> newline).
  { unfold byte_eqb. destruct (Ascii.eqb_spec p newline); split; congruence. }
  rewrite E. assert (F : next_lower s = true <-> next_is_lower s).
  { destruct s; cbn; [split; [discriminate|tauto] | apply is_lower_spec]. }
  rewrite F. tauto.
Qed.

(** pass 2 as a local function *)
Definition hit2 (p : option ascii) (c : ascii) : bool :=
  match p with None => false | Some p => is_upper c && lowdig p end.
Fixpoint sep2 (p : option ascii) (s : string) : string :=
  match s with
  | EmptyString => EmptyString
  | String c s' =>
      if hit2 p c then String "_" (String c (sep2 (Some c) s'))
      else String c (sep2 (Some c) s')
  end.

Lemma upper_not_lowdig c : is_upper c = true -> lowdig c = false.
Proof.
  intros H. unfold lowdig. apply is_upper_spec in H. unfold upper_letter in H.
  apply orb_false_iff. split; apply not_true_iff_false; rewrite ?is_lower_spec, ?is_digit_spec;
    unfold lower_letter, digit; lia.
Qed.

Lemma sep2_not_upper p q s : (forall c s', s = String c s' -> hit2 p c = hit2 q c) -> sep2 p s = sep2 q s.
Proof. destruct s as [|c s]; cbn; intros H; [reflexivity|]. now rewrite (H c s eq_refl). Qed.

Lemma pass2 fuel s : String.length s <= fuel -> replace_all all_cap fuel s = sep2 None s.
Proof.
  revert s; induction fuel as [|f IH]; intros s L.
  - destruct s; [reflexivity | cbn in L; lia].
  - cbn [replace_all]. destruct s as [|a [|b r]].
    + reflexivity.
    + cbn. f_equal. now destruct f.
    + cbn [all_cap]. fold (lowdig a). destruct (lowdig a && is_upper b) eqn:E.
      * apply andb_true_iff in E. destruct E as [E1 E2].
        cbn [sep2 hit2]. rewrite E1, E2. cbn. do 3 f_equal.
        rewrite IH by (cbn in L; lia). apply sep2_not_upper.
        intros c s' _. cbn. now rewrite (upper_not_lowdig b E2), andb_false_r.
      * rewrite IH by (cbn in L |- *; lia). cbn [sep2 hit2].
        rewrite andb_comm in E. now rewrite E.
Qed.

Lemma span_app p s a b : span p s = (a, b) -> s = (a ++ b)%string.
Proof.
  revert a b; induction s as [|c s IH]; cbn; intros a b H.
  - now injection H as <- <-.
  - destruct (p c); [|now injection H as <- <-].
    destruct (span p s) as [a' b']. injection H as <- <-. cbn. f_equal. now apply IH.
Qed.

Fixpoint all_lower (s : string) : Prop :=
  match s with EmptyString => True | String c s' => is_lower c = true /\ all_lower s' end.

Lemma span_all s a b : span is_lower s = (a, b) -> all_lower a.
Proof.
  revert a b; induction s as [|c s IH]; cbn; intros a b H.
  - injection H as <- <-. exact I.
  - destruct (is_lower c) eqn:E; [|injection H as <- <-; exact I].
    destruct (span is_lower s) as [a' b'] eqn:E2. injection H as <- <-. cbn. eauto.
Qed.

(** the capital letter after [p] belongs to no match starting at [p] *)
Definition no_match (p : option ascii) (s : string) : Prop :=
  match p with
  | None => True
  | Some p => lowdig p = true \/ byte_eqb p newline = true \/
      match s with String c s' => is_upper c = false \/ next_lower s' = false | _ => True end
  end.

Lemma lower_not_upper c : is_lower c = true -> is_upper c = false.
Proof.
  intros H. apply is_lower_spec in H. apply not_true_iff_false. rewrite is_upper_spec.
  unfold lower_letter, upper_letter in *. lia.
Qed.

Lemma last_byte_cons d s : last_byte (String d s) <> None.
Proof. revert d; induction s as [|x s IH]; intros d; [discriminate | exact (IH x)]. Qed.

Lemma sep_lowers p a t (k : option ascii -> string -> string) :
  (k = sep \/ k = sep2) -> all_lower a ->
  k p (a ++ t)%string = (a ++ k (match last_byte a with None => p | l => l end) t)%string.
Proof.
  intros Hk. revert p; induction a as [|c a IH]; intros p H; [reflexivity|].
  destruct H as [Hc Ha].
  assert (Q : forall p s, k p (String c s) = String c (k (Some c) s)).
  { intros p' s'. destruct Hk as [-> | ->]; cbn; destruct p' as [p'|]; cbn;
      now rewrite ?(lower_not_upper c Hc). }
  cbn [String.append]. rewrite Q. cbn. f_equal.
  rewrite IH by exact Ha. destruct a as [|d a]; [reflexivity|].
  destruct (last_byte (String d a)) eqn:E; [reflexivity | now destruct (last_byte_cons d a)].
Qed.

Lemma last_lower a : all_lower a -> forall c, last_byte a = Some c -> is_lower c = true.
Proof.
  induction a as [|x a IH]; cbn; intros H c E; [discriminate|].
  destruct a; [injection E as <-; apply H | apply IH; [apply H | exact E]].
Qed.

Lemma no_match_bound p c s : no_match p (String c s) -> boundaryb p c s = hit2 p c.
Proof.
  destruct p as [p|]; cbn; [|reflexivity].
  intros [H|[H|[H|H]]].
  - rewrite H. reflexivity.
  - rewrite H. cbn. now rewrite orb_false_r.
  - rewrite H. reflexivity.
  - rewrite H. now rewrite andb_false_r, orb_false_r.
Qed.

Lemma pass1 fuel : forall p s, String.length s <= fuel -> no_match p s ->
  sep2 p (replace_all first_cap fuel s) = sep p s.
Proof.
  induction fuel as [|f IH]; intros p s L NM.
  - destruct s; [reflexivity | cbn in L; lia].
  - cbn [replace_all]. destruct s as [|a s1]; [reflexivity|].
    assert (KEEP : first_cap (String a s1) = None ->
      sep2 p (String a (replace_all first_cap f s1)) = sep p (String a s1)).
    { intros E. cbn [sep2 sep]. rewrite (no_match_bound _ _ _ NM).
      rewrite IH; [reflexivity | cbn in L; lia |].
      cbn. destruct (byte_eqb a newline) eqn:En; [tauto|].
      destruct s1 as [|b r]; [tauto|].
      destruct (is_upper b) eqn:Eb; [|tauto].
      right; right; right. revert E. cbn. rewrite En, Eb. cbn.
      destruct r as [|d r]; [reflexivity|]. cbn.
      destruct (is_lower d); [|reflexivity]. destruct (span is_lower r); discriminate. }
    destruct (first_cap (String a s1)) as [[r rest]|] eqn:E; [|now apply KEEP].
    clear KEEP. destruct s1 as [|b r1]; [discriminate|].
    cbn in E. destruct (byte_eqb a newline) eqn:En; cbn in E; [discriminate|].
    destruct (is_upper b) eqn:Eb; [|discriminate].
    destruct (span is_lower r1) as [ls tl] eqn:Es.
    destruct ls as [|d ls]; [discriminate|]. injection E as <- <-.
    pose proof (span_app _ _ _ _ Es) as ->. pose proof (span_all _ _ _ Es) as AL.
    cbn [sep]. rewrite (no_match_bound _ _ _ NM).
    assert (BB : boundaryb (Some a) b (String d ls ++ tl)%string = true).
    { cbn. rewrite Eb, En. destruct AL as [Hd _]. rewrite Hd. cbn. now rewrite orb_true_r. }
    rewrite BB. rewrite (sep_lowers (Some b) (String d ls) tl sep (or_introl eq_refl) AL).
    assert (T : sep2 p (String a (String "_" (String b (String d ls))) ++ replace_all first_cap f tl)%string
      = (if hit2 p a then String "_" (String a (String "_" (String b (String d ls ++ sep2 (last_byte (String d ls)) (replace_all first_cap f tl))))) else
         String a (String "_" (String b (String d ls ++ sep2 (last_byte (String d ls)) (replace_all first_cap f tl)))))%string).
    { cbn [String.append]. cbn [sep2].
      assert (U : hit2 (Some a) "_" = false) by reflexivity. rewrite U.
      assert (V : hit2 (Some "_"%char) b = false) by (cbn; now rewrite andb_false_r). rewrite V.
      change (String d (ls ++ replace_all first_cap f tl)%string) with (String d ls ++ replace_all first_cap f tl)%string.
      change (String d (ls ++ sep2 (last_byte (String d ls)) (replace_all first_cap f tl))%string)
        with (String d ls ++ sep2 (last_byte (String d ls)) (replace_all first_cap f tl))%string.
      change (if hit2 (Some b) d then
               String "_" (String d (sep2 (Some d) (ls ++ replace_all first_cap f tl)))
              else String d (sep2 (Some d) (ls ++ replace_all first_cap f tl)))
        with (sep2 (Some b) (String d ls ++ replace_all first_cap f tl)%string).
      rewrite (sep_lowers (Some b) (String d ls) (replace_all first_cap f tl) sep2 (or_intror eq_refl) AL).
      destruct (last_byte (String d ls)) eqn:EL; [reflexivity|].
      now destruct (last_byte_cons d ls). }
    rewrite T. destruct (last_byte (String d ls)) as [l|] eqn:EL.
    + rewrite IH; [reflexivity | |].
      * cbn in L. rewrite slength_app in L. lia.
      * cbn. left. unfold lowdig. now rewrite (last_lower _ AL l EL).
    + now destruct (last_byte_cons d ls).
Qed.

Theorem snake_raw_exact s :
  replace_all_string all_cap (replace_all_string first_cap s) = sep None s.
Proof.
  unfold replace_all_string. rewrite pass2 by lia. apply pass1; [lia | exact I].
Qed.

Lemma lower_byte u c : ascii_byte c -> encode_rune (rune_lower u (byte c)) = String (to_lower c) "".
Proof.
  intros H. unfold rune_lower. assert (L : (byte c <? 128)%N = true).
  { apply N.ltb_lt. rewrite byte_nat. unfold ascii_byte in H. lia. }
  rewrite L. destruct c as [[] [] [] [] [] [] [] []]; try reflexivity; discriminate L.
Qed.

Lemma go_lower_ascii u s : ascii_only s -> go_lower u s = lowered s.
Proof.
  unfold go_lower. induction s as [|c s IH]; intros H; [reflexivity|].
  destruct H as [Hc Hs].
  rewrite runes_cons_ascii; [|rewrite byte_nat; unfold ascii_byte in Hc; lia].
  cbn [map]. rewrite (lower_byte u c Hc).
  assert (J : forall x l, join "" (x :: l) = (x ++ join "" l)%string).
  { intros x l. unfold join. cbn. destruct l; [now rewrite sapp_nil_r|reflexivity]. }
  rewrite J, IH by exact Hs. reflexivity.
Qed.

Lemma sep_ascii s : forall p, ascii_only s -> ascii_only (sep p s).
Proof.
  induction s as [|c s IH]; intros p H; [exact I|]. destruct H as [Hc Hs]. cbn [sep].
  destruct (boundaryb p c s); cbn; repeat split; auto; try (unfold ascii_byte; cbn; lia).
Qed.

Lemma snaked_sep s : forall p, snaked p s (lowered (sep p s)).
Proof.
  induction s as [|c s IH]; intros p; [constructor|]. cbn [sep].
  destruct (boundaryb p c s) eqn:E.
  - cbn. apply sn_sep; [now apply boundary_spec | apply IH].
  - cbn. apply sn_keep; [rewrite <- boundary_spec; congruence | apply IH].
Qed.

Lemma snaked_fun p s t : snaked p s t -> forall t', snaked p s t' -> t = t'.
Proof.
  induction 1; intros t' H'; inversion H'; subst; try reflexivity; try contradiction;
    repeat f_equal; auto.
Qed.

(** C29: what toSnakeCase computes, exactly *)
Theorem snake_exact u s t : ascii_only s -> (toSnakeCase u s = t <-> snaked None s t).
Proof.
  intros H. unfold toSnakeCase. rewrite snake_raw_exact, go_lower_ascii by now apply sep_ascii.
  split; [intros <-; apply snaked_sep | intros S; eapply snaked_fun; [apply snaked_sep | exact S]].
Qed.

Lemma to_lower_not_upper c : ~ upper_letter (to_lower c).
Proof. destruct c as [[] [] [] [] [] [] [] []]; vm_compute; lia. Qed.
Lemma to_lower_idem c : to_lower (to_lower c) = to_lower c.
Proof. destruct c as [[] [] [] [] [] [] [] []]; reflexivity. Qed.
Lemma to_lower_ascii c : ascii_byte c -> ascii_byte (to_lower c).
Proof. destruct c as [[] [] [] [] [] [] [] []]; vm_compute; lia. Qed.
Lemma to_lower_us c : Ascii.eqb (to_lower c) "_" = Ascii.eqb c "_".
Proof. destruct c as [[] [] [] [] [] [] [] []]; reflexivity. Qed.

Lemma snaked_no_upper p s t : snaked p s t -> no_upper t.
Proof.
  induction 1 as [|p c s t B S IH|p c s t B S IH]; cbn; auto.
  - split; [vm_compute; lia | split; [apply to_lower_not_upper | exact IH]].
  - split; [apply to_lower_not_upper | exact IH].
Qed.

Lemma snaked_wo p s t : snaked p s t -> without_underscores t = lowered (without_underscores s).
Proof.
  induction 1 as [|p c s t B S IH|p c s t B S IH]; cbn.
  - reflexivity.
  - rewrite to_lower_us. destruct p as [p|]; cbn in B; [|contradiction].
    assert (E : Ascii.eqb c "_" = false).
    { destruct (Ascii.eqb_spec c "_") as [->|]; [|reflexivity]. exfalso. destruct B as [B _].
      revert B. vm_compute. lia. }
    rewrite E. cbn. now rewrite IH.
  - rewrite to_lower_us. destruct (Ascii.eqb c "_"); cbn; now rewrite IH.
Qed.

Lemma snaked_ascii p s t : snaked p s t -> ascii_only s -> ascii_only t.
Proof.
  induction 1 as [|p c s t B S IH|p c s t B S IH]; cbn; auto; intros [Hc Hs].
  - split; [vm_compute; lia | split; [now apply to_lower_ascii | auto]].
  - split; [now apply to_lower_ascii | auto].
Qed.

Lemma snaked_fix s : forall p, no_upper s -> snaked p s s.
Proof.
  induction s as [|c s IH]; intros p H; [constructor|]. destruct H as [Hc Hs].
  assert (E : to_lower c = c).
  { clear -Hc. unfold to_lower. destruct (65 <=? nat_of_ascii c) eqn:E1; [|reflexivity].
    destruct (nat_of_ascii c <=? 90) eqn:E2; [|reflexivity]. exfalso. apply Hc. unfold upper_letter.
    apply Nat.leb_le in E1. apply Nat.leb_le in E2. lia. }
  rewrite <- E at 2. apply sn_keep; [|now apply IH].
  destruct p; cbn; tauto.
Qed.

Theorem snake_properties u s : ascii_only s ->
  no_upper (toSnakeCase u s) /\
  without_underscores (toSnakeCase u s) = lowered (without_underscores s) /\
  toSnakeCase u (toSnakeCase u s) = toSnakeCase u s.
Proof.
  intros H. assert (S : snaked None s (toSnakeCase u s)) by now apply (snake_exact u s _ H).
  split; [eapply snaked_no_upper; eauto|]. split; [eapply snaked_wo; eauto|].
  apply (snake_exact u _ _ (snaked_ascii _ _ _ S H)). apply snaked_fix. eapply snaked_no_upper; eauto.
Qed.

Definition id_lower (r : N) : N := r.
Example snake_ex1 : toSnakeCase id_lower "HTTPServerID2Go" = "http_server_id2_go".
Proof. vm_compute. reflexivity. Qed.
Example snake_ex2 : toSnakeCase id_lower "already_snake_Case" = "already_snake__case".
Proof. vm_compute. reflexivity. Qed.
Example snake_ex_hyp : ascii_only "HTTPServerID2Go".
Proof. vm_compute. repeat split; lia. Qed.

(** ** C30 *)

(** a string whose first rune is validly encoded *)
Theorem upFirst_valid u r t : valid_rune r -> upFirst u (encode_rune r ++ t)%string = Ok (encode_rune (rune_upper u r) ++ t)%string.
Proof.
  intros H. unfold upFirst, change_first. rewrite decode_encode by exact H.
  rewrite slength_app, drop_app. assert (L : String.length (encode_rune r) <=? String.length (encode_rune r) + String.length t = true)
    by (apply Nat.leb_le; lia). now rewrite L.
Qed.
Theorem downFirst_valid u r t : valid_rune r -> downFirst u (encode_rune r ++ t)%string = Ok (encode_rune (rune_lower u r) ++ t)%string.
Proof.
  intros H. unfold downFirst, change_first. rewrite decode_encode by exact H.
  rewrite slength_app, drop_app. assert (L : String.length (encode_rune r) <=? String.length (encode_rune r) + String.length t = true)
    by (apply Nat.leb_le; lia). now rewrite L.
Qed.
Theorem change_first_empty u : upFirst u "" = Ok "" /\ downFirst u "" = Ok "".
Proof. split; reflexivity. Qed.

(** exactly when the first rune is not validly encoded, three bytes are
    replaced by U+FFFD, or the call panics when there are fewer than three *)
Theorem upFirst_invalid u s w : decode_rune s = Some (RuneError, w) -> w = 1 ->
  upFirst u s = if 3 <=? String.length s
                then Ok (encode_rune (rune_upper u RuneError) ++ drop 3 s)%string
                else Panic "slice bounds out of range".
Proof. intros H _. unfold upFirst, change_first. rewrite H. reflexivity. Qed.

(** every non-empty string starts with a valid rune or with an invalid byte *)
Ltac Zify.zify_post_hook ::= Z.to_euclidean_division_equations.

Lemma char_eq c n : byte c = n -> ascii_of_N n = c.
Proof. intros <-. unfold byte. apply ascii_N_embedding. Qed.

Theorem first_rune_cases s : s <> "" ->
  (exists r t, valid_rune r /\ s = (encode_rune r ++ t)%string) \/ decode_rune s = Some (RuneError, 1).
Proof.
  intros NE. destruct (decode_rune s) as [[r w]|] eqn:E.
  2:{ destruct s; [congruence|]. destruct (runes_cons (String a s) NE) as (r & w & D & _). congruence. }
  pose proof (decode_valid _ _ _ E) as V.
  assert (G : (r = RuneError /\ w = 1) \/ exists t, s = (encode_rune r ++ t)%string).
  2:{ destruct G as [[-> ->]|[t ->]]; [now right | left; now exists r, t]. }
  destruct s as [|c0 s]; [congruence|]. cbn [decode_rune] in E.
  pose proof (byte_lt c0) as B0.
  destruct (byte c0 <? 128)%N eqn:E0.
  { injection E as <- <-. right. exists s. unfold encode_rune. rewrite E0. cbn.
    now rewrite (char_eq c0 _ eq_refl). }
  destruct s as [|c1 s]; [injection E as <- <-; auto|]. pose proof (byte_lt c1) as B1.
  destruct (in_range 194 223 (byte c0)) eqn:E1.
  { destruct (in_range 128 191 (byte c1)) eqn:E2; [|injection E as <- <-; auto].
    injection E as <- <-. right. exists s. apply in_range_iff in E1. apply in_range_iff in E2.
    apply N.ltb_ge in E0. unfold encode_rune.
    replace (((byte c0 - 192) * 64 + (byte c1 - 128) <? 128)%N) with false by (symmetry; apply N.ltb_ge; lia).
    replace (((byte c0 - 192) * 64 + (byte c1 - 128) <? 2048)%N) with true by (symmetry; apply N.ltb_lt; lia).
    unfold str1. cbn [String.append].
    rewrite (char_eq c0) by lia. rewrite (char_eq c1) by lia. reflexivity. }
  destruct s as [|c2 s]; [injection E as <- <-; auto|]. pose proof (byte_lt c2) as B2.
  destruct (in_range 224 239 (byte c0)) eqn:E2.
  { destruct (in_range (if (byte c0 =? 224)%N then 160 else 128) (if (byte c0 =? 237)%N then 159 else 191) (byte c1)
              && in_range 128 191 (byte c2)) eqn:E3; [|injection E as <- <-; auto].
    injection E as <- <-. right. exists s. apply in_range_iff in E2. apply andb_true_iff in E3.
    destruct E3 as [E3 E4]. apply in_range_iff in E3. apply in_range_iff in E4. apply N.ltb_ge in E0.
    assert (E5 : (128 <= byte c1 <= 191 /\ (byte c0 = 224 -> 160 <= byte c1) /\ (byte c0 = 237 -> byte c1 <= 159))%N).
    { destruct (N.eqb_spec (byte c0) 224), (N.eqb_spec (byte c0) 237); lia. }
    clear E3 E1. set (r := ((byte c0 - 224) * 4096 + (byte c1 - 128) * 64 + (byte c2 - 128))%N) in *.
    assert (R : (2048 <= r < 65536)%N) by (unfold r; lia).
    unfold encode_rune.
    replace ((r <? 128)%N) with false by (symmetry; apply N.ltb_ge; lia).
    replace ((r <? 2048)%N) with false by (symmetry; apply N.ltb_ge; lia).
    replace (in_range 55296 57343 r) with false by (symmetry; apply in_range_false; unfold valid_rune in V; lia).
    replace ((1114111 <? r)%N) with false by (symmetry; apply N.ltb_ge; lia).
    replace ((r <? 65536)%N) with true by (symmetry; apply N.ltb_lt; lia).
    unfold str1. cbn [orb String.append].
    rewrite (char_eq c0) by (unfold r; lia). rewrite (char_eq c1) by (unfold r; lia).
    rewrite (char_eq c2) by (unfold r; lia). reflexivity. }
  destruct s as [|c3 s]; [injection E as <- <-; auto|]. pose proof (byte_lt c3) as B3.
  destruct (in_range 240 244 (byte c0)) eqn:E3; [|injection E as <- <-; auto].
  destruct (in_range (if (byte c0 =? 240)%N then 144 else 128) (if (byte c0 =? 244)%N then 143 else 191) (byte c1)
              && in_range 128 191 (byte c2) && in_range 128 191 (byte c3)) eqn:E4; [|injection E as <- <-; auto].
  injection E as <- <-. right. exists s. apply in_range_iff in E3.
  apply andb_true_iff in E4. destruct E4 as [E4 E6]. apply andb_true_iff in E4. destruct E4 as [E4 E5].
  apply in_range_iff in E4. apply in_range_iff in E5. apply in_range_iff in E6. apply N.ltb_ge in E0.
  assert (E7 : (128 <= byte c1 <= 191 /\ (byte c0 = 240 -> 144 <= byte c1) /\ (byte c0 = 244 -> byte c1 <= 143))%N).
  { destruct (N.eqb_spec (byte c0) 240), (N.eqb_spec (byte c0) 244); lia. }
  clear E4 E1 E2.
  set (r := ((byte c0 - 240) * 262144 + (byte c1 - 128) * 4096 + (byte c2 - 128) * 64 + (byte c3 - 128))%N) in *.
  assert (R : (65536 <= r <= 1114111)%N) by (unfold r; lia).
  unfold encode_rune.
  replace ((r <? 128)%N) with false by (symmetry; apply N.ltb_ge; lia).
  replace ((r <? 2048)%N) with false by (symmetry; apply N.ltb_ge; lia).
  replace (in_range 55296 57343 r) with false by (symmetry; apply in_range_false; lia).
  replace ((1114111 <? r)%N) with false by (symmetry; apply N.ltb_ge; lia).
  replace ((r <? 65536)%N) with false by (symmetry; apply N.ltb_ge; lia).
  unfold str1. cbn [orb String.append].
  rewrite (char_eq c0) by (unfold r; lia). rewrite (char_eq c1) by (unfold r; lia).
  rewrite (char_eq c2) by (unfold r; lia). rewrite (char_eq c3) by (unfold r; lia). reflexivity.
Qed.

(** C30, for the inputs it is true of: a valid UTF-8 first rune.  Missing:
    the other inputs, for which it is false (upFirst_refuted). *)
Theorem first_letter_partial up lo s : decode_rune s <> Some (RuneError, 1) ->
  s = "" /\ upFirst up s = Ok "" /\ downFirst lo s = Ok "" \/
  exists r t, valid_rune r /\ s = (encode_rune r ++ t)%string /\
    upFirst up s = Ok (encode_rune (rune_upper up r) ++ t)%string /\
    downFirst lo s = Ok (encode_rune (rune_lower lo r) ++ t)%string.
Proof.
  intros H. destruct (string_dec s "") as [->|NE]; [left; repeat split|right].
  destruct (first_rune_cases s NE) as [(r & t & V & ->)|D]; [|contradiction].
  exists r, t. split; [exact V|]. split; [reflexivity|].
  split; [now apply upFirst_valid | now apply downFirst_valid].
Qed.

(** The full claim "the input with its first rune changed and the rest
    unchanged, for every input" is false: an invalid first byte makes the
    functions drop two further bytes, or panic. *)
Definition changes_only_first (f : string -> res string) : Prop :=
  forall s r w, decode_rune s = Some (r, w) -> exists r', f s = Ok (r' ++ drop w s)%string.
Theorem upFirst_refuted up lo :
  ~ changes_only_first (upFirst up) /\ ~ changes_only_first (downFirst lo) /\
  upFirst up (String "255" "ab") = Ok (encode_rune (up RuneError)) /\
  (exists m, upFirst up (String "255" "") = Panic m).
Proof.
  split; [|split; [|split]].
  - intros H. destruct (H (String "255" "") RuneError 1 eq_refl) as (r' & E). discriminate E.
  - intros H. destruct (H (String "255" "") RuneError 1 eq_refl) as (r' & E). discriminate E.
  - rewrite (upFirst_invalid up (String "255" "ab") 1 eq_refl eq_refl).
    change (Ok (encode_rune (rune_upper up RuneError) ++ "")%string = Ok (encode_rune (up RuneError))).
    rewrite sapp_nil_r. reflexivity.
  - eexists. reflexivity.
Qed.

Definition utf_upper (r : N) : N := if (r =? 233)%N then 201%N else r. (* é -> É *)
Example upFirst_ex : upFirst utf_upper "été" = Ok "Été".
Proof. vm_compute. reflexivity. Qed.
Example first_letter_hyp : decode_rune "été" = Some (233%N, 2).
Proof. vm_compute. reflexivity. Qed.

Print Assumptions snake_exact.
Print Assumptions snake_properties.
Print Assumptions upFirst_valid.
Print Assumptions first_letter_partial.
Print Assumptions upFirst_invalid.
Print Assumptions upFirst_refuted.
