(** Proofs about the model of generator/types.go. *)
From Coq Require Import FinFun DecimalString DecimalNat Decimal.
From Verif Require Import Types TypesSpec.
Open Scope nat_scope.

(** ** genName: freshness and termination *)

Lemma genName_Some fuel prefix n used s :
  genName fuel prefix n used = Some s ->
  exists k, n <= k /\ s = (prefix ++ dec k)%string /\ ~ In s used /\
            (forall j, n <= j < k -> In (prefix ++ dec j)%string used).
Proof.
  revert n; induction fuel as [|fuel IH]; intros n; cbn [genName];
    destruct (mem (prefix ++ dec n)%string used) eqn:E; intros H; try discriminate.
  - injection H as <-. exists n. apply mem_false in E. repeat split; auto; lia.
  - destruct (IH _ H) as (k & Hk & -> & Hn & Hj). exists k. repeat split; auto; try lia.
    intros j Hj'. destruct (Nat.eq_dec j n) as [->|N]; [now apply mem_In | apply Hj; lia].
  - injection H as <-. exists n. apply mem_false in E. repeat split; auto; lia.
Qed.

Lemma genName_None fuel prefix n used :
  genName fuel prefix n used = None ->
  forall j, n <= j <= n + fuel -> In (prefix ++ dec j)%string used.
Proof.
  revert n; induction fuel as [|fuel IH]; intros n; cbn [genName];
    destruct (mem (prefix ++ dec n)%string used) eqn:E; intros H j Hj; try discriminate.
  - assert (j = n) as -> by lia. now apply mem_In.
  - destruct (Nat.eq_dec j n) as [->|N]; [now apply mem_In | apply (IH (S n) H); lia].
Qed.

Lemma genName_total prefix n used : genName (length used) prefix n used <> None.
Proof.
  intros H.
  pose proof (genName_None _ _ _ _ H) as Hall.
  set (cands := map (fun j => (prefix ++ dec j)%string) (seq n (S (length used)))).
  assert (Hinc : incl cands used).
  { intros x Hx. unfold cands in Hx. apply in_map_iff in Hx. destruct Hx as (j & <- & Hj).
    apply in_seq in Hj. apply Hall. lia. }
  assert (Hnd : NoDup cands).
  { unfold cands. apply FinFun.Injective_map_NoDup; [|apply seq_NoDup].
    intros a b E. apply sapp_inj_l in E. now apply dec_inj. }
  pose proof (NoDup_incl_length Hnd Hinc) as L.
  unfold cands in L. rewrite map_length, seq_length in L. lia.
Qed.

(** ** Decimal numerals are digits *)

Lemma uint_digits d : all_chars is_digit (NilEmpty.string_of_uint d) = true.
Proof. induction d; cbn; auto. Qed.

Lemma uint_last d : d <> Nil -> ends_with_digit (NilEmpty.string_of_uint d).
Proof.
  assert (S1 : forall c d, is_digit c = true ->
             (d <> Nil -> ends_with_digit (NilEmpty.string_of_uint d)) ->
             ends_with_digit (String c (NilEmpty.string_of_uint d))).
  { intros c d' Hc IH. destruct d' eqn:E.
    1: now exists "", c.
    all: destruct (IH ltac:(discriminate)) as (a & c' & Ha & Hd);
         rewrite Ha; now exists (String c a), c'. }
  induction d; intros H; [now destruct H|..]; cbn [NilEmpty.string_of_uint];
    (apply S1; [reflexivity | exact IHd]).
Qed.

Lemma dec_digits k : all_chars is_digit (dec k) = true.
Proof. apply uint_digits. Qed.

Lemma to_uint_nonnil k : Nat.to_uint k <> Nil.
Proof.
  intros H. pose proof (Unsigned.of_to k) as E. rewrite H in E. cbn in E. subst k. discriminate.
Qed.

Lemma dec_last k : ends_with_digit (dec k).
Proof. apply uint_last, to_uint_nonnil. Qed.

Lemma app_ends_digit a b : ends_with_digit b -> ends_with_digit (a ++ b)%string.
Proof.
  intros (x & c & -> & H). exists (a ++ x)%string, c. split; [now rewrite sapp_assoc | exact H].
Qed.

Section Proofs.
  Variable O : oracle.
  Variable pr : expr -> res string.
  Variable gts : list genericType.
  Variable gps : list genericParam.

  Fixpoint process (l : list (string * field)) (used : list string) : res (list param * list string) :=
    match l with
    | [] => Ok ([], used)
    | (n, f) :: l' =>
        do pu <- NewParam O pr gts gps n f used;
        do rest <- process l' (snd pu);
        Ok (fst pu :: fst rest, snd rest)
    end.

  Lemma makeParams_names_process ns f used :
    makeParams_names O pr gts gps ns f used = process (map (fun n => (n, f)) ns) used.
  Proof.
    revert used; induction ns as [|n ns IH]; intros used; cbn; [reflexivity|].
    destruct (NewParam O pr gts gps n f used) as [[p u]| |]; cbn; auto. now rewrite IH.
  Qed.

  Lemma process_app l1 l2 used :
    process (l1 ++ l2) used =
    (do a <- process l1 used; do b <- process l2 (snd a); Ok (fst a ++ fst b, snd b)).
  Proof.
    revert used; induction l1 as [|[n f] l1 IH]; intros used; cbn.
    - destruct (process l2 used) as [[a b]| |]; reflexivity.
    - destruct (NewParam O pr gts gps n f used) as [[p u]| |]; cbn; auto.
      rewrite IH. destruct (process l1 u) as [[a b]| |]; cbn; auto.
      destruct (process l2 b) as [[c d]| |]; reflexivity.
  Qed.

  Lemma makeParams_list_process l used :
    makeParams_list O pr gts gps l used = process (declared l) used.
  Proof.
    revert used; induction l as [|f l IH]; intros used; [reflexivity|].
    cbn [makeParams_list declared flat_map]. fold (declared l).
    rewrite process_app. unfold declared_field.
    assert (E : match f_names f with
                | [] => makeParams_names O pr gts gps [""] f used
                | (_ :: _) as ns => makeParams_names O pr gts gps ns f used
                end = process (map (fun n => (n, f)) match f_names f with [] => [""] | (_ :: _) as ns => ns end) used).
    { destruct (f_names f); apply makeParams_names_process. }
    rewrite E.
    destruct (process _ used) as [[a b]| |]; cbn; auto.
    now rewrite IH.
  Qed.

  Lemma makeParams_process o used :
    makeParams O pr gts gps o used = process (declared_opt o) used.
  Proof. destruct o as [l|]; [apply makeParams_list_process | reflexivity]. Qed.

  (** One parameter: everything there is to know. *)
  Definition param_ok (t : expr) (f : field) (p : param) : Prop :=
    (exists s, pr t = Ok s /\ p_type p = buildGenericParamsString s gts gps) /\
    p_variadic p = is_ellipsis t /\ p_doc p = f_doc f /\ p_comment p = f_comment f.

  Definition generated (t : expr) (used : list string) (s : string) : Prop :=
    exists pfx k, typePrefix O t = Ok pfx /\ 1 <= k /\ s = (pfx ++ dec k)%string /\
                  forall j, 1 <= j < k -> In (pfx ++ dec j)%string used.

  Lemma NewParam_spec n f used p used' :
    NewParam O pr gts gps n f used = Ok (p, used') ->
    used' = p_name p :: used /\ ~ In (p_name p) used /\
    (n <> "" -> ~ In n used -> p_name p = n) /\
    ((n = "" \/ In n used) -> generated (f_type f) used (p_name p)) /\
    param_ok (f_type f) f p.
  Proof.
    unfold NewParam. intros H.
    destruct (String.eqb n "" || mem n used) eqn:E.
    - destruct (typePrefix O (f_type f)) as [pfx| |] eqn:Ep; cbn in H; try discriminate.
      destruct (genName (length used) pfx 1 used) as [g|] eqn:Eg; cbn in H; try discriminate.
      destruct (pr (f_type f)) as [t| |] eqn:Et; cbn in H; try discriminate.
      injection H as <- <-. cbn.
      destruct (genName_Some _ _ _ _ _ Eg) as (k & Hk & -> & Hn & Hj).
      repeat split; auto.
      + intros N1 N2. exfalso. apply orb_true_iff in E. destruct E as [E|E].
        * apply String.eqb_eq in E. contradiction.
        * apply mem_In in E. contradiction.
      + intros _. exists pfx, k. repeat split; auto.
      + now exists t.
    - apply orb_false_iff in E. destruct E as [E1 E2].
      apply String.eqb_neq in E1. apply mem_false in E2. cbn in H.
      destruct (pr (f_type f)) as [t| |] eqn:Et; cbn in H; try discriminate.
      injection H as <- <-. cbn. repeat split; auto.
      + intros [->|Hi]; [now destruct E1 | contradiction].
      + now exists t.
  Qed.

  Lemma process_used l used ps used' :
    process l used = Ok (ps, used') -> used' = rev (map p_name ps) ++ used.
  Proof.
    revert used ps used'; induction l as [|[n f] l IH]; cbn; intros used ps used' H.
    - now injection H as <- <-.
    - destruct (NewParam O pr gts gps n f used) as [[p u]| |] eqn:E; cbn in H; try discriminate.
      destruct (process l u) as [[ps1 u1]| |] eqn:E1; cbn in H; try discriminate.
      injection H as <- <-. cbn.
      apply NewParam_spec in E. destruct E as (-> & _).
      apply IH in E1. rewrite E1, <- app_assoc. reflexivity.
  Qed.

  Lemma process_fresh l used ps used' :
    process l used = Ok (ps, used') ->
    NoDup (map p_name ps) /\ forall x, In x (map p_name ps) -> ~ In x used.
  Proof.
    revert used ps used'; induction l as [|[n f] l IH]; cbn; intros used ps used' H.
    - injection H as <- <-. split; [constructor | intros x []].
    - destruct (NewParam O pr gts gps n f used) as [[p u]| |] eqn:E; cbn in H; try discriminate.
      destruct (process l u) as [[ps1 u1]| |] eqn:E1; cbn in H; try discriminate.
      injection H as <- <-. cbn.
      apply NewParam_spec in E. destruct E as (-> & Hn & _).
      apply IH in E1. destruct E1 as (Hd & Hf).
      split.
      + constructor; [intros Hi; apply (Hf _ Hi); now left | exact Hd].
      + intros x [<-|Hx]; [exact Hn | intros Hu; apply (Hf _ Hx); now right].
  Qed.

  Lemma process_ok l used ps used' :
    process l used = Ok (ps, used') ->
    Forall2 (fun nf p => param_ok (f_type (snd nf)) (snd nf) p) l ps.
  Proof.
    revert used ps used'; induction l as [|[n f] l IH]; cbn; intros used ps used' H.
    - injection H as <- <-. constructor.
    - destruct (NewParam O pr gts gps n f used) as [[p u]| |] eqn:E; cbn in H; try discriminate.
      destruct (process l u) as [[ps1 u1]| |] eqn:E1; cbn in H; try discriminate.
      injection H as <- <-. cbn.
      apply NewParam_spec in E. constructor; [apply E | eapply IH; eauto].
  Qed.

  (** Names: position by position, what the chosen name is, given what is used
      before it. *)
  Lemma process_names l1 n f l2 used ps used' :
    process (l1 ++ (n, f) :: l2) used = Ok (ps, used') ->
    exists ps1 p ps2,
      ps = ps1 ++ p :: ps2 /\ length ps1 = length l1 /\
      (n <> "" -> ~ In n (rev (map p_name ps1) ++ used) -> p_name p = n) /\
      ((n = "" \/ In n (rev (map p_name ps1) ++ used)) ->
         generated (f_type f) (rev (map p_name ps1) ++ used) (p_name p)).
  Proof.
    rewrite process_app. intros H.
    destruct (process l1 used) as [[ps1 u1]| |] eqn:E1; cbn in H; try discriminate.
    destruct (NewParam O pr gts gps n f u1) as [[p u]| |] eqn:E; cbn in H; try discriminate.
    destruct (process l2 u) as [[ps2 u2]| |] eqn:E2; cbn in H; try discriminate.
    injection H as <- <-.
    exists ps1, p, ps2. rewrite (process_used _ _ _ _ E1) in E.
    apply NewParam_spec in E. destruct E as (_ & _ & K & G & _).
    repeat split; auto.
    apply process_ok in E1. symmetry. eapply Forall2_length; eauto.
  Qed.

  (** ** NewMethod unfolded into [process] *)

  Definition reserved (ps : list field) (rs : option (list field)) : list string :=
    let used1 := match rs with None => [] | Some _ => ["err"] end in
    match first_selector ps with Some _ => "ctx" :: used1 | None => used1 end.

  Definition accepts (ps : list field) : bool :=
    match first_selector ps with Some s => String.eqb s "Context" | None => false end.

  Lemma NewMethod_inv name fi m :
    NewMethod O pr gts gps name fi = Ok m ->
    exists ps rs re P R u1 u2,
      f_type fi = FuncT ps rs /\ returns_error rs = Ok re /\
      process (declared ps) (reserved ps rs) = Ok (P, u1) /\
      process (declared_opt rs) u1 = Ok (R, u2) /\
      (re = true -> R <> []) /\ (accepts ps = true -> P <> []) /\
      m = Method (f_doc fi) (f_comment fi) name
            (if accepts ps then rename_first "ctx" P else P)
            (if re then rename_last "err" R else R) re (accepts ps).
  Proof.
    unfold NewMethod. intros H.
    destruct (f_type fi) as [| | | | | | |ps rs| | | | | | | | |] eqn:Ef; try discriminate.
    destruct (returns_error rs) as [re| |] eqn:Er; cbn in H; try discriminate.
    fold (accepts ps) in H.
    change (match first_selector ps with
            | Some _ => "ctx" :: match rs with Some _ => ["err"] | None => [] end
            | None => match rs with Some _ => ["err"] | None => [] end end) with (reserved ps rs) in H.
    rewrite makeParams_list_process in H.
    destruct (process (declared ps) (reserved ps rs)) as [[P u1]| |] eqn:EP; cbn in H; try discriminate.
    rewrite makeParams_process in H.
    destruct (process (declared_opt rs) u1) as [[R u2]| |] eqn:ER; cbn in H; try discriminate.
    destruct (re && match R with [] => true | _ => false end) eqn:E1; try discriminate.
    destruct (accepts ps && match P with [] => true | _ => false end) eqn:E2; try discriminate.
    injection H as <-.
    exists ps, rs, re, P, R, u1, u2. repeat split; auto.
    - intros ->. destruct R; [discriminate | intro; discriminate].
    - intros Ha. rewrite Ha in E2. destruct P; [discriminate | intro; discriminate].
  Qed.

  Lemma names_rename_first n l :
    map p_name (rename_first n l) = match map p_name l with [] => [] | _ :: r => n :: r end.
  Proof. destruct l; reflexivity. Qed.

  Lemma rename_last_snoc n l p : rename_last n (l ++ [p]) = l ++ [set_name n p].
  Proof.
    induction l as [|q l IH]; [reflexivity|].
    cbn [app rename_last]. destruct (l ++ [p]) as [|x r] eqn:E.
    - destruct l; discriminate.
    - now rewrite IH.
  Qed.

  Lemma declared_opt_nil_results rs : returns_error rs = Ok true -> rs <> None.
  Proof. intros H ->. discriminate. Qed.

  Lemma reserved_err ps rs : rs <> None -> In "err" (reserved ps rs).
  Proof.
    intros H. unfold reserved. destruct rs; [|contradiction].
    destruct (first_selector ps); cbn; auto.
  Qed.

  Lemma reserved_ctx ps rs : accepts ps = true -> In "ctx" (reserved ps rs).
  Proof. unfold accepts, reserved. destruct (first_selector ps); [cbn; auto | discriminate]. Qed.

  (** All names before the final renaming are distinct and unreserved. *)
  Lemma prenames ps rs P u1 R u2 :
    process (declared ps) (reserved ps rs) = Ok (P, u1) ->
    process (declared_opt rs) u1 = Ok (R, u2) ->
    NoDup (map p_name (P ++ R)) /\
    (forall x, In x (map p_name (P ++ R)) -> ~ In x (reserved ps rs)).
  Proof.
    intros HP HR.
    assert (H : process (declared ps ++ declared_opt rs) (reserved ps rs) = Ok (P ++ R, u2)).
    { rewrite process_app, HP. cbn. now rewrite HR. }
    apply process_fresh in H. exact H.
  Qed.

  Lemma rev_ex {A} (l : list A) : l <> [] -> exists l' x, l = l' ++ [x].
  Proof.
    intros H. destruct (rev l) as [|x r] eqn:E.
    - exfalso. apply H. rewrite <- (rev_involutive l), E. reflexivity.
    - exists (rev r), x. rewrite <- (rev_involutive l), E. reflexivity.
  Qed.

  Lemma final_names ps rs P u1 R u2 re :
    process (declared ps) (reserved ps rs) = Ok (P, u1) ->
    process (declared_opt rs) u1 = Ok (R, u2) ->
    returns_error rs = Ok re ->
    (re = true -> R <> []) ->
    let names := map p_name ((if accepts ps then rename_first "ctx" P else P) ++
                             (if re then rename_last "err" R else R)) in
    NoDup names.
  Proof.
    intros HP HR Hre HRne names.
    destruct (prenames _ _ _ _ _ _ HP HR) as (Hnd & Hres).
    assert (Hgoal : forall P' , NoDup (map p_name (P' ++ R)) ->
              ~ In "err" (map p_name P') -> (re = true -> ~ In "err" (map p_name R)) ->
              NoDup (map p_name (P' ++ (if re then rename_last "err" R else R)))).
    { intros P' Hd He HeR. destruct re; [|exact Hd].
      destruct (rev_ex R (HRne eq_refl)) as (R' & r & ->).
      rewrite rename_last_snoc. rewrite !map_app in *. cbn [map] in *.
      rewrite app_assoc in *. apply NoDup_app_l in Hd as Hd1.
      rewrite <- rev_involutive. apply NoDup_rev. rewrite rev_app_distr. cbn.
      constructor.
      - intros Hi. apply in_rev in Hi. rewrite in_app_iff in Hi.
        destruct Hi as [Hi|Hi]; [now apply He|].
        specialize (HeR eq_refl). apply HeR. rewrite in_app_iff. now left.
      - apply NoDup_rev. exact Hd1. }
    unfold names. clear names.
    assert (HerrP : re = true -> ~ In "err" (map p_name (P ++ R))).
    { intros -> Hi. apply (Hres _ Hi). apply reserved_err. now apply declared_opt_nil_results. }
    destruct re.
    - specialize (HerrP eq_refl). rewrite map_app, in_app_iff in HerrP.
      destruct (accepts ps) eqn:Ea.
      + apply Hgoal.
        * destruct P as [|p P]; [exact Hnd|]. cbn in *. inversion Hnd as [|x l Hn Hd]; subst.
          constructor; [|exact Hd]. intros Hi. apply (Hres "ctx"); [now right | now apply reserved_ctx].
        * rewrite names_rename_first. destruct (map p_name P) as [|x l]; [tauto|].
          intros [E|Hi]; [discriminate | apply HerrP; left; now right].
        * intros _ Hi. apply HerrP. now right.
      + apply Hgoal; auto.
    - destruct (accepts ps) eqn:Ea; [|exact Hnd].
      destruct P as [|p P]; [exact Hnd|]. cbn in *. inversion Hnd as [|x l Hn Hd]; subst.
      constructor; [|exact Hd]. intros Hi. apply (Hres "ctx"); [now right | now apply reserved_ctx].
  Qed.

  Theorem NewMethod_NoDup name fi m :
    NewMethod O pr gts gps name fi = Ok m -> NoDup (map p_name (m_params m ++ m_results m)).
  Proof.
    intros H. apply NewMethod_inv in H.
    destruct H as (ps & rs & re & P & R & u1 & u2 & _ & Hre & HP & HR & HRne & _ & ->). cbn.
    eapply final_names; eauto.
  Qed.

  (** ** Signature preservation *)

  Definition same_sig (nf : string * field) (p : param) : Prop :=
    param_ok (f_type (snd nf)) (snd nf) p.

  Lemma same_sig_set_name nf p n : same_sig nf p -> same_sig nf (set_name n p).
  Proof. unfold same_sig, param_ok. destruct p; cbn. tauto. Qed.

  Lemma Forall2_rename_first l P n : Forall2 same_sig l P -> Forall2 same_sig l (rename_first n P).
  Proof.
    destruct 1 as [|a b l' l'' Hab H]; cbn; constructor; [now apply same_sig_set_name | exact H].
  Qed.

  Lemma Forall2_rename_last l P n : Forall2 same_sig l P -> Forall2 same_sig l (rename_last n P).
  Proof.
    induction 1 as [|a b l l' Hab H IH]; cbn [rename_last]; [constructor|].
    destruct l' as [|c l'].
    - constructor; [now apply same_sig_set_name | exact H].
    - constructor; assumption.
  Qed.

  Theorem NewMethod_sig name fi m ps rs :
    NewMethod O pr gts gps name fi = Ok m -> f_type fi = FuncT ps rs ->
    m_name m = name /\
    Forall2 same_sig (declared ps) (m_params m) /\ Forall2 same_sig (declared_opt rs) (m_results m).
  Proof.
    intros H Hf. apply NewMethod_inv in H.
    destruct H as (ps' & rs' & re & P & R & u1 & u2 & Hf' & Hre & HP & HR & HRne & _ & ->). cbn.
    rewrite Hf in Hf'. injection Hf' as <- <-.
    apply process_ok in HP, HR.
    repeat split.
    - destruct (accepts ps); [now apply Forall2_rename_first | exact HP].
    - destruct re; [now apply Forall2_rename_last | exact HR].
  Qed.

  (** ** err / ctx *)

  Lemma returns_error_spec rs re :
    returns_error rs = Ok re -> (re = true <-> last_result_is_error rs).
  Proof.
    unfold returns_error, last_result_is_error. destruct rs as [l|].
    - destruct (rev l) as [|f r] eqn:E; [discriminate|].
      assert (El : l = rev r ++ [f]) by (rewrite <- (rev_involutive l), E; reflexivity).
      intros H. split.
      + intros ->. exists (rev r), f. split; [now rewrite El|].
        destruct (f_type f); try discriminate. injection H as H. apply String.eqb_eq in H. now subst.
      + intros (l' & f' & El' & Hf). injection El' as El'. rewrite El in El'.
        apply app_inj_tail in El'. destruct El' as (_ & <-). rewrite Hf in H. now injection H as <-.
    - intros [= <-]. split; [discriminate | intros (l & f & H & _); discriminate].
  Qed.

  Lemma accepts_spec ps : accepts ps = true <-> first_param_is_context ps.
  Proof.
    unfold accepts, first_selector, first_param_is_context. destruct ps as [|f l].
    - split; [discriminate | intros (f & l & x & H & _); discriminate].
    - split.
      + destruct (f_type f) as [|x sel| | | | | | | | | | | | | | |] eqn:E; try discriminate. intros H. apply String.eqb_eq in H. subst.
        now exists f, l, x.
      + intros (f' & l' & x & H & E). injection H as <- <-. rewrite E. apply String.eqb_refl.
  Qed.

  Lemma reserved_spec ps rs x :
    In x (reserved ps rs) <->
    (x = "err" /\ rs <> None) \/ (x = "ctx" /\ first_param_is_selector ps).
  Proof.
    unfold reserved, first_selector, first_param_is_selector.
    assert (A : In x match rs with Some _ => ["err"] | None => [] end <-> (x = "err" /\ rs <> None)).
    { destruct rs; cbn; split.
      - intros [<-|[]]. split; [reflexivity | discriminate].
      - intros (-> & _). now left.
      - tauto.
      - intros (_ & H). now apply H. }
    destruct ps as [|f l].
    - rewrite A. split; [tauto|]. intros [H|(_ & f & l & y & z & H & _)]; [exact H | discriminate].
    - destruct (f_type f) as [|x0 sel| | | | | | | | | | | | | | |] eqn:E;
        try (rewrite A; split; [tauto|]; intros [H|(_ & f' & l' & y & z & H & E')]; [exact H|];
             injection H as <- <-; congruence).
      cbn [In]. rewrite A. split.
      + intros [<-|H]; [right | now left]. split; [reflexivity|]. now exists f, l, x0, sel.
      + intros [H|(-> & _)]; [now right | now left].
  Qed.

  Theorem NewMethod_err name fi m ps rs :
    NewMethod O pr gts gps name fi = Ok m -> f_type fi = FuncT ps rs ->
    (m_returnsError m = true <-> last_result_is_error rs) /\
    (m_returnsError m = true ->
       exists l p, m_results m = l ++ [p] /\ p_name p = "err" /\
                   ~ In "err" (map p_name (m_params m ++ l))) /\
    (m_returnsError m = false -> rs <> None -> ~ In "err" (map p_name (m_params m ++ m_results m))).
  Proof.
    intros H Hf. pose proof (NewMethod_NoDup _ _ _ H) as ND. apply NewMethod_inv in H.
    destruct H as (ps' & rs' & re & P & R & u1 & u2 & Hf' & Hre & HP & HR & HRne & _ & ->). cbn in *.
    rewrite Hf in Hf'. injection Hf' as <- <-.
    split; [now apply returns_error_spec|]. split.
    - intros ->. destruct (rev_ex R (HRne eq_refl)) as (R' & r & ->).
      rewrite rename_last_snoc in *. exists R', (set_name "err" r). repeat split.
      rewrite app_assoc, map_app in ND. cbn in ND.
      intros Hi. exact (NoDup_app_disj _ _ "err" ND Hi (or_introl eq_refl)).
    - intros -> Hrs Hi. destruct (prenames _ _ _ _ _ _ HP HR) as (_ & Hr).
      destruct (accepts ps).
      + destruct P as [|p P]; cbn in Hi.
        * apply (Hr "err"); [exact Hi | now apply reserved_err].
        * destruct Hi as [Hi|Hi]; [discriminate|].
          apply (Hr "err"); [now right | now apply reserved_err].
      + apply (Hr "err"); [exact Hi | now apply reserved_err].
  Qed.

  Theorem NewMethod_ctx name fi m ps rs :
    NewMethod O pr gts gps name fi = Ok m -> f_type fi = FuncT ps rs ->
    (m_acceptsContext m = true <-> first_param_is_context ps) /\
    (m_acceptsContext m = true ->
       exists p l, m_params m = p :: l /\ p_name p = "ctx" /\
                   ~ In "ctx" (map p_name (l ++ m_results m))).
  Proof.
    intros H Hf. pose proof (NewMethod_NoDup _ _ _ H) as ND. apply NewMethod_inv in H.
    destruct H as (ps' & rs' & re & P & R & u1 & u2 & Hf' & Hre & HP & HR & HRne & HPne & ->). cbn in *.
    rewrite Hf in Hf'. injection Hf' as <- <-.
    split; [apply accepts_spec|]. intros Ha. rewrite Ha in *.
    destruct P as [|p P]; [now destruct (HPne eq_refl)|].
    cbn in ND |- *. exists (set_name "ctx" p), P. repeat split.
    now inversion ND.
  Qed.

  (** ** User names *)

  Lemma nth_error_rename_first n (l : list param) i :
    i <> 0 -> nth_error (rename_first n l) i = nth_error l i.
  Proof. destruct l as [|p l]; [reflexivity|]. destruct i; [contradiction | reflexivity]. Qed.

  Lemma nth_error_rename_last n (l : list param) i :
    S i <> length l -> nth_error (rename_last n l) i = nth_error l i.
  Proof.
    revert i; induction l as [|p l IH]; intros i H; [reflexivity|].
    cbn [rename_last]. destruct l as [|q l].
    - destruct i; [cbn in H; lia|]. now destruct i.
    - destruct i; [reflexivity|]. apply IH. cbn in *. lia.
  Qed.

  Lemma rename_first_length n l : length (rename_first n l) = length l.
  Proof. now destruct l. Qed.
  Lemma rename_last_length n l : length (rename_last n l) = length l.
  Proof.
    induction l as [|p l IH]; [reflexivity|]. cbn [rename_last].
    destruct l; [reflexivity|]. cbn [length] in *. now rewrite IH.
  Qed.

  Lemma final_nth (P R : list param) (ac re : bool) i :
    (ac = true -> i <> 0) ->
    (re = true -> R <> [] -> S i <> length (P ++ R)) ->
    nth_error ((if ac then rename_first "ctx" P else P) ++ (if re then rename_last "err" R else R)) i
    = nth_error (P ++ R) i.
  Proof.
    intros H1 H2.
    assert (LP : length (if ac then rename_first "ctx" P else P) = length P)
      by (destruct ac; [apply rename_first_length | reflexivity]).
    destruct (Nat.lt_ge_cases i (length P)) as [L|L].
    - rewrite !nth_error_app1 by lia. destruct ac; [|reflexivity].
      apply nth_error_rename_first. auto.
    - rewrite !nth_error_app2 by lia. rewrite LP. destruct re; [|reflexivity].
      destruct R as [|r R]; [reflexivity|].
      apply nth_error_rename_last. specialize (H2 eq_refl).
      rewrite app_length in H2. intros E. apply H2; [discriminate|]. lia.
  Qed.

  Lemma process_prename l used ps used' :
    process l used = Ok (ps, used') ->
    forall j p, nth_error ps j = Some p ->
      exists n f, nth_error l j = Some (n, f) /\
        (p_name p = n \/ exists pfx k, typePrefix O (f_type f) = Ok pfx /\ p_name p = (pfx ++ dec k)%string).
  Proof.
    revert used ps used'; induction l as [|[n f] l IH]; cbn; intros used ps used' H j p Hj.
    - injection H as <- <-. destruct j; discriminate.
    - destruct (NewParam O pr gts gps n f used) as [[q u]| |] eqn:E; cbn in H; try discriminate.
      destruct (process l u) as [[ps1 u1]| |] eqn:E1; cbn in H; try discriminate.
      injection H as <- <-.
      destruct j as [|j]; [|cbn in Hj |- *; eapply IH; eauto].
      cbn in Hj. injection Hj as <-. exists n, f. split; [reflexivity|].
      apply NewParam_spec in E. destruct E as (_ & _ & K & G & _).
      destruct (in_dec string_dec n used) as [Hi|Hi].
      + right. destruct (G (or_intror Hi)) as (pfx & k & E2 & _ & E3 & _). eauto.
      + destruct (string_dec n "") as [->|Hn].
        * right. destruct (G (or_introl eq_refl)) as (pfx & k & E2 & _ & E3 & _). eauto.
        * left. auto.
  Qed.

  (** Exact form: a declared name survives unless one of the listed things
      happened. *)
  Theorem NewMethod_keeps name fi m ps rs D1 n f D2 :
    NewMethod O pr gts gps name fi = Ok m -> f_type fi = FuncT ps rs ->
    declared ps ++ declared_opt rs = D1 ++ (n, f) :: D2 -> n <> "" ->
    nth_error (map p_name (m_params m ++ m_results m)) (length D1) = Some n \/
    (m_acceptsContext m = true /\ D1 = []) \/
    (m_returnsError m = true /\ D2 = []) \/
    In n (map fst D1) \/
    In n (firstn (length D1) (map p_name (m_params m ++ m_results m))) \/
    (n = "err" /\ rs <> None) \/ (n = "ctx" /\ first_param_is_selector ps) \/
    (m_acceptsContext m = true /\ exists f0 l pfx k,
        ps = f0 :: l /\ typePrefix O (f_type f0) = Ok pfx /\ n = (pfx ++ dec k)%string).
  Proof.
    intros H Hf HD Hn. apply NewMethod_inv in H.
    destruct H as (ps' & rs' & re & P & R & u1 & u2 & Hf' & Hre & HP & HR & HRne & HPne & ->). cbn in *.
    rewrite Hf in Hf'. injection Hf' as <- <-.
    assert (H : process (declared ps ++ declared_opt rs) (reserved ps rs) = Ok (P ++ R, u2)).
    { rewrite process_app, HP. cbn. now rewrite HR. }
    set (final := (if accepts ps then rename_first "ctx" P else P) ++ (if re then rename_last "err" R else R)).
    pose proof (process_ok _ _ _ _ H) as HL. apply Forall2_length in HL.
    pose proof (process_prename _ _ _ _ H) as Hpre.
    rewrite HD in H, HL, Hpre.
    destruct (process_names _ _ _ _ _ _ _ H) as (F1 & p & F2 & EF & EL & K & _).
    assert (C1 : (accepts ps = true /\ D1 = []) \/ (accepts ps = true -> length D1 <> 0)).
    { destruct (accepts ps); [|right; discriminate]. destruct D1; [now left | right; discriminate]. }
    destruct C1 as [C1|C1]; [tauto|].
    assert (C2 : (re = true /\ D2 = []) \/ (re = true -> D2 <> [])).
    { destruct re; [|right; discriminate]. destruct D2; [now left | right; discriminate]. }
    destruct C2 as [C2|C2]; [tauto|].
    assert (Hfin : forall j, j <= length D1 -> (accepts ps = true -> j <> 0) ->
                 nth_error (map p_name final) j = nth_error (map p_name (P ++ R)) j).
    { intros j Hj Hj0. rewrite !nth_error_map. f_equal. apply final_nth; [exact Hj0|].
      intros Hre' _. rewrite <- HL, app_length. cbn. specialize (C2 Hre').
      destruct D2; [contradiction | cbn; lia]. }
    destruct (in_dec string_dec n (reserved ps rs)) as [Hr|Hr];
      [apply reserved_spec in Hr; tauto|].
    destruct (in_dec string_dec n (map p_name F1)) as [Hi|Hi].
    - apply In_nth_error in Hi. destruct Hi as (j & Hj).
      assert (Hji : j < length D1).
      { rewrite <- EL, <- (map_length p_name F1). apply nth_error_Some. congruence. }
      assert (HjPR : nth_error (map p_name (P ++ R)) j = Some n).
      { rewrite EF, map_app, nth_error_app1 by (rewrite map_length; lia). exact Hj. }
      assert (Hcase : (accepts ps = true -> j <> 0) \/ (accepts ps = true /\ j = 0)).
      { destruct (accepts ps); [|left; discriminate]. destruct j; [now right | left; lia]. }
      destruct Hcase as [Hj0|(Hac & ->)].
      + do 4 right. left. apply nth_error_In with j.
        rewrite nth_error_firstn_lt by exact Hji. rewrite Hfin by (auto; lia). exact HjPR.
      + rewrite nth_error_map in HjPR.
        destruct (nth_error (P ++ R) 0) as [p0|] eqn:E0; [|discriminate]. cbn in HjPR. injection HjPR as Hp0.
        destruct (Hpre _ _ E0) as (n0 & f0 & En0 & Hn0).
        destruct D1 as [|[n1 f1] D1]; [cbn in Hji; lia|]. cbn in En0. injection En0 as -> ->.
        destruct Hn0 as [Hn0|(pfx & k & Hpfx & Hn0)].
        * do 3 right. left. cbn. left. congruence.
        * do 7 right. split; [exact Hac|].
          apply accepts_spec in Hac. destruct Hac as (g & l & x & -> & Hg).
          exists g, l, pfx, k. split; [reflexivity|]. split; [|congruence].
          cbn in HD. unfold declared_field in HD.
          destruct (f_names g); cbn in HD; injection HD as _ Eg _; now rewrite Eg.
    - left. rewrite Hfin by (auto; lia). rewrite EF, map_app, nth_error_app2 by (rewrite map_length; lia).
      rewrite map_length, EL, Nat.sub_diag. cbn. f_equal. apply K; [exact Hn|].
      rewrite in_app_iff, <- in_rev. tauto.
  Qed.

  (** Every name after the renaming is declared, generated, ctx or err. *)
  Lemma NewMethod_name_origin name fi m ps rs j x :
    NewMethod O pr gts gps name fi = Ok m -> f_type fi = FuncT ps rs ->
    nth_error (map p_name (m_params m ++ m_results m)) j = Some x ->
    x = "ctx" /\ m_acceptsContext m = true /\ j = 0 \/
    x = "err" /\ m_returnsError m = true \/
    exists n f, nth_error (declared ps ++ declared_opt rs) j = Some (n, f) /\
      ((x = n /\ n <> "") \/ exists pfx k, typePrefix O (f_type f) = Ok pfx /\ x = (pfx ++ dec k)%string).
  Proof.
    intros H Hf Hx. apply NewMethod_inv in H.
    destruct H as (ps' & rs' & re & P & R & u1 & u2 & Hf' & Hre & HP & HR & HRne & HPne & ->). cbn in *.
    rewrite Hf in Hf'. injection Hf' as <- <-.
    assert (H : process (declared ps ++ declared_opt rs) (reserved ps rs) = Ok (P ++ R, u2)).
    { rewrite process_app, HP. cbn. now rewrite HR. }
    assert (Pre : forall p, nth_error (P ++ R) j = Some p -> p_name p = x ->
      exists n f, nth_error (declared ps ++ declared_opt rs) j = Some (n, f) /\
      ((x = n /\ n <> "") \/ exists pfx k, typePrefix O (f_type f) = Ok pfx /\ x = (pfx ++ dec k)%string)).
    { intros p Hp <-. destruct (process_prename _ _ _ _ H _ _ Hp) as (n & f & En & Hn).
      exists n, f. split; [exact En|].
      destruct Hn as [Hn|Hn]; [|now right].
      destruct (string_dec n "") as [->|N]; [|left; split; congruence].
      right. apply nth_error_split in En. destruct En as (D1 & D2 & ED & LD).
      rewrite ED in H. destruct (process_names _ _ _ _ _ _ _ H) as (F1 & q & F2 & EF & EL & _ & G).
      rewrite EF, nth_error_app2 in Hp by lia. replace (j - length F1) with 0 in Hp by lia.
      injection Hp as ->. destruct (G (or_introl eq_refl)) as (pfx & k & Hp1 & _ & Hp2 & _). eauto. }
    rewrite nth_error_map in Hx.
    destruct (nth_error ((if accepts ps then rename_first "ctx" P else P) ++
              (if re then rename_last "err" R else R)) j) as [p|] eqn:Ep; [|discriminate].
    cbn in Hx. injection Hx as Hx.
    assert (C1 : (accepts ps = true /\ j = 0) \/ (accepts ps = true -> j <> 0)).
    { destruct (accepts ps); [|right; discriminate]. destruct j; [now left | right; discriminate]. }
    destruct C1 as [(Ha & ->)|C1].
    { left. rewrite Ha in Ep. destruct P as [|p0 P]; [now destruct (HPne Ha)|].
      cbn in Ep. injection Ep as <-. cbn in Hx. now subst. }
    assert (C2 : (re = true /\ R <> [] /\ S j = length (P ++ R)) \/ (re = true -> R <> [] -> S j <> length (P ++ R))).
    { destruct re; [|right; discriminate].
      destruct (Nat.eq_dec (S j) (length (P ++ R))); [left; auto | right; auto]. }
    destruct C2 as [(-> & HR0 & Hl)|C2].
    { right. left. split; [|reflexivity].
      destruct (rev_ex R HR0) as (R' & r & ->). rewrite rename_last_snoc in Ep.
      rewrite !app_length in Hl. cbn in Hl.
      assert (LP : length (if accepts ps then rename_first "ctx" P else P) = length P)
        by (destruct (accepts ps); [apply rename_first_length | reflexivity]).
      rewrite nth_error_app2 in Ep by lia. rewrite nth_error_app2 in Ep by lia.
      replace (j - _ - _) with 0 in Ep by lia. injection Ep as <-. now subst. }
    right. right. rewrite final_nth in Ep by auto. eapply Pre; eauto.
  Qed.

  Theorem NewMethod_keeps_plain name fi m ps rs D1 n f D2 :
    NewMethod O pr gts gps name fi = Ok m -> f_type fi = FuncT ps rs ->
    declared ps ++ declared_opt rs = D1 ++ (n, f) :: D2 -> n <> "" ->
    ~ ends_with_digit n -> ~ In n (map fst D1) ->
    ~ (n = "err" /\ rs <> None) -> ~ (n = "ctx" /\ first_param_is_selector ps) ->
    ~ (m_acceptsContext m = true /\ D1 = []) -> ~ (m_returnsError m = true /\ D2 = []) ->
    nth_error (map p_name (m_params m ++ m_results m)) (length D1) = Some n.
  Proof.
    intros H Hf HD Hn Hdig Hfst Herr Hctx Hac Hre.
    destruct (NewMethod_keeps _ _ _ _ _ _ _ _ _ H Hf HD Hn)
      as [K|[K|[K|[K|[K|[K|[K|K]]]]]]]; try contradiction; auto.
    - exfalso. apply In_nth_error in K. destruct K as (j & Hj).
      assert (Hjl : j < length D1).
      { pose proof (nth_error_Some (firstn (length D1) (map p_name (m_params m ++ m_results m))) j) as A.
        rewrite Hj in A. pose proof (proj1 A ltac:(discriminate)) as L.
        rewrite firstn_length in L. lia. }
      rewrite nth_error_firstn_lt in Hj by exact Hjl.
      destruct (NewMethod_name_origin _ _ _ _ _ _ _ H Hf Hj) as [(E & Ha & _)|[(E & Hr)|(n0 & f0 & En & [(E & _)|(pfx & k & _ & E)])]].
      + apply Hctx. split; [exact E|].
        apply (proj1 (NewMethod_ctx _ _ _ _ _ H Hf)) in Ha. destruct Ha as (g & l & x & -> & Hg).
        now exists g, l, x, "Context".
      + apply Herr. split; [exact E|]. intros ->.
        apply (proj1 (NewMethod_err _ _ _ _ _ H Hf)) in Hr. destruct Hr as (l & g & A & _). discriminate.
      + apply Hfst. rewrite HD, nth_error_app1 in En by exact Hjl. subst n0.
        apply nth_error_In in En. now apply (in_map fst) in En.
      + apply Hdig. rewrite E. apply app_ends_digit, dec_last.
    - exfalso. destruct K as (_ & f0 & l & pfx & k & _ & _ & E).
      apply Hdig. rewrite E. apply app_ends_digit, dec_last.
  Qed.

  (** ** Usable identifiers *)

  Lemma all_chars_app p a b : all_chars p (a ++ b)%string = all_chars p a && all_chars p b.
  Proof. induction a as [|c a IH]; cbn; [reflexivity | now rewrite IH, andb_assoc]. Qed.

  Lemma all_chars_impl p q s :
    (forall c, p c = true -> q c = true) -> all_chars p s = true -> all_chars q s = true.
  Proof.
    intros H. induction s as [|c s IH]; cbn; [auto|].
    intros E. apply andb_true_iff in E. destruct E as (E1 & E2). now rewrite H, IH.
  Qed.

  Lemma is_ident_app a b :
    is_ident a = true -> all_chars (fun c => is_letter c || is_digit c) b = true ->
    is_ident (a ++ b)%string = true.
  Proof.
    destruct a as [|c a]; cbn; [discriminate|]. intros H1 H2.
    apply andb_true_iff in H1. destruct H1 as (-> & H1). now rewrite all_chars_app, H1, H2.
  Qed.

  Lemma go_lower_ascii u c :
    is_letter c = true -> is_ident (go_lower u (String c "")) = true.
  Proof.
    destruct c as [[] [] [] [] [] [] [] []]; cbn; intros H; try discriminate H; reflexivity.
  Qed.

  Lemma typePrefix_ident e pfx :
    Forall (fun n => is_ident n = true) (idents e) ->
    typePrefix O e = Ok pfx -> is_ident pfx = true.
  Proof.
    revert pfx; induction e; cbn [typePrefix idents]; intros pfx HI HE;
      try (injection HE as <-; reflexivity).
    - inversion HI as [|? ? Hn _]; subst. destruct n as [|c n]; [discriminate|].
      injection HE as <-. apply go_lower_ascii. cbn in Hn. now apply andb_true_iff in Hn.
    - apply Forall_app in HI. destruct HI as (_ & HI). inversion HI as [|? ? Hn _]; subst.
      destruct sel as [|c n]; [discriminate|].
      injection HE as <-. apply go_lower_ascii. cbn in Hn. now apply andb_true_iff in Hn.
    - destruct (typePrefix O e) as [p| |]; cbn in HE; try discriminate. injection HE as <-.
      apply is_ident_app; [now apply IHe | reflexivity].
    - destruct (typePrefix O e) as [p| |]; cbn in HE; try discriminate. injection HE as <-.
      apply is_ident_app; [|reflexivity]. apply IHe; [|reflexivity].
      destruct len; [now apply Forall_app in HI | exact HI].
    - destruct (typePrefix O e) as [p| |]; cbn in HE; try discriminate. injection HE as <-.
      apply is_ident_app; [now apply IHe | reflexivity].
  Qed.

  Lemma ends_digit_usable s : is_ident s = true -> ends_with_digit s -> usable s.
  Proof.
    intros H (a & c & -> & Hd). split; [exact H|].
    assert (Hne : forall w, ends_with_digit w -> last_byte w <> None /\
              forall d, last_byte w = Some d -> is_digit d = true).
    { intros w (b & d & -> & E). clear -E. induction b as [|x b IH]; cbn.
      - split; [discriminate | intros d' [= <-]; exact E].
      - destruct IH as (I1 & I2). destruct (b ++ String d "")%string eqn:Eb; [destruct b; discriminate|].
        split; assumption. }
    destruct (Hne _ (ex_intro _ a (ex_intro _ c (conj eq_refl Hd)))) as (_ & HL).
    split.
    - intros E. rewrite E in HL. specialize (HL "_"%char eq_refl). discriminate.
    - intros Hi. cbn in Hi.
      repeat match type of Hi with
             | _ = ?x \/ _ => destruct Hi as [E|Hi]; [rewrite <- E in HL; specialize (HL _ eq_refl); discriminate|]
             end.
      exact Hi.
  Qed.

  Theorem NewMethod_usable name fi m ps rs :
    NewMethod O pr gts gps name fi = Ok m -> f_type fi = FuncT ps rs ->
    (forall n f, In (n, f) (declared ps ++ declared_opt rs) ->
        (n = "" \/ usable n) /\ Forall (fun i => is_ident i = true) (idents (f_type f))) ->
    Forall (fun p => usable (p_name p)) (m_params m ++ m_results m).
  Proof.
    intros H Hf Hok. apply Forall_forall. intros p Hp.
    apply (in_map p_name) in Hp. apply In_nth_error in Hp. destruct Hp as (j & Hj).
    destruct (NewMethod_name_origin _ _ _ _ _ _ _ H Hf Hj) as [(E & _)|[(E & _)|(n & f & En & D)]].
    - rewrite E. repeat split; [discriminate|]. cbn. intuition discriminate.
    - rewrite E. repeat split; [discriminate|]. cbn. intuition discriminate.
    - apply nth_error_In in En. destruct (Hok _ _ En) as (Hn & HI).
      destruct D as [(E & Hne)|(pfx & k & Ep & E)].
      + rewrite E. destruct Hn; [contradiction | assumption].
      + rewrite E. apply ends_digit_usable.
        * apply is_ident_app; [eapply typePrefix_ident; eauto|].
          eapply all_chars_impl; [|apply dec_digits]. intros c ->. apply orb_true_r.
        * apply app_ends_digit, dec_last.
  Qed.
End Proofs.

(** ** Reading the forwarded call back (C03) *)

Lemma split_on_nonempty c s : split_on c s <> [].
Proof.
  destruct s as [|d s]; cbn; [discriminate|].
  destruct (byte_eqb d c); [discriminate|]. destruct (split_on c s); discriminate.
Qed.

Lemma split_on_none c a : all_chars (fun d => negb (byte_eqb d c)) a = true -> split_on c a = [a].
Proof.
  induction a as [|d a IH]; cbn; [reflexivity|]. intros H.
  apply andb_true_iff in H. destruct H as (H1 & H2). apply negb_true_iff in H1. now rewrite H1, IH.
Qed.

Lemma split_on_app c a b :
  all_chars (fun d => negb (byte_eqb d c)) a = true ->
  split_on c (a ++ String c b)%string = a :: split_on c b.
Proof.
  induction a as [|d a IH]; cbn; intros H.
  - unfold byte_eqb. now rewrite Ascii.eqb_refl.
  - apply andb_true_iff in H. destruct H as (H1 & H2). apply negb_true_iff in H1. now rewrite H1, IH.
Qed.

Lemma ident_chars_no c s :
  is_letter c = false -> is_digit c = false -> is_ident s = true ->
  all_chars (fun d => negb (byte_eqb d c)) s = true.
Proof.
  intros Hl Hd H.
  apply all_chars_impl with (p := fun c => is_letter c || is_digit c).
  - intros d E. apply negb_true_iff. unfold byte_eqb. apply Ascii.eqb_neq. intros ->.
    rewrite Hl, Hd in E. discriminate.
  - destruct s as [|d s]; [reflexivity|]. cbn in *. apply andb_true_iff in H. destruct H as (-> & ->). reflexivity.
Qed.

Lemma param_pass_nocomma p :
  is_ident (p_name p) = true -> all_chars (fun d => negb (byte_eqb d ",")) (param_pass p) = true.
Proof.
  intros H. unfold param_pass. destruct (p_variadic p).
  - rewrite all_chars_app. rewrite (ident_chars_no ","%char) by (auto; reflexivity). reflexivity.
  - now apply (ident_chars_no ","%char).
Qed.

Lemma strip_suffix_app a b : strip_suffix b (a ++ b)%string = Some a.
Proof.
  induction a as [|c a IH]; cbn [String.append].
  - destruct b; cbn; [reflexivity|]. now rewrite Ascii.eqb_refl, String.eqb_refl.
  - cbn [strip_suffix]. destruct (String.eqb (String c (a ++ b)) b) eqn:E.
    + apply String.eqb_eq in E. exfalso.
      assert (L : String.length (String c (a ++ b)%string) = String.length b) by now rewrite E.
      cbn in L. rewrite slength_app in L. lia.
    + now rewrite IH.
Qed.

Lemma strip_suffix_ident s : is_ident s = true -> strip_suffix "..." s = None.
Proof.
  intros H.
  assert (A : all_chars (fun d => negb (byte_eqb d ".")) s = true)
    by (apply (ident_chars_no "."%char); auto; reflexivity).
  clear H. induction s as [|c s IH]; [reflexivity|].
  cbn [all_chars] in A. apply andb_true_iff in A. destruct A as (A1 & A2).
  cbn [strip_suffix]. rewrite IH by exact A2.
  destruct (String.eqb_spec (String c s) "...") as [E|N]; [|reflexivity].
  injection E as -> _. discriminate.
Qed.

Lemma parse_arg_pass p :
  is_ident (p_name p) = true -> parse_arg (param_pass p) = (p_name p, p_variadic p).
Proof.
  intros H. unfold parse_arg, param_pass.
  assert (Hs : forall x, strip_space (p_name p ++ x)%string = (p_name p ++ x)%string).
  { intros x. destruct (p_name p) as [|c s]; [discriminate|]. cbn.
    cbn in H. apply andb_true_iff in H. destruct H as (H & _).
    destruct c as [[] [] [] [] [] [] [] []]; try reflexivity; discriminate. }
  destruct (p_variadic p).
  - now rewrite Hs, strip_suffix_app.
  - specialize (Hs ""). rewrite sapp_nil_r in Hs. now rewrite Hs, strip_suffix_ident.
Qed.

Lemma map_parse_arg_join ps :
  ps <> [] -> Forall (fun p => is_ident (p_name p) = true) ps ->
  map parse_arg (split_on "," (join ", " (map param_pass ps))) =
    map (fun p => (p_name p, p_variadic p)) ps /\
  map parse_arg (split_on "," (String " " (join ", " (map param_pass ps)))) =
    map (fun p => (p_name p, p_variadic p)) ps.
Proof.
  intros Hne HF.
  assert (Hsp : forall p, is_ident (p_name p) = true ->
             parse_arg (String " " (param_pass p)) = (p_name p, p_variadic p)).
  { intros p H. rewrite <- (parse_arg_pass p H). unfold parse_arg. cbn [strip_space].
    unfold param_pass.
    destruct (p_name p) as [|c s]; [discriminate|].
    cbn in H. apply andb_true_iff in H. destruct H as (H & _).
    destruct (p_variadic p); cbn;
    destruct c as [[] [] [] [] [] [] [] []]; try reflexivity; discriminate. }
  induction ps as [|p ps IH]; [contradiction|].
  inversion HF as [|? ? Hp HF']; subst.
  destruct ps as [|q ps].
  - cbn [map join String.concat]. split.
    + rewrite split_on_none by now apply param_pass_nocomma. cbn. now rewrite parse_arg_pass.
    + rewrite split_on_none by (cbn; now apply param_pass_nocomma). cbn. now rewrite Hsp.
  - destruct (IH ltac:(discriminate) HF') as (_ & IH2).
    change (join ", " (map param_pass (p :: q :: ps)))
      with (param_pass p ++ String "," (String " " (join ", " (map param_pass (q :: ps)))))%string.
    split.
    + rewrite split_on_app by now apply param_pass_nocomma.
      cbn [map]. cbn [map] in IH2. rewrite IH2, parse_arg_pass by exact Hp. reflexivity.
    + change (String " " (param_pass p ++ String "," (String " " (join ", " (map param_pass (q :: ps))))))
        with (String " " (param_pass p) ++ String "," (String " " (join ", " (map param_pass (q :: ps)))))%string.
      rewrite split_on_app by (cbn; now apply param_pass_nocomma).
      cbn [map]. cbn [map] in IH2. rewrite IH2, Hsp by exact Hp. reflexivity.
Qed.

Lemma cut_app c a b :
  all_chars (fun d => negb (byte_eqb d c)) a = true -> cut c (a ++ String c b)%string = Some (a, b).
Proof.
  induction a as [|d a IH]; cbn; intros H.
  - unfold byte_eqb. now rewrite Ascii.eqb_refl.
  - apply andb_true_iff in H. destruct H as (H1 & H2). apply negb_true_iff in H1. now rewrite H1, IH.
Qed.

Theorem Call_parses m :
  is_ident (m_name m) = true -> Forall (fun p => is_ident (p_name p) = true) (m_params m) ->
  parse_call (Call m) = Some (m_name m, map (fun p => (p_name p, p_variadic p)) (m_params m)).
Proof.
  intros Hn HF. unfold parse_call, Call.
  change (m_name m ++ "(" ++ join ", " (map param_pass (m_params m)) ++ ")")%string
    with (m_name m ++ String "(" (join ", " (map param_pass (m_params m)) ++ ")"))%string.
  rewrite cut_app by (apply (ident_chars_no "("%char); auto; reflexivity).
  rewrite strip_suffix_app.
  destruct (m_params m) as [|p ps] eqn:E; [reflexivity|].
  destruct (map_parse_arg_join (p :: ps) ltac:(discriminate) HF) as (J & _). rewrite J.
  destruct (String.eqb_spec (join ", " (map param_pass (p :: ps))) "") as [E0|N]; [|reflexivity].
  exfalso. rewrite E0 in J. cbn in J. destruct ps; [|discriminate J].
  injection J as J1 _. inversion HF as [|? ? Hp _]; subst. rewrite <- J1 in Hp. discriminate.
Qed.

(** ** No panics on ordinary methods *)
Definition panics {A} (r : res A) : Prop := exists msg, r = Panic msg.

Section NoPanic.
  Variable O : oracle.
  Variable pr : expr -> res string.
  Variable gts : list genericType.
  Variable gps : list genericParam.

  Lemma typePrefix_no_panic e :
    Forall (fun n => n <> "") (idents e) -> ~ panics (typePrefix O e).
  Proof.
    induction e; cbn [typePrefix idents]; intros HI (msg & HE); try discriminate.
    - inversion HI as [|? ? Hn _]; subst. destruct n; [now apply Hn | discriminate].
    - apply Forall_app in HI. destruct HI as (_ & HI). inversion HI as [|? ? Hn _]; subst.
      destruct sel; [now apply Hn | discriminate].
    - destruct (typePrefix O e); cbn in HE; try discriminate. apply IHe; [exact HI | eexists; reflexivity].
    - destruct (typePrefix O e); cbn in HE; try discriminate. apply IHe; [|eexists; reflexivity].
      destruct len; [now apply Forall_app in HI | exact HI].
    - destruct (typePrefix O e); cbn in HE; try discriminate. apply IHe; [exact HI | eexists; reflexivity].
  Qed.

  Lemma NewParam_no_panic n f used :
    Forall (fun n => n <> "") (idents (f_type f)) -> ~ panics (pr (f_type f)) ->
    ~ panics (NewParam O pr gts gps n f used).
  Proof.
    intros HI Hp (msg & H). unfold NewParam in H.
    assert (Ht : forall nm, rbind (pr (f_type f)) (fun t => Ok
       ({| p_doc := f_doc f; p_comment := f_comment f; p_name := nm;
           p_type := buildGenericParamsString t gts gps; p_variadic := is_ellipsis (f_type f) |},
        nm :: used)) = Panic msg -> False).
    { intros nm E. destruct (pr (f_type f)) as [| |m] eqn:Ep; cbn in E; try discriminate.
      apply Hp. exists m. reflexivity. }
    destruct (String.eqb n "" || mem n used); [|cbn in H; eapply Ht; eauto].
    destruct (typePrefix O (f_type f)) as [pfx| |m] eqn:Et; cbn in H; try discriminate.
    - destruct (genName (length used) pfx 1 used) eqn:Eg; cbn in H.
      + eapply Ht; eauto.
      + now apply genName_total in Eg.
    - eapply typePrefix_no_panic; [exact HI | exists m; exact Et].
  Qed.

  Lemma process_no_panic l used :
    (forall n f, In (n, f) l -> Forall (fun n => n <> "") (idents (f_type f)) /\ ~ panics (pr (f_type f))) ->
    ~ panics (process O pr gts gps l used).
  Proof.
    revert used; induction l as [|[n f] l IH]; intros used HA (msg & H); cbn in H; [discriminate|].
    destruct (NewParam O pr gts gps n f used) as [[p u]| |m] eqn:E; cbn in H; try discriminate.
    - destruct (process O pr gts gps l u) as [| |m] eqn:E1; cbn in H; try discriminate.
      eapply (IH u); [|exists m; exact E1]. intros n' f' Hi. apply (HA n' f'). now right.
    - destruct (HA n f (or_introl eq_refl)) as (A & B).
      eapply NewParam_no_panic; [exact A | exact B | exists m; exact E].
  Qed.

  Lemma declared_nonempty f l : declared (f :: l) <> [].
  Proof. cbn. unfold declared_field. destruct (f_names f); discriminate. Qed.

  Theorem NewMethod_no_panic name fi ps rs :
    f_type fi = FuncT ps rs -> rs <> Some [] ->
    (forall n f, In (n, f) (declared ps ++ declared_opt rs) ->
       Forall (fun n => n <> "") (idents (f_type f)) /\ ~ panics (pr (f_type f))) ->
    ~ panics (NewMethod O pr gts gps name fi).
  Proof.
    intros Hf Hrs HA (msg & H). unfold NewMethod in H. rewrite Hf in H.
    assert (Hre : exists re, returns_error rs = Ok re).
    { destruct rs as [l|]; [|now exists false]. unfold returns_error, field in *. destruct (rev l) as [|f r] eqn:E.
      - exfalso. apply Hrs. rewrite <- (rev_involutive l), E. reflexivity.
      - destruct (f_type f); eexists; reflexivity. }
    destruct Hre as (re & Hre). rewrite Hre in H. cbn [rbind] in H.
    unfold makeParams at 1 in H. rewrite makeParams_list_process in H.
    match type of H with context [process _ _ _ _ (declared ps) ?u] => set (u0 := u) in * end.
    destruct (process O pr gts gps (declared ps) u0) as [[P u1]| |m] eqn:EP; cbn [rbind] in H; try discriminate.
    2: { eapply process_no_panic; [|exists m; exact EP]. intros n f Hi. apply (HA n f).
         rewrite in_app_iff. now left. }
    rewrite makeParams_process in H. cbn [snd fst] in H.
    destruct (process O pr gts gps (declared_opt rs) u1) as [[R u2]| |m] eqn:ER; cbn [rbind] in H; try discriminate.
    2: { eapply process_no_panic; [|exists m; exact ER]. intros n f Hi. apply (HA n f).
         rewrite in_app_iff. now right. }
    cbn [fst] in H. apply process_ok in EP, ER. apply Forall2_length in EP, ER.
    destruct (re && match R with [] => true | _ => false end) eqn:E1.
    - apply andb_true_iff in E1. destruct E1 as (-> & E1). destruct R; [|discriminate].
      destruct rs as [[|f l]|]; [now apply Hrs | | discriminate].
      apply (declared_nonempty f l). apply length_zero_iff_nil. exact ER.
    - destruct (_ && match P with [] => true | _ => false end) eqn:E2; [|discriminate].
      apply andb_true_iff in E2. destruct E2 as (E2 & E3). destruct P; [|discriminate].
      destruct ps as [|f l]; [discriminate|].
      apply (declared_nonempty f l). apply length_zero_iff_nil. exact EP.
  Qed.
End NoPanic.
