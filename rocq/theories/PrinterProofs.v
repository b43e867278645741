(** Proofs about the model of printer/printer.go. *)
From Verif Require Export Printer.
Open Scope nat_scope.

(** ** The printer has no memory (C10) *)

Lemma printType_resets O types prefix e b : snd (printType O types prefix e b) = "".
Proof. destruct e; reflexivity. Qed.

Lemma print_node_resets O n b : b = "" -> snd (print_node O n b) = "".
Proof. intros ->. destruct n; reflexivity. Qed.

(** ** Buffer-free form *)

Section Pure.
  Variable O : oracle.
  Variable types : list typespec.
  Variable prefix : string.

  Definition fprint_res (e : expr) : res string :=
    match fprint O e with (s, None) => Ok s | (_, Some er) => Err er end.

  Definition ident_res (n : string) : res string :=
    if existsb (fun t => String.eqb n (ts_name t)) types then
      if String.eqb prefix "" then Ok n
      else match looks_unexported (o_lower O) n with
           | Ok true => Err (Wrapped n errUnexportedType)
           | Ok false => Ok (prefix ++ "." ++ n)%string
           | Err e => Err e
           | Panic p => Panic p
           end
    else Ok n.

  Definition len_res (l : option expr) : res string :=
    match l with None => Ok "" | Some e => fprint_res e end.

  Fixpoint pt (e : expr) : res string :=
    let fl := fix fl (l : list field) : res (list string) :=
      match l with
      | [] => Ok []
      | f :: l' =>
          do t <- pt (f_type f);
          do rest <- fl l';
          Ok ((join ", " (f_names f) ++ " " ++ t)%string :: rest)
      end in
    match e with
    | FuncT ps rs =>
        do params <- fl ps;
        do results <- match rs with None => Ok [] | Some l => fl l end;
        Ok ("func(" ++ join ", " params ++ ") (" ++ join ", " results ++ ")")%string
    | Star x => do s <- pt x; Ok ("*" ++ s)%string
    | Ellipsis x => do s <- pt x; Ok ("..." ++ s)%string
    | ChanT d v => do s <- pt v; Ok (chanType d ++ s)%string
    | ArrayT len elt => do s <- pt elt; do l <- len_res len; Ok ("[" ++ l ++ "]" ++ s)%string
    | MapT k v => do a <- pt k; do b <- pt v; Ok ("map[" ++ a ++ "]" ++ b)%string
    | StructT fs =>
        do fields <- fl fs;
        Ok ("struct{" ++ String "010" (join (String "010" "") fields ++ String "010" "}"))%string
    | Ident n => ident_res n
    | IndexE x i => do t <- pt x; do g <- pt i; Ok (t ++ "[" ++ g ++ "]")%string
    | IndexListE x l =>
        do t <- pt x;
        do gs <- (fix go (l : list expr) : res (list string) :=
                    match l with
                    | [] => Ok []
                    | y :: l' => do g <- pt y; do rest <- go l'; Ok (g :: rest)
                    end) l;
        Ok (t ++ "[" ++ generic_list_tail gs)%string
    | _ => fprint_res e
    end.

  Fixpoint pt_fields (l : list field) : res (list string) :=
    match l with
    | [] => Ok []
    | f :: l' =>
        do t <- pt (f_type f);
        do rest <- pt_fields l';
        Ok ((join ", " (f_names f) ++ " " ++ t)%string :: rest)
    end.

  Fixpoint pt_list (l : list expr) : res (list string) :=
    match l with
    | [] => Ok []
    | y :: l' => do g <- pt y; do rest <- pt_list l'; Ok (g :: rest)
    end.

  Lemma fprint_m_empty e : fst (fprint_m O e "") = fprint_res e.
  Proof.
    unfold fprint_m, fprint_res. destruct (fprint O e) as [s [er|]]; reflexivity.
  Qed.

  Lemma printIdent_empty n : fst (printIdent O types prefix n "") = ident_res n.
  Proof.
    unfold printIdent, ident_res. induction types as [|t ts IH]; cbn [printIdent_loop existsb].
    - reflexivity.
    - destruct (String.eqb_spec n (ts_name t)) as [->|N]; cbn [orb]; [|exact IH].
      destruct (String.eqb prefix ""); cbn [negb]; [reflexivity|].
      destruct (looks_unexported (o_lower O) (ts_name t)) as [[]| |]; reflexivity.
  Qed.

  Lemma mbind_reset {A B} (m : M A) (f : A -> M B) (r : res A) (k : A -> res B) :
    m "" = (r, "") -> (forall a, r = Ok a -> f a "" = (k a, "")) ->
    mbind m f "" = (rbind r k, "").
  Proof.
    intros Hm Hf. unfold mbind. rewrite Hm. destruct r; cbn; auto.
  Qed.

  Lemma with_reset_eq {A} (m : M A) (r : res A) b : fst (m b) = r -> with_reset m b = (r, "").
  Proof. unfold with_reset. now intros ->. Qed.

  Lemma fst_of_pair {A} (m : M A) r b : m b = (r, "") -> fst (m b) = r.
  Proof. now intros ->. Qed.

  Lemma printType_pt : forall e, printType O types prefix e "" = (pt e, "").
  Proof.
    set (P := fun e => printType O types prefix e "" = (pt e, "")).
    assert (HF : forall l, Forall (Pf P) l ->
       ((fix fieldList (l : list field) : M (list string) :=
          match l with
          | [] => mret []
          | f :: l' =>
              let! paramType := printType O types prefix (f_type f) in
              let! rest := fieldList l' in
              mret ((join ", " (f_names f) ++ " " ++ paramType)%string :: rest)
          end) l) "" = (pt_fields l, "")).
    { induction 1 as [|f l Hf _ IH]; [reflexivity|].
      cbn [pt_fields]. apply mbind_reset; [exact Hf|]. intros t Ht.
      apply mbind_reset; [exact IH|]. reflexivity. }
    apply expr_ind'; unfold P; intros; cbn [printType pt]; apply with_reset_eq.
    - apply printIdent_empty.
    - apply fprint_m_empty.
    - apply fst_of_pair, mbind_reset; [assumption | reflexivity].
    - apply fst_of_pair, mbind_reset; [assumption | reflexivity].
    - apply fst_of_pair, mbind_reset; [assumption|]. intros s Hs.
      apply mbind_reset; [|reflexivity].
      destruct l as [y|]; cbn [print_node len_res]; [|reflexivity].
      apply with_reset_eq, fprint_m_empty.
    - apply fst_of_pair, mbind_reset; [assumption|]. intros s Hs.
      apply mbind_reset; [assumption | reflexivity].
    - apply fst_of_pair, mbind_reset; [assumption | reflexivity].
    - change ((fix fl (l : list field) : res (list string) :=
         match l with
         | [] => Ok []
         | f :: l' => do t <- pt (f_type f); do rest <- fl l'; Ok ((join ", " (f_names f) ++ " " ++ t)%string :: rest)
         end)) with pt_fields.
      apply fst_of_pair, mbind_reset; [now apply HF|]. intros s Hs.
      apply mbind_reset; [|reflexivity]. destruct rs as [l|]; [|reflexivity]. apply HF. auto.
    - change ((fix fl (l : list field) : res (list string) :=
         match l with
         | [] => Ok []
         | f :: l' => do t <- pt (f_type f); do rest <- fl l'; Ok ((join ", " (f_names f) ++ " " ++ t)%string :: rest)
         end)) with pt_fields.
      apply fst_of_pair, mbind_reset; [now apply HF | reflexivity].
    - apply fprint_m_empty.
    - apply fst_of_pair, mbind_reset; [assumption|]. intros s Hs.
      apply mbind_reset; [assumption | reflexivity].
    - apply fst_of_pair, mbind_reset; [assumption|]. intros s Hs.
      apply mbind_reset; [|reflexivity].
      change ((fix go (l : list expr) : res (list string) :=
         match l with
         | [] => Ok []
         | y :: l' => do g <- pt y; do rest <- go l'; Ok (g :: rest)
         end)) with pt_list.
      match goal with H : Forall _ _ |- _ => induction H as [|y l' Hy _ IH] end; [reflexivity|].
      cbn [pt_list]. apply mbind_reset; [exact Hy|]. intros g Hg.
      apply mbind_reset; [exact IH | reflexivity].
    - apply fprint_m_empty.
    - apply fprint_m_empty.
    - apply fprint_m_empty.
    - apply fprint_m_empty.
    - apply fprint_m_empty.
  Qed.

  Lemma PrintType_pt e : PrintType O types prefix e = pt e.
  Proof. unfold PrintType. now rewrite printType_pt. Qed.

  Lemma pt_Func ps rs : pt (FuncT ps rs) =
    (do params <- pt_fields ps;
     do results <- match rs with None => Ok [] | Some l => pt_fields l end;
     Ok ("func(" ++ join ", " params ++ ") (" ++ join ", " results ++ ")")%string).
  Proof. reflexivity. Qed.
  Lemma pt_Struct fs : pt (StructT fs) =
    (do fields <- pt_fields fs;
     Ok ("struct{" ++ String "010" (join (String "010" "") fields ++ String "010" "}"))%string).
  Proof. reflexivity. Qed.
  Lemma pt_IndexList x l : pt (IndexListE x l) =
    (do t <- pt x; do gs <- pt_list l; Ok (t ++ "[" ++ generic_list_tail gs)%string).
  Proof. reflexivity. Qed.
End Pure.

(** ** Specification of qualification (C08) *)

Section Qualify.
  Variable local : string -> bool.   (* is it a type of the source package? *)
  Variable prefix : string.

  (** Replace every source-package identifier in type position by
      [prefix.name]; array lengths and already qualified names are not type
      positions. *)
  Fixpoint qualify (e : expr) : expr :=
    let fields := map (fun f => match f with Field d c ns t tag => Field d c ns (qualify t) tag end) in
    match e with
    | Ident n => if local n then Selector (Ident prefix) n else Ident n
    | Star x => Star (qualify x)
    | Ellipsis x => Ellipsis (qualify x)
    | ArrayT l x => ArrayT l (qualify x)
    | MapT k v => MapT (qualify k) (qualify v)
    | ChanT d v => ChanT d (qualify v)
    | FuncT ps rs => FuncT (fields ps) (option_map fields rs)
    | StructT fs => StructT (fields fs)
    | IndexE x i => IndexE (qualify x) (qualify i)
    | IndexListE x l => IndexListE (qualify x) (map qualify l)
    | e => e
    end.
End Qualify.

(** The shapes C08 talks about. *)
Fixpoint type_shape (e : expr) : bool :=
  let fields := fix go (l : list field) : bool :=
    match l with [] => true | f :: l' => type_shape (f_type f) && go l' end in
  match e with
  | Ident _ => true
  | Selector (Ident _) _ => true
  | Star x | Ellipsis x => type_shape x
  | ArrayT None x => type_shape x
  | ArrayT (Some (BasicLit _)) x => type_shape x
  | MapT k v => type_shape k && type_shape v
  | ChanT _ v => type_shape v
  | FuncT ps rs => fields ps && match rs with None => true | Some l => fields l end
  | StructT fs => fields fs
  | IndexE x i => type_shape x && type_shape i
  | IndexListE x l =>
      type_shape x && (fix go (l : list expr) : bool := match l with [] => true | y :: l' => type_shape y && go l' end) l
  | _ => false
  end.

(** Identifiers in type position, in reading order. *)
Fixpoint type_refs (e : expr) : list string :=
  let fields := fix go (l : list field) : list string :=
    match l with [] => [] | f :: l' => type_refs (f_type f) ++ go l' end in
  match e with
  | Ident n => [n]
  | Star x | Ellipsis x | ArrayT _ x | ChanT _ x => type_refs x
  | MapT k v => type_refs k ++ type_refs v
  | FuncT ps rs => fields ps ++ match rs with None => [] | Some l => fields l end
  | StructT fs => fields fs
  | IndexE x i => type_refs x ++ type_refs i
  | IndexListE x l =>
      type_refs x ++ (fix go (l : list expr) : list string := match l with [] => [] | y :: l' => type_refs y ++ go l' end) l
  | _ => []
  end.

Definition refs_fields (l : list field) : list string := flat_map (fun f => type_refs (f_type f)) l.

Definition is_local (types : list typespec) (n : string) : bool :=
  existsb (fun t => String.eqb n (ts_name t)) types.

Definition qfield (local : string -> bool) (prefix : string) (f : field) : field :=
  match f with Field d c ns t tag => Field d c ns (qualify local prefix t) tag end.

Section C08.
  Variable O : oracle.
  Variable types : list typespec.
  Variable prefix : string.

  Definition exported (n : string) : Prop := looks_unexported (o_lower O) n = Ok false.
  Definition unexported (n : string) : Prop := looks_unexported (o_lower O) n = Ok true.

  Definition all_exported (l : list string) : Prop :=
    forall n, In n l -> is_local types n = true -> exported n.

  Lemma all_exported_app l l' : all_exported (l ++ l') <-> all_exported l /\ all_exported l'.
  Proof.
    unfold all_exported. split.
    - intros H. split; intros n Hn; apply H; rewrite in_app_iff; auto.
    - intros (H1 & H2) n Hn. rewrite in_app_iff in Hn. destruct Hn; auto.
  Qed.

  Lemma type_refs_fields l :
    (fix go (l : list field) : list string :=
       match l with [] => [] | f :: l' => type_refs (f_type f) ++ go l' end) l = refs_fields l.
  Proof. induction l as [|f l IH]; [reflexivity|]. unfold refs_fields in *. cbn. now rewrite IH. Qed.

  Definition shape_fields (l : list field) : bool := forallb (fun f => type_shape (f_type f)) l.
  Lemma type_shape_fields l :
    (fix go (l : list field) : bool :=
       match l with [] => true | f :: l' => type_shape (f_type f) && go l' end) l = shape_fields l.
  Proof. induction l as [|f l IH]; [reflexivity|]. unfold shape_fields in *. cbn. now rewrite IH. Qed.

  Lemma ident_res_exported n :
    prefix <> "" -> (is_local types n = true -> exported n) ->
    ident_res O types prefix n = pt O [] "" (qualify (is_local types) prefix (Ident n)).
  Proof.
    intros Hp He. unfold ident_res. cbn [qualify]. fold (is_local types n).
    destruct (is_local types n); [|reflexivity].
    destruct (String.eqb_spec prefix ""); [contradiction|].
    rewrite (He eq_refl). reflexivity.
  Qed.

  Theorem print_qualified : forall e,
    prefix <> "" -> type_shape e = true -> all_exported (type_refs e) ->
    pt O types prefix e = pt O [] "" (qualify (is_local types) prefix e).
  Proof.
    intros e Hp. revert e.
    set (q := qualify (is_local types) prefix).
    set (P := fun e => type_shape e = true -> all_exported (type_refs e) ->
                pt O types prefix e = pt O [] "" (q e)).
    assert (HF : forall l, Forall (Pf P) l -> shape_fields l = true -> all_exported (refs_fields l) ->
       pt_fields O types prefix l = pt_fields O [] "" (map (qfield (is_local types) prefix) l)).
    { induction 1 as [|f l Hf _ IH]; intros Hs He; [reflexivity|].
      cbn [shape_fields forallb] in Hs. apply andb_true_iff in Hs. destruct Hs as (Hs1 & Hs2).
      cbn [refs_fields flat_map] in He. apply all_exported_app in He. destruct He as (He1 & He2).
      cbn [pt_fields map]. rewrite (Hf Hs1 He1), (IH Hs2 He2). destruct f as [d c ns t tag]. reflexivity. }
    apply (expr_ind' P); unfold P; intros; cbn [type_shape] in *; try discriminate.
    - apply ident_res_exported; [exact Hp|]. intros Hl. apply H0; [now left | exact Hl].
    - destruct x; try discriminate. reflexivity.
    - cbn [type_refs q qualify pt] in *. now rewrite H.
    - cbn [type_refs q qualify pt] in *. now rewrite H.
    - cbn [type_refs q qualify pt] in *. destruct l as [[]|]; try discriminate; now rewrite H0.
    - cbn [type_refs] in *. apply andb_true_iff in H1. destruct H1 as (A & B).
      apply all_exported_app in H2. destruct H2 as (C & D).
      cbn [q qualify pt] in *. now rewrite H, H0.
    - cbn [type_refs q qualify pt] in *. now rewrite H.
    - cbn [type_refs] in *. rewrite type_shape_fields in H1. apply andb_true_iff in H1. destruct H1 as (A & B).
      rewrite type_refs_fields in H2. apply all_exported_app in H2. destruct H2 as (C & D).
      rewrite pt_Func. unfold q. cbn [qualify]. rewrite pt_Func.
      rewrite (HF _ H A C). fold (qfield (is_local types) prefix).
      destruct rs as [l|]; cbn [option_map]; [|reflexivity].
      rewrite type_shape_fields in B. rewrite type_refs_fields in D.
      rewrite (HF l (H0 l eq_refl) B D). reflexivity.
    - cbn [type_refs] in *. rewrite type_shape_fields in H0. rewrite type_refs_fields in H1.
      rewrite pt_Struct. unfold q. cbn [qualify]. rewrite pt_Struct. rewrite (HF _ H H0 H1). reflexivity.
    - cbn [type_refs] in *. apply andb_true_iff in H1. destruct H1 as (A & B).
      apply all_exported_app in H2. destruct H2 as (C & D).
      cbn [q qualify pt] in *. now rewrite H, H0.
    - cbn [type_refs] in *. apply andb_true_iff in H1. destruct H1 as (A & B).
      apply all_exported_app in H2. destruct H2 as (C & D).
      rewrite pt_IndexList. unfold q. cbn [qualify]. rewrite pt_IndexList.
      rewrite (H A C). unfold q.
      assert (E : pt_list O types prefix l = pt_list O [] "" (map (qualify (is_local types) prefix) l)).
      { clear -H0 B D. induction H0 as [|y l Hy _ IH]; [reflexivity|].
        apply andb_true_iff in B. destruct B as (B1 & B2). apply all_exported_app in D. destruct D as (D1 & D2).
        cbn [pt_list map]. rewrite (Hy B1 D1), (IH B2 D2). reflexivity. }
      now rewrite E.
  Qed.
End C08.

(** ** The exported-name test *)

Lemma encode_rune_nonempty r : encode_rune r <> "".
Proof.
  unfold encode_rune. repeat match goal with |- context [if ?b then _ else _] => destruct b end; discriminate.
Qed.

Lemma join_nil_cons x l : join "" (x :: l) = (x ++ join "" l)%string.
Proof. destruct l; cbn; [now rewrite sapp_nil_r | reflexivity]. Qed.

Lemma go_lower_nonempty u s : s <> "" -> go_lower u s <> "".
Proof.
  intros H. unfold go_lower. destruct s as [|c s]; [contradiction|].
  pose proof (runes_nonempty c s) as R. destruct (runes (String c s)) as [|r l]; [contradiction|].
  cbn [map]. rewrite join_nil_cons. pose proof (encode_rune_nonempty (rune_lower u r)).
  destruct (encode_rune (rune_lower u r)); [contradiction | discriminate].
Qed.

Lemma rune0_ok s : s <> "" -> exists r, rune0 s = Ok r.
Proof.
  intros H. unfold rune0. destruct s as [|c s]; [contradiction|].
  pose proof (runes_nonempty c s). destruct (runes (String c s)) as [|r l]; [contradiction|]. eauto.
Qed.

Lemma looks_unexported_total u n : n <> "" -> exists b, looks_unexported u n = Ok b.
Proof.
  intros H. unfold looks_unexported.
  destruct (rune0_ok n H) as (a & ->). cbn.
  destruct (rune0_ok (go_lower u n) (go_lower_nonempty u n H)) as (b & ->). cbn. eauto.
Qed.

(** For a name starting with an ASCII byte the test is "is not upper case". *)
Lemma rune0_ascii c s : (byte c < 128)%N -> rune0 (String c s) = Ok (byte c).
Proof. intros H. unfold rune0. now rewrite runes_cons_ascii. Qed.

Lemma looks_unexported_ascii u c s :
  (byte c < 128)%N -> looks_unexported u (String c s) = Ok (negb (is_upper_ascii (byte c))).
Proof.
  intros H. unfold looks_unexported. rewrite rune0_ascii by exact H. cbn [rbind].
  unfold go_lower. rewrite runes_cons_ascii by exact H. cbn [map]. rewrite join_nil_cons.
  unfold rune_lower at 1. pose proof (proj2 (N.ltb_lt _ _) H) as Hb. rewrite Hb.
  set (l := if is_upper_ascii (byte c) then (byte c + 32)%N else byte c).
  assert (Hl : (l < 128)%N).
  { unfold l. destruct (is_upper_ascii (byte c)) eqn:E; [|exact H].
    unfold is_upper_ascii, in_range in E. apply andb_true_iff in E. destruct E as (_ & E).
    apply N.leb_le in E. lia. }
  unfold encode_rune at 1. pose proof (proj2 (N.ltb_lt _ _) Hl) as Hlb. rewrite Hlb.
  unfold str1. cbn [String.append].
  rewrite rune0_ascii by (rewrite byte_of_N; lia). cbn [rbind]. f_equal.
  rewrite byte_of_N by lia. unfold l. destruct (is_upper_ascii (byte c)); cbn [negb].
  - apply N.eqb_neq. lia.
  - apply N.eqb_refl.
Qed.

(** ** Failures: exactly the unexported references (C08) *)

Section C08fail.
  Variable O : oracle.
  Variable types : list typespec.
  Variable prefix : string.

  Definition bad (n : string) : Prop := is_local types n = true /\ unexported O n.

  (** Outcome of a print: fine and every reference fine, or the error of some
      bad reference. *)
  Definition outcome {A} (r : res A) (refs : list string) : Prop :=
    (exists a, r = Ok a) /\ all_exported O types refs \/
    exists n, In n refs /\ bad n /\ r = Err (Wrapped n errUnexportedType).

  Lemma outcome_ret {A} (a : A) : outcome (Ok a) [].
  Proof. left. split; [eauto | intros n []]. Qed.

  Lemma outcome_bind {A B} (r : res A) (k : A -> res B) l l' :
    outcome r l -> (forall a, r = Ok a -> outcome (k a) l') -> outcome (rbind r k) (l ++ l').
  Proof.
    intros [((a & ->) & H)|(n & Hn & Hb & ->)] Hk; cbn.
    - destruct (Hk a eq_refl) as [((b & ->) & H')|(n & Hn & Hb & ->)].
      + left. split; [eauto|]. apply all_exported_app. auto.
      + right. exists n. rewrite in_app_iff. auto.
    - right. exists n. rewrite in_app_iff. auto.
  Qed.

  Lemma outcome_map {A B} (r : res A) (k : A -> B) l :
    outcome r l -> outcome (rbind r (fun a => Ok (k a))) l.
  Proof.
    intros H. rewrite <- (app_nil_r l). apply outcome_bind; [exact H|]. intros; apply outcome_ret.
  Qed.

  Lemma print_outcome : forall e,
    prefix <> "" -> Forall (fun t => ts_name t <> "") types -> type_shape e = true ->
    outcome (pt O types prefix e) (type_refs e).
  Proof.
    intros e Hp Ht. revert e.
    set (P := fun e => type_shape e = true -> outcome (pt O types prefix e) (type_refs e)).
    assert (HF : forall l, Forall (Pf P) l -> shape_fields l = true ->
       outcome (pt_fields O types prefix l) (refs_fields l)).
    { induction 1 as [|f l Hf _ IH]; intros Hs; [apply outcome_ret|].
      cbn [shape_fields forallb] in Hs. apply andb_true_iff in Hs. destruct Hs as (Hs1 & Hs2).
      cbn [refs_fields flat_map pt_fields]. apply outcome_bind; [exact (Hf Hs1)|].
      intros. apply outcome_map. exact (IH Hs2). }
    apply (expr_ind' P); unfold P; intros; cbn [type_shape] in *; try discriminate; cbn [type_refs].
    - cbn [pt]. unfold ident_res. fold (is_local types n). destruct (is_local types n) eqn:E.
      + destruct (String.eqb_spec prefix ""); [contradiction|].
        assert (Hn : n <> "").
        { unfold is_local in E. apply existsb_exists in E. destruct E as (t & Hin & E).
          apply String.eqb_eq in E. subst. eapply Forall_forall in Ht; eauto. }
        destruct (looks_unexported_total (o_lower O) n Hn) as ([] & Hb); rewrite Hb.
        * right. exists n. split; [now left|]. split; [split; [exact E | exact Hb] | reflexivity].
        * left. split; [eauto|]. intros m [<-|[]] _. exact Hb.
      + left. split; [eauto|]. intros m [<-|[]] Hm. congruence.
    - destruct x; try discriminate. left. split; [eexists; reflexivity | intros m []].
    - cbn [pt]. apply outcome_map. auto.
    - cbn [pt]. apply outcome_map. auto.
    - cbn [pt]. rewrite <- (app_nil_r (type_refs x)). apply outcome_bind.
      + apply H0. destruct l as [[]|]; try discriminate; assumption.
      + intros s _. destruct l as [[]|]; try discriminate; apply outcome_ret.
    - cbn [pt]. apply andb_true_iff in H1. destruct H1. apply outcome_bind; [auto|].
      intros. apply outcome_map. auto.
    - cbn [pt]. apply outcome_map. auto.
    - rewrite pt_Func, type_refs_fields. rewrite type_shape_fields in H1.
      apply andb_true_iff in H1. destruct H1 as (A & B). apply outcome_bind; [now apply HF|].
      intros. apply outcome_map. destruct rs as [l|]; [|apply outcome_ret].
      rewrite type_shape_fields in B. rewrite type_refs_fields. apply HF; auto.
    - rewrite pt_Struct, type_refs_fields. rewrite type_shape_fields in H0. apply outcome_map. now apply HF.
    - cbn [pt]. apply andb_true_iff in H1. destruct H1. apply outcome_bind; [auto|].
      intros. apply outcome_map. auto.
    - rewrite pt_IndexList. apply andb_true_iff in H1. destruct H1 as (A & B).
      apply outcome_bind; [auto|]. intros. apply outcome_map. clear -H0 B.
      induction H0 as [|y l Hy _ IH]; [apply outcome_ret|].
      apply andb_true_iff in B. destruct B as (B1 & B2). cbn [pt_list].
      apply outcome_bind; [now apply Hy|]. intros. apply outcome_map. now apply IH.
  Qed.
End C08fail.

(** Same package: nothing is changed, for every expression. *)
Theorem print_same_package O types : forall e, pt O types "" e = pt O [] "" e.
Proof.
  set (P := fun e => pt O types "" e = pt O [] "" e).
  assert (HF : forall l, Forall (Pf P) l -> pt_fields O types "" l = pt_fields O [] "" l).
  { induction 1 as [|f l Hf _ IH]; [reflexivity|]. cbn [pt_fields]. now rewrite Hf, IH. }
  apply (expr_ind' P); unfold P; intros; try reflexivity.
  - cbn [pt]. unfold ident_res. cbn. now destruct (existsb _ _).
  - cbn [pt]. now rewrite H.
  - cbn [pt]. now rewrite H.
  - cbn [pt]. now rewrite H0.
  - cbn [pt]. now rewrite H, H0.
  - cbn [pt]. now rewrite H.
  - rewrite !pt_Func, (HF _ H). destruct rs as [l|]; [|reflexivity]. now rewrite (HF l (H0 l eq_refl)).
  - rewrite !pt_Struct. now rewrite (HF _ H).
  - cbn [pt]. now rewrite H, H0.
  - rewrite !pt_IndexList, H.
    assert (E : pt_list O types "" l = pt_list O [] "" l)
      by (clear -H0; induction H0 as [|y l Hy _ IH]; [reflexivity | cbn [pt_list]; now rewrite Hy, IH]).
    now rewrite E.
Qed.
