(** What PrintType prints reads back as the type (proofs for C09). *)
From Verif Require Export TypeGrammar PrinterProofs.
Open Scope nat_scope.

(** ** The types considered *)

(** an identifier: not empty, no operator characters, not a keyword or number *)
Definition name (s : string) : bool := negb (String.eqb s "") && all_chars wordc s && name_like s.
Definition lit (s : string) : bool := all_chars wordc s && number s.

Definition base (e : expr) : bool :=
  match e with Ident n => name n | Selector (Ident p) s => name p && name s | _ => false end.
Definition plain_len (e : expr) : bool := match e with BasicLit s => lit s | e => base e end.
Definition recv_chan (e : expr) : bool := match e with ChanT RecvOnly _ => true | _ => false end.
Definition has_names (f : field) : bool := negb (match f_names f with [] => true | _ => false end).
Definition uniform (l : list field) : bool := forallb has_names l || forallb (fun f => negb (has_names f)) l.

Fixpoint plain (e : expr) : bool :=
  match e with
  | Ident _ | Selector _ _ => base e
  | Star x => plain x
  | ArrayT None x => plain x
  | ArrayT (Some l) x => plain_len l && plain x
  | MapT k v => plain k && plain v
  | ChanT d v => plain v && negb (match d with SendRecv => recv_chan v | _ => false end)
  | FuncT ps rs =>
      uniform ps
      && forallb (fun f => forallb name (f_names f) &&
                           match f_type f with Ellipsis x => plain x | _ => plain (f_type f) end) ps
      && match rs with
         | None => true
         | Some l => uniform l && forallb (fun f => forallb name (f_names f) && plain (f_type f)) l
         end
  | StructT fs => forallb (fun f => forallb name (f_names f) && plain (f_type f)) fs
  | InterfaceT None | InterfaceT (Some []) => true
  | IndexE x i => base x && plain i
  | IndexListE x l => base x && (2 <=? length l) && forallb plain l
  | _ => false
  end.

(** the type without what is no part of a type: comments, tags, and the
    difference between no results and an empty list of results *)
Fixpoint norm (e : expr) : expr :=
  let nf := map (fun f => mkfield (f_names f) (norm (f_type f))) in
  match e with
  | Star x => Star (norm x)
  | Ellipsis x => Ellipsis (norm x)
  | ArrayT l x => ArrayT l (norm x)
  | MapT k v => MapT (norm k) (norm v)
  | ChanT d v => ChanT d (norm v)
  | FuncT ps rs => FuncT (nf ps) (Some (match rs with None => [] | Some l => nf l end))
  | StructT fs => StructT (nf fs)
  | InterfaceT _ => InterfaceT (Some [])
  | IndexE x i => IndexE x (norm i)
  | IndexListE x l => IndexListE x (map norm l)
  | e => e
  end.

(** ** Expected tokens *)

Fixpoint commas (l : list (list tok)) : list tok :=
  match l with [] => [] | [x] => x | x :: l' => x ++ Sym "," :: commas l' end.
Fixpoint items (ns : list string) (t : list tok) : list (list tok) :=
  match ns with [] => [t] | [n] => [Word n :: t] | n :: ns' => [Word n] :: items ns' t end.
Definition btoks (e : expr) : list tok :=
  match e with
  | Ident n => [Word n]
  | Selector (Ident p) s => [Word p; Sym "."; Word s]
  | BasicLit s => [Word s]
  | _ => []
  end.

Fixpoint ttoks (e : expr) : list tok :=
  match e with
  | Star x => Sym "*" :: ttoks x
  | Ellipsis x => Sym "..." :: ttoks x
  | ArrayT None x => Sym "[" :: Sym "]" :: ttoks x
  | ArrayT (Some l) x => Sym "[" :: btoks l ++ Sym "]" :: ttoks x
  | MapT k v => Word "map" :: Sym "[" :: ttoks k ++ Sym "]" :: ttoks v
  | ChanT SendRecv v => Word "chan" :: ttoks v
  | ChanT SendOnly v => Word "chan" :: Sym "<-" :: ttoks v
  | ChanT RecvOnly v => Sym "<-" :: Word "chan" :: ttoks v
  | FuncT ps rs =>
      Word "func" :: Sym "(" :: commas (flat_map (fun f => items (f_names f) (ttoks (f_type f))) ps)
      ++ Sym ")" :: Sym "("
      :: match rs with
         | None => []
         | Some l => commas (flat_map (fun f => items (f_names f) (ttoks (f_type f))) l)
         end ++ [Sym ")"]
  | StructT fs =>
      Word "struct" :: Sym "{" :: flat_map (fun f => commas (items (f_names f) (ttoks (f_type f))) ++ [Semi]) fs ++ [Sym "}"]
  | InterfaceT _ => [Word "interface"; Sym "{"; Sym "}"]
  | IndexE x i => btoks x ++ Sym "[" :: ttoks i ++ [Sym "]"]
  | IndexListE x l => btoks x ++ Sym "[" :: commas (map ttoks l) ++ [Sym "]"]
  | e => btoks e
  end.

(** ** Lexing *)

Definition bnd (s : string) : Prop := match s with "" => True | String c _ => wordc c = false end.

Lemma lex_word : forall s w can rest, all_chars wordc s = true -> bnd rest -> (w ++ s)%string <> "" ->
  lex w can (s ++ rest) = Word (w ++ s) :: lex "" true rest.
Proof.
  induction s as [|c s IH]; intros w can rest H B N.
  - rewrite sapp_nil_r in *. cbn [append]. assert (F : flush w = [Word w]) by (destruct w; [congruence | reflexivity]).
    destruct rest as [|c rest]; cbn [lex flush]; [now rewrite F|]. cbn [bnd] in B. rewrite B, F.
    destruct w; [congruence | reflexivity].
  - cbn [all_chars] in H. apply andb_prop in H as [Hc Hs]. cbn [append lex]. rewrite Hc.
    rewrite IH; [|assumption|assumption|]; rewrite sapp_assoc; [reflexivity|]. destruct w; discriminate.
Qed.

Lemma name_chars : forall s, name s = true -> all_chars wordc s = true /\ s <> "" /\ name_like s = true.
Proof.
  intros s H. unfold name in H. rewrite !andb_true_iff, negb_true_iff in H. destruct H as ((H1 & H2) & H3).
  repeat split; try assumption. intros ->. discriminate.
Qed.

Lemma lex_name : forall s can rest, name s = true -> bnd rest -> lex "" can (s ++ rest) = Word s :: lex "" true rest.
Proof. intros s can rest H B. destruct (name_chars s H) as (H1 & H2 & _). now rewrite (lex_word s "" can rest H1 B). Qed.

Definition lexes (s : string) (ts : list tok) : Prop :=
  forall can rest, bnd rest -> lex "" can (s ++ rest) = ts ++ lex "" true rest.

Lemma lexes_name : forall s, name s = true -> lexes s [Word s].
Proof. intros s H can rest B. now apply lex_name. Qed.
Lemma lexes_lit : forall s, lit s = true -> lexes s [Word s].
Proof.
  intros s H can rest B. unfold lit in H. apply andb_prop in H as [H1 H2].
  rewrite (lex_word s "" can rest H1 B); [reflexivity|]. intros E. cbn in E. now subst.
Qed.
Lemma lex_dot : forall s can, (exists c s', s = String c s' /\ wordc c = true) -> lex "" can ("." ++ s) = Sym "." :: lex "" false s.
Proof.
  intros s can (c & s' & -> & Hc). destruct c as [[] [] [] [] [] [] [] []]; try reflexivity. discriminate Hc.
Qed.
Lemma lexes_select : forall p sel, name p = true -> name sel = true -> lexes (p ++ "." ++ sel) [Word p; Sym "."; Word sel].
Proof.
  intros p sel H1 H2 can rest B. rewrite !sapp_assoc, (lex_name _ can _ H1) by reflexivity.
  rewrite lex_dot.
  - now rewrite (lex_name sel false rest H2 B).
  - destruct (name_chars sel H2) as (H3 & H4 & _). destruct sel as [|c sel]; [congruence|].
    cbn [all_chars] in H3. apply andb_prop in H3 as [Hc _]. now exists c, (sel ++ rest)%string.
Qed.

Lemma lexes_field : forall ns t tt, forallb name ns = true -> lexes t tt ->
  lexes (join ", " ns ++ " " ++ t) (commas (items ns tt)).
Proof.
  intros ns t tt Hn Ht. induction ns as [|n ns IH].
  - intros can rest B. exact (Ht can rest B).
  - cbn [forallb] in Hn. apply andb_prop in Hn as [H1 H2]. intros can rest B. destruct ns as [|m ns].
    + change (join ", " [n]) with n. change (commas (items [n] tt)) with (Word n :: tt). rewrite !sapp_assoc, (lex_name n can _ H1) by reflexivity.
      change (lex "" true (" " ++ t ++ rest)) with (lex "" true (t ++ rest)). now rewrite (Ht true rest B).
    + replace (join ", " (n :: m :: ns)) with (n ++ ", " ++ join ", " (m :: ns))%string by reflexivity.
      rewrite !sapp_assoc, (lex_name n can _ H1) by reflexivity.
      change (lex "" true (", " ++ join ", " (m :: ns) ++ " " ++ t ++ rest))
        with (Sym "," :: lex "" false (join ", " (m :: ns) ++ " " ++ t ++ rest)).
      specialize (IH H2 false rest B). rewrite !sapp_assoc in IH. rewrite IH.
      change (items (n :: m :: ns) tt) with ([Word n] :: items (m :: ns) tt).
      assert (N : items (m :: ns) tt <> []) by (destruct ns; discriminate).
      cbn [commas]. destruct (items (m :: ns) tt); [congruence | reflexivity].
Qed.

Lemma lex_join : forall l tl, Forall2 lexes l tl -> forall c, In c [")"%char; "]"%char] -> forall can rest,
  lex "" can (join ", " l ++ String c rest) = commas tl ++ Sym (String c "") :: lex "" true rest.
Proof.
  intros l tl H c Hc. induction H as [|s t l tl Hs Hl IH]; intros can rest.
  - destruct Hc as [<- | [<- | []]]; reflexivity.
  - assert (B : bnd (String c rest)) by (destruct Hc as [<- | [<- | []]]; reflexivity).
    destruct Hl as [|s' t' l tl Hs' Hl].
    + change (join ", " [s]) with s. change (commas [t]) with t. rewrite (Hs can _ B). f_equal. destruct Hc as [<- | [<- | []]]; reflexivity.
    + change (join ", " (s :: s' :: l)) with (s ++ ", " ++ join ", " (s' :: l))%string.
      rewrite !sapp_assoc, (Hs can) by reflexivity.
      change (lex "" true (", " ++ join ", " (s' :: l) ++ String c rest))
        with (Sym "," :: lex "" false (join ", " (s' :: l) ++ String c rest)).
      rewrite IH. change (commas (t :: t' :: tl)) with (t ++ Sym "," :: commas (t' :: tl)).
      now rewrite <- app_assoc.
Qed.

Lemma lex_lines : forall l tl, Forall2 lexes l tl -> forall rest,
  lex "" false (join (String "010" "") l ++ String "010" (String "}" rest))
  = flat_map (fun t => t ++ [Semi]) tl ++ Sym "}" :: lex "" true rest.
Proof.
  intros l tl H. induction H as [|s t l tl Hs Hl IH]; intros rest; [reflexivity|].
  destruct Hl as [|s' t' l tl Hs' Hl].
  - change (join (String "010" "") [s]) with s. cbn [flat_map]. rewrite (Hs false) by reflexivity. rewrite <- !app_assoc. reflexivity.
  - change (join (String "010" "") (s :: s' :: l)) with (s ++ String "010" "" ++ join (String "010" "") (s' :: l))%string.
    rewrite !sapp_assoc, (Hs false) by reflexivity.
    change (lex "" true (String "010" "" ++ join (String "010" "") (s' :: l) ++ String "010" (String "}" rest)))
      with (Semi :: lex "" false (join (String "010" "") (s' :: l) ++ String "010" (String "}" rest))).
    rewrite IH. cbn [flat_map]. rewrite <- !app_assoc. reflexivity.
Qed.

Lemma commas_cons : forall x l, l <> [] -> commas (x :: l) = x ++ Sym "," :: commas l.
Proof. intros x [|y l] H; [congruence | reflexivity]. Qed.
Lemma commas_app : forall l l', l <> [] -> l' <> [] -> commas (l ++ l') = commas l ++ Sym "," :: commas l'.
Proof.
  induction l as [|x l IH]; intros l' H H'; [congruence|]. destruct l as [|y l].
  - cbn [app]. now rewrite commas_cons.
  - change ((x :: y :: l) ++ l') with (x :: ((y :: l) ++ l')). rewrite commas_cons by discriminate.
    rewrite IH by (assumption || discriminate). rewrite (commas_cons x (y :: l)) by discriminate. now rewrite <- app_assoc.
Qed.
Lemma items_nonempty : forall ns t, items ns t <> [].
Proof. intros [|n [|m ns]] t; discriminate. Qed.
Lemma commas_flat : forall A (g : A -> list (list tok)), (forall x, g x <> []) ->
  forall l, commas (flat_map g l) = commas (map (fun x => commas (g x)) l).
Proof.
  intros A g Hg l. induction l as [|x l IH]; [reflexivity|]. cbn [flat_map map]. destruct l as [|y l].
  - cbn [flat_map map commas]. now rewrite app_nil_r.
  - rewrite commas_app; [|apply Hg|].
    + rewrite commas_cons by discriminate. now rewrite IH.
    + cbn [flat_map]. specialize (Hg y). destruct (g y); [congruence | discriminate].
Qed.
Lemma tail_join : forall l, l <> [] -> generic_list_tail l = (join ", " l ++ "]")%string.
Proof.
  induction l as [|x l IH]; intros H; [congruence|]. destruct l as [|y l]; [reflexivity|].
  change (generic_list_tail (x :: y :: l)) with (x ++ ", " ++ generic_list_tail (y :: l))%string.
  change (join ", " (x :: y :: l)) with (x ++ ", " ++ join ", " (y :: l))%string.
  rewrite IH by discriminate. now rewrite !sapp_assoc.
Qed.

(** ** Printing and lexing *)

Section LEX.
  Variable O : oracle.
  Variable types : list typespec.
  Variable prefix : string.
  Hypothesis Hprefix : prefix = "" \/ name prefix = true.
  Hypothesis Hempty : forall ms, ms = None \/ ms = Some [] -> o_fprint O (InterfaceT ms) = ("interface{}", None).

  (** names that get the package's name in front *)
  Definition shown (n : string) : bool := negb (String.eqb prefix "") && is_local types n.
  Definition shows := qualify shown prefix.
  Definition pshow (e : expr) : bool := match e with Ellipsis x => plain x | _ => plain e end.

  Lemma lexes_ident : forall n s, name n = true -> ident_res O types prefix n = Ok s -> lexes s (ttoks (shows (Ident n))).
  Proof.
    intros n s Hn H. unfold ident_res in H. unfold shows, shown. cbn [qualify]. unfold is_local.
    destruct (existsb _ types); [|injection H as <-; rewrite andb_false_r; now apply lexes_name].
    destruct (String.eqb_spec prefix "") as [->|N]; cbn [negb andb]; [injection H as <-; now apply lexes_name|].
    destruct Hprefix as [->|Hp]; [congruence|].
    destruct (looks_unexported _ _) as [[]| |]; try discriminate. injection H as <-. now apply lexes_select.
  Qed.

  Lemma lexes_base : forall e s, base e = true -> pt O types prefix e = Ok s -> lexes s (btoks (shows e)) /\ base (shows e) = true.
  Proof.
    intros e s H E. destruct e as [n|x sel| | | | | | | | | | | | | | | ]; try discriminate.
    - cbn [base] in H. split.
      + pose proof (lexes_ident n s H E) as L. unfold shows in *. cbn [qualify] in *. destruct (shown n); exact L.
      + unfold shows. cbn [qualify]. destruct (shown n) eqn:S; [|exact H]. cbn [base]. rewrite H, andb_true_r.
        unfold shown in S. destruct Hprefix as [Hp|Hp]; [rewrite Hp in S; discriminate S | exact Hp].
    - destruct x; try discriminate. split; [|exact H]. cbn [base] in H. apply andb_prop in H as [H1 H2].
      cbn in E. injection E as <-. now apply lexes_select.
  Qed.
  Lemma lexes_len : forall e s, plain_len e = true -> fprint_res O e = Ok s -> lexes s (btoks e).
  Proof.
    intros e s H E. destruct e as [n|x sel| | | | | | | | | | | | | | |v]; try discriminate.
    - injection E as <-. now apply lexes_name.
    - cbn [plain_len base] in H. destruct x; try discriminate. apply andb_prop in H as [H1 H2]. injection E as <-. now apply lexes_select.
    - injection E as <-. now apply lexes_lit.
  Qed.

  Lemma lexes_pre : forall p pt s ts,
    (forall can r, lex "" can (p ++ r) = pt ++ lex "" false r) -> lexes s ts -> lexes (p ++ s) (pt ++ ts).
  Proof. intros p q s ts Hp Hs can rest B. rewrite sapp_assoc, Hp, (Hs false rest B). apply app_assoc. Qed.

  Lemma qfields_eq : forall l, map (fun f => match f with Field d c ns t tag => Field d c ns (qualify shown prefix t) tag end) l
    = map (qfield shown prefix) l.
  Proof. reflexivity. Qed.

  Definition Lx (e : expr) : Prop := pshow e = true -> forall s, pt O types prefix e = Ok s -> lexes s (ttoks (shows e)).

  Lemma lexes_fields : forall l, Forall (Pf Lx) l ->
    forallb (fun f => forallb name (f_names f) && pshow (f_type f)) l = true ->
    forall ss, pt_fields O types prefix l = Ok ss ->
    Forall2 lexes ss (map (fun f => commas (items (f_names f) (ttoks (f_type f)))) (map (qfield shown prefix) l)).
  Proof.
    induction 1 as [|f l Hf _ IH]; intros Hp ss E.
    - injection E as <-. constructor.
    - cbn [forallb] in Hp. rewrite !andb_true_iff in Hp. destruct Hp as ((Hn & Ht) & Hl).
      cbn [pt_fields] in E. destruct (pt O types prefix (f_type f)) as [t| |] eqn:Et; try discriminate. cbn [rbind] in E.
      destruct (pt_fields O types prefix l) as [rest| |] eqn:El; try discriminate. cbn [rbind] in E. injection E as <-.
      cbn [map]. constructor; [|exact (IH Hl rest eq_refl)].
      destruct f as [d c ns ty tag]. apply lexes_field; [exact Hn | exact (Hf Ht t Et)].
  Qed.

  Lemma plain_pshow : forall e, plain e = true -> pshow e = true.
  Proof. intros []; intros; try assumption. discriminate. Qed.
  Lemma fields_pshow : forall l, forallb (fun f => forallb name (f_names f) && plain (f_type f)) l = true ->
    forallb (fun f => forallb name (f_names f) && pshow (f_type f)) l = true.
  Proof.
    induction l as [|f l IH]; [reflexivity|]. cbn [forallb]. rewrite !andb_true_iff. intros ((H1 & H2) & H3).
    repeat split; [assumption | now apply plain_pshow | now apply IH].
  Qed.

  Ltac flat := repeat (first [ rewrite sapp_assoc | progress (cbn [append]) ]).
  Ltac sub H x s E := destruct x as [s| |] eqn:E; cbn [rbind] in H; try discriminate H.

  Lemma lexes_all : forall e, Lx e.
  Proof.
    apply (expr_ind' Lx); unfold Lx; intros; try discriminate.
    - cbn [pshow plain base] in H. now apply lexes_ident.
    - cbn [pshow plain] in H0. destruct (lexes_base _ _ H0 H1) as [L _]. destruct x; try discriminate. exact L.
    - cbn [pt] in H1. sub H1 (pt O types prefix x) t E. injection H1 as <-.
      exact (lexes_pre "*" [Sym "*"] _ _ (fun _ _ => eq_refl) (H (plain_pshow x H0) t eq_refl)).
    - cbn [pt] in H1. sub H1 (pt O types prefix x) t E. injection H1 as <-.
      exact (lexes_pre "..." [Sym "..."] _ _ (fun _ _ => eq_refl) (H (plain_pshow x H0) t eq_refl)).
    - cbn [pshow plain] in H1. cbn [pt] in H2. sub H2 (pt O types prefix x) t E; destruct l as [l|].
      + apply andb_prop in H1 as [H3 H4]. cbn [len_res] in H2. sub H2 (fprint_res O l) n En. injection H2 as <-.
        intros can rest B. flat.
        change (lex "" can _) with (Sym "[" :: lex "" false (n ++ String "]" (t ++ rest))).
        rewrite (lexes_len _ _ H3 En) by reflexivity.
        change (lex "" true (String "]" (t ++ rest))) with (Sym "]" :: lex "" true (t ++ rest)).
        rewrite (H0 (plain_pshow _ H4) t eq_refl true rest B). unfold shows. cbn [qualify ttoks app]. rewrite <- app_assoc. reflexivity.
      + cbn [len_res rbind] in H2. injection H2 as <-.
        intros can rest B. flat.
        change (lex "" can _) with (Sym "[" :: Sym "]" :: lex "" true (t ++ rest)).
        rewrite (H0 (plain_pshow _ H1) t eq_refl true rest B). reflexivity.
    - cbn [pshow plain] in H1. apply andb_prop in H1 as [H3 H4]. cbn [pt] in H2.
      sub H2 (pt O types prefix k) a Ea. sub H2 (pt O types prefix v) b Eb. injection H2 as <-.
      intros can rest B. flat.
      change (lex "" can _) with (Word "map" :: Sym "[" :: lex "" false (a ++ String "]" (b ++ rest))).
      rewrite (H (plain_pshow _ H3) a eq_refl) by reflexivity.
      change (lex "" true (String "]" (b ++ rest))) with (Sym "]" :: lex "" true (b ++ rest)).
      rewrite (H0 (plain_pshow _ H4) b eq_refl true rest B). unfold shows. cbn [qualify ttoks app]. rewrite <- app_assoc. reflexivity.
    - cbn [pshow plain] in H0. apply andb_prop in H0 as [H3 H4]. cbn [pt] in H1. sub H1 (pt O types prefix v) t E. injection H1 as <-.
      pose proof (H (plain_pshow _ H3) t eq_refl) as L. destruct d.
      all: intros can rest B; flat; unfold shows; cbn [qualify ttoks app]; fold shows.
      + change (lex "" can _) with (Word "chan" :: lex "" true (t ++ rest)). now rewrite (L true rest B).
      + change (lex "" can _) with (Word "chan" :: Sym "<-" :: lex "" false (t ++ rest)). now rewrite (L false rest B).
      + change (lex "" can _) with (Sym "<-" :: Word "chan" :: lex "" true (t ++ rest)). now rewrite (L true rest B).
    - cbn [pshow plain] in H1. rewrite !andb_true_iff in H1. destruct H1 as ((_ & Hps) & Hrs).
      rewrite pt_Func in H2. sub H2 (pt_fields O types prefix ps) a Ea.
      pose proof (lexes_fields ps H Hps a Ea) as La.
      unfold shows. cbn [qualify ttoks]. rewrite qfields_eq. intros can rest B.
      destruct rs as [l|].
      + apply andb_prop in Hrs as [_ Hl]. sub H2 (pt_fields O types prefix l) b Eb. injection H2 as <-.
        pose proof (lexes_fields l (H0 l eq_refl) (fields_pshow _ Hl) b Eb) as Lb.
        cbn [option_map]. rewrite (qfields_eq l), !commas_flat by (intros; apply items_nonempty).
        flat.
        change (lex "" can _) with (Word "func" :: Sym "(" :: lex "" false (join ", " a ++ String ")" (String " " (String "(" (join ", " b ++ String ")" rest))))).
        rewrite (lex_join _ _ La ")"%char (or_introl eq_refl)).
        change (lex "" true (String " " _)) with (Sym "(" :: lex "" false (join ", " b ++ String ")" rest)).
        rewrite (lex_join _ _ Lb ")"%char (or_introl eq_refl)).
        cbn [app]. rewrite <- !app_assoc. cbn [app]. rewrite <- !app_assoc. reflexivity.
      + cbn [rbind] in H2. injection H2 as <-. cbn [option_map]. rewrite !commas_flat by (intros; apply items_nonempty). flat.
        change (lex "" can _) with (Word "func" :: Sym "(" :: lex "" false (join ", " a ++ String ")" (" ()" ++ rest))).
        rewrite (lex_join _ _ La ")"%char (or_introl eq_refl)).
        cbn [app]. rewrite <- !app_assoc. reflexivity.
    - cbn [pshow plain] in H0. rewrite pt_Struct in H1. sub H1 (pt_fields O types prefix fs) a Ea. injection H1 as <-.
      pose proof (lexes_fields fs H (fields_pshow _ H0) a Ea) as La.
      unfold shows. cbn [qualify ttoks]. rewrite qfields_eq. intros can rest B.
      flat.
      change (lex "" can _) with (Word "struct" :: Sym "{" :: lex "" false (join (String "010" "") a ++ String "010" (String "}" rest))).
      rewrite (lex_lines _ _ La). cbn [app]. rewrite <- app_assoc. f_equal. f_equal. f_equal.
      rewrite !flat_map_concat_map, !map_map. reflexivity.
    - assert (E : ms = None \/ ms = Some []) by (destruct ms as [[|]|]; auto; discriminate).
      cbn in H1. unfold fprint_res, fprint in H1. rewrite (Hempty ms E) in H1. injection H1 as <-. intros can rest B. reflexivity.
    - cbn [pshow plain] in H1. apply andb_prop in H1 as [H3 H4]. cbn [pt] in H2. sub H2 (pt O types prefix x) a Ea.
      sub H2 (pt O types prefix i) b Eb. injection H2 as <-. destruct (lexes_base _ _ H3 Ea) as [L _].
      intros can rest B. flat; rewrite (L can) by reflexivity.
      change (lex "" true (String "[" _)) with (Sym "[" :: lex "" false (b ++ "]" ++ rest)).
      rewrite (H0 (plain_pshow _ H4) b eq_refl) by reflexivity. unfold shows. cbn [qualify ttoks]. rewrite <- !app_assoc. cbn [app].
      rewrite <- !app_assoc. reflexivity.
    - cbn [pshow plain] in H1. rewrite !andb_true_iff in H1. destruct H1 as ((H3 & H4) & H5). rewrite pt_IndexList in H2.
      sub H2 (pt O types prefix x) a Ea. sub H2 (pt_list O types prefix l) b Eb. injection H2 as <-. destruct (lexes_base _ _ H3 Ea) as [L _].
      assert (F : Forall2 lexes b (map ttoks (map shows l))).
      { clear H4. revert b Eb. induction H0 as [|y l Hy Hl IH]; intros b Eb; cbn [pt_list] in Eb; [injection Eb as <-; constructor|].
        cbn [forallb] in H5. apply andb_prop in H5 as [H5 H6].
        sub Eb (pt O types prefix y) g Eg. sub Eb (pt_list O types prefix l) gs Egs. injection Eb as <-.
        cbn [map]. constructor; [exact (Hy (plain_pshow _ H5) g eq_refl) | exact (IH H6 gs eq_refl)]. }
      assert (N : b <> []) by (intros ->; apply Forall2_length in F; rewrite !map_length in F; rewrite <- F in H4; discriminate H4).
      rewrite (tail_join b N). intros can rest B. flat; rewrite (L can) by reflexivity.
      change (lex "" true (String "[" _)) with (Sym "[" :: lex "" false (join ", " b ++ String "]" rest)).
      rewrite (lex_join _ _ F "]"%char (or_intror (or_introl eq_refl))). unfold shows. cbn [qualify ttoks].
      rewrite <- !app_assoc. cbn [app]. rewrite <- !app_assoc. reflexivity.
  Qed.
End LEX.

(** ** Parsing *)

(** enough fuel gives the result *)
Definition good {A} (p : nat -> option A) (v : A) : Prop := exists N, forall f, N <= f -> p f = Some v.

(** what may follow a type *)
Definition stops (ts : list tok) : Prop :=
  match ts with
  | [] | Semi :: _ => True
  | Sym s :: _ => In s [","; ")"; "]"; "}"]
  | _ => False
  end.

Lemma stops_eat : forall s ts, stops ts -> ~ In s [","; ")"; "]"; "}"] -> eat s ts = None.
Proof.
  intros s [|[w|y|] ts] H N; try reflexivity. cbn [eat stops] in *.
  destruct (String.eqb_spec s y) as [->|]; [contradiction | reflexivity].
Qed.
Lemma stops_starts : forall ts, stops ts -> starts_type ts = false.
Proof.
  intros [|[w|y|] ts] H; try reflexivity; [contradiction|]. cbn in H.
  destruct H as [<-|[<-|[<-|[<-|[]]]]]; reflexivity.
Qed.

(** the word an ordinary type starts with is a name or a keyword *)
Definition kinds : list string := ["func"; "map"; "chan"; "struct"; "interface"].
Definition begins (ts : list tok) : Prop :=
  match ts with
  | Word w :: _ => name w = true \/ In w kinds
  | Sym s :: _ => In s ["*"; "["; "<-"]
  | _ => False
  end.

Lemma begins_app : forall ts r, begins ts -> begins (ts ++ r).
Proof. intros [|t ts] r H; [contradiction | exact H]. Qed.
Lemma base_begins : forall e, base e = true -> begins (btoks e).
Proof.
  intros [] H; try discriminate; cbn [base] in H; [now left|].
  destruct x; try discriminate. apply andb_prop in H. now left.
Qed.
Lemma plain_begins : forall e, plain e = true -> begins (ttoks e).
Proof.
  intros e H. destruct e; try discriminate; cbn [plain ttoks] in *.
  - now apply base_begins.
  - now apply base_begins.
  - cbn. tauto.
  - destruct len; cbn; tauto.
  - right. cbn. tauto.
  - destruct dir; cbn; tauto.
  - right. cbn. tauto.
  - right. cbn. tauto.
  - right. cbn. tauto.
  - apply andb_prop in H as [H _]. apply begins_app, base_begins, H.
  - rewrite !andb_true_iff in H. apply begins_app, base_begins, H.
Qed.
Lemma begins_starts : forall ts, begins ts -> starts_type ts = true.
Proof.
  intros [|[w|y|] ts] H; try contradiction; cbn in H |- *.
  - destruct H as [H|H].
    + destruct (name_chars w H) as (_ & _ & ->). reflexivity.
    + destruct H as [<-|[<-|[<-|[<-|[<-|[]]]]]]; reflexivity.
  - destruct H as [<-|[<-|[<-|[]]]]; reflexivity.
Qed.
Lemma begins_eat : forall s ts, begins ts -> ~ In s ["*"; "["; "<-"] -> eat s ts = None.
Proof.
  intros s [|[w|y|] ts] H N; try reflexivity. cbn [eat begins] in *.
  destruct (String.eqb_spec s y) as [->|]; [contradiction | reflexivity].
Qed.

Lemma not_kind : forall w, name w = true -> forall k, In k kinds -> String.eqb w k = false.
Proof.
  intros w H k Hk. destruct (String.eqb_spec w k) as [->|]; [|reflexivity].
  destruct (name_chars k H) as (_ & _ & E). destruct Hk as [<-|[<-|[<-|[<-|[<-|[]]]]]]; discriminate E.
Qed.

Lemma ptype_name : forall f w r, name w = true ->
  ptype (S f) (Word w :: r) =
  let '(base, r) := qualified w r in
  match eat "[" r with
  | Some r => let? (args, r) := pargs f r in let? t := TypeGrammar.index base args in Some (t, r)
  | None => Some (base, r)
  end.
Proof.
  intros f w r H. cbn [ptype]. rewrite !(not_kind w H) by (cbn; tauto).
  destruct (name_chars w H) as (_ & _ & ->). reflexivity.
Qed.
Lemma begins_number : forall w r, begins (Word w :: r) -> number w = false.
Proof.
  intros w r [H|H].
  - destruct (name_chars w H) as (_ & _ & E). unfold name_like in E. apply andb_prop in E as [_ E]. now apply negb_true_iff.
  - destruct H as [<-|[<-|[<-|[<-|[<-|[]]]]]]; reflexivity.
Qed.

(** a reader that uses up its own tokens *)
Definition rd {A} (p : nat -> list tok -> option (A * list tok)) (ts : list tok) (v : A) : Prop :=
  forall rest, stops rest -> good (fun f => p f (ts ++ rest)) (v, rest).

Lemma parg_type : forall ts e, begins ts -> rd ptype ts e -> rd parg ts e.
Proof.
  intros ts e B H rest R. destruct (H rest R) as (N & HN). exists (S N). intros [|f] Hf; [lia|].
  cbn [parg]. apply (begins_app ts rest) in B. destruct (ts ++ rest) as [|[w|y|] l] eqn:E; try apply HN; try lia; try contradiction.
  rewrite (begins_number _ _ B). apply HN. lia.
Qed.
Lemma parg_len : forall e, plain_len e = true -> rd parg (btoks e) e.
Proof.
  intros e H rest R. exists 2. intros [|[|f]] Hf; try lia. destruct e as [n|x sel| | | | | | | | | | | | | | |v]; try discriminate; cbn [plain_len base btoks] in *; cbn [parg app].
  - rewrite (begins_number n [] (or_introl H)), ptype_name by exact H. unfold qualified.
    rewrite !stops_eat by (exact R || (cbn; intuition discriminate)). reflexivity.
  - destruct x as [n| | | | | | | | | | | | | | | | ]; try discriminate. apply andb_prop in H as [H1 H2].
    cbn [parg app]. rewrite (begins_number n [] (or_introl H1)), ptype_name by exact H1. unfold qualified. cbn [eat].
    replace (("." =? ".")%string) with true by reflexivity.
    rewrite !stops_eat by (exact R || (cbn; intuition discriminate)). reflexivity.
  - unfold lit in H. apply andb_prop in H as [_ ->]. reflexivity.
Qed.

Lemma pargs_all : forall l ts, l <> [] -> Forall2 (rd parg) ts l ->
  forall rest, good (fun f => pargs f (commas ts ++ Sym "]" :: rest)) (l, rest).
Proof.
  intros l ts N H. revert N. induction H as [|t e ts l He Hl IH]; intros N rest; [congruence|].
  destruct Hl as [|t' e' ts l He' Hl].
  - cbn [commas]. destruct (He (Sym "]" :: rest)) as (M & HM); [cbn; tauto|].
    exists (S M). intros [|f] Hf; [lia|]. cbn [pargs]. rewrite HM by lia. reflexivity.
  - change (commas (t :: t' :: ts)) with (t ++ Sym "," :: commas (t' :: ts)). rewrite <- app_assoc.
    destruct (He ((Sym "," :: commas (t' :: ts)) ++ Sym "]" :: rest)) as (M & HM); [cbn; tauto|].
    destruct (IH ltac:(discriminate) rest) as (M' & HM').
    exists (S (M + M')). intros [|f] Hf; [lia|]. cbn [pargs]. rewrite HM by lia.
    replace (eat "," _) with (Some (commas (t' :: ts) ++ Sym "]" :: rest)) by reflexivity. rewrite HM' by lia. reflexivity.
Qed.

Lemma pparams_all : forall ts es, Forall2 (rd pentry) ts es -> Forall (fun t => forall r, eat ")" (t ++ r) = None) ts ->
  forall rest, good (fun f => pparams f (commas ts ++ Sym ")" :: rest)) (es, rest).
Proof.
  intros ts es H. induction H as [|t e ts es He Hl IH]; intros F rest.
  - exists 1. intros [|f] Hf; [lia|]. reflexivity.
  - inversion F as [|? ? G F3]; subst.
    destruct Hl as [|t' e' ts es He' Hl].
    + cbn [commas]. destruct (He (Sym ")" :: rest)) as (M & HM); [cbn; tauto|].
      exists (S M). intros [|f] Hf; [lia|]. cbn [pparams]. rewrite G, HM by lia. reflexivity.
    + change (commas (t :: t' :: ts)) with (t ++ Sym "," :: commas (t' :: ts)). rewrite <- app_assoc.
      destruct (He ((Sym "," :: commas (t' :: ts)) ++ Sym ")" :: rest)) as (M & HM); [cbn; tauto|].
      destruct (IH F3 rest) as (M' & HM').
      exists (S (M + M')). intros [|f] Hf; [lia|]. cbn [pparams]. rewrite G, HM by lia.
      replace (eat "," _) with (Some (commas (t' :: ts) ++ Sym ")" :: rest)) by reflexivity. rewrite HM' by lia. reflexivity.
Qed.

Lemma pline_all : forall ts es, ts <> [] -> Forall2 (rd pentry) ts es ->
  forall rest, good (fun f => pline f (commas ts ++ Semi :: rest)) (es, Semi :: rest).
Proof.
  intros ts es N H. revert N. induction H as [|t e ts es He Hl IH]; intros N rest; [congruence|].
  destruct Hl as [|t' e' ts es He' Hl].
  - cbn [commas]. destruct (He (Semi :: rest)) as (M & HM); [exact I|].
    exists (S M). intros [|f] Hf; [lia|]. cbn [pline]. rewrite HM by lia. reflexivity.
  - change (commas (t :: t' :: ts)) with (t ++ Sym "," :: commas (t' :: ts)). rewrite <- app_assoc.
    destruct (He ((Sym "," :: commas (t' :: ts)) ++ Semi :: rest)) as (M & HM); [cbn; tauto|].
    destruct (IH ltac:(discriminate) rest) as (M' & HM').
    exists (S (M + M')). intros [|f] Hf; [lia|]. cbn [pline]. rewrite HM by lia.
    replace (eat "," _) with (Some (commas (t' :: ts) ++ Semi :: rest)) by reflexivity. rewrite HM' by lia. reflexivity.
Qed.

Lemma rd_named : forall n ts e, name n = true -> begins ts -> eat "[" ts = None -> rd ptype ts e -> rd pentry (Word n :: ts) (ENamed n e).
Proof.
  intros n ts e Hn B Hb H rest R. destruct (H rest R) as (N & HN). exists (S N). intros [|f] Hf; [lia|]. cbn [app pentry].
  replace (eat "..." (Word n :: ts ++ rest)) with (@None (list tok)) by reflexivity.
  destruct (name_chars n Hn) as (_ & _ & ->).
  assert (Eb : eat "[" (ts ++ rest) = None).
  { destruct ts as [|[w|y|] ts]; try contradiction; try reflexivity. cbn [eat app] in *. destruct (String.eqb "[" y); [discriminate | reflexivity]. }
  rewrite (begins_eat "...") by (now apply begins_app || (cbn; intuition discriminate)).
  rewrite Eb, begins_starts by now apply begins_app. rewrite HN by lia. reflexivity.
Qed.

Lemma rd_lone : forall ts e, begins ts ->
  match ts with
  | Word w :: r => name_like w = false \/ forall rest, stops rest -> eat "..." (r ++ rest) = None /\ eat "[" (r ++ rest) = None /\ starts_type (r ++ rest) = false
  | _ => True
  end ->
  rd ptype ts e -> rd pentry ts (ELone e).
Proof.
  intros ts e B Hw H rest R. destruct (H rest R) as (N & HN). exists (S N). intros [|f] Hf; [lia|]. cbn [pentry].
  rewrite (begins_eat "...") by (now apply begins_app || (cbn; intuition discriminate)). rewrite HN by lia.
  destruct ts as [|[w|y|] ts]; try contradiction; [|reflexivity]. cbn [app].
  destruct Hw as [-> | Hw]; [reflexivity|]. destruct (Hw rest R) as (-> & -> & ->). now destruct (name_like w).
Qed.

Lemma rd_dots : forall ts e, rd ptype ts e -> rd pentry (Sym "..." :: ts) (ELone (Ellipsis e)).
Proof.
  intros ts e H rest R. destruct (H rest R) as (N & HN). exists (S N). intros [|f] Hf; [lia|]. cbn [pentry app].
  replace (eat "..." (Sym "..." :: ts ++ rest)) with (Some (ts ++ rest)) by reflexivity. now rewrite HN by lia.
Qed.
Lemma rd_named_dots : forall n ts e, name n = true -> rd ptype ts e -> rd pentry (Word n :: Sym "..." :: ts) (ENamed n (Ellipsis e)).
Proof.
  intros n ts e Hn H rest R. destruct (H rest R) as (N & HN). exists (S N). intros [|f] Hf; [lia|]. cbn [pentry app].
  replace (eat "..." (Word n :: Sym "..." :: ts ++ rest)) with (@None (list tok)) by reflexivity.
  destruct (name_chars n Hn) as (_ & _ & ->).
  replace (eat "..." (Sym "..." :: ts ++ rest)) with (Some (ts ++ rest)) by reflexivity. now rewrite HN by lia.
Qed.

Lemma rd_name : forall n, name n = true -> rd ptype [Word n] (Ident n).
Proof.
  intros n H rest R. exists 1. intros [|f] Hf; [lia|]. cbn [app]. rewrite ptype_name by exact H. unfold qualified.
  now rewrite !stops_eat by (exact R || (cbn; intuition discriminate)).
Qed.
Lemma rd_lone_name : forall n, name n = true -> rd pentry [Word n] (ELone (Ident n)).
Proof.
  intros n H. apply rd_lone; [now left | | now apply rd_name]. right. intros rest R. cbn [app].
  rewrite !stops_eat, stops_starts by (exact R || (cbn; intuition discriminate)). auto.
Qed.

(** *** Entries of a field *)

Fixpoint ents (ns : list string) (t : expr) : list entry :=
  match ns with [] => [ELone t] | [n] => [ENamed n t] | n :: ns' => ELone (Ident n) :: ents ns' t end.

Lemma rd_items : forall ns ts e, forallb name ns = true ->
  rd pentry ts (ELone e) -> (forall n, name n = true -> rd pentry (Word n :: ts) (ENamed n e)) ->
  Forall2 (rd pentry) (items ns ts) (ents ns e).
Proof.
  intros ns ts e Hn H1 H2. induction ns as [|n ns IH]; [repeat constructor; exact H1|].
  cbn [forallb] in Hn. apply andb_prop in Hn as [Hn Hs]. destruct ns as [|m ns].
  - constructor; [now apply H2 | constructor].
  - change (items (n :: m :: ns) ts) with ([Word n] :: items (m :: ns) ts).
    change (ents (n :: m :: ns) e) with (ELone (Ident n) :: ents (m :: ns) e).
    constructor; [now apply rd_lone_name | now apply IH].
Qed.
Lemma items_open : forall ns ts, (forall r, eat ")" (ts ++ r) = None) -> Forall (fun t => forall r, eat ")" (t ++ r) = None) (items ns ts).
Proof.
  intros ns ts H. induction ns as [|n ns IH]; [repeat constructor; exact H|]. destruct ns as [|m ns].
  - constructor; [reflexivity | constructor].
  - change (items (n :: m :: ns) ts) with ([Word n] :: items (m :: ns) ts). constructor; [reflexivity | exact IH].
Qed.

Lemma group_ents : forall ns p t es, ns <> [] ->
  group p (ents ns t ++ es) = option_map (cons (mkfield (p ++ ns) t)) (group [] es).
Proof.
  induction ns as [|n ns IH]; intros p t es H; [congruence|]. destruct ns as [|m ns]; [reflexivity|].
  change (ents (n :: m :: ns) t ++ es) with (ELone (Ident n) :: (ents (m :: ns) t ++ es)). cbn [group].
  rewrite IH by discriminate. rewrite <- app_assoc. reflexivity.
Qed.
Lemma ents_named : forall ns t, ns <> [] -> existsb named_entry (ents ns t) = true.
Proof.
  induction ns as [|n ns IH]; intros t H; [congruence|]. destruct ns as [|m ns]; [reflexivity|].
  change (ents (n :: m :: ns) t) with (ELone (Ident n) :: ents (m :: ns) t). cbn [existsb named_entry orb]. now apply IH.
Qed.

Definition fents (f : field) : list entry := ents (f_names f) (norm (f_type f)).
Definition nfield (f : field) : field := mkfield (f_names f) (norm (f_type f)).

Lemma fields_of_ents : forall l, uniform l = true -> fields_of (flat_map fents l) = Some (map nfield l).
Proof.
  intros l H. unfold uniform in H. apply orb_prop in H as [H|H].
  - assert (G : group [] (flat_map fents l) = Some (map nfield l)).
    { induction l as [|f l IH]; [reflexivity|]. cbn [forallb] in H. apply andb_prop in H as [H1 H2]. cbn [flat_map map].
      unfold fents at 1. rewrite group_ents, (IH H2); [reflexivity|]. unfold has_names in H1. destruct (f_names f); discriminate. }
    unfold fields_of. rewrite G. destruct l as [|f l]; [reflexivity|]. cbn [forallb] in H. apply andb_prop in H as [H1 H2].
    cbn [flat_map]. rewrite existsb_app. unfold fents at 1. rewrite ents_named; [reflexivity|].
    unfold has_names in H1. destruct (f_names f); discriminate.
  - assert (G : existsb named_entry (flat_map fents l) = false /\ map lone_type (flat_map fents l) = map nfield l).
    { induction l as [|f l IH]; [split; reflexivity|]. cbn [forallb] in H. apply andb_prop in H as [H1 H2]. destruct (IH H2) as (I1 & I2).
      cbn [flat_map map]. rewrite existsb_app, map_app, I1, I2. unfold fents, nfield, has_names in *.
      destruct (f_names f); [split; reflexivity | discriminate H1]. }
    unfold fields_of. destruct G as (-> & ->). reflexivity.
Qed.

(** *** Every type of the considered shapes *)

Definition Rd (e : expr) : Prop :=
  pshow e = true ->
  (plain e = true -> rd ptype (ttoks e) (norm e)) /\
  rd pentry (ttoks e) (ELone (norm e)) /\
  (forall n, name n = true -> rd pentry (Word n :: ttoks e) (ENamed n (norm e))).

Lemma pshow_open : forall e, pshow e = true -> forall r, eat ")" (ttoks e ++ r) = None.
Proof.
  intros e H r. destruct e; try (apply begins_eat; [apply begins_app, plain_begins; exact H | cbn; intuition discriminate]). reflexivity.
Qed.

Lemma rd_fields : forall l, Forall (Pf Rd) l ->
  forallb (fun f => forallb name (f_names f) && pshow (f_type f)) l = true ->
  Forall2 (rd pentry) (flat_map (fun f => items (f_names f) (ttoks (f_type f))) l) (flat_map fents l) /\
  Forall (fun t => forall r, eat ")" (t ++ r) = None) (flat_map (fun f => items (f_names f) (ttoks (f_type f))) l).
Proof.
  induction 1 as [|f l Hf _ IH]; intros Hp; [split; constructor|].
  cbn [forallb] in Hp. rewrite !andb_true_iff in Hp. destruct Hp as ((Hn & Ht) & Hl). destruct (IH Hl) as (I1 & I2).
  destruct (Hf Ht) as (_ & H1 & H2). cbn [flat_map]. split.
  - apply Forall2_app; [|exact I1]. now apply rd_items.
  - apply Forall_app. split; [|exact I2]. apply items_open. now apply pshow_open.
Qed.

Lemma pfields_all : forall l, Forall (Pf Rd) l ->
  forallb (fun f => forallb name (f_names f) && pshow (f_type f)) l = true ->
  forall rest, good (fun f => pfields f (flat_map (fun f => commas (items (f_names f) (ttoks (f_type f))) ++ [Semi]) l ++ Sym "}" :: rest)) (map nfield l, rest).
Proof.
  induction 1 as [|f l Hf Hfl IH]; intros Hp rest.
  - exists 1. intros [|f] Hf; [lia|]. reflexivity.
  - pose proof Hp as Hp0. cbn [forallb] in Hp. rewrite !andb_true_iff in Hp. destruct Hp as ((Hn & Ht) & Hl).
    destruct (IH Hl rest) as (M & HM). destruct (Hf Ht) as (_ & H1 & H2).
    pose proof (rd_items (f_names f) _ _ Hn H1 H2) as F.
    cbn [flat_map]. rewrite <- !app_assoc. cbn [app].
    set (more := flat_map (fun f => commas (items (f_names f) (ttoks (f_type f))) ++ [Semi]) l ++ Sym "}" :: rest) in *.
    destruct (pline_all _ _ (items_nonempty _ _) F more) as (K & HK).
    exists (S (M + K)). intros [|g] Hg; [lia|]. cbn [pfields].
    assert (Eo : eat "}" (commas (items (f_names f) (ttoks (f_type f))) ++ Semi :: more) = None).
    { destruct (f_names f) as [|n [|m ns]]; cbn [items commas].
      - destruct (f_type f); try (apply begins_eat; [apply begins_app, plain_begins; exact Ht | cbn; intuition discriminate]). reflexivity.
      - reflexivity.
      - destruct ns; reflexivity. }
    rewrite Eo, HK by lia.
    assert (Ef : fields_of (ents (f_names f) (norm (f_type f))) = Some [nfield f]).
    { pose proof (fields_of_ents [f]) as G. cbn [flat_map] in G. rewrite app_nil_r in G. apply G.
      unfold uniform. cbn [forallb]. now destruct (has_names f). }
    rewrite Ef, HM by lia. reflexivity.
Qed.

Lemma Rd_type : forall e, plain e = true -> eat "[" (ttoks e) = None ->
  match ttoks e with
  | Word w :: r => name_like w = false \/ forall rest, stops rest -> eat "..." (r ++ rest) = None /\ eat "[" (r ++ rest) = None /\ starts_type (r ++ rest) = false
  | _ => True
  end ->
  rd ptype (ttoks e) (norm e) ->
  (plain e = true -> rd ptype (ttoks e) (norm e)) /\
  rd pentry (ttoks e) (ELone (norm e)) /\
  (forall n, name n = true -> rd pentry (Word n :: ttoks e) (ENamed n (norm e))).
Proof.
  intros e Hp Hb Hw H. split; [auto|]. pose proof (plain_begins e Hp) as B. split; [now apply rd_lone|].
  intros n Hn. now apply rd_named.
Qed.

Lemma rd_instance : forall x (l : list expr) ts e, base x = true -> l <> [] -> Forall2 (rd parg) ts l -> TypeGrammar.index x l = Some e ->
  rd ptype (btoks x ++ Sym "[" :: commas ts ++ [Sym "]"]) e.
Proof.
  intros x l ts e Hx Hl F E rest R. destruct (pargs_all l ts Hl F rest) as (N & HN).
  exists (S N). intros [|f] Hf; [lia|]. rewrite <- app_assoc. cbn [app]. rewrite <- app_assoc. cbn [app].
  destruct x as [n|y sel| | | | | | | | | | | | | | | ]; try discriminate; cbn [base btoks app] in *.
  - rewrite ptype_name by exact Hx. unfold qualified. cbn [eat].
    replace (("." =? "[")%string) with false by reflexivity. cbn [eat]. replace (("[" =? "[")%string) with true by reflexivity.
    rewrite HN by lia. now rewrite E.
  - destruct y as [n| | | | | | | | | | | | | | | | ]; try discriminate. apply andb_prop in Hx as [H1 H2].
    cbn [app]. rewrite ptype_name by exact H1. unfold qualified. cbn [eat].
    replace (("." =? ".")%string) with true by reflexivity. cbn [eat]. replace (("[" =? "[")%string) with true by reflexivity.
    rewrite HN by lia. now rewrite E.
Qed.

(** instantiated types as entries *)
Lemma rd_entry_instance : forall x (l : list expr) ts e, base x = true -> l <> [] ->
  Forall2 (rd parg) ts l -> begins (commas ts) -> TypeGrammar.index x l = Some e ->
  rd pentry (btoks x ++ Sym "[" :: commas ts ++ [Sym "]"]) (ELone e).
Proof.
  intros x l ts e Hx Hl F B E. pose proof (rd_instance x l ts e Hx Hl F E) as H.
  destruct x as [n|y sel| | | | | | | | | | | | | | | ]; try discriminate; cbn [base btoks app] in *.
  - intros rest R. destruct (pargs_all l ts Hl F rest) as (N & HN).
    exists (S N). intros [|f] Hf; [lia|]. cbn [app]. rewrite <- app_assoc. cbn [app pentry].
    replace (eat "..." (Word n :: Sym "[" :: commas ts ++ Sym "]" :: rest)) with (@None (list tok)) by reflexivity.
    destruct (name_chars n Hx) as (_ & _ & ->).
    replace (eat "..." (Sym "[" :: commas ts ++ Sym "]" :: rest)) with (@None (list tok)) by reflexivity.
    replace (eat "[" (Sym "[" :: commas ts ++ Sym "]" :: rest)) with (Some (commas ts ++ Sym "]" :: rest)) by reflexivity.
    rewrite begins_eat by (now apply begins_app || (cbn; intuition discriminate)).
    rewrite HN by lia. rewrite stops_starts by exact R. now rewrite E.
  - destruct y as [n| | | | | | | | | | | | | | | | ]; try discriminate. apply andb_prop in Hx as [H1 H2].
    apply rd_lone; [now left | | exact H]. right. intros rest R. auto.
Qed.

Lemma items_flat_pre : forall t r, (t :: r) <> ([] : list tok).
Proof. discriminate. Qed.

Lemma args_rd : forall l, Forall (fun e => plain e = true -> rd ptype (ttoks e) (norm e)) l -> forallb plain l = true ->
  Forall2 (rd parg) (map ttoks l) (map norm l).
Proof.
  induction 1 as [|e l He _ IH]; intros H; [constructor|]. cbn [forallb] in H. apply andb_prop in H as [H1 H2].
  cbn [map]. constructor; [|now apply IH]. apply parg_type; [now apply plain_begins | now apply He].
Qed.
Lemma args_begin : forall l, l <> [] -> forallb plain l = true -> begins (commas (map ttoks l)).
Proof.
  intros [|e l] H H'; [congruence|]. cbn [forallb] in H'. apply andb_prop in H' as [H1 _]. apply plain_begins in H1.
  cbn [map]. destruct (map ttoks l); [exact H1 | cbn [commas]; now apply begins_app].
Qed.

Lemma nfields_eq : forall l, map (fun f => mkfield (f_names f) (norm (f_type f))) l = map nfield l.
Proof. reflexivity. Qed.

Lemma Rd_all : forall e, Rd e.
Proof.
  apply (expr_ind' Rd); unfold Rd; intros; try discriminate.
  - (* Ident *) cbn [pshow plain base] in H. cbn [ttoks btoks norm] in *. split; [intros; now apply rd_name|].
    split; [now apply rd_lone_name|]. intros m Hm. apply rd_named; try assumption; [now left | reflexivity | now apply rd_name].
  - (* Selector *) apply Rd_type; try exact H0; destruct x as [n| | | | | | | | | | | | | | | | ]; try discriminate; cbn [ttoks btoks].
    + reflexivity.
    + right. intros rest R. auto.
    + cbn [pshow plain base] in H0. apply andb_prop in H0 as [H1 H2]. intros rest R. exists 1. intros [|f] Hf; [lia|].
      cbn [app]. rewrite ptype_name by exact H1. unfold qualified. cbn [eat]. replace (("." =? ".")%string) with true by reflexivity.
      now rewrite !stops_eat by (exact R || (cbn; intuition discriminate)).
  - (* Star *) apply Rd_type; [exact H0 | reflexivity | exact I|].
    destruct (H (plain_pshow x H0)) as (Hx & _). specialize (Hx H0). intros rest R. destruct (Hx rest R) as (N & HN).
    exists (S N). intros [|f] Hf; [lia|]. cbn [ttoks app ptype norm]. cbn [String.eqb Ascii.eqb]. rewrite HN by lia. reflexivity.
  - (* Ellipsis *) split; [discriminate|]. destruct (H (plain_pshow x H0)) as (Hx & _). specialize (Hx H0).
    cbn [ttoks norm]. split; [now apply rd_dots|]. intros n Hn. now apply rd_named_dots.
  - (* Array *) cbn [pshow plain] in H1. assert (Hx : plain x = true) by (destruct l; [apply andb_prop in H1 as [_ H1]; exact H1 | exact H1]).
    destruct (H0 (plain_pshow x Hx)) as (Tx & _). specialize (Tx Hx).
    assert (T : rd ptype (ttoks (ArrayT l x)) (norm (ArrayT l x))).
    { intros rest R. destruct (Tx rest R) as (N & HN). destruct l as [l|]; cbn [ttoks norm app].
      - apply andb_prop in H1 as [Hl _]. destruct (parg_len l Hl (Sym "]" :: ttoks x ++ rest)) as (M & HM); [cbn; tauto|].
        exists (S (N + M)). intros [|f] Hf; [lia|]. rewrite <- app_assoc. cbn [app ptype].
        replace (("[" =? "<-")%string) with false by reflexivity. replace (("[" =? "*")%string) with false by reflexivity.
        replace (("[" =? "[")%string) with true by reflexivity.
        assert (Eo : eat "]" (btoks l ++ Sym "]" :: ttoks x ++ rest) = None).
        { destruct l as [n|y sel| | | | | | | | | | | | | | |v]; try discriminate; [reflexivity | | reflexivity].
          destruct y; try discriminate. reflexivity. }
        rewrite Eo, HM by lia. cbn [eat]. replace (("]" =? "]")%string) with true by reflexivity. now rewrite HN by lia.
      - exists (S N). intros [|f] Hf; [lia|]. cbn [ptype].
        replace (("[" =? "<-")%string) with false by reflexivity. replace (("[" =? "*")%string) with false by reflexivity.
        replace (("[" =? "[")%string) with true by reflexivity. cbn [eat]. replace (("]" =? "]")%string) with true by reflexivity.
        now rewrite HN by lia. }
    split; [auto|]. split; [apply rd_lone; [destruct l; cbn; tauto | destruct l; exact I | exact T]|].
    intros n Hn rest R. destruct (name_chars n Hn) as (_ & _ & Hnl). destruct l as [l|].
    + apply andb_prop in H1 as [Hl _]. destruct (Tx rest R) as (N & HN).
      assert (Fl : Forall2 (rd parg) [btoks l] [l]) by (constructor; [now apply parg_len | constructor]).
      destruct (pargs_all [l] [btoks l] ltac:(discriminate) Fl (ttoks x ++ rest)) as (M & HM). cbn [commas] in HM.
      exists (S (N + M)). intros [|f] Hf; [lia|]. cbn [ttoks app norm]. rewrite <- app_assoc. cbn [app pentry].
      replace (eat "..." (Word n :: Sym "[" :: btoks l ++ Sym "]" :: ttoks x ++ rest)) with (@None (list tok)) by reflexivity.
      rewrite Hnl.
      replace (eat "..." (Sym "[" :: btoks l ++ Sym "]" :: ttoks x ++ rest)) with (@None (list tok)) by reflexivity.
      replace (eat "[" (Sym "[" :: btoks l ++ Sym "]" :: ttoks x ++ rest)) with (Some (btoks l ++ Sym "]" :: ttoks x ++ rest)) by reflexivity.
      assert (Eo : eat "]" (btoks l ++ Sym "]" :: ttoks x ++ rest) = None).
      { destruct l as [n'|y sel| | | | | | | | | | | | | | |v]; try discriminate; [reflexivity | | reflexivity].
        destruct y; try discriminate. reflexivity. }
      rewrite Eo, HM by lia. rewrite begins_starts by (apply begins_app; now apply plain_begins). now rewrite HN by lia.
    + destruct (T rest R) as (N & HN).
      exists (S N). intros [|f] Hf; [lia|]. cbn [ttoks app] in *. cbn [pentry].
      replace (eat "..." (Word n :: Sym "[" :: Sym "]" :: ttoks x ++ rest)) with (@None (list tok)) by reflexivity.
      rewrite Hnl.
      replace (eat "..." (Sym "[" :: Sym "]" :: ttoks x ++ rest)) with (@None (list tok)) by reflexivity.
      replace (eat "[" (Sym "[" :: Sym "]" :: ttoks x ++ rest)) with (Some (Sym "]" :: ttoks x ++ rest)) by reflexivity.
      replace (eat "]" (Sym "]" :: ttoks x ++ rest)) with (Some (ttoks x ++ rest)) by reflexivity.
      now rewrite HN by lia.
  - (* Map *) apply Rd_type; [exact H1 | reflexivity | left; reflexivity|].
    cbn [pshow plain] in H1. apply andb_prop in H1 as [Hk Hv].
    destruct (H (plain_pshow k Hk)) as (Tk & _). destruct (H0 (plain_pshow v Hv)) as (Tv & _).
    intros rest R. destruct (Tv Hv rest R) as (N & HN). destruct (Tk Hk (Sym "]" :: ttoks v ++ rest)) as (M & HM); [cbn; tauto|].
    exists (S (N + M)). intros [|f] Hf; [lia|]. cbn [ttoks app norm]. rewrite <- app_assoc. cbn [app ptype].
    replace (("map" =? "func")%string) with false by reflexivity. replace (("map" =? "map")%string) with true by reflexivity.
    cbn [eat]. replace (("[" =? "[")%string) with true by reflexivity. rewrite HM by lia.
    cbn [eat]. replace (("]" =? "]")%string) with true by reflexivity. now rewrite HN by lia.
  - (* Chan *) pose proof H0 as Hc. cbn [pshow plain] in H0. apply andb_prop in H0 as [Hv Hd].
    destruct (H (plain_pshow v Hv)) as (Tv & _). specialize (Tv Hv).
    apply Rd_type; [exact Hc | destruct d; reflexivity | destruct d; [left; reflexivity | left; reflexivity | exact I] |].
    intros rest R. destruct (Tv rest R) as (N & HN). exists (S N). intros [|f] Hf; [lia|].
    destruct d; cbn [ttoks app ptype norm].
    + replace (("chan" =? "func")%string) with false by reflexivity. replace (("chan" =? "map")%string) with false by reflexivity.
      replace (("chan" =? "chan")%string) with true by reflexivity.
      assert (E : eat "<-" (ttoks v ++ rest) = None).
      { pose proof (plain_begins v Hv) as B. destruct v; try discriminate Hv;
          try (cbn [plain] in Hv; rewrite ?andb_true_iff in Hv; reflexivity).
        - cbn [plain base] in Hv. destruct v; try discriminate. reflexivity.
        - destruct len; reflexivity.
        - destruct dir; try reflexivity. discriminate Hd.
        - cbn [plain] in Hv. apply andb_prop in Hv as [Hv _]. destruct v1; try discriminate; [reflexivity|]. destruct v1; try discriminate. reflexivity.
        - cbn [plain] in Hv. rewrite !andb_true_iff in Hv. destruct Hv as ((Hv & _) & _). destruct v; try discriminate; [reflexivity|]. destruct v; try discriminate. reflexivity. }
      rewrite E, HN by lia. reflexivity.
    + replace (("chan" =? "func")%string) with false by reflexivity. replace (("chan" =? "map")%string) with false by reflexivity.
      replace (("chan" =? "chan")%string) with true by reflexivity. cbn [eat]. replace (("<-" =? "<-")%string) with true by reflexivity.
      rewrite HN by lia. reflexivity.
    + replace (("<-" =? "<-")%string) with true by reflexivity. cbn [eat_word]. replace (("chan" =? "chan")%string) with true by reflexivity.
      rewrite HN by lia. reflexivity.
  - (* Func *) apply Rd_type; [exact H1 | reflexivity | left; reflexivity|].
    cbn [pshow plain] in H1. rewrite !andb_true_iff in H1. destruct H1 as ((Hu & Hps) & Hrs).
    destruct (rd_fields ps H Hps) as (F & Fo). intros rest R.
    assert (Rs : exists l, norm (FuncT ps rs) = FuncT (map nfield ps) (Some (map nfield l)) /\ uniform l = true /\
       ttoks (FuncT ps rs) = Word "func" :: Sym "(" :: commas (flat_map (fun f => items (f_names f) (ttoks (f_type f))) ps)
         ++ Sym ")" :: Sym "(" :: commas (flat_map (fun f => items (f_names f) (ttoks (f_type f))) l) ++ [Sym ")"] /\
       Forall (Pf Rd) l /\ forallb (fun f => forallb name (f_names f) && pshow (f_type f)) l = true).
    { destruct rs as [l|]; [exists l | exists []; repeat split; constructor].
      apply andb_prop in Hrs as [H1 H2]. repeat split; [exact H1 | exact (H0 l eq_refl) | now apply fields_pshow]. }
    destruct Rs as (l & En & Hul & Et & Hl & Hpl). destruct (rd_fields l Hl Hpl) as (G & Go).
    destruct (pparams_all _ _ F Fo (Sym "(" :: commas (flat_map (fun f => items (f_names f) (ttoks (f_type f))) l) ++ Sym ")" :: rest)) as (N & HN).
    destruct (pparams_all _ _ G Go rest) as (M & HM).
    rewrite En, Et. exists (S (N + M)). intros [|f] Hf; [lia|].
    cbn [app]. rewrite <- app_assoc. cbn [app]. rewrite <- app_assoc. cbn [app ptype].
    replace (("func" =? "func")%string) with true by reflexivity. cbn [eat]. replace (("(" =? "(")%string) with true by reflexivity.
    rewrite HN by lia. rewrite fields_of_ents by exact Hu. cbn [eat]. replace (("(" =? "(")%string) with true by reflexivity.
    rewrite HM by lia. rewrite fields_of_ents by exact Hul. reflexivity.
  - (* Struct *) apply Rd_type; [exact H0 | reflexivity | left; reflexivity|].
    cbn [pshow plain] in H0. intros rest R. destruct (pfields_all fs H (fields_pshow _ H0) rest) as (N & HN).
    exists (S N). intros [|f] Hf; [lia|]. cbn [ttoks app]. rewrite <- app_assoc. cbn [app ptype].
    replace (("struct" =? "func")%string) with false by reflexivity. replace (("struct" =? "map")%string) with false by reflexivity.
    replace (("struct" =? "chan")%string) with false by reflexivity. replace (("struct" =? "struct")%string) with true by reflexivity.
    cbn [eat]. replace (("{" =? "{")%string) with true by reflexivity. rewrite HN by lia. reflexivity.
  - (* Interface *) apply Rd_type; [exact H0 | reflexivity | left; reflexivity|].
    intros rest R. exists 1. intros [|f] Hf; [lia|]. reflexivity.
  - (* Index *) cbn [pshow plain] in H1. apply andb_prop in H1 as [Hx Hi]. destruct (H0 (plain_pshow i Hi)) as (Ti & _).
    assert (F : Forall2 (rd parg) [ttoks i] [norm i]).
    { constructor; [|constructor]. apply parg_type; [now apply plain_begins | now apply Ti]. }
    assert (T : rd ptype (ttoks (IndexE x i)) (norm (IndexE x i))) by exact (rd_instance x [norm i] [ttoks i] _ Hx ltac:(discriminate) F eq_refl).
    split; [auto|]. split.
    + exact (rd_entry_instance x [norm i] [ttoks i] _ Hx ltac:(discriminate) F (plain_begins i Hi) eq_refl).
    + intros n Hn. apply rd_named; [exact Hn | apply begins_app; now apply base_begins | | exact T].
      destruct x as [m|y sel| | | | | | | | | | | | | | | ]; try discriminate; [reflexivity|]. destruct y; try discriminate. reflexivity.
  - (* IndexList *) cbn [pshow plain] in H1. rewrite !andb_true_iff in H1. destruct H1 as ((Hx & Hlen) & Hl).
    assert (F : Forall2 (rd parg) (map ttoks l) (map norm l)).
    { apply args_rd; [|exact Hl]. rewrite Forall_forall in H0 |- *. intros e Hin Hp. now apply (H0 e Hin (plain_pshow e Hp)). }
    assert (N : map norm l <> []) by (destruct l; discriminate).
    assert (E : TypeGrammar.index x (map norm l) = Some (norm (IndexListE x l))).
    { destruct l as [|a [|b l]]; try discriminate. reflexivity. }
    assert (T : rd ptype (ttoks (IndexListE x l)) (norm (IndexListE x l))) by exact (rd_instance x _ _ _ Hx N F E).
    split; [auto|]. split.
    + apply (rd_entry_instance x _ _ _ Hx N F); [|exact E]. apply args_begin; [|exact Hl]. destruct l; discriminate.
    + intros n Hn. apply rd_named; [exact Hn | apply begins_app; now apply base_begins | | exact T].
      destruct x as [m|y sel| | | | | | | | | | | | | | | ]; try discriminate; [reflexivity|]. destruct y; try discriminate. reflexivity.
Qed.

(** ** One reading at most *)

Definition more_fuel (f : nat) : Prop := forall g, f <= g ->
  (forall ts v, ptype f ts = Some v -> ptype g ts = Some v) /\
  (forall ts v, parg f ts = Some v -> parg g ts = Some v) /\
  (forall ts v, pargs f ts = Some v -> pargs g ts = Some v) /\
  (forall ts v, pentry f ts = Some v -> pentry g ts = Some v) /\
  (forall ts v, pparams f ts = Some v -> pparams g ts = Some v) /\
  (forall ts v, pline f ts = Some v -> pline g ts = Some v) /\
  (forall ts v, pfields f ts = Some v -> pfields g ts = Some v).

Lemma fuel_grows : forall f, more_fuel f.
Proof.
  induction f as [|f IH]; intros g Hg.
  - repeat split; intros ts v E; discriminate E.
  - destruct g as [|g]; [lia|]. destruct (IH g ltac:(lia)) as (I1 & I2 & I3 & I4 & I5 & I6 & I7). clear IH Hg.
    Ltac walk I1 I2 I3 I4 I5 I6 I7 :=
      repeat match goal with
      | H : Some _ = Some _ |- _ => exact H
      | H : None = Some _ |- _ => discriminate H
      | H : ptype ?f ?ts = Some _ |- ptype _ ?ts = Some _ => exact (I1 _ _ H)
      | H : match ptype ?f ?ts with Some _ => _ | None => _ end = Some _ |- _ =>
          let E := fresh in destruct (ptype f ts) as [[? ?]|] eqn:E; [rewrite (I1 _ _ E)|]; clear E
      | H : match parg ?f ?ts with Some _ => _ | None => _ end = Some _ |- _ =>
          let E := fresh in destruct (parg f ts) as [[? ?]|] eqn:E; [rewrite (I2 _ _ E)|]; clear E
      | H : match pargs ?f ?ts with Some _ => _ | None => _ end = Some _ |- _ =>
          let E := fresh in destruct (pargs f ts) as [[? ?]|] eqn:E; [rewrite (I3 _ _ E)|]; clear E
      | H : match pentry ?f ?ts with Some _ => _ | None => _ end = Some _ |- _ =>
          let E := fresh in destruct (pentry f ts) as [[? ?]|] eqn:E; [rewrite (I4 _ _ E)|]; clear E
      | H : match pparams ?f ?ts with Some _ => _ | None => _ end = Some _ |- _ =>
          let E := fresh in destruct (pparams f ts) as [[? ?]|] eqn:E; [rewrite (I5 _ _ E)|]; clear E
      | H : match pline ?f ?ts with Some _ => _ | None => _ end = Some _ |- _ =>
          let E := fresh in destruct (pline f ts) as [[? ?]|] eqn:E; [rewrite (I6 _ _ E)|]; clear E
      | H : match pfields ?f ?ts with Some _ => _ | None => _ end = Some _ |- _ =>
          let E := fresh in destruct (pfields f ts) as [[? ?]|] eqn:E; [rewrite (I7 _ _ E)|]; clear E
      | H : match ?x with _ => _ end = Some _ |- _ => destruct x
      end.
    repeat split; intros ts v E; [cbn [ptype] in *|cbn [parg] in *|cbn [pargs] in *|cbn [pentry] in *|cbn [pparams] in *|cbn [pline] in *|cbn [pfields] in *];
      walk I1 I2 I3 I4 I5 I6 I7.
Qed.

Lemma reads_one : forall s e e', reads s e -> reads s e' -> e = e'.
Proof.
  intros s e e' (f & H) (f' & H').
  destruct (fuel_grows f (f + f') ltac:(lia)) as (I & _). destruct (fuel_grows f' (f + f') ltac:(lia)) as (I' & _).
  apply I in H. apply I' in H'. congruence.
Qed.
Lemma reads_param_one : forall s e e', reads_param s e -> reads_param s e' -> e = e'.
Proof.
  intros s e e' (f & H) (f' & H').
  destruct (fuel_grows f (f + f') ltac:(lia)) as (_ & _ & _ & I & _). destruct (fuel_grows f' (f + f') ltac:(lia)) as (_ & _ & _ & I' & _).
  apply I in H. apply I' in H'. congruence.
Qed.

(** ** Qualified types have the same shapes *)

Section QUALIFIED.
  Variable types : list typespec.
  Variable prefix : string.
  Hypothesis Hprefix : prefix = "" \/ name prefix = true.

  Lemma base_shows : forall e, base e = true -> base (shows types prefix e) = true.
  Proof.
    intros e H. destruct e as [n|x sel| | | | | | | | | | | | | | | ]; try discriminate.
    - unfold shows. cbn [qualify]. destruct (shown types prefix n) eqn:S; [|exact H]. cbn [base] in *. rewrite H, andb_true_r.
      unfold shown in S. destruct Hprefix as [Hp|Hp]; [rewrite Hp in S; discriminate S | exact Hp].
    - destruct x; try discriminate. exact H.
  Qed.

  Lemma names_same : forall l, map f_names (map (qfield (shown types prefix) prefix) l) = map f_names l.
  Proof. intros l. rewrite map_map. apply map_ext. now intros []. Qed.
  Lemma uniform_names : forall l l', map f_names l = map f_names l' -> uniform l = uniform l'.
  Proof.
    intros l l' H. unfold uniform.
    assert (E : forallb has_names l = forallb has_names l' /\ forallb (fun f => negb (has_names f)) l = forallb (fun f => negb (has_names f)) l').
    { revert l' H. induction l as [|f l IH]; intros [|f' l'] H; try discriminate; [auto|]. cbn [map] in H. injection H as H1 H2.
      cbn [forallb]. destruct (IH l' H2) as (-> & ->). unfold has_names. rewrite H1. auto. }
    destruct E as (-> & ->). reflexivity.
  Qed.

  Definition Qp (e : expr) : Prop := (plain e = true -> plain (shows types prefix e) = true) /\ (pshow e = true -> pshow (shows types prefix e) = true).

  Lemma q_fields (P : expr -> bool) : forall l, Forall (Pf (fun e => P e = true -> P (shows types prefix e) = true)) l ->
    forallb (fun f => forallb name (f_names f) && P (f_type f)) l = true ->
    forallb (fun f => forallb name (f_names f) && P (f_type f)) (map (qfield (shown types prefix) prefix) l) = true.
  Proof.
    induction 1 as [|f l Hf _ IH]; intros H; [reflexivity|]. cbn [forallb map] in *. rewrite !andb_true_iff in *. destruct H as ((H1 & H2) & H3).
    repeat split; [| |now apply IH]; destruct f; [exact H1 | now apply Hf].
  Qed.

  Lemma Qp_plain : forall e, (forall x, e <> Ellipsis x) -> (plain e = true -> plain (shows types prefix e) = true) -> Qp e.
  Proof.
    intros e N H. split; [exact H|]. intros Hp. apply plain_pshow, H. destruct e; try exact Hp. now elim (N e).
  Qed.

  Lemma Qp_all : forall e, Qp e.
  Proof.
    apply (expr_ind' Qp); intros; try (apply Qp_plain; [discriminate|]; intros Hp; try discriminate Hp).
    - pose proof (base_shows _ Hp). unfold shows in *. cbn [qualify] in *. destruct (shown types prefix n); assumption.
    - exact Hp.
    - now apply H.
    - split; [discriminate|]. intros Hp. now apply H.
    - unfold shows in *. cbn [qualify plain] in *. destruct l; [rewrite andb_true_iff in *; split; [apply Hp|]|]; apply H0, Hp.
    - unfold shows in *. cbn [qualify plain] in *. rewrite andb_true_iff in *. split; [apply H, Hp | apply H0, Hp].
    - cbn [plain] in Hp. apply andb_prop in Hp as [H1 H2]. unfold shows in *. cbn [qualify plain]. apply andb_true_intro. split; [now apply H|].
      destruct d; try reflexivity. destruct v; try reflexivity; try exact H2. unfold recv_chan. cbn [qualify]. now destruct (shown types prefix n).
    - cbn [plain] in Hp. rewrite !andb_true_iff in Hp. destruct Hp as ((H1 & H2) & H3). unfold shows. cbn [qualify plain].
      rewrite qfields_eq. apply andb_true_intro. split; [apply andb_true_intro; split|].
      + now rewrite (uniform_names _ _ (names_same ps)).
      + apply (q_fields pshow); [|exact H2]. eapply Forall_impl; [|exact H]. intros f Hf. exact (ltac:(first [exact (proj1 Hf) | exact (proj2 Hf)])).
      + destruct rs as [l|]; [|reflexivity]. cbn [option_map]. rewrite (qfields_eq _ _ l). apply andb_prop in H3 as [H3 H4].
        apply andb_true_intro. split; [now rewrite (uniform_names _ _ (names_same l))|].
        apply (q_fields plain); [|exact H4]. eapply Forall_impl; [|exact (H0 l eq_refl)]. intros f Hf. exact (ltac:(first [exact (proj1 Hf) | exact (proj2 Hf)])).
    - cbn [plain] in Hp. unfold shows. cbn [qualify plain]. rewrite qfields_eq.
      apply (q_fields plain); [|exact Hp]. eapply Forall_impl; [|exact H]. intros f Hf. exact (ltac:(first [exact (proj1 Hf) | exact (proj2 Hf)])).
    - exact Hp.
    - cbn [plain] in Hp. apply andb_prop in Hp as [H1 H2]. unfold shows. cbn [qualify plain]. apply andb_true_intro. split; [exact (base_shows _ H1) | now apply H0].
    - cbn [plain] in Hp. rewrite !andb_true_iff in Hp. destruct Hp as ((H1 & H2) & H3). unfold shows. cbn [qualify plain]. rewrite !andb_true_iff. repeat split.
      + exact (base_shows _ H1).
      + now rewrite map_length.
      + clear H1 H2. induction H0 as [|e l He _ IH]; [reflexivity|]. cbn [forallb map] in *. apply andb_prop in H3 as [H3 H4].
        apply andb_true_intro. split; [now apply He | now apply IH].
  Qed.
End QUALIFIED.

(** ** The round trip *)

Lemma reads_printed : forall O types prefix e s,
  (prefix = "" \/ name prefix = true) ->
  (forall ms, ms = None \/ ms = Some [] -> o_fprint O (InterfaceT ms) = ("interface{}", None)) ->
  PrintType O types prefix e = Ok s ->
  (plain e = true -> reads s (norm (shows types prefix e))) /\
  (pshow e = true -> reads_param s (norm (shows types prefix e))).
Proof.
  intros O types prefix e s Hp Ho E. rewrite PrintType_pt in E.
  assert (L : pshow e = true -> lex "" false s = ttoks (shows types prefix e)).
  { intros H. pose proof (lexes_all O types prefix Hp Ho e H s E false "" I) as L. rewrite sapp_nil_r, app_nil_r in L. exact L. }
  split; intros H.
  - specialize (L (plain_pshow e H)). pose proof (proj1 (Qp_all types prefix Hp e) H) as Q.
    destruct (proj1 (Rd_all _ (plain_pshow _ Q)) Q [] I) as (N & HN). exists N. rewrite L. specialize (HN N (le_n N)). now rewrite app_nil_r in HN.
  - specialize (L H). pose proof (proj2 (Qp_all types prefix Hp e) H) as Q.
    destruct (proj1 (proj2 (Rd_all _ Q)) [] I) as (N & HN). exists N. rewrite L. specialize (HN N (le_n N)). now rewrite app_nil_r in HN.
Qed.
