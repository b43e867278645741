(** C71: interfaces are read from the files Go builds the package from. *)
From Coq Require Import Permutation.
From Verif Require Import Pkg NewGenSpec PathProofs GeneratorProofs ResolveSpec PropResolve.
Open Scope nat_scope.

(** ** Specification *)

Definition ends_with (s suf : string) : Prop := exists t, s = (t ++ suf)%string.
Definition starts_with (s : string) (c : ascii) : Prop := exists t, s = String c t.

(** Entry [n] of a directory is one of the Go files a package is built from
    (go/build, Context.matchFile and Context.Import; go help packages): its
    name ends in .go and not in _test.go and does not begin with _ or a dot,
    and its build constraints hold.  It belongs to package [name] and declares
    [f]. *)
Definition built (name : string) (n : string) (e : entry) (f : gofile) : Prop :=
  e = ESource true (inl (name, f)) /\ ends_with n ".go" /\ ~ ends_with n "_test.go" /\
  ~ starts_with n "_" /\ ~ starts_with n ".".

(** names of directory entries *)
Definition file_name (n : string) : Prop := no_slash n /\ n <> "" /\ n <> "." /\ n <> "..".
Definition listing_ok (l : list (string * entry)) : Prop := NoDup (keys l) /\ Forall file_name (keys l).

(** [p] was loaded from directory [els] of the file system: the directory
    lists [l], and the Go files of [p] are the paths of the entries Go builds
    it from *)
Definition dir_path (els : list string) : string := String "/" (join "/" els).
Record loaded_from (fs : filesystem) (els : list string) (l : list (string * entry)) (p : loaded) : Prop := {
  lf_els : Forall file_name els /\ els <> [];
  lf_dir : fs (dir_path els) = inl l;
  lf_listing : listing_ok l;
  lf_some : l_go p <> [];
  lf_go : forall path, In path (l_go p) <-> exists n e f, In (n, e) l /\ built (l_name p) n e f /\ path = (dir_path els ++ "/" ++ n)%string
}.

Definition C71_statement : Prop := forall fs els l p, loaded_from fs els l p ->
  exists files, AST fs p = Ok (l_name p, files) /\ NoDup (keys files) /\
    forall f, In f (map snd files) <-> exists n e, In (n, e) l /\ built (l_name p) n e f.

(** ** Proofs *)

Lemma has_suffix_spec : forall suf s, has_suffix suf s = true <-> ends_with s suf.
Proof.
  intros suf s. unfold has_suffix, ends_with. rewrite andb_true_iff, Nat.leb_le, String.eqb_eq. split.
  - intros (H1 & H2). exists (substring 0 (String.length s - String.length suf) s). rewrite <- H2 at 2. clear H2.
    remember (String.length s - String.length suf) as k eqn:Ek. assert (String.length suf = String.length s - k) as -> by lia. clear.
    revert s. induction k as [|k IH]; intros s.
    + rewrite Nat.sub_0_r. replace (substring 0 0 s) with "" by (now destruct s). cbn [append].
      induction s as [|c s IH]; cbn; [reflexivity|now rewrite <- IH].
    + destruct s as [|c s]; [reflexivity|]. cbn. f_equal. apply IH.
  - intros (t & ->). rewrite slength_app. split; [lia|]. replace (String.length t + String.length suf - String.length suf) with (String.length t) by lia.
    induction t as [|c t IH]; cbn; [|exact IH]. induction suf as [|c suf IH]; cbn; [reflexivity|now rewrite IH].
Qed.

(** the .go files of a listing with the package clause [name] *)
Definition sources (dir name : string) (l : list (string * entry)) : list (string * gofile) :=
  flat_map (fun ne => match snd ne with
    | ESource _ (inl (nm, f)) => if has_suffix ".go" (fst ne) && String.eqb nm name then [(Join2 dir (fst ne), f)] else []
    | _ => [] end) l.
Definition set_all {A} (acc l : list (string * A)) := fold_left (fun a kv => assoc_set (fst kv) (snd kv) a) l acc.

Lemma sources_In : forall dir name l k f, In (k, f) (sources dir name l) <->
  exists n a, In (n, ESource a (inl (name, f))) l /\ ends_with n ".go" /\ k = Join2 dir n.
Proof.
  intros. unfold sources. rewrite in_flat_map. split.
  - intros ((n & e) & H1 & H2). cbn in H2. destruct e as [|a [(nm & f')|]]; [destruct H2| |destruct H2].
    destruct (has_suffix ".go" n) eqn:E1; [|destruct H2]. destruct (String.eqb_spec nm name); [|destruct H2].
    destruct H2 as [[= <- <-]|[]]. subst. exists n, a. split; [exact H1|]. split; [now apply has_suffix_spec|reflexivity].
  - intros (n & a & H1 & H2 & ->). exists (n, ESource a (inl (name, f))). split; [exact H1|]. cbn.
    apply has_suffix_spec in H2. rewrite H2, String.eqb_refl. now left.
Qed.

Lemma parse_files : forall dir name l pkgs first,
  assoc name (fst (parse_entries dir l pkgs first)) =
  match assoc name pkgs, sources dir name l with
  | None, [] => None
  | None, s => Some (set_all [] s)
  | Some fs, s => Some (set_all fs s)
  end.
Proof.
  intros dir name. induction l as [|(n & e) l IH]; intros pkgs first; [cbn; now destruct (assoc name pkgs)|].
  destruct e as [|a r]; [apply IH|]. unfold sources. cbn [parse_entries flat_map snd fst].
  change (flat_map _ l) with (sources dir name l).
  destruct (has_suffix ".go" n) eqn:E1; [|destruct r as [(nm & f)|]; cbn [andb app]; apply IH].
  destruct r as [(nm & f)|er]; [|apply IH]. cbv zeta. rewrite IH. cbn [andb].
  destruct (String.eqb_spec nm name) as [->|N].
  - rewrite assoc_set_same. destruct (assoc name pkgs); reflexivity.
  - rewrite assoc_set_other by congruence. reflexivity.
Qed.

Lemma parse_error : forall dir l pkgs first,
  match first with Some e => snd (parse_entries dir l pkgs first) = Some e
  | None => (snd (parse_entries dir l pkgs None) = None /\ (forall n a r, In (n, ESource a r) l -> ends_with n ".go" -> exists x, r = inl x)) \/
     exists l1 n a e l2, l = l1 ++ (n, ESource a (inr e)) :: l2 /\ ends_with n ".go" /\ snd (parse_entries dir l pkgs None) = Some e /\
       forall n' a' r, In (n', ESource a' r) l1 -> ends_with n' ".go" -> exists x, r = inl x
  end.
Proof.
  intros dir. induction l as [|(n & e) l IH]; intros pkgs first.
  - destruct first; [reflexivity|]. left. split; [reflexivity|]. intros ? ? ? [].
  - assert (SKIP : (forall a r, e = ESource a r -> ends_with n ".go" -> exists x, r = inl x) -> forall pkgs',
      parse_entries dir ((n, e) :: l) pkgs first = parse_entries dir l pkgs' first ->
      match first with Some e0 => snd (parse_entries dir ((n, e) :: l) pkgs first) = Some e0
      | None => (snd (parse_entries dir ((n, e) :: l) pkgs None) = None /\ (forall n' a r, In (n', ESource a r) ((n, e) :: l) -> ends_with n' ".go" -> exists x, r = inl x)) \/
        exists l1 n' a e0 l2, (n, e) :: l = l1 ++ (n', ESource a (inr e0)) :: l2 /\ ends_with n' ".go" /\ snd (parse_entries dir ((n, e) :: l) pkgs None) = Some e0 /\
          forall n'' a' r, In (n'', ESource a' r) l1 -> ends_with n'' ".go" -> exists x, r = inl x end).
    { intros HS pkgs' E. specialize (IH pkgs' first). destruct first as [e0|]; [now rewrite E|].
      rewrite E. destruct IH as [(H1 & H2)|(l1 & n' & a & e0 & l2 & -> & H1 & H2 & H3)].
      - left. split; [exact H1|]. intros n' a r [[= <- ->]|Hi] Hn; [eapply HS; eauto|eapply H2; eauto].
      - right. exists ((n, e) :: l1), n', a, e0, l2. split; [reflexivity|]. split; [exact H1|]. split; [exact H2|].
        intros n'' a' r [[= <- ->]|Hi] Hn; [eapply HS; eauto|eapply H3; eauto]. }
    destruct e as [|a r]; [apply (SKIP ltac:(discriminate) pkgs); reflexivity|].
    destruct (has_suffix ".go" n) eqn:E1.
    + destruct r as [(nm & f)|er].
      * eapply SKIP; [intros ? ? [= -> <-] _; eauto|]. cbn. now rewrite E1.
      * apply has_suffix_spec in E1 as E2. destruct first as [e0|].
        -- cbn. rewrite E1. apply (IH pkgs (Some e0)).
        -- right. exists [], n, a, er, l. split; [reflexivity|]. split; [exact E2|]. split; [|intros ? ? ? []].
           cbn. rewrite E1. apply (IH pkgs (Some er)).
    + apply (SKIP) with (pkgs' := pkgs); [|cbn; now rewrite E1]. intros ? ? _ H. apply has_suffix_spec in H. congruence.
Qed.

Lemma set_all_fresh : forall {A} (l acc : list (string * A)), NoDup (keys (acc ++ l)) -> set_all acc l = acc ++ l.
Proof.
  intros A l. induction l as [|(k & v) l IH]; intros acc H; [cbn; now rewrite app_nil_r|].
  unfold set_all in *. cbn [fold_left fst snd]. assert (E : assoc_set k v acc = acc ++ [(k, v)]).
  { assert (~ In k (keys acc)).
    { unfold keys in *. rewrite map_app in H. cbn in H. apply NoDup_remove_2 in H. intros C. apply H. apply in_or_app. now left. }
    clear -H0. induction acc as [|(k' & v') acc IH]; [reflexivity|]. cbn in *. destruct (String.eqb_spec k k') as [->|N]; [exfalso; auto|].
    f_equal. apply IH. auto. }
  rewrite E, IH; rewrite <- app_assoc; auto.
Qed.

(** the path of a file ends in its name *)
Lemma Join2_base : forall dir n, file_name n -> Base (Join2 dir n) = n.
Proof.
  intros dir n (H1 & H2 & H3 & H4).
  assert (BN : Base n = n).
  { unfold Base. destruct n as [|c n'] eqn:En; [congruence|]. rewrite <- En in *.
    pose proof (strip_r_elem "" n H1 H2) as ES. cbn [append] in ES. rewrite ES. unfold split_slash. rewrite split_aux_elem by assumption.
    cbn. now rewrite En. }
  assert (CL : forall root l, clean_stack root [] (l ++ [n]) = clean_stack root [] l ++ [n]).
  { intros. rewrite clean_stack_snoc. cbv zeta.
    rewrite (proj2 (String.eqb_neq n "") H2), (proj2 (String.eqb_neq n ".") H3), (proj2 (String.eqb_neq n "..") H4). reflexivity. }
  assert (CB : forall s, (exists l, split_slash s = l ++ [n]) -> Base (Clean s) = n).
  { intros s (l & E). unfold Clean. rewrite E, CL. destruct (clean_stack (rooted s) [] l) as [|x l'].
    - cbn [app join String.concat]. destruct (rooted s); [|exact BN]. change (String "/" n) with ("" ++ String "/" n)%string. now apply Base_last.
    - rewrite join_snoc by discriminate. destruct (rooted s).
      + exact (Base_last (String "/" (join "/" (x :: l'))) n H1 H2).
      + cbn [app]. now apply Base_last. }
  unfold Join2. destruct dir as [|c dir]; destruct n as [|d n'] eqn:En; try congruence; rewrite <- En in *.
  - apply CB. exists []. unfold split_slash. now rewrite split_aux_elem.
  - apply CB. unfold split_slash. change ("/" ++ n)%string with (String "/" n). destruct (last_split (String c dir) n H1 "") as (l & El). exists l. exact El.
Qed.

Lemma Join2_inj : forall dir n n', file_name n -> file_name n' -> Join2 dir n = Join2 dir n' -> n = n'.
Proof. intros dir n n' H H' E. rewrite <- (Join2_base dir n H), <- (Join2_base dir n' H'). now rewrite E. Qed.

Lemma sources_keys : forall dir name l, listing_ok l -> NoDup (keys (sources dir name l)).
Proof.
  intros dir name l. induction l as [|(n & e) l IH]; intros (H1 & H2); [constructor|].
  inversion H1 as [|? ? H3 H4]; inversion H2 as [|? ? H5 H6]; subst. specialize (IH (conj H4 H6)).
  unfold sources. cbn [flat_map]. change (flat_map _ l) with (sources dir name l). cbn [snd fst].
  destruct e as [|a [(nm & f)|]]; [exact IH| |exact IH]. destruct (has_suffix ".go" n && String.eqb nm name); [|exact IH].
  cbn. constructor; [|exact IH]. intros C. apply in_map_iff in C. destruct C as ((k & f') & E & C). cbn in E. subst k.
  apply sources_In in C. destruct C as (n' & a' & C & _ & E). apply H3.
  assert (Hn' : In n' (keys l)) by (apply in_map_iff; eexists; split; [|exact C]; reflexivity).
  apply Join2_inj in E; [now subst|exact H5|]. now apply (proj1 (Forall_forall _ _) H6).
Qed.

(** Load: the first package listed, if it has no errors *)
Theorem C71_load : forall listing path p, Load listing path = Ok p <-> (exists rest, listing path = inl (p :: rest)) /\ l_errors p = [].
Proof.
  intros. unfold Load. destruct (listing path) as [[|q rest]|e].
  - split; [discriminate|]. intros ((r & H) & _). discriminate.
  - destruct (l_errors q) as [|e es] eqn:E.
    + split; [intros [= <-]; eauto|]. intros ((r & [= <- <-]) & _). reflexivity.
    + split; [discriminate|]. intros ((r & [= -> ->]) & HE). congruence.
  - split; [discriminate|]. intros ((r & H) & _). discriminate.
Qed.

(** AST, exactly: it fails with the error of reading the directory or that of
    the first .go file that does not parse, whatever package that belongs to;
    otherwise it gives the .go files with the package clause of [p]. *)
Theorem C71_ast : forall fs p,
  (exists e, fs (PkgDir p) = inr e /\ AST fs p = Err e) \/
  (exists l1 n a e l2, fs (PkgDir p) = inl (l1 ++ (n, ESource a (inr e)) :: l2) /\ ends_with n ".go" /\ AST fs p = Err e /\
     forall n' a' r, In (n', ESource a' r) l1 -> ends_with n' ".go" -> exists x, r = inl x) \/
  (exists l files, fs (PkgDir p) = inl l /\ (forall n a r, In (n, ESource a r) l -> ends_with n ".go" -> exists x, r = inl x) /\
     AST fs p = Ok (l_name p, files) /\
     (listing_ok l -> NoDup (keys files) /\
        forall k f, In (k, f) files <-> exists n a, In (n, ESource a (inl (l_name p, f))) l /\ ends_with n ".go" /\ k = Join2 (PkgDir p) n)).
Proof.
  intros fs p. unfold AST, ParseDir. destruct (fs (PkgDir p)) as [l|e]; [|left; eauto]. right.
  pose proof (parse_error (PkgDir p) l [] None) as PE. cbv beta iota in PE.
  pose proof (parse_files (PkgDir p) (l_name p) l [] None) as PF. cbn [assoc] in PF.
  destruct (parse_entries (PkgDir p) l [] None) as (pkgs & first). cbn [fst snd] in PE, PF.
  destruct PE as [(-> & H)|(l1 & n & a & e & l2 & -> & H1 & -> & H2)].
  - right. exists l, (set_all [] (sources (PkgDir p) (l_name p) l)). split; [reflexivity|]. split; [exact H|]. split.
    + rewrite PF. destruct (sources (PkgDir p) (l_name p) l); reflexivity.
    + intros HL. rewrite set_all_fresh by (now apply sources_keys). split; [now apply sources_keys|]. intros. apply sources_In.
  - left. exists l1, n, a, e, l2. auto.
Qed.

(** the directory of a loaded package *)
Lemma PkgDir_loaded : forall fs els l p, loaded_from fs els l p -> PkgDir p = dir_path els.
Proof.
  intros fs els l p H. unfold PkgDir. destruct (l_go p) as [|g go] eqn:E; [now destruct (lf_some _ _ _ _ H)|]. cbn [app].
  destruct (proj1 (lf_go _ _ _ _ H g)) as (n & e & f & H1 & H2 & ->); [rewrite E; now left|].
  destruct (lf_els _ _ _ _ H) as (He & Hn). destruct (lf_listing _ _ _ _ H) as (_ & HN).
  assert (Fn : file_name n) by (apply (proj1 (Forall_forall _ _) HN); apply in_map_iff; eexists; split; [|exact H1]; reflexivity).
  unfold dir_path. erewrite (Dir_file _ true els n els).
  - reflexivity.
  - split; [eapply Forall_impl; [|exact He]; now intros ? []|]. split; [apply Fn|]. split; [|discriminate].
    rewrite join_snoc by exact Hn. reflexivity.
  - clear -He. induction els as [|x els IH] using rev_ind; [constructor|]. apply Forall_app in He. destruct He as (He & Hx).
    inversion Hx as [|? ? Fx _]; subst. destruct Fx as (F1 & F2 & F3 & F4). apply leads_down; auto.
Qed.

(** Nothing Go builds is left out. *)
Theorem C71_complete : forall fs els l p files, loaded_from fs els l p -> AST fs p = Ok (l_name p, files) ->
  forall n e f, In (n, e) l -> built (l_name p) n e f -> In f (map snd files).
Proof.
  intros fs els l p files H HA n e f Hi (-> & H1 & _). pose proof (PkgDir_loaded _ _ _ _ H) as ED.
  pose proof (C71_ast fs p) as C. rewrite ED in C. rewrite (lf_dir _ _ _ _ H) in C.
  destruct C as [(e & C & _)|[(? & ? & ? & e & ? & ? & ? & C & _)|(l' & files' & [= <-] & _ & C & D)]]; [discriminate|congruence|].
  rewrite C in HA. injection HA as <-. destruct (D (lf_listing _ _ _ _ H)) as (_ & D2).
  apply in_map_iff. eexists (_, f). split; [reflexivity|]. apply D2. eauto.
Qed.

(** If every .go file of the directory parses, and those with the package
    clause of the package are all built, the files read are those built. *)
Theorem C71_exact_partial : forall fs els l p, loaded_from fs els l p ->
  (forall n a r, In (n, ESource a r) l -> ends_with n ".go" -> exists x, r = inl x) ->
  (forall n a f, In (n, ESource a (inl (l_name p, f))) l -> ends_with n ".go" -> built (l_name p) n (ESource a (inl (l_name p, f))) f) ->
  exists files, AST fs p = Ok (l_name p, files) /\ NoDup (keys files) /\
    forall f, In f (map snd files) <-> exists n e, In (n, e) l /\ built (l_name p) n e f.
Proof.
  intros fs els l p H HP HB. pose proof (PkgDir_loaded _ _ _ _ H) as ED.
  pose proof (C71_ast fs p) as C. rewrite ED in C. rewrite (lf_dir _ _ _ _ H) in C.
  destruct C as [(e & C & _)|[(l1 & n & a & e & l2 & [= ->] & C & _)|(l' & files & [= <-] & _ & C & D)]]; [discriminate| |].
  - destruct (HP n a (inr e)) as (x & E); [apply in_or_app; right; now left|exact C|discriminate].
  - exists files. split; [exact C|]. destruct (D (lf_listing _ _ _ _ H)) as (D1 & D2). split; [exact D1|]. intros f. split.
    + intros Hf. apply in_map_iff in Hf. destruct Hf as ((k & f') & <- & Hf). apply D2 in Hf. destruct Hf as (n & a & Hf & Hn & _).
      exists n, (ESource a (inl (l_name p, f'))). split; [exact Hf|]. now apply HB.
    + intros (n & e & Hi & (-> & Hn & _)). apply in_map_iff. eexists (_, f). split; [reflexivity|]. apply D2. eauto.
Qed.

(** In terms of the packages of Generator.v: the declarations interfaces are
    looked up in are those of the files Go builds. *)
Theorem C71_declared_partial : forall fs els l p f ts, loaded_from fs els l p ->
  (forall n a r, In (n, ESource a r) l -> ends_with n ".go" -> exists x, r = inl x) ->
  (forall n a f, In (n, ESource a (inl (l_name p, f))) l -> ends_with n ".go" -> built (l_name p) n (ESource a (inl (l_name p, f))) f) ->
  ast_ok (package_of fs p) = Ok tt /\
  (declared_in (package_of fs p) f ts <-> In ts (gf_types f) /\ exists n e, In (n, e) l /\ built (l_name p) n e f).
Proof.
  intros fs els l p f ts H HP HB. destruct (C71_exact_partial fs els l p H HP HB) as (files & E & _ & HF).
  unfold package_of, declared_in. rewrite E. cbn. split; [reflexivity|]. rewrite HF. tauto.
Qed.

(** ** Refutations *)

(** a package with a file for Linux and one for Windows, as built on Linux *)
Definition f_linux : gofile := GoFile [iface "Store" [meth "Open" [] []]] [].
Definition f_windows : gofile := GoFile [iface "Store" [meth "Close" [] []]] [].
Definition f_doc : gofile := GoFile [iface "Doc" [meth "Doc" [] []]] [].
Definition f_test : gofile := GoFile [iface "Fake" [meth "Fake" [] []]] [].
Definition l_os : list (string * entry) :=
  [("doc.go", ESource true (inl ("m", f_doc))); ("store_linux.go", ESource true (inl ("m", f_linux)));
   ("store_windows.go", ESource false (inl ("m", f_windows))); ("sub", ESub)].
Definition fs_of (l : list (string * entry)) : filesystem := fun d => if String.eqb d "/src/m" then inl l else inr (Sentinel "no such directory").
Definition p_os : loaded := Loaded "x/m" "m" ["/src/m/doc.go"; "/src/m/store_linux.go"] [] [] [].

Ltac suffix := match goal with
  | |- ends_with ?s ?t => apply (proj1 (has_suffix_spec t s)); reflexivity
  | |- ~ ends_with ?s ?t => let H := fresh in intros H; apply (proj2 (has_suffix_spec t s)) in H; discriminate H
  end.
Ltac built_ := split; [reflexivity|]; split; [suffix|]; split; [suffix|]; split; intros (? & ?); discriminate.
Ltac name_ := split; [let H := fresh in intros H; cbn in H; intuition discriminate|]; split; [discriminate|]; split; discriminate.
Ltac listing_ := split; [vm_compute; repeat (apply NoDup_cons; [cbn; intuition discriminate|]); apply NoDup_nil | repeat (apply Forall_cons; [name_|]); apply Forall_nil].

Example loaded_os : loaded_from (fs_of l_os) ["src"; "m"] l_os p_os.
Proof.
  constructor.
  - split; [repeat (apply Forall_cons; [name_|]); apply Forall_nil|discriminate].
  - reflexivity.
  - listing_.
  - discriminate.
  - intros path. split.
    + intros [<-|[<-|[]]]; [exists "doc.go", (ESource true (inl ("m", f_doc))), f_doc | exists "store_linux.go", (ESource true (inl ("m", f_linux))), f_linux];
      (split; [cbn; tauto|split; [built_|reflexivity]]).
    + intros (n & e & f & Hi & (-> & _) & ->). cbn in Hi. destruct Hi as [[= <- <-]|[[= <- <-]|[[=]|[[=]|[]]]]]; cbn; tauto.
Qed.

(** The file for Windows is read as well, and its interface is the one used
    when the map of files yields it last. *)
Definition W_os (order : list gofile -> list gofile) : world :=
  world_in (fun _ => inl [p_os]) (fun _ => Some p_os) (fs_of l_os) (fun _ p => order (pk_files p)) (fun _ p => pk_imports p).
Theorem C71_constraints_refuted : ~ C71_statement /\
  exists p, w_load (W_os (fun l => l)) "x/m" = Ok p /\
   (exists out, findTarget Oex (W_os (fun l => l)) 20 [] p "" "Store" [] = Some (Ok out) /\ opt_keys (out_methods out) = ["Close"]) /\
   (exists out, findTarget Oex (W_os (@rev _)) 20 [] p "" "Store" [] = Some (Ok out) /\ opt_keys (out_methods out) = ["Open"]).
Proof.
  split.
  - intros H. destruct (H _ _ _ _ loaded_os) as (files & E & _ & HF). vm_compute in E. injection E as <-.
    destruct (proj1 (HF f_windows)) as (n & e & Hi & (-> & _)); [cbn; tauto|].
    cbn in Hi. destruct Hi as [[=]|[[=]|[[=]|[[=]|[]]]]].
  - eexists. split; [vm_compute; reflexivity|]. split; (eexists; split; vm_compute; reflexivity).
Qed.

(** An interface of a test file, which no package can import, is accepted. *)
Definition l_test : list (string * entry) := [("doc.go", ESource true (inl ("m", f_doc))); ("m_test.go", ESource true (inl ("m", f_test)))].
Definition p_test : loaded := Loaded "x/m" "m" ["/src/m/doc.go"] [] [] [].
Definition W_test : world := world_in (fun _ => inl [p_test]) (fun _ => Some p_test) (fs_of l_test) (fun _ p => pk_files p) (fun _ p => pk_imports p).
Example loaded_test : loaded_from (fs_of l_test) ["src"; "m"] l_test p_test.
Proof.
  constructor.
  - split; [repeat (apply Forall_cons; [name_|]); apply Forall_nil|discriminate].
  - reflexivity.
  - listing_.
  - discriminate.
  - intros path. split.
    + intros [<-|[]]. exists "doc.go", (ESource true (inl ("m", f_doc))), f_doc. split; [cbn; tauto|split; [built_|reflexivity]].
    + intros (n & e & f & Hi & (-> & _ & Ht & _) & ->). cbn in Hi. destruct Hi as [[= <- <-]|[[= <- <-]|[]]]; [cbn; tauto|].
      exfalso. apply Ht. suffix.
Qed.
Theorem C71_test_file_refuted :
  (forall n e f ts, In (n, e) l_test -> built "m" n e f -> In ts (gf_types f) -> ts_name ts <> "Fake") /\
  exists p out, w_load W_test "x/m" = Ok p /\ findTarget Oex W_test 20 [] p "m" "Fake" [] = Some (Ok out) /\ opt_keys (out_methods out) = ["Fake"].
Proof.
  split.
  - intros n e f ts Hi (-> & _ & Ht & _) Hts. cbn in Hi. destruct Hi as [[= <- <-]|[[= <- <-]|[]]].
    + destruct Hts as [<-|[]]. discriminate.
    + exfalso. apply Ht. suffix.
  - eexists _, _. split; [vm_compute; reflexivity|]. split; vm_compute; reflexivity.
Qed.

(** A file Go ignores (here the lock file of an editor) makes gowrap fail. *)
Definition l_lock : list (string * entry) := [(".#doc.go", ESource true (inr (Sentinel "no such file"))); ("doc.go", ESource true (inl ("m", f_doc)))].
Example loaded_lock : loaded_from (fs_of l_lock) ["src"; "m"] l_lock p_test.
Proof.
  constructor.
  - split; [repeat (apply Forall_cons; [name_|]); apply Forall_nil|discriminate].
  - reflexivity.
  - listing_.
  - discriminate.
  - intros path. split.
    + intros [<-|[]]. exists "doc.go", (ESource true (inl ("m", f_doc))), f_doc. split; [cbn; tauto|split; [built_|reflexivity]].
    + intros (n & e & f & Hi & (-> & _) & ->). cbn in Hi. destruct Hi as [[=]|[[= <- <-]|[]]]; cbn; tauto.
Qed.
Theorem C71_ignored_file_refuted : ~ C71_statement /\ AST (fs_of l_lock) p_test = Err (Sentinel "no such file").
Proof.
  split; [|reflexivity]. intros H. destruct (H _ _ _ _ loaded_lock) as (files & E & _). discriminate E.
Qed.

(** ** Examples *)

(** a directory with another package's test file and a README *)
Definition l_ok : list (string * entry) :=
  [("README.md", ESource true (inr (Sentinel "not Go"))); ("doc.go", ESource true (inl ("m", f_doc)));
   ("m_test.go", ESource true (inl ("m_test", f_test))); ("store_linux.go", ESource true (inl ("m", f_linux)))].
Example loaded_ok : loaded_from (fs_of l_ok) ["src"; "m"] l_ok p_os.
Proof.
  constructor.
  - split; [repeat (apply Forall_cons; [name_|]); apply Forall_nil|discriminate].
  - reflexivity.
  - listing_.
  - discriminate.
  - intros path. split.
    + intros [<-|[<-|[]]]; [exists "doc.go", (ESource true (inl ("m", f_doc))), f_doc | exists "store_linux.go", (ESource true (inl ("m", f_linux))), f_linux];
      (split; [cbn; tauto|split; [built_|reflexivity]]).
    + intros (n & e & f & Hi & (-> & _) & ->). cbn in Hi. destruct Hi as [[=]|[[= <- <-]|[[=]|[[= <- <-]|[]]]]]; cbn; tauto.
Qed.
Example exact_ok : (forall n a r, In (n, ESource a r) l_ok -> ends_with n ".go" -> exists x, r = inl x) /\
  (forall n a f, In (n, ESource a (inl ("m", f))) l_ok -> ends_with n ".go" -> built "m" n (ESource a (inl ("m", f))) f) /\
  AST (fs_of l_ok) p_os = Ok ("m", [("/src/m/doc.go", f_doc); ("/src/m/store_linux.go", f_linux)]).
Proof.
  split; [|split; [|reflexivity]].
  - intros n a r Hi Hn. cbn in Hi. destruct Hi as [[= <- <- <-]|[[= <- <- <-]|[[= <- <- <-]|[[= <- <- <-]|[]]]]]; eauto.
    apply (has_suffix_spec ".go") in Hn. discriminate Hn.
  - intros n a f Hi Hn. cbn in Hi. destruct Hi as [[=]|[[= <- <- <-]|[[=]|[[= <- <- <-]|[]]]]]; built_.
Qed.
Example load_ex : Load (fun _ => inl [p_os]) "x/m" = Ok p_os /\ Load (fun _ => inl []) "x/m" = Err errPackageNotFound /\
  Load (fun _ => inl [Loaded "x" "" [] [] [] [Sentinel "a"; Sentinel "b"]]) "x" = Err (Sentinel "a").
Proof. auto. Qed.

Print Assumptions C71_load.
Print Assumptions C71_ast.
Print Assumptions C71_complete.
Print Assumptions C71_exact_partial.
Print Assumptions C71_declared_partial.
Print Assumptions C71_constraints_refuted.
Print Assumptions C71_test_file_refuted.
Print Assumptions C71_ignored_file_refuted.
