(** C25, C26, C27: template loading. *)
From Verif Require Import Loader.
Open Scope nat_scope.

(** ** Specification *)

(** the GET requests in a list of effects, in order *)
Fixpoint gets (t : list eff) : list string :=
  match t with
  | [] => []
  | EGet u :: t' => u :: gets t'
  | _ :: t' => gets t'
  end.

(** A request together with what follows it: nothing when there was no
    response; otherwise the response, perhaps one read of its body, and one
    close of its body.  [well_closed n t]: [t] consists of such groups and of
    effects that do not concern responses; responses are numbered from [n]. *)
Inductive well_closed : nat -> list eff -> Prop :=
| wc_nil n : well_closed n []
| wc_other n e t : (forall i, e <> EResp i /\ e <> ERead i /\ e <> EClose i) ->
    well_closed n t -> well_closed n (e :: t)
| wc_resp n t : well_closed (S n) t -> well_closed n (EResp n :: EClose n :: t)
| wc_read n t : well_closed (S n) t -> well_closed n (EResp n :: ERead n :: EClose n :: t).

Definition eff_eq_dec (a b : eff) : {a = b} + {a <> b}.
Proof. decide equality; auto using string_dec, Nat.eq_dec. Qed.

Definition github_name (path : string) : Prop :=
  (forall r, path <> ("https://" ++ r)%string) /\ (forall r, path <> ("http://" ++ r)%string) /\
  (forall r, path <> ("file://" ++ r)%string).

(** GitHub's endpoints for the newest commit of a template, a file at a commit, and all files (loader.go:15-21) *)
Definition commits_of (name : string) : string :=
  ("https://api.github.com/repos/hexdigest/gowrap/commits?path=templates/" ++ name ++ "&per_page=1")%string.
Definition file_at (sha name : string) : string :=
  ("https://raw.githubusercontent.com/hexdigest/gowrap/" ++ sha ++ "/templates/" ++ name)%string.
Definition all_files : string := "https://api.github.com/repos/hexdigest/gowrap/git/trees/master?recursive=1".

(** what one GET gives: the answer of the server at the time of the request *)
Definition answer (W : io) (t : list eff) (url body : string) : Prop :=
  exists r, io_newreq W url = None /\ io_do W t url = inl r /\ r_status r = 200 /\
    r_body r = (body, None) /\ r_close r = None.

(** ** get *)

Section L.
Variable W : io.

(** what [get] does to the trace *)
Definition get_trace (t : list eff) (url : string) : list eff :=
  match io_newreq W url with
  | Some _ => []
  | None =>
      match io_do W t url with
      | inr _ => [EGet url]
      | inl r => if r_status r =? 200
                 then [EGet url; EResp (responses t); ERead (responses t); EClose (responses t)]
                 else [EGet url; EResp (responses t); EClose (responses t)]
      end
  end.

Lemma responses_app a b : responses (a ++ b) = responses a + responses b.
Proof. unfold responses. now rewrite filter_app, app_length. Qed.

Lemma get_eff t url : snd (get W url t) = t ++ get_trace t url.
Proof.
  unfold get, get_trace, bind, ask, emit, ret. destruct (io_newreq W url); cbn; [now rewrite app_nil_r|].
  destruct (io_do W t url) as [r|e]; cbn; [|reflexivity].
  rewrite responses_app. cbn [responses is_resp filter length]. rewrite Nat.add_0_r.
  destruct (r_status r =? 200); cbn; destruct (r_close r); cbn; now rewrite <- !app_assoc.
Qed.

Lemma get_answer t url body : fst (get W url t) = (body, None) <-> answer W t url body.
Proof.
  unfold get, answer, bind, ask, emit, ret. destruct (io_newreq W url) eqn:EN; cbn.
  { split; [discriminate | intros (r & H & _); discriminate]. }
  destruct (io_do W t url) as [r|e] eqn:ED; cbn.
  2:{ split; [discriminate | intros (r & _ & H & _); discriminate]. }
  destruct (Nat.eqb_spec (r_status r) 200) as [ES|ES]; cbn.
  - destruct (r_close r) eqn:EC; cbn.
    + split; [discriminate | intros (r' & _ & H & _ & _ & H2); congruence].
    + destruct (r_body r) as [b oe] eqn:EB. split.
      * intros H. injection H as -> ->. exists r. auto.
      * intros (r' & _ & H & _ & H2 & _). congruence.
  - destruct (r_close r) eqn:EC; cbn; (split; [discriminate | intros (r' & _ & H & H2 & _); congruence]).
Qed.

Lemma get_trace_wc t url : forall n d, n = responses t ->
  (forall n', n' = responses (t ++ get_trace t url) -> well_closed n' d) ->
  well_closed n (get_trace t url ++ d).
Proof.
  intros n d -> H. unfold get_trace in *.
  destruct (io_newreq W url); [cbn; apply H; now rewrite app_nil_r|].
  destruct (io_do W t url) as [r|e]; cbn.
  - destruct (r_status r =? 200); cbn.
    + apply wc_other; [intros i; repeat split; discriminate|]. apply wc_read. apply H.
      rewrite responses_app. cbn. lia.
    + apply wc_other; [intros i; repeat split; discriminate|]. apply wc_resp. apply H.
      rewrite responses_app. cbn. lia.
  - apply wc_other; [intros i; repeat split; discriminate|]. apply H. rewrite responses_app. cbn. lia.
Qed.

Lemma get_trace_wc0 t url : well_closed (responses t) (get_trace t url).
Proof. rewrite <- (app_nil_r (get_trace t url)). apply get_trace_wc; [reflexivity | constructor]. Qed.

Lemma gets_app a b : gets (a ++ b) = gets a ++ gets b.
Proof. induction a as [|e a IH]; [reflexivity|]. destruct e; cbn; now rewrite IH. Qed.

Lemma gets_get_trace t url : gets (get_trace t url) = match io_newreq W url with None => [url] | Some _ => [] end.
Proof.
  unfold get_trace. destruct (io_newreq W url); [reflexivity|].
  destruct (io_do W t url) as [r|e]; [|reflexivity]. now destruct (r_status r =? 200).
Qed.

(** ** C26 *)

(** Contents come back without an error exactly when the request could be
    made, was answered with 200, and reading and closing the body succeeded. *)
Theorem get_ok_iff t url body : fst (get W url t) = (body, None) <-> answer W t url body.
Proof. apply get_answer. Qed.

(** Another status than 200 is an error that names it, unless closing the body fails, which then is the error. *)
Theorem get_status t url r : io_newreq W url = None -> io_do W t url = inl r -> r_status r <> 200 ->
  fst (get W url t) = ("", Some (match r_close r with
                                 | Some ce => ce
                                 | None => Wrapped (dec (r_status r)) (Sentinel "unexpected status code")
                                 end)).
Proof.
  intros HN HD HS. unfold get, bind, ask, emit, ret. rewrite HN, HD. apply Nat.eqb_neq in HS. rewrite HS. cbn.
  destruct (r_close r); reflexivity.
Qed.

(** The other errors of a request come back as they are; an error of closing wins over one of reading. *)
Theorem get_errors t url :
  (forall e, io_newreq W url = Some e -> get W url t = (("", Some e), t)) /\
  (forall e, io_newreq W url = None -> io_do W t url = inr e -> fst (get W url t) = ("", Some e)) /\
  (forall r b e, io_newreq W url = None -> io_do W t url = inl r -> r_status r = 200 -> r_body r = (b, e) ->
     fst (get W url t) = (b, match r_close r with Some ce => Some ce | None => e end)).
Proof.
  unfold get, bind, ask, emit, ret. split; [|split].
  - intros e ->. reflexivity.
  - intros e -> ->. reflexivity.
  - intros r b e -> -> -> HB. cbn. rewrite HB. destruct (r_close r); reflexivity.
Qed.

Lemma wc_counts n d i : well_closed n d ->
  count_occ eff_eq_dec d (EClose i) = count_occ eff_eq_dec d (EResp i) /\
  count_occ eff_eq_dec d (EResp i) <= 1 /\ (i < n -> count_occ eff_eq_dec d (EResp i) = 0).
Proof.
  induction 1 as [n|n e t He H IH|n t H IH|n t H IH].
  - cbn. lia.
  - cbn. destruct (He i) as (A & B & C). destruct (eff_eq_dec e (EClose i)); [contradiction|].
    destruct (eff_eq_dec e (EResp i)); [contradiction|]. exact IH.
  - cbn. destruct (Nat.eq_dec n i) as [->|N].
    + destruct (eff_eq_dec (EResp i) (EResp i)); [|congruence]. destruct (eff_eq_dec (EClose i) (EClose i)); [|congruence].
      destruct (eff_eq_dec (EResp i) (EClose i)); [discriminate|]. destruct (eff_eq_dec (EClose i) (EResp i)); [discriminate|].
      destruct IH as (A & B & C). specialize (C (Nat.lt_succ_diag_r i)). lia.
    + destruct (eff_eq_dec (EResp n) (EResp i)) as [E|_]; [congruence|]. destruct (eff_eq_dec (EClose n) (EClose i)) as [E|_]; [congruence|].
      destruct (eff_eq_dec (EResp n) (EClose i)); [discriminate|]. destruct (eff_eq_dec (EClose n) (EResp i)); [discriminate|].
      destruct IH as (A & B & C). repeat split; auto.
  - cbn. destruct (eff_eq_dec (ERead n) (EClose i)); [discriminate|]. destruct (eff_eq_dec (ERead n) (EResp i)); [discriminate|].
    destruct (Nat.eq_dec n i) as [->|N].
    + destruct (eff_eq_dec (EResp i) (EResp i)); [|congruence]. destruct (eff_eq_dec (EClose i) (EClose i)); [|congruence].
      destruct (eff_eq_dec (EResp i) (EClose i)); [discriminate|]. destruct (eff_eq_dec (EClose i) (EResp i)); [discriminate|].
      destruct IH as (A & B & C). specialize (C (Nat.lt_succ_diag_r i)). lia.
    + destruct (eff_eq_dec (EResp n) (EResp i)) as [E|_]; [congruence|]. destruct (eff_eq_dec (EClose n) (EClose i)) as [E|_]; [congruence|].
      destruct (eff_eq_dec (EResp n) (EClose i)); [discriminate|]. destruct (eff_eq_dec (EClose n) (EResp i)); [discriminate|].
      destruct IH as (A & B & C). repeat split; auto.
Qed.

(** a computation extends the trace and closes every response it obtains *)
Definition closes {A} (m : M A) : Prop :=
  forall t, exists d, snd (m t) = t ++ d /\ well_closed (responses t) d.

Lemma closes_get url : closes (get W url).
Proof. intros t. exists (get_trace t url). split; [apply get_eff | apply get_trace_wc0]. Qed.
Lemma closes_ret {A} (a : A) : closes (ret a).
Proof. intros t. exists []. split; [cbn; now rewrite app_nil_r | constructor]. Qed.
Lemma closes_ask {A} (f : list eff -> A) : closes (ask f).
Proof. intros t. exists []. split; [cbn; now rewrite app_nil_r | constructor]. Qed.
Lemma closes_emit e : (forall i, e <> EResp i /\ e <> ERead i /\ e <> EClose i) -> closes (emit e).
Proof. intros H t. exists [e]. split; [reflexivity | apply wc_other; [exact H | apply wc_nil]]. Qed.

Lemma wc_app n a b : well_closed n a -> well_closed (n + responses a) b -> well_closed n (a ++ b).
Proof.
  induction 1 as [n|n e t He H IH|n t H IH|n t H IH]; intros B.
  - cbn in *. now rewrite Nat.add_0_r in B.
  - cbn. apply wc_other; [exact He|]. apply IH. revert B. unfold responses. cbn.
    destruct e; cbn; auto. exfalso. destruct (He id) as (X & _); now apply X.
  - cbn. apply wc_resp. apply IH. revert B. unfold responses. cbn. now rewrite <- plus_n_Sm.
  - cbn. apply wc_read. apply IH. revert B. unfold responses. cbn. now rewrite <- plus_n_Sm.
Qed.

Lemma closes_bind {A B} (m : M A) (k : A -> M B) : closes m -> (forall a, closes (k a)) -> closes (bind m k).
Proof.
  intros Hm Hk t. destruct (Hm t) as (d & E & Wd). unfold bind. destruct (m t) as [a t'] eqn:Em.
  cbn in E. subst t'. destruct (Hk a (t ++ d)) as (d2 & E2 & Wd2).
  exists (d ++ d2). split; [rewrite E2; now rewrite app_assoc|].
  apply wc_app; [exact Wd|]. now rewrite responses_app in Wd2.
Qed.

Lemma closes_readFile p : closes (readFile W p).
Proof.
  unfold readFile. apply closes_bind; [apply closes_ask|]. intros r. apply closes_bind; [|intros; apply closes_ret].
  apply closes_emit. intros i. repeat split; discriminate.
Qed.

Lemma closes_fetch n : closes (fetchFromGithub W n).
Proof.
  unfold fetchFromGithub. apply closes_bind; [apply closes_get|]. intros [b [e|]]; [apply closes_ret|].
  destruct (io_commits W b) as [[|sha l]|e]; try apply closes_ret.
  apply closes_bind; [apply closes_get|]. intros [c [e|]]; apply closes_ret.
Qed.

Lemma closes_remoteLoad p : closes (remoteLoad W p).
Proof.
  unfold remoteLoad. destruct (has_prefix "https://" p || has_prefix "http://" p).
  { apply closes_bind; [apply closes_get | intros; apply closes_ret]. }
  destruct (has_prefix "file://" p); [|apply closes_fetch].
  apply closes_bind; [apply closes_ask|]. intros miss.
  apply closes_bind; [apply closes_emit; intros i; repeat split; discriminate|]. intros _.
  destruct miss.
  - apply closes_bind.
    + unfold absGitPath. apply closes_bind; [apply closes_ask|]. intros r.
      apply closes_bind; [apply closes_emit; intros i; repeat split; discriminate | intros; apply closes_ret].
    + intros [q|e]; [|apply closes_ret]. apply closes_bind; [apply closes_readFile | intros; apply closes_ret].
  - apply closes_bind; [apply closes_readFile | intros; apply closes_ret].
Qed.

Lemma closes_localLoad p : closes (localLoad W p).
Proof.
  unfold localLoad. apply closes_bind; [apply closes_readFile|]. intros [s|e|e]; try apply closes_ret.
  apply closes_remoteLoad.
Qed.

Lemma closes_list : closes (remoteList W).
Proof.
  unfold remoteList. apply closes_bind; [apply closes_get|]. intros [b [e|]]; [apply closes_ret|].
  destruct (io_tree W b); apply closes_ret.
Qed.

(** every response obtained by loading or listing is closed exactly once,
    directly after it was obtained or read *)
Theorem responses_closed_once :
  (forall p, closes (localLoad W p)) /\ closes (remoteList W) /\
  (forall A (m : M A), closes m -> forall t d, snd (m t) = t ++ d ->
     forall i, count_occ eff_eq_dec d (EClose i) = count_occ eff_eq_dec d (EResp i) /\
       count_occ eff_eq_dec d (EResp i) <= 1).
Proof.
  split; [exact closes_localLoad|]. split; [exact closes_list|].
  intros A m Hm t d E i. destruct (Hm t) as (d' & E' & Wc).
  rewrite E in E'. apply app_inv_head in E'. subst d'.
  destruct (wc_counts _ _ i Wc) as (H1 & H2 & _). auto.
Qed.

(** ** C25 *)

Lemma bind_eq {A B} (m : M A) (k : A -> M B) t a t' : m t = (a, t') -> bind m k t = k a t'.
Proof. unfold bind. now intros ->. Qed.

Lemma get_pair t url : get W url t = (fst (get W url t), t ++ get_trace t url).
Proof. rewrite <- get_eff. now destruct (get W url t). Qed.

(** a readable file is used as is; no other effect happens *)
Theorem load_readable t path s : io_read W t path = FOk s ->
  localLoad W path t = ((s, path, None), t ++ [EReadFile path]).
Proof. intros H. unfold localLoad, readFile, bind, ask, emit, ret. now rewrite H. Qed.

(** a file that exists and cannot be read is an error; no other effect *)
Theorem load_unreadable t path e : io_read W t path = FErr e ->
  localLoad W path t = (("", "", Some e), t ++ [EReadFile path]).
Proof. intros H. unfold localLoad, readFile, bind, ask, emit, ret. now rewrite H. Qed.

Lemma localLoad_missing t path e : io_read W t path = FNotExist e ->
  localLoad W path t = remoteLoad W path (t ++ [EReadFile path]).
Proof. intros H. unfold localLoad, readFile, bind, ask, emit, ret. now rewrite H. Qed.

Lemma prefix_false p s : (forall r, s <> (p ++ r)%string) -> has_prefix p s = false.
Proof.
  intros H. apply not_true_iff_false. unfold has_prefix. rewrite prefix_spec. intros (r & E). now apply (H r).
Qed.

(** http(s) URLs: one GET to exactly that URL, whose contents are the result *)
Theorem load_url t path e : io_read W t path = FNotExist e ->
  (exists r, path = ("https://" ++ r)%string \/ path = ("http://" ++ r)%string) ->
  exists d, snd (localLoad W path t) = t ++ EReadFile path :: d /\
    gets d = (match io_newreq W path with None => [path] | Some _ => [] end) /\
    (forall b u, fst (localLoad W path t) = (b, u, None) <->
       u = path /\ answer W (t ++ [EReadFile path]) path b).
Proof.
  intros H (r & HP). rewrite (localLoad_missing _ _ _ H).
  assert (E : has_prefix "https://" path || has_prefix "http://" path = true).
  { unfold has_prefix. apply orb_true_iff. destruct HP as [-> | ->]; [left|right]; apply prefix_app. }
  unfold remoteLoad. rewrite E. set (t1 := t ++ [EReadFile path]).
  unfold bind. rewrite get_pair. cbn.
  exists (get_trace t1 path). split; [unfold t1; now rewrite <- app_assoc|].
  split; [apply gets_get_trace|]. intros b u. destruct (get W path t1) as [[b' oe] t'] eqn:G. cbn.
  rewrite <- get_answer, G. cbn. split.
  - intros X. injection X as -> <- ->. auto.
  - intros (-> & X). now injection X as -> ->.
Qed.

(** file:// URLs: never a request *)
Theorem load_file_url t path e r : io_read W t path = FNotExist e -> path = ("file://" ++ r)%string ->
  exists d, snd (localLoad W path t) = t ++ EReadFile path :: EStat r :: d /\ gets d = [] /\
    (io_missing W (t ++ [EReadFile path]) r = false -> d = [EReadFile r]).
Proof.
  intros H ->. rewrite (localLoad_missing _ _ _ H). unfold remoteLoad.
  cbn [has_prefix String.prefix ascii_dec]. set (p := ("file://" ++ r)%string) in *.
  change (has_prefix "https://" p) with false. change (has_prefix "http://" p) with false. cbn [orb].
  assert (E : has_prefix "file://" p = true) by apply prefix_app. rewrite E.
  assert (D : drop 7 p = r) by exact (drop_app "file://" r). rewrite D.
  unfold bind, ask, emit. destruct (io_missing W (t ++ [EReadFile p]) r) eqn:EM.
  - unfold absGitPath, bind, ask, emit, ret.
    destruct (io_git W ((t ++ [EReadFile p]) ++ [EStat r])) as [root|ge]; cbn.
    + exists [EGit; EReadFile (Join2 (trim_space root) r)]. rewrite <- !app_assoc. cbn. repeat split. discriminate.
    + exists [EGit]. rewrite <- !app_assoc. cbn. repeat split. discriminate.
  - unfold readFile, bind, ask, emit, ret. cbn. exists [EReadFile r]. rewrite <- !app_assoc. cbn. auto.
Qed.

(** any other name: one GET for the newest commit and, if that answered with a
    commit, one GET for the file at exactly that commit; success is the
    success of both *)
Theorem load_github t path e : io_read W t path = FNotExist e -> github_name path ->
  let t1 := t ++ [EReadFile path] in
  let cu := commits_of path in
  exists d, snd (localLoad W path t) = t1 ++ d /\
    (forall b u, fst (localLoad W path t) = (b, u, None) ->
       exists cb sha shas, answer W t1 cu cb /\ io_commits W cb = inl (sha :: shas) /\
         u = file_at sha path /\ gets d = [cu; u] /\
         answer W (t1 ++ get_trace t1 cu) u b) /\
    (forall cb, answer W t1 cu cb -> forall sha shas, io_commits W cb = inl (sha :: shas) ->
       gets d = cu :: (match io_newreq W (file_at sha path) with None => [file_at sha path] | Some _ => [] end)) /\
    ((forall cb sha shas, answer W t1 cu cb -> io_commits W cb <> inl (sha :: shas)) ->
       gets d = match io_newreq W cu with None => [cu] | Some _ => [] end).
Proof.
  change commits_of with url_commits. change file_at with url_raw.
  intros H (N1 & N2 & N3) t1 cu. rewrite (localLoad_missing _ _ _ H). fold t1.
  unfold remoteLoad. rewrite !prefix_false by assumption. cbn [orb].
  unfold fetchFromGithub. fold cu. clearbody cu.
  pose proof (get_answer t1 cu) as GA. rewrite (bind_eq _ _ _ _ _ (get_pair t1 cu)).
  set (t2 := t1 ++ get_trace t1 cu) in *.
  destruct (fst (get W cu t1)) as [cb oe] eqn:G. destruct oe as [ce|].
  { cbn. exists (get_trace t1 cu). split; [reflexivity|]. split; [intros; discriminate|]. split.
    - intros cb' A. apply GA in A. discriminate.
    - intros _. apply gets_get_trace. }
  assert (A : answer W t1 cu cb) by now apply GA.
  assert (AU : forall cb', answer W t1 cu cb' -> cb' = cb) by (intros cb' A'; apply GA in A'; congruence).
  assert (NR : io_newreq W cu = None) by (destruct A as (r & X & _); exact X).
  destruct (io_commits W cb) as [[|sha shas]|je] eqn:EC.
  - cbn. exists (get_trace t1 cu). split; [reflexivity|]. split; [intros; discriminate|]. split.
    + intros cb' A' s l X. rewrite (AU _ A') in X. congruence.
    + intros _. apply gets_get_trace.
  - pose proof (get_answer t2 (url_raw sha path)) as GA2.
    rewrite (bind_eq _ _ _ _ _ (get_pair t2 (url_raw sha path))).
    exists (get_trace t1 cu ++ get_trace t2 (url_raw sha path)).
    destruct (fst (get W (url_raw sha path) t2)) as [c [ce|]] eqn:G2; cbn [ret fst snd].
    + split; [unfold t2; now rewrite app_assoc|]. split; [intros; discriminate|]. split.
      * intros cb' A' s l X. rewrite (AU _ A') in X. rewrite EC in X. injection X as <- <-.
        rewrite gets_app, !gets_get_trace, NR. reflexivity.
      * intros X. exfalso. now apply (X cb sha shas A).
    + split; [unfold t2; now rewrite app_assoc|]. split; [|split].
      * intros b u X. injection X as <- <-. exists cb, sha, shas.
        assert (A2 : answer W t2 (url_raw sha path) c) by now apply GA2.
        repeat split; auto. rewrite gets_app, !gets_get_trace, NR.
        destruct A2 as (r & X & _). now rewrite X.
      * intros cb' A' s l X. rewrite (AU _ A') in X. rewrite EC in X. injection X as <- <-.
        rewrite gets_app, !gets_get_trace, NR. reflexivity.
      * intros X. exfalso. now apply (X cb sha shas A).
  - cbn. exists (get_trace t1 cu). split; [reflexivity|]. split; [intros; discriminate|]. split.
    + intros cb' A' s l X. rewrite (AU _ A') in X. congruence.
    + intros _. apply gets_get_trace.
Qed.

(** a name without commits, and answers that cannot be decoded or fetched, are errors that say so *)
Theorem load_github_errors t path e : io_read W t path = FNotExist e -> github_name path ->
  let t1 := t ++ [EReadFile path] in
  let cu := commits_of path in
  (forall cb ce, fst (get W cu t1) = (cb, Some ce) -> fst (localLoad W path t) = ("", "", Some ce)) /\
  (forall cb, answer W t1 cu cb ->
     (io_commits W cb = inl [] -> fst (localLoad W path t) = ("", "", Some (Sentinel "remote template not found"))) /\
     (forall je, io_commits W cb = inr je -> fst (localLoad W path t) = ("", "", Some (Wrapped "failed to decode commit info" je))) /\
     (forall sha shas b fe, io_commits W cb = inl (sha :: shas) -> fst (get W (file_at sha path) (snd (get W cu t1))) = (b, Some fe) ->
        fst (localLoad W path t) = ("", "", Some (Wrapped "failed to fetch template" fe)))).
Proof.
  change commits_of with url_commits. change file_at with url_raw.
  intros H (N1 & N2 & N3) t1 cu. rewrite (localLoad_missing _ _ _ H). fold t1.
  unfold remoteLoad. rewrite !prefix_false by assumption. cbn [orb]. unfold fetchFromGithub. fold cu. unfold bind.
  pose proof (get_answer t1 cu) as GA. destruct (get W cu t1) as [[cb oe] t2] eqn:G. cbn [fst snd] in *. split.
  - intros cb' ce X. injection X as -> ->. reflexivity.
  - intros cb' A. apply GA in A. injection A as -> ->. split; [|split].
    + intros ->. reflexivity.
    + intros je ->. reflexivity.
    + intros sha shas b fe -> X. destruct (get W (url_raw sha path) t2) as [[c oe] t3]. cbn in X. injection X as -> ->. reflexivity.
Qed.

(** ** C27 *)

(** [listed paths names]: going through the paths in order, exactly those of
    the form templates/name with a non-empty name are taken, as name *)
Inductive listed : list string -> list string -> Prop :=
| li_nil : listed [] []
| li_take n ps ns : n <> "" -> listed ps ns -> listed (("templates/" ++ n)%string :: ps) (n :: ns)
| li_skip p ps ns : (forall n, n <> "" -> p <> ("templates/" ++ n)%string) -> listed ps ns -> listed (p :: ps) ns.

Lemma replace1_prefix p t new : p <> "" -> replace1 p new (p ++ t)%string = (new ++ t)%string.
Proof.
  intros NE. destruct p as [|c p]; [congruence|]. cbn [String.append replace1].
  pose proof (prefix_app (String c p) t) as P. cbn [String.append] in P. rewrite P.
  pose proof (drop_app (String c p) t) as D. cbn [String.append] in D. now rewrite D.
Qed.

Lemma list_loop_listed l : listed l (list_loop l).
Proof.
  induction l as [|p l IH]; [constructor|]. cbn [list_loop].
  destruct (has_prefix templatesPathPrefix p) eqn:E; cbn [andb].
  - apply prefix_spec in E. destruct E as (n & ->).
    destruct (String.eqb_spec (templatesPathPrefix ++ n)%string templatesPathPrefix) as [E|E]; cbn [negb].
    + apply li_skip; [|exact IH]. intros m Hm. intros X. change templatesPathPrefix with "templates/" in *.
      rewrite E in X. apply Hm. rewrite <- (sapp_nil_r "templates/") in X at 1. now apply sapp_inj_l in X.
    + rewrite replace1_prefix by discriminate. cbn [String.append]. apply li_take; [|exact IH].
      intros ->. apply E. apply sapp_nil_r.
  - apply li_skip; [|exact IH]. intros n _ ->. rewrite (proj2 (prefix_spec _ _)) in E; [discriminate|]. now exists n.
Qed.

Lemma listed_fun l r : listed l r -> forall r', listed l r' -> r = r'.
Proof.
  induction 1 as [|n ps ns Hn H IH|p ps ns Hp H IH]; intros r' H'; inversion H'; subst; auto.
  - f_equal. auto.
  - exfalso. match goal with X : forall n, n <> "" -> _ |- _ => now apply (X n Hn) end.
  - exfalso. now apply (Hp n).
Qed.

(** List succeeds exactly when the tree was fetched and decoded; it then
    returns exactly the names under templates/, in order *)
Theorem list_exact t names :
  fst (remoteList W t) = (names, None) <->
  exists body paths, answer W t all_files body /\ io_tree W body = inl paths /\ listed paths names.
Proof.
  change all_files with urlTree. unfold remoteList. pose proof (get_answer t urlTree) as GA.
  rewrite (bind_eq _ _ _ _ _ (get_pair t urlTree)).
  destruct (fst (get W urlTree t)) as [b [e|]] eqn:G.
  { cbn. split; [discriminate|]. intros (body & paths & A & _). apply GA in A. discriminate. }
  destruct (io_tree W b) as [paths|je] eqn:ET; cbn.
  - split.
    + intros X. injection X as <-. exists b, paths. repeat split; auto; [now apply GA | apply list_loop_listed].
    + intros (body & ps & A & EB & L). apply GA in A. injection A as <-. rewrite ET in EB. injection EB as <-.
      f_equal. eapply listed_fun; [apply list_loop_listed | exact L].
  - split; [discriminate|]. intros (body & ps & A & EB & _). apply GA in A. injection A as <-. congruence.
Qed.

(** other outcomes of List *)
Theorem list_errors t :
  (forall b e, fst (get W all_files t) = (b, Some e) -> fst (remoteList W t) = ([], Some e)) /\
  (forall b e, answer W t all_files b -> io_tree W b = inr e -> fst (remoteList W t) = ([], Some e)).
Proof.
  change all_files with urlTree. unfold remoteList, bind. pose proof (get_answer t urlTree) as GA.
  destruct (get W urlTree t) as [[b0 oe] t1]. cbn [fst] in GA |- *. split.
  - intros b e X. injection X as -> ->. reflexivity.
  - intros b e A X. apply GA in A. injection A as -> ->. rewrite X. reflexivity.
Qed.
End L.

(** ** A world to run the loader in *)

Definition demo_do (t : list eff) (url : string) : response + gerr :=
  if String.eqb url (url_commits "retry") then inl (Resp 200 ("C", None) None)
  else if String.eqb url (url_raw "abc123" "retry") then inl (Resp 200 ("body of retry", None) None)
  else if String.eqb url urlTree then inl (Resp 200 ("T", None) None)
  else if String.eqb url "https://x/closefail" then inl (Resp 200 ("data", None) (Some (Sentinel "close")))
  else inl (Resp 404 ("not found", None) None).
Definition demo : io := {|
  io_newreq := fun _ => None;
  io_do := demo_do;
  io_missing := fun _ p => negb (String.eqb p "here");
  io_read := fun _ p => if String.eqb p "local.tmpl" then FOk "local text"
                        else if String.eqb p "secret" then FErr (Sentinel "permission denied")
                        else if String.eqb p "/top/sub/t" then FOk "in git"
                        else FNotExist (Sentinel "no such file");
  io_git := fun _ => inl ("/top" ++ nl)%string;
  io_commits := fun b => if String.eqb b "C" then inl ["abc123"; "older"] else inr (Sentinel "json");
  io_tree := fun _ => inl ["README.md"; "templates"; "templates/"; "templates/retry"; "templates/templates/x"; "xtemplates/y"];
  io_cwd := inl "/work";
  io_mkdir := fun _ _ => None;
  io_write := fun _ _ _ => None
|}.

Example load_ex_local : localLoad demo "local.tmpl" [] = (("local text", "local.tmpl", None), [EReadFile "local.tmpl"]).
Proof. apply (load_readable demo [] "local.tmpl"). reflexivity. Qed.
Example load_ex_secret : fst (localLoad demo "secret" []) = ("", "", Some (Sentinel "permission denied")).
Proof. now rewrite (load_unreadable demo [] "secret" (Sentinel "permission denied")). Qed.
Example load_ex_github : localLoad demo "retry" [] =
  (("body of retry", url_raw "abc123" "retry", None),
   [EReadFile "retry"; EGet (url_commits "retry"); EResp 0; ERead 0; EClose 0;
    EGet (url_raw "abc123" "retry"); EResp 1; ERead 1; EClose 1]).
Proof. vm_compute. reflexivity. Qed.
Example load_ex_github_hyp : io_read demo [] "retry" = FNotExist (Sentinel "no such file") /\ github_name "retry".
Proof. split; [reflexivity|]. repeat split; intros r H; discriminate H. Qed.
Example load_ex_missing : snd (fst (localLoad demo "https://x/none" [])) = Some (Wrapped "404" errUnexpectedStatusCode).
Proof. vm_compute. reflexivity. Qed.
Example load_ex_close : localLoad demo "https://x/closefail" [] =
  (("data", "https://x/closefail", Some (Sentinel "close")),
   [EReadFile "https://x/closefail"; EGet "https://x/closefail"; EResp 0; ERead 0; EClose 0]).
Proof. vm_compute. reflexivity. Qed.
Example load_ex_git : localLoad demo "file://sub/t" [] =
  (("in git", "/top/sub/t", None), [EReadFile "file://sub/t"; EStat "sub/t"; EGit; EReadFile "/top/sub/t"]).
Proof. vm_compute. reflexivity. Qed.
Example list_ex_urls : gets (snd (localLoad demo "retry" [])) =
  ["https://api.github.com/repos/hexdigest/gowrap/commits?path=templates/retry&per_page=1";
   "https://raw.githubusercontent.com/hexdigest/gowrap/abc123/templates/retry"].
Proof. vm_compute. reflexivity. Qed.
Example list_ex : fst (remoteList demo []) = (["retry"; "templates/x"], None).
Proof. vm_compute. reflexivity. Qed.

Print Assumptions get_ok_iff.
Print Assumptions responses_closed_once.
Print Assumptions load_readable.
Print Assumptions load_unreadable.
Print Assumptions load_url.
Print Assumptions load_file_url.
Print Assumptions load_github.
Print Assumptions list_exact.
Print Assumptions get_status.
Print Assumptions get_errors.
Print Assumptions load_github_errors.
Print Assumptions list_errors.
