(** Decorators that only observe a call: something is asked from the outside
    before the call of the base, something else when it is done.

    A script is a sequence of operations each of which may use what the earlier
    ones returned. *)
From Verif Require Export Deco.
Open Scope nat_scope.

(** ** Specification *)

Inductive script (A : Type) :=
| Done (a : A)
| Ask (o : op) (k : list val -> script A).
Arguments Done {A} _. Arguments Ask {A} _ _.

(** how a script ended: with a value, or because the answer of the last
    operation was not a return *)
Inductive plays {A} : script A -> trace -> out A -> Prop :=
| P_done a : plays (Done a) [] (Val a)
| P_panics o k v : plays (Ask o k) [(o, APan v)] (Pan v)
| P_hangs o k : plays (Ask o k) [(o, ABlock)] Blk
| P_next o k l tr r : plays (k l) tr r -> plays (Ask o k) ((o, ARet l) :: tr) r.

(** one script after another *)
Fixpoint andthen {A B} (s : script A) (k : A -> script B) : script B :=
  match s with Done a => k a | Ask o k' => Ask o (fun l => andthen (k' l) k) end.

Lemma plays_andthen : forall {A B} (s : script A) (k : A -> script B) tr a tr2 r,
  plays s tr (Val a) -> plays (k a) tr2 r -> plays (andthen s k) (tr ++ tr2) r.
Proof.
  intros A B s k tr a tr2 r H. remember (Val a) as x eqn:E. revert E.
  induction H as [a'|o k' v|o k'|o k' l tr r' H IH]; intros E Hk; try discriminate.
  - injection E as ->. exact Hk.
  - cbn. apply P_next. now apply IH.
Qed.

Lemma plays_andthen_panics : forall {A B} (s : script A) (k : A -> script B) tr v,
  plays s tr (Pan v) -> plays (andthen s k) tr (Pan v).
Proof.
  intros A B s k tr v H. remember (Pan v) as x eqn:E. revert E.
  induction H as [a'|o k' w|o k'|o k' l tr r' H IH]; intros E; try discriminate.
  - injection E as ->. apply P_panics.
  - cbn. apply P_next. now apply IH.
Qed.

Lemma plays_andthen_hangs : forall {A B} (s : script A) (k : A -> script B) tr,
  plays s tr Blk -> plays (andthen s k) tr Blk.
Proof.
  intros A B s k tr H. remember Blk as x eqn:E. revert E.
  induction H as [a'|o k' w|o k'|o k' l tr r' H IH]; intros E; try discriminate.
  - apply P_hangs.
  - cbn. apply P_next. now apply IH.
Qed.

(** the results that a function deferred by the caller of the base sees *)
Definition results (zeros : list val) (a : ans) : list val := match a with ARet vs => vs | _ => zeros end.

(** the outcome of a call that got answer [a] from the base, after a deferred
    function that ended as [b]: its panic replaces that of the base *)
Definition finish (a : ans) (b : out unit) (r : out (list val)) : Prop :=
  match b with
  | Val _ => ends a r
  | Pan v => r = Pan v
  | Blk => r = Blk
  | _ => False
  end.

(** [before] yields the arguments of the base call and whatever [after] needs *)
Inductive observed_call {A} (before : script A) (base : A -> op) (zeros : list val) (after : A -> list val -> script unit)
  : trace -> out (list val) -> Prop :=
| OB_panics tr v : plays before tr (Pan v) -> observed_call before base zeros after tr (Pan v)
| OB_blocks tr : plays before tr Blk -> observed_call before base zeros after tr Blk
| OB_hangs tr x : plays before tr (Val x) -> observed_call before base zeros after (tr ++ [(base x, ABlock)]) Blk
| OB_done tr x a tr2 b r : plays before tr (Val x) -> a <> ABlock -> plays (after x (results zeros a)) tr2 b -> finish a b r ->
    observed_call before base zeros after (tr ++ (base x, a) :: tr2) r.

(** the last result, nil if there is none *)
Definition failed (m : method) (rs : list val) : bool := m_returnsError m && negb (is_nil (last rs VNil)).

(** ** The deferred closure and the call of the base *)
Section OBSERVED.
Variable W : gworld.
Variable m : method.
Variable funcs : list (string * (list string * list gstmt)).
Variable L : nat.
Let R := length (m_results m).
Let P := length (m_params m).

(** the script was played after [tr], and nothing but locals changed *)
Definition played (recv : val) (rs ps : list val) (sc : script unit) (tr : trace) (r : out ctl) (s : mstate) : Prop :=
  exists tr2 b, ms_trace s = tr ++ tr2 /\ plays sc tr2 b /\ ms_defers s = [] /\
    match b with
    | Val _ => (exists c, r = Val c) /\ exists ex', ms_store s = cells recv rs ps ex'
    | Pan w => r = Pan w
    | Blk => r = Blk
    | _ => False
    end.

(** what a deferred closure does to the state left by the body *)
Definition clo_meets (env : loc_env) (clo : list gstmt) (recv : val) (rs ps ex : list val) (sc : script unit) : Prop :=
  forall tr, wp (block W m funcs L (invoke W m funcs L 1) [] env [] clo) (played recv rs ps sc tr)
                (MState (cells recv rs ps ex) tr []).

(** what remains to be done after the body of the method *)
Definition body_done (Q : out (list val) -> trace -> Prop) (r : out ctl) (s1 : mstate) : Prop :=
  let Q' := fun r s => Q r (ms_trace s) in
  let finish p :=
    wp (run_defers (invoke W m funcs L 2) (ms_defers s1) p)
       (fun r2 s2 => match r2 with
                     | Val (Some v) => Q' (Pan v) (MState (ms_store s2) (ms_trace s2) [])
                     | Val None => wp (loads (seq 1 R)) Q' (MState (ms_store s2) (ms_trace s2) [])
                     | Pan v => Q' (Pan v) (MState (ms_store s2) (ms_trace s2) [])
                     | Blk => Q' Blk s2
                     | NoFuel => Q' NoFuel s2
                     | Stuck => Q' Stuck s2
                     end) (MState (ms_store s1) (ms_trace s1) []) in
  match r with
  | Val _ => finish None
  | Pan v => finish (Some v)
  | Blk => Q' Blk s1
  | NoFuel => Q' NoFuel s1
  | Stuck => Q' Stuck s1
  end.

Lemma run_method_done : forall body recv zeros args (Q : out (list val) -> trace -> Prop),
  wp (block W m funcs L (invoke W m funcs L 2) (seq 1 R) (method_env m) ("_d" :: result_names m ++ param_names m) body)
     (body_done Q) (MState (cells recv zeros args []) [] []) ->
  let '(r, tr) := run_method W m funcs L body recv zeros args in Q r tr.
Proof. intros body recv zeros args Q H. apply run_method_wp. apply wp_activation. exact H. Qed.

Lemma done_panic : forall (Q : out (list val) -> trace -> Prop) v st tr, Q (Pan v) tr -> body_done Q (Pan v) (MState st tr []).
Proof. intros Q v st tr H. exact H. Qed.

Lemma done_blocked : forall (Q : out (list val) -> trace -> Prop) st tr ds, Q Blk tr -> body_done Q Blk (MState st tr ds).
Proof. intros Q st tr ds H. exact H. Qed.

(** running the deferred closure once the body returned ([p = None]) or
    panicked *)
Lemma wp_deferred : forall env clo recv rs ps ex sc tr p (Q : out (list val) -> trace -> Prop),
  length rs = R -> clo_meets env clo recv rs ps ex sc ->
  (forall tr2 b r, plays sc tr2 b ->
     match b with
     | Val _ => r = match p with None => Val rs | Some v => Pan v end
     | Pan w => r = Pan w
     | Blk => r = Blk
     | _ => False
     end -> Q r (tr ++ tr2)) ->
  body_done Q match p with None => Val CRet | Some v => Pan v end (MState (cells recv rs ps ex) tr [KClo env clo]).
Proof.
  intros env clo recv rs ps ex sc tr p Q Hr Hc HQ.
  assert (H : wp (run_defers (invoke W m funcs L 2) [KClo env clo] p)
       (fun r2 s2 => match r2 with
                     | Val (Some v) => Q (Pan v) (ms_trace s2)
                     | Val None => wp (loads (seq 1 R)) (fun r s => Q r (ms_trace s)) (MState (ms_store s2) (ms_trace s2) [])
                     | Pan v => Q (Pan v) (ms_trace s2)
                     | Blk => Q Blk (ms_trace s2)
                     | NoFuel => Q NoFuel (ms_trace s2)
                     | Stuck => Q Stuck (ms_trace s2)
                     end) (MState (cells recv rs ps ex) tr [])).
  { apply wp_defers_cons.
    change (invoke W m funcs L 2 (KClo env clo)) with (activation W m funcs L (invoke W m funcs L 1) [] env [] clo).
    apply wp_activation. eapply wp_weaken; [apply Hc|]. cbv beta zeta.
    intros r s (tr2 & b & Ht & Hp & Hd & Hb). destruct b as [u|w| | |].
    - destruct Hb as [[c ->] [ex' Hs]]. destruct s as [st t ds]. cbn [ms_store ms_trace ms_defers] in *. subst st t ds.
      repeat wp1. cbn [ms_store ms_trace ms_defers]. destruct p as [v|].
      + apply (HQ tr2 (Val u)); [exact Hp | reflexivity].
      + apply wp_load_results; [exact Hr|]. cbn [ms_trace]. apply (HQ tr2 (Val u)); [exact Hp | reflexivity].
    - subst r. destruct s as [st t ds]. cbn [ms_store ms_trace ms_defers] in *. subst t ds.
      repeat wp1. cbn [ms_trace]. apply (HQ tr2 (Pan w)); [exact Hp | reflexivity].
    - subst r. rewrite Ht. apply (HQ tr2 Blk); [exact Hp | reflexivity].
    - destruct Hb.
    - destruct Hb. }
  unfold body_done. destruct p as [v|]; cbv zeta; cbn [ms_store ms_trace ms_defers];
  (eapply wp_weaken; [exact H|]; intros r s; destruct r as [[w|]|w| | |]; intros Hx; exact Hx).
Qed.

(** passing on to the base with one deferred closure *)
Lemma wp_observed : forall env env' top clo p f fs n zeros ps ex tr after (Q : out (list val) -> trace -> Prop),
  frame m env -> length zeros = R -> length ps = P -> field_of (wtext f) fs = Some (VRef n) -> base_typed W m n ->
  (forall rs, length rs = R -> rs = zeros \/ (exists t, w_ans W t (OMeth (VRef n) (m_name m) ps) = ARet rs) ->
     clo_meets env' clo (VRec fs) rs ps ex (after rs)) ->
  (w_ans W tr (OMeth (VRef n) (m_name m) ps) = ABlock -> Q Blk (tr ++ [(OMeth (VRef n) (m_name m) ps, ABlock)])) ->
  (forall a tr2 b r, a <> ABlock -> w_ans W tr (OMeth (VRef n) (m_name m) ps) = a ->
     plays (after (results zeros a)) tr2 b -> finish a b r -> Q r (tr ++ (OMeth (VRef n) (m_name m) ps, a) :: tr2)) ->
  wp (block W m funcs L (invoke W m funcs L 2) (seq 1 R) env top [SPass p (ESel (EVar (id "_d")) f)]) (body_done Q)
     (MState (cells (VRec fs) zeros ps ex) tr [KClo env' clo]).
Proof.
  intros env env' top clo p f fs n zeros ps ex tr after Q Hf Hz Hp Hfld Hb Hc Hblk Hdone.
  wp1. wp1. eapply wp_pass; [reflexivity | reflexivity | exact Hf | exact Hz | exact Hp | exact Hfld | apply Hb |].
  destruct (w_ans W tr (OMeth (VRef n) (m_name m) ps)) as [vs|v|] eqn:E; cbv beta iota.
  - cbn [fst snd]. pose proof (Hb _ _ _ E) as Hl. apply wp_ret.
    apply (wp_deferred env' clo (VRec fs) vs ps ex (after vs) _ None); [exact Hl | apply Hc; [exact Hl | right; eexists; exact E]|].
    intros tr2 b r Hpl Hr. rewrite <- app_assoc. cbn [app].
    apply (Hdone (ARet vs) tr2 b r); [discriminate | reflexivity | exact Hpl|]. destruct b; exact Hr.
  - apply (wp_deferred env' clo (VRec fs) zeros ps ex (after zeros) _ (Some v)); [exact Hz | apply Hc; [exact Hz | now left]|].
    intros tr2 b r Hpl Hr. rewrite <- app_assoc. cbn [app].
    apply (Hdone (APan v) tr2 b r); [discriminate | reflexivity | exact Hpl|]. destruct b; exact Hr.
  - apply Hblk. reflexivity.
Qed.
End OBSERVED.

(** solve [plays sc tr r] for a given trace *)
Ltac plays := repeat first [ apply P_done | apply P_panics | apply P_hangs | eapply P_next; cbv beta ].

(** solve [played ..] at the end of an execution *)
Ltac played :=
  unfold played; eexists _, _; split;
  [ cbn [ms_trace]; rewrite <- ?app_assoc; cbn [app]; first [reflexivity | symmetry; apply app_nil_r]
  | split; [plays | split; [reflexivity|]; first [reflexivity | split; [eexists; reflexivity | eexists; reflexivity]]] ].

(** one operation of the outside world *)
Ltac ask := apply wp_ask; match goal with |- match w_ans ?W ?t ?o with _ => _ end => destruct (w_ans W t o) eqn:? end; cbv beta iota; repeat wp1.

(** the same, up to the next statement *)
Ltac ask1 := apply wp_ask; match goal with |- match w_ans ?W ?t ?o with _ => _ end => destruct (w_ans W t o) eqn:? end; cbv beta iota; wps.

(** the end of a method body: the deferred closure is set, the base is called *)
Ltac observe Hf Hz Ha Hfld Hb :=
  wp1; wps; eapply wp_observed; [exact Hf | exact Hz | exact Ha | exact Hfld | exact Hb | | |].
Ltac ob_hangs l x := match goal with |- observed_call ?b ?c ?z ?d _ _ => eapply (OB_hangs b c z d l x) end; plays.
Ltac ob_done l x :=
  match goal with Hne : ?a <> ABlock, Hpl : plays _ ?tr2 ?b, Hr : finish ?a ?b ?r |- observed_call ?b0 ?c ?z ?d _ _ =>
    eapply (OB_done b0 c z d l x a tr2 b r); [plays | exact Hne | exact Hpl | exact Hr] end.

(** ** Reading scripts off traces *)

(** every operation the script may ask for always returns *)
Inductive safe (W : gworld) {A} : script A -> Prop :=
| safe_done a : safe W (Done a)
| safe_ask o k : (forall tr, exists vs, w_ans W tr o = ARet vs) ->
    (forall tr vs, w_ans W tr o = ARet vs -> safe W (k vs)) -> safe W (Ask o k).

Lemma plays_safe : forall W {A} (sc : script A) tr r,
  plays sc tr r -> safe W sc -> (forall o a, In (o, a) tr -> exists t, w_ans W t o = a) -> exists a, r = Val a.
Proof.
  intros W A sc tr r H. induction H as [a|o k v|o k|o k l tr r H IH]; intros Hs Hin.
  - eauto.
  - inversion Hs as [|o' k' Ho Hk]; subst. destruct (Hin o _ (or_introl eq_refl)) as [t Ht]. specialize (Ho t) as [vs Ho]. congruence.
  - inversion Hs as [|o' k' Ho Hk]; subst. destruct (Hin o _ (or_introl eq_refl)) as [t Ht]. specialize (Ho t) as [vs Ho]. congruence.
  - inversion Hs as [|o' k' Ho Hk]; subst. apply IH; [|intros; apply Hin; now right].
    destruct (Hin o _ (or_introl eq_refl)) as [t Ht]. eapply Hk, Ht.
Qed.

Definition returned (e : op * ans) : Prop := exists l, snd e = ARet l.

Lemma plays_val : forall {A} (sc : script A) tr a, plays sc tr (Val a) -> Forall returned tr.
Proof.
  intros A sc tr a H. remember (Val a) as x eqn:E. revert E.
  induction H as [a'|o k' w|o k'|o k' l tr r' H IH]; intros E; try discriminate; constructor; [now exists l | now apply IH].
Qed.

Lemma plays_returned : forall {A} (sc : script A) tr r, plays sc tr r -> Forall returned tr -> exists a, r = Val a.
Proof.
  intros A sc tr r H. induction H as [a|o k v|o k|o k l tr r H IH]; intros Hs; [eauto | | | ];
  inversion Hs as [|? ? [l' E] Hs']; subst; cbn in *; try discriminate. now apply IH.
Qed.

(** split the played scripts in the context *)
Ltac unplay :=
  repeat match goal with
         | H : plays (Ask _ _) _ _ |- _ => inversion H; clear H; subst; cbv beta in *
         | H : plays (Done _) _ _ |- _ => inversion H; clear H; subst
         end.

Lemma safe_andthen : forall W {A B} (sc : script A) (k : A -> script B), safe W sc -> (forall a, safe W (k a)) -> safe W (andthen sc k).
Proof. intros W A B sc k H Hk. induction H as [a|o c Ho Hc IH]; cbn; [apply Hk | apply safe_ask; eauto]. Qed.

Lemma plays_andthen_done : forall {A B} (sc : script A) (f : A -> B) tr b,
  plays (andthen sc (fun a => Done (f a))) tr (Val b) -> exists a, plays sc tr (Val a) /\ b = f a.
Proof.
  intros A B sc f tr b H. revert tr H. induction sc as [a|o c IH]; cbn; intros tr H.
  - inversion H; subst. exists a. split; [constructor | reflexivity].
  - inversion H as [| | |o' k' l tr' r' H']; subst. destruct (IH _ _ H') as (a & Hp & ->). exists a. split; [now constructor | reflexivity].
Qed.

(** ** Calls whose helpers all return *)

(** no operation the script asks for, given the answers of the world, is a [P] *)
Inductive avoids (W : gworld) (P : op -> Prop) {A} : script A -> Prop :=
| avoids_done a : avoids W P (Done a)
| avoids_ask o k : ~ P o -> (forall tr vs, w_ans W tr o = ARet vs -> avoids W P (k vs)) -> avoids W P (Ask o k).

Definition told (W : gworld) (l : trace) : Prop := forall o a, In (o, a) l -> exists t, w_ans W t o = a.

Lemma told_app : forall W a b, told W (a ++ b) -> told W a /\ told W b.
Proof. intros W a b H. split; intros o x Hi; apply H, in_or_app; tauto. Qed.

Lemma told_tail : forall W e b, told W (e :: b) -> told W b.
Proof. intros W e b H o x Hi. apply H. now right. Qed.

Lemma plays_avoids : forall W P {A} (sc : script A) tr r,
  plays sc tr r -> avoids W P sc -> told W tr -> Forall (fun e => ~ P (fst e)) tr.
Proof.
  intros W P A sc tr r H. induction H as [a|o k v|o k|o k l tr r H IH]; intros Hs Hin; inversion Hs as [|o' k' Ho Hk]; subst;
  constructor; try assumption; try constructor.
  apply IH; [|exact (told_tail _ _ _ Hin)]. destruct (Hin o _ (or_introl eq_refl)) as [t Ht]. eapply Hk, Ht.
Qed.

(** everything that is not a [P] returned *)
Definition all_return (P : op -> Prop) (tr : trace) : Prop := Forall (fun e => P (fst e) \/ returned e) tr.

Lemma all_return_app : forall P a b, all_return P (a ++ b) <-> all_return P a /\ all_return P b.
Proof. intros. apply Forall_app. Qed.

Lemma all_return_avoids : forall (P : op -> Prop) tr, Forall (fun e => ~ P (fst e)) tr -> all_return P tr -> Forall returned tr.
Proof.
  intros P tr H Hr. apply Forall_forall. intros e He.
  pose proof (proj1 (Forall_forall _ _) H e He) as H1. pose proof (proj1 (Forall_forall _ _) Hr e He) as H2. cbv beta in *. tauto.
Qed.

Lemma plays_calm : forall W P {A} (sc : script A) tr r,
  plays sc tr r -> avoids W P sc -> told W tr -> all_return P tr -> exists a, r = Val a.
Proof.
  intros W P A sc tr r H Ha Ht Hr. eapply plays_returned; [exact H|]. eapply all_return_avoids; [|exact Hr]. eapply plays_avoids; eassumption.
Qed.

Lemma observed_calm : forall W (P : op -> Prop) {A} (before : script A) base zeros after tr r,
  observed_call before base zeros after tr r -> told W tr -> all_return P tr ->
  avoids W P before ->
  (forall x a t t2, tr = t ++ (base x, a) :: t2 -> plays before t (Val x) -> avoids W P (after x (results zeros a))) ->
  exists pre x a post, tr = pre ++ (base x, a) :: post /\ plays before pre (Val x) /\ Forall (fun e => ~ P (fst e)) pre /\
    Forall (fun e => ~ P (fst e)) post /\ ends a r /\
    (a = ABlock /\ post = [] \/ a <> ABlock /\ plays (after x (results zeros a)) post (Val tt)).
Proof.
  intros W P A before base zeros after tr r H Ht Hr Hb Ha.
  destruct H as [t v Hp|t Hp|t x Hp|t x a t2 b r Hp Hne Hpa Hf].
  - destruct (plays_calm _ _ _ _ _ Hp Hb Ht Hr). discriminate.
  - destruct (plays_calm _ _ _ _ _ Hp Hb Ht Hr). discriminate.
  - exists t, x, ABlock, []. apply told_app in Ht as [Ht _]. pose proof (plays_avoids _ _ _ _ _ Hp Hb Ht). repeat split; auto.
  - specialize (Ha x a t t2 eq_refl Hp). apply told_app in Ht as [Ht1 Ht2]. apply told_tail in Ht2.
    apply all_return_app in Hr as [Hr1 Hr2]. assert (Hr3 : all_return P t2) by (now inversion Hr2).
    destruct (plays_calm _ _ _ _ _ Hpa Ha Ht2 Hr3) as [[] ->].
    pose proof (plays_avoids _ _ _ _ _ Hp Hb Ht1). pose proof (plays_avoids _ _ _ _ _ Hpa Ha Ht2).
    exists t, x, a, t2. repeat split; auto.
Qed.

(** being a call of method [nm] of [b] *)
Definition is_call (b : nat) (nm : string) (o : op) : Prop := exists l, o = OMeth (VRef b) nm l.

Lemma no_base_calls : forall b nm tr, Forall (fun e => ~ is_call b nm (fst e)) tr -> base_calls b nm tr = [].
Proof.
  intros b nm tr H. induction H as [|[o a] tr Ho H IH]; [reflexivity|]. cbn. fold (base_calls b nm tr). rewrite IH, app_nil_r.
  destruct o as [f args|[] f args| | | |]; try reflexivity. cbn in Ho.
  destruct (Nat.eqb_spec n b) as [->|]; [|reflexivity]. destruct (String.eqb_spec f nm) as [->|]; [|reflexivity]. destruct Ho. now exists args.
Qed.

Lemma base_calls_one : forall b nm pre args a post, Forall (fun e => ~ is_call b nm (fst e)) pre -> Forall (fun e => ~ is_call b nm (fst e)) post ->
  base_calls b nm (pre ++ (OMeth (VRef b) nm args, a) :: post) = [(args, a)].
Proof.
  intros b nm pre args a post H1 H2. rewrite base_calls_app, (no_base_calls _ _ _ H1). cbn. rewrite Nat.eqb_refl, String.eqb_refl. cbn.
  fold (base_calls b nm post). now rewrite (no_base_calls _ _ _ H2).
Qed.

Lemma avoids_andthen : forall W P {A B} (sc : script A) (k : A -> script B), avoids W P sc -> (forall a, avoids W P (k a)) -> avoids W P (andthen sc k).
Proof. intros W P A B sc k H Hk. induction H as [a|o c Ho Hc IH]; cbn; [apply Hk | apply avoids_ask; eauto]. Qed.

(** an operation that is evidently no call of the base *)
Ltac no_call := let l := fresh in let E := fresh in intros [l E]; cbn in E; first [discriminate E | injection E; intros; subst; congruence].
