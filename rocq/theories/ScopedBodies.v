(** The bodies of the stock templates obey the rules of Scoping.v. *)
From Verif Require Import Render TypesSpec TypesProofs PropNaming PropImplements PropClashes PropScope ScopingProofs ScopedFiles.
Open Scope nat_scope.

(** ** Bodies *)
Definition avoids (m : method) (l : list string) : Prop := forall x, In x (names m) -> ~ In x ("_" :: "_d" :: l).
Lemma function_intro : forall m G l body, well_named m -> avoids m l ->
  (NoDup (map p_name (m_params m) ++ map p_name (m_results m)) -> (forall x, In x (map p_name (m_params m)) -> x <> "_") ->
   (forall x, In x (map p_name (m_results m)) -> x <> "_") ->
   (forall x, In x l -> ~ In x (map p_name (m_params m) ++ map p_name (m_results m))) ->
   items_ok ["_d" :: map p_name (m_params m) ++ map p_name (m_results m); G] 0 body) ->
  function_ok G ("_d" :: map p_name (m_params m)) (map p_name (m_results m)) body.
Proof.
  intros m G l body (H1 & H2 & H3) H K. unfold function_ok, avoids, names in *. cbn [app]. split; [|split].
  - apply NoDup_cons; [|exact H1]. intros C. apply (H _ C). right. now left.
  - intros [C|C]; [discriminate C|]. apply (H _ C). now left.
  - apply K; try exact H1.
    + intros x Hx E. subst x. apply (H "_"); [apply in_or_app; now left | now left].
    + intros x Hx E. subst x. apply (H "_"); [apply in_or_app; now right | now left].
    + intros x Hx C. apply (H _ C). right. now right.
Qed.

Ltac mem := cbn [In app]; solve [ assumption | auto 30 using in_or_app, in_eq, in_cons ].
Ltac ne := first [ assumption | discriminate | (match goal with H : forall x, In x ?l -> x <> "_" |- _ => apply H; assumption end) ].
Ltac vis := match goal with
  | |- visible (_ :: _) _ => first [ apply visible_head; [solve [ne] | mem] | apply visible_tail; vis ]
  end.
Ltac vis_all := apply Forall_forall; intros ?x ?Hx; vis.
Ltac none := first [ apply uses_none | apply assigns_none | (repeat (apply Forall_cons; [reflexivity|]); apply Forall_nil) ].
(** a name that is declared by the body *)
Ltac new_name := 
  let H := fresh in
  (split; [discriminate|]); cbn [hd app In]; intros H;
  repeat match type of H with _ \/ _ => destruct H as [H|H]; [discriminate H|] end;
  first [ exact H | match goal with K : forall x, In x ?l -> ~ In x _ |- _ => refine (K _ _ H); mem end ].
Ltac in_added := let H := fresh in cbn [added In]; intros H; repeat match type of H with _ \/ _ => destruct H as [H|H]; [discriminate H|] end; try destruct H; try discriminate H;
  try match goal with K : forall x, In x ?l -> ~ In x _ |- _ => refine (K _ _ (in_or_app _ _ _ (or_intror H))); mem end.
Ltac use_in := match goal with
  | |- used_in _ (IUse _) => reflexivity
  | |- used_in _ (IBlock _) => apply used_block; use_nested
  | |- used_in _ (IFun _) => apply used_fun; use_nested
  end
with use_nested := match goal with
  | |- nested _ (_ :: _) => first [ left; use_in | right; split; [in_added | use_nested] ]
  | |- nested _ (_ ++ _) => first [ apply nested_skip; [none | use_nested] | apply nested_left; use_nested ]
  | |- nested ?x (uses ?l) => apply nested_names; mem
  end.
Ltac use_ := match goal with
  | |- used _ (_ :: _) => first [ apply used_here; use_in | apply used_there; use_ ]
  | |- used _ (_ ++ _) => first [ apply used_right; use_ | apply used_left; use_ ]
  | |- used _ (uses _) => apply used_names; mem
  end.
Ltac names_eq := let H := fresh "E" in intros ? H; cbn [In] in H;
  repeat match type of H with _ \/ _ => destruct H as [<-|H] | False => destruct H | _ = _ => subst end.
Ltac old_name := let K := fresh in intros [_ K]; exfalso; apply K; cbn [hd]; mem.
Ltac item_ := match goal with
  | |- items_ok _ _ [] => exact I
  | |- items_ok ?b ?d (uses (?x :: ?l) ++ ?r) => change (items_ok b d (IUse x :: uses l ++ r))
  | |- items_ok ?b ?d (uses [] ++ ?r) => change (items_ok b d r)
  | |- items_ok ?b ?d (uses (?x :: ?l)) => change (items_ok b d (IUse x :: uses l))
  | |- items_ok ?b ?d (uses []) => exact I
  | |- items_ok _ _ (uses _ ++ _) => apply ok_uses; [vis_all|]
  | |- items_ok _ _ (uses ?l) => rewrite <- (app_nil_r (uses l)); apply ok_uses; [vis_all | exact I]
  | |- items_ok _ _ (map IAssign _ ++ _) => apply ok_assigns; [vis_all|]
  | |- items_ok _ _ (map IAssign ?l) => rewrite <- (app_nil_r (map IAssign l)); apply ok_assigns; [vis_all | exact I]
  | |- items_ok _ _ (IUse _ :: _) => split; [cbn [item_ok]; vis | cbn [enter added app]]
  | |- items_ok _ _ (IAssign _ :: _) => split; [right; vis | cbn [enter added app]]
  | |- items_ok _ _ (IBlock _ :: _) => split; [apply ok_block | cbn [enter added app]]
  | |- items_ok _ _ (IFun _ :: _) => split; [apply ok_fun | cbn [enter added app]]
  | |- items_ok _ _ (IVar _ :: _) => split; [split; [new_name | use_] | cbn [enter added app]]
  | |- items_ok _ _ (IParam _ :: _) => split; [new_name | cbn [enter added app]]
  end.
Ltac define_ := match goal with
  | |- items_ok _ _ (IDefine ?xs :: _) =>
      split; [ (split; [|split]);
        [ first [ eexists; split; [left; reflexivity | solve [new_name]] | eexists; split; [right; left; reflexivity | solve [new_name]] ]
        | cbn; repeat (apply NoDup_cons; [cbn; intuition discriminate|]); apply NoDup_nil
        | let H := fresh in intros ? H; cbn [In] in H; repeat match type of H with _ \/ _ => destruct H as [<-|H] end; try (destruct H);
          first [ solve [old_name] | intros _; use_ | (let K := fresh in intros [K _]; exfalso; apply K; reflexivity) ] ]
      | cbn [enter added app] ]
  end.
Ltac return_ := match goal with
  | |- items_ok _ _ (IReturn _ :: _) =>
      split; [ let r := fresh "r" in let b := fresh "b" in let Hr := fresh in let Hb := fresh in let Hc := fresh in
               intros r b Hr Hb Hc; cbn [firstn In] in Hb;
               repeat match type of Hb with _ \/ _ => destruct Hb as [<-|Hb] end; try destruct Hb; cbn [In] in Hc;
               repeat match type of Hc with _ \/ _ => destruct Hc as [Hc|Hc]; [subst r|] end; try destruct Hc;
               first [ match goal with K : forall x, In x ?l -> ~ In x _ |- _ => refine (K _ _ (in_or_app _ _ _ (or_intror Hr))); mem end
                     | match goal with K : forall x, In x ?l -> x <> "_" |- _ => exact (K _ Hr eq_refl) end ]
             | cbn [enter added app] ]
  end.
Ltac scope := repeat first [ item_ | define_ | return_ ].


(** the names a body needs from outside *)
Ltac needs HG := match type of HG with
  | incl [] _ => idtac
  | incl (?x :: ?l) ?G => let K := fresh "N" in pose proof (HG x (or_introl eq_refl)) as K;
      let HG' := fresh in assert (HG' : incl l G) by (intros ? ?; apply HG; now right); needs HG'
  end.
Definition method_scoped (m : method) (G : list string) (body : list item) : Prop :=
  function_ok G ("_d" :: map p_name (m_params m)) (map p_name (m_results m)) body.
Ltac begin := intros;
  match goal with W : well_named ?m, A : avoids ?m ?l, HG : incl _ _ |- _ =>
    let Wc := fresh "Wc" in let We := fresh "We" in
    pose proof W as (_ & Wc & We); eapply function_intro; [exact W | exact A|]; intros ? ? ? ?; needs HG;
    (match goal with E : m_acceptsContext m = true |- _ => specialize (Wc E) | _ => idtac end);
    (match goal with E : m_returnsError m = true |- _ => specialize (We E) | _ => idtac end) end.
Ltac unroll := cbn -[items_ok uses]; rewrite <- ?app_assoc; cbn [app].

Lemma retry_scoped : forall m G name, incl ["nil"; "time"] G -> well_named m -> avoids m ["_ticker"; "_i"] -> m_returnsError m = true ->
  method_scoped m G (body_items m (retry_body name m)).
Proof.
  begin. unfold retry_body, body_items, retry_wait. destruct (m_acceptsContext m) eqn:C; [specialize (Wc eq_refl)|]; unroll; scope.
Qed.
Lemma timeout_scoped : forall m G name, incl ["context"] G -> well_named m -> avoids m ["cancelFunc"] -> m_acceptsContext m = true ->
  method_scoped m G (body_items m (timeout_body name m)).
Proof. begin. unroll. scope. Qed.

Lemma ok_each : forall m b bs d (f : param -> gstmt) l rest,
  (forall p, In p l -> adds_none (sitems m (f p)) /\ items_ok (b :: bs) d (sitems m (f p))) ->
  items_ok (b :: bs) d (body_items m rest) -> items_ok (b :: bs) d (body_items m (map f l ++ rest)).
Proof.
  intros m b bs d f l rest H K. induction l as [|p l IH]; [exact K|]. unfold body_items in *. cbn [map app flat_map].
  destruct (H p (or_introl eq_refl)) as [H1 H2]. apply ok_app; [exact H1 | exact H2|]. apply IH. intros q Hq. apply H. now right.
Qed.
Ltac checks_ :=
  match goal with |- items_ok _ _ (body_items ?m ((if m_returnsError ?m then _ else []) ++ _)) =>
    let E := fresh in destruct (m_returnsError m) eqn:E;
    [ match goal with We : true = true -> _ |- _ => specialize (We eq_refl) end;
      apply ok_each;
      [ let p := fresh "p" in let Hp := fresh in intros p Hp; apply filter_In in Hp as [Hp _]; apply (in_map p_name) in Hp;
        (split; [repeat (apply Forall_cons; [reflexivity|]); apply Forall_nil | unroll; rewrite ?sapp_nil_r; scope])
      | unroll; scope ]
    | unroll; scope ] end.
Lemma validate_scoped : forall m G name, incl ["nil"; "error"] G -> well_named m -> avoids m ["_v"; "_ok"] ->
  method_scoped m G (body_items m (validate_body name m)).
Proof. begin. unfold validate_body, validate_with. checks_. Qed.
Lemma twirp_validate_scoped : forall m G name, incl ["nil"; "error"; "twirp"] G -> well_named m -> avoids m ["_v"; "_ok"] ->
  method_scoped m G (body_items m (twirp_validate_body name m)).
Proof. begin. unfold twirp_validate_body, validate_with. checks_. Qed.
Lemma grpc_validate_scoped : forall m G name, incl ["nil"; "error"; "grpc_codes"; "grpc_status"] G -> well_named m -> avoids m ["_v"; "_ok"] ->
  method_scoped m G (body_items m (grpc_validate_body name m)).
Proof. begin. unfold grpc_validate_body, validate_with. checks_. Qed.
Lemma twirp_error_scoped : forall m G name, incl [inject] G -> well_named m -> avoids m [] ->
  method_scoped m G (body_items m (twirp_error_body name m)).
Proof. begin. unfold twirp_error_body. checks_. Qed.

Lemma inject_scoped : forall G, incl ["nil"; "twirp"; "json"; "string"] G ->
  function_ok G ["req"; "perr"] [] (body_items no_method inject_body).
Proof.
  intros G HG. needs HG. split; [|split].
  - repeat (apply NoDup_cons; [cbn; intuition discriminate|]). apply NoDup_nil.
  - cbn; intuition discriminate.
  - unroll. scope.
Qed.
Ltac by_error m := match goal with We : m_returnsError m = true -> _ |- _ =>
  let E := fresh in destruct (m_returnsError m) eqn:E; [specialize (We eq_refl)|] end.
Lemma log_scoped : forall m G dec, incl ["nil"] G -> well_named m -> avoids m ["_params"; "_results"] ->
  method_scoped m G (body_items m (log_body dec m)).
Proof. begin. unfold log_body, log_deferred. destruct (HasParams m), (HasResults m); by_error m; unroll; scope. Qed.
Lemma logrus_scoped : forall m G dec, incl ["nil"; "logrus"] G -> well_named m -> avoids m [] ->
  method_scoped m G (body_items m (logrus_body dec m)).
Proof. begin. unfold logrus_body, logrus_deferred. destruct (HasParams m), (HasResults m); by_error m; unroll; scope. Qed.
Lemma prometheus_scoped : forall m G dn, incl ["nil"; "time"; (dn ++ "DurationSummaryVec")%string] G -> well_named m -> avoids m ["_since"; "result"] ->
  method_scoped m G (body_items m (prometheus_body dn m)).
Proof.
  intros m G dn. assert (X : (dn ++ "DurationSummaryVec")%string <> "_") by by_length.
  begin. unfold prometheus_body, prometheus_deferred. by_error m; unroll; scope.
Qed.
Lemma opencensus_scoped : forall m G name typ, incl ["nil"; "true"; "trace"] G -> well_named m -> avoids m ["_span"] -> m_acceptsContext m = true ->
  method_scoped m G (body_items m (opencensus_body name typ m)).
Proof. begin. unfold opencensus_body, span_end, span_deferred. by_error m; unroll; scope. Qed.
Lemma opentelemetry_scoped : forall m G name pfx, incl ["nil"; "otel"; "_codes"; "attribute"] G -> well_named m -> avoids m ["_span"] -> m_acceptsContext m = true ->
  method_scoped m G (body_items m (opentelemetry_body name pfx m)).
Proof. begin. unfold opentelemetry_body, span_end, span_deferred. by_error m; unroll; scope. Qed.
Lemma opentracing_scoped : forall m G name typ, incl ["nil"; "true"; "opentracing"; "_ext"; "_log"] G -> well_named m -> avoids m ["_span"] -> m_acceptsContext m = true ->
  method_scoped m G (body_items m (opentracing_body name typ m)).
Proof. begin. unfold opentracing_body, span_end, span_deferred. by_error m; unroll; scope. Qed.
Lemma syncpool_scoped : forall m G, incl [] G -> well_named m -> avoids m ["_impl"] -> method_scoped m G (body_items m (syncpool_body m)).
Proof. begin. unroll. scope. Qed.
Lemma robinpool_scoped : forall m G, incl ["atomic"] G -> well_named m -> avoids m ["_counter"] -> method_scoped m G (body_items m (robinpool_body m)).
Proof. begin. unroll. scope. Qed.
Lemma ratelimit_scoped : forall m G, incl [] G -> well_named m -> avoids m [] -> method_scoped m G (body_items m (ratelimit_body m)).
Proof.
  begin. unfold ratelimit_body, ratelimit_wait. destruct (m_acceptsContext m) eqn:C; [specialize (Wc eq_refl)|]; by_error m; unroll; scope.
Qed.
Lemma circuitbreaker_scoped : forall m G name dec, incl ["nil"; "time"; "errors"] G -> well_named m -> avoids m ["_e"; "closesAt"] -> m_returnsError m = true ->
  method_scoped m G (body_items m (circuitbreaker_body name dec m)).
Proof. begin. unroll. scope. Qed.

Lemma elasticapm_scoped : forall m G snake comp, incl ["nil"] G -> well_named m -> avoids m ["span"] -> m_acceptsContext m = true ->
  method_scoped m G (body_items m (elasticapm_body snake comp m)).
Proof.
  begin. unfold elasticapm_body, body_items. rewrite !flat_map_app.
  set (labels := flat_map (sitems m) (map _ _)).
  assert (L : labels = flat_map (fun p => [IUse "_d"; IUse "span"; IUse (p_name p)]) (filter (fun p => negb (String.eqb (p_name p) "ctx")) (m_params m))).
  { subst labels. induction (filter _ (m_params m)) as [|p l IH]; [reflexivity|]. cbn [map flat_map]. rewrite <- IH. cbn -[map]. now rewrite sapp_nil_r. }
  assert (A : adds_none labels).
  { rewrite L. apply Forall_forall. intros i Hi. apply in_flat_map in Hi as (p & _ & Hi). cbn [In] in Hi. destruct Hi as [<-|[<-|[<-|[]]]]; reflexivity. }
  assert (K : forall d b, In "span" b -> In "_d" b -> incl (map p_name (m_params m)) b -> items_ok [b; G] d labels).
  { intros d b ? ? Hb. rewrite L. assert (Hl : incl (filter (fun p => negb (String.eqb (p_name p) "ctx")) (m_params m)) (m_params m)) by (intros p Hp; now apply filter_In in Hp as [Hp _]).
    clear L A. clearbody labels. revert Hl. induction (filter _ (m_params m)) as [|p l IH]; intros Hl; [exact I|]. cbn [flat_map app].
    assert (Hp : In (p_name p) (map p_name (m_params m))) by (apply in_map, Hl; now left). pose proof (Hb _ Hp).
    scope. apply IH. intros q Hq. apply Hl. now right. }
  clearbody labels. clear L. unfold elasticapm_deferred. by_error m; cbn -[items_ok uses]; rewrite <- ?app_assoc; cbn [app];
  scope; (apply ok_app; [exact A | apply K; [mem | mem | intros ? ?; mem] | scope]).
Qed.

Lemma match_cons : forall {A B} (l : list A) (x y : B), l <> [] -> match l with [] => x | _ :: _ => y end = y.
Proof. intros A B [|] x y H; [exfalso; apply H; reflexivity | reflexivity]. Qed.
Lemma ok_results : forall rs b bs d rest, rs <> [] -> NoDup rs -> (forall x, In x rs -> x <> "_" /\ ~ In x b) -> (forall x, In x rs -> used x rest) ->
  items_ok ((rs ++ b) :: bs) d rest -> items_ok (b :: bs) d (IDefine rs :: rest).
Proof.
  intros rs b bs d rest H1 H2 H3 H4 H5. split; [|exact H5]. split; [|split].
  - destruct rs as [|x l]; [exfalso; apply H1; reflexivity|]. exists x. split; [now left|]. apply H3. now left.
  - now apply NoDup_filter.
  - intros x Hx _. now apply H4.
Qed.
Ltac results_ := match goal with
  | |- items_ok _ _ (IDefine (map p_name (m_results ?m)) :: _) =>
      apply ok_results; [assumption | assumption | let x := fresh in let Hx := fresh in intros x Hx; (split; [ne|]); let K := fresh in cbn [In]; intros [K|[]]; subst x;
          match goal with K : forall x, In x ?l -> ~ In x _ |- _ => refine (K _ _ (in_or_app _ _ _ (or_intror Hx))); mem end
        | let x := fresh in let Hx := fresh in intros x Hx; use_ | cbn [app] ]
  end.
Lemma fallback_scoped : forall m G typ,
  incl ["nil"; "string"; "len"; "make"; "append"; "time"; "context"; "fmt"; "strings"; "errors"] G -> well_named m ->
  avoids m ["_resultStruct"; "_ch"; "_next"; "_errorsList"; "_ticker"; "_cancelFunc"; "_i"; "_impl"; "_res"] ->
  method_scoped m G (fallback_items m (fallback_body typ m)).
Proof.
  begin. match goal with H : well_named _ |- _ => pose proof (NoDup_app_r _ _ (proj1 H)) as Nr end.
  destruct (m_results m) as [|r0 rl] eqn:R.
  - assert (HasResults m = false) as HR by (unfold HasResults; now rewrite R).
    unfold fallback_items, fallback_body, fallback_setup, launch_body, launch_loop, impl_body, impl_wrap, impl_deliver, launch_wait, wait_body, wait_select, on_result, on_done, receive_, res_var.
    by_error m; [destruct We|]. destruct (m_acceptsContext m) eqn:C; [specialize (Wc eq_refl)|]; cbn -[items_ok uses]; rewrite ?HR, ?R; cbn -[items_ok uses]; rewrite <- ?app_assoc; cbn [app]; scope.
  - rewrite <- R in *. assert (HasResults m = true) as HR by (unfold HasResults; now rewrite R).
    assert (map p_name (m_results m) <> []) as Hne by (rewrite R; discriminate). clear R.
    unfold fallback_items, fallback_body, fallback_setup, launch_body, launch_loop, impl_body, impl_wrap, impl_deliver, launch_wait, wait_body, wait_select, on_result, on_done, receive_, res_var.
    by_error m; (destruct (m_acceptsContext m) eqn:C; [specialize (Wc eq_refl)|]); cbn -[items_ok uses]; rewrite ?HR; cbn -[items_ok uses]; rewrite ?(match_cons _ _ _ Hne); cbn -[items_ok uses]; rewrite <- ?app_assoc; cbn [app]; repeat (scope; try results_).
Qed.
