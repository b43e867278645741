(** The bodies of the stock templates obey the rules of Typing.v. *)
From Verif Require Import Render TypesSpec TypesProofs PropNaming PropImplements PropClashes PropScope ScopingProofs ScopedFiles ScopedBodies.
From Verif Require Import TypedFiles TypedTactics.
Open Scope nat_scope.


Lemma elasticapm_typed : forall typ methods snake comp m P,
  let top := [[("context", EPkg "context"); ("apm", EPkg apm_path)]; P; universe] in
  forall dec aliases, In m methods -> well_typed m -> m_acceptsContext m = true ->
  clear_of (map fst (sig_block m)) ["_d"; "span"; "nil"] -> clear_of (map fst P) ["nil"; "string"; "error"] ->
  body_typed typ methods [(dec, elasticapm_fields typ)] aliases top (TyName dec) m (flat_map (gst m) (elasticapm_body snake comp m)).
Proof.
  start. destruct (apm_fields_typed typ dec top) as (F1 & F2 & F3 & F4); try (subst top; bnd). subst top.
  unfold elasticapm_body, elasticapm_deferred. rewrite flat_map_app.
  eexists. eapply stys_app; [|rewrite flat_map_app; eapply stys_app].
  - destruct (m_returnsError m) eqn:E; try pose proof (sig_err m H0 E).
    + cbn -[sig_block names_of method_call result_tys universe]. sts.
    + cbn -[sig_block names_of method_call result_tys universe]. sts.
  - rewrite flat_map_concat_map, map_map, <- flat_map_concat_map. apply stys_each. intros p Hp. apply filter_In in Hp as [Hp _].
    run.
  - run.
Qed.
