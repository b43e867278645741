(** C60: the struct, map, name-list and return renderings of a method
    (types.go:251-348), read back by a small reader of their own: the text is a
    Go struct type with one field per parameter, a map literal with one entry
    per parameter, or a return statement selecting one field per result; in
    order, no parameter lost, duplicated or mistyped. *)
From Verif Require Import Types TypesSpec TypesProofs Printer PrinterProofs GenericsProofs PropNaming.

(** *** The reader *)

(** What follows the word [w] in [s]. *)
Fixpoint after (w s : string) : option string :=
  match w, s with
  | EmptyString, _ => Some s
  | String a w', String b s' => if Ascii.eqb a b then after w' s' else None
  | String _ _, EmptyString => None
  end.

(** The text before and after the first [c]. *)
Fixpoint at_char (c : ascii) (s : string) : option (string * string) :=
  match s with
  | EmptyString => None
  | String d s' =>
      if Ascii.eqb d c then Some ("", s')
      else match at_char c s' with Some (a, b) => Some (String d a, b) | None => None end
  end.

(** Everything but a final [c]. *)
Fixpoint without_last (c : ascii) (s : string) : option string :=
  match s with
  | EmptyString => None
  | String d EmptyString => if Ascii.eqb d c then Some "" else None
  | String d s' => option_map (String d) (without_last c s')
  end.

(** The items of a list whose separator is the character [c] followed by the
    word [w].  (The first argument bounds the number of items: it is always
    given as the length of the text.) *)
Fixpoint items (n : nat) (c : ascii) (w s : string) : option (list string) :=
  match n with
  | 0 => None
  | S n' =>
      match at_char c s with
      | None => Some [s]
      | Some (a, b) =>
          match after w b with
          | Some b' => option_map (cons a) (items n' c w b')
          | None => None
          end
      end
  end.
Definition items_of (c : ascii) (w s : string) : option (list string) :=
  match s with EmptyString => Some [] | _ => items (String.length s) c w s end.

Fixpoint all_some {A B} (f : A -> option B) (l : list A) : option (list B) :=
  match l with
  | [] => Some []
  | x :: l' => match f x, all_some f l' with Some y, Some r => Some (y :: r) | _, _ => None end
  end.

Definition braced (opening s : string) : option string :=
  match after opening s with Some s' => without_last "}" s' | None => None end.

(** A struct type: one field "name type" per line. *)
Definition struct_fields (s : string) : option (list (string * string)) :=
  match braced ("struct{" ++ String "010" "")%string s with
  | Some body =>
      match items_of "010" " " body with
      | Some ls => all_some (at_char " ") ls
      | None => None
      end
  | None => None
  end.

(** A map literal: one entry "key": value per line. *)
Definition map_entry (s : string) : option (string * string) :=
  match after (String "034" "") s with
  | Some s' =>
      match at_char "034" s' with
      | Some (k, r) => match after ": " r with Some v => Some (k, v) | None => None end
      | None => None
      end
  | None => None
  end.
Definition map_literal (s : string) : option (list (string * string)) :=
  match braced ("map[string]interface{}{" ++ String "010" "")%string s with
  | Some body =>
      match items_of "," (String "010" " ") body with
      | Some ls => all_some map_entry ls
      | None => None
      end
  | None => None
  end.

(** A return statement selecting fields of [s]: the struct and the field. *)
Definition returned (s : string) : option (list (string * string)) :=
  match after "return" s with
  | Some "" => Some []
  | Some s' =>
      match after " " s' with
      | Some l => match items_of "," " " l with
                  | Some ls => all_some (at_char ".") ls
                  | None => None
                  end
      | None => None
      end
  | None => None
  end.

(** *** The types a struct field may have for a parameter *)

(** A parameter [...E] is inside the method a slice [[]E] (Go specification,
    "Passing arguments to ... parameters"); any other parameter has its own
    type. *)
Inductive field_type : param -> string -> Prop :=
| FtPlain p : p_variadic p = false -> field_type p (p_type p)
| FtSlice p e : p_variadic p = true -> p_type p = ("..." ++ e)%string ->
    field_type p ("[]" ++ e)%string.

(** No character [c] in [s]. *)
Fixpoint free_of (c : ascii) (s : string) : Prop :=
  match s with EmptyString => True | String d s' => d <> c /\ free_of c s' end.

(** A parameter that can be a field on a line of its own: an identifier for a
    name, a type that prints on one line, [...E] when variadic. *)
Definition one_line (p : param) : Prop :=
  is_ident (p_name p) = true /\ free_of "010" (p_type p) /\
  (p_variadic p = true -> exists e, p_type p = ("..." ++ e)%string).

(** *** Proofs about the reader *)

Lemma after_app w s : after w (w ++ s) = Some s.
Proof. induction w as [|a w IH]; cbn; [reflexivity|]. now rewrite Ascii.eqb_refl. Qed.

Lemma at_char_free c s : free_of c s -> at_char c s = None.
Proof.
  induction s as [|d s IH]; cbn; [reflexivity|]. intros [Hd Hs].
  apply Ascii.eqb_neq in Hd. rewrite Hd. now rewrite (IH Hs).
Qed.

Lemma at_char_app c s r : free_of c s -> at_char c (s ++ String c r) = Some (s, r).
Proof.
  induction s as [|d s IH]; cbn; intros H.
  - now rewrite Ascii.eqb_refl.
  - destruct H as [Hd Hs]. apply Ascii.eqb_neq in Hd. rewrite Hd. now rewrite (IH Hs).
Qed.

Lemma without_last_app c s : without_last c (s ++ String c "") = Some s.
Proof.
  induction s as [|d s IH]; cbn.
  - now rewrite Ascii.eqb_refl.
  - rewrite IH. destruct (s ++ String c "")%string eqn:E; [|reflexivity].
    destruct s; discriminate.
Qed.

Lemma braced_app o s : braced o (o ++ s ++ "}") = Some s.
Proof. unfold braced. rewrite after_app. apply without_last_app. Qed.

Lemma sapp_one c w s : (String c w ++ s)%string = String c (w ++ s).
Proof. reflexivity. Qed.

Lemma join_two sep x y l : join sep (x :: y :: l) = (x ++ sep ++ join sep (y :: l))%string.
Proof. reflexivity. Qed.

Lemma items_join c w : forall l n,
  l <> [] -> Forall (free_of c) l -> length l <= n ->
  items n c w (join (String c w) l) = Some l.
Proof.
  induction l as [|x l IH]; intros n Hne Hf Hn; [now elim Hne|].
  destruct n as [|n]; [cbn in Hn; lia|]. inversion Hf; subst.
  destruct l as [|y l].
  - cbn. now rewrite at_char_free.
  - rewrite join_two. cbn [items]. rewrite sapp_one, at_char_app by assumption.
    rewrite after_app. rewrite IH; [reflexivity | discriminate | assumption | cbn in *; lia].
Qed.

Lemma join_length c w l : Forall (fun s => s <> "") l ->
  length l <= String.length (join (String c w) l).
Proof.
  induction l as [|x l IH]; intros H; [cbn; lia|]. inversion H; subst.
  destruct l as [|y l].
  - cbn. destruct x; [congruence | cbn; lia].
  - rewrite join_two, !slength_app. specialize (IH H3). cbn [length String.length] in *. lia.
Qed.

Lemma items_of_join c w l : Forall (fun s => s <> "") l -> Forall (free_of c) l ->
  items_of c w (join (String c w) l) = Some l.
Proof.
  intros Hne Hf. destruct l as [|x l]; [reflexivity|].
  pose proof (join_length c w (x :: l) Hne) as Hl. unfold items_of.
  destruct (join (String c w) (x :: l)) eqn:E; [cbn in Hl; lia|].
  rewrite <- E in *. now apply items_join.
Qed.

Lemma all_some_map {A B C} (f : B -> option C) (g : A -> B) (h : A -> C) l :
  Forall (fun x => f (g x) = Some (h x)) l -> all_some f (map g l) = Some (map h l).
Proof. induction 1 as [|x l Hx Hl IH]; cbn; [reflexivity|]. now rewrite Hx, IH. Qed.

Lemma free_of_app c a b : free_of c a -> free_of c b -> free_of c (a ++ b).
Proof. induction a; cbn; [auto|]. tauto. Qed.

Lemma free_of_app_r c a b : free_of c (a ++ b) -> free_of c b.
Proof. induction a; cbn; [auto|]. tauto. Qed.

Lemma all_chars_free f c s : all_chars f s = true -> f c = false -> free_of c s.
Proof.
  induction s as [|d s IH]; cbn; intros H Hc; [exact I|].
  apply andb_true_iff in H as [Hd Hs]. split; [congruence | auto].
Qed.

Lemma ident_free c s : is_ident s = true -> (is_letter c || is_digit c)%bool = false ->
  free_of c s /\ s <> "".
Proof.
  intros H Hc. destruct s as [|d s]; [discriminate|]. split; [|discriminate].
  cbn in H. apply andb_true_iff in H as [Hd Hs]. cbn. split.
  - intros ->. rewrite Hd in Hc. discriminate.
  - eapply all_chars_free; [exact Hs | exact Hc].
Qed.

Ltac freec := apply ident_free; [assumption | vm_compute; reflexivity].

(** The type of the field a parameter gets. *)
Definition slice_of (p : param) : string :=
  if p_variadic p then ("[]" ++ drop 3 (p_type p))%string else p_type p.

Lemma slice_of_field p : one_line p -> field_type p (slice_of p).
Proof.
  intros (_ & _ & H). unfold slice_of. destruct (p_variadic p) eqn:E.
  - destruct (H eq_refl) as [e He]. rewrite He. cbn. now apply FtSlice.
  - now apply FtPlain.
Qed.

Lemma slice_of_line p : one_line p -> free_of "010" (slice_of p).
Proof.
  intros (_ & Hf & H). unfold slice_of. destruct (p_variadic p); [|exact Hf].
  destruct (H eq_refl) as [e He]. rewrite He in *. cbn [drop String.append].
  cbn in Hf. cbn. intuition discriminate.
Qed.

Lemma replace_variadic p : one_line p ->
  (if p_variadic p then (p_name p ++ " " ++ replace1 "..." "[]" (p_type p))%string
   else (p_name p ++ " " ++ p_type p)%string) = (p_name p ++ String " " (slice_of p))%string /\
  (if p_variadic p then (p_name p ++ " *" ++ replace1 "..." "[]" (p_type p))%string
   else (p_name p ++ " *" ++ p_type p)%string) = (p_name p ++ String " " ("*" ++ slice_of p))%string.
Proof.
  intros (_ & _ & H). unfold slice_of. destruct (p_variadic p); [|split; reflexivity].
  destruct (H eq_refl) as [e ->]. split; destruct e; reflexivity.
Qed.

Lemma sapp_ne a c b : (a ++ String c b)%string <> "".
Proof. destruct a; discriminate. Qed.

Lemma fields_read (g : param -> string) ps :
  Forall (fun p => is_ident (p_name p) = true /\ free_of "010" (g p)) ps ->
  struct_fields ("struct{" ++ nl ++ join (nl ++ " ")
      (map (fun p => (p_name p ++ String " " (g p))%string) ps) ++ "}") =
    Some (map (fun p => (p_name p, g p)) ps).
Proof.
  intros H. unfold struct_fields.
  change (String "s" (String "t" (String "r" (String "u" (String "c" (String "t" (String "{"
    (nl ++ join (nl ++ " ") (map (fun p => (p_name p ++ String " " (g p))%string) ps) ++ "}"))))))))
    with (("struct{" ++ String "010" "") ++
            join (String "010" " ") (map (fun p => (p_name p ++ String " " (g p))%string) ps) ++ "}")%string.
  change ("struct{" ++ nl ++ join (nl ++ " ") (map (fun p => (p_name p ++ String " " (g p))%string) ps) ++ "}")%string
    with (("struct{" ++ String "010" "") ++
            join (String "010" " ") (map (fun p => (p_name p ++ String " " (g p))%string) ps) ++ "}")%string.
  rewrite braced_app, items_of_join.
  - apply all_some_map. eapply Forall_impl; [|exact H]. intros p [Hi _].
    apply at_char_app. now apply ident_free.
  - rewrite Forall_map. eapply Forall_impl; [|exact H]. intros p _. apply sapp_ne.
  - rewrite Forall_map. eapply Forall_impl; [|exact H]. intros p [Hi Hg].
    apply free_of_app; [now apply ident_free|]. cbn. split; [discriminate | exact Hg].
Qed.

Lemma map_read ps : Forall (fun p => is_ident (p_name p) = true) ps ->
  map_literal ("map[string]interface{}{" ++ nl ++ join ("," ++ nl ++ " ") (map_entries ps) ++ "}") =
    Some (map (fun p => (p_name p, p_name p)) ps).
Proof.
  intros H. unfold map_literal.
  change ("map[string]interface{}{" ++ nl ++ join ("," ++ nl ++ " ") (map_entries ps) ++ "}")%string
    with (("map[string]interface{}{" ++ String "010" "") ++
           join (String "," (String "010" " ")) (map_entries ps) ++ "}")%string.
  rewrite braced_app, items_of_join.
  - apply all_some_map. eapply Forall_impl; [|exact H]. intros p Hi. cbv beta.
    unfold map_entry. unfold quote. rewrite after_app.
    change (String "034" "" ++ ": " ++ p_name p)%string with (String "034" (": " ++ p_name p)).
    rewrite at_char_app by (now apply ident_free). now rewrite after_app.
  - unfold map_entries. rewrite Forall_map. eapply Forall_impl; [|exact H]. discriminate.
  - unfold map_entries. rewrite Forall_map. eapply Forall_impl; [|exact H]. intros p Hi.
    assert (free_of "," (p_name p)) by (now apply ident_free).
    repeat (apply free_of_app); try assumption; cbn; intuition discriminate.
Qed.

(** ** C60 *)

(** Reading the struct of the parameters gives one field per parameter, in
    order, under the parameter's name and of its type inside the method. *)
Theorem C60_params_struct : forall m,
  Forall one_line (m_params m) ->
  exists ts, struct_fields (ParamsStruct m) = Some (combine (map p_name (m_params m)) ts) /\
    Forall2 field_type (m_params m) ts.
Proof.
  intros m H. exists (map slice_of (m_params m)). split.
  - unfold ParamsStruct.
    rewrite (map_ext_in _ (fun p => (p_name p ++ String " " (slice_of p))%string)).
    2:{ intros p Hp. rewrite Forall_forall in H. apply (replace_variadic p (H p Hp)). }
    rewrite fields_read.
    + f_equal. clear. induction (m_params m); cbn; congruence.
    + eapply Forall_impl; [|exact H]. intros p Hp. split; [apply Hp | now apply slice_of_line].
  - induction H; cbn; constructor; auto using slice_of_field.
Qed.

(** The struct of pointers: the same fields, each a pointer to the parameter's
    type. *)
Theorem C60_ptrs_struct : forall m,
  Forall one_line (m_params m) ->
  exists ts, struct_fields (ParamPtrsStruct m) =
      Some (combine (map p_name (m_params m)) (map (String "*") ts)) /\
    Forall2 field_type (m_params m) ts.
Proof.
  intros m H. exists (map slice_of (m_params m)). split.
  - unfold ParamPtrsStruct.
    rewrite (map_ext_in _ (fun p => (p_name p ++ String " " ("*" ++ slice_of p))%string)).
    2:{ intros p Hp. rewrite Forall_forall in H. apply (replace_variadic p (H p Hp)). }
    rewrite (fields_read (fun p => ("*" ++ slice_of p)%string)).
    + f_equal. rewrite map_map. clear. induction (m_params m) as [|p l IH]; [reflexivity|].
      cbn [map combine]. now rewrite <- IH.
    + eapply Forall_impl; [|exact H]. intros p Hp. split; [apply Hp|].
      apply slice_of_line in Hp. cbn. split; [discriminate | exact Hp].
  - induction H; cbn; constructor; auto using slice_of_field.
Qed.

(** The struct of the results: one field per result, of the result's type. *)
Theorem C60_results_struct : forall m,
  Forall one_line (m_results m) ->
  struct_fields (ResultsStruct m) = Some (map (fun r => (p_name r, p_type r)) (m_results m)).
Proof.
  intros m H. unfold ResultsStruct.
  rewrite (map_ext (fun r => (p_name r ++ " " ++ p_type r)%string)
                   (fun p => (p_name p ++ String " " (p_type p))%string)) by reflexivity.
  apply fields_read. eapply Forall_impl; [|exact H]. intros p Hp. split; apply Hp.
Qed.

(** The map literals: one entry per parameter (result), its key the name and
    its value the variable of that name. *)
Theorem C60_maps : forall m,
  Forall (fun p => is_ident (p_name p) = true) (m_params m ++ m_results m) ->
  map_literal (ParamsMap m) = Some (map (fun p => (p_name p, p_name p)) (m_params m)) /\
  map_literal (ResultsMap m) = Some (map (fun p => (p_name p, p_name p)) (m_results m)).
Proof.
  intros m H. apply Forall_app in H as [Hp Hr]. split; now apply map_read.
Qed.

(** The name lists. *)
Theorem C60_names : forall m,
  Forall (fun p => is_ident (p_name p) = true) (m_params m ++ m_results m) ->
  items_of "," " " (ParamsNames m) = Some (map p_name (m_params m)) /\
  items_of "," " " (ResultsNames m) = Some (map p_name (m_results m)).
Proof.
  intros m H. apply Forall_app in H as [Hp Hr].
  assert (K : forall ps, Forall (fun p => is_ident (p_name p) = true) ps ->
    items_of "," " " (join ", " (map p_name ps)) = Some (map p_name ps)).
  { intros ps Hps. apply items_of_join; rewrite Forall_map; (eapply Forall_impl; [|exact Hps]);
      intros p Hi; cbv beta; eapply (ident_free ","); auto. }
  split; now apply K.
Qed.

(** The return statement: the results of the struct, one per result of the
    method and in order; a bare return when the method has none. *)
Theorem C60_return : forall m s,
  Forall (fun p => is_ident (p_name p) = true) (m_results m) -> is_ident s = true ->
  returned (ReturnStruct m s) = Some (map (fun r => (s, p_name r)) (m_results m)).
Proof.
  intros m s H Hs. unfold ReturnStruct. destruct (m_results m) as [|r rs] eqn:E; [reflexivity|].
  rewrite <- E in *. clear E r rs. unfold returned.
  change ("return " ++ join ", " (map (fun r => (s ++ "." ++ p_name r)%string) (m_results m)))%string
    with ("return" ++ (String " " (join (String "," " ") (map (fun r => (s ++ String "." (p_name r))%string) (m_results m)))))%string.
  rewrite after_app. cbn [after]. rewrite Ascii.eqb_refl. rewrite items_of_join.
  - apply all_some_map. eapply Forall_impl; [|exact H]. intros p Hi. apply at_char_app. now apply ident_free.
  - rewrite Forall_map. eapply Forall_impl; [|exact H]. intros p _. apply sapp_ne.
  - rewrite Forall_map. eapply Forall_impl; [|exact H]. intros p Hi.
    apply free_of_app; [now apply ident_free|]. cbn. split; [discriminate | now apply ident_free].
Qed.

Definition ex_struct : method :=
  {| m_name := "Do"; m_params :=
       [{| p_name := "ctx"; p_type := "context.Context"; p_variadic := false; p_doc := []; p_comment := [] |};
        {| p_name := "rest"; p_type := "...func(...int)"; p_variadic := true; p_doc := []; p_comment := [] |}];
     m_results :=
       [{| p_name := "n"; p_type := "map[string]int"; p_variadic := false; p_doc := []; p_comment := [] |};
        {| p_name := "err"; p_type := "error"; p_variadic := false; p_doc := []; p_comment := [] |}];
     m_returnsError := true; m_acceptsContext := true; m_doc := []; m_comment := [] |}.

Example C60_lines : Forall one_line (m_params ex_struct) /\ Forall one_line (m_results ex_struct).
Proof.
  split; repeat apply Forall_cons; try apply Forall_nil; (split; [reflexivity|]; split;
    [cbn; intuition discriminate | cbn; intros; try discriminate; eauto]).
Qed.
Example C60_example :
  struct_fields (ParamsStruct ex_struct) = Some [("ctx", "context.Context"); ("rest", "[]func(...int)")] /\
  struct_fields (ParamPtrsStruct ex_struct) = Some [("ctx", "*context.Context"); ("rest", "*[]func(...int)")] /\
  struct_fields (ResultsStruct ex_struct) = Some [("n", "map[string]int"); ("err", "error")] /\
  map_literal (ParamsMap ex_struct) = Some [("ctx", "ctx"); ("rest", "rest")] /\
  returned (ReturnStruct ex_struct "s") = Some [("s", "n"); ("s", "err")].
Proof. vm_compute. repeat split. Qed.

Lemma in_Forall2_r {A B} (R : A -> B -> Prop) l l' y :
  Forall2 R l l' -> In y l' -> exists x, In x l /\ R x y.
Proof.
  induction 1; cbn; [tauto|]. intros [->|Hin]; [eauto|]. destruct IHForall2 as (z & ? & ?); eauto.
Qed.

(** A method NewMethod makes with the generator's printer meets the hypothesis
    about variadic parameters, whatever the type parameters of the interface:
    the type of a variadic parameter begins with the three dots. *)
Theorem C60_variadic : forall O types prefix gts gps name fi m p,
  Forall (fun n => is_ident n = true) (tp_names gts) ->
  NewMethod O (PrintType O types prefix) gts gps name fi = Ok m ->
  In p (m_params m) -> p_variadic p = true ->
  exists e, p_type p = ("..." ++ e)%string.
Proof.
  intros O types prefix gts gps name fi m p Hg H Hp Hv.
  destruct (C02_only_methods _ _ _ _ _ _ _ H) as (ps & rs & Hf).
  destruct (C02_signature _ _ _ _ _ _ _ _ _ H Hf) as (_ & HP & _).
  destruct (in_Forall2_r _ _ _ _ HP Hp) as ([n f] & _ & (s & Hs & Hi) & Hvar & _).
  cbn [snd] in *. apply Hvar in Hv as [t Ht]. rewrite Ht in Hs.
  unfold PrintType in Hs. rewrite printType_pt in Hs. cbn in Hs. destruct (pt O types prefix t) as [s'| |]; try discriminate.
  cbn in Hs. inversion Hs; subst s; clear Hs.
  destruct Hi as [(i & a & Hn & _) | (_ & ->)]; [|now exists s'].
  apply nth_error_In in Hn. rewrite Forall_forall in Hg. apply Hg in Hn. discriminate.
Qed.

Example C60_variadic_example :
  match NewMethod O0
          (fun e => PrintType O0 [] "" e) [] [] "F"
          (named ["F"] (FuncT [named [] (Ellipsis (Ident "int"))] None)) with
  | Ok m => struct_fields (ParamsStruct m) = Some [("p1", "[]int")]
  | _ => False
  end.
Proof. vm_compute. reflexivity. Qed.

Print Assumptions C60_params_struct.
Print Assumptions C60_ptrs_struct.
Print Assumptions C60_results_struct.
Print Assumptions C60_maps.
Print Assumptions C60_names.
Print Assumptions C60_return.
Print Assumptions C60_variadic.
