(** The data gowrap hands to its two templates (generator.go:301-335) and the
    text they produce. *)
From Verif Require Export Tmpl TemplateText Cmd.
Open Scope nat_scope.

Definition dvar (v : varval) : tval := match v with VTrue => DBool true | VStr s => DStr s end.

(** TemplateInputs (generator.go:38-44, 86-96, 317-329) *)
Definition inputs (name typ gtypes gparams : string) (methods : methodsList) (imports : list string)
                  (vars : list (string * varval)) : tval :=
  DRec [("Interface", DRec [("Name", DStr name); ("Type", DStr typ);
                            ("Generics", DRec [("Types", DStr gtypes); ("Params", DStr gparams)]);
                            ("Methods", DMap (map (fun km => (fst km, DMethod (snd km))) methods))]);
        ("Vars", DMap (map (fun kv => (fst kv, dvar (snd kv))) vars));
        ("Imports", DList (map DStr imports))].

Definition body_inputs (g : generator) (vars : list (string * varval)) : tval :=
  inputs (op_interface (g_options g)) (g_interfaceType g) (g_genericTypes g) (g_genericParams g)
         (g_methods g) (op_imports (g_options g)) vars.

(** the header's data (generator.go:305-310): the fields the template uses *)
Definition header_inputs (g : generator) (h : headervars) : tval :=
  DMap [("SourcePackage", DRec [("PkgPath", DStr (pk_path (g_src g)))]);
        ("Package", DRec [("Name", DStr (g_dst_name g))]);
        ("Options", DRec [("InterfaceName", DStr (op_interface (g_options g)));
                          ("LocalPrefix", DStr (op_prefix (g_options g)));
                          ("Imports", DList (map DStr (op_imports (g_options g))));
                          ("HeaderVars", DMap [("DisableGoGenerate", DBool (hv_disable h));
                                               ("OutputFileName", DStr (hv_output h));
                                               ("VarsArgs", DStr (hv_args h));
                                               ("Template", DStr (hv_template h))])])].

(** Execute of a parsed body: text, or the error template execution gives *)
Definition run_template (lower upper : N -> N) (t : string) (data : tval) : option (res string) :=
  match parse t with
  | None => None
  | Some ns => match execute lower upper ns data with
               | TOk l => Some (Ok (text_of l))
               | TErr m => Some (Err (Sentinel m))
               | TUnsup => None
               end
  end.

(** ** General facts about execution *)

Lemma text_of_app : forall a b, text_of (a ++ b) = (text_of a ++ text_of b)%string.
Proof. induction a as [|x a IH]; intros b; cbn; [reflexivity|]. now rewrite IH, sapp_assoc. Qed.

Lemma range_loop_map : forall {A} (f : tval -> tres (list chunk)) (g : A -> tval) (h : A -> list chunk) l,
  (forall x, In x l -> f (g x) = TOk (h x)) -> range_loop f (map g l) = TOk (flat_map h l).
Proof.
  intros A f g h l. induction l as [|x l IH]; intros H; cbn; [reflexivity|].
  rewrite H by now left. cbn. rewrite IH by (intros; apply H; now right). reflexivity.
Qed.

(** ** The header *)

Definition header_nodes : list node := Eval vm_compute in
  match parse text_header with Some l => l | None => [] end.
Lemma header_parses : parse text_header = Some header_nodes.
Proof. vm_compute. reflexivity. Qed.

Lemma join_empty_cons : forall x l, join "" (x :: l) = (x ++ join "" l)%string.
Proof. intros x [|y l]; cbn; [now rewrite sapp_nil_r|reflexivity]. Qed.

Lemma text_of_imports : forall l t,
  text_of (flat_map (fun i => [CV i; CT (nl ++ tab)%string]) l ++ t)
  = (join "" (map (fun i => (i ++ nl ++ tab)%string) l) ++ text_of t)%string.
Proof.
  induction l as [|i l IH]; intros t; [reflexivity|].
  cbn [flat_map map app text_of chunk_text]. rewrite IH, join_empty_cons, !sapp_assoc. reflexivity.
Qed.

(** Cmd.header_text is what executing headerTemplate gives, for every package,
    interface, import list and set of header variables. *)
Theorem header_rendered : forall lower upper g h,
  run_template lower upper text_header (header_inputs g h) = Some (Ok (header_text g h)).
Proof.
  intros lower upper g h. unfold run_template. rewrite header_parses.
  unfold execute, header_nodes. cbn -[range_loop map text_of String.append].
  unfold header_text, directive. rewrite !sapp_assoc.
  destruct (hv_disable h); cbn -[range_loop map text_of String.append join nl tab];
    rewrite (range_loop_map _ DStr (fun i => [CV i; CT (nl ++ tab)%string])) by reflexivity;
    cbn -[text_of String.append flat_map map join nl tab];
    do 2 f_equal; cbn [text_of chunk_text]; rewrite text_of_imports; rewrite ?sapp_assoc; reflexivity.
Qed.
