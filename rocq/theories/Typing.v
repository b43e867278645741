(** Go's rules for types (Go spec, "Properties of types and values",
    "Expressions", "Statements"), over one syntax for the three fragments of Go
    the stock templates are modelled in, and the signatures of the packages the
    templates use. *)
From Verif Require Import Render.
From Verif Require Export Scoping.
Open Scope nat_scope.

(** ** Types *)
Inductive ty :=
| TyName (n : string)                     (* predeclared or declared in the package; a type of the interface, by its text *)
| TyQual (path n : string)                (* of an imported package *)
| TyPtr (t : ty)
| TySlice (t : ty)
| TyChan (t : ty)
| TyRecv (t : ty)                         (* <-chan t *)
| TyMap (k v : ty)
| TyFunc (ps : list ty) (v : option ty) (rs : list ty)   (* v: the element type of the variadic parameter *)
| TyIface (ms : list (string * ty))
| TyStruct (n : string) (fs : list (string * ty))        (* declared in a function, "" for struct{} *)
| TNil | TInt | TString | TBool.          (* nil and the untyped constants *)

Definition t_error : ty := TyName "error".
Definition t_string : ty := TyName "string".
Definition t_bool : ty := TyName "bool".
Definition t_int : ty := TyName "int".
Definition t_empty : ty := TyIface [].    (* interface{} *)
Definition thunk : ty := TyFunc [] None [].
Definition gives (rs : list ty) : ty := TyFunc [] None rs.

(** ** The packages the templates use: what they declare, from their
    documentation (only what the templates mention) *)
Definition logrus_path : string := "github.com/sirupsen/logrus".
Definition prometheus_path : string := "github.com/prometheus/client_golang/prometheus".
Definition census_path : string := "go.opencensus.io/trace".
Definition otel_path : string := "go.opentelemetry.io/otel".
Definition otel_codes_path : string := "go.opentelemetry.io/otel/codes".
Definition otel_attribute_path : string := "go.opentelemetry.io/otel/attribute".
Definition otel_trace_path : string := "go.opentelemetry.io/otel/trace".
Definition ot_path : string := "github.com/opentracing/opentracing-go".
Definition ot_ext_path : string := "github.com/opentracing/opentracing-go/ext".
Definition ot_log_path : string := "github.com/opentracing/opentracing-go/log".
Definition apm_path : string := "go.elastic.co/apm/v2".
Definition twirp_path : string := "github.com/twitchtv/twirp".
Definition status_path : string := "google.golang.org/grpc/status".
Definition grpc_codes_path : string := "google.golang.org/grpc/codes".

Definition t_duration : ty := TyQual "time" "Duration".
Definition t_time : ty := TyQual "time" "Time".
Definition t_ctx : ty := TyQual "context" "Context".
Definition t_cancel : ty := TyQual "context" "CancelFunc".

(** functions, variables and constants: package, name, type *)
Definition lib_values : list ((string * string) * ty) :=
  [("time", "Now", gives [t_time]); ("time", "Since", TyFunc [t_time] None [t_duration]);
   ("time", "NewTicker", TyFunc [t_duration] None [TyPtr (TyQual "time" "Ticker")]);
   ("time", "Tick", TyFunc [t_duration] None [TyRecv t_time]); ("time", "Second", t_duration);
   ("context", "WithTimeout", TyFunc [t_ctx; t_duration] None [t_ctx; t_cancel]);
   ("context", "WithCancel", TyFunc [t_ctx] None [t_ctx; t_cancel]);
   ("errors", "New", TyFunc [t_string] None [t_error]); ("errors", "Is", TyFunc [t_error; t_error] None [t_bool]);
   ("fmt", "Errorf", TyFunc [t_string] (Some t_empty) [t_error]);
   ("strings", "Join", TyFunc [TySlice t_string; t_string] None [t_string]);
   ("sync/atomic", "AddUint32", TyFunc [TyPtr (TyName "uint32"); TyName "uint32"] None [TyName "uint32"]);
   ("encoding/json", "Marshal", TyFunc [t_empty] None [TySlice (TyName "byte"); t_error]);
   ("log", "New", TyFunc [TyQual "io" "Writer"; t_string; t_int] None [TyPtr (TyQual "log" "Logger")]); ("log", "LstdFlags", TInt);
   (census_path, "StartSpan", TyFunc [t_ctx; t_string] (Some (TyQual census_path "StartOption")) [t_ctx; TyPtr (TyQual census_path "Span")]);
   (census_path, "BoolAttribute", TyFunc [t_string; t_bool] None [TyQual census_path "Attribute"]);
   (census_path, "StringAttribute", TyFunc [t_string; t_string] None [TyQual census_path "Attribute"]);
   (otel_path, "Tracer", TyFunc [t_string] (Some (TyQual otel_trace_path "TracerOption")) [TyQual otel_trace_path "Tracer"]);
   (otel_codes_path, "Error", TyQual otel_codes_path "Code");
   (otel_attribute_path, "String", TyFunc [t_string; t_string] None [TyQual otel_attribute_path "KeyValue"]);
   (ot_path, "StartSpanFromContext", TyFunc [t_ctx; t_string] (Some (TyQual ot_path "StartSpanOption")) [TyQual ot_path "Span"; t_ctx]);
   (ot_ext_path, "Error", TyQual ot_ext_path "boolTagName");
   (ot_log_path, "String", TyFunc [t_string; t_string] None [TyQual ot_log_path "Field"]);
   (apm_path, "StartSpan", TyFunc [t_ctx; t_string; t_string] None [TyPtr (TyQual apm_path "Span"); t_ctx]);
   (apm_path, "CaptureError", TyFunc [t_ctx; t_error] None [TyPtr (TyQual apm_path "Error")]);
   (twirp_path, "NewError", TyFunc [TyQual twirp_path "ErrorCode"; t_string] None [TyQual twirp_path "Error"]);
   (twirp_path, "InvalidArgument", TyQual twirp_path "ErrorCode");
   (twirp_path, "InternalErrorWith", TyFunc [t_error] None [TyQual twirp_path "Error"]);
   (status_path, "Error", TyFunc [TyQual grpc_codes_path "Code"; t_string] None [t_error]);
   (grpc_codes_path, "InvalidArgument", TyQual grpc_codes_path "Code")].

(** types: what they are *)
Inductive kind := KStruct | KInterface | KNumber | KOther (underlying : ty).
Definition lib_types : list ((string * string) * kind) :=
  [("time", "Duration", KNumber); ("time", "Time", KStruct); ("time", "Ticker", KStruct);
   ("context", "Context", KInterface); ("context", "CancelFunc", KOther thunk);
   ("sync", "RWMutex", KStruct); ("io", "Writer", KInterface); ("log", "Logger", KStruct);
   (logrus_path, "Entry", KStruct); (logrus_path, "Fields", KOther (TyMap t_string t_empty));
   (prometheus_path, "SummaryVec", KStruct); (prometheus_path, "Observer", KInterface);
   (census_path, "Span", KStruct); (census_path, "Attribute", KInterface);
   (otel_trace_path, "Span", KInterface); (otel_trace_path, "Tracer", KInterface); (otel_codes_path, "Code", KNumber);
   (otel_attribute_path, "KeyValue", KStruct);
   (ot_path, "Span", KInterface); (ot_ext_path, "boolTagName", KOther t_string); (ot_log_path, "Field", KStruct);
   (apm_path, "Span", KStruct); (apm_path, "SpanData", KStruct); (apm_path, "SpanContext", KStruct); (apm_path, "Error", KStruct);
   (twirp_path, "Error", KInterface); (twirp_path, "ErrorCode", KOther t_string); (grpc_codes_path, "Code", KNumber)].

(** their fields and methods (of the type or of pointers to it) *)
Definition lib_members : list ((string * string) * (string * ty)) :=
  [("time", "Duration", ("Seconds", gives [TyName "float64"]));
   ("time", "Time", ("Add", TyFunc [t_duration] None [t_time])); ("time", "Time", ("After", TyFunc [t_time] None [t_bool]));
   ("time", "Ticker", ("C", TyRecv t_time)); ("time", "Ticker", ("Stop", thunk));
   ("context", "Context", ("Done", gives [TyRecv (TyStruct "" [])])); ("context", "Context", ("Err", gives [t_error]));
   ("sync", "RWMutex", ("Lock", thunk)); ("sync", "RWMutex", ("Unlock", thunk));
   ("sync", "RWMutex", ("RLock", thunk)); ("sync", "RWMutex", ("RUnlock", thunk));
   ("log", "Logger", ("Println", TyFunc [] (Some t_empty) []));
   (logrus_path, "Entry", ("WithFields", TyFunc [TyQual logrus_path "Fields"] None [TyPtr (TyQual logrus_path "Entry")]));
   (logrus_path, "Entry", ("Debug", TyFunc [] (Some t_empty) [])); (logrus_path, "Entry", ("Error", TyFunc [] (Some t_empty) []));
   (prometheus_path, "SummaryVec", ("WithLabelValues", TyFunc [] (Some t_string) [TyQual prometheus_path "Observer"]));
   (prometheus_path, "Observer", ("Observe", TyFunc [TyName "float64"] None []));
   (census_path, "Span", ("AddAttributes", TyFunc [] (Some (TyQual census_path "Attribute")) [])); (census_path, "Span", ("End", thunk));
   (otel_trace_path, "Tracer", ("Start", TyFunc [t_ctx; t_string] (Some (TyQual otel_trace_path "SpanStartOption")) [t_ctx; TyQual otel_trace_path "Span"]));
   (otel_trace_path, "Span", ("RecordError", TyFunc [t_error] (Some (TyQual otel_trace_path "EventOption")) []));
   (otel_trace_path, "Span", ("SetStatus", TyFunc [TyQual otel_codes_path "Code"; t_string] None []));
   (otel_trace_path, "Span", ("SetAttributes", TyFunc [] (Some (TyQual otel_attribute_path "KeyValue")) []));
   (otel_trace_path, "Span", ("End", TyFunc [] (Some (TyQual otel_trace_path "SpanEndOption")) []));
   (ot_path, "Span", ("Finish", thunk)); (ot_path, "Span", ("LogFields", TyFunc [] (Some (TyQual ot_log_path "Field")) []));
   (ot_ext_path, "boolTagName", ("Set", TyFunc [TyQual ot_path "Span"; t_bool] None []));
   (apm_path, "Span", ("End", thunk)); (apm_path, "Span", ("SpanData", TyPtr (TyQual apm_path "SpanData")));
   (apm_path, "SpanData", ("Context", TyQual apm_path "SpanContext"));
   (apm_path, "SpanContext", ("SetLabel", TyFunc [t_string; t_empty] None []));
   (apm_path, "Error", ("Send", thunk));
   (twirp_path, "Error", ("WithMeta", TyFunc [t_string; t_string] None [TyQual twirp_path "Error"]))].

(** types with a method Error() string *)
Definition lib_errors : list (string * string) := [(twirp_path, "Error")].

(** ** Names *)
Inductive ent :=
| EVal (t : ty)          (* a variable, constant or function *)
| EType (t : ty)
| EPkg (path : string)
| EBuiltin.              (* len, append, panic, make *)
Definition block := list (string * ent).
Definition env := list block.
Inductive bound : env -> string -> ent -> Prop :=
| bound_here x e b G : In (x, e) b -> bound (b :: G) x e
| bound_out x e b G : ~ In x (map fst b) -> bound G x e -> bound (b :: G) x e.

(** ** Syntax *)
Inductive tm :=
| MVar (x : string)
| MSel (e : tm) (f : string)
| MStr
| MNum
| MBin (op : string) (a b : tm)
| MUn (op : string) (a : tm)
| MCall (f : tm) (args : list tm) (spread : bool)       (* f(args) or f(args...) *)
| MConv (t : list gtok) (e : tm)
| MAssert (e : tm) (t : list gtok)
| MFun (ps : list (string * list gtok)) (body : list st)
| MSlice (t : list gtok) (es : list tm)                 (* t{es}, t the slice type *)
| MDict (es : list tm)                                  (* map[string]interface{}{"..": e, ..} *)
| MIndex (e i : tm)
| MMake (t : list gtok) (n : tm)                        (* make(chan t, n) *)
| MLit (addr : bool) (n : string) (fs : list (string * tm))
| MTuple (n : string) (es : list tm)                    (* n{es}, n a struct *)
| MUnit                                                 (* struct{}{} *)
with st :=
| DAssign (lhs : list tm) (rhs : tm)
| DDefine (xs : list string) (rhs : tm)
| DVar (x : string) (t : list gtok)
| DType (x : string) (fs : list param)                    (* type x struct{ fs } *)
| DExpr (e : tm)
| DBlock (l : list st)
| DIf (c : tm) (a b : list st)
| DFor (c : option tm) (post : list st) (body : list st)
| DEach (x : string) (e : tm) (body : list st)          (* for _, x := range e *)
| DDrain (x : string) (e : tm) (body : list st)         (* for x := range e, a channel *)
| DSelect (cases : list (st * list st))
| DInc (x : tm)
| DReturn (es : list tm)
| DDefer (e : tm)
| DGo (e : tm)
| DSend (ch e : tm).

(** ** Rules *)

(** the type of a parameter or result from its text *)
Definition text_ty (s : string) : ty := if String.eqb s "context.Context" then t_ctx else TyName s.
Fixpoint drop (n : nat) (s : string) : string :=
  match n, s with S n', String _ r => drop n' r | _, _ => s end.
Definition param_ty (p : param) : ty :=
  if p_variadic p then TySlice (text_ty (drop 3 (p_type p))) else text_ty (p_type p).
Fixpoint params_sig (l : list param) : list ty * option ty :=
  match l with
  | [] => ([], None)
  | [p] => if p_variadic p then ([], Some (text_ty (drop 3 (p_type p)))) else ([text_ty (p_type p)], None)
  | p :: r => let (a, v) := params_sig r in (text_ty (p_type p) :: a, v)
  end.
Definition method_ty (m : method) : ty :=
  let (a, v) := params_sig (m_params m) in TyFunc a v (map (fun r => text_ty (p_type r)) (m_results m)).

(** the name after the last dot, without type arguments: the field of an embedded type *)
Fixpoint after_dot (cur s : string) : string :=
  match s with
  | EmptyString => cur
  | String c r => if byte_eqb c "[" then cur else after_dot (if byte_eqb c "." then "" else (cur ++ String c "")%string) r
  end.
Definition base_name : string -> string := after_dot "".

(** the identifiers of a type's text, but for those after a dot; keywords and
    the names of parameters of functions are among them *)
Definition id_byte (c : ascii) : bool :=
  let n := N_of_ascii c in
  (((65 <=? n) && (n <=? 90)) || ((97 <=? n) && (n <=? 122)) || ((48 <=? n) && (n <=? 57)) || (n =? 95) || (128 <=? n))%N.
Fixpoint ids_from (dot : bool) (cur s : string) : list string :=
  let done := if dot || String.eqb cur "" then [] else [cur] in
  match s with
  | EmptyString => done
  | String c r => if id_byte c then ids_from dot (cur ++ String c "")%string r else done ++ ids_from (byte_eqb c ".") "" r
  end.
Definition type_ids : string -> list string := ids_from false "".

Inductive number : ty -> Prop :=
| n_int : number t_int | n_uint32 : number (TyName "uint32") | n_float : number (TyName "float64")
| n_lib p n : In (p, n, KNumber) lib_types -> number (TyQual p n).
Inductive integer : ty -> Prop := i_int : integer t_int | i_uint32 : integer (TyName "uint32").

Section RULES.
(** the interface type and its methods; the types of the package: structs by
    their lines, other types by what they stand for; the names of the file *)
Variable typ : string.
Variable methods : list method.
Variable structs : list (string * list (list gtok)).
Variable aliases : list (string * list gtok).
Variable top : env.

(** [x] is not declared between [G] and the file: it means there what it means
    in the signatures of methods *)
Inductive outside (x : string) : env -> Prop :=
| os_top : outside x top
| os_out b G : ~ In x (map fst b) -> outside x G -> outside x (b :: G).

(** the type some tokens denote; the text of the interface type is one token *)
Inductive denotes (G : env) : list gtok -> ty -> Prop :=
| dn_interface : (forall x, In x (type_ids typ) -> outside x G) -> denotes G (hole typ) (TyName typ)
| dn_name w t : bound G (wtext w) (EType t) -> denotes G [TW w] t
| dn_qual p path n k : bound G p (EPkg path) -> In (path, n, k) lib_types -> denotes G (dotted p n) (TyQual path n)
| dn_ptr l t : denotes G l t -> denotes G (TP "*" :: l) (TyPtr t)
| dn_slice l t : denotes G l t -> denotes G (TP "[" :: TP "]" :: l) (TySlice t)
| dn_chan l t : denotes G l t -> denotes G (kw "chan" ++ l) (TyChan t)
| dn_map k v a b : denotes G k a -> denotes G v b -> denotes G (kw "map" ++ [TP "["] ++ k ++ [TP "]"] ++ v) (TyMap a b)
| dn_empty : denotes G t_any t_empty
| dn_iface f r t : denotes G r t ->
    denotes G (kw "interface" ++ [TP "{"] ++ kw f ++ punct "()" ++ r ++ [TP "}"]) (TyIface [(f, gives [t])])
| dn_unit : denotes G (kw "struct" ++ punct "{}") (TyStruct "" [])
| dn_func ps ts r rs : dn_params G ps ts -> dn_results G r rs ->
    denotes G (kw "func" ++ [TP "("] ++ ps ++ [TP ")"] ++ r) (TyFunc ts None rs)
with dn_params (G : env) : list gtok -> list ty -> Prop :=
| dp_none : dn_params G [] []
| dp_last xs l t : denotes G l t -> dn_params G (commas (map kw xs) ++ l) (map (fun _ => t) xs)
| dp_more xs l t r ts : denotes G l t -> dn_params G r ts ->
    dn_params G (commas (map kw xs) ++ l ++ [TP ","] ++ r) (map (fun _ => t) xs ++ ts)
with dn_results (G : env) : list gtok -> list ty -> Prop :=
| dr_none : dn_results G [] []
| dr_one l t : denotes G l t -> dn_results G l [t]
| dr_two a t b u : denotes G a t -> denotes G b u -> dn_results G ([TP "("] ++ a ++ [TP ","] ++ b ++ [TP ")"]) [t; u]
| dr_paren l t : denotes G l t -> dn_results G ([TP "("] ++ l ++ [TP ")"]) [t].

(** what a line of a struct declares *)
Inductive line_field : list gtok -> string -> list gtok -> Prop :=
| lf_one w l : l <> [] -> line_field (TW w :: l) (wtext w) l
| lf_first v w l : line_field (TW v :: TP "," :: TW w :: l) (wtext v) l
| lf_second v w l : line_field (TW v :: TP "," :: TW w :: l) (wtext w) l
| lf_embedded : line_field (hole typ) (base_name typ) (hole typ).
Inductive field (n f : string) (t : ty) : Prop :=
| fd lines line l : In (n, lines) structs -> In line lines -> line_field line f l -> denotes top l t -> field n f t.

Inductive member : ty -> string -> ty -> Prop :=
| mb_lib p n f t : In (p, n, (f, t)) lib_members -> member (TyQual p n) f t
| mb_lib_ptr p n f t : In (p, n, KStruct) lib_types -> In (p, n, (f, t)) lib_members -> member (TyPtr (TyQual p n)) f t
| mb_field n f t : field n f t -> member (TyName n) f t
| mb_field_ptr n f t : field n f t -> member (TyPtr (TyName n)) f t
| mb_local n fs f t : In (f, t) fs -> member (TyStruct n fs) f t
| mb_method m : In m methods -> member (TyName typ) (m_name m) (method_ty m)
| mb_iface ms f t : In (f, t) ms -> member (TyIface ms) f t
| mb_error : member t_error "Error" (gives [t_string]).

Inductive under : ty -> ty -> Prop :=
| un_lib p n t : In (p, n, KOther t) lib_types -> under (TyQual p n) t
| un_alias n l t : In (n, l) aliases -> denotes top l t -> under (TyName n) t.
Inductive interface_ty : ty -> Prop :=
| if_error : interface_ty t_error | if_typ : interface_ty (TyName typ) | if_lit ms : interface_ty (TyIface ms)
| if_lib p n : In (p, n, KInterface) lib_types -> interface_ty (TyQual p n).
Inductive nilable : ty -> Prop :=
| nl_iface t : interface_ty t -> nilable t
| nl_ptr t : nilable (TyPtr t) | nl_slice t : nilable (TySlice t) | nl_chan t : nilable (TyChan t)
| nl_map k v : nilable (TyMap k v) | nl_func ps v rs : nilable (TyFunc ps v rs).

Inductive composite : ty -> Prop := cp_func ps v rs : composite (TyFunc ps v rs) | cp_map k v : composite (TyMap k v).
(** Go spec, "Assignability" *)
Inductive assignable : ty -> ty -> Prop :=
| as_same t : assignable t t
| as_nil t : nilable t -> assignable TNil t
| as_num t : number t -> assignable TInt t
| as_str : assignable TString t_string
| as_bool : assignable TBool t_bool
| as_empty t : assignable t t_empty
| as_error p n : In (p, n) lib_errors -> assignable (TyQual p n) t_error
| as_from t u : under t u -> composite u -> assignable t u
| as_to t u : under u t -> composite t -> assignable t u.
(** Go spec, "Conversions" *)
Inductive convertible : ty -> ty -> Prop :=
| cv_assign t u : assignable t u -> convertible t u
| cv_number t u : number t -> number u -> convertible t u
| cv_bytes : convertible (TySlice (TyName "byte")) t_string.
(** the type of a variable x := e *)
Inductive defaults : ty -> ty -> Prop :=
| de_int : defaults TInt t_int | de_str : defaults TString t_string | de_bool : defaults TBool t_bool
| de_same t : ~ In t [TNil; TInt; TString; TBool] -> defaults t t.
Inductive arith : string -> ty -> Prop :=
| ar_add : arith "+" t_string | ar_sub t : number t -> arith "-" t | ar_div t : number t -> arith "/" t
| ar_mod t : integer t -> arith "%" t.
Definition args_ok (ps : list ty) (v : option ty) (spread : bool) (ts : list ty) : Prop :=
  if spread then exists t, v = Some t /\ Forall2 assignable ts (ps ++ [TySlice t])
  else exists a b, ts = a ++ b /\ Forall2 assignable a ps /\ match v with Some t => Forall (fun u => assignable u t) b | None => b = [] end.
Inductive callable : ty -> list ty -> option ty -> list ty -> Prop :=
| ca_func ps v rs : callable (TyFunc ps v rs) ps v rs
| ca_under t ps v rs : under t (TyFunc ps v rs) -> callable t ps v rs.
Inductive receives : ty -> ty -> Prop := rc_chan t : receives (TyChan t) t | rc_recv t : receives (TyRecv t) t.
(** Go spec, "Address operators", "Assignment statements" *)
Inductive addressable : tm -> Prop :=
| ad_var x : addressable (MVar x) | ad_sel e f : addressable e -> addressable (MSel e f) | ad_deref e : addressable (MUn "*" e).
(** Go spec, "Expression statements": not append, len and make *)
Inductive is_call : tm -> Prop := ic f args s : f <> MVar "append" -> f <> MVar "len" -> is_call (MCall f args s).
Inductive communication : st -> Prop :=
| co_recv e : communication (DExpr (MUn "<-" e)) | co_define x e : communication (DDefine [x] (MUn "<-" e)) | co_send a b : communication (DSend a b).

(** xs := values of types ts, in block b *)
Inductive define : block -> list string -> list ty -> block -> Prop :=
| df_nil b : define b [] [] b
| df_blank b xs ts b' t u : defaults t u -> define b xs ts b' -> define b ("_" :: xs) (t :: ts) b'
| df_old b xs ts b' x t u : x <> "_" -> In (x, EVal u) b -> assignable t u -> define b xs ts b' -> define b (x :: xs) (t :: ts) b'
| df_new b xs ts b' x t u : x <> "_" -> ~ In x (map fst b) -> defaults t u ->
    define ((x, EVal u) :: b) xs ts b' -> define b (x :: xs) (t :: ts) b'.
Definition val_of (p : string * ty) : string * ent := (fst p, EVal (snd p)).

(** [ety G e ts]: e has the values ts (one, unless it is a call).
    [sty rs G b s b']: s is a statement of a function with results rs (named, if
    the flag is set), in block b inside of G, and b' is the block after it. *)
Inductive ety : env -> tm -> list ty -> Prop :=
| t_var G x t : bound G x (EVal t) -> ety G (MVar x) [t]
| t_pkg G x path f t : bound G x (EPkg path) -> In (path, f, t) lib_values -> ety G (MSel (MVar x) f) [t]
| t_sel G e f t u : ety G e [t] -> member t f u -> ety G (MSel e f) [u]
| t_str G : ety G MStr [TString]
| t_num G : ety G MNum [TInt]
| t_eq G op a b t u : In op ["=="; "!="] -> ety G a [t] -> ety G b [u] -> assignable u t -> u = TNil \/ number t -> ety G (MBin op a b) [t_bool]
| t_order G op a b t u : In op ["<"; ">"; ">="] -> ety G a [t] -> ety G b [u] -> assignable u t -> number t -> ety G (MBin op a b) [t_bool]
| t_logic G op a b t u : In op ["&&"; "||"] -> ety G a [t] -> ety G b [u] -> assignable t t_bool -> assignable u t_bool -> ety G (MBin op a b) [t_bool]
| t_arith G op a b t u : ety G a [t] -> ety G b [u] -> assignable u t -> arith op t -> ety G (MBin op a b) [t]
| t_ref G e t : addressable e -> ety G e [t] -> ety G (MUn "&" e) [TyPtr t]
| t_deref G e t : ety G e [TyPtr t] -> ety G (MUn "*" e) [t]
| t_not G e : ety G e [t_bool] -> ety G (MUn "!" e) [t_bool]
| t_recv G e t u : ety G e [t] -> receives t u -> ety G (MUn "<-" e) [u]
| t_call G f args spread t ps v rs ts : ety G f [t] -> callable t ps v rs ->
    Forall2 (fun e u => ety G e [u]) args ts -> args_ok ps v spread ts -> ety G (MCall f args spread) rs
| t_len G e t : bound G "len" EBuiltin -> ety G e [TySlice t] -> ety G (MCall (MVar "len") [e] false) [t_int]
| t_append G e a t u : bound G "append" EBuiltin -> ety G e [TySlice t] -> ety G a [u] -> assignable u t ->
    ety G (MCall (MVar "append") [e; a] false) [TySlice t]
| t_panic G e t : bound G "panic" EBuiltin -> ety G e [t] -> ety G (MCall (MVar "panic") [e] false) []
| t_conv G l e t u : denotes G l u -> ety G e [t] -> convertible t u -> ety G (MConv l e) [u]
| t_assert G l e t u : denotes G l u -> ety G e [t] -> interface_ty t -> interface_ty u -> ety G (MAssert e l) [u; t_bool]
| t_fun G ps ts body b : Forall2 (fun p t => denotes G (snd p) t) ps ts -> NoDup (map fst ps) ->
    stys (false, []) G (map val_of (combine (map fst ps) ts)) body b -> ety G (MFun ps body) [TyFunc ts None []]
| t_slice G l es ts t : denotes G l (TySlice t) -> Forall2 (fun e u => ety G e [u]) es ts -> Forall (fun u => assignable u t) ts ->
    ety G (MSlice l es) [TySlice t]
| t_dict G es ts : bound G "string" (EType t_string) -> Forall2 (fun e u => ety G e [u]) es ts -> ety G (MDict es) [TyMap t_string t_empty]
| t_index G e i t u : ety G e [TySlice t] -> ety G i [u] -> u = TInt \/ integer u -> ety G (MIndex e i) [t]
| t_make G l n t u : bound G "make" EBuiltin -> denotes G l t -> ety G n [u] -> u = TInt \/ integer u -> ety G (MMake l n) [TyChan t]
| t_lit G (addr : bool) n d fs ts us : bound G n (EType (TyName d)) ->
    Forall2 (fun f u => ety G (snd f) [u]) fs ts -> Forall2 (fun f u => field d (fst f) u) fs us -> Forall2 assignable ts us ->
    NoDup (map fst fs) -> ety G (MLit addr n fs) [if addr then TyPtr (TyName d) else TyName d]
| t_tuple G n d fs es ts : bound G n (EType (TyStruct d fs)) -> Forall2 (fun e u => ety G e [u]) es ts ->
    Forall2 assignable ts (map snd fs) -> ety G (MTuple n es) [TyStruct d fs]
| t_unit_ G : ety G MUnit [TyStruct "" []]
with sty : bool * list ty -> env -> block -> st -> block -> Prop :=
| s_assign R G b lhs rhs ts us : Forall addressable lhs -> Forall2 (fun e u => ety (b :: G) e [u]) lhs us ->
    ety (b :: G) rhs ts -> Forall2 assignable ts us -> sty R G b (DAssign lhs rhs) b
| s_define R G b xs rhs ts b' : ety (b :: G) rhs ts -> define b xs ts b' -> sty R G b (DDefine xs rhs) b'
| s_var R G b x l t : denotes (b :: G) l t -> x <> "_" -> ~ In x (map fst b) -> sty R G b (DVar x l) ((x, EVal t) :: b)
| s_type R G b x fs : x <> "_" -> ~ In x (map fst b) -> NoDup (map p_name fs) ->
    (forall p y, In p fs -> In y (type_ids (p_type p)) -> y <> x /\ outside y (b :: G)) ->
    sty R G b (DType x fs) ((x, EType (TyStruct x (map (fun p => (p_name p, param_ty p)) fs))) :: b)
| s_call R G b e ts : is_call e -> ety (b :: G) e ts -> sty R G b (DExpr e) b
| s_recv R G b e t : ety (b :: G) (MUn "<-" e) [t] -> sty R G b (DExpr (MUn "<-" e)) b
| s_block R G b l b' : stys R (b :: G) [] l b' -> sty R G b (DBlock l) b
| s_if R G b c l1 l2 t b1 b2 : ety (b :: G) c [t] -> assignable t t_bool -> stys R (b :: G) [] l1 b1 -> stys R (b :: G) [] l2 b2 ->
    sty R G b (DIf c l1 l2) b
| s_for R G b c post body b1 b2 : (forall e, c = Some e -> ety (b :: G) e [t_bool]) ->
    stys R G b post b1 -> stys R (b :: G) [] body b2 -> sty R G b (DFor c post body) b
| s_each R G b x e body t b1 : ety (b :: G) e [TySlice t] -> stys R ([(x, EVal t)] :: b :: G) [] body b1 -> sty R G b (DEach x e body) b
| s_drain R G b x e body t u b1 : ety (b :: G) e [t] -> receives t u -> stys R ([(x, EVal u)] :: b :: G) [] body b1 -> sty R G b (DDrain x e body) b
| s_select R G b cases : (forall c, In c cases -> communication (fst c) /\ exists b', stys R (b :: G) [] (fst c :: snd c) b') ->
    sty R G b (DSelect cases) b
| s_inc R G b e t : addressable e -> ety (b :: G) e [t] -> number t -> sty R G b (DInc e) b
| s_return G b (named : bool) rs : named = true \/ rs = [] -> sty (named, rs) G b (DReturn []) b
| s_return_call G b named rs e ts : is_call e -> ety (b :: G) e ts -> ts <> [] -> Forall2 assignable ts rs -> sty (named, rs) G b (DReturn [e]) b
| s_return_all G b named rs es ts : es <> [] -> Forall2 (fun e u => ety (b :: G) e [u]) es ts -> Forall2 assignable ts rs -> sty (named, rs) G b (DReturn es) b
| s_defer R G b e ts : is_call e -> ety (b :: G) e ts -> sty R G b (DDefer e) b
| s_go R G b e ts : is_call e -> ety (b :: G) e ts -> sty R G b (DGo e) b
| s_send R G b ch e t u : ety (b :: G) ch [TyChan t] -> ety (b :: G) e [u] -> assignable u t -> sty R G b (DSend ch e) b
with stys : bool * list ty -> env -> block -> list st -> block -> Prop :=
| ss_nil R G b : stys R G b [] b
| ss_cons R G b s b1 l b2 : sty R G b s b1 -> stys R G b1 l b2 -> stys R G b (s :: l) b2.

(** a function with the parameters, receiver and results of its block *)
Definition function_typed (named : bool) (rs : list ty) (b : block) (body : list st) : Prop :=
  NoDup (map fst b) /\ exists b', stys (named, rs) top b body b'.
End RULES.

(** ** The three fragments in this syntax *)
Definition names_of (l : list param) : list tm := map (fun p => MVar (p_name p)) l.
Section METHOD.
Variable m : method.

(** Method.Call on a receiver *)
Definition method_call (recv : tm) : tm := MCall (MSel recv (m_name m)) (names_of (m_params m)) (existsb p_variadic (m_params m)).

(** method bodies (MiniGo.v) *)
Fixpoint gterm (e : gexpr) : tm :=
  match e with
  | EVar x => MVar (wtext x)
  | ESel e f | EShared e f => MSel (gterm e) (wtext f)
  | EAddr e f => MUn "&" (MSel (gterm e) (wtext f))
  | EStr _ => MStr
  | EInt _ => MNum
  | EBin op a b => MBin op (gterm a) (gterm b)
  | EUn op a => MUn op (gterm a)
  | ECall f args t => MCall (gterm f) (map gterm args) (match t with TDots => true | _ => false end)
  | EConv t e => MConv t (gterm e)
  | EAssert e t => MAssert (gterm e) t
  | EFun body => MFun [] (flat_map gst body)
  | ESliceLit t e mac => MSlice t (gterm e :: names_of (if mac then m_params m else m_results m))
  | EMCall recv => method_call (gterm recv)
  | EMap mac => MDict (names_of (if mac then m_params m else m_results m))
  | EIndex e i => MIndex (gterm e) (gterm i)
  end
with gst (s : gstmt) : list st :=
  match s with
  | SAssign lhs rhs => [DAssign (map gterm lhs) (gterm rhs)]
  | SResults rhs => [DAssign (names_of (m_results m)) (gterm rhs)]
  | SDefine xs rhs => [DDefine (map wtext xs) (gterm rhs)]
  | SVar x t => [DVar (wtext x) t]
  | SExpr e => [DExpr (gterm e)]
  | SIf init c a b => [DBlock (match init with Some i => gst i | None => [] end ++ [DIf (gterm c) (flat_map gst a) (flat_map gst b)])]
  | SElseIf c a c2 b => [DIf (gterm c) (flat_map gst a) [DIf (gterm c2) (flat_map gst b) []]]
  | SFor init c post body => [DBlock (gst init ++ [DFor (Some (gterm c)) (gst post) (flat_map gst body)])]
  | SSelect cases => [DSelect (map (fun c => (DExpr (MUn "<-" (gterm (fst c))), flat_map gst (snd c))) cases)]
  | SInc x => [DInc (gterm x)]
  | SReturn => [DReturn []]
  | SPass _ recv =>
      match m_results m with [] => [DExpr (method_call (gterm recv)); DReturn []] | _ => [DReturn [method_call (gterm recv)]] end
  | SDefer e => [DDefer (gterm e)]
  | SSend ch e => [DSend (gterm ch) (gterm e)]
  | SRange x e body => [DEach (wtext x) (gterm e) (flat_map gst body)]
  end.

(** the body of templates/fallback (Goroutines.v) *)
Fixpoint cterm (e : cexpr) : tm :=
  match e with
  | XVar x => MVar x
  | XStr _ => MStr
  | XNum _ => MNum
  | XSel e f => MSel (cterm e) f
  | XIndex e i => MIndex (cterm e) (cterm i)
  | XBin op a b => MBin op (cterm a) (cterm b)
  | XCall f args => MCall (cterm f) (map cterm args) false
  | XUnit => MUnit
  | XResults t => MTuple t (names_of (m_results m))
  end.
Definition comm_st (k : ccomm) : st :=
  match k with
  | KRecv None ch => DExpr (MUn "<-" (cterm ch))
  | KRecv (Some x) ch => DDefine [x] (MUn "<-" (cterm ch))
  | KSend ch e => DSend (cterm ch) (cterm e)
  end.
Fixpoint cst (s : cstmt) : list st :=
  match s with
  | CType x => [DType x (m_results m)]
  | CMake x t cap => [DDefine [x] (MMake t (cterm cap))]
  | CVar x t => [DVar x t]
  | CTicker x e => [DDefine [x] (MCall (MSel (MVar "time") "NewTicker") [cterm e] false)]
  | CWithCancel x c => [DDefine [x; c] (MCall (MSel (MVar "context") "WithCancel") [MVar x] false)]
  | CDefer e => [DDefer (MCall (cterm e) [] false)]
  | CGo ps body args => [DGo (MCall (MFun (map (fun p => (fst p, hole (snd p))) ps) (flat_map cst body)) (map cterm args) false)]
  | CFor x c body => [DBlock [DDefine [x] MNum; DFor (Some (cterm c)) [DInc (MVar x)] (flat_map cst body)]]
  | CEver body => [DFor None [] (flat_map cst body)]
  | CIf c body => [DIf (cterm c) (flat_map cst body) []]
  | CSelect cases _ => [DSelect (map (fun c => (comm_st (fst c), flat_map cst (snd c))) cases)]
  | CComm k => [comm_st k]
  | CSet x e => [DAssign [MVar x] (cterm e)]
  | CReturn => [DReturn []]
  | CReturnStruct x => [DReturn (map (fun r => MSel (MVar x) (p_name r)) (m_results m))]
  | CMCall recv =>
      match m_results m with [] => [DExpr (method_call (cterm recv))] | l => [DDefine (map p_name l) (method_call (cterm recv))] end
  end.
End METHOD.

(** functions (Construct.v) *)
Fixpoint kterm (e : kexpr) : tm :=
  match e with
  | KVar x => MVar x
  | KNum _ => MNum
  | KStr _ => MStr
  | KSel e f => MSel (kterm e) f
  | KCall f args => MCall (kterm f) (map kterm args) false
  | KConv pkg t e => MConv (qualified pkg t) (kterm e)
  | KLen e => MCall (MVar "len") [kterm e] false
  | KMake t n => MMake t (kterm n)
  | KLit addr _ t fs => MLit addr (wtext t) (map (fun f => (wtext (fst f), kterm (snd f))) fs)
  | KAddr x => MUn "&" (MVar x)
  | KIdx e i => MIndex (kterm e) (kterm i)
  | KBin op a b => MBin op (kterm a) (kterm b)
  | KFunc ps body => MFun ps (flat_map jst body)
  end
with jst (s : kstmt) : list st :=
  match s with
  | JDef x e => [DDefine [x] (kterm e)]
  | JSet x f e => [DAssign [MSel (MVar x) f] (kterm e)]
  | JIf c body => [DIf (kterm c) (flat_map jst body) []]
  | JEach x e body => [DEach x (kterm e) (flat_map jst body)]
  | JCount i n body => [DBlock [DDefine [i] MNum; DFor (Some (MBin "<" (MVar i) (kterm n))) [DInc (MVar i)] (flat_map jst body)]]
  | JRange x e body => [DDrain x (kterm e) (flat_map jst body)]
  | JSend ch e => [DSend (kterm ch) (kterm e)]
  | JGo body => [DGo (MCall (MFun [] (flat_map jst body)) [] false)]
  | JDo e => [DExpr (kterm e)]
  | JPanic _ => [DExpr (MCall (MVar "panic") [MStr] false)]
  | JReturn es => [DReturn (map kterm es)]
  end.

(** ** Functions *)
Section CODE.
Variable typ : string.
Variable methods : list method.
Variable structs : list (string * list (list gtok)).
Variable aliases : list (string * list gtok).
Variable top : env.

(** the parameters of a function; one without a type has that of the next *)
Inductive params_typed : list (string * list gtok) -> list ty -> Prop :=
| pt_nil : params_typed [] []
| pt_one x l r t ts : denotes typ top top l t -> params_typed r ts -> params_typed ((x, l) :: r) (t :: ts)
| pt_dots x l t : denotes typ top top l t -> params_typed [(x, punct "..." ++ l)] [TySlice t]
| pt_shared x r t ts : params_typed r (t :: ts) -> params_typed ((x, []) :: r) (t :: t :: ts).
Definition param_entry (p : param) : string * ent := (p_name p, EVal (param_ty p)).
Definition method_block (recv : ty) (m : method) : block :=
  ("_d", EVal recv) :: map param_entry (m_params m) ++ map param_entry (m_results m).
Definition result_tys (m : method) : list ty := map (fun r => text_ty (p_type r)) (m_results m).
Definition code_typed (c : gocode) : Prop :=
  match c with
  | GMethod star dec m body =>
      function_typed typ methods structs aliases top true (result_tys m)
        (method_block (match star with [] => TyName dec | _ => TyPtr (TyName dec) end) m) (flat_map (gst m) body)
  | GFallback dec m body =>
      function_typed typ methods structs aliases top true (result_tys m) (method_block (TyName dec) m) (flat_map (cst m) body)
  | GFunc f => exists ts rs, params_typed (f_params f) ts /\ dn_results typ top top (f_results f) rs /\
      function_typed typ methods structs aliases top false rs (map val_of (combine (map fst (f_params f)) ts)) (flat_map jst (f_body f))
  | GInject =>
      function_typed typ methods structs aliases top false [] [("req", EVal t_empty); ("perr", EVal (TyPtr t_error))] (flat_map (gst no_method) inject_body)
  end.
End CODE.
