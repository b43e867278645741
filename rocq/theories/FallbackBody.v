(** The body of the methods generated by templates/fallback as a program of
    Goroutines.v.  Line numbers refer to /repo/templates/fallback. *)
From Verif Require Export Goroutines Generated4.
Open Scope nat_scope.

Definition x_ (s : string) : cexpr := XVar s.
Definition call1 (f : string) (a : cexpr) : cexpr := XCall (XVar f) [a].
Definition impls_ : cexpr := XSel (x_ "_d") "implementations".
Definition n_impls : cexpr := call1 "len" impls_.
Definition ctx_done_ : cexpr := XCall (XSel (x_ "ctx") "Done") [].
Definition joined_ : cexpr := XCall (XSel (x_ "strings") "Join") [x_ "_errorsList"; XStr ";"].

(** 39-58: one implementation *)
Definition impl_deliver (m : method) : cstmt :=
  if m_acceptsContext m
  then CSelect [(KSend (x_ "_ch") (XResults "_resultStruct"), []); (KRecv None ctx_done_, [])] false
  else CSelect [(KSend (x_ "_ch") (XResults "_resultStruct"), [])] true.
Definition impl_wrap (m : method) : list cstmt :=
  if m_returnsError m
  then [CIf (XBin "!=" (x_ "err") (x_ "nil"))
          [CSet "err" (XCall (XSel (x_ "fmt") "Errorf") [XStr "%T: %v"; x_ "_impl"; x_ "err"])]]
  else [].
Definition impl_body (m : method) : list cstmt := CMCall (x_ "_impl") :: impl_wrap m ++ [impl_deliver m].

(** 37-67: the launcher *)
Definition launch_wait : cstmt :=
  CIf (XBin "<" (x_ "_i") (XBin "-" n_impls (XNum "1")))
    [CSelect [(KRecv None (x_ "_next"), []); (KRecv None (XSel (x_ "_ticker") "C"), [])] false].
Definition launch_loop (typ : string) (m : method) : list cstmt :=
  [CGo [("_impl", typ)] (impl_body m) [XIndex impls_ (x_ "_i")]; launch_wait].
Definition launch_cond : cexpr := XBin "<" (x_ "_i") n_impls.
Definition launch_body (typ : string) (m : method) : list cstmt := [CFor "_i" launch_cond (launch_loop typ m)].

(** 69-104: the caller waits *)
Definition res_var (m : method) : option string := if HasResults m then Some "_res" else None.
Definition receive_ (m : method) : ccomm := KRecv (res_var m) (x_ "_ch").
Definition if_good : cstmt := CIf (XBin "==" (XSel (x_ "_res") "err") (x_ "nil")) [CReturnStruct "_res"].
Definition append_err : cstmt :=
  CSet "_errorsList" (XCall (XVar "append") [x_ "_errorsList"; XCall (XSel (XSel (x_ "_res") "err") "Error") []]).
Definition if_all_failed : cstmt :=
  CIf (XBin "==" (call1 "len" (x_ "_errorsList")) n_impls)
    [CSet "err" (XCall (XSel (x_ "errors") "New") [joined_]); CReturn].
Definition on_result (m : method) : list cstmt :=
  if m_returnsError m
  then [if_good; CComm (KSend (x_ "_next") XUnit); append_err; if_all_failed]
  else [CReturnStruct "_res"].
Definition on_done (m : method) : list cstmt :=
  (if m_returnsError m
   then [CSet "err" (XCall (XSel (x_ "fmt") "Errorf") [XStr "%w: %s"; XCall (XSel (x_ "ctx") "Err") []; joined_])] else [])
  ++ [CReturn].
Definition wait_select (m : method) : list cstmt :=
  [CSelect [(receive_ m, on_result m); (KRecv None ctx_done_, on_done m)] false].
Definition wait_body (m : method) : list cstmt :=
  if m_acceptsContext m then [CEver (wait_select m)]
  else CComm (receive_ m) :: if m_returnsError m then [if_good; append_err] else [CReturnStruct "_res"].

(** 25-104 *)
Definition t_unit : list gtok := cword "struct" ++ cpunct "{}".
Definition fallback_setup (m : method) : list cstmt :=
  [CType "_resultStruct";
   CMake "_ch" (cword "_resultStruct") (XNum "0");
   CMake "_next" t_unit n_impls]
  ++ (if m_returnsError m then [CVar "_errorsList" (cpunct "[]" ++ cword "string")] else [])
  ++ [CTicker "_ticker" (XSel (x_ "_d") "interval");
      CDefer (XSel (x_ "_ticker") "Stop")]
  ++ (if m_acceptsContext m then [CWithCancel "ctx" "_cancelFunc"; CDefer (x_ "_cancelFunc")] else []).
Definition fallback_body (typ : string) (m : method) : list cstmt :=
  fallback_setup m ++ CGo [] (launch_body typ m) [] :: wait_body m.

Definition fallback_header (dec : string) (m : method) : list gtok :=
  listing [CT "func (_d "; CV dec; CT ") "; CV (Declaration m); CT " "].

Theorem fallback_method_tokens : forall dec typ m,
  fallback_method dec typ m = fallback_header dec m ++ TP "{" :: cbody m (fallback_body typ m) ++ [TP "}"].
Proof.
  intros dec typ m. unfold fallback_method, fb_launch, fb_wait, fb_receive, fallback_header, fallback_body, fallback_setup, cbody,
    launch_body, launch_loop, impl_body, impl_wrap, impl_deliver, wait_body, wait_select, on_result, on_done, receive_, res_var, append_err, if_all_failed, if_good, joined_.
  cbn [map ctoks]. destruct (m_returnsError m) eqn:E1, (m_acceptsContext m) eqn:E2, (HasResults m) eqn:E3; cbn [map ctoks app]; rewrite ?E3; vm_compute; reflexivity.
Qed.
