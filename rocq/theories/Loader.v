(** Model of loader/loader.go, of the local template loader in
    cmd_generate.go:163-201 and of the effects they have.

    Effects are recorded in a trace.  The outside world (HTTP server, file
    system, git) is an arbitrary function of the trace so far, so it may change
    its behaviour from one request to the next. *)
From Verif Require Export NewGen.
Open Scope nat_scope.

(** ** Effects *)

Inductive eff : Type :=
| EGet (url : string)              (* client.Do of a GET request *)
| EResp (id : nat)                 (* Do returned a response, number [id] *)
| ERead (id : nat)                 (* its body was read *)
| EClose (id : nat)                (* its body was closed *)
| EReadFile (path : string)        (* os.ReadFile *)
| EStat (path : string)            (* os.Stat *)
| EGit                             (* git rev-parse --show-toplevel *)
| EMkdir (path : string)           (* os.MkdirAll *)
| EWrite (path data : string)      (* os.WriteFile *)
| EPrint (text : string).          (* write to the command's output *)

(** a body read: the bytes obtained before the end or before the error *)
Record response := Resp {
  r_status : nat;
  r_body : string * option gerr;
  r_close : option gerr
}.

(** os.ReadFile: contents, an error for which os.IsNotExist holds, or another
    error *)
Inductive fileres := FOk (s : string) | FNotExist (e : gerr) | FErr (e : gerr).

Record io := IO {
  io_newreq : string -> option gerr;                 (* http.NewRequest *)
  io_do : list eff -> string -> response + gerr;     (* client.Do *)
  io_missing : list eff -> string -> bool;           (* os.IsNotExist of os.Stat's error *)
  io_read : list eff -> string -> fileres;
  io_git : list eff -> string + gerr;                (* gitpath.go:8-15, before TrimSpace *)
  io_commits : string -> list string + gerr;         (* json.Unmarshal into []struct{SHA string} *)
  io_tree : string -> list string + gerr;            (* json.Unmarshal into the tree's paths *)
  io_cwd : string + gerr;                            (* os.Getwd, used by filepath.Abs *)
  io_mkdir : list eff -> string -> option gerr;
  io_write : list eff -> string -> string -> option gerr
}.

(** computations: from the trace so far to a value and the longer trace *)
Definition M (A : Type) : Type := list eff -> A * list eff.
Definition ret {A} (a : A) : M A := fun t => (a, t).
Definition bind {A B} (m : M A) (k : A -> M B) : M B := fun t => let '(a, t') := m t in k a t'.
Definition emit (e : eff) : M unit := fun t => (tt, t ++ [e]).
Definition ask {A} (f : list eff -> A) : M A := fun t => (f t, t).
Notation "x <~ m ; k" := (bind m (fun x => k)) (at level 100, m at level 90, k at level 200, right associativity).
Notation "m ;; k" := (bind m (fun _ => k)) (at level 100, k at level 200, right associativity).

(** ** loader.go *)

(** constants, loader.go:15-21; the formats are split at their verbs *)
Definition url_commits (name : string) : string :=
  ("https://api.github.com/repos/hexdigest/gowrap/commits?path=templates/" ++ name ++ "&per_page=1")%string.
Definition url_raw (sha name : string) : string :=
  ("https://raw.githubusercontent.com/hexdigest/gowrap/" ++ sha ++ "/templates/" ++ name)%string.
Definition urlTree : string :=
  "https://api.github.com/repos/hexdigest/gowrap/git/trees/master?recursive=1".
Definition templatesPathPrefix : string := "templates/".

Definition errUnexpectedStatusCode := Sentinel "unexpected status code". (* loader.go:94 *)
Definition errTemplateNotFound := Sentinel "remote template not found". (* loader.go:129 *)

(** number of responses obtained so far: the identity of the next one *)
Definition is_resp (e : eff) : bool := match e with EResp _ => true | _ => false end.
Definition responses (t : list eff) : nat := length (filter is_resp t).

Section LOADER.
Variable W : io.

(** get (loader.go:96-118).  The deferred function closes the body and
    replaces the error if closing fails; the bytes read are still returned. *)
Definition get (url : string) : M (string * option gerr) :=
  match io_newreq W url with
  | Some e => ret ("", Some e)
  | None =>
      r <~ ask (fun t => io_do W t url);
      emit (EGet url);;
      match r with
      | inr e => ret ("", Some e)
      | inl resp =>
          id <~ ask responses;
          emit (EResp id);;
          res <~ (if r_status resp =? 200
                  then emit (ERead id);; ret (r_body resp)
                  else ret ("", Some (Wrapped (dec (r_status resp)) errUnexpectedStatusCode)));
          emit (EClose id);;
          ret (match r_close resp with
               | Some ce => (fst res, Some ce)
               | None => res
               end)
      end
  end.

(** fetchFromGithub (loader.go:131-154) *)
Definition fetchFromGithub (name : string) : M (string * string * option gerr) :=
  r <~ get (url_commits name);
  match r with
  | (_, Some e) => ret ("", "", Some e)
  | (body, None) =>
      match io_commits W body with
      | inr e => ret ("", "", Some (Wrapped "failed to decode commit info" e))
      | inl [] => ret ("", "", Some errTemplateNotFound)
      | inl (sha :: _) =>
          let url := url_raw sha name in
          r2 <~ get url;
          match r2 with
          | (_, Some e) => ret ("", "", Some (Wrapped "failed to fetch template" e))
          | (contents, None) => ret (contents, url, None)
          end
      end
  end.

(** filepath.Join of two elements: empty elements are ignored *)
Definition Join2 (a b : string) : string :=
  match a, b with
  | EmptyString, EmptyString => ""
  | EmptyString, _ => Clean b
  | _, EmptyString => Clean a
  | _, _ => Clean (a ++ "/" ++ b)
  end.

Definition readFile (path : string) : M fileres :=
  r <~ ask (fun t => io_read W t path); emit (EReadFile path);; ret r.

Definition file_pair (r : fileres) : string * option gerr :=
  match r with FOk s => (s, None) | FNotExist e => ("", Some e) | FErr e => ("", Some e) end.

(** absGitPath (loader.go:120-127) over gitRootPath (gitpath.go:8-15) *)
Definition absGitPath (path : string) : M (string + gerr) :=
  r <~ ask (fun t => io_git W t);
  emit EGit;;
  ret (match r with inl root => inl (Join2 (trim_space root) path) | inr e => inr e end).

(** Load (loader.go:44-68) *)
Definition remoteLoad (path : string) : M (string * string * option gerr) :=
  if has_prefix "https://" path || has_prefix "http://" path then
    r <~ get path; ret (fst r, path, snd r)
  else if has_prefix "file://" path then
    let templatePath := drop 7 path in
    missing <~ ask (fun t => io_missing W t templatePath);
    emit (EStat templatePath);;
    if missing : bool then
      g <~ absGitPath templatePath;
      match g with
      | inr e => ret ("", "", Some e)
      | inl p => r <~ readFile p; ret (fst (file_pair r), p, snd (file_pair r))
      end
    else r <~ readFile templatePath; ret (fst (file_pair r), templatePath, snd (file_pair r))
  else fetchFromGithub path.

(** the loop of List (loader.go:83-89) *)
Fixpoint list_loop (l : list string) : list string :=
  match l with
  | [] => []
  | p :: l' =>
      if has_prefix templatesPathPrefix p && negb (String.eqb p templatesPathPrefix)
      then replace1 templatesPathPrefix "" p :: list_loop l' else list_loop l'
  end.

(** List (loader.go:71-92) *)
Definition remoteList : M (list string * option gerr) :=
  r <~ get urlTree;
  match r with
  | (_, Some e) => ret ([], Some e)
  | (body, None) =>
      match io_tree W body with
      | inr e => ret ([], Some e)
      | inl paths => ret (list_loop paths, None)
      end
  end.

(** loader.Load of the gen command (cmd_generate.go:190-201) *)
Definition localLoad (template : string) : M (string * string * option gerr) :=
  r <~ readFile template;
  match r with
  | FOk s => ret (s, template, None)
  | FErr e => ret ("", "", Some e)
  | FNotExist _ => remoteLoad template
  end.

End LOADER.
