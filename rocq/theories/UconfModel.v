(** UconfModel.v -- the user's configuration (jsonclasses/uconf.py) and the uploaders that
    are configured by it (jsonclasses/uploaders.py).

    A configuration is the content of config.json.  Simplification: its numbers are ints.
    [UserConf(x)] of a list or dict [x] is modelled by [x].  [environ] holds the
    environment variables; [underscore] is the function of the inflection package and is
    left open. *)
From Verif Require Import Base Mon PyStr KeypathModel PyInt RegexModel.
Open Scope string_scope.
Open Scope Z_scope.
Open Scope list_scope.

Inductive conf : Type :=
| CNull
| CBool (b : bool)
| CNum (n : Z)
| CStr (s : string)
| CList (l : list conf)
| CDict (d : list (string * conf)).

(** [l[i]] *)
Definition conf_nth (l : list conf) (i : Z) : res conf :=
  let j := if i <? 0 then i + Z.of_nat (length l) else i in
  if j <? 0 then Err EIndexError
  else match nth_error l (Z.to_nat j) with Some v => Ok v | None => Err EIndexError end.

(** uconf.py:24-46 UserConf._get *)
Fixpoint get_in (keypaths : list string) (val : conf) : res conf :=
  match val with
  | CNull => Ok CNull
  | _ =>
      match keypaths with
      | [] => Err EIndexError
      | cur :: rest =>
          let* next := match val with
                       | CList l =>
                           match py_int cur with
                           | None => Err EValueError
                           | Some i => if i <? Z.of_nat (length l) then conf_nth l i else Ok CNull
                           end
                       | CDict d => Ok (match sget cur d with Some v => v | None => CNull end)
                       | _ => Ok CNull
                       end in
          match rest with
          | [] => Ok next
          | _ => get_in rest next
          end
      end
  end.

(** uconf.py:17-22 UserConf.get and __getitem__ *)
Definition get (c : conf) (keypath : string) : res conf := get_in (keypath_split keypath) c.

Section Load.
  Variable environ : string -> option string.
  Variable underscore : string -> string.

  Definition is_quote (c : ascii) : bool := Ascii.eqb c "'" || Ascii.eqb c """".

  (** [s] without a newline at its end *)
  Definition drop_newline (l : list ascii) : list ascii :=
    match rev l with
    | c :: r => if Ascii.eqb c nl then rev r else l
    | [] => []
    end.

  (** uconf.py:129: the group of the pattern
      caret environ backslash-bracket quote (.+) quote backslash-bracket dollar *)
  Definition env_name (s : string) : option string :=
    let l := drop_newline (chars s) in
    if startswith (unchars l) "environ[" then
      match skipn 8 l with
      | q :: r =>
          match rev r with
          | b :: q' :: rname =>
              if is_quote q && Ascii.eqb b "]" && is_quote q' &&
                 negb (Nat.eqb (length rname) 0) && forallb dot rname
              then Some (unchars (rev rname)) else None
          | _ => None
          end
      | [] => None
      end
    else None.

  (** uconf.py:128-136 _replace_envs_str *)
  Definition replace_str (s : string) : res conf :=
    match env_name s with
    | Some name =>
        match environ name with
        | Some v => Ok (CStr v)
        | None => Err EKeyError
        end
    | None => Ok (CStr s)
    end.

  (** uconf.py:102-126 _replace_envs_dict and _replace_envs_list *)
  Fixpoint replace_envs (c : conf) : res conf :=
    match c with
    | CStr s => replace_str s
    | CList l =>
        let* l' := (fix items (l : list conf) : res (list conf) :=
                      match l with
                      | [] => Ok []
                      | v :: r => let* v' := replace_envs v in
                                  let* r' := items r in Ok (v' :: r')
                      end) l in
        Ok (CList l')
    | CDict d =>
        let* d' := (fix items (d : list (string * conf)) : res (list (string * conf)) :=
                      match d with
                      | [] => Ok []
                      | (k, v) :: r => let* v' := replace_envs v in
                                       let* r' := items r in Ok ((k, v') :: r')
                      end) d in
        Ok (CDict (dict_of String.eqb d'))
    | _ => Ok c
    end.

  (** uconf.py:77-97 _normalize_keys_dict and _normalize_keys_list *)
  Fixpoint normalize (c : conf) : conf :=
    match c with
    | CList l => CList (map normalize l)
    | CDict d =>
        CDict (dict_of String.eqb (map (fun kv => (underscore (fst kv), normalize (snd kv))) d))
    | _ => c
    end.

  (** uconf.py:65-72 _load; [None] when there is no config.json *)
  Definition load (file : option conf) : res conf :=
    match file with
    | None => Ok (CDict [])
    | Some (CDict d) => let* c := replace_envs (CDict d) in Ok (normalize c)
    | Some _ => Err EAttributeError
    end.
End Load.

(** ** Uploaders *)

Inductive engine := ES3 | EAliOSS | ELocalFS.

(** An uploader; [u_id] tells objects apart. *)
Record uploader := { u_id : nat; u_engine : engine; u_config : conf }.

(** The dict [_uploaders] and the number of uploaders made so far *)
Record ustate := { u_cache : list (string * uploader); u_made : nat }.

(** [x.get(k)] for a value read from a configuration *)
Definition get_attr (c : conf) (k : string) : res conf :=
  match c with
  | CList _ | CDict _ => get c k
  | _ => Err EAttributeError
  end.

(** [match engine] of uploaders.py:108-122 *)
Definition engine_named (c : conf) : option engine :=
  match c with
  | CStr s => if String.eqb s "s3" then Some ES3
              else if String.eqb s "alioss" then Some EAliOSS
              else if String.eqb s "localfs" then Some ELocalFS
              else None
  | _ => None
  end.

Definition non_null (r : res conf) : res conf :=
  match r with Ok CNull => Err EValueError | _ => r end.

(** uploaders.py:95-107: what is configured under a name *)
Definition configured (conf : conf) (name : string) : res (engine * UconfModel.conf) :=
  let* us := non_null (get conf "uploaders") in
  let* u := non_null (get_attr us name) in
  let* e := non_null (get_attr u "client") in
  let* c := non_null (get_attr u "config") in
  match engine_named e with
  | Some e => Ok (e, c)
  | None => Err EValueError
  end.

(** uploaders.py:92-122 request_uploader *)
Definition request_uploader (conf : conf) (name : string) : st ustate uploader :=
  fun s =>
    match sget name (u_cache s) with
    | Some u => (Ok u, s)
    | None =>
        match configured conf name with
        | Err e => (Err e, s)
        | Ok (e, c) =>
            let u := {| u_id := u_made s; u_engine := e; u_config := c |} in
            (Ok u, {| u_cache := sset name u (u_cache s); u_made := S (u_made s) |})
        end
    end.

(** [Path(p).name]: the last component other than the empty string and a single dot
    (simplification: POSIX paths) *)
Definition path_name (p : string) : string :=
  last (filter (fun x => nonempty x && negb (String.eqb x "."))
               (split_on (Ascii.eqb "/") p)) "".

(** the part of a name from its last dot on, when there is one *)
Fixpoint last_dot (l : list ascii) : option (list ascii) :=
  match l with
  | [] => None
  | c :: r =>
      match last_dot r with
      | Some x => Some x
      | None => if Ascii.eqb c "." then Some (c :: r) else None
      end
  end.

(** [Path(p).suffix]: from the last dot on, unless it begins or ends the name *)
Definition path_suffix (p : string) : string :=
  let n := chars (path_name p) in
  match last_dot n with
  | Some d => if Nat.ltb (length d) (length n) && Nat.ltb 1 (length d) then unchars d else ""
  | None => ""
  end.

(** uploaders.py:37, 68: the name under which a file is stored; [hex] is [uuid4().hex] *)
Definition unique_filename (hex client_name : string) : string :=
  hex ++ str_lower (path_suffix client_name).

(** A file sent by a client *)
Record upfile := { uf_name : string; uf_content : string }.

(** Where files are kept: directory or bucket, name, content *)
Definition store : Type := list (string * string * string).

Definition conf_str (c : conf) (k : string) : res string :=
  match c with
  | CDict _ | CList _ =>
      let* v := get c k in match v with CStr s => Ok s | _ => Err ETypeError end
  | _ => Err ETypeError
  end.

(** uploaders.py:36-48 S3Uploader.upload, 53-54 AliOSSUploader.upload, 67-76 and 88-89
    LocalFSUploader.upload.  Simplification: the settings that are used are strings. *)
Definition upload (u : uploader) (hex : string) (f : upfile) : st store conf :=
  let name := unique_filename hex (uf_name f) in
  match u_engine u with
  | ES3 =>
      do* bucket <- lift (conf_str (u_config u) "bucket");
      do* url <- lift (conf_str (u_config u) "endpoint_url");
      (fun s => (Ok tt, s ++ [(bucket, name, uf_content f)])) >>
      ret (CStr (url ++ "/" ++ bucket ++ "/" ++ name))
  | EAliOSS => ret CNull
  | ELocalFS =>
      do* dir <- lift (conf_str (u_config u) "dir");
      do* url <- lift (conf_str (u_config u) "url");
      (fun s => (Ok tt, s ++ [(dir, name, uf_content f)])) >>
      ret (CStr (url ++ "/public/" ++ dir ++ "/" ++ name))
  end.
