(** UconfSpec.v -- what reading the user's configuration and storing an uploaded file are
    supposed to do. *)
From Verif Require Import Base Mon PyStr KeypathModel PyInt RegexModel RegexSpec UconfModel.
Open Scope string_scope.
Open Scope list_scope.

(** The item of a configuration that a list of keys leads to.  In a list a key is an
    index, counted from the end when it is negative. *)
Inductive item_at : conf -> list string -> conf -> Prop :=
| at_here : forall c, item_at c [] c
| at_key : forall d k v ks r, sget k d = Some v -> item_at v ks r ->
    item_at (CDict d) (k :: ks) r
| at_index : forall l k i v ks r, py_int k = Some (Z.of_nat i) -> nth_error l i = Some v ->
    item_at v ks r -> item_at (CList l) (k :: ks) r
| at_back : forall l k i v ks r, py_int k = Some (- Z.of_nat (S i))%Z ->
    nth_error (rev l) i = Some v -> item_at v ks r -> item_at (CList l) (k :: ks) r.

(** No list anywhere in the configuration *)
Inductive only_dicts : conf -> Prop :=
| od_null : only_dicts CNull
| od_bool : forall b, only_dicts (CBool b)
| od_num : forall n, only_dicts (CNum n)
| od_str : forall s, only_dicts (CStr s)
| od_dict : forall d, Forall (fun kv => only_dicts (snd kv)) d -> only_dicts (CDict d).

Definition holds_items (c : conf) : Prop :=
  match c with CList _ | CDict _ => True | _ => False end.

(** ** Loading *)

Definition quote_mark (q : string) : Prop := q = "'" \/ q = """".

(** The string names the environment variable [n]. *)
Definition names_variable (s n : string) : Prop :=
  exists q q' e, quote_mark q /\ quote_mark q' /\ (e = "" \/ e = newline) /\
    n <> "" /\ one_line n /\ s = ("environ[" ++ q ++ n ++ q' ++ "]" ++ e)%string.

Section Loaded.
  Variable environ : string -> option string.
  Variable underscore : string -> string.

  (** [loaded f c]: the configuration [c] has the items of the file [f] in their places and
      order; the keys of dicts are underscored and the strings that name an environment
      variable are replaced by its value. *)
  Inductive loaded : conf -> conf -> Prop :=
  | ld_null : loaded CNull CNull
  | ld_bool : forall b, loaded (CBool b) (CBool b)
  | ld_num : forall n, loaded (CNum n) (CNum n)
  | ld_text : forall s, (forall n, ~ names_variable s n) -> loaded (CStr s) (CStr s)
  | ld_variable : forall s n v, names_variable s n -> environ n = Some v ->
      loaded (CStr s) (CStr v)
  | ld_list : forall l l', Forall2 loaded l l' -> loaded (CList l) (CList l')
  | ld_dict : forall d d',
      Forall2 (fun x y => fst y = underscore (fst x) /\ loaded (snd x) (snd y)) d d' ->
      loaded (CDict d) (CDict d').

  (** In every dict the keys differ, and differ after underscoring. *)
  Inductive distinct_keys : conf -> Prop :=
  | dk_null : distinct_keys CNull
  | dk_bool : forall b, distinct_keys (CBool b)
  | dk_num : forall n, distinct_keys (CNum n)
  | dk_str : forall s, distinct_keys (CStr s)
  | dk_list : forall l, Forall distinct_keys l -> distinct_keys (CList l)
  | dk_dict : forall d, NoDup (map (fun kv => underscore (fst kv)) d) ->
      Forall (fun kv => distinct_keys (snd kv)) d -> distinct_keys (CDict d).
End Loaded.

(** The string [s] occurs as a value in the configuration. *)
Inductive value_in (s : string) : conf -> Prop :=
| vi_here : value_in s (CStr s)
| vi_list : forall l c, In c l -> value_in s c -> value_in s (CList l)
| vi_dict : forall d k c, In (k, c) d -> value_in s c -> value_in s (CDict d).

(** ** Files *)

Definition low_hex : string := "0123456789abcdef".
Definition hex32 (s : string) : Prop := String.length s = 32%nat /\ all_among low_hex s.
Definition no_slash (s : string) : Prop := ~ In "/"%char (chars s).
Definition no_upper (s : string) : Prop := str_lower s = s.

(** A file name that is one component of a path: not empty, without a slash, and none of
    the two names that stand for directories. *)
Definition plain_file_name (s : string) : Prop :=
  s <> "" /\ s <> "." /\ s <> ".." /\ no_slash s.

(** ** Uploaders *)

(** The state after uploaders were requested by name, some perhaps without success *)
Definition asked (c : conf) (names : list string) (s : ustate) : ustate :=
  fold_left (fun s n => snd (request_uploader c n s)) names s.

Definition no_uploaders : ustate := {| u_cache := []; u_made := 0%nat |}.

Definition engine_text (e : engine) : string :=
  match e with ES3 => "s3" | EAliOSS => "alioss" | ELocalFS => "localfs" end.

(** The configuration names the engine and the settings of the uploader [name]. *)
Definition has_uploader (c : conf) (name : string) (e : engine) (settings : conf) : Prop :=
  keypath_split name <> [] /\ settings <> CNull /\
  item_at c ("uploaders" :: keypath_split name ++ ["client"]) (CStr (engine_text e)) /\
  item_at c ("uploaders" :: keypath_split name ++ ["config"]) settings.
