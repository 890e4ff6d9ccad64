(** BackModel.v -- the modifiers that stand before a back end: uploader, mongoid and
    cross_fetch. *)
From Verif Require Import Base Mon Values PyStr KeypathModel PyInt RegexModel UconfModel.
Open Scope list_scope.

(** What the modifiers use outside the objects: the uploaders requested so far, the files that
    are stored, and how many random names and ids have been drawn. *)
Record back := { b_up : ustate; b_files : store; b_drawn : nat }.

(** Run on the uploaders, or on the files *)
Definition on_up {A} (m : st ustate A) : st back A :=
  fun s => let '(r, u) := m (b_up s) in
           (r, {| b_up := u; b_files := b_files s; b_drawn := b_drawn s |}).
Definition on_files {A} (m : st store A) : st back A :=
  fun s => let '(r, f) := m (b_files s) in
           (r, {| b_up := b_up s; b_files := f; b_drawn := b_drawn s |}).

(** The next random text of a source; texts are numbered in the order of drawing. *)
Definition draw (source : nat -> string) : st back string :=
  fun s => (Ok (source (b_drawn s)),
            {| b_up := b_up s; b_files := b_files s; b_drawn := S (b_drawn s) |}).

(** What an uploader gives, as a value of a field *)
Definition address (c : conf) : value := match c with CStr s => VStr s | _ => VNone end.

Section Back.
  (** The user's configuration; [uuid4().hex]; [str(ObjectId())]; the file a value is, if it
      is one (it has [filename], [content_type] and the methods to read it) *)
  Variable conf : UconfModel.conf.
  Variable hex : nat -> string.
  Variable object_id : nat -> string.
  Variable file_of : value -> option upfile.

  (** The argument of uploader: a name, or a function (of one or two parameters) *)
  Inductive uarg : Type :=
  | UName (name : string)
  | UFun (f : value -> st back value).

  (** modifiers/uploader_modifier.py:44-55 transform; uploaders.py:36-37, 67-68: a value that
      is not a file has no [filename].  The alioss engine does not look at the value. *)
  Definition t_uploader (arg : uarg) (v : value) : st back value :=
    match v with
    | VNone => ret VNone
    | _ =>
        match arg with
        | UFun f => f v
        | UName name =>
            do* u <- on_up (request_uploader conf name);
            match u_engine u with
            | EAliOSS => ret VNone
            | _ =>
                do* h <- draw hex;
                match file_of v with
                | None => throw EAttributeError
                | Some f => do* c <- on_files (upload u h f); ret (address c)
                end
            end
        end
    end.

  (** modifiers/mongoid_modifier.py:16-18 transform *)
  Definition t_mongoid (v : value) : st back value :=
    match v with
    | VNone => do* i <- draw object_id; ret (VStr i)
    | _ => ret v
    end.
End Back.

Section Cross.
  Context {S : Type}.
  (** Reading an attribute of the object whose field is set; the back end's answer to
      [cls.one(key=value).optional.exec()]; the errors of looking up a class *)
  Variable attribute : oid -> string -> st S value.
  Variable class_found : string -> res unit.
  Variable one : string -> string -> value -> st S (option oid).
  Variable vexc : string -> exn.

  (** modifiers/cross_fetch_modifier.py:13-28: the other key is this key when it is left out;
      the value given to the modifier is not used. *)
  Definition t_cross_fetch (cls this : string) (that : option string) (parent : oid)
      (v : value) : st S value :=
    do* _ <- lift (class_found cls);
    do* x <- attribute parent this;
    do* o <- one cls (match that with Some k => k | None => this end) x;
    match o with
    | Some o => ret (VObj o)
    | None => throw (vexc "cross fetch failed")
    end.
End Cross.
