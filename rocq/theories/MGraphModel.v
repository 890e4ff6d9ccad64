(** MGraphModel.v -- model of jsonclasses/mgraph.py (MarkClassTable, MGraph).

    Objects are identities; [hex(id(object))] is modelled by the identity itself.
    The class name of an object is fixed; the primary key is read at the time of
    each call, so every call carries [str] of the key as it is then (None for an
    object without one). *)
From Verif Require Import Base OGraphModel.

(** mgraph.py:10-12 *)
Record mtable := { by_key : list (string * oid); by_id : list (oid * oid) }.
Definition empty_mtable : mtable := {| by_key := []; by_id := [] |}.

(** mgraph.py:22-26 putp *)
Definition t_putp (pk : string) (o : oid) (t : mtable) : mtable :=
  {| by_key := sset pk o (by_key t); by_id := by_id t |}.

(** mgraph.py:14-20 put *)
Definition t_put (o : oid) (pk : option string) (t : mtable) : mtable :=
  match pk with
  | None => {| by_key := by_key t; by_id := dset Nat.eqb o o (by_id t) |}
  | Some p => t_putp p o t
  end.

(** mgraph.py:38-46 get *)
Definition t_get (o : oid) (pk : option string) (t : mtable) : option oid :=
  match (match pk with Some p => sget p (by_key t) | None => None end) with
  | Some x => Some x
  | None => dget Nat.eqb o (by_id t)
  end.

(** mgraph.py:28-36 has *)
Definition t_has (o : oid) (pk : option string) (t : mtable) : bool :=
  match (match pk with Some p => sget p (by_key t) | None => None end) with
  | Some _ => true
  | None => match dget Nat.eqb o (by_id t) with Some _ => true | None => false end
  end.

(** mgraph.py:48-49 getp *)
Definition t_getp (pk : string) (t : mtable) : option oid := sget pk (by_key t).

(** mgraph.py:60-61, [_class_tables] *)
Definition mgraph := list (string * mtable).

Section MGraph.
  Context (cname : oid -> string).

  (** mgraph.py:63-66 class_table (an empty table stands for a missing one) *)
  Definition m_table (c : string) (m : mgraph) : mtable :=
    match sget c m with Some t => t | None => empty_mtable end.

  (** mgraph.py:68-69 put *)
  Definition m_put (o : oid) (pk : option string) (m : mgraph) : mgraph :=
    sset (cname o) (t_put o pk (m_table (cname o) m)) m.

  (** mgraph.py:71-72 putp *)
  Definition m_putp (pk : string) (o : oid) (m : mgraph) : mgraph :=
    sset (cname o) (t_putp pk o (m_table (cname o) m)) m.

  (** mgraph.py:74-75 has, 77-78 get, 80-82 getp *)
  Definition m_has (o : oid) (pk : option string) (m : mgraph) : bool :=
    t_has o pk (m_table (cname o) m).
  Definition m_get (o : oid) (pk : option string) (m : mgraph) : option oid :=
    t_get o pk (m_table (cname o) m).
  Definition m_getp (c : string) (pk : string) (m : mgraph) : option oid :=
    t_getp pk (m_table c m).

  (** A history of marks, each with the key under which it was made. *)
  Inductive mark := Put (o : oid) (pk : option string) | PutP (pk : string) (o : oid).

  Definition m_mark (k : mark) (m : mgraph) : mgraph :=
    match k with Put o pk => m_put o pk m | PutP pk o => m_putp pk o m end.

  Definition m_marks (ks : list mark) : mgraph := fold_left (fun m k => m_mark k m) ks [].
End MGraph.
