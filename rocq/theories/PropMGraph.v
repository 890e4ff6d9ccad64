(** PropMGraph.v -- C08: the marks of a traversal. *)
From Verif Require Import Base OGraphModel MGraphModel MGraphSpec MGraphProofs.
Open Scope string_scope.
Open Scope list_scope.

(** An object is recognised exactly when it was marked while it had no key, or when
    an object of the same class was marked under a key that prints as its key does. *)
Theorem C08_recognised_iff_marked :
  forall (cname : oid -> string) (ks : list mark) (o : oid) (pk : option string),
    m_has cname o pk (m_marks cname ks) = true <->
    (exists p, pk = Some p /\ key_marked cname ks (cname o) p) \/ In (Put o None) ks.
Proof. exact has_iff. Qed.
Print Assumptions C08_recognised_iff_marked.

(** A marked object is recognised after any further marks, whatever they are. *)
Theorem C08_marked_is_recognised :
  forall (cname : oid -> string) (ks : list mark) (o : oid) (pk : option string),
    In (Put o pk) ks -> m_has cname o pk (m_marks cname ks) = true.
Proof. exact marked_is_recognised. Qed.
Print Assumptions C08_marked_is_recognised.

(** ... also when it gets its key only after it was marked. *)
Theorem C08_keyless_mark_survives_key :
  forall (cname : oid -> string) (ks : list mark) (o : oid) (pk : option string),
    In (Put o None) ks -> m_has cname o pk (m_marks cname ks) = true.
Proof. exact keyless_mark_survives. Qed.
Print Assumptions C08_keyless_mark_survives_key.

(** ... or when it was marked under a key it is about to get. *)
Theorem C08_marked_under_future_key :
  forall (cname : oid -> string) (ks : list mark) (p : string) (o : oid),
    In (PutP p o) ks -> m_has cname o (Some p) (m_marks cname ks) = true.
Proof. exact marked_by_key_is_recognised. Qed.
Print Assumptions C08_marked_under_future_key.

(** An object without a key is recognised only if it was marked itself. *)
Theorem C08_keyless_only_itself :
  forall (cname : oid -> string) (ks : list mark) (o : oid),
    m_has cname o None (m_marks cname ks) = true <-> In (Put o None) ks.
Proof. exact keyless_only_itself. Qed.
Print Assumptions C08_keyless_only_itself.

(** A lookup returns the object last marked under that class and key, or the object
    itself; it finds nothing exactly when the object is not recognised. *)
Theorem C08_lookup_returns_latest :
  forall (cname : oid -> string) (ks : list mark) (o : oid) (pk : option string),
    match m_get cname o pk (m_marks cname ks) with
    | Some x => (exists p, pk = Some p /\ last_key_mark cname ks (cname o) p x) \/
                (x = o /\ In (Put o None) ks)
    | None => m_has cname o pk (m_marks cname ks) = false
    end.
Proof. exact get_latest. Qed.
Print Assumptions C08_lookup_returns_latest.

Theorem C08_lookup_by_key :
  forall (cname : oid -> string) (ks : list mark) (c p : string),
    match m_getp c p (m_marks cname ks) with
    | Some x => last_key_mark cname ks c p x
    | None => ~ key_marked cname ks c p
    end.
Proof. exact getp_latest. Qed.
Print Assumptions C08_lookup_by_key.

(** Finding: an object whose key is changed after it was marked is not recognised. *)
Theorem C08_rekeyed_object_refuted :
  exists (cname : oid -> string) (ks : list mark) (o : oid) (a b : string),
    In (Put o (Some a)) ks /\ m_has cname o (Some b) (m_marks cname ks) = false.
Proof. exact rekeyed_not_recognised. Qed.
Print Assumptions C08_rekeyed_object_refuted.

(** Two objects of class A with equal keys, one of class B with that key, one keyless. *)
Definition ex_cn (o : oid) : string := if Nat.eqb o 3 then "B" else "A".
Definition ex_ks : list mark := [Put 0 (Some "7"); Put 2 None; PutP "8" 1; Put 4 (Some "7")].
Example C08_case :
  map (fun x => m_has ex_cn (fst x) (snd x) (m_marks ex_cn ex_ks))
      [(0, Some "7"); (1, Some "7"); (3, Some "7"); (2, None); (1, None); (1, Some "8"); (2, Some "9")]
  = [true; true; false; true; false; true; true] /\
  m_get ex_cn 0 (Some "7") (m_marks ex_cn ex_ks) = Some 4.
Proof. split; reflexivity. Qed.
