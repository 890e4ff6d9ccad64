(** MGraphSpec.v -- what it means for something to have been marked in a traversal. *)
From Verif Require Import Base OGraphModel MGraphModel.

Section Spec.
  Context (cname : oid -> string).

  (** the mark [k] was made on object [o] under the printed key [p] *)
  Definition mark_of (k : mark) (o : oid) (p : string) : Prop :=
    k = Put o (Some p) \/ k = PutP p o.

  (** an object of class [c] was marked under the printed key [p] *)
  Definition key_marked (ks : list mark) (c p : string) : Prop :=
    exists k o, In k ks /\ mark_of k o p /\ cname o = c.

  (** [o] was the last object of class [c] marked under the printed key [p] *)
  Definition last_key_mark (ks : list mark) (c p : string) (o : oid) : Prop :=
    exists before k after, ks = before ++ k :: after /\ mark_of k o p /\ cname o = c /\
      ~ key_marked after c p.
End Spec.
