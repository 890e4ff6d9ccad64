(** OGraphSpec.v -- identities, and what a graph holds. *)
From Verif Require Import Base OGraphModel.

Section Spec.
  Context (cname : oid -> string) (pid : oid -> option string).

  (** Two objects stand for the same thing: same class name, same primary key. *)
  Definition same_identity (a b : oid) : Prop :=
    cname a = cname b /\ pid a = pid b /\ pid a <> None.

  (** The object is met when iterating over the graph. *)
  Definition held (g : graph) (o : oid) : Prop := In o (g_iter g).

  (** Graphs as built by the API: starting empty, by puts and merges. *)
  Inductive built : graph -> Prop :=
  | built_empty : built []
  | built_put g o g' : built g -> g_put cname pid o g = Ok g' -> built g'
  | built_get g o r g' : built g -> g_get cname pid o g = Ok (r, g') -> built g'
  | built_merge g1 g2 g' :
      built g1 -> built g2 -> merge_loop cname pid (g_iter g2) g1 = Ok g' -> built g'.

  (** A sequence of puts; those that fail leave the graph as it is. *)
  Fixpoint puts (os : list oid) (g : graph) : graph :=
    match os with
    | [] => g
    | o :: os' => puts os' (match g_put cname pid o g with Ok g' => g' | Err _ => g end)
    end.

  (** [last_put o os r]: [r] is the last object of [os] with the identity of [o]. *)
  Inductive last_put (o : oid) : list oid -> option oid -> Prop :=
  | lp_none os : (forall x, In x os -> ~ same_identity x o) -> last_put o os None
  | lp_some os1 x os2 : same_identity x o -> (forall y, In y os2 -> ~ same_identity y o) ->
      last_put o (os1 ++ x :: os2) (Some x).

  (** A store as the API builds it: every graph is built, every object points to an
      existing graph. *)
  Definition sound_store (s : gstore) : Prop :=
    (forall g, In g (graphs s) -> built g) /\ (forall o, (graph_of s o < length (graphs s))%nat).
End Spec.
