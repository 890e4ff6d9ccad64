(** PropOGraph.v -- C07: object graphs. *)
From Verif Require Import Base OGraphModel OGraphSpec OGraphProofs.
Open Scope string_scope.
Open Scope list_scope.

(** A graph built by any sequence of puts, lookups and merges holds at most one
    object per identity. *)
Theorem C07_one_object_per_identity :
  forall (cname : oid -> string) (pid : oid -> option string) (g : graph) (a b : oid),
    built cname pid g -> held g a -> held g b -> same_identity cname pid a b -> a = b.
Proof. exact graph_one_per_identity. Qed.
Print Assumptions C07_one_object_per_identity.

(** After any sequence of puts, looking up an object returns the last one put under
    its identity, or nothing if there was none. *)
Theorem C07_get_returns_last_put :
  forall (cname : oid -> string) (pid : oid -> option string) (os : list oid) (o : oid),
    pid o <> None ->
    exists r, last_put cname pid o os r /\
      exists g', g_get cname pid o (puts cname pid os []) = Ok (r, g').
Proof. exact get_after_puts. Qed.
Print Assumptions C07_get_returns_last_put.

(** Merging either gives a graph with exactly the objects of both, or fails, and it
    fails exactly when two different objects of the two graphs share an identity. *)
Theorem C07_merge_is_union_or_conflict :
  forall (cname : oid -> string) (pid : oid -> option string) (g1 g2 : graph),
    built cname pid g1 -> built cname pid g2 ->
    match merge_loop cname pid (g_iter g2) g1 with
    | Ok g' => built cname pid g' /\ (forall x, held g' x <-> held g1 x \/ held g2 x)
    | Err e => e = EGraphConflict
    end /\
    (merge_loop cname pid (g_iter g2) g1 = Err EGraphConflict <->
     exists o1 o2, held g1 o1 /\ held g2 o2 /\ o1 <> o2 /\ same_identity cname pid o1 o2).
Proof. exact graph_merge. Qed.
Print Assumptions C07_merge_is_union_or_conflict.

(** The same with the effect on objects: a conflict changes nothing at all; a
    successful merge makes exactly the objects of the merged graph point to it and
    leaves the old graphs as they were. *)
Theorem C07_merged_graph_is_shared :
  forall (cname : oid -> string) (pid : oid -> option string) (i j : gid) (s : gstore),
    i <> j -> built cname pid (graph_at s i) -> built cname pid (graph_at s j) ->
    match merged_graph cname pid i j s with
    | (Err e, s') => e = EGraphConflict /\ s' = s /\
        exists o1 o2, held (graph_at s i) o1 /\ held (graph_at s j) o2 /\ o1 <> o2 /\
                      same_identity cname pid o1 o2
    | (Ok k, s') =>
        (forall x, held (graph_at s' k) x <-> held (graph_at s i) x \/ held (graph_at s j) x) /\
        (forall x, held (graph_at s' k) x -> graph_of s' x = k) /\
        (forall x, ~ held (graph_at s' k) x -> graph_of s' x = graph_of s x) /\
        (forall m, (m < length (graphs s))%nat -> graph_at s' m = graph_at s m)
    end.
Proof. exact store_merge. Qed.
Print Assumptions C07_merged_graph_is_shared.

(** Linking two objects makes them share a graph, or reports a conflict and leaves
    every object on its graph. *)
Theorem C07_linked_objects_share_graph :
  forall (cname : oid -> string) (pid : oid -> option string) (a b : oid) (s : gstore),
    sound_store cname pid s -> held (graph_at s (graph_of s b)) b ->
    match link_graph cname pid a b s with
    | (Ok _, s') => graph_of s' a = graph_of s' b
    | (Err e, s') => e = EGraphConflict /\ forall x, graph_of s' x = graph_of s x
    end.
Proof. exact link_graph_shares. Qed.
Print Assumptions C07_linked_objects_share_graph.

(** Objects 0, 1, 2 of class A with keys k0, k1, k0; object 3 of class B with key k0. *)
Definition ex_cname (o : oid) : string := if Nat.eqb o 3 then "B" else "A".
Definition ex_pid (o : oid) : option string := if Nat.eqb o 1 then Some "k1" else Some "k0".
Definition ex_store : gstore :=
  {| graphs := [puts ex_cname ex_pid [0; 1] []; puts ex_cname ex_pid [3] []; puts ex_cname ex_pid [2] []];
     graph_of := fun o => if Nat.ltb o 2 then 0 else if Nat.eqb o 3 then 1 else if Nat.eqb o 2 then 2 else 0 |}.

Example C07_case_graphs :
  built ex_cname ex_pid (graph_at ex_store 0) /\ built ex_cname ex_pid (graph_at ex_store 2) /\
  same_identity ex_cname ex_pid 0 2 /\ held (graph_at ex_store 0) 0 /\
  g_get ex_cname ex_pid 0 (puts ex_cname ex_pid [0; 1; 2] []) = Ok (Some 2, puts ex_cname ex_pid [0; 1; 2] []).
Proof.
  assert (B0 : built ex_cname ex_pid (graph_at ex_store 0)).
  { eapply built_put with (o := 1); [eapply built_put with (o := 0); [apply built_empty|reflexivity]|reflexivity]. }
  assert (B2 : built ex_cname ex_pid (graph_at ex_store 2)).
  { eapply built_put with (o := 2); [apply built_empty|reflexivity]. }
  repeat split; try assumption; try discriminate; left; reflexivity.
Qed.

Example C07_case_link :
  fst (link_graph ex_cname ex_pid 0 3 ex_store) = Ok tt /\
  map (graph_of (snd (link_graph ex_cname ex_pid 0 3 ex_store))) [0; 1; 2; 3] = [3; 3; 2; 3] /\
  fst (link_graph ex_cname ex_pid 0 2 ex_store) = Err EGraphConflict.
Proof. vm_compute. auto. Qed.

Example C07_case_sound : sound_store ex_cname ex_pid ex_store.
Proof.
  split.
  - intros g [<-|[<-|[<-|[]]]].
    + eapply built_put with (o := 1); [eapply built_put with (o := 0); [apply built_empty|reflexivity]|reflexivity].
    + eapply built_put with (o := 3); [apply built_empty|reflexivity].
    + eapply built_put with (o := 2); [apply built_empty|reflexivity].
  - intros o. simpl. destruct (Nat.ltb o 2); [lia|]. destruct (Nat.eqb o 3); [lia|]. destruct (Nat.eqb o 2); lia.
Qed.
