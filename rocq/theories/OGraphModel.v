(** OGraphModel.v -- model of jsonclasses/ograph.py (class OGraph) and of
    jsonclassify.py:986-994 (__link_graph__).

    Objects are identities ([oid]).  [cname o] is the name of the object's class and
    [pid o] is [str] of its primary key, or None when it has none; both are fixed
    here (simplification: primary keys do not change while graphs are handled).
    Graphs are mutable Python objects shared by several objects, so they live in a
    store indexed by graph identity. *)
From Verif Require Import Base.

Definition oid := nat.
Definition gid := nat.

(** ograph.py:21: [_maps], a dict of class name to dict of primary key to object. *)
Definition graph := list (string * list (string * oid)).

Section Graph.
  Context (cname : oid -> string) (pid : oid -> option string).

  (** ograph.py:31-36 __iter__ *)
  Definition g_iter (g : graph) : list oid := flat_map (fun t => map snd (snd t)) g.

  (** ograph.py:38-42 _object_map: creates the table when it is missing. *)
  Definition g_ensure (c : string) (g : graph) : graph :=
    match sget c g with Some _ => g | None => sset c [] g end.
  Definition g_table (c : string) (g : graph) : list (string * oid) :=
    match sget c (g_ensure c g) with Some t => t | None => [] end.

  (** ograph.py:54-61 put, with 44-52 _check_get_str_id *)
  Definition g_put (o : oid) (g : graph) : res graph :=
    match pid o with
    | None => Err EUnlinkable
    | Some p => let g1 := g_ensure (cname o) g in
                Ok (sset (cname o) (sset p o (g_table (cname o) g)) g1)
    end.

  (** ograph.py:68-74 get, returning also the graph, which may get an empty table. *)
  Definition g_get (o : oid) (g : graph) : res (option oid * graph) :=
    match pid o with
    | None => Err EUnlinkable
    | Some p => Ok (sget p (g_table (cname o) g), g_ensure (cname o) g)
    end.

  (** ograph.py:63-66 has *)
  Definition g_has (o : oid) (g : graph) : res (bool * graph) :=
    let* (r, g') := g_get o g in
    Ok (match r with Some _ => true | None => false end, g').

  (** ograph.py:93-100, the loop over the second graph *)
  Fixpoint merge_loop (os : list oid) (g : graph) : res graph :=
    match os with
    | [] => Ok g
    | o :: os' =>
        let* (h, g1) := g_has o g in
        if negb h then let* g2 := g_put o g1 in merge_loop os' g2
        else
          let* (r, g2) := g_get o g1 in
          match r with
          | Some o' => if Nat.eqb o' o then let* g3 := g_put o g2 in merge_loop os' g3
                       else Err EGraphConflict
          | None => Err EGraphConflict
          end
    end.

  (** The store: every graph object, and the graph each object points to. *)
  Record gstore := { graphs : list graph; graph_of : oid -> gid }.

  Definition graph_at (s : gstore) (i : gid) : graph := nth i (graphs s) [].

  Definition set_graph (s : gstore) (i : gid) (g : graph) : gstore :=
    {| graphs := firstn i (graphs s) ++ g :: skipn (S i) (graphs s); graph_of := graph_of s |}.

  Definition new_graph (s : gstore) (g : graph) : gid * gstore :=
    (length (graphs s), {| graphs := graphs s ++ [g]; graph_of := graph_of s |}).

  Definition point (o : oid) (i : gid) (s : gstore) : gstore :=
    {| graphs := graphs s;
       graph_of := fun x => if Nat.eqb x o then i else graph_of s x |}.

  (** ograph.py:87-103 merged_graph on graphs [i] and [j]; 76-84 copy *)
  Definition merged_graph (i j : gid) (s : gstore) : res gid * gstore :=
    if Nat.eqb i j then (Ok i, s)
    else match merge_loop (g_iter (graph_at s j)) (graph_at s i) with
         | Err e => (Err e, s)
         | Ok g => let '(k, s1) := new_graph s g in
                   (Ok k, fold_left (fun s o => point o k s) (g_iter g) s1)
         end.

  (** jsonclassify.py:986-994 __link_graph__ *)
  Definition link_graph (a b : oid) (s : gstore) : res unit * gstore :=
    let i := graph_of s a in
    let s1 := match g_has a (graph_at s i) with
              | Ok (true, g) => set_graph s i g
              | Ok (false, g) => match g_put a g with
                                 | Ok g' => set_graph s i g'
                                 | Err _ => set_graph s i g
                                 end
              | Err _ => s
              end in
    match merged_graph i (graph_of s1 b) s1 with
    | (Ok k, s2) => (Ok tt, point a k s2)
    | (Err e, s2) => (Err e, s2)
    end.
End Graph.
