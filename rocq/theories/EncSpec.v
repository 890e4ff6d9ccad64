(** EncSpec.v -- specification for C92: what is written for a value in which objects stand
    at any places. *)
From Verif Require Import Base Mon Values ObjModel IoModel.
Open Scope list_scope.

Definition scalar (v : value) : Prop :=
  match v with VNone | VBool _ | VInt _ | VFloat _ | VStr _ => True | _ => False end.

(** [written P N w inside v j]: inside the forms of the objects [inside], [v] is written
    [j]: lists and dicts part by part, and an object as what is written for its tojson
    output in [w]. *)
Inductive written (P : program) (N : nat) (w : world) : list oid -> value -> value -> Prop :=
| wr_scalar inside v : scalar v -> written P N w inside v v
| wr_list inside l js : Forall2 (written P N w inside) l js -> written P N w inside (VList l) (VList js)
| wr_dict inside m es : Forall2 (fun kv kj => fst kv = fst kj /\ written P N w inside (snd kv) (snd kj)) m es ->
    written P N w inside (VDict m) (VDict es)
| wr_object inside o f j : ~ In o inside -> fst (tojson P N o false false None w) = Ok f ->
    written P N w (o :: inside) f j -> written P N w inside (VObj o) j.

(** A value with every object replaced by [f] of it *)
Fixpoint replaced (f : oid -> value) (v : value) : value :=
  match v with
  | VList l => VList (map (replaced f) l)
  | VDict m => VDict (map (fun kv => (fst kv, replaced f (snd kv))) m)
  | VObj o => f o
  | _ => v
  end.
(** [o] stands somewhere in a value; so does a value that is neither JSON nor an object. *)
Inductive stands (u : value) : value -> Prop :=
| sd_here : stands u u
| sd_item l v : In v l -> stands u v -> stands u (VList l)
| sd_entry m k v : In (k, v) m -> stands u v -> stands u (VDict m).
