(** ChainModel.v -- model of jsonclasses/modifiers/chained_modifier.py and
    vmsgcollector.py, over arbitrary modifiers, contexts and state.

    Simplification: the modifiers of a chain are distinct objects (every method of
    [Types] appends a new one), so [self.vs.index(v)] is the position of [v]. *)
From Verif Require Import Base Mon.

(** The two marks that the chain looks for; every other modifier is [KOther]. *)
Inductive mkind := KEager | KPreserialize | KOther.

Definition kind_eqb (a b : mkind) : bool :=
  match a, b with
  | KEager, KEager | KPreserialize, KPreserialize | KOther, KOther => true
  | _, _ => false
  end.

Section Chain.
  (** [V] values, [C] contexts, [S] the state of the program *)
  Context {V C S : Type}.

  (** modifiers/modifier.py: the four operations of a modifier *)
  Record modifier := {
    kind : mkind;
    m_validate : C -> st S unit;
    m_transform : C -> st S V;
    m_tojson : C -> st S V;
    m_serialize : C -> st S V
  }.

  (** ctx.py:42 [val]; ctx.py:154-164 [nval]; ctx.py:16 [all_fields] is True;
      chained_modifier.py:80-81, write the value to the parent object if it is one *)
  Context (cval : C -> V) (nval : C -> V -> C) (all_fields : C -> bool)
          (write_parent : C -> V -> st S unit).

  (** chained_modifier.py:25-32 _first_vidx *)
  Fixpoint first_vidx (k : mkind) (vs : list modifier) : option nat :=
    match vs with
    | [] => None
    | v :: vs' => if kind_eqb (kind v) k then Some 0%nat
                  else option_map Datatypes.S (first_vidx k vs')
    end.

  (** chained_modifier.py:34-36 _last_vidx *)
  Definition last_vidx (k : mkind) (vs : list modifier) : option nat :=
    option_map (fun i => length vs - 1 - i)%nat (first_vidx k (rev vs)).

  (** chained_modifier.py:38-40 _levidx, 42-44 _fpvidx *)
  Definition levidx := last_vidx KEager.
  Definition fpvidx := first_vidx KPreserialize.

  (** chained_modifier.py:46-54 _tvs *)
  Definition tvs (vs : list modifier) : list modifier :=
    match levidx vs with Some i => firstn i vs | None => [] end.

  (** chained_modifier.py:56-60 _pvs *)
  Definition pvs (vs : list modifier) : list modifier :=
    match fpvidx vs with Some i => skipn i vs | None => [] end.

  (** chained_modifier.py:62-68 _nvs, a slice with optional bounds *)
  Definition nvs (vs : list modifier) : list modifier :=
    let lo := match levidx vs with Some i => i | None => 0%nat end in
    let hi := match fpvidx vs with Some i => i | None => length vs end in
    firstn (hi - lo) (skipn lo vs).

  (** chained_modifier.py:70-74 _vt *)
  Definition vt (v : modifier) (ctx : C) : st S V :=
    do* retval <- m_transform v ctx;
    m_validate v (nval ctx retval) >> ret retval.

  (** chained_modifier.py:76-82 _sv *)
  Definition sv (v : modifier) (ctx : C) : st S V :=
    do* val <- m_serialize v ctx;
    m_validate v (nval ctx val) >> (write_parent ctx val >> ret val).

  (** vmsgcollector.py:12-13 receive *)
  Definition receive (msgs new : list (string * string)) : list (string * string) :=
    dupdate String.eqb msgs new.

  (** chained_modifier.py:86-92, the loop of validate *)
  Fixpoint chain_validate_loop (vs : list modifier) (ctx : C) (msgs : list (string * string))
    : st S (list (string * string)) :=
    match vs with
    | [] => ret msgs
    | v :: vs' => fun s =>
        match m_validate v ctx s with
        | (Ok _, s') => chain_validate_loop vs' ctx msgs s'
        | (Err (EValidation e), s') =>
            if all_fields ctx then chain_validate_loop vs' ctx (receive msgs e) s'
            else (Ok (receive msgs e), s')
        | (Err e, s') => (Err e, s')
        end
    end.

  (** vmsgcollector.py:20-21 has_msgs; chained_modifier.py:93-94 *)
  Definition raise_collected (msgs : list (string * string)) : st S unit :=
    match msgs with [] => ret tt | _ => throw (EValidation msgs) end.

  (** chained_modifier.py:84-94 validate *)
  Definition chain_validate (vs : list modifier) (ctx : C) : st S unit :=
    do* msgs <- chain_validate_loop (nvs vs) ctx [];
    raise_collected msgs.

  (** chained_modifier.py:96-100 transform *)
  Definition chain_transform (vs : list modifier) (ctx : C) : st S V :=
    do* v1 <- fold_st (fun val v => vt v (nval ctx val)) (tvs vs) (cval ctx);
    fold_st (fun val v => m_transform v (nval ctx val)) (nvs vs) v1.

  (** chained_modifier.py:102-103 tojson *)
  Definition chain_tojson (vs : list modifier) (ctx : C) : st S V :=
    fold_st (fun val v => m_tojson v (nval ctx val)) vs (cval ctx).

  (** chained_modifier.py:105-110 serialize *)
  Definition chain_serialize (vs : list modifier) (ctx : C) : st S V :=
    do* v1 <- fold_st (fun val v => m_serialize v (nval ctx val)) (tvs vs) (cval ctx);
    do* v2 <- fold_st (fun val v => m_serialize v (nval ctx val)) (nvs vs) v1;
    fold_st (fun val v => sv v (nval ctx val)) (pvs vs) v2.
End Chain.
Arguments modifier : clear implicits.
