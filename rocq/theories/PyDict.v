(** PyDict.v -- semantics of Python's built-in [dict] methods on association lists
    (the reference for owned dicts; it models the language, not the repository). *)
From Verif Require Import Base.

(** The argument of update / |=.  [UMany]: a mapping, or an iterable of pairs that
    can be iterated again; [UOnce]: a one-shot iterator of pairs; [UBroken]: an
    iterable that yields some pairs and then something that is not a pair; [UNot]:
    not iterable. *)
Inductive uarg (K V : Type) :=
| UMany (ps : list (K * V))
| UOnce (ps : list (K * V))
| UBroken (ps : list (K * V))
| UNot.
Arguments UMany {K V}. Arguments UOnce {K V}. Arguments UBroken {K V}. Arguments UNot {K V}.

(** Dict methods.  [DPop k None] is [d.pop(k)], [DPop k (Some x)] is [d.pop(k, x)];
    [DPopArity] is pop with no or more than two arguments; [DSetdefault k None] is
    [d.setdefault(k)]; [DUpdate a kw] is [d.update(a, **kw)], with [a] absent when
    [None]; [DUpdateArity] is update with several positional arguments. *)
Inductive dop (K V : Type) :=
| DSetItem (k : K) (v : V)
| DDelItem (k : K)
| DPop (k : K) (d : option V)
| DPopArity
| DPopItem
| DSetdefault (k : K) (d : option V)
| DUpdate (a : option (uarg K V)) (kw : list (K * V))
| DUpdateArity
| DIor (a : uarg K V)
| DClear.
Arguments DSetItem {K V}. Arguments DDelItem {K V}. Arguments DPop {K V}.
Arguments DPopArity {K V}. Arguments DPopItem {K V}. Arguments DSetdefault {K V}.
Arguments DUpdate {K V}. Arguments DUpdateArity {K V}. Arguments DIor {K V}.
Arguments DClear {K V}.

(** What a method returns. *)
Inductive dval (K V : Type) := RNothing | RVal (v : V) | RItem (k : K) (v : V).
Arguments RNothing {K V}. Arguments RVal {K V}. Arguments RItem {K V}.
Definition dout (K V : Type) := res (dval K V).

Section PlainDict.
  Context {K V : Type} (keqb : K -> K -> bool) (none : V).
  Notation dict := (list (K * V)).

  Definition last_item (d : dict) : option (K * V) := nth_error d (length d - 1).

  (** One method call on a plain dict: result and content ([none] is Python None). *)
  Definition plain_dstep (o : dop K V) (d : dict) : dout K V * dict :=
    match o with
    | DSetItem k v => (Ok RNothing, dset keqb k v d)
    | DDelItem k =>
        if dmem keqb k d then (Ok RNothing, ddel keqb k d) else (Err EKeyError, d)
    | DPop k dflt =>
        match dget keqb k d, dflt with
        | Some v, _ => (Ok (RVal v), ddel keqb k d)
        | None, Some x => (Ok (RVal x), d)
        | None, None => (Err EKeyError, d)
        end
    | DPopArity => (Err ETypeError, d)
    | DPopItem =>
        match last_item d with
        | Some (k, v) => (Ok (RItem k v), removelast d)
        | None => (Err EKeyError, d)
        end
    | DSetdefault k dflt =>
        match dget keqb k d with
        | Some v => (Ok (RVal v), d)
        | None => let x := match dflt with Some x => x | None => none end in
                  (Ok (RVal x), dset keqb k x d)
        end
    | DUpdate None kw => (Ok RNothing, dupdate keqb d kw)
    | DUpdate (Some (UMany ps)) kw | DUpdate (Some (UOnce ps)) kw =>
        (Ok RNothing, dupdate keqb (dupdate keqb d ps) kw)
    | DUpdate (Some (UBroken ps)) kw => (Err ETypeError, dupdate keqb d ps)
    | DUpdate (Some UNot) kw => (Err ETypeError, d)
    | DUpdateArity => (Err ETypeError, d)
    | DIor (UMany ps) | DIor (UOnce ps) => (Ok RNothing, dupdate keqb d ps)
    | DIor (UBroken ps) => (Err ETypeError, dupdate keqb d ps)
    | DIor UNot => (Err ETypeError, d)
    | DClear => (Ok RNothing, [])
    end.

  Fixpoint plain_drun (os : list (dop K V)) (d : dict) : list (dout K V) * dict :=
    match os with
    | [] => ([], d)
    | o :: os' =>
        let '(r, d1) := plain_dstep o d in
        let '(rs, d2) := plain_drun os' d1 in
        (r :: rs, d2)
    end.
End PlainDict.
