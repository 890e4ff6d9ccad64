(** Base.v -- shared definitions: exceptions, results, booleans on options,
    insertion-ordered dictionaries.  No proofs of properties here. *)
From Coq Require Export String Ascii ZArith Bool List Lia Permutation.
Export ListNotations.
Open Scope list_scope.

(** Python exceptions that the modelled code can raise.  [EValidation] is
    jsonclasses/excs.py ValidationException and carries [keypath_messages] in
    insertion order.  [ERecursion] stands for Python's RecursionError: the model
    raises it when the fuel of a fuelled function is exhausted.  [EUser n] is an
    exception raised by user code (a callback) other than a ValidationException. *)
Inductive exn : Type :=
| EValidation (msgs : list (string * string))
| EValueError
| EIndexError
| EKeyError
| ETypeError
| EAttributeError
| EUnauthorized (msg : string)
| EUnlinkable
| EGraphConflict
| ERedefinition
| ENotFound
| EAbstract
| EResetNotEnabled
| EReset
| EReadonlyCalc
| EOverflow
| EZeroDivision
| ENameError
| EAssertion
| EUnresolvedName
| ERecursion
| EUser (n : nat).

(** The outcome of a Python call: a value or an exception. *)
Inductive res (A : Type) : Type :=
| Ok (a : A)
| Err (e : exn).
Arguments Ok {A} a.
Arguments Err {A} e.

Definition rbind {A B} (r : res A) (f : A -> res B) : res B :=
  match r with Ok a => f a | Err e => Err e end.

Definition is_ok {A} (r : res A) : bool :=
  match r with Ok _ => true | Err _ => false end.

Notation "'let*' x ':=' r 'in' k" := (rbind r (fun x => k))
  (at level 200, x pattern, r at level 100, k at level 200, right associativity).

(** ** Insertion-ordered dictionaries (Python [dict]) as association lists. *)
Section Dict.
  Context {K V : Type} (keqb : K -> K -> bool).

  (** [d.get(k)] *)
  Fixpoint dget (k : K) (d : list (K * V)) : option V :=
    match d with
    | [] => None
    | (k', v) :: d' => if keqb k k' then Some v else dget k d'
    end.

  (** [k in d] *)
  Definition dmem (k : K) (d : list (K * V)) : bool :=
    match dget k d with Some _ => true | None => false end.

  (** [d[k] = v]: replaces in place, or appends a new key at the end. *)
  Fixpoint dset (k : K) (v : V) (d : list (K * V)) : list (K * V) :=
    match d with
    | [] => [(k, v)]
    | (k', v') :: d' =>
        if keqb k k' then (k', v) :: d' else (k', v') :: dset k v d'
    end.

  (** [del d[k]] (no effect when missing; callers check). *)
  Fixpoint ddel (k : K) (d : list (K * V)) : list (K * V) :=
    match d with
    | [] => []
    | (k', v') :: d' => if keqb k k' then d' else (k', v') :: ddel k d'
    end.

  (** [d.update(e)] *)
  Definition dupdate (d e : list (K * V)) : list (K * V) :=
    fold_left (fun acc kv => dset (fst kv) (snd kv) acc) e d.

  (** [dict(pairs)] *)
  Definition dict_of (e : list (K * V)) : list (K * V) := dupdate [] e.
End Dict.

(** A dictionary keyed by strings. *)
Definition sget {V} := @dget string V String.eqb.
Definition smem {V} := @dmem string V String.eqb.
Definition sset {V} := @dset string V String.eqb.
Definition sdel {V} := @ddel string V String.eqb.

(** Membership of a string in a list of strings (Python [in]). *)
Definition sinb (s : string) (l : list string) : bool := existsb (String.eqb s) l.

(** Adding to a Python set of strings, kept as a duplicate-free list. *)
Definition sadd (s : string) (l : list string) : list string :=
  if sinb s l then l else l ++ [s].
