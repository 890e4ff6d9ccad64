(** ODictSpec.v -- an observer of an owned dict. *)
From Verif Require Import Base PyDict ODictModel OListSpec.
Open Scope Z_scope.

(** A dict has each key once; the keyword arguments of a call likewise. *)
Definition unique_keys {K V} (keqb : K -> K -> bool) (d : list (K * V)) : Prop :=
  ForallOrdPairs (fun a b => keqb (fst a) (fst b) = false) d.

Definition kwargs_ok {K V} (keqb : K -> K -> bool) (o : dop K V) : Prop :=
  match o with DUpdate _ kw => unique_keys keqb kw | _ => True end.

(** Operations whose argument, if iterated, can be iterated again. *)
Definition repeatable_dict_argument {K V} (o : dop K V) : Prop :=
  match o with
  | DUpdate (Some (UOnce _ | UBroken _)) _ | DIor (UOnce _ | UBroken _) => False
  | _ => True
  end.

(** All operations except setdefault with a key only. *)
Definition explicit_default {K V} (o : dop K V) : Prop :=
  match o with DSetdefault _ None => False | _ => True end.

(** The observer's tally of the values equal to [x]. *)
Definition dtally1 {K V} (veqb : V -> V -> bool) (x : V) (c : dcall K V) : Z :=
  match c with
  | DAdd _ y => if veqb x y then 1 else 0
  | DDel (Some y) => if veqb x y then -1 else 0
  | _ => 0
  end.

Definition dtally {K V} (veqb : V -> V -> bool) (x : V) (es : list (dcall K V * list (K * V))) : Z :=
  fold_right (fun e n => dtally1 veqb x (fst e) + n) 0 es.

(** How many entries of [d] have a value equal to [x]. *)
Definition dcount {K V} (veqb : V -> V -> bool) (x : V) (d : list (K * V)) : Z :=
  count veqb x (map snd d).

Definition dwarned_first {K V} (d d' : list (K * V)) (es : list (dcall K V * list (K * V))) : Prop :=
  (es = [] /\ d' = d) \/
  exists rest, es = (DWill, d) :: rest /\
    Forall (fun e => snd e = d' /\ fst e <> DWill) rest.

(** Every reported addition [k, v] is what the dict then holds under [k]. *)
Definition dadds_located {K V} (keqb : K -> K -> bool) (es : list (dcall K V * list (K * V))) : Prop :=
  forall k v d, In (DAdd k v, d) es -> dget keqb k d = Some v.
