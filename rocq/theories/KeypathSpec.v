(** KeypathSpec.v -- keys, separators, interleavings. *)
From Verif Require Import Base.
Open Scope char_scope.

(** The character [c] occurs in the string [s]. *)
Definition occurs (c : ascii) (s : string) : Prop := In c (list_ascii_of_string s).

(** No separator of keypaths occurs in [s]. *)
Definition plain (s : string) : Prop :=
  ~ occurs "." s /\ ~ occurs "[" s /\ ~ occurs "]" s.

(** A key that can be a component of a keypath. *)
Definition good_key (s : string) : Prop := s <> EmptyString /\ plain s.

(** [interleaved xs ys zs]: [zs] consists of the items of [xs] and of [ys], each in
    its own order. *)
Inductive interleaved {A} : list A -> list A -> list A -> Prop :=
| int_nil : interleaved [] [] []
| int_left x xs ys zs : interleaved xs ys zs -> interleaved (x :: xs) ys (x :: zs)
| int_right y xs ys zs : interleaved xs ys zs -> interleaved xs (y :: ys) (y :: zs).
