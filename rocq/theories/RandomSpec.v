(** RandomSpec.v -- sources of randomness, and what may come out of the random modifiers. *)
From Coq Require Import QArith.
From Verif Require Import Base Mon Values PyStr.
Open Scope list_scope.

(** A source always gives a number below its argument. *)
Definition source {S} (randbelow : nat -> st S nat) : Prop :=
  forall n s, (0 < n)%nat -> exists i s', randbelow n s = (Ok i, s') /\ (i < n)%nat.

(** The same for numbers from 0 to 1, 1 excluded. *)
Definition unit_source {S} (unit_draw : st S Q) : Prop :=
  forall s, exists q s', unit_draw s = (Ok q, s') /\ (0 <= q)%Q /\ (q < 1)%Q.

(** A source that can give anything: the state is the list of numbers to come. *)
Definition any_source (n : nat) : st (list nat) nat :=
  fun l => match l with
           | [] => (Ok O, [])
           | i :: r => (Ok (if Nat.ltb i n then i else O), r)
           end.

(** [n] characters of the alphabet, no two of them the same *)
Definition selection (alphabet : string) (n : nat) (s : string) : Prop :=
  String.length s = n /\ NoDup (chars s) /\ forall c, In c (chars s) -> In c (chars alphabet).
