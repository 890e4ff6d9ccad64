(** Mon.v -- computations that read and change a state and may raise.  The state at
    the time of an exception is kept, as in Python. *)
From Verif Require Import Base.

Definition st (S A : Type) : Type := S -> res A * S.

Definition ret {S A} (a : A) : st S A := fun s => (Ok a, s).
Definition throw {S A} (e : exn) : st S A := fun s => (Err e, s).
Definition bind {S A B} (m : st S A) (f : A -> st S B) : st S B :=
  fun s => match m s with
           | (Ok a, s') => f a s'
           | (Err e, s') => (Err e, s')
           end.
Definition lift {S A} (r : res A) : st S A := fun s => (r, s).

Notation "'do*' x <- m ; k" := (bind m (fun x => k))
  (at level 200, x pattern, m at level 100, k at level 200, right associativity).
Notation "m >> k" := (bind m (fun _ => k)) (at level 100, right associativity).

(** [functools.reduce] over a list of effectful steps *)
Fixpoint fold_st {S A B} (f : B -> A -> st S B) (l : list A) (b : B) : st S B :=
  match l with
  | [] => ret b
  | a :: l' => do* b' <- f b a; fold_st f l' b'
  end.

(** a [for] loop *)
Fixpoint for_st {S A} (l : list A) (f : A -> st S unit) : st S unit :=
  match l with
  | [] => ret tt
  | a :: l' => f a >> for_st l' f
  end.
