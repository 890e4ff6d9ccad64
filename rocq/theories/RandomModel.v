(** RandomModel.v -- the modifiers that make a random value: randomdigits, randomalnums,
    randomalnumpuncs, randomint and randomfloat.

    The source of randomness is a function that gives some number below its argument
    ([Random._randbelow]), and one that gives a number from 0 to 1 ([random.random]);
    both may depend on a state. *)
From Coq Require Import QArith.
From Verif Require Import Base Mon Values PyStr LeafModel.
Open Scope string_scope.
Open Scope list_scope.
Open Scope Z_scope.

Section Random.
  Context {S P : Type}.
  Variable resolve : P -> st S value.
  Variable vexc : string -> exn.
  Variable randbelow : nat -> st S nat.
  Variable unit_draw : st S Q.

  (** Lib/random.py, [pool[j] = pool[n-i-1]]: the last item of the pool takes the place of
      the item drawn *)
  Definition swap_remove {A} (j : nat) (pool : list A) : list A :=
    match rev pool with
    | [] => []
    | x :: r =>
        let l := rev r in
        if Nat.eqb j (length l) then l else firstn j l ++ x :: skipn (Datatypes.S j) l
    end.

  (** Lib/random.py, the loop of [Random.sample].  Simplification: the pool is used
      whatever its size; for a large one Python draws positions until it finds a new one,
      with the same possible results. *)
  Fixpoint sample_loop {A} (k : nat) (pool : list A) : st S (list A) :=
    match k with
    | O => ret []
    | Datatypes.S k' =>
        do* j <- randbelow (length pool);
        match nth_error pool j with
        | None => throw EIndexError
        | Some x => do* r <- sample_loop k' (swap_remove j pool); ret (x :: r)
        end
    end.

  (** [random.sample(population, k)] *)
  Definition sample {A} (pool : list A) (k : value) : st S (list A) :=
    do* n <- lift (as_index k);
    if (n <? 0) || (Z.of_nat (length pool) <? n) then throw EValueError
    else sample_loop (Z.to_nat n) pool.

  Definition digits : string := "0123456789".
  Definition letters : string := "abcdefghijklmnopqrstuvwxyzABCDEFGHIJKLMNOPQRSTUVWXYZ".
  Definition punctuation : string := "!""#$%&'()*+,-./:;<=>?@[\]^_`{|}~".

  Definition t_random (alphabet : string) (length : P) (v : value) : st S value :=
    do* k <- resolve length;
    do* l <- sample (chars alphabet) k;
    ret (VStr (unchars l)).

  (** modifiers/random_digits_modifier.py:17-19 *)
  Definition t_randomdigits := t_random digits.
  (** modifiers/random_alnums_modifier.py:17-22 *)
  Definition t_randomalnums := t_random (letters ++ digits)%string.
  (** modifiers/random_alnumpuncs_modifier.py:17-23 *)
  Definition t_randomalnumpuncs := t_random (punctuation ++ letters ++ digits)%string.

  (** modifiers/random_int_modifier.py:20-27.  [randrange(lo, hi)] is [lo] and a draw below
      [hi - lo].  Simplification: a float bound is refused, as newer versions of Python
      do. *)
  Definition t_randomint (lo hi : P) (v : value) : st S value :=
    do* a <- resolve lo;
    do* b <- resolve hi;
    do* lt <- lift (py_lt a b);
    if lt then
      do* a <- lift (as_index a);
      do* b <- lift (as_index b);
      do* i <- randbelow (Z.to_nat (b - a));
      ret (VInt (a + Z.of_nat i))
    else throw (vexc "is not less than or equal").

  (** an int, bool or finite float *)
  Definition finite (v : value) : option Q :=
    match v with
    | VInt z => Some (inject_Z z)
    | VBool b => Some (if b then 1 else 0)%Q
    | VFloat (FFin q) => Some q
    | _ => None
    end.

  (** modifiers/random_float_modifier.py:20-23: [uniform(a, b)] is [a + (b - a) * random()].
      Simplification: no rounding; bounds that are infinite or nan give nan. *)
  Definition t_randomfloat (lo hi : P) (v : value) : st S value :=
    do* a <- resolve lo;
    do* b <- resolve hi;
    match finite a, finite b with
    | Some p, Some q => do* u <- unit_draw; ret (VFloat (FFin (p + (q - p) * u)%Q))
    | _, _ =>
        match a, b with
        | VFloat _, (VFloat _ | VInt _ | VBool _) | (VInt _ | VBool _), VFloat _ => ret (VFloat FNan)
        | _, _ => throw ETypeError
        end
    end.
End Random.
