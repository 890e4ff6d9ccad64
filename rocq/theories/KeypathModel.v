(** KeypathModel.v -- model of jsonclasses/keypath.py and of Python string
    splitting and joining.  Strings are Coq strings of 8-bit characters; every
    function here only looks at the separators, so nothing depends on the alphabet. *)
From Coq Require Import DecimalString.
From Verif Require Import Base.
Open Scope string_scope.
Open Scope list_scope.

(** [str(i)] for an int *)
Definition string_of_Z (z : Z) : string := NilZero.string_of_int (Z.to_int z).

(** Splitting at every character that satisfies [p]: [re.split] with a
    single-character pattern, and [str.split] with a single-character separator. *)
Fixpoint split_on (p : ascii -> bool) (s : string) : list string :=
  match s with
  | EmptyString => [EmptyString]
  | String c s' =>
      if p c then EmptyString :: split_on p s'
      else match split_on p s' with
           | [] => [String c EmptyString]
           | x :: r => String c x :: r
           end
  end.

(** [sep.join(l)] *)
Fixpoint join (sep : string) (l : list string) : string :=
  match l with
  | [] => EmptyString
  | [x] => x
  | x :: r => (x ++ sep ++ join sep r)%string
  end.

Definition nonempty (s : string) : bool := negb (String.eqb s EmptyString).

Definition is_dot (c : ascii) : bool := Ascii.eqb c ".".

(** The character class of [r'\]|\[|\.'] (keypath.py:101, 105, 109). *)
Definition is_sep (c : ascii) : bool :=
  Ascii.eqb c "." || Ascii.eqb c "[" || Ascii.eqb c "]".

(** An argument of [concat_keypath]: a string or an int. *)
Inductive karg := KStr (s : string) | KInt (i : Z).

(** [str(arg)] *)
Definition str_of_karg (a : karg) : string :=
  match a with KStr s => s | KInt i => string_of_Z i end.

(** keypath.py:50-60 *)
Definition concat_keypath (args : list karg) : string :=
  join "." (filter nonempty (map str_of_karg args)).

(** keypath.py:63-73 *)
Definition keypath_drop_last (kp : string) : string :=
  join "." (removelast (split_on is_dot kp)).

(** keypath.py:88-97 *)
Definition initial_keypath (kp : string) : string := hd EmptyString (split_on is_dot kp).

(** keypath.py:76-85; a set is a list without duplicates. *)
Definition initial_keypaths (kps : list string) : list string :=
  nodup string_dec (map initial_keypath kps).

(** [re.search(r'\.|\[|\]', k)] *)
Fixpoint has_sep (s : string) : bool :=
  match s with
  | EmptyString => false
  | String c s' => is_sep c || has_sep s'
  end.

(** keypath.py:100-101 *)
Definition single_key_args {V} (kwargs : list (string * V)) : list (string * V) :=
  filter (fun kv => negb (has_sep (fst kv))) kwargs.

(** keypath.py:104-105 *)
Definition compound_key_args {V} (kwargs : list (string * V)) : list (string * V) :=
  filter (fun kv => has_sep (fst kv)) kwargs.

(** keypath.py:108-109 *)
Definition keypath_split (key : string) : list string :=
  filter nonempty (split_on is_sep key).
