(** PyStr.v -- Python's string methods and slices on Coq strings.  This models the
    language, not the repository.  Letters and digits are the ASCII ones. *)
From Verif Require Import Base PyList KeypathModel.
Open Scope Z_scope.

Notation chars := list_ascii_of_string.
Notation unchars := string_of_list_ascii.

Definition slen (s : string) : Z := Z.of_nat (String.length s).

(** [l[:i]] and [l[i:]] with an int *)
Definition py_take {A} (i : Z) (l : list A) : list A := firstn (py_insert_pos i l) l.
Definition py_drop {A} (i : Z) (l : list A) : list A := skipn (py_insert_pos i l) l.

Definition str_take (i : Z) (s : string) : string := unchars (py_take i (chars s)).
Definition str_drop (i : Z) (s : string) : string := unchars (py_drop i (chars s)).

(** [n * s] *)
Definition str_mul (n : Z) (s : string) : string := unchars (py_imul n (chars s)).

(** [s[::-1]] *)
Definition str_rev (s : string) : string := unchars (rev (chars s)).

(** [s.startswith(p)], [s.endswith(p)] *)
Definition startswith (s p : string) : bool := String.prefix p s.
Definition endswith (s p : string) : bool := String.prefix (str_rev p) (str_rev s).

(** [p in s] *)
Fixpoint str_contains (s p : string) : bool :=
  String.prefix p s ||
  match s with EmptyString => false | String _ s' => str_contains s' p end.

(** [s.split(sep)] for a non-empty [sep]: leftmost matches that do not overlap. *)
Fixpoint split_go (sep s : string) (skip : nat) (cur : string) : list string :=
  match s with
  | EmptyString => [cur]
  | String c s' =>
      match skip with
      | S k => split_go sep s' k cur
      | O =>
          if String.prefix sep s
          then cur :: split_go sep s' (pred (String.length sep)) EmptyString
          else split_go sep s' O (cur ++ String c EmptyString)%string
      end
  end.

Definition str_split (sep s : string) : res (list string) :=
  if String.eqb sep "" then Err EValueError else Ok (split_go sep s O EmptyString).

(** [s.replace(old, new)] *)
Fixpoint weave (new s : string) : string :=
  match s with
  | EmptyString => new
  | String c s' => (new ++ String c (weave new s'))%string
  end.

Definition str_replace (old new s : string) : string :=
  if String.eqb old "" then weave new s else join new (split_go old s O EmptyString).

(** White space for [str.strip]. *)
Definition is_space (c : ascii) : bool :=
  let n := nat_of_ascii c in
  (Nat.leb 9 n && Nat.leb n 13) || (Nat.leb 28 n && Nat.leb n 32) ||
  Nat.eqb n 133 || Nat.eqb n 160.

Fixpoint lstrip (l : list ascii) : list ascii :=
  match l with
  | [] => []
  | c :: r => if is_space c then lstrip r else l
  end.

Definition str_strip (s : string) : string :=
  unchars (rev (lstrip (rev (lstrip (chars s))))).

(** Letters and digits *)
Definition between (lo hi : ascii) (c : ascii) : bool :=
  Nat.leb (nat_of_ascii lo) (nat_of_ascii c) && Nat.leb (nat_of_ascii c) (nat_of_ascii hi).
Definition is_lower := between "a" "z".
Definition is_upper := between "A" "Z".
Definition is_alpha (c : ascii) : bool := is_lower c || is_upper c.
Definition is_digit := between "0" "9".
Definition is_alnum (c : ascii) : bool := is_alpha c || is_digit c.

Definition to_upper (c : ascii) : ascii :=
  if is_lower c then ascii_of_nat (nat_of_ascii c - 32) else c.
Definition to_lower (c : ascii) : ascii :=
  if is_upper c then ascii_of_nat (nat_of_ascii c + 32) else c.

Definition str_map (f : ascii -> ascii) (s : string) : string := unchars (map f (chars s)).
Definition str_upper := str_map to_upper.
Definition str_lower := str_map to_lower.

(** [s.capitalize()] *)
Definition str_capitalize (s : string) : string :=
  match s with
  | EmptyString => EmptyString
  | String c s' => String (to_upper c) (str_lower s')
  end.

(** [s.title()] *)
Fixpoint title_go (in_word : bool) (l : list ascii) : list ascii :=
  match l with
  | [] => []
  | c :: r => (if in_word then to_lower c else to_upper c) :: title_go (is_alpha c) r
  end.
Definition str_title (s : string) : string := unchars (title_go false (chars s)).

(** [s.isalnum()] and the like: not empty and every character satisfies the test. *)
Definition str_all (p : ascii -> bool) (s : string) : bool :=
  match chars s with [] => false | l => forallb p l end.
