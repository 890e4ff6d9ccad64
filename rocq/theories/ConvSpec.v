(** ConvSpec.v -- the text of an int, and what a password hash is good for. *)
From Verif Require Import Base Mon Values PyStr.
Open Scope string_scope.
Open Scope Z_scope.

(** The decimal digits *)
Inductive digit : string -> Z -> Prop :=
| dg0 : digit "0" 0 | dg1 : digit "1" 1 | dg2 : digit "2" 2 | dg3 : digit "3" 3 | dg4 : digit "4" 4
| dg5 : digit "5" 5 | dg6 : digit "6" 6 | dg7 : digit "7" 7 | dg8 : digit "8" 8 | dg9 : digit "9" 9.

(** Digits, with single underscores between them, and the number they stand for *)
Inductive numeral : string -> Z -> Prop :=
| nu_one : forall d k, digit d k -> numeral d k
| nu_more : forall s z d k, numeral s z -> digit d k -> numeral (s ++ d) (10 * z + k)
| nu_under : forall s z d k, numeral s z -> digit d k -> numeral (s ++ "_" ++ d) (10 * z + k).

Inductive sign : string -> Z -> Prop :=
| sg_none : sign "" 1 | sg_plus : sign "+" 1 | sg_minus : sign "-" (-1).

Definition blank (s : string) : Prop := Forall (fun c => is_space c = true) (list_ascii_of_string s).

(** White space around a sign and a numeral *)
Definition int_text (s : string) (z : Z) : Prop :=
  exists a g n b i k, s = a ++ g ++ n ++ b /\ blank a /\ blank b /\ sign g i /\ numeral n k /\ z = i * k.

(** A hash of [p] matches the passwords that are the same as [p] for bcrypt (it looks at a
    bounded number of bytes), and no others. *)
Definition bcrypt_law (same : string -> string -> Prop)
  (hashpw : string -> string -> res string) (bcheck : string -> string -> res bool) : Prop :=
  forall p g h q, hashpw p g = Ok h ->
    exists b, bcheck q h = Ok b /\ (b = true <-> same p q).
