(** TextSpec.v -- letters, words and replaced text.  Letters and digits are the ASCII ones. *)
From Verif Require Import Base PyStr LeafSpec.
Open Scope string_scope.
Open Scope list_scope.

Definition small_letters : string := "abcdefghijklmnopqrstuvwxyz".
Definition capital_letters : string := "ABCDEFGHIJKLMNOPQRSTUVWXYZ".
Definition decimal_digits : string := "0123456789".

Definition letter (c : ascii) : Prop := In c (chars small_letters) \/ In c (chars capital_letters).
Definition decimal (c : ascii) : Prop := In c (chars decimal_digits).

(** [d] is [c] with a small letter replaced by the capital letter at the same place of the
    alphabet, and the other way round. *)
Inductive capital_of : ascii -> ascii -> Prop :=
| co_letter : forall i c d, nth_error (chars small_letters) i = Some c ->
    nth_error (chars capital_letters) i = Some d -> capital_of c d
| co_other : forall c, ~ In c (chars small_letters) -> capital_of c c.
Inductive small_of : ascii -> ascii -> Prop :=
| so_letter : forall i c d, nth_error (chars capital_letters) i = Some c ->
    nth_error (chars small_letters) i = Some d -> small_of c d
| so_other : forall c, ~ In c (chars capital_letters) -> small_of c c.

(** The character at [i] is the first of a word: no letter comes right before it. *)
Definition starts_word (l : list ascii) (i : nat) : Prop :=
  forall j c, i = S j -> nth_error l j = Some c -> ~ letter c.

(** [r] is [s] with every character changed in the way that [change] allows at its place. *)
Definition charwise (change : list ascii -> nat -> ascii -> ascii -> Prop) (s r : string) : Prop :=
  String.length r = String.length s /\
  forall i c d, nth_error (chars s) i = Some c -> nth_error (chars r) i = Some d ->
    change (chars s) i c d.

(** Text that is not empty and consists of such characters *)
Definition made_of (p : ascii -> Prop) (s : string) : Prop :=
  s <> "" /\ forall c, In c (chars s) -> p c.

(** [r] is [s] with [new] for each occurrence of [old], the leftmost first, and then in what
    comes after it. *)
Inductive replaced (old new : string) : string -> string -> Prop :=
| rp_none : forall s, ~ occurs old s -> replaced old new s s
| rp_first : forall a b r,
    (forall a' b', (a ++ old ++ b = a' ++ old ++ b')%string -> (String.length a <= String.length a')%nat) ->
    replaced old new b r -> replaced old new (a ++ old ++ b)%string (a ++ new ++ r)%string.
