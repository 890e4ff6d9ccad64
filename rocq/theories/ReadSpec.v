(** ReadSpec.v -- specification for C91: the calls that only look at objects. *)
From Verif Require Import Base Mon Values ObjModel IoModel.

(** A question to an object: its JSON form, its validation, whether it is valid. *)
Inductive question :=
  | AskJson (o : oid) (ignore_writeonly reverse : bool) (out_null : option bool)
  | AskValidate (o : oid) (all : option bool)
  | AskValid (o : oid).
(** What comes back, which may be an exception *)
Inductive answer :=
  | Json (r : res value)
  | Validated (r : res unit)
  | Valid (r : res bool).

Definition ask (P : program) (n : nat) (q : question) (w : world) : answer * world :=
  match q with
  | AskJson o iw rev on => let '(r, w') := tojson P n o iw rev on w in (Json r, w')
  | AskValidate o all => let '(r, w') := validate P n o all w in (Validated r, w')
  | AskValid o => let '(r, w') := is_valid P n o w in (Valid r, w')
  end.
(** The answers to questions asked one after the other, whatever each answers *)
Fixpoint ask_all (P : program) (n : nat) (qs : list question) (w : world) : list answer * world :=
  match qs with
  | [] => ([], w)
  | q :: qs => let '(a, w1) := ask P n q w in let '(l, w2) := ask_all P n qs w1 in (a :: l, w2)
  end%list.
