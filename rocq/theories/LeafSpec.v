(** LeafSpec.v -- what the value modifiers are supposed to do. *)
From Coq Require Import QArith.
From Verif Require Import Base Mon PyList Values PyStr LeafModel.
Open Scope Z_scope.
Open Scope list_scope.

(** ** Mathematical order on numbers.  Nothing is below, above or equal to nan. *)
Inductive below : xnum -> xnum -> Prop :=
| b_fin : forall p q, (p < q)%Q -> below (XFin p) (XFin q)
| b_neg : forall p, below XNegInf (XFin p)
| b_pos : forall p, below (XFin p) XPosInf
| b_inf : below XNegInf XPosInf.

Inductive same : xnum -> xnum -> Prop :=
| s_fin : forall p q, (p == q)%Q -> same (XFin p) (XFin q)
| s_neg : same XNegInf XNegInf
| s_pos : same XPosInf XPosInf.

Definition at_most (a b : xnum) : Prop := below a b \/ same a b.

Definition zero : xnum := XFin 0.

(** An int or a float (not a bool) and its mathematical value. *)
Inductive number : value -> xnum -> Prop :=
| n_int : forall z, number (VInt z) (XFin (inject_Z z))
| n_fin : forall q, number (VFloat (FFin q)) (XFin q)
| n_neg : number (VFloat (FInf true)) XNegInf
| n_pos : number (VFloat (FInf false)) XPosInf
| n_nan : number (VFloat FNan) XNan.

Definition ordered (x : xnum) : Prop := x <> XNan.

Section Spec.
  Context {S P : Type}.
  Variable resolve : P -> st S value.

  (** The parameter [p] denotes the value [b] and evaluating it has no effect. *)
  Definition resolves (p : P) (b : value) : Prop := forall s, resolve p s = (Ok b, s).

  (** What each number validator claims about a number. *)
  Inductive claims : leaf P -> (xnum -> Prop) -> Prop :=
  | cl_min : forall p v b, resolves p v -> number v b -> ordered b ->
      claims (LMin p) (fun x => at_most b x)
  | cl_max : forall p v b, resolves p v -> number v b -> ordered b ->
      claims (LMax p) (fun x => at_most x b)
  | cl_range : forall p q v w a b,
      resolves p v -> number v a -> ordered a ->
      resolves q w -> number w b -> ordered b ->
      claims (LRange p q) (fun x => at_most a x /\ at_most x b)
  | cl_gt : forall p v b, resolves p v -> number v b -> ordered b ->
      claims (LGt p) (fun x => below b x)
  | cl_lt : forall p v b, resolves p v -> number v b -> ordered b ->
      claims (LLt p) (fun x => below x b)
  | cl_positive : claims LPositive (fun x => below zero x)
  | cl_negative : claims LNegative (fun x => below x zero)
  | cl_nonpositive : claims LNonpositive (fun x => at_most x zero)
  | cl_nonnegative : claims LNonnegative (fun x => at_most zero x).
End Spec.

(** An outcome of a check. *)
Definition accepts {S} (check : st S unit) : Prop := forall s, check s = (Ok tt, s).
Definition rejects {S} (vexc : string -> exn) (check : st S unit) : Prop :=
  exists msg, forall s, check s = (Err (vexc msg), s).

(** The check accepts when [H] holds and rejects when it does not. *)
Definition decides {S} (vexc : string -> exn) (check : st S unit) (H : Prop) : Prop :=
  (accepts check <-> H) /\ (rejects vexc check <-> ~ H).

(** An outcome of a transformation. *)
Definition gives {S} (m : st S value) (v : value) : Prop := forall s, m s = (Ok v, s).
Definition raises {S A} (m : st S A) (e : exn) : Prop := forall s, m s = (Err e, s).

(** ** Lists and strings *)

Definition is_prefix {A} (p l : list A) : Prop := exists r, l = p ++ r.
Definition is_suffix {A} (p l : list A) : Prop := exists r, l = r ++ p.
Definition str_is_prefix (p s : string) : Prop := exists r, s = (p ++ r)%string.
Definition str_is_suffix (p s : string) : Prop := exists r, s = (r ++ p)%string.

(** Lists whose items are pairwise equal in Python's sense. *)
Definition items_equal (oeq : oid -> oid -> bool) (l l' : list value) : Prop :=
  Forall2 (fun a b => veq oeq a b = true) l l'.
Definition starts_with oeq (l p : list value) : Prop :=
  exists a b, l = a ++ b /\ items_equal oeq a p.
Definition ends_with oeq (l p : list value) : Prop :=
  exists a b, l = a ++ b /\ items_equal oeq b p.

(** A string or a list, and its length. *)
Inductive has_length : value -> Z -> Prop :=
| hl_list : forall l, has_length (VList l) (Z.of_nat (length l))
| hl_str : forall s, has_length (VStr s) (Z.of_nat (String.length s)).

Definition lengthless (v : value) : Prop := forall n, ~ has_length v n.

(** Every character of [s] occurs in [c]. *)
Definition only_chars_of (c s : string) : Prop :=
  forall x, In x (chars s) -> In x (chars c).

(** [s] is [a], then [m], then [b], where [a] and [b] are white space and [m] neither
    starts nor ends with white space. *)
Definition trimmed (s m : string) : Prop :=
  (exists a b, s = (a ++ m ++ b)%string /\
               Forall (fun c => is_space c = true) (chars a) /\
               Forall (fun c => is_space c = true) (chars b)) /\
  (forall c r, m = String c r -> is_space c = false) /\
  (forall c r, m = (r ++ String c "")%string -> is_space c = false).

(** Where an index that may count from the end falls in a sequence of length [len]. *)
Definition position (k len : Z) : Z :=
  if k <? 0 then Z.max 0 (len + k) else Z.min k len.

(** [p] occurs somewhere in [s]. *)
Definition occurs (p s : string) : Prop := exists a b, s = (a ++ p ++ b)%string.

(** ** Types *)
Inductive has_type : tykind -> value -> Prop :=
| ht_str : forall s, has_type TStr (VStr s)
| ht_int : forall z, has_type TInt (VInt z)
| ht_float : forall f, has_type TFloat (VFloat f)
| ht_bool : forall b, has_type TBool (VBool b)
| ht_date : forall d, has_type TDate (VDate d)
| ht_datetime : forall t, has_type TDatetime (VDatetime t)
| ht_list : forall l, has_type TList (VList l)
| ht_dict : forall d, has_type TDict (VDict d).
