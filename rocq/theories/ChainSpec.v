(** ChainSpec.v -- the three phases of a chain, and what it means for a value to go
    through a row of modifiers. *)
From Verif Require Import Base Mon ChainModel.

Section Spec.
  Context {V C S : Type}.
  Notation modifier := (modifier V C S).

  Definition none_of (k : mkind) (l : list modifier) : Prop := forall m, In m l -> kind m <> k.

  (** no eager mark comes after a pre-serialize mark *)
  Definition well_marked (vs : list modifier) : Prop :=
    forall a m b, vs = a ++ m :: b -> kind m = KPreserialize -> none_of KEager b.

  (** [t]: what precedes the last eager mark; [n]: from there up to the first
      pre-serialize mark; [p]: from that mark on *)
  Definition phases (vs t n p : list modifier) : Prop :=
    vs = t ++ n ++ p /\
    none_of KPreserialize (t ++ n) /\
    (p = [] \/ exists m p', p = m :: p' /\ kind m = KPreserialize) /\
    (t = [] /\ none_of KEager n \/ exists m n', n = m :: n' /\ kind m = KEager /\ none_of KEager n').

  (** [goes step l v s v' s']: the value [v] in state [s] passes all of [l], each
      step taking the value the previous one gave, and comes out as [v'] in [s'] *)
  Inductive goes (step : modifier -> V -> S -> V -> S -> Prop)
    : list modifier -> V -> S -> V -> S -> Prop :=
  | goes_nil v s : goes step [] v s v s
  | goes_cons m l v s v1 s1 v' s' :
      step m v s v1 s1 -> goes step l v1 s1 v' s' -> goes step (m :: l) v s v' s'.

  (** some modifier of [l] raises [e], every earlier one having passed; nothing
      after it has run: [s'] is the state the raising modifier left *)
  Definition stops (step : modifier -> V -> S -> V -> S -> Prop)
      (fails : modifier -> V -> S -> exn -> S -> Prop)
      (l : list modifier) (v : V) (s : S) (e : exn) (s' : S) : Prop :=
    exists before m after v1 s1,
      l = before ++ m :: after /\ goes step before v s v1 s1 /\ fails m v1 s1 e s'.

  Context (nval : C -> V -> C) (write_parent : C -> V -> st S unit).

  (** one modifier transforms a value *)
  Definition transforms (c : C) (m : modifier) v s v' s' : Prop :=
    m_transform m (nval c v) s = (Ok v', s').
  Definition transform_fails (c : C) (m : modifier) v s e s' : Prop :=
    m_transform m (nval c v) s = (Err e, s').

  (** one modifier transforms a value and then accepts the result *)
  Definition transforms_and_accepts (c : C) (m : modifier) v s v' s' : Prop :=
    exists s1, m_transform m (nval c v) s = (Ok v', s1) /\
               m_validate m (nval (nval c v) v') s1 = (Ok tt, s').
  Definition transform_fails_or_rejects (c : C) (m : modifier) v s e s' : Prop :=
    m_transform m (nval c v) s = (Err e, s') \/
    exists v' s1, m_transform m (nval c v) s = (Ok v', s1) /\
                  m_validate m (nval (nval c v) v') s1 = (Err e, s').

  Definition serializes (c : C) (m : modifier) v s v' s' : Prop :=
    m_serialize m (nval c v) s = (Ok v', s').
  Definition serialize_fails (c : C) (m : modifier) v s e s' : Prop :=
    m_serialize m (nval c v) s = (Err e, s').

  (** one modifier serializes a value, accepts the result and stores it *)
  Definition serializes_and_stores (c : C) (m : modifier) v s v' s' : Prop :=
    exists s1 s2, m_serialize m (nval c v) s = (Ok v', s1) /\
                  m_validate m (nval (nval c v) v') s1 = (Ok tt, s2) /\
                  write_parent (nval c v) v' s2 = (Ok tt, s').

  (** validation of one context by a row of modifiers *)
  Inductive all_accept (c : C) : list modifier -> S -> S -> Prop :=
  | aa_nil s : all_accept c [] s s
  | aa_cons m l s s1 s' : m_validate m c s = (Ok tt, s1) -> all_accept c l s1 s' ->
                          all_accept c (m :: l) s s'.

  (** [visits c l s rs s']: every modifier of [l] validates in turn, accepting or
      raising a validation failure; [rs] lists the messages of those that fail *)
  Inductive visits (c : C) : list modifier -> S -> list (list (string * string)) -> S -> Prop :=
  | v_nil s : visits c [] s [] s
  | v_ok m l s s1 rs s' : m_validate m c s = (Ok tt, s1) -> visits c l s1 rs s' ->
                          visits c (m :: l) s rs s'
  | v_fail m l s s1 e rs s' : m_validate m c s = (Err (EValidation e), s1) -> visits c l s1 rs s' ->
                              visits c (m :: l) s (e :: rs) s'.

  (** a modifier that rejects says something *)
  Definition speaks (m : modifier) : Prop :=
    forall c s e s', m_validate m c s = (Err (EValidation e), s') -> e <> [].
End Spec.
