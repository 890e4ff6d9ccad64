(** PropChain.v -- C10, C11 and the chain part of C12: modifier chains. *)
From Verif Require Import Base Mon ChainModel ChainSpec ChainProofs.
Open Scope string_scope.
Open Scope list_scope.

(** The code's three rows of modifiers are the phases of the chain; each modifier is
    in exactly one of them, because the chain is their concatenation. *)
Theorem C10_chain_is_cut_at_the_marks :
  forall (V C S : Type) (vs : list (modifier V C S)),
    well_marked vs -> phases vs (tvs vs) (nvs vs) (pvs vs).
Proof. exact @chain_phases. Qed.
Print Assumptions C10_chain_is_cut_at_the_marks.

(** There is only one way to cut a chain into phases. *)
Theorem C10_phases_are_unique :
  forall (V C S : Type) (vs t n p t' n' p' : list (modifier V C S)),
    well_marked vs -> phases vs t n p -> phases vs t' n' p' -> t = t' /\ n = n' /\ p = p'.
Proof. exact @phases_unique. Qed.
Print Assumptions C10_phases_are_unique.

(** Finding: when an eager mark follows a pre-serialize mark, a modifier is in two phases. *)
Theorem C10_eager_after_preserialize_refuted :
  exists (vs : list (modifier nat nat unit)) m, ~ well_marked vs /\
    In m (tvs vs) /\ In m (pvs vs) /\ kind m = KOther /\ In m vs.
Proof. exact eager_after_preserialize. Qed.
Print Assumptions C10_eager_after_preserialize_refuted.

(** Setting a value succeeds exactly when it passes every modifier of the eager phase
    (transformed and then accepted) and is transformed by every one of the next
    phase, in order. *)
Theorem C11_set_succeeds_iff_value_passes :
  forall (V C S : Type) (cval : C -> V) (nval : C -> V -> C)
         (vs t n p : list (modifier V C S)) (c : C) (s : S) (v' : V) (s' : S),
    well_marked vs -> phases vs t n p ->
    (chain_transform cval nval vs c s = (Ok v', s') <->
     exists v1 s1, goes (transforms_and_accepts nval c) t (cval c) s v1 s1 /\
                   goes (transforms nval c) n v1 s1 v' s').
Proof. exact (fun V C S cval nval => @transform_ok V C S cval nval). Qed.
Print Assumptions C11_set_succeeds_iff_value_passes.

(** It fails exactly when some modifier raises, all earlier ones having passed; the
    state is the one that modifier left, so no later modifier has run. *)
Theorem C11_first_rejection_aborts :
  forall (V C S : Type) (cval : C -> V) (nval : C -> V -> C)
         (vs t n p : list (modifier V C S)) (c : C) (s : S) (e : exn) (s' : S),
    well_marked vs -> phases vs t n p ->
    (chain_transform cval nval vs c s = (Err e, s') <->
     stops (transforms_and_accepts nval c) (transform_fails_or_rejects nval c) t (cval c) s e s' \/
     exists v1 s1, goes (transforms_and_accepts nval c) t (cval c) s v1 s1 /\
                   stops (transforms nval c) (transform_fails nval c) n v1 s1 e s').
Proof. exact (fun V C S cval nval => @transform_err V C S cval nval). Qed.
Print Assumptions C11_first_rejection_aborts.

(** validate accepts exactly when every modifier of the normal phase accepts. *)
Theorem C12_chain_valid_iff_all_accept :
  forall (V C S : Type) (all_fields : C -> bool)
         (vs t n p : list (modifier V C S)) (c : C) (s s' : S),
    well_marked vs -> phases vs t n p -> Forall speaks vs ->
    (chain_validate all_fields vs c s = (Ok tt, s') <-> all_accept c n s s').
Proof. exact (fun V C S => @validate_ok V C S). Qed.
Print Assumptions C12_chain_valid_iff_all_accept.

(** all_fields off: the report is that of the first failing modifier, and it is the
    last one that ran. *)
Theorem C12_chain_first_failure :
  forall (V C S : Type) (all_fields : C -> bool)
         (vs t n p : list (modifier V C S)) (c : C) (s : S)
         (before : list (modifier V C S)) (m : modifier V C S) (after : list (modifier V C S))
         (s1 : S) (e : list (string * string)) (s' : S),
    well_marked vs -> phases vs t n p -> all_fields c = false ->
    n = before ++ m :: after -> all_accept c before s s1 ->
    m_validate m c s1 = (Err (EValidation e), s') -> e <> [] ->
    chain_validate all_fields vs c s = (Err (EValidation (dict_of String.eqb e)), s').
Proof. exact (fun V C S => @validate_first V C S). Qed.
Print Assumptions C12_chain_first_failure.

(** all_fields on: every modifier runs, and the report is made of the messages of all
    that fail, in order (the later message when two have the same keypath). *)
Theorem C12_chain_all_failures :
  forall (V C S : Type) (all_fields : C -> bool)
         (vs t n p : list (modifier V C S)) (c : C) (s : S)
         (rs : list (list (string * string))) (s' : S),
    well_marked vs -> phases vs t n p -> all_fields c = true ->
    visits c n s rs s' -> Forall (fun e => e <> []) rs ->
    chain_validate all_fields vs c s =
      (match rs with [] => Ok tt | _ => Err (EValidation (dict_of String.eqb (concat rs))) end, s').
Proof. exact (fun V C S => @validate_all V C S). Qed.
Print Assumptions C12_chain_all_failures.

(** Saving passes the value through all modifiers; those from the first pre-serialize
    mark on also validate their result and store it in the object before the next
    one runs. *)
Theorem C46_serialize_phases :
  forall (V C S : Type) (cval : C -> V) (nval : C -> V -> C) (write_parent : C -> V -> st S unit)
         (vs t n p : list (modifier V C S)) (c : C) (s : S) (v' : V) (s' : S),
    well_marked vs -> phases vs t n p ->
    (chain_serialize cval nval write_parent vs c s = (Ok v', s') <->
     exists v1 s1, goes (serializes nval c) (t ++ n) (cval c) s v1 s1 /\
                   goes (serializes_and_stores nval write_parent c) p v1 s1 v' s').
Proof. exact (fun V C S => @serialize_ok V C S). Qed.
Print Assumptions C46_serialize_phases.

(** A chain with all marks.  Values are numbers, the state is a log of what ran:
    [add k] adds k, [below k] rejects values that are not below k. *)
Definition ex_log (x : string) : st (list string) unit := fun s => (Ok tt, s ++ [x]).
Definition ex_mark (k : mkind) : modifier nat nat (list string) :=
  {| kind := k; m_validate := fun _ => ret tt; m_transform := fun c => ret c;
     m_tojson := fun c => ret c; m_serialize := fun c => ret c |}.
Definition ex_add (k : nat) : modifier nat nat (list string) :=
  {| kind := KOther; m_validate := fun _ => ret tt;
     m_transform := fun c => ex_log "add" >> ret (c + k)%nat;
     m_tojson := fun c => ret c; m_serialize := fun c => ret c |}.
Definition ex_below (k : nat) : modifier nat nat (list string) :=
  {| kind := KOther;
     m_validate := fun c => ex_log "check" >> if Nat.ltb c k then ret tt else throw (EValidation [("x", "too big")]);
     m_transform := fun c => ret c; m_tojson := fun c => ret c; m_serialize := fun c => ret c |}.
Definition ex_chain := [ex_add 1; ex_below 10; ex_mark KEager; ex_add 2; ex_below 5; ex_below 4;
                        ex_mark KPreserialize; ex_add 7].

Example C10_case : well_marked ex_chain /\
  phases ex_chain [ex_add 1; ex_below 10] [ex_mark KEager; ex_add 2; ex_below 5; ex_below 4]
         [ex_mark KPreserialize; ex_add 7].
Proof.
  assert (Hw : well_marked ex_chain).
  { intros a m b E Hm.
    do 7 (destruct a as [|? a]; simpl in E; [injection E as <- <-; simpl in Hm; try discriminate;
            intros x [<-|[]]; discriminate|injection E as _ E]).
    destruct a as [|? a]; simpl in E; [injection E as <- <-; discriminate|].
    injection E as _ E. destruct a; discriminate. }
  split; [exact Hw|]. apply (C10_chain_is_cut_at_the_marks _ _ _ ex_chain Hw).
Qed.

Example C11_case :
  chain_transform (fun c => c) (fun _ v => v) ex_chain 3%nat [] = (Ok 6%nat, ["add"; "check"; "add"]) /\
  chain_transform (fun c => c) (fun _ v => v) ex_chain 9%nat [] =
    (Err (EValidation [("x", "too big")]), ["add"; "check"]).
Proof. split; reflexivity. Qed.

Example C12_case :
  chain_validate (fun _ => false) ex_chain 6%nat [] = (Err (EValidation [("x", "too big")]), ["check"]) /\
  chain_validate (fun _ => true) ex_chain 6%nat [] = (Err (EValidation [("x", "too big")]), ["check"; "check"]) /\
  chain_validate (fun _ => false) ex_chain 3%nat [] = (Ok tt, ["check"; "check"]) /\
  Forall speaks ex_chain.
Proof.
  repeat split.
  assert (forall k, speaks (ex_mark k)) by (intros k c s e s' HH; cbn in HH; unfold ret in HH; discriminate HH).
  assert (forall k, speaks (ex_add k)) by (intros k c s e s' HH; cbn in HH; unfold ret in HH; discriminate HH).
  assert (forall k, speaks (ex_below k)).
  { intros k c s e s' H1. unfold ex_below, m_validate, bind, ex_log, ret, throw in H1. destruct (Nat.ltb c k); [discriminate H1|].
    injection H1 as <- _. discriminate. }
  unfold ex_chain. repeat constructor; auto.
Qed.
