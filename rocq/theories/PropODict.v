(** PropODict.v -- C05: dicts owned by an object. *)
From Verif Require Import Base PyDict ODictModel OListSpec ODictSpec ODictProofs PropOList.
Open Scope Z_scope.

(** Same results, errors and content (with order) as a plain dict, for every history
    that does not pass a one-shot iterator or a broken iterable to update or |=. *)
Theorem C05_owned_dict_is_a_dict :
  forall (K V : Type) (keqb : K -> K -> bool) (none : V) (os : list (dop K V)) (d : list (K * V)),
    Forall repeatable_dict_argument os ->
    let '(results, content, _) := owned_drun keqb none os d in
    plain_drun keqb none os d = (results, content).
Proof. exact @owned_drun_plain. Qed.
Print Assumptions C05_owned_dict_is_a_dict.

(** The values reported added and removed are the difference of the contents. *)
Theorem C05_owned_dict_ledger :
  forall (K V : Type) (keqb : K -> K -> bool), equivb keqb ->
  forall (none : V) (veqb : V -> V -> bool) (x : V) (os : list (dop K V)) (d : list (K * V)),
    unique_keys keqb d ->
    Forall (kwargs_ok keqb) os -> Forall repeatable_dict_argument os -> Forall explicit_default os ->
    let '(_, content, calls) := owned_drun keqb none os d in
    dcount veqb x content = dcount veqb x d + dtally veqb x calls.
Proof. exact @owned_drun_ledger. Qed.
Print Assumptions C05_owned_dict_ledger.

Theorem C05_owned_dict_warns_before_change :
  forall (K V : Type) (keqb : K -> K -> bool) (none : V) (o : dop K V) (d : list (K * V)),
    explicit_default o ->
    let '(_, content, calls) := owned_dstep keqb none o d in
    dwarned_first d content calls.
Proof. exact @owned_dstep_warns. Qed.
Print Assumptions C05_owned_dict_warns_before_change.

(** A reported addition names the key under which the value then is. *)
Theorem C05_owned_dict_key_reported :
  forall (K V : Type) (keqb : K -> K -> bool), equivb keqb ->
  forall (none : V) (o : dop K V) (d : list (K * V)),
    kwargs_ok keqb o -> repeatable_dict_argument o ->
    let '(_, _, calls) := owned_dstep keqb none o d in dadds_located keqb calls.
Proof. exact (fun K V keqb EQ none => owned_dstep_locates keqb EQ none (fun _ _ => true)). Qed.
Print Assumptions C05_owned_dict_key_reported.

(** The two exclusions are real: one-shot iterators and setdefault without default. *)
Theorem C05_owned_dict_refuted :
  (exists (d ps : list (Z * Z)),
     snd (plain_dstep Z.eqb 0 (DUpdate (Some (UOnce ps)) []) d) <> d /\
     snd (fst (owned_dstep Z.eqb 0 (DUpdate (Some (UOnce ps)) []) d)) = d /\
     dtally Z.eqb 1 (snd (owned_dstep Z.eqb 0 (DUpdate (Some (UOnce ps)) []) d)) = 1)
  /\
  (exists (d : list (Z * Z)) (k : Z),
     snd (fst (owned_dstep Z.eqb 0 (DSetdefault k None) d)) <> d /\
     snd (owned_dstep Z.eqb 0 (DSetdefault k None) d) = []).
Proof. exact owned_dict_counterexamples. Qed.
Print Assumptions C05_owned_dict_refuted.

Definition C05_history : list (dop Z Z) :=
  [DUpdate (Some (UMany [(1, 10); (3, 30); (1, 11)])) [(4, 40)]; DPopItem; DSetdefault 7 (Some 70);
   DPop 9 (Some 0); DDelItem 2; DDelItem 2; DIor (UMany [(3, 10)])].

Example C05_case :
  Forall repeatable_dict_argument C05_history /\ Forall (kwargs_ok Z.eqb) C05_history /\
  Forall explicit_default C05_history /\ unique_keys Z.eqb [(1, 10); (2, 20)] /\
  fst (owned_drun Z.eqb 0 C05_history [(1, 10); (2, 20)]) =
  ([Ok RNothing; Ok (RItem 4 40); Ok (RVal 70); Ok (RVal 0); Ok RNothing; Err EKeyError; Ok RNothing],
   [(1, 11); (3, 10); (7, 70)]) /\
  dtally Z.eqb 10 (snd (owned_drun Z.eqb 0 C05_history [(1, 10); (2, 20)])) = 0.
Proof.
  repeat split; try (vm_compute; reflexivity);
    repeat (apply Forall_cons; [try exact I; repeat constructor|]); try apply Forall_nil; repeat constructor.
Qed.
