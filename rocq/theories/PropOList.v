(** PropOList.v -- C03 and C04: lists owned by an object. *)
From Verif Require Import Base PyList OListModel OListSpec OListProofs.
Open Scope Z_scope.

(** Items for the examples: integers compared with [=]. *)
Lemma Z_equivb : equivb Z.eqb.
Proof.
  constructor.
  - apply Z.eqb_refl.
  - apply Z.eqb_sym.
  - intros x y z H1 H2. apply Z.eqb_eq in H1, H2. subst. apply Z.eqb_refl.
Qed.

(** ** C03 -- every history of method calls on an owned list returns the same
    results and exceptions and leaves the same content as on a plain list.  The one
    exception is extend / += with a one-shot iterator ... *)
Theorem C03_owned_list_is_a_list :
  forall (A : Type) (eqb : A -> A -> bool) (os : list (lop A)) (l : list A),
    Forall sized_argument os ->
    let '(results, content, _) := owned_run eqb os l in
    plain_run eqb os l = (results, content).
Proof. exact owned_run_is_plain. Qed.
Print Assumptions C03_owned_list_is_a_list.

(** ... which a plain list accepts and an owned list rejects. *)
Theorem C03_one_shot_iterator_refuted :
  exists (l xs : list Z),
    plain_step Z.eqb (LExtend (ItOnce xs)) l = (Ok None, l ++ xs) /\
    fst (owned_step Z.eqb (LExtend (ItOnce xs)) l) = (Err ETypeError, l).
Proof. exact owned_iterator_counterexample. Qed.
Print Assumptions C03_one_shot_iterator_refuted.

Definition C03_history : list (lop Z) :=
  [LAppend 4; LInsert (-1) 9;
   LSetSlice {| sl_start := None; sl_stop := None; sl_step := Some 2 |} (ItOnce [7; 8]);
   LPop (Some 0); LRemove 5; LIMul 2; LIAdd ItSelf].

Example C03_case :
  Forall sized_argument C03_history /\
  fst (owned_run Z.eqb C03_history [1; 2])
  = ([Ok None; Ok None; Ok None; Ok (Some 7); Err EValueError; Ok None; Ok None],
     [2; 8; 4; 2; 8; 4; 2; 8; 4; 2; 8; 4]).
Proof. split; [repeat (apply Forall_cons; [exact I|]); apply Forall_nil|vm_compute; reflexivity]. Qed.

(** ** C04 -- the owner can follow the content from the calls it receives. *)

(** The number of items equal to [x] after any history is the number before plus
    reported additions minus reported removals ... *)
Theorem C04_owned_list_ledger :
  forall (A : Type) (eqb : A -> A -> bool), equivb eqb ->
  forall (x : A) (os : list (lop A)) (l : list A),
    Forall repeatable_argument os ->
    let '(_, content, calls) := owned_run eqb os l in
    count eqb x content = count eqb x l + tally eqb x calls.
Proof. exact owned_run_balance. Qed.
Print Assumptions C04_owned_list_ledger.

(** ... except when the list is extended with itself (reported twice) or a slice is
    assigned from a one-shot iterator (not reported at all). *)
Theorem C04_owned_list_ledger_refuted :
  (exists l : list Z,
     let '(_, content, calls) := owned_step Z.eqb (LExtend ItSelf) l in
     count Z.eqb 1 content <> count Z.eqb 1 l + tally Z.eqb 1 calls)
  /\ (exists (l xs : list Z) (s : slice),
     let '(_, content, calls) := owned_step Z.eqb (LSetSlice s (ItOnce xs)) l in
     count Z.eqb 1 content <> count Z.eqb 1 l + tally Z.eqb 1 calls).
Proof. exact owned_ledger_counterexamples. Qed.
Print Assumptions C04_owned_list_ledger_refuted.

(** Each operation warns the owner once, before the change, and reports after it;
    an operation that calls nobody changed nothing. *)
Theorem C04_owned_list_warns_before_change :
  forall (A : Type) (eqb : A -> A -> bool) (o : lop A) (l : list A),
    let '(_, content, calls) := owned_step eqb o l in
    warned_first l content calls.
Proof. exact owned_step_warns. Qed.
Print Assumptions C04_owned_list_warns_before_change.

(** The reported index is where the added value is, for every operation that
    satisfies [index_reported] ... *)
Theorem C04_owned_list_index :
  forall (A : Type) (eqb : A -> A -> bool) (o : lop A) (l : list A),
    repeatable_argument o -> index_reported o l ->
    let '(_, _, calls) := owned_step eqb o l in
    adds_located calls.
Proof. exact owned_step_locates. Qed.
Print Assumptions C04_owned_list_index.

(** ... and not for the others: [insert] with a negative index reports that
    negative index, and [l[::-1] = ...] reports indexes past the end. *)
Theorem C04_owned_list_index_refuted :
  (exists (l : list Z) (i x : Z),
     let '(_, _, calls) := owned_step Z.eqb (LInsert i x) l in ~ adds_located calls)
  /\ (exists (l : list Z) (s : slice) (xs : list Z),
     let '(_, _, calls) := owned_step Z.eqb (LSetSlice s (ItList xs)) l in ~ adds_located calls).
Proof. exact owned_index_counterexamples. Qed.
Print Assumptions C04_owned_list_index_refuted.

Definition C04_history : list (lop Z) :=
  [LAppend 4; LSetInt (-1) 1; LDelInt 0; LExtend (ItList [1; 5]); LIMul 2].

Example C04_case_ledger :
  Forall repeatable_argument C04_history /\
  let '(_, content, calls) := owned_run Z.eqb C04_history [1; 2] in
  content = [2; 1; 1; 5; 2; 1; 1; 5] /\ count Z.eqb 1 content = 4 /\ tally Z.eqb 1 calls = 3.
Proof. split; [repeat (apply Forall_cons; [exact I|]); apply Forall_nil|vm_compute; auto]. Qed.

Definition C04_backwards : lop Z :=
  LSetSlice {| sl_start := Some (-1); sl_stop := None; sl_step := Some (-2) |} (ItList [8; 9]).

Example C04_case_index :
  repeatable_argument C04_backwards /\ index_reported C04_backwards [1; 2; 3]
  /\ snd (owned_step Z.eqb C04_backwards [1; 2; 3])
     = [(CWill, [1; 2; 3]); (CDel (Some 3), [9; 2; 8]); (CDel (Some 1), [9; 2; 8]);
        (CAdd 2 8, [9; 2; 8]); (CAdd 0 9, [9; 2; 8])].
Proof.
  split; [exact I|split; [right; exists (-1); cbn; split; [reflexivity|lia]|vm_compute; reflexivity]].
Qed.
