(** PropCalcField.v -- C83: fields that are calculated by types *)
From Coq Require Import Lia ZArith.
From Verif Require Import Base Mon KeypathModel Values ChainModel TypesModel ObjModel ObjExample IoModel IoExample IoBase
  CalcModel CalcSpec CalcProofs.
From Verif Require LeafModel.
Open Scope list_scope.
Open Scope string_scope.

Section C83.
  Context (B : program) (n : nat) (getters : string -> string -> option getdef)
          (setters : string -> string -> option setdef).
  (** [n] bounds how deeply modifiers hold others, [p_lim] and [k] how deeply calls nest. *)
  Hypothesis Hn : n <> O.
  Hypothesis HL : p_lim B <> O.
  Notation Q := (calc_prog B n getters setters).

  (** Assigning to a field with the setter [types.this.assign(b, types.passin...)] is
      assigning what the steps make of the value to [b], whatever [b] is; if they raise,
      nothing changes. *)
  Theorem C83_assign : forall k o name v w b qs,
    calc_field B (w_heap w) o name true ->
    setters (o_class (h_obj (w_heap w) o)) name = Some (SPipe [PMod MThis; PAssign b (APipe (PMod MPassin :: qs))]) ->
    (forall r, computes (Q k) n qs v r -> setattr (Q (S k)) o name v w = setattr (Q k) o b r w) /\
    (forall e, raises (Q k) n qs v e -> setattr (Q (S k)) o name v w = (Err e, w)).
  Proof.
    intros k o name v w b qs Hc Hs. split.
    - intros r Hr. apply (calc_assign B n getters setters k o name v w b qs r); assumption.
    - intros e He. apply (calc_assign_err B n getters setters k o name v w b qs e); assumption.
  Qed.

  (** Through any number of setters, the one data field at the end is assigned, and nothing
      else. *)
  Theorem C83_only_base : forall k o w name v b r,
    comes_to B n getters setters (w_heap w) o k name v b r ->
    exists h', setattr (Q k) o name v w = (Ok tt, set_heap h' w) /\ assigned B (w_heap w) o b r h'.
  Proof. intros. apply comes_to_set; assumption. Qed.

  (** A calculated field shows what is kept at present. *)
  Theorem C83_read : forall k o w name u b x,
    comes_from B n getters setters (w_heap w) o k name u b x ->
    attr (w_heap w) o b = Some x ->
    getattr (Q k) o name w = (Ok u, w).
  Proof. intros k o w name u b x. apply comes_from_get; assumption. Qed.

  (** A calculated field whose getter undoes its setter reads as what was assigned. *)
  Theorem C83_put_get : forall k o w name v b r,
    comes_to B n getters setters (w_heap w) o k name v b r ->
    comes_from B n getters setters (w_heap w) o k name v b r ->
    ~ holds B (w_heap w) o b r ->
    exists h', setattr (Q k) o name v w = (Ok tt, set_heap h' w)
               /\ getattr (Q k) o name (set_heap h' w) = (Ok v, set_heap h' w).
  Proof.
    intros k o w name v b r H1 H2 H3.
    destruct (comes_to_set B n getters setters k o w Hn HL name v b r H1) as [h' [E A]].
    exists h'. split; [exact E|].
    apply (comes_from_get B n getters setters k o (set_heap h' w) Hn name v b r).
    - cbn [w_heap set_heap]. apply (same_from B n getters setters (w_heap w) h' o);
        [apply (ad_class _ _ _ _ _ _ A)|apply (ad_keys _ _ _ _ _ _ A)| |exact H2].
      intros a Ha. destruct (String.eqb_spec a b) as [->|Hne].
      + rewrite (ad_value _ _ _ _ _ _ A H3). discriminate.
      + rewrite (ad_attrs _ _ _ _ _ _ A a Hne). exact Ha.
    - apply (ad_value _ _ _ _ _ _ A H3).
  Qed.

  (** Without a setter, an assignment raises and changes nothing. *)
  Theorem C83_readonly : forall k o name v w,
    calc_field B (w_heap w) o name false -> setattr (Q k) o name v w = (Err EReadonlyCalc, w).
  Proof. intros. apply readonly; assumption. Qed.

  (** If the fields can be ranked, reading ends for every object, at whatever depth of
      recursion above the rank; *)
  Theorem C83_ends : forall rank, ranked B n getters setters rank ->
    forall k o name w, (rank name < k)%nat -> fst (getattr (Q k) o name w) <> Err ERecursion.
  Proof.
    intros rank HR k o name w Hk.
    rewrite (getattr_world (Q k) o name w (world_of (w_heap w)) eq_refl).
    apply (ranked_ends B n getters setters rank); assumption.
  Qed.
  (** in a circle it never does, whatever the limit. *)
  Theorem C83_circle : forall k o w names, circle B getters (w_heap w) o names ->
    forall a, names a -> getattr (Q k) o a w = (Err ERecursion, w).
  Proof. intros k o w names. apply circle_ends; assumption. Qed.
End C83.
Print Assumptions C83_assign.
Print Assumptions C83_only_base.
Print Assumptions C83_read.
Print Assumptions C83_put_get.
Print Assumptions C83_readonly.
Print Assumptions C83_ends.
Print Assumptions C83_circle.

(** A class [Score]: [base] is kept; [total] is [base + 10] and [more] is [total + 5], both
    with setters; [shown] is [more * 2], without; [a] and [b] read each other. *)
Definition sc_arith (op : LeafModel.arith) (x : Z) : pstep := PMod (MLeaf (LeafModel.LArith op (PVal (VInt x)))).
Definition sc_getters (cls name : string) : option getdef :=
  let g b ps := Some (GPipe (PMod MThis :: PFval b :: ps)) in
  if String.eqb name "total" then g "base" [sc_arith LeafModel.AAdd 10]
  else if String.eqb name "more" then g "total" [sc_arith LeafModel.AAdd 5]
  else if String.eqb name "shown" then g "more" [sc_arith LeafModel.AMul 2]
  else if String.eqb name "a" then g "b" []
  else if String.eqb name "b" then g "a" [sc_arith LeafModel.AAdd 1]
  else None.
Definition sc_setters (cls name : string) : option setdef :=
  let s b ps := Some (SPipe [PMod MThis; PAssign b (APipe (PMod MPassin :: ps))]) in
  if String.eqb name "total" then s "base" [sc_arith LeafModel.ASub 10]
  else if String.eqb name "more" then s "total" [sc_arith LeafModel.ASub 5]
  else None.
Definition sc_class : cdef := mkc "Score"
  [ f_id; mkf "base" "base_id" [tint]; mkf "note" "note_id" [tstr];
    mkf "total" "total_id" [tint; MGetter 0%nat; MSetter 0%nat]; mkf "more" "more_id" [tint; MGetter 0%nat; MSetter 0%nat];
    mkf "shown" "shown_id" [tint; MGetter 0%nat]; mkf "a" "a_id" [tint; MGetter 0%nat]; mkf "b" "b_id" [tint; MGetter 0%nat] ].
Definition sc_ct (c : string) : option cdef := if String.eqb c "Score" then Some sc_class else None.
Definition sc_prog : program := mkprog sc_ct no_guards no_hooks.
Definition sc_obj : obj :=
  {| o_class := "Score";
     o_attr := fun a => if String.eqb a "base" then Some (VInt 1) else if String.eqb a "note" then Some (VStr "x") else
                        if String.eqb a "id" then Some (VInt 7) else None;
     o_new := false; o_modified := false; o_mfields := []; o_prev := []; o_lkeys := []; o_raw := [];
     o_unlinked := []; o_operator := VNone |}.
Definition sc_heap : heap := {| h_obj := fun _ => sc_obj; h_next := 1%nat; h_graph := h_graph (ex_heap true) |}.
Definition sc_world : world := mkw sc_heap.
Notation SQ := (calc_prog sc_prog 3%nat sc_getters sc_setters).

Lemma sc_add k x y : computes (SQ k) 3%nat [sc_arith LeafModel.AAdd x] (VInt y) (VInt (x + y)).
Proof. intros c w. destruct k; reflexivity. Qed.
Lemma sc_sub k x y : computes (SQ k) 3%nat [sc_arith LeafModel.ASub x] (VInt y) (VInt (y - x)).
Proof. intros c w. destruct k; reflexivity. Qed.
Lemma sc_base : data_field sc_prog sc_heap 0%nat "base".
Proof. constructor; [eexists; split; [reflexivity|split; reflexivity]|discriminate|reflexivity]. Qed.
Lemma sc_calc name : name = "total" \/ name = "more" -> calc_field sc_prog sc_heap 0%nat name true.
Proof.
  intros [->| ->]; (constructor; [eexists; split; [reflexivity|split; [reflexivity|split; discriminate]]|reflexivity]).
Qed.

(** [more = 115] comes to [base = 100], *)
Example C83_score_to : comes_to sc_prog 3%nat sc_getters sc_setters sc_heap 0%nat 2%nat "more" (VInt 115) "base" (VInt 100).
Proof.
  apply (co_next _ _ _ _ _ _ 1%nat "more" (VInt 115) "total" [sc_arith LeafModel.ASub 5] (VInt 110));
    [apply sc_calc; tauto|reflexivity|apply (sc_sub 1%nat 5 115)|].
  apply (co_next _ _ _ _ _ _ 0%nat "total" (VInt 110) "base" [sc_arith LeafModel.ASub 10] (VInt 100));
    [apply sc_calc; tauto|reflexivity|apply (sc_sub 0%nat 10 110)|].
  apply co_here, sc_base.
Qed.
Example C83_score_from : comes_from sc_prog 3%nat sc_getters sc_setters sc_heap 0%nat 2%nat "more" (VInt 115) "base" (VInt 100).
Proof.
  apply (cf_next _ _ _ _ _ _ 1%nat "more" (VInt 115) "base" (VInt 100) "total" [sc_arith LeafModel.AAdd 5] (VInt 110));
    [exists true; apply sc_calc; tauto|reflexivity| |apply (sc_add 1%nat 5 110)].
  apply (cf_next _ _ _ _ _ _ 0%nat "total" (VInt 110) "base" (VInt 100) "base" [sc_arith LeafModel.AAdd 10] (VInt 100));
    [exists true; apply sc_calc; tauto|reflexivity|apply cf_here, sc_base|apply (sc_add 0%nat 10 100)].
Qed.
Example C83_score_new : ~ holds sc_prog sc_heap 0%nat "base" (VInt 100).
Proof. intros [cur [E1 E2]]. injection E1 as <-. discriminate E2. Qed.
(** so after it [more] is 115 and [base], alone listed as modified, 100. *)
Example C83_score : exists h',
  setattr (SQ 2%nat) 0%nat "more" (VInt 115) sc_world = (Ok tt, set_heap h' sc_world)
  /\ getattr (SQ 2%nat) 0%nat "more" (set_heap h' sc_world) = (Ok (VInt 115), set_heap h' sc_world)
  /\ attr h' 0%nat "base" = Some (VInt 100) /\ attr h' 0%nat "note" = Some (VStr "x")
  /\ (forall a, In a (o_mfields (h_obj h' 0%nat)) <-> a = "base").
Proof.
  assert (L : p_lim sc_prog <> O) by discriminate.
  assert (N : 3%nat <> O) by discriminate.
  destruct (C83_put_get sc_prog 3%nat sc_getters sc_setters N L 2%nat 0%nat sc_world _ _ _ _ C83_score_to C83_score_from C83_score_new)
    as [h' [E1 E2]].
  destruct (C83_only_base sc_prog 3%nat sc_getters sc_setters N L 2%nat 0%nat sc_world _ _ _ _ C83_score_to)
    as [h2 [E3 A]].
  rewrite E1 in E3. injection E3 as <-.
  exists h'. split; [exact E1|]. split; [exact E2|].
  split; [apply (ad_value _ _ _ _ _ _ A C83_score_new)|].
  split; [rewrite (ad_attrs _ _ _ _ _ _ A "note") by discriminate; reflexivity|].
  intros a. rewrite (ad_listed _ _ _ _ _ _ A a). split.
  - intros [K|[K _]]; [destruct K|exact K].
  - intros ->. right. split; [reflexivity|]. split; [reflexivity|exact C83_score_new].
Qed.
(** [shown] cannot be assigned; *)
Example C83_score_shown : calc_field sc_prog sc_heap 0%nat "shown" false.
Proof. constructor; [eexists; split; [reflexivity|split; [reflexivity|split; reflexivity]]|reflexivity]. Qed.
(** [a] and [b] go in a circle; *)
Example C83_score_circle : circle sc_prog sc_getters sc_heap 0%nat (fun a => a = "a" \/ a = "b").
Proof.
  intros a [->| ->]; (split; [constructor; [eexists; split; [reflexivity|split; [reflexivity|split; reflexivity]]|reflexivity]|]).
  - exists "b", []. split; [reflexivity|tauto].
  - exists "a", [sc_arith LeafModel.AAdd 1]. split; [reflexivity|tauto].
Qed.
(** without them the fields can be ranked. *)
Definition sc_getters_flat (cls name : string) : option getdef :=
  if (String.eqb name "a" || String.eqb name "b")%bool then None else sc_getters cls name.
Example C83_score_ranked : ranked sc_prog 3%nat sc_getters_flat sc_setters
  (fun a => if String.eqb a "total" then 1%nat else if String.eqb a "more" then 2%nat else if String.eqb a "shown" then 3%nat else 0%nat).
Proof.
  assert (Hm : forall op x k c w, fst (m_transform (interp (calc_prog sc_prog 3%nat sc_getters_flat sc_setters k) 3%nat
                 (MLeaf (LeafModel.LArith op (PVal (VInt x))))) c w) <> Err ERecursion).
  { intros op x k c w. destruct k; cbn; destruct (c_val c); destruct op; cbn;
      repeat (match goal with |- context [if ?b then _ else _] => destruct b end); discriminate. }
  constructor.
  - intros cls name. unfold sc_getters_flat.
    destruct (String.eqb_spec name "a") as [->|Na]; [exact Logic.I|].
    destruct (String.eqb_spec name "b") as [->|Nb]; [exact Logic.I|]. cbn [orb]. unfold sc_getters.
    apply String.eqb_neq in Na, Nb.
    destruct (String.eqb_spec name "total") as [->|_]; [|destruct (String.eqb_spec name "more") as [->|_];
      [|destruct (String.eqb_spec name "shown") as [->|_]; [|rewrite Na, Nb]]].
    all: try exact Logic.I.
    all: intros s Hs.
    all: repeat (destruct Hs as [<-|Hs]; [|]); try destruct Hs.
    all: (split; [|cbn [reads]; intros a Ha; (discriminate Ha || (injection Ha as <-; vm_compute; lia))]).
    all: try exact Logic.I; try (intros k c w; apply Hm).
    all: intros k c w; destruct k; discriminate.
  - intros h o b f g E1 E2 E3. exfalso.
    unfold ofield, cdef_of in E1. cbn [p_ct sc_prog mkprog] in E1. unfold sc_ct in E1.
    destruct (String.eqb (o_class (h_obj h o)) "Score").
    + apply ObjTrack.field_named_in in E1. destruct E1 as [Hin _].
      cbn [cd_fields sc_class mkc] in Hin.
      repeat (destruct Hin as [<-|Hin]; [discriminate E2|]). destruct Hin.
    + discriminate E1.
Qed.
