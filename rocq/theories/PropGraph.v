(** PropGraph.v -- C40: validation of graphs of objects. *)
From Verif Require Import Base Mon PyList PyDict KeypathModel Values OGraphModel MGraphModel ChainModel TypesModel ObjModel ObjExample IoModel
  IoBase IoExample Sound Keep TameSpec TameProofs GraphSpec GraphProofs.
From Verif Require LeafModel.
Open Scope string_scope.
Open Scope list_scope.

(** Validation finishes on every graph of objects, however cyclic, in recursion whose
    depth is bounded by the number of the objects and the nesting of the types; and it
    leaves every object as it was. *)
Theorem C40_validate_terminates :
  forall (P : program) (D : nat) (w : world) (o : oid) (all : option bool) (n : nat),
    calm P -> ending P -> tame_classes D P -> finite_graph P (w_heap w) ->
    (2 + h_next (w_heap w) * (2 + D) <= n)%nat ->
    fst (validate P n o all w) <> Err ERecursion /\ w_heap (snd (validate P n o all w)) = w_heap w.
Proof.
  intros P D w o all n C E T F L. unfold validate, bind, getW, with_new_mgraph.
  match goal with |- context [m_validate (self_mod P n ?cls) ?c ?w0] =>
    pose proof (ends_validate P D (w_heap w) C E T F n 1 (MInstance cls) c [MInstance cls] w0) as H;
    unfold self_mod; destruct (m_validate (interp P n (MInstance cls)) c w0) as [r w1] end.
  cbn [fst snd] in *. destruct H as [H1 H2]; try reflexivity; [intros x [<- | []]; exact Logic.I | unfold vfuel; lia | split; assumption].
Qed.
Print Assumptions C40_validate_terminates.

(** The same for is_valid. *)
Theorem C40_is_valid_terminates :
  forall (P : program) (D : nat) (w : world) (o : oid) (n : nat),
    calm P -> ending P -> tame_classes D P -> finite_graph P (w_heap w) ->
    (2 + h_next (w_heap w) * (2 + D) <= n)%nat ->
    fst (is_valid P n o w) <> Err ERecursion /\ w_heap (snd (is_valid P n o w)) = w_heap w.
Proof.
  intros P D w o n C E T F L. destruct (C40_validate_terminates P D w o (Some false) n C E T F L) as [H1 H2].
  unfold is_valid, on_validation, seq, bind. destruct (validate P n o (Some false) w) as [[u | e] w1]; cbn [fst snd] in *.
  - split; [discriminate | exact H2].
  - destruct e; cbn; (split; [| exact H2]); try discriminate; contradiction H1; reflexivity.
Qed.
Print Assumptions C40_is_valid_terminates.

(** Each object is visited at most once: a validator that is attached to fields of classes
    (and given nowhere else) is called at most once for each object and each place where it
    is attached, on every graph and however often the objects refer to each other. *)
Theorem C40_each_object_once :
  forall (P : program) (D : nat) (f : cbid) (w : world) (o : oid) (all : option bool) (n : nat),
    calm P -> tame_classes D P -> finite_graph P (w_heap w) ->
    (forall cls d fl m, p_ct P cls = Some d -> In fl (cd_fields d) -> In m (fl_types fl) ->
       uses D f m -> checks_with f m = true) ->
    (checks f (snd (validate P n o all w)) <= checks f w + once_for_each_object P f (w_heap w))%nat.
Proof.
  intros P D f w o all n C T F U. unfold validate, bind, getW, with_new_mgraph.
  match goal with |- context [m_validate (self_mod P n ?cls) ?c ?w0] =>
    pose proof (once_validate P D (w_heap w) f C T F U n o c w0) as H;
    unfold self_mod, wclass, wobj in *; destruct (m_validate (interp P n (MInstance _)) c w0) as [r w1] end.
  cbn [fst snd] in *. specialize (H eq_refl eq_refl).
  change (checks f (set_mg (w_mg w) w1)) with (checks f w1).
  eapply Nat.le_trans; [exact H |]. unfold spent. change (checks f (set_mg [] w)) with (checks f w).
  apply Nat.add_le_mono_l. apply (total_le (fun _ => true)). reflexivity.
Qed.
Print Assumptions C40_each_object_once.

(** A ring of three objects, each of which also lists all three *)
Definition c_node : cdef := mkc "Node"
  [ f_id;
    mkf "name" "name_id" [tstr; MValidate (PCall 1%nat) None];
    mkf "next" "next_id" [MInstance "Node"];
    mkf "all" "all_ids" [MListOf [MInstance "Node"]] ].
Definition ring_ct (c : string) : option cdef := if String.eqb c "Node" then Some c_node else None.
Definition ring_prog : program := mkprog ring_ct no_guards no_hooks.
Definition ring_node (id : Z) (next : oid) : obj :=
  {| o_class := "Node";
     o_attr := fun n => if String.eqb n "id" then Some (VInt id)
                        else if String.eqb n "name" then Some (VStr "n")
                        else if String.eqb n "next" then Some (VObj next)
                        else if String.eqb n "all" then Some (VList [VObj 0%nat; VObj 1%nat; VObj 2%nat]) else None;
     o_new := true; o_modified := false; o_mfields := []; o_prev := []; o_lkeys := [];
     o_raw := []; o_unlinked := []; o_operator := VNone |}.
Definition ring_heap : heap :=
  {| h_obj := fun o => match o with 0%nat => ring_node 65 1%nat | 1%nat => ring_node 66 2%nat | 2%nat => ring_node 67 0%nat
                       | _ => ex_obj "" 0 [] true end;
     h_next := 3%nat; h_graph := h_graph (ex_heap true) |}.

Lemma mkprog_calm ct g k : calm (mkprog ct g k).
Proof. intros f c args h. cbn. do 5 (destruct f as [| f]; [reflexivity |]). reflexivity. Qed.
Lemma mkprog_ending ct g k : ending (mkprog ct g k).
Proof.
  split; [discriminate | | discriminate]. intros f c args h. cbn. do 5 (destruct f as [| f]; [discriminate |]). discriminate.
Qed.
(** [tame] by computation *)
Fixpoint flatb (d : nat) (m : mdf) : bool :=
  match d with
  | O => false
  | S d => match m with
           | MInstance _ | MListOf _ | MDictOf _ | MUnion _ => false
           | _ => forallb (fun p => match p with PTypes ts => forallb (flatb d) ts | _ => true end) (params_of m)
           end
  end.
Fixpoint tameb (d : nat) (m : mdf) : bool :=
  match d with
  | O => false
  | S d' => match m with
            | MInstance _ => true
            | MListOf ts | MDictOf ts => forallb (tameb d') ts
            | MUnion us => forallb (forallb (tameb d')) us
            | _ => flatb d m
            end
  end.
Lemma flat_b d : forall m, flatb d m = true -> flat d m.
Proof.
  induction d as [| d IH]; intros m H; [discriminate H |].
  destruct m; cbn [flatb flat] in *; try discriminate H; intros us Hp x Hx;
    (rewrite forallb_forall in H; specialize (H _ Hp); cbn beta iota in H; rewrite forallb_forall in H; apply IH, H, Hx).
Qed.
Lemma tame_b d : forall m, tameb d m = true -> tame d m.
Proof.
  induction d as [| d IH]; intros m H; [discriminate H |].
  destruct m; cbn [tameb tame] in *; try exact Logic.I; try (apply flat_b; exact H);
    try (intros x Hx; rewrite forallb_forall in H; apply IH, H, Hx).
  intros us x Hu Hx. rewrite forallb_forall in H. specialize (H _ Hu). rewrite forallb_forall in H. apply IH, H, Hx.
Qed.
Lemma ring_tame : tame_classes 3 ring_prog.
Proof.
  intros cls c f m Hc Hf Hm. apply tame_b. cbn in Hc. unfold ring_ct in Hc. destruct (String.eqb cls "Node"); [| discriminate Hc].
  inversion Hc; subst c. clear Hc. cbn in Hf.
  repeat (destruct Hf as [<- | Hf];
    [cbn in Hm; repeat (destruct Hm as [<- | Hm]; [reflexivity |]); contradiction |]).
  contradiction.
Qed.
Lemma ring_finite : finite_graph ring_prog ring_heap.
Proof. intros o H. do 3 (destruct o as [| o]; [cbn; lia |]). exfalso. apply H. reflexivity. Qed.
(** [uses] by computation *)
Fixpoint usesb (d : nat) (f : cbid) (m : mdf) : bool :=
  match d with
  | O => false
  | S d => existsb (Nat.eqb f) (own_calls m) || existsb (existsb (usesb d f)) (chains_of m)
  end.
Lemma uses_b d f : forall m, uses d f m -> usesb d f m = true.
Proof.
  induction d as [| d IH]; intros m H; [contradiction |]. cbn in *. apply Bool.orb_true_iff. destruct H as [H | (ts & x & H1 & H2 & H3)].
  - left. apply existsb_exists. exists f. split; [exact H | apply Nat.eqb_refl].
  - right. apply existsb_exists. exists ts. split; [exact H1 |]. apply existsb_exists. exists x. split; [exact H2 | apply IH, H3].
Qed.
Lemma ring_only : forall cls d fl m, p_ct ring_prog cls = Some d -> In fl (cd_fields d) -> In m (fl_types fl) ->
  uses 3 1%nat m -> checks_with 1%nat m = true.
Proof.
  intros cls c f m Hc Hf Hm. cbn in Hc. unfold ring_ct in Hc. destruct (String.eqb cls "Node"); [| discriminate Hc].
  inversion Hc; subst c. clear Hc. cbn in Hf.
  repeat (destruct Hf as [<- | Hf];
    [cbn in Hm; repeat (destruct Hm as [<- | Hm]; [try reflexivity; intros U; apply uses_b in U; vm_compute in U; discriminate U |]); contradiction |]).
  contradiction.
Qed.
Example C40_ring :
  calm ring_prog /\ ending ring_prog /\ tame_classes 3 ring_prog /\ finite_graph ring_prog ring_heap /\
  once_for_each_object ring_prog 1%nat ring_heap = 3%nat /\
  fst (validate ring_prog 17 0%nat None (mkw ring_heap)) = Ok tt /\
  checks 1%nat (snd (validate ring_prog 17 0%nat None (mkw ring_heap))) = 3%nat.
Proof.
  split; [apply mkprog_calm |]. split; [apply mkprog_ending |]. split; [exact ring_tame |]. split; [exact ring_finite |].
  repeat split; vm_compute; reflexivity.
Qed.
