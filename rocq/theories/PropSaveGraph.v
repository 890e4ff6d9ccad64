(** PropSaveGraph.v -- C56: preparing graphs of objects for saving. *)
From Verif Require Import Base Mon PyList PyDict KeypathModel Values OGraphModel MGraphModel ChainModel TypesModel ObjModel ObjSpec ObjExample IoModel
  IoBase IoExample Sound Keep TameSpec TameProofs GraphSpec GraphProofs PropGraph OnsaveSpec PropOnsave WriteSpec SaveGraphSpec SaveGraphProofs.
From Verif Require LeafModel WriteFrame.
Open Scope string_scope.
Open Scope list_scope.

(** Preparing an object for saving finishes on every graph of objects, however cyclic, in
    recursion whose depth is bounded by the number of the objects and the nesting of the types. *)
Theorem C56_prepare_terminates :
  forall (P : program) (D : nat) (w : world) (o : oid) (n : nat),
    gentle P -> plain_keys P -> ending P -> tame_classes D P ->
    keys_apart P (w_heap w) -> finite_graph P (w_heap w) -> assignments_end P (w_heap w) ->
    (2 + h_next (w_heap w) * (2 + D) <= n)%nat ->
    fst (set_on_save P n o w) <> Err ERecursion.
Proof.
  intros P D w o n G PK E T KA F A L. apply (prepare_ends P D G PK E T n o w KA F A). unfold vfuel. lia.
Qed.
Print Assumptions C56_prepare_terminates.

(** Each object is prepared at most once: a callable that sets fields on save, or is called
    back on save, and is given nowhere else, is called at most once for each object and each
    place where it is attached, on every graph and however often the objects refer to each other. *)
Theorem C56_each_object_once :
  forall (P : program) (D : nat) (f : cbid) (w : world) (o : oid) (n : nat),
    gentle P -> plain_keys P -> tame_classes D P ->
    keys_apart P (w_heap w) -> finite_graph P (w_heap w) ->
    (forall cls d fl m, p_ct P cls = Some d -> In fl (cd_fields d) -> In m (fl_types fl) ->
       uses D f m -> saves_with f m = true) ->
    (forall cls d fl, p_ct P cls = Some d -> In fl (cd_fields d) -> eager_first (fl_types fl)) ->
    (saves f (snd (set_on_save P n o w)) <= saves f w + once_for_each P f (w_heap w))%nat.
Proof. intros P D f w o n G PK T KA F U EF. exact (prepare_once P D f G PK T U EF n o w KA F). Qed.
Print Assumptions C56_each_object_once.

(** ** Examples *)
(** Assignments end where no field is a reference and no object has stored keys. *)
Lemma embedded_assignments_end P h :
  (forall cls d f, p_ct P cls = Some d -> In f (cd_fields d) -> is_ref (fl_fdef f) = false) ->
  (forall x, o_lkeys (h_obj h x) = []) ->
  (forall h' o n, p_getter P h' o n <> Err ERecursion) ->
  (forall o n v h', fst (p_setter P o n v h') <> Err ERecursion) -> p_lim P <> 0%nat ->
  assignments_end P h.
Proof.
  intros NR NL GT SE LM o n v h' Sh. destruct (p_lim P) as [| lim]; [contradiction LM; reflexivity |].
  cbn [run body]. unfold set_attribute, bind at 1, gets at 1. cbn beta iota.
  unfold local_field_of. destruct (Sh o) as [_ ->]. rewrite NL. cbn [sget dget].
  unfold bind at 1, gets at 1. cbn beta iota.
  destruct (ofield (p_ct P) h' o n) as [f |] eqn:Ef; [| discriminate].
  assert (R : is_ref (fl_fdef f) = false).
  { unfold ofield, cdef_of in Ef. destruct (p_ct P (o_class (h_obj h' o))) as [d |] eqn:Ed; [| discriminate Ef].
    unfold field_named in Ef. apply find_some in Ef. apply (NR _ _ _ Ed). apply in_rev. apply Ef. }
  unfold set_field. destruct (is_calc f). { destruct (f_setter (fl_fdef f)); [apply SE | discriminate]. }
  rewrite R. unfold bind at 1, gets at 1. cbn beta iota. unfold bind at 1, gets at 1. cbn beta iota.
  match goal with |- context [if ?b then ret tt else _] => destruct b end; [discriminate |].
  unfold bind at 1, gets at 1. cbn beta iota.
  destruct (o_new (h_obj h' o)); [discriminate |].
  unfold mark, remember, updm, modify, seq, gets, bind, ret. cbn beta iota.
  destruct (resettable _ _ _ _); [| discriminate].
  match goal with |- context [if ?b then _ else _] => destruct b end; [discriminate |].
  unfold ObjModel.getattr.
  match goal with |- context [ofield ?a ?b ?c ?d] => destruct (ofield a b c d) as [g |] end; [destruct (is_calc g) |];
    try (match goal with |- context [match attr ?a ?b ?c with _ => _ end] => destruct (attr a b c) end; discriminate).
  match goal with |- context [p_getter P ?a ?b ?c] => pose proof (GT a b c) as GH; destruct (p_getter P a b c) as [x | e] end; [discriminate |].
  cbn. intros X. inversion X; subst. exact (GH eq_refl).
Qed.

(** A ring of three new objects, each of which also lists all three; a number is set on save. *)
Definition c_snode (key n : field) : cdef :=
  mkc "Node" [key; n; mkf "next" "next_id" [MInstance "Node"]; mkf "all" "all_ids" [MListOf [MInstance "Node"]]].
Definition sring_ct (key n : field) (c : string) : option cdef := if String.eqb c "Node" then Some (c_snode key n) else None.
Definition sring_prog (key n : field) : program := mkprog (sring_ct key n) no_guards no_hooks.
Definition sring_node (id : Z) (next : oid) : obj :=
  on_obj "Node" [("id", VInt id); ("n", VInt 1); ("next", VObj next); ("all", VList [VObj 0%nat; VObj 1%nat; VObj 2%nat])] true false.
Definition sring_heap : heap :=
  {| h_obj := fun o => match o with 0%nat => sring_node 65 1%nat | 1%nat => sring_node 66 2%nat | 2%nat => sring_node 67 0%nat
                       | _ => on_obj "" [] true false end;
     h_next := 3%nat; h_graph := h_graph (ex_heap true) |}.
Definition srun (key n : field) := set_on_save (sring_prog key n) 20 0%nat (mkw sring_heap).

(** a number that is set on save *)
Definition f_n : field := mkf "n" "n_id" [tint; MPreserialize; MSetonsave (PCall 4%nat) false].

Lemma sring_class key n cls d : p_ct (sring_prog key n) cls = Some d -> d = c_snode key n.
Proof. cbn. unfold sring_ct. destruct (String.eqb cls "Node"); [| discriminate]. intros H. inversion H. reflexivity. Qed.
Lemma mkprog_gentle ct g k : gentle (mkprog ct g k).
Proof.
  split.
  - intros f c args h x. rewrite (mkprog_calm ct g k f c args h). repeat apply conj; auto.
  - intros o n v h x. cbn. repeat apply conj; auto.
Qed.
Lemma sring_key k : key_name (sring_prog f_id f_n) k -> k = "id".
Proof. intros (cls & d & f & Hc & Hp & <-). apply sring_class in Hc. subst d. cbn in Hp. inversion Hp. reflexivity. Qed.
Lemma sring_plain_keys : plain_keys (sring_prog f_id f_n).
Proof.
  split.
  - intros cls d Hc. apply sring_class in Hc. subst d. cbn. repeat constructor; cbn; intuition discriminate.
  - intros cls d f Hc Hp. apply sring_class in Hc. subst d. cbn in Hp. inversion Hp. reflexivity.
  - intros cls d f m Hc Hp. apply sring_class in Hc. subst d. cbn in Hp. inversion Hp; subst f. cbn. intros [<- | [<- | []]]; reflexivity.
  - intros k Hk. apply sring_key in Hk. subst k. apply WriteFrame.own_data; intros cls d g Hc Hg; apply sring_class in Hc; subst d; cbn in Hg;
      repeat (destruct Hg as [<- | Hg]; [intros E; vm_compute in E; try discriminate E; reflexivity |]); contradiction.
Qed.
Lemma sring_apart : keys_apart (sring_prog f_id f_n) sring_heap.
Proof. intros x k _. do 3 (destruct x as [| x]; [split; [reflexivity | intros lab; discriminate] |]). split; [reflexivity | intros lab; discriminate]. Qed.
Lemma sring_finite : finite_graph (sring_prog f_id f_n) sring_heap.
Proof. intros o H. do 3 (destruct o as [| o]; [cbn; lia |]). exfalso. apply H. reflexivity. Qed.
Lemma sring_tame : tame_classes 3 (sring_prog f_id f_n).
Proof.
  intros cls c f m Hc Hf Hm. apply tame_b. apply sring_class in Hc. subst c. cbn in Hf.
  repeat (destruct Hf as [<- | Hf];
    [cbn in Hm; repeat (destruct Hm as [<- | Hm]; [reflexivity |]); contradiction |]).
  contradiction.
Qed.
Lemma sring_assignments_end : assignments_end (sring_prog f_id f_n) sring_heap.
Proof.
  apply embedded_assignments_end; try discriminate.
  - intros cls d f Hc Hf. apply sring_class in Hc. subst d. cbn in Hf. repeat (destruct Hf as [<- | Hf]; [reflexivity |]). contradiction.
  - intros x. do 3 (destruct x as [| x]; [reflexivity |]). reflexivity.
Qed.
Example C56_ring_ends : forall n o, (17 <= n)%nat -> fst (set_on_save (sring_prog f_id f_n) n o (mkw sring_heap)) <> Err ERecursion.
Proof.
  intros n o L. apply (C56_prepare_terminates _ 3); [apply mkprog_gentle | apply sring_plain_keys | apply mkprog_ending | apply sring_tame |
    apply sring_apart | apply sring_finite | apply sring_assignments_end | cbn; lia].
Qed.
Example C56_ring_once : forall n o, (saves 4%nat (snd (set_on_save (sring_prog f_id f_n) n o (mkw sring_heap))) <= 3)%nat.
Proof.
  intros n o. change 3%nat with (saves 4%nat (mkw sring_heap) + once_for_each (sring_prog f_id f_n) 4%nat (w_heap (mkw sring_heap)))%nat.
  apply (C56_each_object_once _ 3);
    [apply mkprog_gentle | apply sring_plain_keys | apply sring_tame | apply sring_apart | apply sring_finite | |].
  - intros cls d fl m Hc Hf Hm Hu. apply sring_class in Hc. subst d. apply uses_b in Hu. cbn in Hf.
    repeat (destruct Hf as [<- | Hf];
      [cbn in Hm; repeat (destruct Hm as [<- | Hm]; [first [reflexivity | vm_compute in Hu; discriminate Hu] |]); contradiction |]).
    contradiction.
  - intros cls d fl Hc Hf pre post E M. apply sring_class in Hc. subst d.
    assert (X : In MEager (fl_types fl)) by (rewrite E; apply in_or_app; right; right; exact M).
    cbn in Hf. repeat (destruct Hf as [<- | Hf]; [cbn in X; repeat (destruct X as [X | X]; [discriminate X |]); contradiction |]). contradiction.
Qed.
(** and the three are all prepared *)
Example C56_ring_prepared : fst (srun f_id f_n) = Ok tt /\ saves 4%nat (snd (srun f_id f_n)) = 3%nat.
Proof. split; vm_compute; reflexivity. Qed.

(** ** Exceptions *)
(** An object whose primary key is set on save, and that lists itself, is prepared twice. *)
Definition f_key : field := mkf "id" "id_id" [tint; MPrimary; MPreserialize; MSetonsave (PCall 4%nat) false].
Definition rekey_ct (c : string) : option cdef :=
  if String.eqb c "Node" then Some (mkc "Node" [f_key; mkf "all" "all_ids" [MListOf [MInstance "Node"]]]) else None.
Definition rekey_heap : heap :=
  {| h_obj := fun _ => on_obj "Node" [("id", VInt 65); ("all", VList [VObj 0%nat])] true false;
     h_next := 1%nat; h_graph := h_graph (ex_heap true) |}.
Definition rekey_prog : program := mkprog rekey_ct no_guards no_hooks.
Theorem C56_rekeyed_refuted :
  let s := set_on_save rekey_prog 20 0%nat (mkw rekey_heap) in
  fst s = Ok tt /\ saves 4%nat (snd s) = 2%nat /\ once_for_each rekey_prog 4%nat rekey_heap = 1%nat.
Proof. repeat apply conj; vm_compute; reflexivity. Qed.
Print Assumptions C56_rekeyed_refuted.

(** A setter between a preserialize marker and a later eager marker (setonsave inserts the
    first, and every transforming modifier declared after it the second) runs twice in each save. *)
Definition f_late : field := mkf "n" "n_id" [tint; MPreserialize; MSetonsave (PCall 4%nat) false; MEager; MLeaf (LeafModel.LMax (PVal (VInt 9)))].
Theorem C56_eager_after_refuted :
  fst (srun f_id f_late) = Ok tt /\ saves 4%nat (snd (srun f_id f_late)) = 6%nat /\
  once_for_each (sring_prog f_id f_late) 4%nat sring_heap = 3%nat.
Proof. repeat apply conj; vm_compute; reflexivity. Qed.
Print Assumptions C56_eager_after_refuted.
