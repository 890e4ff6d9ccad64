(** StrDict.v -- lemmas on dictionaries keyed by strings. *)
From Verif Require Import Base OListSpec ODictSpec ODictProofs.

Lemma string_equivb : equivb String.eqb.
Proof.
  constructor.
  - apply String.eqb_refl.
  - apply String.eqb_sym.
  - intros x y z H1 H2. apply String.eqb_eq in H1, H2. subst. apply String.eqb_refl.
Qed.

Section S.
  Context {V : Type}.
  Implicit Types (d : list (string * V)).

  Definition suniq d : Prop := unique_keys String.eqb d.

  Lemma sget_sset k k' (v : V) d :
    sget k (sset k' v d) = if String.eqb k k' then Some v else sget k d.
  Proof. apply (dget_dset _ string_equivb). Qed.

  Lemma sget_sset_same k (v : V) d : sget k (sset k v d) = Some v.
  Proof. rewrite sget_sset, String.eqb_refl. reflexivity. Qed.

  Lemma sget_sset_other k k' (v : V) d : k <> k' -> sget k (sset k' v d) = sget k d.
  Proof. intros H. rewrite sget_sset. destruct (String.eqb k k') eqn:E; [|reflexivity].
         apply String.eqb_eq in E. contradiction. Qed.

  Lemma suniq_sset k v d : suniq d -> suniq (sset k v d).
  Proof. apply (unique_dset _ string_equivb). Qed.

  Lemma suniq_nil : suniq [].
  Proof. constructor. Qed.

  Lemma sget_In k v d : sget k d = Some v -> In (k, v) d.
  Proof.
    unfold sget. induction d as [|[k1 v1] d IH]; simpl; [discriminate|].
    destruct (String.eqb k k1) eqn:E.
    - intros H; injection H as ->. apply String.eqb_eq in E. subst. left; reflexivity.
    - intros H. right. apply IH. exact H.
  Qed.

  Lemma sget_In_iff k v d : suniq d -> (sget k d = Some v <-> In (k, v) d).
  Proof. intros Hu. split; [apply sget_In|]. apply (dget_in _ string_equivb). exact Hu. Qed.

  Lemma suniq_cons k v d : suniq ((k, v) :: d) <-> (~ In k (map fst d) /\ suniq d).
  Proof.
    unfold suniq, unique_keys. split.
    - intros H. inversion H as [|? ? H1 H2]; subst. split; [|exact H2].
      intros Hin. apply in_map_iff in Hin. destruct Hin as ([k1 v1] & <- & Hin).
      rewrite Forall_forall in H1. specialize (H1 _ Hin). simpl in H1.
      rewrite String.eqb_refl in H1. discriminate.
    - intros [H1 H2]. constructor; [|exact H2]. apply Forall_forall. intros [k1 v1] Hin. simpl.
      apply String.eqb_neq. intros ->. apply H1. apply in_map_iff. exists (k1, v1). auto.
  Qed.

  Lemma suniq_NoDup d : suniq d <-> NoDup (map fst d).
  Proof.
    induction d as [|[k v] d IH]; simpl.
    - split; constructor.
    - rewrite suniq_cons, IH, NoDup_cons_iff. reflexivity.
  Qed.

  Lemma sget_None_iff k d : sget k d = None <-> ~ In k (map fst d).
  Proof.
    unfold sget. induction d as [|[k1 v1] d IH]; simpl; [tauto|].
    destruct (String.eqb k k1) eqn:E.
    - apply String.eqb_eq in E. subst. split; [discriminate|tauto].
    - apply String.eqb_neq in E. rewrite IH. intuition congruence.
  Qed.

  Lemma sset_keys k (v : V) d :
    map fst (sset k v d) = if smem k d then map fst d else map fst d ++ [k].
  Proof.
    unfold smem, dmem, sset. induction d as [|[k1 v1] d IH]; simpl; [reflexivity|].
    destruct (String.eqb k k1); simpl; [reflexivity|]. rewrite IH.
    destruct (dget String.eqb k d); reflexivity.
  Qed.

  Lemma smem_In k d : smem k d = true <-> In k (map fst d).
  Proof.
    unfold smem, dmem. pose proof (sget_None_iff k d) as H. unfold sget in H.
    destruct (dget String.eqb k d) eqn:E.
    - split; [intros _|reflexivity]. destruct (in_dec string_dec k (map fst d)) as [|n]; [assumption|].
      apply H in n. discriminate.
    - split; [discriminate|]. intros Hin. destruct H as [H _]. specialize (H eq_refl). contradiction.
  Qed.
End S.
