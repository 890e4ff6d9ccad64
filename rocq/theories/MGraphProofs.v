(** MGraphProofs.v -- lemmas for C08. *)
From Verif Require Import Base OListSpec ODictSpec ODictProofs StrDict OGraphModel MGraphModel MGraphSpec.

Section MP.
  Context (cname : oid -> string).

  Lemma nat_equivb : equivb Nat.eqb.
  Proof.
    constructor.
    - apply Nat.eqb_refl.
    - apply Nat.eqb_sym.
    - intros x y z H1 H2. apply Nat.eqb_eq in H1, H2. subst. apply Nat.eqb_refl.
  Qed.

  (* the key table and identity table after a history, from its last mark *)
  Lemma marks_snoc ks k : m_marks cname (ks ++ [k]) = m_mark cname k (m_marks cname ks).
  Proof. unfold m_marks. rewrite fold_left_app. reflexivity. Qed.

  Lemma table_sset c c' t m :
    m_table c (sset c' t m) = if String.eqb c c' then t else m_table c m.
  Proof. unfold m_table. rewrite sget_sset. destruct (String.eqb c c'); reflexivity. Qed.

  Lemma key_lookup_last ks : forall c p,
    match sget p (by_key (m_table c (m_marks cname ks))) with
    | Some o => last_key_mark cname ks c p o
    | None => ~ key_marked cname ks c p
    end.
  Proof.
    induction ks as [|k ks IH] using rev_ind; intros c p.
    - simpl. intros (k & o & [] & _).
    - rewrite marks_snoc.
      assert (Hcase : (exists o, mark_of k o p /\ cname o = c /\
                  sget p (by_key (m_table c (m_mark cname k (m_marks cname ks)))) = Some o) \/
               ((forall o, mark_of k o p -> cname o <> c) /\
                sget p (by_key (m_table c (m_mark cname k (m_marks cname ks)))) =
                sget p (by_key (m_table c (m_marks cname ks))))).
      { destruct k as [o [q|]|q o]; simpl; unfold m_put, m_putp; rewrite table_sset.
        - destruct (String.eqb_spec c (cname o)) as [->|n]; simpl.
          + rewrite sget_sset. destruct (String.eqb_spec p q) as [->|n].
            * left. exists o. repeat split. left; reflexivity.
            * right. split; [|reflexivity]. intros o' [H|H]; congruence.
          + right. split; [|reflexivity]. intros o' [H|H]; congruence.
        - right. split; [intros o' [H|H]; congruence|].
          destruct (String.eqb_spec c (cname o)) as [->|n]; reflexivity.
        - destruct (String.eqb_spec c (cname o)) as [->|n]; simpl.
          + rewrite sget_sset. destruct (String.eqb_spec p q) as [->|n].
            * left. exists o. repeat split. right; reflexivity.
            * right. split; [|reflexivity]. intros o' [H|H]; congruence.
          + right. split; [|reflexivity]. intros o' [H|H]; congruence. }
      destruct Hcase as [(o & Hm & Hc & ->)|(Hno & ->)].
      + exists ks, k, []. repeat split; try assumption. intros (k' & o' & [] & _).
      + specialize (IH c p). destruct (sget p _) as [o|].
        * destruct IH as (b & k0 & a & -> & Hm & Hc & Hn).
          exists b, k0, (a ++ [k]). repeat split; try assumption.
          { rewrite <- app_assoc. reflexivity. }
          intros (k' & o' & Hin & Hm' & Hc'). apply in_app_iff in Hin. destruct Hin as [Hin|[<-|[]]].
          -- apply Hn. exists k', o'. auto.
          -- exact (Hno _ Hm' Hc').
        * intros (k' & o' & Hin & Hm' & Hc'). apply in_app_iff in Hin. destruct Hin as [Hin|[<-|[]]].
          -- apply IH. exists k', o'. auto.
          -- exact (Hno _ Hm' Hc').
  Qed.

  Lemma id_lookup ks : forall o,
    dget Nat.eqb o (by_id (m_table (cname o) (m_marks cname ks))) = Some o /\ In (Put o None) ks \/
    dget Nat.eqb o (by_id (m_table (cname o) (m_marks cname ks))) = None /\ ~ In (Put o None) ks.
  Proof.
    induction ks as [|k ks IH] using rev_ind; intros o.
    - right. split; [reflexivity|intros []].
    - rewrite marks_snoc. rewrite in_app_iff. specialize (IH o).
      destruct k as [o' [q|]|q o']; simpl; unfold m_put, m_putp; rewrite table_sset.
      + destruct (String.eqb_spec (cname o) (cname o')) as [E|n]; simpl; rewrite <- ?E;
          (destruct IH as [[H1 H2]|[H1 H2]]; [left; tauto|right; split; [exact H1|intros [H|[H|[]]]; [tauto|congruence]]]).
      + destruct (String.eqb_spec (cname o) (cname o')) as [E|n]; simpl; rewrite <- ?E.
        * rewrite (dget_dset _ nat_equivb). destruct (Nat.eqb_spec o o') as [->|n].
          -- left. auto.
          -- destruct IH as [[H1 H2]|[H1 H2]]; [left; tauto|right; split; [exact H1|intros [H|[H|[]]]; [tauto|congruence]]].
        * destruct IH as [[H1 H2]|[H1 H2]]; [left; tauto|right; split; [exact H1|intros [H|[H|[]]]; [tauto|congruence]]].
      + destruct (String.eqb_spec (cname o) (cname o')) as [E|n]; simpl; rewrite <- ?E;
          (destruct IH as [[H1 H2]|[H1 H2]]; [left; tauto|right; split; [exact H1|intros [H|[H|[]]]; [tauto|congruence]]]).
  Qed.

  Lemma last_is_marked ks c p o : last_key_mark cname ks c p o -> key_marked cname ks c p.
  Proof.
    intros (b & k & a & -> & Hm & Hc & _). exists k, o. split; [apply in_elt|auto].
  Qed.

  Lemma has_iff ks o pk :
    m_has cname o pk (m_marks cname ks) = true <->
    (exists p, pk = Some p /\ key_marked cname ks (cname o) p) \/ In (Put o None) ks.
  Proof.
    unfold m_has, t_has.
    pose proof (id_lookup ks o) as Hid.
    assert (Hi : match dget Nat.eqb o (by_id (m_table (cname o) (m_marks cname ks))) with
                 | Some _ => true | None => false end = true <-> In (Put o None) ks).
    { destruct Hid as [[-> H]|[-> H]]; split; auto; try discriminate; contradiction. }
    destruct pk as [p|].
    - pose proof (key_lookup_last ks (cname o) p) as Hk. destruct (sget p _) as [x|].
      + split; [|reflexivity]. intros _. left. exists p. split; [reflexivity|]. eapply last_is_marked; eassumption.
      + rewrite Hi. split; [auto|]. intros [(q & Hq & Hm)|H]; [|exact H]. injection Hq as <-. contradiction.
    - rewrite Hi. split; [auto|]. intros [(q & Hq & _)|H]; [discriminate|exact H].
  Qed.

  Lemma marked_is_recognised ks o pk : In (Put o pk) ks -> m_has cname o pk (m_marks cname ks) = true.
  Proof.
    intros H. apply has_iff. destruct pk as [p|]; [left|right; exact H].
    exists p. split; [reflexivity|]. exists (Put o (Some p)), o. repeat split; [exact H|left; reflexivity].
  Qed.

  Lemma marked_by_key_is_recognised ks p o :
    In (PutP p o) ks -> m_has cname o (Some p) (m_marks cname ks) = true.
  Proof.
    intros H. apply has_iff. left. exists p. split; [reflexivity|].
    exists (PutP p o), o. repeat split; [exact H|right; reflexivity].
  Qed.

  Lemma keyless_mark_survives ks o pk :
    In (Put o None) ks -> m_has cname o pk (m_marks cname ks) = true.
  Proof. intros H. apply has_iff. right. exact H. Qed.

  Lemma keyless_only_itself ks o :
    m_has cname o None (m_marks cname ks) = true <-> In (Put o None) ks.
  Proof.
    rewrite has_iff. split; [|auto]. intros [(p & H & _)|H]; [discriminate|exact H].
  Qed.

  Lemma get_latest ks o pk :
    match m_get cname o pk (m_marks cname ks) with
    | Some x => (exists p, pk = Some p /\ last_key_mark cname ks (cname o) p x) \/
                (x = o /\ In (Put o None) ks)
    | None => m_has cname o pk (m_marks cname ks) = false
    end.
  Proof.
    unfold m_get, t_get, m_has, t_has. pose proof (id_lookup ks o) as Hid.
    destruct pk as [p|].
    - pose proof (key_lookup_last ks (cname o) p) as Hk. destruct (sget p _) as [x|].
      + left. exists p. auto.
      + destruct Hid as [[-> H]|[-> H]]; auto.
    - destruct Hid as [[-> H]|[-> H]]; auto.
  Qed.

  Lemma getp_latest ks c p :
    match m_getp c p (m_marks cname ks) with
    | Some x => last_key_mark cname ks c p x
    | None => ~ key_marked cname ks c p
    end.
  Proof. apply key_lookup_last. Qed.
End MP.

Lemma rekeyed_not_recognised :
  exists (cname : oid -> string) (ks : list mark) (o : oid) (a b : string),
    In (Put o (Some a)) ks /\ m_has cname o (Some b) (m_marks cname ks) = false.
Proof.
  exists (fun _ => "A"%string), [Put 0%nat (Some "1"%string)], 0%nat, "1"%string, "2"%string.
  split; [left; reflexivity|reflexivity].
Qed.
