(** EncProofs.v -- lemmas for C92. *)
From Verif Require Import Base Mon PyList PyDict StrDict KeypathModel Values OGraphModel MGraphModel ChainModel
  TypesModel TypesSpec ObjModel IoModel IoBase TameSpec GraphSpec OutSpec OutFormSpec LogFree ReadSpec ReadProofs EncModel EncSpec.
Open Scope list_scope.

(** ** The output is JSON, for every program *)
Section Any.
  Context (P : program) (N : nat).
  Lemma list_ok (f : value -> st world value) (R : value -> Prop) :
    (forall v w j w', f v w = (Ok j, w') -> R j) -> forall l w js w', encode_list f l w = (Ok js, w') -> Forall R js.
  Proof.
    intros H. induction l as [| v l IH]; intros w js w' E; cbn [encode_list] in E; [inversion E; constructor |].
    unfold bind in E. destruct (f v w) as [[j | e] w1] eqn:E1; [| discriminate E].
    destruct (encode_list f l w1) as [[r | e] w2] eqn:E2; [| discriminate E]. inversion E; subst. constructor; eauto.
  Qed.
  Lemma dict_ok (f : value -> st world value) (R : value -> Prop) :
    (forall v w j w', f v w = (Ok j, w') -> R j) -> forall m w js w', encode_dict f m w = (Ok js, w') -> Forall (fun kv => R (snd kv)) js.
  Proof.
    intros H. induction m as [| [k v] m IH]; intros w js w' E; cbn [encode_dict] in E; [inversion E; constructor |].
    unfold bind in E. destruct (f v w) as [[j | e] w1] eqn:E1; [| discriminate E].
    destruct (encode_dict f m w1) as [[r | e] w2] eqn:E2; [| discriminate E]. inversion E; subst. constructor; eauto.
  Qed.
  Lemma encode_json n : forall marks v w j w', encode P N n marks v w = (Ok j, w') -> json j.
  Proof.
    induction n as [| n IH]; intros marks v w j w' E; [discriminate E |]. cbn [encode] in E.
    destruct v; cbn [default] in E; try (inversion E; subst; constructor; fail); try discriminate E.
    - unfold bind in E. destruct (encode_list _ l w) as [[js | e] w1] eqn:E1; [| discriminate E]. inversion E; subst.
      constructor. apply (list_ok (encode P N n marks) json) with (l := l) (w := w) (w' := w'); eauto.
    - unfold bind in E. destruct (encode_dict _ d w) as [[js | e] w1] eqn:E1; [| discriminate E]. inversion E; subst.
      constructor. apply (dict_ok (encode P N n marks) json) with (m := d) (w := w) (w' := w'); eauto.
    - destruct (existsb (Nat.eqb o) marks); [discriminate E |]. unfold bind in E.
      destruct (tojson P N o false false None w) as [[f | e] w1]; [| discriminate E]. eauto.
  Qed.

  (** JSON data is written as it is. *)
  Lemma json_more : forall v, json v -> exists n0, forall n marks w, (n0 <= n)%nat -> encode P N n marks v w = (Ok v, w).
  Proof.
    intros v. induction v as [| | | | | | | | l IH | m IH | |] using value_ind2; intros J;
      try (exists 1%nat; intros [| n] marks w L; [lia | reflexivity]); try (inversion J; fail).
    - inversion J as [| | | | | ? JF |]; subst.
      assert (exists n0, forall n marks w, (n0 <= n)%nat -> encode_list (encode P N n marks) l w = (Ok l, w)) as [n0 H].
      { clear J. induction l as [| v l IHl]; [exists 0%nat; reflexivity |]. inversion IH as [| ? ? Hv Hl]; subst. inversion JF; subst.
        destruct (Hv ltac:(assumption)) as [n1 X1]. destruct (IHl ltac:(assumption) ltac:(assumption)) as [n2 X2].
        exists (n1 + n2)%nat. intros n marks w L. cbn [encode_list]. unfold bind. rewrite X1 by lia. rewrite X2 by lia. reflexivity. }
      exists (S n0). intros [| n] marks w L; [lia |]. cbn [encode]. unfold bind. rewrite H by lia. reflexivity.
    - inversion J as [| | | | | | ? JF]; subst.
      assert (exists n0, forall n marks w, (n0 <= n)%nat -> encode_dict (encode P N n marks) m w = (Ok m, w)) as [n0 H].
      { clear J. induction m as [| [k v] m IHl]; [exists 0%nat; reflexivity |]. inversion IH as [| ? ? Hv Hl]; subst. inversion JF; subst.
        destruct (Hv ltac:(assumption)) as [n1 X1]. destruct (IHl ltac:(assumption) ltac:(assumption)) as [n2 X2].
        exists (n1 + n2)%nat. intros n marks w L. cbn [encode_dict]. unfold bind. rewrite X1 by lia. rewrite X2 by lia. reflexivity. }
      exists (S n0). intros [| n] marks w L; [lia |]. cbn [encode]. unfold bind. rewrite H by lia. reflexivity.
  Qed.
End Any.

Section Calm.
  Context (P : program) (N D : nat).
  Hypothesis C : calm P.
  Hypothesis TC : tame_classes D P.
  Hypothesis GC : flat_guards D P ARead.

  Lemma still_list (f : value -> st world value) : (forall v w, alike w (snd (f v w))) -> forall l w, alike w (snd (encode_list f l w)).
  Proof.
    intros H. induction l as [| v l IH]; intros w; cbn [encode_list]; [apply alike_refl |]. unfold bind.
    pose proof (H v w) as A. destruct (f v w) as [[j | e] w1]; cbn [snd] in *; [| exact A]. specialize (IH w1).
    destruct (encode_list f l w1) as [[js | e] w2]; cbn [snd ret] in *; exact (alike_trans _ _ _ A IH).
  Qed.
  Lemma still_dict (f : value -> st world value) : (forall v w, alike w (snd (f v w))) -> forall m w, alike w (snd (encode_dict f m w)).
  Proof.
    intros H. induction m as [| [k v] m IH]; intros w; cbn [encode_dict]; [apply alike_refl |]. unfold bind.
    pose proof (H v w) as A. destruct (f v w) as [[j | e] w1]; cbn [snd] in *; [| exact A]. specialize (IH w1).
    destruct (encode_dict f m w1) as [[js | e] w2]; cbn [snd ret] in *; exact (alike_trans _ _ _ A IH).
  Qed.
  Lemma still_encode n : forall marks v w, alike w (snd (encode P N n marks v w)).
  Proof.
    induction n as [| n IH]; intros marks v w; [apply alike_refl |]. cbn [encode].
    destruct v; cbn [default]; try apply alike_refl.
    - unfold bind. pose proof (still_list (encode P N n marks) (IH marks) l w) as A. destruct (encode_list _ l w) as [[js | e] w1]; exact A.
    - unfold bind. pose proof (still_dict (encode P N n marks) (IH marks) d w) as A. destruct (encode_dict _ d w) as [[js | e] w1]; exact A.
    - destruct (existsb (Nat.eqb o) marks); [apply alike_refl |]. unfold bind.
      pose proof (still_tojson P D C TC GC N o false false None w) as A. destruct (tojson _ _ _ _ _ _ w) as [[f | e] w1]; [| exact A].
      exact (alike_trans _ _ _ A (IH _ _ _)).
  Qed.

  Lemma json_same o w w' : alike w w' -> fst (tojson P N o false false None w') = fst (tojson P N o false false None w).
  Proof. intros A. apply (alike_runs _ w w' (f_tojson P N o false false None) A). Qed.

  Lemma marked_in o marks : existsb (Nat.eqb o) marks = true <-> In o marks.
  Proof.
    rewrite existsb_exists. split.
    - intros (y & Hy & E). apply Nat.eqb_eq in E. subst. exact Hy.
    - intros H. exists o. split; [exact H | apply Nat.eqb_refl].
  Qed.

  (** ** What is written is what the specification says *)
  Lemma encode_written w n : forall marks v w1 j w2, alike w w1 -> encode P N n marks v w1 = (Ok j, w2) -> written P N w marks v j.
  Proof.
    induction n as [| n IH]; intros marks v w1 j w2 A E; [discriminate E |]. cbn [encode] in E.
    destruct v; cbn [default] in E; try discriminate E; try (inversion E; subst; apply wr_scalar; exact Logic.I).
    - unfold bind in E. destruct (encode_list _ l w1) as [[js | e] w3] eqn:E1; [| discriminate E]. inversion E; subst. apply wr_list.
      clear E. revert w1 js A E1. induction l as [| v l IHl]; intros w1 js A E1; cbn [encode_list] in E1; [inversion E1; constructor |].
      unfold bind in E1. pose proof (still_encode n marks v w1) as S1. destruct (encode P N n marks v w1) as [[j | e] w3] eqn:E2; [| discriminate E1].
      destruct (encode_list _ l w3) as [[r | e] w4] eqn:E3; [| discriminate E1]. inversion E1; subst. constructor; [eauto |].
      apply (IHl w3); [exact (alike_trans _ _ _ A S1) | exact E3].
    - unfold bind in E. destruct (encode_dict _ d w1) as [[js | e] w3] eqn:E1; [| discriminate E]. inversion E; subst. apply wr_dict.
      clear E. revert w1 js A E1. induction d as [| [k v] l IHl]; intros w1 js A E1; cbn [encode_dict] in E1; [inversion E1; constructor |].
      unfold bind in E1. pose proof (still_encode n marks v w1) as S1. destruct (encode P N n marks v w1) as [[j | e] w3] eqn:E2; [| discriminate E1].
      destruct (encode_dict _ l w3) as [[r | e] w4] eqn:E3; [| discriminate E1]. inversion E1; subst. constructor; [cbn; eauto |].
      apply (IHl w3); [exact (alike_trans _ _ _ A S1) | exact E3].
    - destruct (existsb (Nat.eqb o) marks) eqn:Em; [discriminate E |]. unfold bind in E.
      pose proof (still_tojson P D C TC GC N o false false None w1) as S1. pose proof (json_same o w w1 A) as J.
      destruct (tojson P N o false false None w1) as [[f | e] w3]; [| discriminate E]. cbn [fst snd] in *.
      apply wr_object with f; [rewrite <- marked_in, Em; discriminate | auto |]. apply (IH _ _ w3 _ w2); [exact (alike_trans _ _ _ A S1) | exact E].
  Qed.

  Lemma written_encode w : forall marks v j, written P N w marks v j ->
    exists n0, forall n w1, (n0 <= n)%nat -> alike w w1 -> fst (encode P N n marks v w1) = Ok j.
  Proof.
    fix IH 4. intros marks v j W. destruct W as [marks v S | marks l js F | marks m es F | marks o f j Hm Hf W].
    - exists 1%nat. intros [| n] w1 L A; [lia |]. destruct v; try contradiction S; reflexivity.
    - assert (exists n0, forall n w1, (n0 <= n)%nat -> alike w w1 -> fst (encode_list (encode P N n marks) l w1) = Ok js) as [n0 H].
      { induction F as [| v j l js W F IHF]; [exists 0%nat; reflexivity |]. destruct (IH _ _ _ W) as [n1 H1]. destruct IHF as [n2 H2].
        exists (n1 + n2)%nat. intros n w1 L A. cbn [encode_list]. unfold bind.
        specialize (H1 n w1 ltac:(lia) A). pose proof (still_encode n marks v w1) as S1. destruct (encode P N n marks v w1) as [r1 w2]. cbn [fst snd] in *. subst r1.
        specialize (H2 n w2 ltac:(lia) (alike_trans _ _ _ A S1)). destruct (encode_list _ l w2) as [r2 w3]. cbn [fst] in *. subst r2. reflexivity. }
      exists (Datatypes.S n0). intros [| n] w1 L A; [lia |]. cbn [encode]. unfold bind. specialize (H n w1 ltac:(lia) A).
      destruct (encode_list _ l w1) as [r w2]. cbn [fst] in H. subst r. reflexivity.
    - assert (exists n0, forall n w1, (n0 <= n)%nat -> alike w w1 -> fst (encode_dict (encode P N n marks) m w1) = Ok es) as [n0 H].
      { induction F as [| [k v] [k' j] l js [Ek W] F IHF]; [exists 0%nat; reflexivity |]. cbn [fst snd] in *. subst k'. destruct (IH _ _ _ W) as [n1 H1]. destruct IHF as [n2 H2].
        exists (n1 + n2)%nat. intros n w1 L A. cbn [encode_dict]. unfold bind.
        specialize (H1 n w1 ltac:(lia) A). pose proof (still_encode n marks v w1) as S1. destruct (encode P N n marks v w1) as [r1 w2]. cbn [fst snd] in *. subst r1.
        specialize (H2 n w2 ltac:(lia) (alike_trans _ _ _ A S1)). destruct (encode_dict _ l w2) as [r2 w3]. cbn [fst] in *. subst r2. reflexivity. }
      exists (Datatypes.S n0). intros [| n] w1 L A; [lia |]. cbn [encode]. unfold bind. specialize (H n w1 ltac:(lia) A).
      destruct (encode_dict _ m w1) as [r w2]. cbn [fst] in H. subst r. reflexivity.
    - destruct (IH _ _ _ W) as [n1 H1]. exists (Datatypes.S n1). intros [| n] w1 L A; [lia |]. cbn [encode default].
      destruct (existsb (Nat.eqb o) marks) eqn:Em; [contradiction (Hm (proj1 (marked_in o marks) Em)) |]. unfold bind.
      pose proof (still_tojson P D C TC GC N o false false None w1) as S1. pose proof (json_same o w w1 A) as J. rewrite Hf in J.
      destruct (tojson P N o false false None w1) as [r w2]. cbn [fst snd] in *. subst r. apply H1; [lia | exact (alike_trans _ _ _ A S1)].
  Qed.

  (** ** Values with objects whose forms are JSON *)
  Lemma json_written w : forall v marks, json v -> written P N w marks v v.
  Proof.
    intros v. induction v as [| | | | | | | | l IH | m IH | |] using value_ind2; intros marks J; try (apply wr_scalar; exact Logic.I); try (inversion J; fail).
    - apply wr_list. inversion J as [| | | | | ? JF |]; subst. clear J. induction l as [| v l IHl]; [constructor |].
      inversion IH; subst. inversion JF; subst. constructor; auto.
    - apply wr_dict. inversion J as [| | | | | | ? JF]; subst. clear J. induction m as [| [k v] l IHl]; [constructor |].
      inversion IH; subst. inversion JF; subst. constructor; auto.
  Qed.
  Lemma replaced_written w (f : oid -> value) : forall v,
    (forall u, stands u v -> match u with VDate _ | VDatetime _ | VEnum _ _ | VOther _ => False | _ => True end) ->
    (forall o, stands (VObj o) v -> fst (tojson P N o false false None w) = Ok (f o) /\ json (f o)) ->
    written P N w [] v (replaced f v).
  Proof.
    intros v. induction v as [| | | | | | | | l IH | m IH | |] using value_ind2; intros H K; cbn [replaced];
      try (apply wr_scalar; exact Logic.I); try (contradiction (H _ (sd_here _))).
    - apply wr_list. rewrite Forall_forall in IH.
      assert (G : forall l', incl l' l -> Forall2 (written P N w []) l' (map (replaced f) l')); [| apply G; intros y Hy; exact Hy].
      induction l' as [| v l' IHl]; intros I; cbn [map]; constructor; [| apply IHl; intros y Hy; apply I; right; exact Hy].
      assert (Hv : In v l) by (apply I; left; reflexivity). apply IH; [exact Hv | |]; intros u Su.
      + apply H. apply sd_item with v; assumption.
      + apply K. apply sd_item with v; assumption.
    - apply wr_dict. rewrite Forall_forall in IH.
      assert (G : forall l', incl l' m -> Forall2 (fun kv kj => fst kv = fst kj /\ written P N w [] (snd kv) (snd kj)) l' (map (fun kv => (fst kv, replaced f (snd kv))) l'));
        [| apply G; intros y Hy; exact Hy].
      induction l' as [| [k v] l' IHl]; intros I; cbn [map fst snd]; constructor; [| apply IHl; intros y Hy; apply I; right; exact Hy].
      assert (Hv : In (k, v) m) by (apply I; left; reflexivity). cbn [fst snd]. split; [reflexivity |]. apply (IH (k, v)); [exact Hv | |]; intros u Su.
      + apply H. apply sd_entry with k v; assumption.
      + apply K. apply sd_entry with k v; assumption.
    - destruct (K o (sd_here _)) as [K1 K2]. apply wr_object with (f o); [intros [] | exact K1 | apply json_written, K2].
  Qed.
End Calm.
