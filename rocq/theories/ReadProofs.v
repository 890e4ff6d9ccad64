(** ReadProofs.v -- lemmas for C91. *)
From Verif Require Import Base Mon PyList PyDict StrDict KeypathModel Values OGraphModel MGraphModel ChainModel
  TypesModel TypesSpec TypesProofs ObjModel IoModel IoBase Sound ObjSound LeafSound TameSpec Keep TameProofs GraphSpec GraphProofs
  OutSpec OutProofs OutRun OutTop LogFree ReadSpec.
Open Scope list_scope.

(** ** No answer depends on what was called before *)
Section Free.
  Context (P : program) (n : nat).
  Lemma f_validate ts c : lf (t_validate (interp P n) ts c).
  Proof. apply l_t_validate. intros. apply l_interp. Qed.
  Lemma f_transform ts c : lf (t_transform (interp P n) ts c).
  Proof. apply l_t_transform; intros; apply l_interp. Qed.
  Lemma f_guard o a : lf (guard P n o a).
  Proof.
    unfold guard. apply lf_bind; [apply lf_getW; reflexivity | intros cls]. destruct (p_guards P cls a) as [| p ps]; [apply lf_ret |].
    apply lf_bind; [apply lf_getW; reflexivity | intros op]. destruct (is_none op); [apply lf_throw |]. apply lf_for. intros q. destruct q; cbn [guard_one].
    - apply lf_throw.
    - apply lf_bind; [apply lf_getW; reflexivity | intros op']. apply lf_bind; [apply lf_getW; reflexivity | intros c].
      apply lf_bind; [apply l_call | intros r]. destruct (is_none r || is_true r); [apply lf_ret | destruct r; apply lf_throw].
    - apply lf_bind; [apply lf_getW; reflexivity | intros c]. apply lf_mgraph.
      apply l_checked; try (intros; apply l_interp); [apply lf_ret | apply lf_throw].
  Qed.
  Lemma f_tojson o iw rev on : lf (tojson P n o iw rev on).
  Proof.
    unfold tojson. apply lf_bind; [apply f_guard | intros _]. apply lf_bind; [apply lf_getW; reflexivity | intros c].
    apply lf_bind; [apply lf_getW; reflexivity | intros cls]. apply lf_mgraph, l_interp.
  Qed.
  Lemma f_validate_top o all : lf (IoModel.validate P n o all).
  Proof.
    unfold IoModel.validate. apply lf_bind; [apply lf_getW; reflexivity | intros c].
    apply lf_bind; [apply lf_getW; reflexivity | intros cls]. apply lf_mgraph, l_interp.
  Qed.
  Lemma f_is_valid o : lf (is_valid P n o).
  Proof.
    unfold is_valid. apply lf_on_validation; [apply lf_bind; [apply f_validate_top | intros; apply lf_ret] | intros; apply lf_ret].
  Qed.
End Free.

(** ** Two worlds that differ in their logs *)
Definition alike (w w' : world) : Prop := w_heap w' = w_heap w /\ w_ext w' = w_ext w /\ w_mg w' = w_mg w.
Lemma alike_refl w : alike w w.
Proof. repeat split. Qed.
Lemma alike_trans w w1 w2 : alike w w1 -> alike w1 w2 -> alike w w2.
Proof. intros (A1 & A2 & A3) (B1 & B2 & B3). repeat split; congruence. Qed.
Lemma alike_runs {A} (m : st world A) w w' : lf m -> alike w w' -> fst (m w') = fst (m w) /\ alike (snd (m w)) (snd (m w')).
Proof.
  intros L (E1 & E2 & E3). destruct w as [h x g l], w' as [h' x' g' l']. cbn in E1, E2, E3. subst h' x' g'.
  set (w0 := {| w_heap := h; w_ext := x; w_mg := g; w_log := [] |}).
  assert (H : forall k, {| w_heap := h; w_ext := x; w_mg := g; w_log := k |} = after k w0) by (intros k; unfold after; cbn; rewrite app_nil_r; reflexivity).
  rewrite (H l), (H l'), !L. split; [reflexivity | repeat split].
Qed.

(** ** Nothing is changed *)
Section Still.
  Context (P : program) (D : nat).
  Hypothesis C : calm P.
  Hypothesis TC : tame_classes D P.
  Hypothesis GC : flat_guards D P ARead.

  Lemma still_guard n o w : alike w (snd (guard P n o ARead w)).
  Proof.
    assert (K : w_mg (snd (guard P n o ARead w)) = w_mg w).
    { unfold guard. unfold bind at 1, getW at 1. destruct (p_guards P _ ARead) as [| p ps]; [reflexivity |].
      unfold bind at 1, getW at 1. destruct (is_none _); [reflexivity |].
      assert (L : forall l w, w_mg (snd (for_st l (guard_one P n o ARead) w)) = w_mg w).
      { induction l as [| q l IH]; intros v; [reflexivity |]. cbn [for_st]. unfold bind at 1.
        assert (G : w_mg (snd (guard_one P n o ARead q v)) = w_mg v).
        { destruct q; cbn [guard_one]; [reflexivity | |].
          - unfold bind at 1, getW at 1. unfold bind at 1, getW at 1. unfold bind at 1. rewrite (call_eq P KGuard f _ _ v C).
            match goal with |- context [fst (p_call P f ?c ?a ?h)] => destruct (fst (p_call P f c a h)) as [r | e]; [| reflexivity] end.
            destruct (is_none r || is_true r); [reflexivity | destruct r; reflexivity].
          - unfold bind at 1, getW at 1. unfold with_new_mgraph. destruct (checked _ _ _ _ _ _) as [r v1]. reflexivity. }
        destruct (guard_one P n o ARead q v) as [[u | e] v1]; cbn [fst snd] in *; [rewrite IH |]; exact G. }
      apply L. }
    destruct (k_guard (spk := hush) P (w_heap w) (w_ext w) D C ltac:(intros; apply silents) ltac:(intros; apply silents) ltac:(intros; apply silents) n o ARead GC)
      with (s := w) as [[G1 G2] _]; [left; discriminate | split; reflexivity |]. repeat split; assumption.
  Qed.
  Lemma still_tojson n o iw rev on w : alike w (snd (tojson P n o iw rev on w)).
  Proof.
    rewrite tojson_eq. pose proof (still_guard n o w) as G. destruct (guard P n o ARead w) as [[u | e] w1]; [| exact G].
    destruct G as (G1 & G2 & G3). cbn [snd] in *.
    pose proof (k_types P (w_heap w) (w_ext w) D C TC n) as K0.
    assert (Y : keeps (spk := hush) (same (w_heap w) (w_ext w))
      (t_tojson (interp P n) [MInstance (o_class (h_obj (w_heap w1) o))] (top_ctx (w_heap w1) o iw rev on))).
    { apply (y_back (spk := hush) (same (w_heap w) (w_ext w)) (fun _ => True)).
      apply (out_ok (spk := hush) P (w_heap w) (w_ext w) D C TC) with (ig := iw) (W := fun _ => True) (U := []) (M := 0%nat) (rk := fun _ => 0%nat)
        (d := 1%nat) (q := 0%nat); try (intros; exact Logic.I); try (intros; apply silents); try (intros X; discriminate X); auto.
      - intros y [<- | []]. left. exact Logic.I.
      - lia.
      - left. discriminate. }
    destruct (Y (set_mg [] w1)) as [[Y1 Y2] _]; [split; assumption |].
    unfold t_tojson, chain_tojson in Y1, Y2. cbn [map fold_st] in Y1, Y2. unfold bind, ret in Y1, Y2.
    change (nval (top_ctx (w_heap w1) o iw rev on) (c_val (top_ctx (w_heap w1) o iw rev on))) with (top_ctx (w_heap w1) o iw rev on) in Y1, Y2.
    destruct (m_tojson _ _ (set_mg [] w1)) as [[v | e] w2]; cbn [fst snd] in *; repeat split; assumption.
  Qed.
  Lemma still_validate n o all w : alike w (snd (IoModel.validate P n o all w)).
  Proof.
    unfold IoModel.validate, bind, getW, with_new_mgraph, self_mod.
    match goal with |- context [m_validate (interp P n ?m) ?c ?w0] =>
      pose proof (same_validate (spk := hush) P (w_heap w) (w_ext w) D C TC ltac:(intros; apply silents) ltac:(intros; apply silents) ltac:(intros; apply silents)
        ltac:(intros X; discriminate X) n 1 m c [m] Logic.I eq_refl) as H end.
    match type of H with ?A -> ?B -> _ => assert (HA : A) by (intros y [<- | []]; exact Logic.I); assert (HB : B) by (left; discriminate);
      specialize (H HA HB (set_mg [] w)) end.
    destruct H as [[H1 H2] _]; [split; reflexivity |].
    match goal with |- context [m_validate ?m ?c ?w0] => destruct (m_validate m c w0) as [r w1] end. cbn [snd] in *. repeat split; assumption.
  Qed.
  Lemma still_is_valid n o w : alike w (snd (is_valid P n o w)).
  Proof.
    pose proof (still_validate n o (Some false) w) as H. unfold is_valid, on_validation, seq, bind.
    destruct (IoModel.validate P n o (Some false) w) as [[u | []] w1]; exact H.
  Qed.

  Lemma still_ask n q w : alike w (snd (ask P n q w)).
  Proof.
    destruct q; cbn [ask].
    - pose proof (still_tojson n o ignore_writeonly reverse out_null w) as H. destruct (tojson _ _ _ _ _ _ w). exact H.
    - pose proof (still_validate n o all w) as H. destruct (IoModel.validate _ _ _ _ w). exact H.
    - pose proof (still_is_valid n o w) as H. destruct (is_valid _ _ _ w). exact H.
  Qed.
  Lemma still_all n qs : forall w, alike w (snd (ask_all P n qs w)).
  Proof.
    induction qs as [| q qs IH]; intros w; cbn [ask_all]; [apply alike_refl |].
    pose proof (still_ask n q w) as H. destruct (ask P n q w) as [a w1]. specialize (IH w1). destruct (ask_all P n qs w1) as [l w2].
    exact (alike_trans _ _ _ H IH).
  Qed.
End Still.

Lemma same_answer P n q w w' : alike w w' -> fst (ask P n q w') = fst (ask P n q w).
Proof.
  intros A. destruct q; cbn [ask].
  - pose proof (proj1 (alike_runs _ w w' (f_tojson P n o ignore_writeonly reverse out_null) A)) as H. destruct (tojson _ _ _ _ _ _ w), (tojson _ _ _ _ _ _ w'). cbn in *. congruence.
  - pose proof (proj1 (alike_runs _ w w' (f_validate_top P n o all) A)) as H. destruct (IoModel.validate _ _ _ _ w), (IoModel.validate _ _ _ _ w'). cbn in *. congruence.
  - pose proof (proj1 (alike_runs _ w w' (f_is_valid P n o) A)) as H. destruct (is_valid _ _ _ w), (is_valid _ _ _ w'). cbn in *. congruence.
Qed.
