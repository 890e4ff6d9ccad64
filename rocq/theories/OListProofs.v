(** OListProofs.v -- lemmas about the owned list. *)
From Verif Require Import Base PyList OListModel OListSpec.
From Coq Require Import ZifyBool ZifyNat Arith.
Open Scope Z_scope.

Section Lists.
  Context {A : Type}.
  Implicit Types (l : list A) (x y : A).

  Lemma zlen_app l1 l2 : zlen (l1 ++ l2) = zlen l1 + zlen l2.
  Proof. unfold zlen. rewrite app_length. lia. Qed.

  Lemma zlen_nonneg l : 0 <= zlen l.
  Proof. unfold zlen. lia. Qed.

  Lemma nth_error_in_range i l : in_range i l = true ->
    exists x, nth_error l (Z.to_nat i) = Some x.
  Proof.
    unfold in_range, zlen. intros H.
    destruct (nth_error l (Z.to_nat i)) as [x|] eqn:E; [eauto|].
    apply nth_error_None in E. lia.
  Qed.

  Lemma replace_nth_length n x l : length (replace_nth n x l) = length l.
  Proof. revert n; induction l as [|y l IH]; intros [|n]; simpl; auto. Qed.

  Lemma replace_nth_same n x l : (n < length l)%nat ->
    nth_error (replace_nth n x l) n = Some x.
  Proof. revert n; induction l as [|y l IH]; intros [|n] H; simpl in *; auto; try lia.
         apply IH. lia. Qed.

  Lemma replace_nth_other n m x l : n <> m ->
    nth_error (replace_nth n x l) m = nth_error l m.
  Proof. revert n m; induction l as [|y l IH]; intros [|n] [|m] H; simpl in *; auto; try lia.
         all: try congruence. Qed.

  Lemma replace_nth_perm n x y l : nth_error l n = Some y ->
    Permutation (y :: replace_nth n x l) (x :: l).
  Proof.
    revert n; induction l as [|z l IH]; intros [|n] H; simpl in *; try discriminate.
    - injection H as ->. apply perm_swap.
    - specialize (IH n H).
      transitivity (z :: y :: replace_nth n x l); [apply perm_swap|].
      transitivity (z :: x :: l); [apply perm_skip; exact IH|apply perm_swap].
  Qed.

  Lemma remove_nth_perm n y l : nth_error l n = Some y ->
    Permutation l (y :: remove_nth n l).
  Proof.
    revert n; induction l as [|z l IH]; intros [|n] H; simpl in *; try discriminate.
    - injection H as ->. reflexivity.
    - transitivity (z :: y :: remove_nth n l); [apply perm_skip; auto|apply perm_swap].
  Qed.

  Lemma py_insert_perm i x l : Permutation (py_insert i x l) (x :: l).
  Proof.
    unfold py_insert. generalize (py_insert_pos i l) as n. intros n.
    transitivity (x :: firstn n l ++ skipn n l).
    - symmetry. apply Permutation_middle.
    - rewrite firstn_skipn. reflexivity.
  Qed.

  Lemma ins_sorted_perm le x l : Permutation (ins_sorted le x l) (x :: l).
  Proof.
    induction l as [|y l IH]; simpl; [reflexivity|].
    destruct (le x y); [reflexivity|].
    transitivity (y :: x :: l); [apply perm_skip; exact IH|apply perm_swap].
  Qed.

  Lemma py_sort_perm le l : Permutation (py_sort le l) l.
  Proof.
    induction l as [|x l IH]; simpl; [constructor|].
    transitivity (x :: py_sort le l); [apply ins_sorted_perm|apply perm_skip; exact IH].
  Qed.

  Lemma py_pop_spec i l x l' : py_pop i l = Ok (x, l') -> Permutation l (x :: l').
  Proof.
    unfold py_pop, py_get, py_del, rbind.
    destruct (in_range _ l) eqn:Hr; [|discriminate].
    destruct (nth_error l _) as [y|] eqn:E; [|discriminate].
    intros H; injection H as <- <-. apply remove_nth_perm; exact E.
  Qed.

  (** *** slices *)
  Lemma slice_positions_range s l p :
    slice_step s <> 0 -> In p (slice_positions s (zlen l)) -> 0 <= p < zlen l.
  Proof.
    unfold slice_positions. intros Hs Hin.
    apply in_map_iff in Hin. destruct Hin as (k & <- & Hk).
    apply in_seq in Hk. pose proof (zlen_nonneg l) as Hl.
    remember (zlen l) as n eqn:En. clear En.
    remember (slice_step s) as st eqn:Est.
    assert (Hlo : if 0 <? st then 0 <= slice_lo s n <= n else -1 <= slice_lo s n <= n - 1).
    { unfold slice_lo, adj, clamp. rewrite <- Est. destruct (sl_start s) as [a|];
        destruct (0 <? st) eqn:E; try lia. }
    assert (Hhi : if 0 <? st then 0 <= slice_hi s n <= n else -1 <= slice_hi s n <= n - 1).
    { unfold slice_hi, adj, clamp. rewrite <- Est. destruct (sl_stop s) as [a|];
        destruct (0 <? st) eqn:E; try lia. }
    remember (slice_lo s n) as lo eqn:Elo. remember (slice_hi s n) as hi eqn:Ehi.
    clear Elo Ehi Est.
    unfold slice_count in Hk.
    destruct (0 <? st) eqn:E.
    - destruct (lo <? hi) eqn:E2; [|lia].
      assert (Z.of_nat k <= (hi - lo - 1) / st) by lia.
      assert (st * ((hi - lo - 1) / st) <= hi - lo - 1) by (apply Z.mul_div_le; lia).
      nia.
    - destruct (hi <? lo) eqn:E2; [|lia].
      assert (Z.of_nat k <= (lo - hi - 1) / (- st)) by lia.
      assert ((- st) * ((lo - hi - 1) / (- st)) <= lo - hi - 1) by (apply Z.mul_div_le; lia).
      nia.
  Qed.

  Lemma slice_positions_nodup s n : slice_step s <> 0 -> NoDup (slice_positions s n).
  Proof.
    intros Hs. unfold slice_positions.
    apply FinFun.Injective_map_NoDup; [|apply seq_NoDup].
    intros a b H. nia.
  Qed.

  Definition indexed l : list (Z * A) := combine (map Z.of_nat (seq 0 (length l))) l.

  Lemma indexed_in i x l : In (i, x) (indexed l) <->
    0 <= i /\ nth_error l (Z.to_nat i) = Some x.
  Proof.
    unfold indexed.
    assert (G : forall n l, In (i, x) (combine (map Z.of_nat (seq n (length l))) l) <->
      Z.of_nat n <= i /\ nth_error l (Z.to_nat i - n) = Some x).
    { intros n l0; revert n; induction l0 as [|y l0 IH]; intros n; simpl.
      - split; [tauto|]. intros [_ H]. destruct (Z.to_nat i - n)%nat; discriminate.
      - rewrite IH. split.
        + intros [H|[H1 H2]].
          * injection H as <- <-. split; [lia|].
            replace (Z.to_nat (Z.of_nat n) - n)%nat with O by lia. reflexivity.
          * split; [lia|]. replace (Z.to_nat i - n)%nat with (S (Z.to_nat i - S n)) by lia.
            exact H2.
        + intros [H1 H2].
          destruct (Z.to_nat i - n)%nat as [|m] eqn:E; simpl in H2.
          * left. injection H2 as ->. f_equal. lia.
          * right. split; [lia|]. replace (Z.to_nat i - S n)%nat with m by lia. exact H2. }
    rewrite G. rewrite Nat.sub_0_r. reflexivity.
  Qed.

  Lemma map_fst_combine {B C} (xs : list B) (ys : list C) :
    length xs = length ys -> map fst (combine xs ys) = xs.
  Proof. revert ys; induction xs as [|x xs IH]; intros [|y ys] H; simpl in *; try discriminate; auto.
         f_equal. apply IH. lia. Qed.

  Lemma map_snd_combine {B C} (xs : list B) (ys : list C) :
    length xs = length ys -> map snd (combine xs ys) = ys.
  Proof. revert ys; induction xs as [|x xs IH]; intros [|y ys] H; simpl in *; try discriminate; auto.
         f_equal. apply IH. lia. Qed.

  Lemma indexed_nodup l : NoDup (indexed l).
  Proof.
    apply (NoDup_map_inv fst). unfold indexed.
    rewrite map_fst_combine by (rewrite map_length, seq_length; reflexivity).
    apply FinFun.Injective_map_NoDup; [intros a b; lia|apply seq_NoDup].
  Qed.

  Lemma indexed_snd l : map snd (indexed l) = l.
  Proof. unfold indexed. apply map_snd_combine. rewrite map_length, seq_length; reflexivity. Qed.

  Lemma drop_positions_indexed ps l :
    drop_positions ps 0 l =
    map snd (filter (fun p => negb (existsb (Z.eqb (fst p)) ps)) (indexed l)).
  Proof.
    unfold indexed.
    assert (G : forall n l, drop_positions ps (Z.of_nat n) l =
      map snd (filter (fun p => negb (existsb (Z.eqb (fst p)) ps))
                 (combine (map Z.of_nat (seq n (length l))) l))).
    { intros n l0; revert n; induction l0 as [|y l0 IH]; intros n; simpl; [reflexivity|].
      replace (Z.of_nat n + 1) with (Z.of_nat (S n)) by lia. rewrite IH.
      destruct (existsb (Z.eqb (Z.of_nat n)) ps); simpl; reflexivity. }
    apply (G O l).
  Qed.

  Lemma filter_split {B} (f : B -> bool) (xs : list B) :
    Permutation xs (filter f xs ++ filter (fun b => negb (f b)) xs).
  Proof.
    induction xs as [|b xs IH]; simpl; [constructor|].
    destruct (f b); simpl; [apply perm_skip; exact IH|].
    transitivity (b :: filter f xs ++ filter (fun b => negb (f b)) xs);
      [apply perm_skip; exact IH|apply Permutation_middle].
  Qed.

  Lemma picks_indexed ps l :
    NoDup ps -> (forall p, In p ps -> 0 <= p < zlen l) ->
    Permutation (flat_map (pick_nth l) ps)
      (map snd (filter (fun p => existsb (Z.eqb (fst p)) ps) (indexed l))).
  Proof.
    intros Hnd Hr.
    assert (E : exists qs, flat_map (pick_nth l) ps = map snd qs /\ map fst qs = ps /\
              Forall (fun q => nth_error l (Z.to_nat (fst q)) = Some (snd q)) qs).
    { clear Hnd. induction ps as [|p ps IH].
      - exists []. simpl. auto.
      - destruct IH as (qs & E1 & E2 & E3); [intros q Hq; apply Hr; right; exact Hq|].
        assert (Hp := Hr p (or_introl eq_refl)).
        destruct (nth_error_in_range p l) as [x Hx]; [unfold in_range; lia|].
        exists ((p, x) :: qs). cbn [flat_map map fst snd].
        unfold pick_nth at 1. rewrite Hx. rewrite E1, E2. cbn.
        repeat split; auto. }
    destruct E as (qs & E1 & E2 & E3). rewrite E1.
    apply Permutation_map. apply NoDup_Permutation.
    - apply (NoDup_map_inv fst). rewrite E2. exact Hnd.
    - apply NoDup_filter. apply indexed_nodup.
    - intros [i x]. rewrite filter_In, indexed_in. simpl. rewrite existsb_exists. split.
      + intros Hin. rewrite Forall_forall in E3. specialize (E3 _ Hin). simpl in E3.
        assert (In i ps) by (rewrite <- E2; apply (in_map fst) in Hin; exact Hin).
        specialize (Hr i H). split; [split; [lia|exact E3]|].
        exists i. split; [assumption|lia].
      + intros [[H1 H2] (j & Hj & Hij)]. assert (i = j) by lia. subst j.
        rewrite <- E2 in Hj. apply in_map_iff in Hj. destruct Hj as ([i' x'] & H3 & H4).
        simpl in H3. subst i'. rewrite Forall_forall in E3. specialize (E3 _ H4). simpl in E3.
        rewrite H2 in E3. injection E3 as <-. exact H4.
  Qed.

  Lemma delslice_perm s l r l' :
    py_getslice s l = Ok r -> py_delslice s l = Ok l' -> Permutation l (r ++ l').
  Proof.
    unfold py_getslice, py_delslice. destruct (slice_step s =? 0) eqn:E; [discriminate|].
    intros H1 H2. injection H1 as <-. injection H2 as <-.
    rewrite drop_positions_indexed.
    rewrite <- (indexed_snd l) at 1.
    rewrite picks_indexed.
    - rewrite <- map_app. apply Permutation_map.
      apply filter_split.
    - apply slice_positions_nodup. lia.
    - intros p Hp. apply (slice_positions_range s); [lia|exact Hp].
  Qed.

  Lemma set_positions_perm ps vs l :
    NoDup ps -> (forall p, In p ps -> 0 <= p < zlen l) -> length ps = length vs ->
    Permutation (set_positions ps vs l ++ flat_map (pick_nth l) ps) (l ++ vs).
  Proof.
    revert vs l; induction ps as [|p ps IH]; intros [|v vs] l Hnd Hr Hlen;
      simpl in Hlen; try discriminate.
    - simpl. reflexivity.
    - cbn [set_positions flat_map].
      inversion Hnd as [|? ? Hnin Hnd']; subst.
      assert (Hp := Hr p (or_introl eq_refl)).
      destruct (nth_error_in_range p l) as [y Hy]; [unfold in_range; lia|].
      unfold pick_nth at 1. rewrite Hy.
      set (l1 := replace_nth (Z.to_nat p) v l).
      assert (Hpk : flat_map (pick_nth l) ps = flat_map (pick_nth l1) ps).
      { assert (Hall : forall q, In q ps -> p <> q /\ 0 <= q).
        { intros q Hq. split; [intros ->; auto|]. specialize (Hr q (or_intror Hq)). lia. }
        clear -Hall Hp. induction ps as [|q ps IHp]; [reflexivity|].
        cbn [flat_map]. rewrite IHp by (intros; apply Hall; right; assumption).
        f_equal. unfold pick_nth, l1. rewrite replace_nth_other; [reflexivity|].
        specialize (Hall q (or_introl eq_refl)). lia. }
      rewrite Hpk.
      assert (IH' : Permutation (set_positions ps vs l1 ++ flat_map (pick_nth l1) ps) (l1 ++ vs)).
      { apply IH; [exact Hnd'| |lia].
        intros q Hq. unfold l1, zlen. rewrite replace_nth_length. apply Hr; right; exact Hq. }
      transitivity (y :: set_positions ps vs l1 ++ flat_map (pick_nth l1) ps).
      { simpl. symmetry. apply Permutation_middle. }
      transitivity (y :: l1 ++ vs); [apply perm_skip; exact IH'|].
      transitivity ((v :: l) ++ vs).
      { change (y :: l1 ++ vs) with ((y :: l1) ++ vs). apply Permutation_app_tail.
        apply replace_nth_perm. exact Hy. }
      simpl. apply Permutation_middle.
  Qed.

  Lemma skipn_add l (a b : nat) : skipn a (skipn b l) = skipn (b + a) l.
  Proof. revert b; induction l as [|z l IH]; intros [|b]; simpl; auto.
         rewrite !skipn_nil. reflexivity. Qed.

  Lemma firstn_skipn_mid l (a b : nat) : (a <= b)%nat ->
    Permutation l (firstn (b - a) (skipn a l) ++ firstn a l ++ skipn b l).
  Proof.
    intros H. rewrite <- (firstn_skipn a l) at 1.
    rewrite <- (firstn_skipn (b - a) (skipn a l)) at 1.
    replace (skipn (b - a) (skipn a l)) with (skipn b l).
    - rewrite Permutation_app_swap_app. reflexivity.
    - rewrite skipn_add. f_equal. lia.
  Qed.

  Lemma picks_contig l a n : 
    flat_map (pick_nth l) (map (fun k => Z.of_nat a + Z.of_nat k * 1) (seq 0 n)) =
    firstn n (skipn a l).
  Proof.
    assert (G : forall m a, flat_map (pick_nth l) (map (fun k => Z.of_nat a + Z.of_nat k * 1) (seq m n)) =
                firstn n (skipn (a + m) l)).
    { induction n as [|n IH]; intros m b; [reflexivity|].
      cbn [seq map flat_map]. rewrite IH.
      unfold pick_nth. replace (Z.to_nat (Z.of_nat b + Z.of_nat m * 1)) with (b + m)%nat by lia.
      replace (b + S m)%nat with (S (b + m)) by lia.
      generalize (b + m)%nat as q. intros q.
      clear. revert q. induction l as [|x l IH]; intros q.
      - destruct q; simpl; destruct n; reflexivity.
      - destruct q as [|q]; [reflexivity|]. simpl nth_error. rewrite !skipn_cons. apply IH. }
    rewrite G. f_equal. f_equal. lia.
  Qed.

  Lemma setslice_perm s vs l r l' :
    py_getslice s l = Ok r -> py_setslice s vs l = Ok l' ->
    Permutation (l' ++ r) (l ++ vs).
  Proof.
    unfold py_getslice, py_setslice. destruct (slice_step s =? 0) eqn:E; [discriminate|].
    intros H1. injection H1 as <-.
    destruct (slice_step s =? 1) eqn:E1.
    - intros H2. injection H2 as <-.
      unfold slice_positions. assert (Hst : slice_step s = 1) by lia. rewrite Hst.
      assert (Hlo : 0 <= slice_lo s (zlen l) <= zlen l).
      { pose proof (zlen_nonneg l). unfold slice_lo, adj, clamp. rewrite Hst.
        destruct (sl_start s); simpl; lia. }
      assert (Hhi : 0 <= slice_hi s (zlen l) <= zlen l).
      { pose proof (zlen_nonneg l). unfold slice_hi, adj, clamp. rewrite Hst.
        destruct (sl_stop s); simpl; lia. }
      set (lo := slice_lo s (zlen l)) in *. set (hi := slice_hi s (zlen l)) in *.
      set (n := Z.to_nat (slice_count lo hi 1)).
      replace (map (fun k => lo + Z.of_nat k * 1) (seq 0 n))
        with (map (fun k => Z.of_nat (Z.to_nat lo) + Z.of_nat k * 1) (seq 0 n))
        by (apply map_ext; intros; lia).
      rewrite picks_contig.
      assert (Hn : n = (Z.to_nat (Z.max lo hi) - Z.to_nat lo)%nat).
      { unfold n, slice_count. simpl. destruct (lo <? hi) eqn:Eh; [rewrite Z.div_1_r; lia|lia]. }
      rewrite Hn.
      pose proof (firstn_skipn_mid l (Z.to_nat lo) (Z.to_nat (Z.max lo hi)) ltac:(lia)) as HP.
      set (P := firstn (Z.to_nat (Z.max lo hi) - Z.to_nat lo) (skipn (Z.to_nat lo) l)) in *.
      set (F := firstn (Z.to_nat lo) l) in *. set (S := skipn (Z.to_nat (Z.max lo hi)) l) in *.
      rewrite HP. clear HP.
      transitivity (P ++ (F ++ vs ++ S)); [apply Permutation_app_comm|].
      rewrite <- app_assoc. apply Permutation_app_head.
      rewrite <- app_assoc. apply Permutation_app_head.
      apply Permutation_app_comm.
    - destruct (Nat.eqb _ _) eqn:El; [|discriminate].
      intros H2. injection H2 as <-.
      apply set_positions_perm.
      + apply slice_positions_nodup. lia.
      + intros p Hp. apply (slice_positions_range s); [lia|exact Hp].
      + lia.
  Qed.
End Lists.

(** ** Refinement *)
Section Refine.
  Context {A : Type} (eqb : A -> A -> bool).

  Lemma owned_step_plain o (l : list A) : sized_argument o ->
    plain_step eqb o l = fst (owned_step eqb o l).
  Proof.
    destruct o as [y|it|i y|y|le| |i| |it|n|i y|s it| |i|s| ];
      cbn [plain_step owned_step sized_argument]; unfold keep; try reflexivity; intros Hs.
    - destruct it as [xs| |xs| ]; [reflexivity|reflexivity|contradiction|reflexivity].
    - unfold o_remove. destruct (py_remove eqb y l); reflexivity.
    - unfold o_pop. destruct (py_pop i l) as [[y l']|]; reflexivity.
    - destruct it as [xs| |xs| ]; [reflexivity|reflexivity|contradiction|reflexivity].
    - unfold o_imul. destruct (n <=? 0); [reflexivity|]. destruct (n =? 1); reflexivity.
    - unfold o_setint. destruct (py_set i y l); reflexivity.
    - unfold o_setslice, py_getslice. destruct (slice_step s =? 0) eqn:E; [reflexivity|].
      destruct (rbind (iter_items l it) (fun xs => py_setslice s xs l)); reflexivity.
    - unfold o_delint. destruct (py_del i l); reflexivity.
    - unfold o_delslice, py_getslice, py_delslice.
      destruct (slice_step s =? 0) eqn:E; reflexivity.
  Qed.

  Lemma owned_run_plain os (l : list A) : Forall sized_argument os ->
    plain_run eqb os l = fst (owned_run eqb os l).
  Proof.
    intros H. revert l; induction H as [|o os Ho _ IH]; intros l; cbn [plain_run owned_run]; [reflexivity|].
    rewrite owned_step_plain by exact Ho. destruct (owned_step eqb o l) as [[r l1] es]. cbn [fst].
    rewrite IH. destruct (owned_run eqb os l1) as [[rs l2] es']. reflexivity.
  Qed.
End Refine.

(** ** Ledger *)
Section Ledger.
  Context {A : Type} (eqb : A -> A -> bool) (EQ : equivb eqb).
  Implicit Types (l : list A).

  Lemma count_app x l1 l2 : count eqb x (l1 ++ l2) = count eqb x l1 + count eqb x l2.
  Proof. unfold count. rewrite filter_app, app_length. lia. Qed.

  Lemma count_cons x y l : count eqb x (y :: l) = (if eqb x y then 1 else 0) + count eqb x l.
  Proof. unfold count. cbn [filter]. destruct (eqb x y); cbn [length]; lia. Qed.

  Lemma count_nil x : count eqb x [] = 0.
  Proof. reflexivity. Qed.

  Lemma filter_perm {B} (f : B -> bool) (xs ys : list B) :
    Permutation xs ys -> Permutation (filter f xs) (filter f ys).
  Proof.
    induction 1 as [|b xs ys H IH|a b xs|xs ys zs H1 IH1 H2 IH2]; simpl.
    - constructor.
    - destruct (f b); [apply perm_skip|]; exact IH.
    - destruct (f a), (f b); try reflexivity. apply perm_swap.
    - etransitivity; eassumption.
  Qed.

  Lemma count_perm x l1 l2 : Permutation l1 l2 -> count eqb x l1 = count eqb x l2.
  Proof.
    intros H. unfold count. f_equal. apply Permutation_length. apply filter_perm. exact H.
  Qed.

  Lemma tally_app x es1 es2 : tally eqb x (es1 ++ es2) = tally eqb x es1 + tally eqb x es2.
  Proof. induction es1 as [|e es1 IH]; simpl; [reflexivity|]. rewrite IH. lia. Qed.

  Lemma tally_adds x cur step xs c : tally eqb x (adds_from cur step xs c) = count eqb x xs.
  Proof.
    unfold adds_from.
    assert (G : forall n, tally eqb x
       (map (fun p : nat * A => (CAdd (cur + Z.of_nat (fst p) * step) (snd p), c))
         (combine (seq n (length xs)) xs)) = count eqb x xs).
    { induction xs as [|y xs IH]; intros n; simpl; [reflexivity|].
      rewrite IH, count_cons. reflexivity. }
    apply G.
  Qed.

  Lemma tally_dels x xs c : tally eqb x (dels xs c) = - count eqb x xs.
  Proof.
    unfold dels. induction xs as [|y xs IH]; simpl; [reflexivity|].
    rewrite IH, count_cons. destruct (eqb x y); lia.
  Qed.

  Lemma count_repeat x n l : count eqb x (repeat_list n l) = Z.of_nat n * count eqb x l.
  Proof. induction n as [|n IH]; cbn [repeat_list]; [rewrite count_nil; lia|].
         rewrite count_app, IH. lia. Qed.

  Lemma py_remove_count x y l l' : py_remove eqb y l = Ok l' ->
    count eqb x l = (if eqb x y then 1 else 0) + count eqb x l'.
  Proof.
    revert l'; induction l as [|z l IH]; intros l' H; simpl in H; [discriminate|].
    destruct (eqb z y) eqn:E.
    - injection H as <-. rewrite count_cons. f_equal.
      destruct (eqb x z) eqn:E1.
      + rewrite (eqb_trans _ EQ x z y E1 E). reflexivity.
      + destruct (eqb x y) eqn:E2; [|reflexivity].
        rewrite (eqb_sym _ EQ) in E.
        rewrite (eqb_trans _ EQ x y z E2 E) in E1. discriminate.
    - destruct (py_remove eqb y l) as [r|]; simpl in H; [|discriminate].
      injection H as <-. rewrite !count_cons, (IH r eq_refl). lia.
  Qed.

  Lemma py_set_item i v l l' : py_set i v l = Ok l' ->
    exists y, item_or_none (if i <? 0 then zlen l + i else i) l = Some y /\
              Permutation (y :: l') (v :: l) /\
              in_range (if i <? 0 then zlen l + i else i) l = true /\
              l' = replace_nth (Z.to_nat (if i <? 0 then zlen l + i else i)) v l.
  Proof.
    unfold py_set, norm_idx, item_or_none.
    replace (i + zlen l) with (zlen l + i) by lia.
    set (j := if i <? 0 then zlen l + i else i).
    destruct (in_range j l) eqn:Hr; [|discriminate].
    intros H; injection H as <-.
    destruct (nth_error_in_range j l Hr) as [y Hy]. rewrite Hy.
    exists y. split; [reflexivity|]. split; [apply replace_nth_perm; exact Hy|auto].
  Qed.

  Lemma py_del_item i l l' : py_del i l = Ok l' ->
    exists y, item_or_none (if i <? 0 then zlen l + i else i) l = Some y /\
              Permutation l (y :: l').
  Proof.
    unfold py_del, norm_idx, item_or_none.
    replace (i + zlen l) with (zlen l + i) by lia.
    set (j := if i <? 0 then zlen l + i else i).
    destruct (in_range j l) eqn:Hr; [|discriminate].
    intros H; injection H as <-.
    destruct (nth_error_in_range j l Hr) as [y Hy]. rewrite Hy.
    exists y. split; [reflexivity|]. apply remove_nth_perm; exact Hy.
  Qed.

  Lemma owned_step_ledger x o l : repeatable_argument o ->
    count eqb x (snd (fst (owned_step eqb o l))) =
    count eqb x l + tally eqb x (snd (owned_step eqb o l)).
  Proof.
    destruct o as [y|it|i y|y|le| |i| |it|n|i y|s it| |i|s| ]; cbn [owned_step repeatable_argument]; intros Hrep.
    - unfold o_append; cbn [fst snd]. rewrite count_app. simpl. rewrite count_cons, count_nil. lia.
    - destruct it as [xs| |xs| ]; [|contradiction|cbn; lia|cbn; lia].
      unfold o_extend; cbn [iter_len iter_items iter_again fst snd].
      rewrite count_app, tally_app, tally_adds.
      destruct (0 <? zlen xs); simpl; lia.
    - unfold o_insert; cbn [fst snd]. rewrite (count_perm x _ _ (py_insert_perm i y l)).
      rewrite count_cons. simpl. lia.
    - unfold o_remove. destruct (py_remove eqb y l) as [l'|e] eqn:E; cbn [fst snd].
      + rewrite (py_remove_count x y l l' E). simpl. destruct (eqb x y); lia.
      + simpl. lia.
    - unfold o_sort; cbn [fst snd]. rewrite (count_perm x _ _ (py_sort_perm le l)). simpl. lia.
    - unfold o_clear; cbn [fst snd].
      change ((CWill, l) :: dels l []) with ([(CWill (A:=A), l)] ++ dels l []).
      rewrite tally_app, tally_dels, count_nil. simpl. lia.
    - unfold o_pop. destruct (py_pop i l) as [[y l']|e] eqn:E; cbn [fst snd].
      + apply py_pop_spec in E. rewrite (count_perm x _ _ E), count_cons. simpl.
        destruct (eqb x y); lia.
      + simpl. lia.
    - unfold o_reverse; cbn [fst snd].
      rewrite <- (count_perm x _ _ (Permutation_rev l)). simpl. lia.
    - destruct it as [xs| |xs| ]; [|contradiction|cbn; lia|cbn; lia].
      unfold o_iadd; cbn [iter_len iter_items iter_again fst snd].
      rewrite count_app, tally_app, tally_adds.
      destruct (0 <? zlen xs); simpl; lia.
    - unfold o_imul, py_imul. destruct (n <=? 0) eqn:E1; [|destruct (n =? 1) eqn:E2]; cbn [fst snd].
      + replace (Z.to_nat n) with O by lia. cbn [repeat_list].
        rewrite !tally_app, tally_dels, tally_adds, !count_nil.
        destruct (_ || _); simpl; lia.
      + replace (Z.to_nat n) with 1%nat by lia. cbn [repeat_list].
        rewrite app_nil_r. simpl. lia.
      + rewrite !tally_app, tally_dels, tally_adds, !count_nil, !count_repeat.
        destruct (_ || _); simpl tally; nia.
    - unfold o_setint. destruct (py_set i y l) as [l'|e] eqn:E; cbn [fst snd].
      + apply py_set_item in E. destruct E as (z & -> & HP & _).
        apply (count_perm x) in HP. rewrite !count_cons in HP. simpl.
        destruct (eqb x y), (eqb x z); lia.
      + simpl. lia.
    - unfold o_setslice. destruct (py_getslice s l) as [r|e] eqn:E1; cbn [fst snd].
      2: { simpl; lia. }
      destruct it as [xs| |xs| ]; try contradiction; cbn [iter_items iter_again rbind].
      2: { simpl; lia. }
      destruct (py_setslice s xs l) as [l'|e] eqn:E2; cbn [fst snd].
      2: { simpl; lia. }
      pose proof (setslice_perm s xs l r l' E1 E2) as HP. apply (count_perm x) in HP.
      rewrite !count_app in HP.
      match goal with |- context [(CWill, l) :: ?es] =>
        change ((CWill, l) :: es) with ([(CWill (A:=A), l)] ++ es) end.
      rewrite !tally_app, tally_dels, tally_adds. simpl. lia.
    - cbn. lia.
    - unfold o_delint. destruct (py_del i l) as [l'|e] eqn:E; cbn [fst snd].
      + apply py_del_item in E. destruct E as (z & -> & HP).
        apply (count_perm x) in HP. rewrite !count_cons in HP. simpl.
        destruct (eqb x z); lia.
      + simpl. lia.
    - unfold o_delslice. destruct (py_getslice s l) as [r|e] eqn:E1; cbn [fst snd].
      2: { simpl; lia. }
      destruct (py_delslice s l) as [l'|e] eqn:E2; cbn [fst snd].
      2: { simpl; lia. }
      pose proof (delslice_perm s l r l' E1 E2) as HP. apply (count_perm x) in HP.
      rewrite !count_app in HP.
      change ((CWill, l) :: dels r l') with ([(CWill (A:=A), l)] ++ dels r l').
      rewrite tally_app, tally_dels. simpl. lia.
    - cbn. lia.
  Qed.

  Lemma owned_run_ledger x os l : Forall repeatable_argument os ->
    count eqb x (snd (fst (owned_run eqb os l))) =
    count eqb x l + tally eqb x (snd (owned_run eqb os l)).
  Proof.
    intros H. revert l; induction H as [|o os Ho _ IH]; intros l; cbn [owned_run].
    - cbn. lia.
    - pose proof (owned_step_ledger x o l Ho) as H1.
      destruct (owned_step eqb o l) as [[r l1] es]. cbn [fst snd] in *.
      specialize (IH l1). destruct (owned_run eqb os l1) as [[rs l2] es']. cbn [fst snd] in *.
      rewrite tally_app. lia.
  Qed.
End Ledger.

(** ** Order of calls *)
Section Warned.
  Context {A : Type} (eqb : A -> A -> bool).
  Implicit Types (l : list A).

  Lemma adds_from_after cur step xs c :
    Forall (fun e : ev A => snd e = c /\ fst e <> CWill) (adds_from cur step xs c).
  Proof.
    unfold adds_from. apply Forall_forall. intros e He. apply in_map_iff in He.
    destruct He as (p & <- & _). simpl. split; [reflexivity|discriminate].
  Qed.

  Lemma dels_after xs c : Forall (fun e : ev A => snd e = c /\ fst e <> CWill) (dels xs c).
  Proof.
    unfold dels. apply Forall_forall. intros e He. apply in_map_iff in He.
    destruct He as (p & <- & _). simpl. split; [reflexivity|discriminate].
  Qed.

  Lemma zlen_pos_nil l : (0 <? zlen l) = false -> l = [].
  Proof. destruct l; [reflexivity|]. unfold zlen. simpl length. lia. Qed.

  Lemma owned_step_warned o l :
    warned_first l (snd (fst (owned_step eqb o l))) (snd (owned_step eqb o l)).
  Proof.
    unfold warned_first.
    destruct o as [y|it|i y|y|le| |i| |it|n|i y|s it| |i|s| ]; cbn [owned_step].
    - right. eexists. split; [reflexivity|]. repeat constructor; discriminate.
    - destruct it as [xs| |xs| ]; [| |left; auto|left; auto];
        unfold o_extend; cbn [iter_len iter_items iter_again fst snd].
      + destruct (0 <? zlen xs) eqn:E.
        * right. eexists. split; [reflexivity|]. apply adds_from_after.
        * left. apply zlen_pos_nil in E. subst xs. split; [reflexivity|apply app_nil_r].
      + destruct (0 <? zlen l) eqn:E.
        * right. eexists. split; [reflexivity|]. apply adds_from_after.
        * left. apply zlen_pos_nil in E. subst l. split; reflexivity.
    - right. eexists. split; [reflexivity|]. repeat constructor; discriminate.
    - unfold o_remove. destruct (py_remove eqb y l); cbn [fst snd]; right; eexists;
        (split; [reflexivity|]); repeat constructor; discriminate.
    - right. eexists. split; [reflexivity|]. repeat constructor; discriminate.
    - right. eexists. split; [reflexivity|]. apply dels_after.
    - unfold o_pop. destruct (py_pop i l) as [[y l']|]; cbn [fst snd]; right; eexists;
        (split; [reflexivity|]); repeat constructor; discriminate.
    - right. eexists. split; [reflexivity|]. repeat constructor; discriminate.
    - destruct it as [xs| |xs| ]; [| |left; auto|left; auto];
        unfold o_iadd; cbn [iter_len iter_items iter_again fst snd].
      + destruct (0 <? zlen xs) eqn:E.
        * right. eexists. split; [reflexivity|]. apply adds_from_after.
        * left. apply zlen_pos_nil in E. subst xs. split; [reflexivity|apply app_nil_r].
      + destruct (0 <? zlen l) eqn:E.
        * right. eexists. split; [reflexivity|]. apply adds_from_after.
        * left. apply zlen_pos_nil in E. subst l. split; reflexivity.
    - unfold o_imul, py_imul. destruct (n <=? 0) eqn:E1; [|destruct (n =? 1) eqn:E2]; cbn [fst snd].
      + destruct ((0 <? zlen l) || _) eqn:E.
        * right. eexists. split; [reflexivity|]. apply Forall_app. split;
            [apply dels_after|apply adds_from_after].
        * left. assert (El : l = []) by (apply zlen_pos_nil; destruct (0 <? zlen l); [discriminate|reflexivity]).
          subst l. replace (Z.to_nat n) with O by lia. split; reflexivity.
      + left. replace (Z.to_nat n) with 1%nat by lia. cbn [repeat_list].
        split; [reflexivity|apply app_nil_r].
      + destruct (_ || _) eqn:E.
        * right. eexists. split; [reflexivity|]. apply Forall_app. split;
            [apply dels_after|apply adds_from_after].
        * left. assert (El : l = []).
          { apply orb_false_elim in E. destruct E as [_ E]. apply zlen_pos_nil in E.
            destruct (Z.to_nat (n - 1)) eqn:En; [lia|]. cbn [repeat_list] in E.
            apply app_eq_nil in E. tauto. }
          subst l.
          assert (Hr : forall k, repeat_list k (@nil A) = []) by (intros k; induction k; auto).
          rewrite !Hr. split; reflexivity.
    - unfold o_setint. destruct (py_set i y l); cbn [fst snd]; right; eexists;
        (split; [reflexivity|]); repeat constructor; discriminate.
    - unfold o_setslice. destruct (py_getslice s l) as [r|e]; cbn [fst snd]; [|left; auto].
      destruct (rbind (iter_items l it) (fun xs => py_setslice s xs l)) as [l'|e]; cbn [fst snd].
      + right. eexists. split; [reflexivity|]. apply Forall_app. split;
            [apply dels_after|apply adds_from_after].
      + right. eexists. split; [reflexivity|]. constructor.
    - left; auto.
    - unfold o_delint. destruct (py_del i l); cbn [fst snd]; right; eexists;
        (split; [reflexivity|]); repeat constructor; discriminate.
    - unfold o_delslice. destruct (py_getslice s l) as [r|e]; cbn [fst snd]; [|left; auto].
      destruct (py_delslice s l) as [l'|e]; cbn [fst snd].
      + right. eexists. split; [reflexivity|]. apply dels_after.
      + right. eexists. split; [reflexivity|]. constructor.
    - left; auto.
  Qed.
End Warned.

(** ** Located additions *)
Section Located.
  Context {A : Type} (eqb : A -> A -> bool).
  Implicit Types (l : list A).

  Lemma adds_from_in cur step xs c i x c' :
    In (CAdd i x, c') (@adds_from A cur step xs c) ->
    exists k, nth_error xs k = Some x /\ i = cur + Z.of_nat k * step /\ c' = c.
  Proof.
    unfold adds_from. intros H. apply in_map_iff in H. destruct H as ([k y] & H & Hin).
    simpl in H. injection H as <- <- <-. exists k.
    assert (G : forall n, In (k, y) (combine (seq n (length xs)) xs) ->
              (n <= k)%nat /\ nth_error xs (k - n) = Some y).
    { clear. induction xs as [|z xs IH]; intros n H; simpl in H; [contradiction|].
      destruct H as [H|H].
      - injection H as <- <-. split; [lia|]. rewrite Nat.sub_diag. reflexivity.
      - apply IH in H. destruct H as [H1 H2]. split; [lia|].
        replace (k - n)%nat with (S (k - S n)) by lia. exact H2. }
    apply G in Hin. rewrite Nat.sub_0_r in Hin. tauto.
  Qed.

  Lemma dels_no_add xs c i x c' : ~ In (CAdd i x, c') (@dels A xs c).
  Proof. unfold dels. intros H. apply in_map_iff in H. destruct H as (y & H & _). discriminate. Qed.

  Lemma located_append l xs pre :
    adds_located pre ->
    adds_located (pre ++ adds_from (zlen l) 1 xs (l ++ xs)).
  Proof.
    intros Hpre i x c Hin. apply in_app_or in Hin. destruct Hin as [Hin|Hin]; [eauto|].
    apply adds_from_in in Hin. destruct Hin as (k & Hk & -> & ->).
    unfold zlen. split; [lia|].
    rewrite nth_error_app2 by lia.
    replace (Z.to_nat (Z.of_nat (length l) + Z.of_nat k * 1) - length l)%nat with k by lia.
    exact Hk.
  Qed.

  Lemma will_located l : adds_located (A:=A) [(CWill, l)].
  Proof. intros i x c [H|[]]; discriminate. Qed.

  Lemma nil_located : adds_located (A:=A) [].
  Proof. intros i x c []. Qed.

  Lemma set_positions_nth ps vs l k p v :
    NoDup ps -> (forall q, In q ps -> 0 <= q < zlen l) ->
    nth_error ps k = Some p -> nth_error vs k = Some v -> 
    nth_error (set_positions ps vs l) (Z.to_nat p) = Some v.
  Proof.
    revert vs l k; induction ps as [|q ps IH]; intros vs l k Hnd Hr Hp Hv.
    - destruct k; discriminate.
    - destruct vs as [|w vs]; [destruct k; discriminate|].
      inversion Hnd as [|? ? Hnin Hnd']; subst. cbn [set_positions].
      assert (Hq := Hr q (or_introl eq_refl)).
      assert (Hr' : forall q0, In q0 ps -> 0 <= q0 < zlen (replace_nth (Z.to_nat q) w l)).
      { intros q0 H0. unfold zlen. rewrite replace_nth_length. apply Hr; right; exact H0. }
      destruct k as [|k]; simpl in Hp, Hv.
      + injection Hp as ->. injection Hv as ->.
        assert (Hkeep : forall us m, (forall q0, In q0 ps -> 0 <= q0 < zlen m) ->
                  nth_error m (Z.to_nat p) = Some v ->
                  nth_error (set_positions ps us m) (Z.to_nat p) = Some v).
        { clear -Hnin Hq. induction ps as [|q0 ps IH]; intros us m Hm Hn;
            destruct us as [|u us]; simpl; auto.
          apply IH.
          - intros H; apply Hnin; right; exact H.
          - intros q1 H1. unfold zlen. rewrite replace_nth_length. apply Hm; right; exact H1.
          - rewrite replace_nth_other; [exact Hn|].
            intros E. apply Hnin. left.
            specialize (Hm q0 (or_introl eq_refl)). lia. }
        apply Hkeep; [exact Hr'|]. apply replace_nth_same. unfold zlen in Hq. lia.
      + apply (IH vs _ k); auto.
  Qed.

  Lemma owned_step_located o l :
    repeatable_argument o -> index_reported o l -> adds_located (snd (owned_step eqb o l)).
  Proof.
    destruct o as [y|it|i y|y|le| |i| |it|n|i y|s it| |i|s| ];
      cbn [owned_step index_reported repeatable_argument]; intros Hrep Hok.
    - intros i x c [H|[H|[]]]; [discriminate|]. injection H as <- <- <-.
      rewrite zlen_app. unfold zlen. simpl length. split; [lia|].
      replace (Z.to_nat (Z.of_nat (length l) + Z.of_nat 1 - 1)) with (length l + 0)%nat by lia.
      rewrite nth_error_app2 by lia. replace (length l + 0 - length l)%nat with O by lia. reflexivity.
    - destruct it as [xs| |xs| ]; [|contradiction|apply nil_located|apply nil_located].
      unfold o_extend; cbn [iter_len iter_items iter_again fst snd]. destruct (0 <? zlen xs).
      + apply located_append, will_located.
      + apply located_append, nil_located.
    - intros j x c [H|[H|[]]]; [discriminate|]. injection H as <- <- <-.
      pose proof (zlen_nonneg l). split; [lia|].
      unfold py_insert. assert (Hp : py_insert_pos i l = Z.to_nat (Z.min (zlen l) i)).
      { unfold py_insert_pos, norm_idx, clamp. destruct (i <? 0) eqn:E; lia. }
      rewrite Hp. rewrite nth_error_app2; rewrite firstn_length; unfold zlen in *; [|lia].
      replace (_ - _)%nat with O by lia. reflexivity.
    - unfold o_remove. destruct (py_remove eqb y l); cbn [fst snd];
        intros j x c H; simpl in H; intuition discriminate.
    - intros j x c H; simpl in H; intuition discriminate.
    - intros j x c [H|H]; [discriminate|]. exfalso. eapply dels_no_add; exact H.
    - unfold o_pop. destruct (py_pop i l) as [[y l']|]; cbn [fst snd];
        intros j x c H; simpl in H; intuition discriminate.
    - intros j x c H; simpl in H; intuition discriminate.
    - destruct it as [xs| |xs| ]; [|contradiction|apply nil_located|apply nil_located].
      unfold o_iadd; cbn [iter_len iter_items iter_again fst snd]. destruct (0 <? zlen xs).
      + apply located_append, will_located.
      + apply located_append, nil_located.
    - unfold o_imul, py_imul. destruct (n <=? 0) eqn:E1; [|destruct (n =? 1) eqn:E2]; cbn [fst snd].
      + intros j x c Hin. repeat (apply in_app_or in Hin; destruct Hin as [Hin|Hin]).
        * destruct (_ || _); simpl in Hin; intuition discriminate.
        * exfalso; eapply dels_no_add; exact Hin.
        * simpl in Hin. contradiction.
      + intros j x c Hin. repeat (apply in_app_or in Hin; destruct Hin as [Hin|Hin]); simpl in Hin;
          contradiction.
      + rewrite app_assoc.
        replace (repeat_list (Z.to_nat n) l) with (l ++ repeat_list (Z.to_nat (n - 1)) l).
        * apply located_append. intros j x c Hin. apply in_app_or in Hin. destruct Hin as [Hin|Hin].
          -- destruct (_ || _); simpl in Hin; intuition discriminate.
          -- simpl in Hin. contradiction.
        * replace (Z.to_nat n) with (S (Z.to_nat (n - 1))) by lia. reflexivity.
    - unfold o_setint. destruct (py_set i y l) as [l'|e] eqn:E; cbn [fst snd].
      + apply (py_set_item i y l l') in E. destruct E as (z & -> & _ & Hr & ->).
        intros j x c [H|[H|[H|[]]]]; try discriminate. injection H as <- <- <-.
        unfold in_range in Hr. split; [lia|]. apply replace_nth_same. unfold zlen in *. lia.
      + intros j x c H; simpl in H; intuition discriminate.
    - unfold o_setslice. destruct (py_getslice s l) as [r|e] eqn:E1; cbn [fst snd]; [|apply nil_located].
      destruct it as [xs| |xs| ]; try contradiction; cbn [iter_items iter_again rbind];
        [|apply will_located].
      destruct (py_setslice s xs l) as [l'|e] eqn:E2; cbn [fst snd]; [|apply will_located].
      intros j x c [H|Hin]; [discriminate|].
      apply in_app_or in Hin. destruct Hin as [Hin|Hin]; [exfalso; eapply dels_no_add; exact Hin|].
      apply adds_from_in in Hin. destruct Hin as (k & Hk & -> & ->).
      assert (Hk' : (k < length xs)%nat) by (apply nth_error_Some; congruence).
      unfold py_getslice in E1. destruct (slice_step s =? 0) eqn:E0; [discriminate|].
      unfold py_setslice in E2. rewrite E0 in E2.
      assert (Hstep : or_default 1 (sl_step s) = slice_step s).
      { unfold or_default, slice_step in *. destruct (sl_step s) as [z|]; [|reflexivity].
        destruct z; [lia|reflexivity|reflexivity]. }
      rewrite Hstep.
      assert (Hlen := zlen_nonneg l).
      assert (Hstart : Z.min (Z.max 0 (if or_default 0 (sl_start s) <? 0
                 then zlen l + or_default 0 (sl_start s) else or_default 0 (sl_start s))) (zlen l)
                 = slice_lo s (zlen l)).
      { unfold or_default, slice_lo, adj, clamp.
        destruct Hok as [Hpos|(st & Hst & Hrng)].
        - replace (0 <? slice_step s) with true by lia.
          destruct (sl_start s) as [z|]; [|cbn; lia].
          replace (match z with 0 => 0 | _ => z end) with z by (destruct z; reflexivity).
          destruct (z <? 0); lia.
        - rewrite Hst. replace (match st with 0 => 0 | _ => st end) with st by (destruct st; reflexivity).
          destruct (st <? 0) eqn:Est; destruct (0 <? slice_step s); lia. }
      rewrite Hstart.
      destruct (slice_step s =? 1) eqn:Eone.
      + injection E2 as <-. assert (Hst1 : slice_step s = 1) by lia. rewrite Hst1 in *.
        assert (Hlo : 0 <= slice_lo s (zlen l) <= zlen l).
        { unfold slice_lo, adj, clamp. rewrite Hst1.
          destruct (sl_start s) as [z|]; simpl; [|lia]. destruct (z <? 0); lia. }
        split; [lia|].
        rewrite nth_error_app2; rewrite firstn_length; unfold zlen in *; [|lia].
        rewrite nth_error_app1 by lia.
        match goal with |- nth_error xs ?n = _ => replace n with k by lia end. exact Hk.
      + destruct (Nat.eqb _ _) eqn:El; [|discriminate]. injection E2 as <-.
        assert (Hps : nth_error (slice_positions s (zlen l)) k =
                      Some (slice_lo s (zlen l) + Z.of_nat k * slice_step s)).
        { unfold slice_positions in *. rewrite map_length, seq_length in El.
          erewrite map_nth_error; [reflexivity|].
          rewrite nth_error_nth' with (d := O); [|rewrite seq_length; lia].
          rewrite seq_nth by lia. reflexivity. }
        assert (Hin : In (slice_lo s (zlen l) + Z.of_nat k * slice_step s)
                         (slice_positions s (zlen l))) by (eapply nth_error_In; exact Hps).
        apply slice_positions_range in Hin; [|lia].
        split; [lia|].
        eapply set_positions_nth; eauto.
        * apply slice_positions_nodup. lia.
        * intros q Hq. apply (slice_positions_range s); [lia|exact Hq].
    - apply nil_located.
    - unfold o_delint. destruct (py_del i l); cbn [fst snd];
        intros j x c H; simpl in H; intuition discriminate.
    - unfold o_delslice. destruct (py_getslice s l) as [r|e]; cbn [fst snd]; [|apply nil_located].
      destruct (py_delslice s l) as [l'|e]; cbn [fst snd]; [|apply will_located].
      intros j x c [H|H]; [discriminate|]. exfalso. eapply dels_no_add; exact H.
    - apply nil_located.
  Qed.
End Located.

(** ** In the form of the statements *)
Section Statements.
  Context (A : Type) (eqb : A -> A -> bool).

  Lemma owned_run_is_plain (os : list (lop A)) (l : list A) :
    Forall sized_argument os ->
    let '(results, content, _) := owned_run eqb os l in
    plain_run eqb os l = (results, content).
  Proof.
    intros Hs. pose proof (owned_run_plain eqb os l Hs) as H.
    destruct (owned_run eqb os l) as [[r c] es]. exact H.
  Qed.

  Lemma owned_run_balance : equivb eqb -> forall (x : A) (os : list (lop A)) (l : list A),
    Forall repeatable_argument os ->
    let '(_, content, calls) := owned_run eqb os l in
    count eqb x content = count eqb x l + tally eqb x calls.
  Proof.
    intros EQ x os l Hr. pose proof (owned_run_ledger eqb EQ x os l Hr) as H.
    destruct (owned_run eqb os l) as [[r c] es]. exact H.
  Qed.

  Lemma owned_step_warns (o : lop A) (l : list A) :
    let '(_, content, calls) := owned_step eqb o l in warned_first l content calls.
  Proof.
    pose proof (owned_step_warned eqb o l) as H.
    destruct (owned_step eqb o l) as [[r c] es]. exact H.
  Qed.

  Lemma owned_step_locates (o : lop A) (l : list A) :
    repeatable_argument o -> index_reported o l ->
    let '(_, _, calls) := owned_step eqb o l in adds_located calls.
  Proof.
    intros Hr Hok. pose proof (owned_step_located eqb o l Hr Hok) as H.
    destruct (owned_step eqb o l) as [[r c] es]. exact H.
  Qed.
End Statements.

Lemma owned_iterator_counterexample :
  exists (l xs : list Z),
    plain_step Z.eqb (LExtend (ItOnce xs)) l = (Ok None, l ++ xs) /\
    fst (owned_step Z.eqb (LExtend (ItOnce xs)) l) = (Err ETypeError, l).
Proof. exists [1], [2]. vm_compute. auto. Qed.

Lemma owned_ledger_counterexamples :
  (exists l : list Z,
     let '(_, content, calls) := owned_step Z.eqb (LExtend ItSelf) l in
     count Z.eqb 1 content <> count Z.eqb 1 l + tally Z.eqb 1 calls)
  /\ (exists (l xs : list Z) (s : slice),
     let '(_, content, calls) := owned_step Z.eqb (LSetSlice s (ItOnce xs)) l in
     count Z.eqb 1 content <> count Z.eqb 1 l + tally Z.eqb 1 calls).
Proof.
  split.
  - exists [1]. vm_compute. discriminate.
  - exists [], [1], {| sl_start := None; sl_stop := None; sl_step := None |}. vm_compute. discriminate.
Qed.

Lemma owned_index_counterexamples :
  (exists (l : list Z) (i x : Z),
     let '(_, _, calls) := owned_step Z.eqb (LInsert i x) l in ~ adds_located calls)
  /\ (exists (l : list Z) (s : slice) (xs : list Z),
     let '(_, _, calls) := owned_step Z.eqb (LSetSlice s (ItList xs)) l in ~ adds_located calls).
Proof.
  split.
  - exists [1; 2], (-1), 9. vm_compute. intros H.
    destruct (H (-1) 9 [1; 9; 2]) as [H1 _]; [right; left; reflexivity|]. apply H1; reflexivity.
  - exists [1; 2], {| sl_start := None; sl_stop := None; sl_step := Some (-1) |}, [8; 9].
    vm_compute. intros H.
    destruct (H 0 8 [9; 8]) as [_ H1]; [right; right; right; left; reflexivity|]. discriminate H1.
Qed.
