(** ChainProofs.v -- lemmas for C10, C11, C12 and the serialize order. *)
From Verif Require Import Base Mon OListSpec ODictSpec ODictProofs StrDict ChainModel ChainSpec.

Section CP.
  Context {V C S : Type}.
  Notation modifier := (modifier V C S).
  Implicit Types (vs : list modifier) (m : modifier).

  Lemma kind_eqb_eq a b : kind_eqb a b = true <-> a = b.
  Proof. destruct a, b; simpl; split; congruence. Qed.

  Lemma first_vidx_spec k vs :
    (first_vidx k vs = None /\ none_of k vs) \/
    (exists a m b, vs = a ++ m :: b /\ kind m = k /\ none_of k a /\ first_vidx k vs = Some (length a)).
  Proof.
    induction vs as [|v vs IH]; simpl.
    - left. split; [reflexivity|]. intros m [].
    - destruct (kind_eqb (kind v) k) eqn:E.
      + right. apply kind_eqb_eq in E. exists [], v, vs. repeat split; try assumption. intros m [].
      + assert (Hv : kind v <> k) by (intros H; apply kind_eqb_eq in H; congruence).
        destruct IH as [[-> Hn]|(a & m & b & -> & Hk & Hn & ->)].
        * left. split; [reflexivity|]. intros m [<-|H]; [exact Hv|apply Hn; exact H].
        * right. exists (v :: a), m, b. repeat split; try assumption.
          intros x [<-|H]; [exact Hv|apply Hn; exact H].
  Qed.

  Lemma last_vidx_spec k vs :
    (last_vidx k vs = None /\ none_of k vs) \/
    (exists a m b, vs = a ++ m :: b /\ kind m = k /\ none_of k b /\ last_vidx k vs = Some (length a)).
  Proof.
    unfold last_vidx. destruct (first_vidx_spec k (rev vs)) as [[-> Hn]|(a & m & b & E & Hk & Hn & ->)].
    - left. split; [reflexivity|]. intros m Hm. apply Hn. apply -> in_rev. exact Hm.
    - right. exists (rev b), m, (rev a).
      assert (Hvs : vs = rev b ++ m :: rev a).
      { rewrite <- (rev_involutive vs), E, rev_app_distr. simpl. rewrite <- app_assoc. reflexivity. }
      repeat split; try assumption.
      + intros x Hx. apply Hn. apply in_rev. exact Hx.
      + simpl. f_equal. rewrite Hvs, app_length. simpl. rewrite !rev_length. lia.
  Qed.

  Lemma split_unique (k : mkind) a (m : modifier) b a' m' b' :
    a ++ m :: b = a' ++ m' :: b' -> kind m = k -> kind m' = k ->
    none_of k a -> none_of k a' -> a = a' /\ m = m' /\ b = b'.
  Proof.
    revert a'. induction a as [|x a IH]; intros [|x' a'] E Hm Hm' Ha Ha'; simpl in E.
    - injection E as -> ->. auto.
    - injection E as <- _. exfalso. apply (Ha' m); [left; reflexivity|exact Hm].
    - injection E as <- _. exfalso. apply (Ha x); [left; reflexivity|exact Hm'].
    - injection E as <- E. destruct (IH a' E Hm Hm') as (-> & -> & ->); auto.
      + intros y Hy. apply Ha. right. exact Hy.
      + intros y Hy. apply Ha'. right. exact Hy.
  Qed.

  Lemma none_app k (a b : list modifier) : none_of k (a ++ b) <-> none_of k a /\ none_of k b.
  Proof.
    unfold none_of. split.
    - intros H. split; intros m Hm; apply H; apply in_app_iff; auto.
    - intros [H1 H2] m Hm. apply in_app_iff in Hm. destruct Hm; auto.
  Qed.
  Lemma none_cons k m (b : list modifier) : none_of k (m :: b) <-> kind m <> k /\ none_of k b.
  Proof.
    unfold none_of. split.
    - intros H. split; [apply H; left; reflexivity|]. intros x Hx. apply H. right. exact Hx.
    - intros [H1 H2] x [<-|Hx]; auto.
  Qed.

  Lemma chain_phases vs : well_marked vs -> phases vs (tvs vs) (nvs vs) (pvs vs).
  Proof.
    intros Hw. unfold phases, tvs, nvs, pvs, levidx, fpvidx.
    destruct (first_vidx_spec KPreserialize vs) as [[-> Hnp]|(a & m & b & Evs & Hk & Hnp & ->)];
    destruct (last_vidx_spec KEager vs) as [[-> Hne]|(t & e & n & Evs' & Hk' & Hne & ->)].
    - rewrite Nat.sub_0_r. simpl. rewrite firstn_all, app_nil_r.
      repeat split; auto.
    - rewrite Evs'. rewrite app_nil_r.
      replace (firstn (length t) (t ++ e :: n)) with t
        by (rewrite firstn_app, firstn_all, Nat.sub_diag; simpl; rewrite app_nil_r; reflexivity).
      replace (skipn (length t) (t ++ e :: n)) with (e :: n)
        by (rewrite skipn_app, skipn_all, Nat.sub_diag; reflexivity).
      rewrite firstn_all2 by (rewrite app_length; lia).
      rewrite Evs' in Hnp. repeat split; auto. right. exists e, n. auto.
    - rewrite Evs. rewrite Nat.sub_0_r. simpl.
      rewrite firstn_app, firstn_all, Nat.sub_diag; simpl.
      rewrite skipn_app, skipn_all, Nat.sub_diag; simpl. rewrite app_nil_r.
      rewrite Evs in Hne. apply none_app in Hne. destruct Hne as [Hne _].
      repeat split; auto. right. exists m, b. auto.
    - (* the last eager mark is before the first pre-serialize mark *)
      assert (Hb : none_of KEager b) by (eapply Hw; eassumption).
      assert (Hlt : exists n1, a = t ++ e :: n1 /\ n = n1 ++ m :: b).
      { rewrite Evs in Evs'. clear Evs Hw Hne Hnp. revert a Evs'.
        induction t as [|x t IH]; intros [|y a] E; simpl in E.
        - injection E as -> _. congruence.
        - injection E as -> <-. exists a. auto.
        - injection E as -> E. exfalso.
          apply (Hb e); [rewrite E; apply in_elt|exact Hk'].
        - injection E as -> E. destruct (IH a E) as (n1 & -> & ->). exists n1. auto. }
      destruct Hlt as (n1 & -> & ->). rewrite Evs.
      rewrite <- app_assoc. simpl.
      replace (firstn (length t) (t ++ e :: n1 ++ m :: b)) with t
        by (rewrite firstn_app, firstn_all, Nat.sub_diag; simpl; rewrite app_nil_r; reflexivity).
      replace (skipn (length t) (t ++ e :: n1 ++ m :: b)) with (e :: n1 ++ m :: b)
        by (rewrite skipn_app, skipn_all, Nat.sub_diag; reflexivity).
      replace (skipn (length (t ++ e :: n1)) (t ++ e :: n1 ++ m :: b)) with (m :: b).
      2: { change (t ++ e :: n1 ++ m :: b) with (t ++ (e :: n1) ++ m :: b).
           rewrite app_assoc, skipn_app, skipn_all, Nat.sub_diag. reflexivity. }
      replace (firstn (length (t ++ e :: n1) - length t) (e :: n1 ++ m :: b)) with (e :: n1).
      2: { rewrite app_length. replace (length t + length (e :: n1) - length t)%nat with (length (e :: n1)) by lia.
           change (e :: n1 ++ m :: b) with ((e :: n1) ++ m :: b).
           rewrite firstn_app, firstn_all, Nat.sub_diag. simpl. rewrite app_nil_r. reflexivity. }
      apply none_app in Hne. destruct Hne as [Hn1 _].
      repeat split; auto.
      + right. exists m, b. auto.
      + right. exists e, n1. auto.
  Qed.

  Lemma phases_unique vs t n p t' n' p' :
    well_marked vs -> phases vs t n p -> phases vs t' n' p' -> t = t' /\ n = n' /\ p = p'.
  Proof.
    intros Hw (E & Hp & Hps & Hn) (E' & Hp' & Hps' & Hn').
    assert (H : t ++ n = t' ++ n' /\ p = p').
    { assert (EE : (t ++ n) ++ p = (t' ++ n') ++ p') by (rewrite <- !app_assoc; congruence).
      destruct Hps as [->|(m & q & -> & Hm)], Hps' as [->|(m' & q' & -> & Hm')].
      - rewrite !app_nil_r in EE. auto.
      - rewrite app_nil_r in EE. exfalso. rewrite EE in Hp. apply none_app in Hp.
        destruct Hp as [_ Hp]. apply (Hp m'); [left; reflexivity|exact Hm'].
      - rewrite app_nil_r in EE. exfalso. rewrite <- EE in Hp'. apply none_app in Hp'.
        destruct Hp' as [_ Hp']. apply (Hp' m); [left; reflexivity|exact Hm].
      - destruct (split_unique KPreserialize _ _ _ _ _ _ EE Hm Hm' Hp Hp') as (-> & -> & ->). auto. }
    destruct H as [Ha ->]. clear Hp Hp' E E' Hps Hps' Hw.
    destruct Hn as [[-> Hn]|(m & n1 & -> & Hm & Hn1)], Hn' as [[-> Hn']|(m' & n1' & -> & Hm' & Hn1')].
    - simpl in Ha. auto.
    - simpl in Ha. subst n. exfalso. apply (Hn m'); [apply in_elt|exact Hm'].
    - simpl in Ha. subst n'. exfalso. apply (Hn' m); [apply in_elt|exact Hm].
    - assert (R : rev n1 ++ m :: rev t = rev n1' ++ m' :: rev t').
      { apply (f_equal (@rev _)) in Ha. rewrite !rev_app_distr in Ha. simpl in Ha.
        rewrite <- !app_assoc in Ha. exact Ha. }
      destruct (split_unique KEager _ _ _ _ _ _ R Hm Hm') as (R1 & -> & R2).
      + intros x Hx. apply Hn1. apply in_rev. exact Hx.
      + intros x Hx. apply Hn1'. apply in_rev. exact Hx.
      + apply (f_equal (@rev _)) in R1, R2. rewrite !rev_involutive in R1, R2. subst. auto.
  Qed.

  (** folds *)
  Section Fold.
    Context (f : V -> modifier -> st S V)
            (step : modifier -> V -> S -> V -> S -> Prop)
            (fails : modifier -> V -> S -> exn -> S -> Prop).
    Hypothesis Hstep : forall m v s v' s', step m v s v' s' <-> f v m s = (Ok v', s').
    Hypothesis Hfail : forall m v s e s', fails m v s e s' <-> f v m s = (Err e, s').

    Lemma fold_goes l : forall v s v' s',
      fold_st f l v s = (Ok v', s') <-> goes step l v s v' s'.
    Proof.
      induction l as [|m l IH]; intros v s v' s'; simpl.
      - unfold ret. split.
        + intros H. injection H as -> ->. constructor.
        + intros H. inversion H; subst. reflexivity.
      - unfold bind. split.
        + intros H. destruct (f v m s) as [[v1|e] s1] eqn:E; [|discriminate].
          econstructor; [apply Hstep; exact E|]. apply IH. exact H.
        + intros H. inversion H as [|? ? ? ? v1 s1 ? ? H1 H2]; subst.
          apply Hstep in H1. rewrite H1. apply IH. exact H2.
    Qed.

    Lemma fold_stops l : forall v s e s',
      fold_st f l v s = (Err e, s') <-> stops step fails l v s e s'.
    Proof.
      induction l as [|m l IH]; intros v s e s'; simpl.
      - unfold ret. split; [discriminate|]. intros (b & m & a & v1 & s1 & E & _). destruct b; discriminate.
      - unfold bind. split.
        + intros H. destruct (f v m s) as [[v1|e1] s1] eqn:E.
          * apply IH in H. destruct H as (b & m' & a & v2 & s2 & -> & Hg & Hf).
            exists (m :: b), m', a, v2, s2. repeat split; auto. econstructor; [apply Hstep; exact E|exact Hg].
          * injection H as -> ->. exists [], m, l, v, s. repeat split; [constructor|]. apply Hfail. exact E.
        + intros (b & m' & a & v1 & s1 & E & Hg & Hf). destruct b as [|x b]; simpl in E.
          * injection E as <- <-. inversion Hg; subst. apply Hfail in Hf. rewrite Hf. reflexivity.
          * injection E as <- ->. inversion Hg as [|? ? ? ? v2 s2 ? ? H1 H2]; subst.
            apply Hstep in H1. rewrite H1. apply IH. exists b, m', a, v1, s1. auto.
    Qed.
  End Fold.

  Context (cval : C -> V) (nval : C -> V -> C) (all_fields : C -> bool)
          (write_parent : C -> V -> st S unit).

  Lemma vt_ok c m v s v' s' :
    transforms_and_accepts nval c m v s v' s' <-> vt nval m (nval c v) s = (Ok v', s').
  Proof.
    unfold transforms_and_accepts, vt, bind, ret. split.
    - intros (s1 & -> & ->). reflexivity.
    - destruct (m_transform m (nval c v) s) as [[v1|e] s1] eqn:E1; [|discriminate].
      destruct (m_validate m (nval (nval c v) v1) s1) as [[[]|e] s2] eqn:E2; [|discriminate].
      intros H. injection H as -> ->. eauto.
  Qed.
  Lemma vt_err c m v s e s' :
    transform_fails_or_rejects nval c m v s e s' <-> vt nval m (nval c v) s = (Err e, s').
  Proof.
    unfold transform_fails_or_rejects, vt, bind, ret. split.
    - intros [->|(v' & s1 & -> & ->)]; reflexivity.
    - destruct (m_transform m (nval c v) s) as [[v1|e1] s1] eqn:E1.
      + destruct (m_validate m (nval (nval c v) v1) s1) as [[[]|e2] s2] eqn:E2; [discriminate|].
        intros H. injection H as -> ->. right. eauto.
      + intros H. injection H as -> ->. left. reflexivity.
  Qed.

  Lemma transform_ok vs t n p c s v' s' :
    well_marked vs -> phases vs t n p ->
    (chain_transform cval nval vs c s = (Ok v', s') <->
     exists v1 s1, goes (transforms_and_accepts nval c) t (cval c) s v1 s1 /\
                   goes (transforms nval c) n v1 s1 v' s').
  Proof.
    intros Hw Hp. destruct (phases_unique _ _ _ _ _ _ _ Hw Hp (chain_phases vs Hw)) as (-> & -> & ->).
    unfold chain_transform, bind. split.
    - destruct (fold_st _ (tvs vs) (cval c) s) as [[v1|e] s1] eqn:E; [|discriminate].
      intros H. exists v1, s1. split.
      + eapply fold_goes; [|exact E]. intros; apply vt_ok.
      + eapply fold_goes; [|exact H]. intros; reflexivity.
    - intros (v1 & s1 & H1 & H2).
      apply (fold_goes (fun val v => vt nval v (nval c val))) in H1; [|intros; apply vt_ok]. rewrite H1.
      eapply fold_goes; [|exact H2]. intros; reflexivity.
  Qed.

  Lemma transform_err vs t n p c s e s' :
    well_marked vs -> phases vs t n p ->
    (chain_transform cval nval vs c s = (Err e, s') <->
     stops (transforms_and_accepts nval c) (transform_fails_or_rejects nval c) t (cval c) s e s' \/
     exists v1 s1, goes (transforms_and_accepts nval c) t (cval c) s v1 s1 /\
                   stops (transforms nval c) (transform_fails nval c) n v1 s1 e s').
  Proof.
    intros Hw Hp. destruct (phases_unique _ _ _ _ _ _ _ Hw Hp (chain_phases vs Hw)) as (-> & -> & ->).
    unfold chain_transform, bind. split.
    - destruct (fold_st _ (tvs vs) (cval c) s) as [[v1|e1] s1] eqn:E.
      + intros H. right. exists v1, s1. split.
        * eapply fold_goes; [|exact E]. intros; apply vt_ok.
        * eapply fold_stops; [| |exact H]; intros; reflexivity.
      + intros H. injection H as -> ->. left.
        eapply fold_stops; [| |exact E]; intros; [apply vt_ok|apply vt_err].
    - intros [H|(v1 & s1 & H1 & H2)].
      + apply (fold_stops (fun val v => vt nval v (nval c val))) in H; [|intros; apply vt_ok|intros; apply vt_err]. rewrite H. reflexivity.
      + apply (fold_goes (fun val v => vt nval v (nval c val))) in H1; [|intros; apply vt_ok]. rewrite H1.
        eapply fold_stops; [| |exact H2]; intros; reflexivity.
  Qed.

  Lemma sv_ok c m v s v' s' :
    serializes_and_stores nval write_parent c m v s v' s' <->
    sv nval write_parent m (nval c v) s = (Ok v', s').
  Proof.
    unfold serializes_and_stores, sv, bind, ret. split.
    - intros (s1 & s2 & -> & -> & ->). reflexivity.
    - destruct (m_serialize m (nval c v) s) as [[v1|e] s1] eqn:E1; [|discriminate].
      destruct (m_validate m (nval (nval c v) v1) s1) as [[[]|e] s2] eqn:E2; [|discriminate].
      destruct (write_parent (nval c v) v1 s2) as [[[]|e] s3] eqn:E3; [|discriminate].
      intros H. injection H as -> ->. exists s1, s2. auto.
  Qed.

  Lemma serialize_ok vs t n p c s v' s' :
    well_marked vs -> phases vs t n p ->
    (chain_serialize cval nval write_parent vs c s = (Ok v', s') <->
     exists v1 s1, goes (serializes nval c) (t ++ n) (cval c) s v1 s1 /\
                   goes (serializes_and_stores nval write_parent c) p v1 s1 v' s').
  Proof.
    intros Hw Hp. destruct (phases_unique _ _ _ _ _ _ _ Hw Hp (chain_phases vs Hw)) as (-> & -> & ->).
    assert (Happ : forall (l1 l2 : list modifier) (v : V) (s : S) (v' : V) (s' : S),
      goes (serializes nval c) (l1 ++ l2) v s v' s' <->
      exists v1 s1, goes (serializes nval c) l1 v s v1 s1 /\ goes (serializes nval c) l2 v1 s1 v' s').
    { induction l1 as [|m l1 IH]; intros l2 v0 s0 v'0 s'0; simpl.
      - split; [intros H; exists v0, s0; split; [constructor|exact H]|].
        intros (v1 & s1 & H1 & H2). inversion H1; subst. exact H2.
      - split.
        + intros H. inversion H as [|? ? ? ? va sa ? ? H1 H2]; subst.
          apply IH in H2. destruct H2 as (v1 & s1 & H2 & H3). exists v1, s1. split; [|exact H3].
          econstructor; eassumption.
        + intros (v1 & s1 & H1 & H2). inversion H1 as [|? ? ? ? va sa ? ? H3 H4]; subst.
          econstructor; [exact H3|]. apply IH. eauto. }
    unfold chain_serialize, bind. split.
    - destruct (fold_st _ (tvs vs) (cval c) s) as [[v1|e] s1] eqn:E1; [|discriminate].
      destruct (fold_st _ (nvs vs) v1 s1) as [[v2|e] s2] eqn:E2; [|discriminate].
      intros H. exists v2, s2. split.
      + apply Happ. exists v1, s1. split; (eapply fold_goes; [|eassumption]); intros; reflexivity.
      + eapply fold_goes; [|exact H]. intros; apply sv_ok.
    - intros (v2 & s2 & H1 & H2). apply Happ in H1. destruct H1 as (v1 & s1 & H1 & H3).
      apply (fold_goes (fun val v => m_serialize v (nval c val))) in H1; [|intros; reflexivity].
      apply (fold_goes (fun val v => m_serialize v (nval c val))) in H3; [|intros; reflexivity].
      apply (fold_goes (fun val v => sv nval write_parent v (nval c val))) in H2; [|intros; apply sv_ok].
      rewrite H1, H3. exact H2.
  Qed.

  (** validation *)
  Lemma validate_loop_ok vs : forall c msgs s s', Forall speaks vs ->
    (chain_validate_loop all_fields vs c msgs s = (Ok msgs, s') /\ msgs = [] <->
     all_accept c vs s s' /\ msgs = []).
  Proof.
    induction vs as [|m vs IH]; intros c msgs s s' Hs; simpl.
    - unfold ret. split; intros [H1 H2]; split; auto.
      + injection H1 as <-. constructor.
      + inversion H1; subst; reflexivity.
    - inversion Hs as [|? ? Hm Hs']; subst. split.
      + intros [H ->]. split; [|reflexivity].
        destruct (m_validate m c s) as [[[]|e] s1] eqn:E.
        * econstructor; [exact E|]. apply (IH c [] s1 s' Hs'). auto.
        * exfalso. destruct e as [e| | | | | | | | | | | | | | | | | | | | |]; try discriminate.
          assert (He : e <> []) by (eapply Hm; exact E).
          destruct e as [|kv e]; [contradiction|].
          assert (Hne : forall l (x : list (string * string)), x <> [] ->
                        receive x l <> []).
          { unfold receive, dupdate. induction l as [|y l IHl]; intros x Hx; simpl; [exact Hx|].
            apply IHl. destruct x as [|[k1 v1] x]; simpl; [discriminate|]. destruct (String.eqb _ _); discriminate. }
          assert (Hloop : forall (l : list modifier) (x : list (string * string)) (s0 : S) r (s0' : S), x <> [] ->
                    chain_validate_loop all_fields l c x s0 = (Ok r, s0') -> r <> []).
          { induction l as [|y l IHl]; intros x s0 r s0' Hx; simpl.
            - unfold ret. intros H0; injection H0 as <- _. exact Hx.
            - destruct (m_validate y c s0) as [[[]|[e0| | | | | | | | | | | | | | | | | | | | |]] s2]; try discriminate.
              + apply IHl. exact Hx.
              + destruct (all_fields c); [apply IHl; apply Hne; exact Hx|].
                intros H0. injection H0 as <- _. apply Hne. exact Hx. }
          assert (Hr : receive [] (kv :: e) <> []).
          { unfold receive, dupdate. simpl. apply Hne. discriminate. }
          destruct (all_fields c).
          -- apply (Hloop _ _ _ _ _ Hr H). reflexivity.
          -- injection H as H _. contradiction.
      + intros [H ->]. split; [|reflexivity]. inversion H as [|? ? ? s1 ? H1 H2]; subst.
        rewrite H1. apply (IH c [] s1 s' Hs'). auto.
  Qed.

  Lemma validate_ok vs t n p c s s' :
    well_marked vs -> phases vs t n p -> Forall speaks vs ->
    (chain_validate all_fields vs c s = (Ok tt, s') <-> all_accept c n s s').
  Proof.
    intros Hw Hp Hs. pose proof (chain_phases vs Hw) as Hq.
    destruct (phases_unique _ _ _ _ _ _ _ Hw Hp Hq) as (-> & -> & ->).
    assert (Hsn : Forall speaks (nvs vs)).
    { rewrite Forall_forall in *. intros m Hm. apply Hs. destruct Hq as (-> & _).
      apply in_app_iff. right. apply in_app_iff. left. exact Hm. }
    pose proof (validate_loop_ok (nvs vs) c [] s s' Hsn) as HL.
    unfold chain_validate, bind. split.
    - destruct (chain_validate_loop all_fields (nvs vs) c [] s) as [[msgs|e] s1] eqn:E; [|discriminate].
      unfold raise_collected. destruct msgs; [|discriminate]. unfold ret. intros H. injection H as <-. apply HL. auto.
    - intros H. destruct HL as [_ HL]. destruct (HL (conj H eq_refl)) as [-> _]. reflexivity.
  Qed.

  (** with all_fields off: the messages of the first failing modifier *)
  Lemma receive_nil_keys (e : list (string * string)) :
    e <> [] -> receive [] e <> [].
  Proof.
    unfold receive, dupdate. intros He.
    assert (Hne : forall l (x : list (string * string)), x <> [] ->
                   fold_left (fun acc kv => dset String.eqb (fst kv) (snd kv) acc) l x <> []).
    { induction l as [|y l IHl]; intros x Hx; simpl; [exact Hx|].
      apply IHl. destruct x as [|[k1 v1] x]; simpl; [discriminate|]. destruct (String.eqb _ _); discriminate. }
    destruct e as [|kv e]; [contradiction|]. simpl. apply Hne. discriminate.
  Qed.

  Lemma validate_first vs t n p c s before m after s1 e s' :
    well_marked vs -> phases vs t n p -> all_fields c = false ->
    n = before ++ m :: after -> all_accept c before s s1 ->
    m_validate m c s1 = (Err (EValidation e), s') -> e <> [] ->
    chain_validate all_fields vs c s = (Err (EValidation (dict_of String.eqb e)), s').
  Proof.
    intros Hw Hp Ha En Hb Hm He.
    destruct (phases_unique _ _ _ _ _ _ _ Hw Hp (chain_phases vs Hw)) as (-> & Hn & ->).
    unfold chain_validate, bind. rewrite <- Hn, En. clear Hn En Hp.
    assert (HL : chain_validate_loop all_fields (before ++ m :: after) c [] s = (Ok (receive [] e), s')).
    { induction Hb as [s0|x l s0 s2 s3 Hx Hl IH]; simpl.
      - rewrite Hm, Ha. reflexivity.
      - rewrite Hx. apply IH. exact Hm. }
    rewrite HL. unfold raise_collected. pose proof (receive_nil_keys e He) as Hr.
    unfold dict_of. fold (receive [] e). destruct (receive [] e); [contradiction|]. reflexivity.
  Qed.

  (** with all_fields on: everything is visited, and the report has every key of every
      failing modifier, with the message given last *)
  Lemma validate_loop_all vs : forall c msgs s rs s',
    all_fields c = true -> visits c vs s rs s' ->
    chain_validate_loop all_fields vs c msgs s = (Ok (fold_left receive rs msgs), s').
  Proof.
    intros c msgs s rs s' Ha Hv. revert msgs. induction Hv; intros msgs; simpl.
    - reflexivity.
    - rewrite H. apply IHHv.
    - rewrite H, Ha. apply IHHv.
  Qed.

  Lemma fold_receive_get rs : forall (msgs : list (string * string)) k,
    sget k (fold_left receive rs msgs) = sget k (fold_left receive [concat rs] msgs).
  Proof.
    intros msgs k. simpl. unfold receive, dupdate.
    revert msgs. induction rs as [|e rs IH]; intros msgs; simpl; [reflexivity|].
    rewrite IH. rewrite fold_left_app. reflexivity.
  Qed.

  Lemma validate_all vs t n p c s rs s' :
    well_marked vs -> phases vs t n p -> all_fields c = true ->
    visits c n s rs s' -> Forall (fun e => e <> []) rs ->
    chain_validate all_fields vs c s =
      (match rs with [] => Ok tt | _ => Err (EValidation (dict_of String.eqb (concat rs))) end, s').
  Proof.
    intros Hw Hp Ha Hv Hne.
    destruct (phases_unique _ _ _ _ _ _ _ Hw Hp (chain_phases vs Hw)) as (-> & -> & ->).
    unfold chain_validate, bind. rewrite (validate_loop_all _ _ _ _ _ _ Ha Hv).
    assert (HE : fold_left receive rs [] = dict_of String.eqb (concat rs)).
    { unfold dict_of. generalize (@nil (string * string)). clear. induction rs as [|e rs IH]; intros d; simpl.
      - reflexivity.
      - rewrite IH. unfold dupdate, receive, dupdate. rewrite fold_left_app. reflexivity. }
    rewrite HE. destruct rs as [|e rs]; [reflexivity|].
    assert (Hn : dict_of String.eqb (concat (e :: rs)) <> []).
    { inversion Hne; subst. simpl. apply receive_nil_keys. destruct e; [contradiction|]. discriminate. }
    unfold raise_collected. destruct (dict_of _ _); [contradiction|]. reflexivity.
  Qed.
End CP.

(** A chain where an eager mark follows a pre-serialize mark: the modifier between
    them is in two phases. *)
Lemma eager_after_preserialize :
  exists (vs : list (modifier nat nat unit)) m, ~ well_marked vs /\
    In m (tvs vs) /\ In m (pvs vs) /\ kind m = KOther /\ In m vs.
Proof.
  pose (mk := fun k => {| kind := k; m_validate := fun _ => @ret unit unit tt;
                          m_transform := fun c => @ret unit nat c; m_tojson := fun c => @ret unit nat c;
                          m_serialize := fun c => @ret unit nat c |} : modifier nat nat unit).
  exists [mk KPreserialize; mk KOther; mk KEager], (mk KOther). repeat split.
  - intros H. specialize (H [] _ _ eq_refl eq_refl). apply (H (mk KEager)); [right; left; reflexivity|reflexivity].
  - right. left. reflexivity.
  - right. left. reflexivity.
  - right. left. reflexivity.
Qed.
