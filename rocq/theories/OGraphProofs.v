(** OGraphProofs.v -- lemmas for C07. *)
From Verif Require Import Base ODictSpec StrDict OGraphModel OGraphSpec.

Section Proofs.
  Context (cname : oid -> string) (pid : oid -> option string).
  Notation g_put := (g_put cname pid).
  Notation g_get := (g_get cname pid).
  Notation g_has := (g_has cname pid).
  Notation merge_loop := (merge_loop cname pid).
  Notation same_identity := (same_identity cname pid).
  Notation built := (built cname pid).

  Definition find (g : graph) (c p : string) : option oid :=
    match sget c g with Some t => sget p t | None => None end.

  (** Keys are unique and every object sits under its own identity. *)
  Definition wf (g : graph) : Prop :=
    suniq g /\ (forall c t, sget c g = Some t -> suniq t) /\
    (forall c p o, find g c p = Some o -> cname o = c /\ pid o = Some p).

  Lemma wf_nil : wf [].
  Proof. split; [apply suniq_nil|]. split; unfold find; simpl; discriminate. Qed.

  Lemma sget_ensure c c' (g : graph) :
    sget c (g_ensure c' g) =
    match sget c g with
    | Some t => Some t
    | None => if String.eqb c c' then Some [] else None
    end.
  Proof.
    unfold g_ensure. destruct (sget c' g) as [t|] eqn:E.
    - destruct (sget c g) eqn:E1; [reflexivity|]. destruct (String.eqb c c') eqn:E2; [|reflexivity].
      apply String.eqb_eq in E2. congruence.
    - rewrite sget_sset. destruct (String.eqb c c') eqn:E2.
      + apply String.eqb_eq in E2. subst. rewrite E. reflexivity.
      + destruct (sget c g); reflexivity.
  Qed.

  Lemma find_ensure c (g : graph) c' p : find (g_ensure c g) c' p = find g c' p.
  Proof.
    unfold find. rewrite sget_ensure. destruct (sget c' g); [reflexivity|].
    destruct (String.eqb c' c); reflexivity.
  Qed.

  Lemma wf_ensure c g : wf g -> wf (g_ensure c g).
  Proof.
    intros (H1 & H2 & H3). split; [|split].
    - unfold g_ensure. destruct (sget c g); [exact H1|]. apply suniq_sset. exact H1.
    - intros c' t. rewrite sget_ensure. destruct (sget c' g) eqn:E.
      + intros Ht; injection Ht as <-. eapply H2; exact E.
      + destruct (String.eqb c' c); [|discriminate]. intros Ht; injection Ht as <-. apply suniq_nil.
    - intros c' p o. rewrite find_ensure. apply H3.
  Qed.

  Lemma table_find c p g : sget p (g_table c g) = find g c p.
  Proof.
    unfold g_table, find. rewrite sget_ensure, String.eqb_refl. destruct (sget c g); reflexivity.
  Qed.

  Lemma find_put o p g g' c' p' : pid o = Some p -> g_put o g = Ok g' ->
    find g' c' p' = if String.eqb c' (cname o) && String.eqb p' p then Some o else find g c' p'.
  Proof.
    intros Hp. unfold OGraphModel.g_put. rewrite Hp. intros H; injection H as <-.
    unfold find at 1. rewrite sget_sset. destruct (String.eqb c' (cname o)) eqn:E; simpl.
    - apply String.eqb_eq in E. subst. rewrite sget_sset, table_find. reflexivity.
    - fold (find (g_ensure (cname o) g) c' p'). apply find_ensure.
  Qed.

  Lemma wf_put o g g' : wf g -> g_put o g = Ok g' -> wf g'.
  Proof.
    intros Hw Hput. destruct (pid o) as [p|] eqn:Hp.
    2: { unfold OGraphModel.g_put in Hput. rewrite Hp in Hput. discriminate. }
    pose proof (find_put o p g g') as HF. destruct Hw as (H1 & H2 & H3).
    pose proof (wf_ensure (cname o) g (conj H1 (conj H2 H3))) as (E1 & E2 & E3).
    split; [|split].
    - unfold OGraphModel.g_put in Hput. rewrite Hp in Hput. injection Hput as <-.
      apply suniq_sset. exact E1.
    - intros c t Ht. unfold OGraphModel.g_put in Hput. rewrite Hp in Hput. injection Hput as <-.
      rewrite sget_sset in Ht. destruct (String.eqb c (cname o)) eqn:E.
      + injection Ht as <-. apply suniq_sset. unfold g_table.
        destruct (sget (cname o) (g_ensure (cname o) g)) eqn:E4; [eapply E2; exact E4|apply suniq_nil].
      + eapply E2; exact Ht.
    - intros c p' o' Hf. rewrite (HF c p' Hp Hput) in Hf.
      destruct (String.eqb c (cname o) && String.eqb p' p) eqn:E.
      + injection Hf as <-. apply andb_prop in E. destruct E as [Ea Eb].
        apply String.eqb_eq in Ea, Eb. subst. auto.
      + apply H3. exact Hf.
  Qed.

  Lemma wf_get o g r g' : wf g -> g_get o g = Ok (r, g') -> wf g'.
  Proof.
    intros Hw. unfold OGraphModel.g_get. destruct (pid o); [|discriminate].
    intros H; injection H as _ <-. apply wf_ensure. exact Hw.
  Qed.

  (** Iterating meets exactly the objects that can be found. *)
  Lemma held_find g o : wf g -> (held g o <-> exists c p, find g c p = Some o).
  Proof.
    intros (H1 & H2 & _). unfold held, g_iter. rewrite in_flat_map. split.
    - intros ([c t] & Hin & Ho). simpl in Ho. apply in_map_iff in Ho. destruct Ho as ([p o'] & E & Hin').
      simpl in E. subst o'. exists c, p. unfold find.
      apply (sget_In_iff c t g H1) in Hin. rewrite Hin.
      apply (sget_In_iff p o t (H2 _ _ Hin)). exact Hin'.
    - intros (c & p & Hf). unfold find in Hf. destruct (sget c g) as [t|] eqn:E; [|discriminate].
      exists (c, t). split; [apply sget_In; exact E|]. simpl. apply in_map_iff.
      exists (p, o). split; [reflexivity|apply sget_In; exact Hf].
  Qed.

  Lemma held_own g o : wf g -> held g o ->
    exists p, pid o = Some p /\ find g (cname o) p = Some o.
  Proof.
    intros Hw Hh. apply held_find in Hh; [|exact Hw]. destruct Hh as (c & p & Hf).
    destruct Hw as (_ & _ & H3). destruct (H3 _ _ _ Hf) as [<- Hp]. exists p. auto.
  Qed.

  Lemma held_unique g a b : wf g -> held g a -> held g b -> same_identity a b -> a = b.
  Proof.
    intros Hw Ha Hb (Hc & Hp & _).
    apply held_own in Ha; [|exact Hw]. apply held_own in Hb; [|exact Hw].
    destruct Ha as (p & Hpa & Fa), Hb as (q & Hqb & Fb). congruence.
  Qed.

  Lemma held_put o g g' x : wf g -> g_put o g = Ok g' ->
    (find g (cname o) (match pid o with Some p => p | None => EmptyString end) = None \/
     find g (cname o) (match pid o with Some p => p | None => EmptyString end) = Some o) ->
    (held g' x <-> held g x \/ x = o).
  Proof.
    intros Hw Hput Hcase. pose proof (wf_put o g g' Hw Hput) as Hw'.
    destruct (pid o) as [p|] eqn:Hp.
    2: { unfold OGraphModel.g_put in Hput. rewrite Hp in Hput. discriminate. }
    rewrite !held_find by assumption. split.
    - intros (c & q & Hf). rewrite (find_put o p g g' c q Hp Hput) in Hf.
      destruct (_ && _); [injection Hf as <-; auto|]. left; eauto.
    - intros [(c & q & Hf)|Hx].
      + exists c, q. rewrite (find_put o p g g' c q Hp Hput).
        destruct (String.eqb c (cname o) && String.eqb q p) eqn:E; [|exact Hf].
        apply andb_prop in E. destruct E as [Ea Eb]. apply String.eqb_eq in Ea, Eb. subst.
        destruct Hcase; congruence.
      + subst x. exists (cname o), p. rewrite (find_put o p g g' _ _ Hp Hput), !String.eqb_refl. reflexivity.
  Qed.

  Lemma held_ensure c g x : wf g -> (held (g_ensure c g) x <-> held g x).
  Proof.
    intros Hw. rewrite !held_find; [|exact Hw|apply wf_ensure; exact Hw].
    split; intros (c' & p & H); exists c', p; rewrite find_ensure in *; exact H.
  Qed.

  (** One step of the merge loop, with the effects of has and get folded in. *)
  Lemma merge_step o os g p : pid o = Some p ->
    merge_loop (o :: os) g =
    match find g (cname o) p with
    | None => let* g' := g_put o (g_ensure (cname o) g) in merge_loop os g'
    | Some o' => if Nat.eqb o' o
                 then let* g' := g_put o (g_ensure (cname o) (g_ensure (cname o) g)) in merge_loop os g'
                 else Err EGraphConflict
    end.
  Proof.
    intros Hp. cbn [OGraphModel.merge_loop]. unfold OGraphModel.g_has, OGraphModel.g_get.
    rewrite Hp. cbn [rbind]. rewrite table_find.
    destruct (find g (cname o) p) as [o'|] eqn:E; cbn [negb rbind]; [|reflexivity].
    rewrite table_find, find_ensure, E. reflexivity.
  Qed.

  Lemma put_ok o g p : pid o = Some p -> exists g', g_put o g = Ok g'.
  Proof. intros Hp. unfold OGraphModel.g_put. rewrite Hp. eauto. Qed.

  Lemma merge_loop_spec os : forall g, wf g -> (forall o, In o os -> pid o <> None) ->
    match merge_loop os g with
    | Ok g' => wf g' /\ (forall x, held g' x <-> held g x \/ In x os)
    | Err e => e = EGraphConflict /\
               exists o o', In o os /\ (held g o' \/ In o' os) /\ o <> o' /\ same_identity o o'
    end.
  Proof.
    induction os as [|o os IH]; intros g Hw Hid.
    - simpl. split; [exact Hw|]. intros x. tauto.
    - destruct (pid o) as [p|] eqn:Hp; [|exfalso; apply (Hid o); [left; reflexivity|exact Hp]].
      rewrite (merge_step o os g p Hp).
      assert (Hid' : forall x, In x os -> pid x <> None) by (intros x Hx; apply Hid; right; exact Hx).
      assert (Hcont : forall h, wf h -> (forall x, held h x <-> held g x) ->
                 (find h (cname o) p = None \/ find h (cname o) p = Some o) ->
                 match (let* g' := g_put o h in merge_loop os g') with
                 | Ok g' => wf g' /\ (forall x, held g' x <-> held g x \/ In x (o :: os))
                 | Err e => e = EGraphConflict /\
                     exists a b, In a (o :: os) /\ (held g b \/ In b (o :: os)) /\ a <> b /\ same_identity a b
                 end).
      { intros h Hwh Hhh Hfh. destruct (put_ok o h p Hp) as [g1 Hg1]. rewrite Hg1. cbn [rbind].
        pose proof (wf_put o h g1 Hwh Hg1) as Hw1.
        assert (Hheld : forall x, held g1 x <-> held h x \/ x = o).
        { intros x. apply (held_put o h g1 x Hwh Hg1). rewrite Hp. exact Hfh. }
        specialize (IH g1 Hw1 Hid'). destruct (merge_loop os g1) as [g'|e].
        - destruct IH as [IH1 IH2]. split; [exact IH1|]. intros x. rewrite IH2, Hheld, Hhh. simpl.
          intuition congruence.
        - destruct IH as [-> (a & b & Ha & Hb & Hne & Hs)]. split; [reflexivity|].
          exists a, b. split; [right; exact Ha|]. split; [|auto].
          destruct Hb as [Hb|Hb]; [|right; right; exact Hb].
          apply Hheld in Hb. destruct Hb as [Hb|Hb]; [left; apply Hhh; exact Hb|].
          subst. right; left; reflexivity. }
      destruct (find g (cname o) p) as [o'|] eqn:E.
      + destruct (Nat.eqb o' o) eqn:Eq.
        * apply Nat.eqb_eq in Eq. subst o'. apply Hcont.
          -- apply wf_ensure, wf_ensure, Hw.
          -- intros x. rewrite !held_ensure; [reflexivity|exact Hw|apply wf_ensure; exact Hw].
          -- right. rewrite !find_ensure. exact E.
        * split; [reflexivity|]. apply Nat.eqb_neq in Eq.
          exists o, o'. split; [left; reflexivity|].
          assert (Hh : held g o') by (apply held_find; [exact Hw|eauto]).
          split; [left; exact Hh|]. split; [congruence|].
          destruct Hw as (_ & _ & H3). destruct (H3 _ _ _ E) as [Hc Hq].
          repeat split; congruence.
      + apply Hcont.
        * apply wf_ensure, Hw.
        * intros x. apply held_ensure. exact Hw.
        * left. rewrite find_ensure. exact E.
  Qed.

  Lemma held_pid g o : wf g -> held g o -> pid o <> None.
  Proof. intros Hw Hh. apply held_own in Hh; [|exact Hw]. destruct Hh as (p & Hp & _). congruence. Qed.

  Lemma merge_wf g1 g2 : wf g1 -> wf g2 ->
    match merge_loop (g_iter g2) g1 with
    | Ok g' => wf g' /\ (forall x, held g' x <-> held g1 x \/ held g2 x)
    | Err e => e = EGraphConflict /\
               exists o1 o2, held g1 o1 /\ held g2 o2 /\ o1 <> o2 /\ same_identity o1 o2
    end.
  Proof.
    intros Hw1 Hw2. pose proof (merge_loop_spec (g_iter g2) g1 Hw1) as H.
    assert (Hid : forall o, In o (g_iter g2) -> pid o <> None) by (intros o; apply held_pid; exact Hw2).
    specialize (H Hid). destruct (merge_loop (g_iter g2) g1) as [g'|e]; [exact H|].
    destruct H as [-> (o & o' & Ho & Ho' & Hne & Hs)]. split; [reflexivity|].
    assert (Hs' : same_identity o' o).
    { destruct Hs as (Ha & Hb & Hc). repeat split; congruence. }
    destruct Ho' as [Ho'|Ho'].
    - exists o', o. auto.
    - exfalso. apply Hne. eapply held_unique; [exact Hw2|exact Ho|exact Ho'|exact Hs].
  Qed.

  Lemma built_wf g : built g -> wf g.
  Proof.
    induction 1 as [|g o g' _ IH H|g o r g' _ IH H|g1 g2 g' _ IH1 _ IH2 H].
    - apply wf_nil.
    - eapply wf_put; eassumption.
    - eapply wf_get; eassumption.
    - pose proof (merge_wf g1 g2 IH1 IH2) as HM. rewrite H in HM. tauto.
  Qed.

  (** ** Statements *)
  Lemma graph_one_per_identity g a b :
    built g -> held g a -> held g b -> same_identity a b -> a = b.
  Proof. intros Hb. apply held_unique. apply built_wf. exact Hb. Qed.

  Lemma graph_merge g1 g2 : built g1 -> built g2 ->
    match merge_loop (g_iter g2) g1 with
    | Ok g' => built g' /\ (forall x, held g' x <-> held g1 x \/ held g2 x)
    | Err e => e = EGraphConflict
    end /\
    (merge_loop (g_iter g2) g1 = Err EGraphConflict <->
     exists o1 o2, held g1 o1 /\ held g2 o2 /\ o1 <> o2 /\ same_identity o1 o2).
  Proof.
    intros H1 H2. pose proof (merge_wf g1 g2 (built_wf _ H1) (built_wf _ H2)) as H.
    destruct (merge_loop (g_iter g2) g1) as [g'|e] eqn:E.
    - destruct H as [Hw Hh]. split; [split; [exact (built_merge cname pid g1 g2 g' H1 H2 E)|exact Hh]|].
      split; [discriminate|]. intros (o1 & o2 & Ha & Hb & Hne & Hs). exfalso. apply Hne.
      eapply held_unique; [exact Hw| | |exact Hs]; apply Hh; auto.
    - destruct H as [-> Hex]. split; [reflexivity|]. split; auto.
  Qed.

  Lemma find_puts os : forall g o p, wf g -> pid o = Some p ->
    wf (puts cname pid os g) /\
    ((exists r, last_put cname pid o os (Some r) /\ find (puts cname pid os g) (cname o) p = Some r) \/
     (last_put cname pid o os None /\ find (puts cname pid os g) (cname o) p = find g (cname o) p)).
  Proof.
    induction os as [|x os IH]; intros g o p Hw Hp; cbn [puts].
    - split; [exact Hw|]. right. split; [|reflexivity]. constructor. intros y [].
    - set (g1 := match g_put x g with Ok g' => g' | Err _ => g end).
      assert (Hw1 : wf g1).
      { unfold g1. destruct (g_put x g) eqn:E; [eapply wf_put; eassumption|exact Hw]. }
      destruct (IH g1 o p Hw1 Hp) as [IHw IHc]. split; [exact IHw|].
      destruct IHc as [(r & Hl & Hf)|[Hl Hf]].
      + left. exists r. split; [|exact Hf]. inversion Hl; subst.
        change (x :: os1 ++ r :: os2) with ((x :: os1) ++ r :: os2). constructor; assumption.
      + assert (Hn : forall y, In y os -> ~ same_identity y o) by (inversion Hl; assumption).
        destruct (pid x) as [px|] eqn:Hpx.
        * destruct (put_ok x g px Hpx) as [g' Hg']. unfold g1 in Hf. fold g1 in Hf.
          assert (E1 : g1 = g') by (unfold g1; rewrite Hg'; reflexivity).
          rewrite E1 in Hf.
          destruct (String.eqb (cname o) (cname x) && String.eqb p px) eqn:E.
          -- left. exists x. apply andb_prop in E. destruct E as [Ea Eb].
             apply String.eqb_eq in Ea, Eb. split.
             ++ apply (lp_some cname pid o [] x os); [|exact Hn]. repeat split; congruence.
             ++ rewrite E1, Hf. rewrite (find_put x px g g' _ _ Hpx Hg').
                rewrite (proj2 (String.eqb_eq _ _) Ea), (proj2 (String.eqb_eq _ _) Eb). reflexivity.
          -- right. split.
             ++ constructor. intros y [<-|Hy]; [|apply Hn; exact Hy].
                intros (Hc & Hq & _). rewrite Hpx, Hp in Hq. injection Hq as ->.
                rewrite Hc, !String.eqb_refl in E. discriminate.
             ++ rewrite E1, Hf. rewrite (find_put x px g g' _ _ Hpx Hg'), E. reflexivity.
        * right. split.
          -- constructor. intros y [<-|Hy]; [|apply Hn; exact Hy]. intros (_ & _ & Hne). contradiction.
          -- rewrite Hf. unfold g1. unfold OGraphModel.g_put. rewrite Hpx. reflexivity.
  Qed.

  Lemma get_after_puts os o : pid o <> None ->
    exists r, last_put cname pid o os r /\ exists g', g_get o (puts cname pid os []) = Ok (r, g').
  Proof.
    intros Hp. destruct (pid o) as [p|] eqn:E; [|contradiction].
    destruct (find_puts os [] o p wf_nil E) as [_ [(r & Hl & Hf)|[Hl Hf]]].
    - exists (Some r). split; [exact Hl|]. unfold OGraphModel.g_get. rewrite E, table_find, Hf. eauto.
    - exists None. split; [exact Hl|]. unfold OGraphModel.g_get. rewrite E, table_find, Hf. eauto.
  Qed.

  (** The store *)
  Lemma point_all os k s : 
    graphs (fold_left (fun s o => point o k s) os s) = graphs s /\
    (forall o, graph_of (fold_left (fun s o => point o k s) os s) o =
               if existsb (Nat.eqb o) os then k else graph_of s o).
  Proof.
    revert s; induction os as [|x os IH]; intros s; cbn [fold_left existsb]; [auto|].
    destruct (IH (point x k s)) as [I1 I2]. split; [exact I1|]. intros o. rewrite I2. simpl.
    destruct (existsb (Nat.eqb o) os); [rewrite orb_true_r; reflexivity|].
    rewrite orb_false_r. reflexivity.
  Qed.

  Lemma existsb_held g o : existsb (Nat.eqb o) (g_iter g) = true <-> held g o.
  Proof.
    rewrite existsb_exists. split.
    - intros (x & Hin & E). apply Nat.eqb_eq in E. subst. exact Hin.
    - intros H. exists o. split; [exact H|apply Nat.eqb_refl].
  Qed.

  Lemma store_merge i j s : i <> j -> built (graph_at s i) -> built (graph_at s j) ->
    match merged_graph cname pid i j s with
    | (Err e, s') => e = EGraphConflict /\ s' = s /\
        exists o1 o2, held (graph_at s i) o1 /\ held (graph_at s j) o2 /\ o1 <> o2 /\ same_identity o1 o2
    | (Ok k, s') =>
        (forall x, held (graph_at s' k) x <-> held (graph_at s i) x \/ held (graph_at s j) x) /\
        (forall x, held (graph_at s' k) x -> graph_of s' x = k) /\
        (forall x, ~ held (graph_at s' k) x -> graph_of s' x = graph_of s x) /\
        (forall m, (m < length (graphs s))%nat -> graph_at s' m = graph_at s m)
    end.
  Proof.
    intros Hij Hi Hj. unfold merged_graph. rewrite (proj2 (Nat.eqb_neq i j) Hij).
    pose proof (graph_merge _ _ Hi Hj) as [H1 H2].
    destruct (merge_loop (g_iter (graph_at s j)) (graph_at s i)) as [g|e] eqn:E.
    - cbn [new_graph]. 
      destruct (point_all (g_iter g) (length (graphs s)) {| graphs := graphs s ++ [g]; graph_of := graph_of s |}) as [P1 P2].
      set (s' := fold_left _ _ _) in *.
      assert (Hat : graph_at s' (length (graphs s)) = g).
      { unfold graph_at. rewrite P1. simpl. rewrite app_nth2, Nat.sub_diag by lia. reflexivity. }
      rewrite Hat. destruct H1 as [_ H1]. split; [exact H1|]. split; [|split].
      + intros x Hx. rewrite P2. rewrite (proj2 (existsb_held g x) Hx). reflexivity.
      + intros x Hx. rewrite P2. destruct (existsb (Nat.eqb x) (g_iter g)) eqn:E1; [|reflexivity].
        apply existsb_held in E1. contradiction.
      + intros m Hm. unfold graph_at. rewrite P1. simpl. apply app_nth1. exact Hm.
    - subst e. split; [reflexivity|]. split; [reflexivity|]. apply H2. reflexivity.
  Qed.

  Lemma sound_at s i : sound_store cname pid s -> built (graph_at s i).
  Proof.
    intros [H _]. unfold graph_at. destruct (nth_in_or_default i (graphs s) []) as [Hin|E].
    - apply H. exact Hin.
    - rewrite E. constructor.
  Qed.

  Lemma set_graph_at s i g j : (i < length (graphs s))%nat ->
    graph_at (set_graph s i g) j = if Nat.eqb j i then g else graph_at s j.
  Proof.
    intros Hi. unfold graph_at, set_graph; cbn [graphs].
    destruct (Nat.eqb_spec j i) as [->|Hne].
    - rewrite app_nth2; rewrite firstn_length; [|lia]. rewrite Nat.min_l, Nat.sub_diag by lia. reflexivity.
    - destruct (Nat.lt_ge_cases j i) as [Hlt|Hge].
      + rewrite app_nth1 by (rewrite firstn_length; lia).
        rewrite <- (firstn_skipn i (graphs s)) at 2. rewrite app_nth1 by (rewrite firstn_length; lia). reflexivity.
      + rewrite app_nth2; rewrite firstn_length; [|lia]. rewrite Nat.min_l by lia.
        destruct (j - i)%nat as [|m] eqn:Em; [lia|]. cbn [nth].
        destruct (Nat.lt_ge_cases j (length (graphs s))) as [Hj|Hj].
        * rewrite <- (firstn_skipn (S i) (graphs s)) at 2.
          rewrite app_nth2; rewrite firstn_length; [|lia]. f_equal. lia.
        * rewrite !nth_overflow; [reflexivity|exact Hj|rewrite skipn_length; lia].
  Qed.

  Lemma link_graph_shares a b s : sound_store cname pid s ->
    held (graph_at s (graph_of s b)) b ->
    match link_graph cname pid a b s with
    | (Ok _, s') => graph_of s' a = graph_of s' b
    | (Err e, s') => e = EGraphConflict /\ forall x, graph_of s' x = graph_of s x
    end.
  Proof.
    intros Hs Hb. pose proof (fun i => sound_at s i Hs) as Hbuilt.
    set (i := graph_of s a). assert (Hi : (i < length (graphs s))%nat) by apply Hs.
    assert (Hg : exists s1, (forall x, graph_of s1 x = graph_of s x) /\ built (graph_at s1 i) /\
        (forall j, j <> i -> graph_at s1 j = graph_at s j) /\
        link_graph cname pid a b s =
        match merged_graph cname pid i (graph_of s b) s1 with
        | (Ok k, s2) => (Ok tt, point a k s2)
        | (Err e, s2) => (Err e, s2)
        end).
    { assert (Hset : forall g, built g -> (forall x, graph_of (set_graph s i g) x = graph_of s x) /\
                built (graph_at (set_graph s i g) i) /\
                (forall j, j <> i -> graph_at (set_graph s i g) j = graph_at s j)).
      { intros g HB. split; [reflexivity|]. split.
        - rewrite set_graph_at, Nat.eqb_refl by exact Hi. exact HB.
        - intros j Hj. rewrite set_graph_at by exact Hi. rewrite (proj2 (Nat.eqb_neq j i) Hj). reflexivity. }
      unfold link_graph. fold i. unfold OGraphModel.g_has.
      destruct (g_get a (graph_at s i)) as [[r g]|e] eqn:E; cbn [rbind].
      - assert (HB : built g) by (eapply built_get; [apply Hbuilt|exact E]).
        destruct r as [c|].
        + exists (set_graph s i g). destruct (Hset g HB) as (A1 & A2 & A3). auto.
        + destruct (g_put a g) as [g'|e'] eqn:E'.
          * assert (HB' : built g') by (eapply built_put; eassumption).
            exists (set_graph s i g'). destruct (Hset g' HB') as (A1 & A2 & A3). auto.
          * exists (set_graph s i g). destruct (Hset g HB) as (A1 & A2 & A3). auto.
      - exists s. auto. }
    destruct Hg as (s1 & G1 & G2 & G3 & ->).
    destruct (Nat.eq_dec i (graph_of s b)) as [Ej|Ej].
    - rewrite <- Ej. unfold merged_graph. rewrite Nat.eqb_refl. simpl. rewrite Nat.eqb_refl, G1, <- Ej.
      destruct (Nat.eqb b a); reflexivity.
    - assert (Hj : graph_at s1 (graph_of s b) = graph_at s (graph_of s b)) by (apply G3; congruence).
      pose proof (store_merge i (graph_of s b) s1 Ej G2) as HM. rewrite Hj in HM. specialize (HM (Hbuilt _)).
      destruct (merged_graph cname pid i (graph_of s b) s1) as [[k|e] s2].
      + destruct HM as (M1 & M2 & _). simpl. rewrite Nat.eqb_refl.
        destruct (Nat.eqb b a); [reflexivity|]. symmetry. apply M2. apply M1. auto.
      + destruct HM as (-> & -> & _). split; [reflexivity|exact G1].
  Qed.
End Proofs.
