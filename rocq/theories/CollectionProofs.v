(** CollectionProofs.v -- validation of the items of collections. *)
From Verif Require Import Base Mon PyDict KeypathModel Values ChainModel ChainSpec ChainProofs TypesModel TypesSpec TypesProofs ObjModel IoModel IoBase
  CivilSpec Sound ObjSound LeafSound IoSound IoEffects CollectionSpec.
Open Scope list_scope.

(** ** The definition of a collection type *)
Lemma fdef_app a b : fdef_of (a ++ b) = fold_left (fun d m => define m d) b (fdef_of a).
Proof. apply fold_left_app. Qed.
Lemma item_step m d : is_col m = false -> f_item (define m d) = f_item d.
Proof.
  destruct m; intros H; try discriminate H; try reflexivity.
  all: cbn [define]; repeat match goal with |- context [match ?x with _ => _ end] => destruct x end; try reflexivity.
  all: unfold link_list_nonnull, nonnull_if_undefined, default_nullify; repeat match goal with |- context [match ?x with _ => _ end] => destruct x end; reflexivity.
Qed.
Lemma items_fold l d : (forall m, In m l -> is_col m = false) -> f_item (fold_left (fun d m => define m d) l d) = f_item d.
Proof.
  revert d. induction l as [| m l IH]; intros d H; [reflexivity |]. cbn [fold_left].
  rewrite IH by (intros x Hx; apply H; right; exact Hx). apply item_step, H. left. reflexivity.
Qed.
Lemma collection_item dict ts raw : collection dict ts raw -> f_item (fdef_of ts) = Some raw.
Proof.
  intros (a & b & -> & Hx). rewrite fdef_app. cbn [fold_left].
  rewrite items_fold by (intros x Hi; apply Hx, in_app_iff; right; exact Hi).
  destruct dict; cbn [define]; [reflexivity |].
  destruct (_ || _)%bool; unfold nonnull_if_undefined; [destruct (f_collection_null _) |]; reflexivity.
Qed.
Lemma collection_snoc dict ts raw : collection dict ts raw -> collection dict (ts ++ [MRequired]) raw.
Proof.
  intros (a & b & -> & Hx). exists a, (b ++ [MRequired]).
  split; [rewrite <- app_assoc; reflexivity |]. intros x Hi. rewrite app_assoc in Hi.
  apply in_app_iff in Hi. destruct Hi as [Hi | [<- | []]]; [apply Hx, Hi | reflexivity].
Qed.
Lemma unmarked_snoc ts : unmarked ts -> unmarked (ts ++ [MRequired]).
Proof.
  intros [H1 H2]. split; intros H; apply in_app_iff in H; destruct H as [H | [H | []]]; try discriminate H; contradiction.
Qed.
Lemma null_fold l d : (forall m, In m l -> m <> MNullable) -> f_item_null (fold_left (fun d m => define m d) l d) = f_item_null d.
Proof.
  revert d. induction l as [| m l IH]; intros d H; [reflexivity |]. cbn [fold_left].
  rewrite IH by (intros x Hx; apply H; right; exact Hx).
  pose proof (H m (or_introl eq_refl)) as Hm. clear H IH.
  destruct m; try reflexivity; try contradiction.
  all: cbn [define]; repeat match goal with |- context [match ?x with _ => _ end] => destruct x end; try reflexivity.
  all: unfold link_list_nonnull, nonnull_if_undefined, default_nullify; repeat match goal with |- context [match ?x with _ => _ end] => destruct x end; reflexivity.
Qed.
Lemma null_dec raw : {nullable raw} + {~ nullable raw}.
Proof.
  unfold nullable. induction raw as [| m raw IH]; [right; intros [] |].
  destruct IH as [H | H]; [left; right; exact H |].
  assert (D : {m = MNullable} + {m <> MNullable}) by (destruct m; try (right; discriminate); left; reflexivity).
  destruct D as [-> | D]; [left; left; reflexivity | right; intros [E | E]; [exact (D E) | exact (H E)]].
Qed.
Lemma null_kept l d : f_item_null d = NNullable -> f_item_null (fold_left (fun d m => define m d) l d) = NNullable.
Proof.
  revert d. induction l as [| m l IH]; intros d H; [exact H |]. cbn [fold_left]. apply IH.
  destruct (null_dec [m]) as [[-> | []] | N]; [reflexivity |].
  change (define m d) with (fold_left (fun d m => define m d) [m] d). rewrite null_fold; [exact H |].
  intros x [<- | []] E. apply N. left. exact E.
Qed.
Lemma item_chain dict ts raw : collection dict ts raw ->
  (nullable raw -> item_types (fdef_of ts) = Some raw) /\ (~ nullable raw -> item_types (fdef_of ts) = Some (raw ++ [MRequired])).
Proof.
  intros C. unfold item_types. rewrite (collection_item _ _ _ C). split; intros N.
  - apply in_split in N. destruct N as (a & b & ->). rewrite fdef_app. cbn [fold_left].
    rewrite null_kept by reflexivity. reflexivity.
  - unfold fdef_of. rewrite null_fold by (intros m Hm E; subst; contradiction). reflexivity.
Qed.

(** ** Items *)
Lemma enum_list_in l : forall i k x, In (k, x) (enum_list i l) <-> exists j, k = KInt (i + Z.of_nat j) /\ nth_error l j = Some x.
Proof.
  induction l as [| y l IH]; intros i k x; cbn [enum_list In].
  - split; [intros [] | intros (j & _ & H); destruct j; discriminate H].
  - rewrite IH. split.
    + intros [E | (j & -> & H)].
      * inversion E; subst. exists 0%nat. split; [f_equal; lia | reflexivity].
      * exists (S j). split; [f_equal; lia | exact H].
    + intros ([| j] & -> & H); [left; cbn in H; inversion H; f_equal; f_equal; lia | right; exists j; split; [f_equal; lia | exact H]].
Qed.
Lemma item_in dict v k x : item_at dict v k x -> exists its, col_items dict v = Some its /\ In (k, x) its.
Proof.
  destruct dict.
  - intros (d & s & -> & -> & H). exists (enum_dict d). split; [reflexivity |].
    unfold enum_dict; apply in_map_iff; exists (s, x); split; [reflexivity | exact H].
  - intros (l & i & -> & -> & H). exists (enum_list 0 l). split; [reflexivity |]. apply enum_list_in. exists i. split; [f_equal; lia | exact H].
Qed.

(** ** The loop *)
Section Loop.
  Context {X : Type} (f : X -> st world unit).
  Notation pre := (fun x => ret (Some (f x))).
  (** In all mode a failure that occurs in the loop is in the result. *)
  Definition keeps_keys (a b : list (string * string)) : Prop := forall k, sget k a <> None -> sget k b <> None.
  Lemma keeps_refl a : keeps_keys a a. Proof. intros k H; exact H. Qed.
  Lemma dset_keys k v (d : list (string * string)) k' : sget k' (dset String.eqb k v d) <> None <-> k' = k \/ sget k' d <> None.
  Proof.
    induction d as [| [k1 v1] d IH]; cbn.
    - destruct (String.eqb_spec k' k) as [-> | N].
      + split; [intros _; left; reflexivity | intros _; discriminate].
      + split; [intros H; contradiction | intros [E | H]; contradiction].
    - destruct (String.eqb_spec k k1) as [-> | N]; cbn.
      + destruct (String.eqb_spec k' k1) as [-> | N']; split; intros H; try discriminate; auto.
        destruct H as [-> | H]; [contradiction | exact H].
      + destruct (String.eqb_spec k' k1) as [-> | N']; [split; intros H; [right; discriminate | discriminate] | exact IH].
  Qed.
  Lemma receive_keys e : forall msgs k, sget k (receive msgs e) <> None <-> sget k msgs <> None \/ sget k e <> None.
  Proof.
    unfold receive, dupdate. induction e as [| [k1 v1] e IH]; intros msgs k; cbn [fold_left].
    - cbn. split; [intros H; left; exact H | intros [H | H]; [exact H | contradiction]].
    - rewrite IH. cbn [fst snd]. rewrite dset_keys. cbn. destruct (String.eqb_spec k k1) as [-> | N].
      + split; intros _; [right; discriminate | left; left; reflexivity].
      + split; intros H; destruct H as [H | H]; auto; destruct H as [H | H]; auto; contradiction.
  Qed.
  Lemma collect_grows l : forall all msgs w msgs' w', collect all pre l msgs w = (Ok msgs', w') -> keeps_keys msgs msgs'.
  Proof.
    induction l as [| x l IH]; intros all msgs w msgs' w' H; cbn [collect] in H.
    - inversion H; subst. apply keeps_refl.
    - unfold bind, ret in H. destruct (f x w) as [[u | e] w1]; [exact (IH _ _ _ _ _ H) |].
      destruct e; try discriminate H. destruct all; [| discriminate H].
      intros k Hk. apply (IH _ _ _ _ _ H). apply receive_keys. left. exact Hk.
  Qed.
  (** every element of the list is tried *)
  Lemma collect_tries l : forall msgs w msgs' w' x, collect true pre l msgs w = (Ok msgs', w') -> In x l ->
    exists w1 r w2, f x w1 = (r, w2) /\ (r = Ok tt \/ exists e, r = Err (EValidation e) /\ keeps_keys e msgs').
  Proof.
    induction l as [| y l IH]; intros msgs w msgs' w' x H Hi; [destruct Hi |]. cbn [collect] in H. unfold bind, ret in H.
    destruct (f y w) as [[u | e] w1] eqn:E.
    - destruct Hi as [<- | Hi]; [| exact (IH _ _ _ _ _ H Hi)]. exists w, (Ok u), w1. split; [exact E | left; destruct u; reflexivity].
    - destruct e; try discriminate H. destruct Hi as [<- | Hi]; [| exact (IH _ _ _ _ _ H Hi)].
      exists w, (Err (EValidation msgs0)), w1. split; [exact E |]. right. exists msgs0. split; [reflexivity |].
      intros k Hk. apply (collect_grows _ _ _ _ _ _ H). apply receive_keys. right. exact Hk.
  Qed.
  Lemma collect_ok_nil l : (forall x w w' e, f x w = (Err (EValidation e), w') -> e <> []) ->
    forall all msgs w w', collect all pre l msgs w = (Ok [], w') -> msgs = [] /\ forall x, In x l -> exists w1 w2, f x w1 = (Ok tt, w2).
  Proof.
    intros Sp. induction l as [| y l IH]; intros all msgs w w' H; cbn [collect] in H.
    - inversion H; subst. split; [reflexivity | intros x []].
    - unfold bind, ret in H. destruct (f y w) as [[u | e] w1] eqn:E.
      + destruct (IH _ _ _ _ H) as [-> Q]. split; [reflexivity |]. intros x [<- | Hi]; [exists w, w1; destruct u; exact E | exact (Q x Hi)].
      + destruct e; try discriminate H. destruct all; [| discriminate H]. destruct (IH _ _ _ _ H) as [Q _].
        exfalso. apply (receive_new msgs msgs0); [exact (Sp _ _ _ _ E) | exact Q].
  Qed.
  (** the first failure ends it *)
  Lemma collect_first l x rest e : forall w w1 w2, for_st l f w = (Ok tt, w1) -> f x w1 = (Err (EValidation e), w2) ->
    collect false pre (l ++ x :: rest) [] w = (Err (EValidation e), w2).
  Proof.
    induction l as [| y l IH]; intros w w1 w2 H Hx; cbn [app collect].
    - inversion H; subst. unfold bind, ret. rewrite Hx. reflexivity.
    - cbn in H. unfold bind in H. unfold bind, ret. destruct (f y w) as [[u | e1] w3]; [| discriminate H]. exact (IH _ _ _ H Hx).
  Qed.
End Loop.

Lemma collect_pre_ext {X} all (p1 p2 : X -> st world (option (st world unit))) l : (forall x w, p1 x w = p2 x w) ->
  forall msgs w, collect all p1 l msgs w = collect all p2 l msgs w.
Proof.
  intros E. induction l as [| x l IH]; intros msgs w; [reflexivity |]. cbn [collect]. unfold bind. rewrite E.
  destruct (p2 x w) as [[[m |] | e] w1]; try reflexivity; [| apply IH].
  destruct (m w1) as [[u | e] w2]; [apply IH |]. destruct e; try reflexivity. destruct all; [apply IH | reflexivity].
Qed.

Lemma accept_in {V C S} (c : C) (l : list (modifier V C S)) s s' m : all_accept c l s s' -> In m l ->
  exists s1 s2, m_validate m c s1 = (Ok tt, s2).
Proof.
  induction 1 as [s | m' l s s1 s' H Ha IH]; intros Hi; [destruct Hi |].
  destruct Hi as [<- | Hi]; [exists s, s1; exact H | exact (IH Hi)].
Qed.

Lemma within_snoc ts v p raw x : within ts v p raw x -> within (ts ++ [MRequired]) v p raw x.
Proof.
  intros H. destruct H.
  - eapply wi_here; try eassumption; [apply unmarked_snoc; assumption | apply collection_snoc; eassumption].
  - eapply wi_below; [apply unmarked_snoc; assumption | apply collection_snoc; eassumption | eassumption | assumption].
Qed.
Lemma within_unmarked ts v p raw x : within ts v p raw x -> unmarked ts.
Proof. intros H; destruct H; assumption. Qed.

Lemma store_plain raw : plain_store raw -> f_fstore (fdef_of raw) = Embedded.
Proof. intros H. apply (proj2 (decided f_fstore store_mark Embedded store_step eq_refl)). exact H. Qed.
Lemma store_plain_snoc raw : plain_store raw -> f_fstore (fdef_of (raw ++ [MRequired])) = Embedded.
Proof. intros H. rewrite fdef_app. cbn. apply store_plain, H. Qed.

Section Col.
  Context (P : program).

  Lemma required_null n c w : c_val c = VNone -> f_fstore (c_fdef c) = Embedded ->
    m_validate (interp P (S n) MRequired) c w = (Err (EValidation [(skp (c_fkr c), "value required"%string)]), w).
  Proof. intros Hv He. cbn [interp modif_of m_validate validate_of]. unfold required_validate. rewrite He, Hv. reflexivity. Qed.

  (** what validating a collection amounts to *)
  Notation item_check n chain c := (fun kv : karg * value => t_validate (interp P n) chain (colval c (snd kv) (fst kv) (fdef_of chain) (c_val c))).
  Lemma col_runs n raw ts c w its dict : collection dict ts raw ->
    c_fdef c = fdef_of ts -> col_items dict (c_val c) = Some its ->
    forall chain, item_types (fdef_of ts) = Some chain ->
    m_validate (interp P (S n) (if dict then MDictOf raw else MListOf raw)) c w =
      (do* d <- cdef_v P (c_owner c);
       do* msgs <- collect (match g_all (c_cfg c) with Some b => b | None => cd_validate_all d end)
         (fun kv => ret (Some (item_check n chain c kv))) its [];
       raise_collected msgs) w.
  Proof.
    intros Hc Hf Hi chain Hch.
    assert (E : forall dict' : bool, m_validate (interp P (S n) (if dict' then MDictOf raw else MListOf raw)) c w = col_validate P (interp P n) dict' c w)
      by (intros []; reflexivity).
    rewrite E. clear E. unfold col_validate.
    destruct (c_val c) as [| b | z | fl | s | dt | dtm | en | l | d | o' | u] eqn:Hv; try (destruct dict; discriminate Hi).
    - rewrite Hi. unfold bind. destruct (cdef_v P (c_owner c) w) as [[d | e] w1]; [| reflexivity].
      erewrite collect_pre_ext; [reflexivity |]. intros x w2. unfold items_of. rewrite Hf, Hch. reflexivity.
    - rewrite Hi. unfold bind. destruct (cdef_v P (c_owner c) w) as [[d' | e] w1]; [| reflexivity].
      erewrite collect_pre_ext; [reflexivity |]. intros x w2. unfold items_of. rewrite Hf, Hch. reflexivity.
  Qed.

  Lemma chain_of dict ts raw : collection dict ts raw -> exists chain, item_types (fdef_of ts) = Some chain /\
    (chain = raw /\ nullable raw \/ chain = raw ++ [MRequired] /\ ~ nullable raw).
  Proof.
    intros C. destruct (item_chain dict ts raw C) as [H1 H2]. destruct (null_dec raw) as [N | N].
    - exists raw. split; [exact (H1 N) | left; split; [reflexivity | exact N]].
    - exists (raw ++ [MRequired]). split; [exact (H2 N) | right; split; [reflexivity | exact N]].
  Qed.
  Lemma collection_in dict ts raw : collection dict ts raw -> In (if dict then MDictOf raw else MListOf raw) ts.
  Proof. intros (a & b & -> & _). apply in_elt. Qed.

  (** ** A valid collection *)
  Lemma valid_items n dict ts raw c w w' : civil P -> unmarked ts -> collection dict ts raw -> c_fdef c = fdef_of ts ->
    t_validate (interp P n) ts c w = (Ok tt, w') ->
    forall k x, item_at dict (c_val c) k x -> exists n' chain w1 w2,
      (chain = raw /\ nullable raw \/ chain = raw ++ [MRequired] /\ ~ nullable raw) /\
      t_validate (interp P n') chain (colval c x k (fdef_of chain) (c_val c)) w1 = (Ok tt, w2).
  Proof.
    intros C U Hc Hf H k x Hk. apply (unmarked_accepts P n ts c w w' C U) in H.
    destruct (accept_in _ _ _ _ _ H (in_map (interp P n) _ _ (collection_in _ _ _ Hc))) as (s1 & s2 & Hv). clear H.
    destruct n as [| n]; [cbn in Hv; discriminate Hv |].
    destruct (item_in _ _ _ _ Hk) as (its & Hi & Hin2). destruct (chain_of dict ts raw Hc) as (chain & Hch & Hd).
    rewrite (col_runs n raw ts c s1 its dict Hc Hf Hi chain Hch) in Hv.
    apply bind_ok in Hv. destruct Hv as (d & s3 & _ & Hv). apply bind_ok in Hv. destruct Hv as (msgs & s4 & G & Hv).
    unfold raise_collected in Hv. destruct msgs; [| discriminate Hv].
    assert (Sp : forall kv w w' e, item_check n chain c kv w = (Err (EValidation e), w') -> e <> [])
      by (intros kv w1 w2 e; apply t_validate_speaks, C).
    destruct (collect_ok_nil _ its Sp _ _ _ _ G) as [_ Q].
    destruct (Q (k, x) Hin2) as (w3 & w4 & Hw). exists n, chain, w3, w4. split; [exact Hd | exact Hw].
  Qed.
  Lemma either_collection dict ts ts' raw : ts' = ts \/ ts' = ts ++ [MRequired] -> collection dict ts raw -> collection dict ts' raw.
  Proof. intros [-> | ->] H; [exact H | apply collection_snoc, H]. Qed.
  Lemma either_unmarked ts ts' : ts' = ts \/ ts' = ts ++ [MRequired] -> unmarked ts -> unmarked ts'.
  Proof. intros [-> | ->] H; [exact H | apply unmarked_snoc, H]. Qed.

  Lemma valid_deep ts v path raw x : civil P -> within ts v path raw x -> plain_store raw -> x = VNone ->
    forall ts' n c w w', ts' = ts \/ ts' = ts ++ [MRequired] -> c_val c = v -> c_fdef c = fdef_of ts' ->
      t_validate (interp P n) ts' c w = (Ok tt, w') -> nullable raw.
  Proof.
    intros C H Hp Hx. induction H as [dict ts v raw k x U Ur Hc Hk | dict ts v it k y path raw x U Hc Hk Hw IH];
      intros ts' n c w w' Hts Hv Hf Ht; subst v;
      pose proof (either_unmarked _ _ Hts U) as U'; pose proof (either_collection _ _ _ _ Hts Hc) as Hc'.
    - destruct (valid_items n dict ts' raw c w w' C U' Hc' Hf Ht k x Hk) as (n' & chain & w1 & w2 & [[-> N] | [-> N]] & Hi); [exact N |].
      exfalso. apply (unmarked_accepts P n' _ _ _ _ C (unmarked_snoc _ Ur)) in Hi.
      assert (Hin : In (interp P n' MRequired) (map (interp P n') (raw ++ [MRequired]))) by (apply in_map, in_elt).
      destruct (accept_in _ _ _ _ _ Hi Hin) as (s1 & s2 & Hr). destruct n' as [| n']; [cbn in Hr; discriminate Hr |].
      rewrite required_null in Hr; [discriminate Hr | exact Hx | apply store_plain_snoc, Hp].
    - destruct (valid_items n dict ts' it c w w' C U' Hc' Hf Ht k y Hk) as (n' & chain & w1 & w2 & Hch & Hi).
      apply (IH Hp Hx chain n' _ w1 w2) in Hi; [exact Hi | destruct Hch as [[-> _] | [-> _]]; [left | right]; reflexivity | reflexivity | reflexivity].
  Qed.

  (** ** All failures wanted *)
  Lemma chain_grows (vs : list (modifier value ctx world)) c : forall msgs w msgs' w',
    chain_validate_loop all_on vs c msgs w = (Ok msgs', w') -> keeps_keys msgs msgs'.
  Proof.
    induction vs as [| m vs IH]; intros msgs w msgs' w' H; cbn [chain_validate_loop] in H.
    - inversion H; subst. apply keeps_refl.
    - destruct (m_validate m c w) as [[u | e] w1]; [exact (IH _ _ _ _ H) |].
      destruct e; try discriminate H.
      assert (K : keeps_keys msgs (receive msgs msgs0)) by (intros k Hk; apply receive_keys; left; exact Hk).
      destruct (all_on c).
      + intros k Hk. apply (IH _ _ _ _ H), K, Hk.
      + inversion H; subst. exact K.
  Qed.
  Lemma chain_tries (vs : list (modifier value ctx world)) c m : all_on c = true -> In m vs -> forall msgs w msgs' w',
    chain_validate_loop all_on vs c msgs w = (Ok msgs', w') ->
    exists w1 r w2, m_validate m c w1 = (r, w2) /\ (r = Ok tt \/ exists e, r = Err (EValidation e) /\ keeps_keys e msgs').
  Proof.
    intros Ha. induction vs as [| m' vs IH]; intros Hi msgs w msgs' w' H; [destruct Hi |]. cbn [chain_validate_loop] in H.
    destruct (m_validate m' c w) as [[u | e] w1] eqn:E.
    - destruct Hi as [<- | Hi]; [| exact (IH Hi _ _ _ _ H)]. exists w, (Ok u), w1. split; [exact E | left; destruct u; reflexivity].
    - destruct e; try discriminate H. rewrite Ha in H. destruct Hi as [<- | Hi]; [| exact (IH Hi _ _ _ _ H)].
      exists w, (Err (EValidation msgs0)), w1. split; [exact E |]. right. exists msgs0. split; [reflexivity |].
      intros k Hk. apply (chain_grows _ _ _ _ _ _ H). apply receive_keys. right. exact Hk.
  Qed.

  Lemma chain_says n ts c m key : unmarked ts -> all_on c = true -> In m ts ->
    (forall w r w', m_validate (interp P n m) c w = (r, w') -> regular r -> says r key) ->
    forall w r w', t_validate (interp P n) ts c w = (r, w') -> regular r -> says r key.
  Proof.
    intros U Ha Hi Hm w r w' H Hr. unfold t_validate, chain_validate in H. rewrite unmarked_nvs in H by exact U.
    unfold bind in H. destruct (chain_validate_loop all_on (map (interp P n) ts) c [] w) as [[msgs | e] w1] eqn:E.
    - destruct (chain_tries _ c (interp P n m) Ha (in_map _ _ _ Hi) _ _ _ _ E) as (w2 & r2 & w3 & H2 & D).
      assert (R2 : regular r2) by (destruct D as [-> | (e & -> & _)]; [left; reflexivity | right; eexists; reflexivity]).
      destruct (Hm _ _ _ H2 R2) as (e & -> & Hk). destruct D as [D | (e' & D & K)]; [discriminate D |].
      inversion D; subst e'. specialize (K key Hk). unfold raise_collected in H. destruct msgs as [| m1 msgs]; [contradiction |].
      inversion H; subst. eexists. split; [reflexivity | exact K].
    - inversion H; subst. exfalso. destruct Hr as [Hr | (msgs & Hr)]; [discriminate Hr |]. inversion Hr; subst e.
      clear - E Ha. revert E. generalize (@nil (string * string)). revert w. induction (map (interp P n) ts) as [| x l IH]; intros w m E; cbn in E; [discriminate E |].
      destruct (m_validate x c w) as [[u | e] w2]; [exact (IH _ _ E) |]. destruct e; try discriminate E. rewrite Ha in E. exact (IH _ _ E).
  Qed.
  Lemma col_says n dict ts raw c k x key : collection dict ts raw -> c_fdef c = fdef_of ts -> g_all (c_cfg c) = Some true ->
    item_at dict (c_val c) k x ->
    (forall n' chain w r w', n = S n' -> item_types (fdef_of ts) = Some chain ->
       t_validate (interp P n') chain (colval c x k (fdef_of chain) (c_val c)) w = (r, w') -> regular r -> says r key) ->
    forall w r w', m_validate (interp P n (if dict then MDictOf raw else MListOf raw)) c w = (r, w') -> regular r -> says r key.
  Proof.
    intros Hc Hf Ha Hk Hx w r w' H Hr. destruct n as [| n].
    { destruct dict; cbn in H; inversion H; subst; destruct Hr as [Hr | (m & Hr)]; discriminate Hr. }
    destruct (item_in _ _ _ _ Hk) as (its & Hi & Hin). destruct (chain_of dict ts raw Hc) as (chain & Hch & _).
    rewrite (col_runs n raw ts c w its dict Hc Hf Hi chain Hch) in H. unfold bind in H.
    destruct (cdef_v P (c_owner c) w) as [[d | e] w1] eqn:Ed.
    2:{ exfalso. inversion H; subst. unfold cdef_v, the_obj, bind, getW, ret, throw in Ed.
        destruct (c_owner c); inversion Ed; subst; destruct Hr as [Hr | (m & Hr)]; discriminate Hr. }
    rewrite Ha in H.
    destruct (collect true (fun kv => ret (Some (item_check n chain c kv))) its [] w1) as [[msgs | e] w2] eqn:G.
    - destruct (collect_tries (item_check n chain c) its _ _ _ _ (k, x) G Hin) as (w3 & r3 & w4 & H3 & D).
      assert (R3 : regular r3) by (destruct D as [-> | (e & -> & _)]; [left; reflexivity | right; eexists; reflexivity]).
      destruct (Hx n chain w3 r3 w4 eq_refl Hch H3 R3) as (e & -> & Hs). destruct D as [D | (e' & D & K)]; [discriminate D |].
      inversion D; subst e'. specialize (K key Hs). unfold raise_collected in H. destruct msgs as [| m1 msgs]; [contradiction |].
      inversion H; subst. eexists. split; [reflexivity | exact K].
    - exfalso. inversion H; subst. destruct Hr as [Hr | (msgs & Hr)]; [discriminate Hr |]. inversion Hr; subst e.
      clear - G. revert G. generalize (@nil (string * string)). revert w1. induction its as [| y its IH]; intros w m G; cbn [collect] in G; [discriminate G |].
      unfold bind, ret in G. destruct (item_check n chain c y w) as [[u | e] w3]; [exact (IH _ _ G) |].
      destruct e; try discriminate G. exact (IH _ _ G).
  Qed.
  Lemma reported_deep ts v path raw x : within ts v path raw x -> plain_store raw -> x = VNone -> ~ nullable raw ->
    forall ts' n c w r w', ts' = ts \/ ts' = ts ++ [MRequired] -> c_val c = v -> c_fdef c = fdef_of ts' -> g_all (c_cfg c) = Some true ->
      t_validate (interp P n) ts' c w = (r, w') -> regular r -> says r (skp (c_fkr c ++ path)).
  Proof.
    intros H Hp Hx Hn. induction H as [dict ts v raw k x U Ur Hc Hk | dict ts v it k y path raw x U Hc Hk Hw IH];
      intros ts' n c w r w' Hts Hv Hf Ha Ht Hr; subst v;
      pose proof (either_unmarked _ _ Hts U) as U'; pose proof (either_collection _ _ _ _ Hts Hc) as Hc';
      assert (Ha' : all_on c = true) by (unfold all_on; rewrite Ha; reflexivity).
    - refine (chain_says n ts' c _ _ U' Ha' (collection_in _ _ _ Hc') _ w r w' Ht Hr).
      apply (col_says n dict ts' raw c k x _ Hc' Hf Ha Hk). intros n' chain w1 r1 w2 -> Hch Hi Hr1.
      rewrite (proj2 (item_chain dict ts' raw Hc') Hn) in Hch. inversion Hch; subst chain.
      refine (chain_says n' (raw ++ [MRequired]) _ MRequired _ (unmarked_snoc _ Ur) _ _ _ w1 r1 w2 Hi Hr1).
      + unfold all_on. cbn. rewrite Ha. reflexivity.
      + apply in_elt.
      + intros w3 r3 w4 H3 R3. destruct n' as [| n'].
        { cbn in H3. inversion H3; subst; destruct R3 as [R3 | (m & R3)]; discriminate R3. }
        rewrite required_null in H3; [| exact Hx | apply store_plain_snoc, Hp]. inversion H3; subst.
        eexists. split; [reflexivity |]. cbn. rewrite String.eqb_refl. discriminate.
    - refine (chain_says n ts' c _ _ U' Ha' (collection_in _ _ _ Hc') _ w r w' Ht Hr).
      apply (col_says n dict ts' it c k y _ Hc' Hf Ha Hk). intros n' chain w1 r1 w2 -> Hch Hi Hr1.
      assert (Hd : chain = it \/ chain = it ++ [MRequired]).
      { destruct (chain_of dict ts' it Hc') as (chain' & Hch' & D). rewrite Hch in Hch'. inversion Hch'; subst chain'. destruct D as [[-> _] | [-> _]]; auto. }
      pose proof (IH Hp Hx Hn chain n' (colval c y k (fdef_of chain) (c_val c)) w1 r1 w2 Hd eq_refl eq_refl Ha Hi Hr1) as K. cbn [c_fkr colval] in K.
      rewrite <- app_assoc in K. exact K.
  Qed.

  (** ** One None item *)
  Lemma types_admit n m : is_type m = true -> admits_none P (S n) m.
  Proof.
    intros H c w Hv. destruct m; try discriminate H; cbn [interp modif_of m_validate validate_of]; try reflexivity.
    - destruct l; try discriminate H. rewrite Hv. cbn [LeafModel.leaf_validate]. unfold LeafModel.v_type. destruct k; reflexivity.
    - unfold inst_validate. rewrite Hv. reflexivity.
    - unfold col_validate. rewrite Hv. reflexivity.
    - unfold col_validate. rewrite Hv. reflexivity.
    - unfold union_validate. rewrite Hv. reflexivity.
    - unfold enum_validate. rewrite Hv. reflexivity.
  Qed.
  Lemma loop_admits n raw c w : c_val c = VNone -> Forall (admits_none P n) raw -> forall rest msgs,
    chain_validate_loop all_on (map (interp P n) raw ++ rest) c msgs w = chain_validate_loop all_on rest c msgs w.
  Proof.
    intros Hv H rest msgs. induction H as [| m raw Hm _ IH]; [reflexivity |]. cbn [map app chain_validate_loop]. rewrite (Hm c w Hv). exact IH.
  Qed.
  Lemma null_item n dict ts raw c k p w : collection dict ts raw -> c_fdef c = fdef_of ts -> unmarked raw -> plain_store raw ->
    Forall (admits_none P (S n)) raw -> forall chain, item_types (fdef_of ts) = Some chain ->
    (nullable raw -> t_validate (interp P (S n)) chain (colval c VNone k (fdef_of chain) p) w = (Ok tt, w)) /\
    (~ nullable raw -> t_validate (interp P (S n)) chain (colval c VNone k (fdef_of chain) p) w
       = (Err (EValidation [(skp (c_fkr c ++ [k]), "value required"%string)]), w)).
  Proof.
    intros Hc Hf U Hp Ha chain Hch. destruct (item_chain dict ts raw Hc) as [H1 H2]. split; intros N.
    - rewrite (H1 N) in Hch. inversion Hch; subst chain. unfold t_validate, chain_validate. rewrite unmarked_nvs by exact U.
      unfold bind. rewrite <- (app_nil_r (map _ raw)). rewrite loop_admits by (reflexivity || exact Ha). reflexivity.
    - rewrite (H2 N) in Hch. inversion Hch; subst chain. unfold t_validate, chain_validate. rewrite unmarked_nvs by exact (unmarked_snoc _ U).
      unfold bind. rewrite map_app, loop_admits by (reflexivity || exact Ha). cbn [map chain_validate_loop].
      rewrite required_null; [| reflexivity | apply store_plain_snoc, Hp]. cbn [c_fkr colval].
      destruct (all_on _); reflexivity.
  Qed.

  (** ** nonnull *)
  Lemma nonnull_kept l d : f_collection_null d = NNonnull -> f_collection_null (fold_left (fun d m => define m d) l d) = NNonnull.
  Proof.
    revert d. induction l as [| m l IH]; intros d H; [exact H |]. cbn [fold_left]. apply IH. clear IH.
    destruct m; try exact H; try reflexivity.
    all: cbn [define]; repeat match goal with |- context [match ?x with _ => _ end] => destruct x end; try exact H; try reflexivity.
    all: unfold link_list_nonnull, nonnull_if_undefined, default_nullify; repeat match goal with |- context [match ?x with _ => _ end] => destruct x eqn:? end; try exact H; try reflexivity; cbn in *; congruence.
  Qed.
  Lemma nonnull_in ts : In MNonnull ts -> f_collection_null (fdef_of ts) = NNonnull.
  Proof. intros H. apply in_split in H. destruct H as (a & b & ->). rewrite fdef_app. cbn [fold_left]. apply nonnull_kept. reflexivity. Qed.
End Col.
