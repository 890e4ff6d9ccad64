(** ClassProofs.v -- lemmas about class definitions and the look-up of the other side. *)
From Verif Require Import Base StrDict Values TypesModel ClassModel ClassSpec.

(** ** Dictionaries built field by field *)
Lemma dict_of_names {V} (key : V -> string) l d0 :
  (forall k v, In (k, v) d0 -> key v = k) -> suniq d0 ->
  let d := fold_left (fun d f => sset (key f) f d) l d0 in
  (forall k v, In (k, v) d -> key v = k) /\ suniq d.
Proof.
  revert d0. induction l as [| x l IH]; intros d0 K U; [split; assumption |].
  cbn [fold_left]. apply IH; [| apply suniq_sset; exact U].
  intros k v H. apply sget_In_iff in H; [| apply suniq_sset; exact U].
  rewrite sget_sset in H. destruct (String.eqb k (key x)) eqn:E.
  - apply String.eqb_eq in E. subst k. injection H as ->. reflexivity.
  - apply K. apply sget_In. exact H.
Qed.
Lemma sget_fold {V} (key : V -> string) l d0 n :
  sget n (fold_left (fun d f => sset (key f) f d) l d0) =
  match find (fun f => String.eqb n (key f)) (rev l) with Some f => Some f | None => sget n d0 end.
Proof.
  revert d0. induction l as [| x l IH]; intros d0; [reflexivity |].
  cbn [fold_left rev]. rewrite IH. 
  assert (F : forall a b (p : V -> bool), find p (a ++ b) = match find p a with Some y => Some y | None => find p b end).
  { clear. intros a b p. induction a as [| y a IH]; [reflexivity |]. cbn. destruct (p y); [reflexivity | exact IH]. }
  rewrite F. destruct (find _ (rev l)); [reflexivity |]. cbn [find]. rewrite sget_sset.
  destruct (String.eqb n (key x)); reflexivity.
Qed.

Lemma inherit_dict base own :
  exists d, inherit base own = map snd d /\ suniq d /\ (forall k v, In (k, v) d -> df_name v = k) /\
    forall n, sget n d = find (fun f => String.eqb n (df_name f)) (rev (base ++ own)).
Proof.
  unfold inherit. exists (fold_left (fun d f => sset (df_name f) f d) (base ++ own) []).
  rewrite fold_left_app at 1. split; [reflexivity |].
  destruct (dict_of_names df_name (base ++ own) []) as [K U].
  - intros k v [].
  - apply suniq_nil.
  - split; [exact U |]. split; [exact K |]. intros n. rewrite sget_fold.
    destruct (find _ _); reflexivity.
Qed.
Lemma inherit_names base own : distinct_names (inherit base own).
Proof.
  destruct (inherit_dict base own) as (d & -> & U & K & _). unfold distinct_names.
  rewrite map_map. apply suniq_NoDup in U.
  replace (map (fun x => df_name (snd x)) d) with (map fst d); [exact U |].
  apply map_ext_in. intros [k v] H. symmetry. exact (K k v H).
Qed.

(** ** The loop of CDef.__init__ *)
Lemma add_filter p j (l : list jfield) : add (p j) j l = l ++ filter p [j].
Proof. unfold add. cbn. destruct (p j); [reflexivity | rewrite app_nil_r; reflexivity]. Qed.

Section Loop.
  Context (nm : naming) (c : nat).
  Notation mk := (make_field nm c).

  Lemma mk_name f : jf_name (mk f) = df_name f.
  Proof. unfold make_field. destruct (field_types c f) as [[i ts] g]. reflexivity. Qed.
  Lemma mk_json f : fl_json (jf_field (mk f)) = n_out nm (df_name f).
  Proof. unfold make_field. destruct (field_types c f) as [[i ts] g]. reflexivity. Qed.

  Lemma loop fs : forall k,
    let k' := fold_left (class_step nm c) fs k in
    k_name k' = k_name k /\ k_own k' = k_own k /\
    k_fields k' = k_fields k ++ map mk fs /\
    k_dict k' = fold_left (fun d f => sset (df_name f) (mk f) d) fs (k_dict k) /\
    k_primary k' = match find (fun j => f_primary (jf_fdef j)) (rev (map mk fs)) with
                   | Some j => Some j | None => k_primary k end /\
    k_calc k' = k_calc k ++ filter (fun j => match f_fstore (jf_fdef j) with Calculated => true | _ => false end) (map mk fs) /\
    k_setter k' = k_setter k ++ filter (fun j => match f_setter (jf_fdef j) with Some _ => true | None => false end) (map mk fs) /\
    k_deny k' = k_deny k ++ filter (rule_is DDeny) (map mk fs) /\
    k_nullify k' = k_nullify k ++ filter (rule_is DNullify) (map mk fs) /\
    k_cascade k' = k_cascade k ++ filter (rule_is DCascade) (map mk fs) /\
    k_unique k' = k_unique k ++ filter (fun j => f_unique (jf_fdef j)) (map mk fs) /\
    k_names k' = k_names k ++ map df_name fs /\
    k_jnames k' = k_jnames k ++ map (fun f => n_out nm (df_name f)) fs /\
    k_operator k' = k_operator k ++ filter asks_operator (map mk fs).
  Proof.
    assert (F : forall (p : jfield -> bool) a b, find p (a ++ b) = match find p a with Some y => Some y | None => find p b end).
    { clear. intros p a b. induction a as [| y a IH]; [reflexivity |]. cbn. destruct (p y); [reflexivity | exact IH]. }
    induction fs as [| f fs IH]; intros k; cbn zeta.
    - cbn. rewrite !app_nil_r. repeat split; reflexivity.
    - cbn [fold_left map rev]. specialize (IH (class_step nm c k f)). cbn zeta in IH.
      destruct IH as (-> & -> & -> & -> & -> & -> & -> & -> & -> & -> & -> & -> & -> & ->).
      unfold class_step at 1 2 3 4 5 6 7 8 9 10 11 12 13 14.
      cbn [k_name k_own k_fields k_dict k_primary k_calc k_setter k_deny k_nullify k_cascade k_unique k_names k_jnames k_operator].
      rewrite F. cbn [find].
      change (f_primary (jf_fdef (mk f))) with ((fun j => f_primary (jf_fdef j)) (mk f)).
      rewrite (add_filter (fun j => match f_fstore (jf_fdef j) with Calculated => true | _ => false end)).
      rewrite (add_filter (fun j => match f_setter (jf_fdef j) with Some _ => true | None => false end)).
      rewrite (add_filter (rule_is DDeny)), (add_filter (rule_is DNullify)), (add_filter (rule_is DCascade)).
      rewrite (add_filter (fun j => f_unique (jf_fdef j))), (add_filter asks_operator).
      cbn [filter]. 
      repeat split; try reflexivity; try (rewrite <- !app_assoc; cbn [app]; try reflexivity);
        try (match goal with |- context [if ?b then [_] else []] => destruct b; reflexivity end).
      destruct (find _ (rev (map mk fs))); [reflexivity |]. destruct (f_primary (jf_fdef (mk f))); reflexivity.
  Qed.

  Lemma init_all name fs :
    let k := class_init nm c name fs in
    k_name k = name /\ k_own k = fs /\ k_fields k = map mk fs /\
    k_dict k = fold_left (fun d f => sset (df_name f) (mk f) d) fs [] /\
    k_primary k = find (fun j => f_primary (jf_fdef j)) (rev (map mk fs)) /\
    k_calc k = filter (fun j => match f_fstore (jf_fdef j) with Calculated => true | _ => false end) (map mk fs) /\
    k_setter k = filter (fun j => match f_setter (jf_fdef j) with Some _ => true | None => false end) (map mk fs) /\
    k_deny k = filter (rule_is DDeny) (map mk fs) /\
    k_nullify k = filter (rule_is DNullify) (map mk fs) /\
    k_cascade k = filter (rule_is DCascade) (map mk fs) /\
    k_unique k = filter (fun j => f_unique (jf_fdef j)) (map mk fs) /\
    k_names k = map df_name fs /\
    k_jnames k = map (fun f => n_out nm (df_name f)) fs /\
    k_operator k = filter asks_operator (map mk fs).
  Proof.
    cbn zeta. unfold class_init.
    match goal with |- context [fold_left _ fs ?k0] => pose proof (loop fs k0) as H end.
    cbn zeta in H. destruct H as (E1 & E2 & E3 & E4 & E5 & E6 & E7 & E8 & E9 & E10 & E11 & E12 & E13 & E14).
    cbn [k_name k_own k_fields k_dict k_primary k_calc k_setter k_deny k_nullify k_cascade k_unique k_names k_jnames k_operator app]
      in E1, E2, E3, E4, E5, E6, E7, E8, E9, E10, E11, E12, E13, E14.
    repeat split; try assumption. rewrite E5. destruct (find _ _); reflexivity.
  Qed.

  Lemma named_in name fs n f : distinct_names fs ->
    (k_named n (class_init nm c name fs) = Ok f <->
     In f (k_fields (class_init nm c name fs)) /\ jf_name f = n).
  Proof.
    intros D. destruct (init_all name fs) as (_ & _ & EF & ED & _). unfold k_named. rewrite EF, ED.
    assert (S : forall d0, sget n (fold_left (fun d x => sset (df_name x) (mk x) d) fs d0) =
              match find (fun x => String.eqb n (df_name x)) fs with Some x => Some (mk x) | None => sget n d0 end).
    { clear ED EF. unfold distinct_names in D. revert D. induction fs as [| x l IH]; intros D d0; [reflexivity |].
      cbn [map] in D. apply NoDup_cons_iff in D. destruct D as [D1 D2]. cbn [fold_left find]. rewrite (IH D2), sget_sset.
      destruct (String.eqb n (df_name x)) eqn:E; [| reflexivity]. apply String.eqb_eq in E. subst n.
      destruct (find _ l) as [y |] eqn:Fy; [| reflexivity]. exfalso. apply find_some in Fy. destruct Fy as [I E].
      apply String.eqb_eq in E. apply D1. rewrite E. apply in_map. exact I. }
    rewrite S. clear S ED EF. split.
    - destruct (find _ fs) as [x |] eqn:E; [| discriminate]. intros H. injection H as <-. apply find_some in E.
      destruct E as [I E]. apply String.eqb_eq in E. split; [apply in_map; exact I | rewrite mk_name; auto].
    - intros [I E]. apply in_map_iff in I. destruct I as (x & <- & I). rewrite mk_name in E. subst n.
      unfold distinct_names in D. induction fs as [| y l IH]; [destruct I |]. cbn [find].
      cbn [map] in D. apply NoDup_cons_iff in D. destruct D as [D1 D2].
      destruct (String.eqb (df_name x) (df_name y)) eqn:E.
      + apply String.eqb_eq in E. destruct I as [-> | I]; [reflexivity |]. exfalso. apply D1. rewrite <- E. apply in_map. exact I.
      + destruct I as [-> | I]; [rewrite String.eqb_refl in E; discriminate |]. apply IH; assumption.
  Qed.
End Loop.

(** ** The state *)
Lemma tid_eqb_eq a b : tid_eqb a b = true <-> a = b.
Proof.
  destruct a as [x | x m], b as [y | y n]; cbn; split; intros H; try discriminate.
  - apply Nat.eqb_eq in H. congruence.
  - injection H as ->. apply Nat.eqb_refl.
  - apply andb_true_iff in H. destruct H as [H1 H2]. apply Nat.eqb_eq in H1. apply String.eqb_eq in H2. congruence.
  - injection H as -> ->. rewrite Nat.eqb_refl, String.eqb_refl. reflexivity.
Qed.

(** What holds of every state that a program reaches. *)
Record sane (s : state) : Prop := {
  sa_new : forall c k, s_class s c = Some k -> (c < s_count s)%nat;
  sa_made : forall c k, s_class s c = Some k -> exists nm base own, k = class_init nm c (k_name k) (inherit base own);
  sa_owner : forall i c, s_owner s i = Some c -> exists k f, s_class s c = Some k /\ In f (k_fields k) /\ jf_id f = i;
  sa_last : forall i c, s_owner s i = Some c ->
    forall c' k f, s_class s c' = Some k -> In f (k_fields k) -> jf_id f = i -> (c' <= c)%nat;
  sa_owned : forall c k f, s_class s c = Some k -> In f (k_fields k) -> exists a, s_owner s (jf_id f) = Some a;
  sa_graph : forall n c, sget n (s_graph s) = Some c -> exists k, s_class s c = Some k /\ k_name k = n
}.

Definition extends (s s' : state) : Prop :=
  (forall c k, s_class s c = Some k -> s_class s' c = Some k) /\
  (forall n c, sget n (s_graph s) = Some c -> sget n (s_graph s') = Some c).

Lemma sane_start : sane start.
Proof. constructor; cbn; intros; discriminate. Qed.

Lemma other_state c n s r s' : other c n s = (r, s') ->
  s_count s' = s_count s /\ s_owner s' = s_owner s /\ s_graph s' = s_graph s /\ s_class s' = s_class s.
Proof.
  unfold other. intros H.
  repeat match type of H with
         | (match ?x with _ => _ end) = _ => destruct x
         end; injection H as <- <-; repeat split; reflexivity.
Qed.

Lemma sane_step x s : sane s -> sane (run_step x s) /\ extends s (run_step x s).
Proof.
  intros SA. destruct x as [nm name base own | c n]; cbn [run_step].
  - unfold define. set (bfs := match base with Some b => _ | None => _ end).
    set (c := s_count s). set (k := class_init nm c name (inherit bfs own)).
    assert (NEW : s_class s c = None).
    { destruct (s_class s c) as [k0 |] eqn:E; [| reflexivity]. apply (sa_new _ SA) in E. unfold c in E. lia. }
    assert (NM : k_name k = name) by (unfold k; apply (init_all nm c name (inherit bfs own))).
    assert (G : forall gr, (forall n c', sget n gr = Some c' ->
                   sget n (s_graph s) = Some c' \/ (n = name /\ c' = c)) ->
              (forall n c', sget n (s_graph s) = Some c' -> sget n gr = Some c') ->
              let s' := {| s_count := S c;
                  s_owner := fun i => if existsb (fun f => tid_eqb i (jf_id f)) (k_fields k) then Some c else s_owner s i;
                  s_graph := gr;
                  s_class := fun c' => if Nat.eqb c' c then Some k else s_class s c';
                  s_other := s_other s |} in sane s' /\ extends s s').
    { intros gr H1 H2 s'. split.
      - constructor; cbn [s' s_count s_owner s_graph s_class].
        + intros c' k' H. destruct (Nat.eqb c' c) eqn:E; [apply Nat.eqb_eq in E; lia |].
          apply (sa_new _ SA) in H. unfold c. lia.
        + intros c' k' H. destruct (Nat.eqb c' c) eqn:E.
          * apply Nat.eqb_eq in E. subst c'. injection H as <-. exists nm, bfs, own. rewrite NM. reflexivity.
          * apply (sa_made _ SA) in H. exact H.
        + intros i a H. destruct (existsb _ (k_fields k)) eqn:E.
          * injection H as <-. apply existsb_exists in E. destruct E as (f & I & E). apply tid_eqb_eq in E.
            exists k, f. rewrite Nat.eqb_refl. auto.
          * apply (sa_owner _ SA) in H. destruct H as (k' & f & HC & I & E'). exists k', f.
            destruct (Nat.eqb a c) eqn:E2; [apply Nat.eqb_eq in E2; congruence |]. auto.
        + intros i a H c' k' f HC I EI. destruct (existsb (fun f0 => tid_eqb i (jf_id f0)) (k_fields k)) eqn:E.
          * injection H as <-. destruct (Nat.eqb c' c) eqn:E2; [apply Nat.eqb_eq in E2; lia |].
            apply (sa_new _ SA) in HC. unfold c. lia.
          * destruct (Nat.eqb c' c) eqn:E2; [| eapply (sa_last _ SA); eauto].
            injection HC as <-. exfalso. assert (X : existsb (fun f0 => tid_eqb i (jf_id f0)) (k_fields k) = true).
            { apply existsb_exists. exists f. split; [exact I | apply tid_eqb_eq; auto]. } congruence.
        + intros c' k' f H I. destruct (existsb (fun f0 => tid_eqb (jf_id f) (jf_id f0)) (k_fields k)) eqn:E; [eauto |].
          destruct (Nat.eqb c' c) eqn:E2.
          * injection H as <-. exfalso. assert (X : existsb (fun f0 => tid_eqb (jf_id f) (jf_id f0)) (k_fields k) = true).
            { apply existsb_exists. exists f. split; [exact I | apply tid_eqb_eq; reflexivity]. } congruence.
          * eapply (sa_owned _ SA); eauto.
        + intros n a H. apply H1 in H. destruct H as [H | [-> ->]].
          * apply (sa_graph _ SA) in H. destruct H as (k' & HC & E). exists k'.
            destruct (Nat.eqb a c) eqn:E2; [apply Nat.eqb_eq in E2; congruence |]. auto.
          * exists k. rewrite Nat.eqb_refl. auto.
      - split; cbn [s' s_class s_graph]; [| exact H2].
        intros c' k' H. destruct (Nat.eqb c' c) eqn:E; [apply Nat.eqb_eq in E; congruence | exact H]. }
    destruct (sget name (s_graph s)) as [q |] eqn:EN; cbn [snd].
    + apply G; auto.
    + cbn [s_count s_owner s_class s_other]. apply G.
      * intros n c' H. rewrite sget_sset in H. destruct (String.eqb n name) eqn:E; [| auto].
        apply String.eqb_eq in E. injection H as <-. auto.
      * intros n c' H. rewrite sget_sset_other; [exact H |]. intros ->. congruence.
  - destruct (other c n s) as [r s'] eqn:E. cbn [snd]. apply other_state in E. destruct E as (E1 & E2 & E3 & E4).
    split; [| split; rewrite ?E3, ?E4; auto]. destruct SA as [A1 A2 A3 A4 A5 A6].
    constructor; rewrite ?E1, ?E2, ?E3, ?E4; auto.
Qed.

Lemma unshared_back s s' : extends s s' -> unshared s' -> unshared s.
Proof. intros [X _] U a b ka kb f g HA HB. apply (U a b ka kb f g); apply X; assumption. Qed.

Lemma owner_is s a k f : sane s -> unshared s -> s_class s a = Some k -> In f (k_fields k) ->
  s_owner s (jf_id f) = Some a.
Proof.
  intros SA U HC I. destruct (sa_owned _ SA a k f HC I) as [b E].
  destruct (sa_owner _ SA _ _ E) as (kb & g & HB & IG & EG).
  rewrite E. f_equal. apply (U b a kb k g f); auto.
Qed.

Lemma class_of_mono s s' f o : extends s s' -> class_of s f = Ok o -> class_of s' f = Ok o.
Proof.
  intros [_ X]. unfold class_of. destruct (class_name f) as [n |]; [| auto].
  destruct (sget n (s_graph s)) as [c |] eqn:E; [| discriminate]. rewrite (X _ _ E). auto.
Qed.
Lemma find_other_mono s s' fs a fn fk r : extends s s' ->
  find_other s fs a fn fk = Ok r -> find_other s' fs a fn fk = Ok r.
Proof.
  intros X. induction fs as [| f fs IH]; [auto |]. cbn [find_other].
  destruct (class_of s f) as [o |] eqn:E; [| discriminate]. rewrite (class_of_mono s s' f o X E).
  destruct (opt_is o a); [| exact IH]. destruct fn as [n |]; [destruct (String.eqb _ n); auto |].
  destruct fk as [k |]; [destruct (eq_opt_str _ k); auto | exact IH].
Qed.
Lemma look_up_mono s s' f a r : extends s s' ->
  s_owner s (jf_id f) = Some a -> s_owner s' (jf_id f) = Some a ->
  look_up s f = Ok r -> look_up s' f = Ok r.
Proof.
  intros X O1 O2. unfold look_up. rewrite O1, O2.
  destruct (f_fstore (jf_fdef f)); try (intros H; exact H).
  1, 2: destruct (class_of s f) as [o |] eqn:E; [| discriminate]; rewrite (class_of_mono s s' f o X E);
    destruct o as [fc |]; [| auto]; destruct (s_class s fc) as [k |] eqn:EK; [| discriminate];
    rewrite (proj1 X _ _ EK); apply find_other_mono; exact X.
Qed.

(** Everything that is kept of earlier look-ups is what a look-up would give now. *)
Definition fresh_cache (s : state) : Prop :=
  forall c n r, s_other s c n = Some r ->
    exists k f, s_class s c = Some k /\ k_named n k = Ok f /\ look_up s f = Ok r.

Lemma named_k s c k n f : sane s -> s_class s c = Some k ->
  (k_named n k = Ok f <-> In f (k_fields k) /\ jf_name f = n).
Proof.
  intros SA H. destruct (sa_made _ SA _ _ H) as (nm & base & own & ->). apply named_in. apply inherit_names.
Qed.

Lemma cache_step x s : sane s -> unshared (run_step x s) -> fresh_cache s -> fresh_cache (run_step x s).
Proof.
  intros SA U F. pose proof (sane_step x s SA) as [SA' X]. pose proof (unshared_back _ _ X U) as U0.
  assert (K : forall c n r k f, s_class s c = Some k -> k_named n k = Ok f -> look_up s f = Ok r ->
            exists k f, s_class (run_step x s) c = Some k /\ k_named n k = Ok f /\ look_up (run_step x s) f = Ok r).
  { intros c n r k f H1 H2 H3. exists k, f. split; [apply X; exact H1 |]. split; [exact H2 |].
    pose proof (proj1 (named_k s c k n f SA H1) H2) as [I _].
    apply (look_up_mono s _ f c r X); [apply (owner_is s c k f) | apply (owner_is _ c k f) | exact H3]; auto.
    apply X. exact H1. }
  destruct x as [nm name base own | c n]; cbn [run_step] in *.
  - intros c' n' r H. assert (H' : s_other s c' n' = Some r).
    { revert H. unfold define. destruct (sget name (s_graph s)); cbn [snd s_other]; auto. }
    destruct (F _ _ _ H') as (k & f & H1 & H2 & H3). eapply K; eauto.
  - intros c' n' r H.
    assert (H' : s_other s c' n' = Some r \/
            exists k f, s_class s c' = Some k /\ k_named n' k = Ok f /\ look_up s f = Ok r).
    { revert H. unfold other. destruct (s_class s c) as [k |] eqn:E1; cbn [snd]; auto.
      destruct (k_named n k) as [f | e] eqn:E2; cbn [snd]; auto.
      destruct (s_other s c n) as [r0 |] eqn:E3; cbn [snd]; auto.
      destruct (look_up s f) as [r0 | e] eqn:E4; cbn [snd s_other]; auto.
      destruct (Nat.eqb c' c && String.eqb n' n) eqn:E5; auto. intros H. injection H as <-. right.
      apply andb_true_iff in E5. destruct E5 as [E5 E6]. apply Nat.eqb_eq in E5. apply String.eqb_eq in E6. subst.
      exists k, f. auto. }
    destruct H' as [H' | (k & f & H1 & H2 & H3)]; [| eapply K; eauto].
    destruct (F _ _ _ H') as (k & f & H1 & H2 & H3). eapply K; eauto.
Qed.

Lemma run_sane xs : forall s, sane s -> sane (run_steps xs s) /\ extends s (run_steps xs s).
Proof.
  induction xs as [| x xs IH]; intros s SA; [split; [exact SA | split; auto] |].
  cbn [run_steps fold_left]. destruct (sane_step x s SA) as [SA1 X1].
  destruct (IH (run_step x s) SA1) as [SA2 X2]. split; [exact SA2 |].
  destruct X1 as [P1 P2], X2 as [Q1 Q2]. split; intros; [apply Q1, P1 | apply Q2, P2]; assumption.
Qed.
Lemma run_cache xs : forall s, sane s -> fresh_cache s -> unshared (run_steps xs s) -> fresh_cache (run_steps xs s).
Proof.
  induction xs as [| x xs IH]; intros s SA F U; [exact F |]. cbn [run_steps fold_left] in *.
  destruct (sane_step x s SA) as [SA1 X1]. apply IH; [exact SA1 | | exact U].
  apply cache_step; [exact SA | | exact F]. eapply unshared_back; [| exact U]. apply (run_sane xs); exact SA1.
Qed.

(** ** The other side *)
Lemma other_look_up s c k f r s' : sane s -> fresh_cache s -> s_class s c = Some k -> In f (k_fields k) ->
  other c (jf_name f) s = (r, s') -> look_up s f = r.
Proof.
  intros SA F HC I H. unfold other in H. rewrite HC in H.
  rewrite (proj2 (named_k s c k (jf_name f) f SA HC) (conj I eq_refl)) in H.
  destruct (s_other s c (jf_name f)) as [r0 |] eqn:E.
  - injection H as <- <-. destruct (F _ _ _ E) as (k' & f' & H1 & H2 & H3).
    rewrite HC in H1. injection H1 as <-. rewrite (proj2 (named_k s c k (jf_name f) f SA HC) (conj I eq_refl)) in H2.
    injection H2 as <-. exact H3.
  - destruct (look_up s f) as [x | e]; injection H as <- <-; reflexivity.
Qed.

Lemma class_of_refers s f b : class_of s f = Ok (Some b) <-> refers s f b.
Proof.
  unfold class_of, refers. split.
  - destruct (class_name f) as [n |]; [| discriminate]. destruct (sget n (s_graph s)) eqn:E; [| discriminate].
    intros H. injection H as <-. eauto.
  - intros (n & -> & ->). reflexivity.
Qed.

Lemma find_other_first s fs a fn fk (D : jfield -> Prop) r :
  (forall g, D g <-> refers s g a /\
     match fn with Some n => jf_name g = n
     | None => match fk with Some k => f_foreign_key (jf_fdef g) = Some k | None => False end end) ->
  find_other s fs a fn fk = Ok r ->
  match r with
  | Some g => exists l1 l2, fs = l1 ++ g :: l2 /\ D g /\ forall x, In x l1 -> ~ D x
  | None => forall g, In g fs -> ~ D g
  end.
Proof.
  intros HD. induction fs as [| f fs IH]; cbn [find_other].
  - intros H. injection H as <-. intros g [].
  - destruct (class_of s f) as [o | e] eqn:E; [| discriminate].
    assert (REST : ~ D f -> find_other s fs a fn fk = Ok r ->
      match r with
      | Some g => exists l1 l2, f :: fs = l1 ++ g :: l2 /\ D g /\ (forall x, In x l1 -> ~ D x)
      | None => forall g, In g (f :: fs) -> ~ D g
      end).
    { intros ND H. apply IH in H. destruct r as [g |].
      - destruct H as (l1 & l2 & -> & Dg & N). exists (f :: l1), l2. split; [reflexivity |]. split; [exact Dg |].
        intros x [<- | I]; [exact ND | apply N; exact I].
      - intros g [<- | I]; [exact ND | apply H; exact I]. }
    destruct (opt_is o a) eqn:EO.
    + assert (R : refers s f a).
      { apply class_of_refers. rewrite E. destruct o as [x |]; [| discriminate EO]. cbn in EO.
        apply Nat.eqb_eq in EO. congruence. }
      destruct fn as [n |].
      * destruct (String.eqb (jf_name f) n) eqn:EN.
        -- intros H. injection H as <-. exists [], fs. split; [reflexivity |]. split; [| intros x []].
           apply HD. split; [exact R | apply String.eqb_eq; exact EN].
        -- apply REST. rewrite HD. intros [_ X]. apply String.eqb_neq in EN. contradiction.
      * destruct fk as [k |].
        -- destruct (eq_opt_str (f_foreign_key (jf_fdef f)) k) eqn:EN.
           ++ intros H. injection H as <-. exists [], fs. split; [reflexivity |]. split; [| intros x []].
              apply HD. split; [exact R |]. unfold eq_opt_str in EN. destruct (f_foreign_key (jf_fdef f)); [| discriminate].
              apply String.eqb_eq in EN. congruence.
           ++ apply REST. rewrite HD. intros [_ X]. rewrite X in EN. cbn in EN. rewrite String.eqb_refl in EN. discriminate.
        -- apply REST. rewrite HD. intros [_ []].
    + apply REST. rewrite HD. intros [R _]. apply class_of_refers in R. rewrite E in R. injection R as ->.
      cbn in EO. rewrite Nat.eqb_refl in EO. discriminate.
Qed.

Lemma find_other_total s fs a fn fk :
  (forall f n, In f fs -> class_name f = Some n -> exists c, sget n (s_graph s) = Some c) ->
  exists r, find_other s fs a fn fk = Ok r.
Proof.
  intros K. induction fs as [| f fs IH]; cbn [find_other]; [eauto |].
  destruct IH as [r IH]; [intros; apply (K f0 n); cbn; auto |].
  assert (E : exists o, class_of s f = Ok o).
  { unfold class_of. destruct (class_name f) as [n |] eqn:E; [| eauto].
    destruct (K f n) as [c Ec]; [cbn; auto | exact E |]. rewrite Ec. eauto. }
  destruct E as [o ->]. destruct (opt_is o a); [| eauto]. destruct fn as [n |]; [destruct (String.eqb _ n); eauto |].
  destruct fk as [k |]; [destruct (eq_opt_str _ k); eauto | eauto].
Qed.
