(** PropClass.v -- C86: class definitions; C87: the two sides of a relation find each other. *)
From Verif Require Import Base StrDict Values TypesModel ClassModel ClassSpec ClassProofs.
From Verif Require Import LinkSpec ObjExample.
From Verif Require IoModel.
Open Scope string_scope.
Open Scope list_scope.

(** ** Helpers *)
Lemma filter_just {A} (P : A -> Prop) p : (forall x, p x = true <-> P x) -> forall l, just P l (filter p l).
Proof.
  intros H. induction l as [| x l IH]; [constructor |]. cbn. destruct (p x) eqn:E.
  - constructor; [apply H; exact E | exact IH].
  - constructor; [| exact IH]. rewrite <- H, E. discriminate.
Qed.
Lemma find_rev_last {A} (P : A -> Prop) p : (forall x, p x = true <-> P x) -> forall l, last_such P l (find p (rev l)).
Proof.
  intros H l. rewrite <- (rev_involutive l) at 1. generalize (rev l). clear l. intros l.
  unfold last_such. destruct (find p l) as [x |] eqn:E.
  - induction l as [| y l IH]; [discriminate |]. cbn [find] in E. destruct (p y) eqn:Ey.
    + injection E as <-. exists (rev l), []. cbn. split; [reflexivity |]. split; [apply H; exact Ey | intros z []].
    + destruct (IH E) as (l1 & l2 & El & Px & N). exists l1, (l2 ++ [y]). cbn [rev]. rewrite El, <- app_assoc.
      split; [reflexivity |]. split; [exact Px |]. intros z I. apply in_app_or in I. destruct I as [I | [<- | []]].
      * apply N. exact I.
      * rewrite <- H, Ey. discriminate.
  - intros y I. apply in_rev in I. rewrite <- H. rewrite (List.find_none _ _ E y I). discriminate.
Qed.
Lemma mk_declared nm c f : as_declared nm f (make_field nm c f).
Proof.
  unfold make_field, field_types. unfold declared_types, declared_default.
  destruct f as [n a [| i ts | v] fa]; cbn; [destruct fa |  |]; constructor; cbn; try reflexivity; intros; try discriminate.
Qed.

Lemma keys_fold l : forall d0 : list (string * dfield),
  (forall k v, In (k, v) d0 -> df_name v = k) -> suniq d0 -> NoDup (map df_name l) ->
  map fst (fold_left (fun d f => sset (df_name f) f d) l d0) =
  map fst d0 ++ filter (fun n => negb (existsb (String.eqb n) (map fst d0))) (map df_name l).
Proof.
  induction l as [| x l IH]; intros d0 K U D; [cbn; rewrite app_nil_r; reflexivity |].
  cbn [fold_left map] in *. apply NoDup_cons_iff in D. destruct D as [D1 D2].
  assert (U' : suniq (sset (df_name x) x d0)) by (apply suniq_sset; exact U).
  rewrite IH; [| | exact U' | exact D2].
  - rewrite sset_keys. cbn [filter]. 
    assert (EM : existsb (String.eqb (df_name x)) (map fst d0) = smem (df_name x) d0).
    { apply Bool.eq_iff_eq_true. rewrite smem_In, existsb_exists. split.
      - intros (n & I & E). apply String.eqb_eq in E. congruence.
      - intros I. exists (df_name x). split; [exact I | apply String.eqb_refl]. }
    rewrite EM. destruct (smem (df_name x) d0) eqn:E; cbn [negb]; [reflexivity |].
    rewrite <- app_assoc. cbn [app]. f_equal. f_equal. apply filter_ext_in. intros n I.
    rewrite existsb_app. cbn. rewrite orb_false_r. destruct (String.eqb n (df_name x)) eqn:En; [| rewrite orb_false_r; reflexivity].
    apply String.eqb_eq in En. subst n. contradiction.
  - intros k v H. apply sget_In_iff in H; [| exact U'].
    rewrite sget_sset in H. destruct (String.eqb k (df_name x)) eqn:E.
    + apply String.eqb_eq in E. subst k. injection H as ->. reflexivity.
    + apply K. apply sget_In. exact H.
Qed.

Lemma inherit_order base own : NoDup (map df_name base) -> NoDup (map df_name own) ->
  map df_name (inherit base own) =
  map df_name base ++ filter (fun n => negb (existsb (String.eqb n) (map df_name base))) (map df_name own).
Proof.
  intros DB DO. unfold inherit. set (d1 := fold_left _ base []).
  destruct (dict_of_names df_name base []) as [K1 U1]; [intros k v [] | apply suniq_nil |]. fold d1 in K1, U1.
  assert (E1 : map fst d1 = map df_name base).
  { unfold d1. rewrite keys_fold; [| intros k v [] | apply suniq_nil | exact DB]. cbn.
    clear. induction (map df_name base) as [| x l IH]; [reflexivity |]. cbn. rewrite IH. reflexivity. }
  destruct (dict_of_names df_name own d1 K1 U1) as [K2 U2].
  rewrite map_map. rewrite (map_ext_in (fun x => df_name (snd x)) fst); [| intros [k v] I; exact (K2 k v I)].
  rewrite keys_fold; [| exact K1 | exact U1 | exact DO]. rewrite E1. reflexivity.
Qed.

Lemma find_app' {A} (p : A -> bool) a b : find p (a ++ b) = match find p a with Some y => Some y | None => find p b end.
Proof. induction a as [| y a IH]; [reflexivity |]. cbn. destruct (p y); [reflexivity | exact IH]. Qed.
Lemma find_nodup l f : NoDup (map df_name l) -> In f l ->
  find (fun x => String.eqb (df_name f) (df_name x)) (rev l) = Some f.
Proof.
  intros D I. destruct (find _ (rev l)) as [g |] eqn:E.
  - apply find_some in E. destruct E as [Ig E]. apply String.eqb_eq in E. apply in_rev in Ig.
    f_equal. induction l as [| x l IH]; [destruct I |]. cbn in D. apply NoDup_cons_iff in D. destruct D as [D1 D2].
    destruct I as [-> | I], Ig as [-> | Ig]; try reflexivity.
    + exfalso. apply D1. rewrite E. apply in_map. exact Ig.
    + exfalso. apply D1. rewrite <- E. apply in_map. exact I.
    + apply IH; assumption.
  - apply in_rev in I. pose proof (List.find_none _ _ E f I) as X. cbn in X. rewrite String.eqb_refl in X. discriminate.
Qed.
Lemma inherit_in base own f : NoDup (map df_name base) -> NoDup (map df_name own) ->
  (In f (inherit base own) <-> In f own \/ (In f base /\ ~ In (df_name f) (map df_name own))).
Proof.
  intros DB DO. destruct (inherit_dict base own) as (d & -> & U & K & G).
  assert (E : In f (map snd d) <-> sget (df_name f) d = Some f).
  { split.
    - intros I. apply in_map_iff in I. destruct I as ([k v] & E & I). cbn in E. subst v.
      apply sget_In_iff; [exact U |]. rewrite (K k f I). exact I.
    - intros H. apply sget_In in H. apply in_map_iff. exists (df_name f, f). auto. }
  rewrite E, G, rev_app_distr, find_app'. split.
  - destruct (find _ (rev own)) as [g |] eqn:Eo.
    + intros H. injection H as ->. left. apply find_some in Eo. apply in_rev. apply Eo.
    + intros H. right. apply find_some in H. split; [apply in_rev; apply H |]. intros I.
      apply in_map_iff in I. destruct I as (g & E1 & I). apply in_rev in I. pose proof (List.find_none _ _ Eo g I) as X.
      cbn in X. rewrite E1, String.eqb_refl in X. discriminate.
  - intros [I | [I N]].
    + rewrite (find_nodup own f DO I). reflexivity.
    + destruct (find _ (rev own)) as [g |] eqn:Eo.
      * exfalso. apply find_some in Eo. destruct Eo as [Ig Eg]. apply String.eqb_eq in Eg. apply N. rewrite Eg.
        apply in_map. apply in_rev. exact Ig.
      * apply find_nodup; assumption.
Qed.

(** ** C86 Class definitions

    A definition that is accepted gives a class whose fields are those of the base class, in
    order, then those that are new, each field declared by both being the one of the class
    itself; every field has the types it was declared with, its default value, and the
    names that the strategies of the class give. *)
Theorem C86_fields :
  forall xs nm name base own c s',
    NoDup (map df_name own) ->
    define nm name base own (run_steps xs start) = (Ok c, s') ->
    exists k bfs,
      defined s' c k /\ k_name k = name /\
      match base with
      | Some b => forall kb, s_class (run_steps xs start) b = Some kb -> bfs = k_own kb
      | None => bfs = []
      end /\
      map df_name (k_own k) =
        map df_name bfs ++ filter (fun n => negb (existsb (String.eqb n) (map df_name bfs))) (map df_name own) /\
      (forall f, In f (k_own k) <-> In f own \/ (In f bfs /\ ~ In (df_name f) (map df_name own))) /\
      Forall2 (as_declared nm) (k_own k) (k_fields k).
Proof.
  intros xs nm name base own c s' DO H.
  destruct (run_sane xs start sane_start) as [SA _]. set (s := run_steps xs start) in *.
  unfold define in H. set (bfs := match base with Some b => _ | None => _ end) in H.
  destruct (sget name (s_graph s)) eqn:EN; [discriminate H |]. injection H as <- <-.
  destruct (init_all nm (s_count s) name (inherit bfs own)) as (E1 & E2 & E3 & _).
  exists (class_init nm (s_count s) name (inherit bfs own)), bfs.
  assert (DB : NoDup (map df_name bfs)).
  { unfold bfs. destruct base as [b |]; [| constructor]. destruct (s_class s b) as [kb |] eqn:Eb; [| constructor].
    destruct (sa_made _ SA _ _ Eb) as (nm' & base' & own' & ->).
    destruct (init_all nm' b (k_name kb) (inherit base' own')) as (_ & -> & _). apply inherit_names. }
  split; [| split; [exact E1 |]; split; [| split; [| split]]].
  - unfold defined. cbn. rewrite Nat.eqb_refl, E1. split; [reflexivity | apply sget_sset_same].
  - unfold bfs. destruct base as [b |]; [| reflexivity]. intros kb ->. reflexivity.
  - rewrite E2. apply inherit_order; assumption.
  - intros f. rewrite E2. apply inherit_in; assumption.
  - rewrite E2, E3. clear. induction (inherit bfs own) as [| f l IH]; [constructor |]. constructor; [apply mk_declared | exact IH].
Qed.
Print Assumptions C86_fields.

(** Whatever is done later, the class keeps its definition and its place in the graph; a name
    is refused from then on. *)
Theorem C86_kept :
  forall xs ys c k,
    defined (run_steps xs start) c k ->
    defined (run_steps ys (run_steps xs start)) c k /\
    forall nm base own, fst (define nm (k_name k) base own (run_steps ys (run_steps xs start))) = Err ERedefinition.
Proof.
  intros xs ys c k [H1 H2]. destruct (run_sane xs start sane_start) as [SA _].
  destruct (run_sane ys _ SA) as [_ [X1 X2]]. split; [split; auto |].
  intros nm base own. unfold define. rewrite (X2 _ _ H2). reflexivity.
Qed.
Print Assumptions C86_kept.

(** The lists of fields: the primary field is the last one marked primary; the calculated
    fields, the fields with a setter, with each of the delete rules, the unique fields and
    those to which [opby] assigns (asop, asopd) are exactly the ones declared so, in order; and a field is found by its name. *)
Theorem C86_lists :
  forall xs c k, s_class (run_steps xs start) c = Some k ->
    last_such (fun f => f_primary (jf_fdef f) = true) (k_fields k) (k_primary k) /\
    just (fun f => f_fstore (jf_fdef f) = Calculated) (k_fields k) (k_calc k) /\
    just (fun f => f_setter (jf_fdef f) <> None) (k_fields k) (k_setter k) /\
    just (fun f => f_delete_rule (jf_fdef f) = Some DDeny) (k_fields k) (k_deny k) /\
    just (fun f => f_delete_rule (jf_fdef f) = Some DNullify) (k_fields k) (k_nullify k) /\
    just (fun f => f_delete_rule (jf_fdef f) = Some DCascade) (k_fields k) (k_cascade k) /\
    just (fun f => f_unique (jf_fdef f) = true) (k_fields k) (k_unique k) /\
    just (fun f => exists t, In (MAsop t) (fl_types (jf_field f))) (k_fields k) (k_operator k) /\
    NoDup (map jf_name (k_fields k)) /\
    forall n r, k_named n k = r <->
      match r with
      | Ok f => In f (k_fields k) /\ jf_name f = n
      | Err e => e = EValueError /\ ~ In n (map jf_name (k_fields k))
      end.
Proof.
  intros xs c k H. destruct (run_sane xs start sane_start) as [SA _].
  pose proof (fun n f => named_k _ c k n f SA H) as NK.
  destruct (sa_made _ SA _ _ H) as (nm & base & own & EK). 
  destruct (init_all nm c (k_name k) (inherit base own)) as (_ & _ & E3 & _ & E5 & E6 & E7 & E8 & E9 & E10 & E11 & _ & _ & E14).
  rewrite <- EK in E3, E5, E6, E7, E8, E9, E10, E11, E14. rewrite <- E3 in E5, E6, E7, E8, E9, E10, E11, E14.
  rewrite E5, E6, E7, E8, E9, E10, E11, E14.
  split; [apply find_rev_last; tauto |].
  split; [apply filter_just; intros x; destruct (f_fstore (jf_fdef x)); split; (reflexivity || discriminate) |].
  split; [apply filter_just; intros x; destruct (f_setter (jf_fdef x)); split; congruence |].
  split; [apply filter_just; intros x; unfold rule_is; destruct (f_delete_rule (jf_fdef x)) as [[] |]; split; (reflexivity || discriminate) |].
  split; [apply filter_just; intros x; unfold rule_is; destruct (f_delete_rule (jf_fdef x)) as [[] |]; split; (reflexivity || discriminate) |].
  split; [apply filter_just; intros x; unfold rule_is; destruct (f_delete_rule (jf_fdef x)) as [[] |]; split; (reflexivity || discriminate) |].
  split; [apply filter_just; tauto |].
  split; [apply filter_just; intros x; unfold asks_operator; rewrite existsb_exists; split;
          [intros (m & I & M); destruct m; try discriminate M; eexists; exact I | intros [t I]; exists (MAsop t); split; [exact I | reflexivity]] |].
  split.
  - rewrite E3, map_map. rewrite (map_ext _ df_name (mk_name nm c)). apply inherit_names.
  - intros n r. split.
    + intros <-. destruct (k_named n k) as [f | e] eqn:E; [apply NK; exact E |].
      split; [unfold k_named in E; destruct (sget n (k_dict k)); congruence |].
      intros I. apply in_map_iff in I. destruct I as (f & En & I). rewrite (proj2 (NK n f) (conj I En)) in E. discriminate.
    + destruct r as [f | e]; [apply NK |]. intros [-> N]. destruct (k_named n k) as [f | e] eqn:E.
      * exfalso. apply N. apply NK in E. destruct E as [I <-]. apply in_map. exact I.
      * unfold k_named in E. destruct (sget n (k_dict k)); congruence.
Qed.
Print Assumptions C86_lists.

(** The fields listed for the operator are the ones to which [opby] assigns (C69). *)
Theorem C86_operator :
  forall xs c k f, s_class (run_steps xs start) c = Some k ->
    (In f (k_operator k) <-> In f (k_fields k) /\ IoModel.asop_of (jf_field f) <> None).
Proof.
  intros xs c k f H. destruct (run_sane xs start sane_start) as [SA _].
  destruct (sa_made _ SA _ _ H) as (nm & base & own & EK).
  destruct (init_all nm c (k_name k) (inherit base own)) as (_ & _ & E3 & _ & _ & _ & _ & _ & _ & _ & _ & _ & _ & E14).
  rewrite <- EK in E3, E14. rewrite <- E3 in E14. rewrite E14, filter_In. apply and_iff_compat_l.
  unfold asks_operator, IoModel.asop_of.
  assert (L : forall ts acc, fold_left (fun acc m => match m with
                            | MAsop (Some t) => Some (Some t)
                            | MAsop None => Some (match acc with Some t => t | None => None end)
                            | _ => acc
                            end) ts acc <> None <->
            acc <> None \/ existsb (fun m => match m with MAsop _ => true | _ => false end) ts = true).
  { clear. induction ts as [| m ts IH]; intros acc; [cbn; intuition discriminate |].
    cbn [fold_left existsb]. rewrite IH. destruct m; cbn [orb]; try tauto.
    match goal with |- context [MAsop ?x] => destruct x | |- context [match ?x with Some _ => Some (Some _) | None => _ end] => destruct x end; intuition discriminate. }
  rewrite L. intuition congruence.
Qed.
Print Assumptions C86_operator.

(** The names of the class: what input may use are the names and the JSON names of the
    fields and, for the fields that store keys, the names of the keys and their JSON names;
    what [update] may use are the names of the fields and of the keys.  The name of a key
    leads back to the last field that has it. *)
Definition refs0 := {| r_one := []; r_one_json := []; r_list := []; r_list_json := []; r_virtual := [];
       r_virtual_json := []; r_virtual_fields := []; r_map := [] |}.
Definition stored_b (f : jfield) : bool :=
  match f_fstore (jf_fdef f), f_ftype (jf_fdef f) with
  | LocalKey, Some FTInstance | LocalKey, Some FTList => true | _, _ => false end.
Definition joined_b (f : jfield) : bool :=
  match f_fstore (jf_fdef f), f_join_table (jf_fdef f) with ForeignKey, Some true => true | _, _ => false end.
Lemma ref_loop fs : forall r,
  let r' := fold_left ref_step fs r in
  (forall n, In n (r_one r' ++ r_list r') <-> In n (r_one r ++ r_list r) \/
     exists f, In f fs /\ stores_keys f /\ n = fl_ref (jf_field f)) /\
  (forall n, In n (r_one_json r' ++ r_list_json r') <-> In n (r_one_json r ++ r_list_json r) \/
     exists f, In f fs /\ stores_keys f /\ n = fl_cref (jf_field f)) /\
  (forall n, In n (r_virtual r') <-> In n (r_virtual r) \/
     exists f, In f fs /\ joined f /\ n = fl_ref (jf_field f)) /\
  (forall n, sget n (r_map r') =
     match find (fun f => (stored_b f || joined_b f) && String.eqb n (fl_ref (jf_field f))) (rev fs) with
     | Some f => Some f | None => sget n (r_map r) end).
Proof.
  induction fs as [| f fs IH]; intros r; cbn zeta.
  - cbn. repeat split; intros; firstorder.
  - cbn [fold_left rev]. specialize (IH (ref_step r f)). cbn zeta in IH. destruct IH as (A & B & C & D).
    assert (SK : stored_b f = true <-> stores_keys f).
    { unfold stored_b, stores_keys. destruct (f_fstore (jf_fdef f)), (f_ftype (jf_fdef f)) as [[] |]; split; intros H;
        (discriminate H || reflexivity || (destruct H as [H1 H2]; try discriminate H1; destruct H2; discriminate) || auto). }
    assert (JN : joined_b f = true <-> joined f).
    { unfold joined_b, joined. destruct (f_fstore (jf_fdef f)), (f_join_table (jf_fdef f)) as [[] |]; split; intros H;
        (discriminate H || reflexivity || (destruct H; discriminate) || auto). }
    assert (ST : (stores_keys f /\ (forall n, In n (r_one (ref_step r f) ++ r_list (ref_step r f)) <-> In n (r_one r ++ r_list r) \/ n = fl_ref (jf_field f)) /\
                  (forall n, In n (r_one_json (ref_step r f) ++ r_list_json (ref_step r f)) <-> In n (r_one_json r ++ r_list_json r) \/ n = fl_cref (jf_field f))
                  \/ ~ stores_keys f /\ (forall n, In n (r_one (ref_step r f) ++ r_list (ref_step r f)) <-> In n (r_one r ++ r_list r)) /\
                  (forall n, In n (r_one_json (ref_step r f) ++ r_list_json (ref_step r f)) <-> In n (r_one_json r ++ r_list_json r)))
               /\ (joined f /\ (forall n, In n (r_virtual (ref_step r f)) <-> In n (r_virtual r) \/ n = fl_ref (jf_field f))
                  \/ ~ joined f /\ forall n, In n (r_virtual (ref_step r f)) <-> In n (r_virtual r))
               /\ r_map (ref_step r f) = if stored_b f || joined_b f then sset (fl_ref (jf_field f)) f (r_map r) else r_map r).
    { rewrite <- SK, <- JN. unfold stored_b, joined_b, ref_step.
      destruct (f_fstore (jf_fdef f)); [| destruct (f_ftype (jf_fdef f)) as [[] |] | destruct (f_join_table (jf_fdef f)) as [[] |] | |];
        cbn [r_one r_list r_one_json r_list_json r_virtual r_map orb];
        (split; [| split]); try reflexivity;
        try (left; split; [reflexivity |]; (match goal with |- _ /\ _ => split | _ => idtac end); intros n; rewrite ?in_app_iff; cbn [In]; rewrite ?in_app_iff; cbn [In]; intuition congruence);
        try (right; split; [discriminate |]; (match goal with |- _ /\ _ => split | _ => idtac end); intros n; reflexivity). }
    destruct ST as (ST1 & ST2 & ST3). split; [| split; [| split]].
    + intros n. rewrite A. destruct ST1 as [(S1 & S2 & _) | (S1 & S2 & _)]; rewrite S2; split.
      * intros [[H | ->] | (g & I & H)]; [left; exact H | right; exists f; cbn; auto | right; exists g; cbn; tauto].
      * intros [H | (g & [<- | I] & H1 & ->)]; [tauto | tauto | right; eauto].
      * intros [H | (g & I & H)]; [left; exact H | right; exists g; cbn; tauto].
      * intros [H | (g & [<- | I] & H1 & ->)]; [tauto | contradiction | right; eauto].
    + intros n. rewrite B. destruct ST1 as [(S1 & _ & S2) | (S1 & _ & S2)]; rewrite S2; split.
      * intros [[H | ->] | (g & I & H)]; [left; exact H | right; exists f; cbn; auto | right; exists g; cbn; tauto].
      * intros [H | (g & [<- | I] & H1 & ->)]; [tauto | tauto | right; eauto].
      * intros [H | (g & I & H)]; [left; exact H | right; exists g; cbn; tauto].
      * intros [H | (g & [<- | I] & H1 & ->)]; [tauto | contradiction | right; eauto].
    + intros n. rewrite C. destruct ST2 as [(S1 & S2) | (S1 & S2)]; rewrite S2; split.
      * intros [[H | ->] | (g & I & H)]; [left; exact H | right; exists f; cbn; auto | right; exists g; cbn; tauto].
      * intros [H | (g & [<- | I] & H1 & ->)]; [tauto | tauto | right; eauto].
      * intros [H | (g & I & H)]; [left; exact H | right; exists g; cbn; tauto].
      * intros [H | (g & [<- | I] & H1 & ->)]; [tauto | contradiction | right; eauto].
    + intros n. rewrite D, find_app'. destruct (find _ (rev fs)); [reflexivity |]. cbn [find]. rewrite ST3.
      destruct (stored_b f || joined_b f); cbn [andb]; [| reflexivity]. rewrite sget_sset.
      destruct (String.eqb n (fl_ref (jf_field f))); reflexivity.
Qed.

Theorem C86_names :
  forall xs c k, s_class (run_steps xs start) c = Some k ->
    (forall n, In n (k_available k) <->
       exists f, In f (k_fields k) /\
         (n = jf_name f \/ n = fl_json (jf_field f) \/
          (stores_keys f /\ (n = fl_ref (jf_field f) \/ n = fl_cref (jf_field f))))) /\
    (forall n, In n (k_update k) <->
       exists f, In f (k_fields k) /\ (n = jf_name f \/ (stores_keys f /\ n = fl_ref (jf_field f)))) /\
    (forall n, In n (r_virtual (ref_names k)) <-> exists f, In f (k_fields k) /\ joined f /\ n = fl_ref (jf_field f)) /\
    (forall n, match rname_to_field n k with
       | Ok f => last_such (fun g => (stores_keys g \/ joined g) /\ fl_ref (jf_field g) = n) (k_fields k) (Some f)
       | Err e => e = EKeyError /\ last_such (fun g => (stores_keys g \/ joined g) /\ fl_ref (jf_field g) = n) (k_fields k) None
       end).
Proof.
  intros xs c k H. destruct (run_sane xs start sane_start) as [SA _].
  destruct (sa_made _ SA _ _ H) as (nm & base & own & EK). 
  destruct (init_all nm c (k_name k) (inherit base own)) as (_ & _ & E3 & _ & _ & _ & _ & _ & _ & _ & _ & E12 & E13 & _).
  rewrite <- EK in E3, E12, E13.
  assert (N1 : k_names k = map jf_name (k_fields k)) by (rewrite E12, E3, map_map; apply map_ext; intros; symmetry; apply mk_name).
  assert (N2 : k_jnames k = map (fun f => fl_json (jf_field f)) (k_fields k))
    by (rewrite E13, E3, map_map; apply map_ext; intros; symmetry; apply mk_json).
  destruct (ref_loop (k_fields k) refs0) as (A & B & C & D).
  change (fold_left ref_step (k_fields k) refs0) with (ref_names k) in A, B, C, D. cbn [refs0 r_one r_list r_one_json r_list_json r_virtual r_map app In] in A, B, C, D.
  split; [| split; [| split]].
  - intros n. unfold k_available. rewrite N1, N2.
    assert (T : In n (map jf_name (k_fields k) ++ map (fun f => fl_json (jf_field f)) (k_fields k) ++
                r_one (ref_names k) ++ r_one_json (ref_names k) ++ r_list (ref_names k) ++ r_list_json (ref_names k)) <->
              In n (map jf_name (k_fields k)) \/ In n (map (fun f => fl_json (jf_field f)) (k_fields k)) \/
              In n (r_one (ref_names k) ++ r_list (ref_names k)) \/ In n (r_one_json (ref_names k) ++ r_list_json (ref_names k))).
    { rewrite !in_app_iff. tauto. }
    rewrite T, A, B, !in_map_iff. clear. split.
    + intros [(f & E & I) | [(f & E & I) | [[[] | (f & I & SK & E)] | [[] | (f & I & SK & E)]]]]; exists f; intuition congruence.
    + intros (f & I & [E | [E | [SK [E | E]]]]); [left | right; left | right; right; left; right | right; right; right; right]; exists f; auto.
  - intros n. unfold k_update. rewrite N1. rewrite in_app_iff, A, in_map_iff. clear. split.
    + intros [(f & E & I) | [[] | (f & I & SK & E)]]; exists f; intuition congruence.
    + intros (f & I & [E | [SK E]]); [left | right; right]; exists f; auto.
  - intros n. rewrite C. tauto.
  - intros n. unfold rname_to_field. rewrite D. cbn [sget].
    assert (X : last_such (fun g => (stores_keys g \/ joined g) /\ fl_ref (jf_field g) = n) (k_fields k)
               (find (fun f => (stored_b f || joined_b f) && String.eqb n (fl_ref (jf_field f))) (rev (k_fields k)))).
    { apply find_rev_last. intros f. rewrite andb_true_iff, orb_true_iff, String.eqb_eq.
      assert (SK : stored_b f = true <-> stores_keys f).
      { unfold stored_b, stores_keys. destruct (f_fstore (jf_fdef f)), (f_ftype (jf_fdef f)) as [[] |]; split; intros Q;
          (discriminate Q || reflexivity || (destruct Q as [H1 H2]; try discriminate H1; destruct H2; discriminate) || auto). }
      assert (JN : joined_b f = true <-> joined f).
      { unfold joined_b, joined. destruct (f_fstore (jf_fdef f)), (f_join_table (jf_fdef f)) as [[] |]; split; intros Q;
          (discriminate Q || reflexivity || (destruct Q; discriminate) || auto). }
      rewrite SK, JN. intuition congruence. }
    destruct (find _ _) as [f |]; [exact X | split; [reflexivity | exact X]].
Qed.
Print Assumptions C86_names.

(** ** The exception: default factories

    A field that is given a default factory gets the marker [dataclasses.MISSING] as its
    default value. *)
Theorem C86_factory_refuted :
  forall xs nm name base own c s',
    NoDup (map df_name own) ->
    define nm name base own (run_steps xs start) = (Ok c, s') ->
    exists k, defined s' c k /\
      forall f, In f own -> df_default f = Nothing -> df_factory f = true ->
        exists j, k_named (df_name f) k = Ok j /\ jf_default j = GMissing.
Proof.
  intros xs nm name base own c s' DO H.
  destruct (run_sane xs start sane_start) as [SA _]. set (s := run_steps xs start) in *.
  unfold define in H. set (bfs := match base with Some b => _ | None => _ end) in H.
  destruct (sget name (s_graph s)) eqn:EN; [discriminate H |]. injection H as <- <-.
  destruct (init_all nm (s_count s) name (inherit bfs own)) as (E1 & E2 & E3 & _).
  assert (DB : NoDup (map df_name bfs)).
  { unfold bfs. destruct base as [b |]; [| constructor]. destruct (s_class s b) as [kb |] eqn:Eb; [| constructor].
    destruct (sa_made _ SA _ _ Eb) as (nm' & base' & own' & ->).
    destruct (init_all nm' b (k_name kb) (inherit base' own')) as (_ & -> & _). apply inherit_names. }
  exists (class_init nm (s_count s) name (inherit bfs own)). split.
  - unfold defined. cbn. rewrite Nat.eqb_refl, E1. split; [reflexivity | apply sget_sset_same].
  - intros f I EF FF. exists (make_field nm (s_count s) f). split.
    + apply named_in; [apply inherit_names |]. split; [| apply mk_name]. rewrite E3. apply in_map.
      apply inherit_in; auto.
    + unfold make_field, field_types. rewrite EF, FF. reflexivity.
Qed.
Print Assumptions C86_factory_refuted.

(** ** The hypotheses can be met: a class with a subclass that declares a field anew *)
Definition plain_names : naming := {| n_out := fun n => n; n_ref := fun n _ => (n ++ "_id")%string |}.
Definition dval (name : string) (ts : types) (d : written) : dfield :=
  {| df_name := name; df_ann := ts; df_default := d; df_factory := false |}.
Definition shop_steps : list step :=
  [ Define plain_names "Item" None
      [ dval "id" [tint] (ATypes 0 [tint; MPrimary]); dval "title" [tstr] (AValue (VStr "new"));
        dval "owner" [MAny] (ATypes 1 [MInstance "User"; MLinkto; MCascade; MAsop None]) ] ].
Definition special : list dfield :=
  [ dval "title" [tstr] Nothing;
    {| df_name := "tags"; df_ann := [MListOf [tstr]]; df_default := Nothing; df_factory := true |};
    dval "code" [tstr] (ATypes 2 [tstr; MPrimary; MIndex None true]) ].
Example C86_example :
  let s := run_steps shop_steps start in
  exists k s', NoDup (map df_name special) /\
    define plain_names "Special" (Some 0%nat) special s = (Ok 1%nat, s') /\ defined s' 1 k /\
    map df_name (k_own k) = ["id"; "title"; "owner"; "tags"; "code"] /\
    map jf_default (k_fields k) = [GNone; GNone; GNone; GMissing; GNone] /\
    option_map jf_name (k_primary k) = Some "code" /\ map jf_name (k_cascade k) = ["owner"] /\ map jf_name (k_operator k) = ["owner"] /\
    In "owner_id" (k_available k) /\ ~ In "title_id" (k_available k).
Proof.
  cbv zeta. eexists. eexists. split; [| split; [reflexivity |]].
  - repeat constructor; cbn; intuition discriminate.
  - split; [split; reflexivity |]. vm_compute. repeat split; try reflexivity; [tauto |]. intuition discriminate.
Qed.
