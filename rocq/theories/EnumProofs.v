(** EnumProofs.v -- lemmas for C21. *)
From Verif Require Import Base Mon PyStr Values ChainModel TypesModel ObjModel IoModel IoBase EnumSpec.
Open Scope list_scope.

Lemma sget_app_in {V} n (v : V) before after :
  NoDup (map fst (before ++ (n, v) :: after)) -> sget n (before ++ (n, v) :: after) = Some v.
Proof.
  unfold sget. induction before as [| [k x] r IH]; cbn; intros H.
  - rewrite String.eqb_refl. reflexivity.
  - inversion H as [| ? ? Hn Hd]; subst. destruct (String.eqb_spec n k) as [-> |]; [| exact (IH Hd)].
    exfalso. apply Hn. rewrite map_app. apply in_or_app. right. left. reflexivity.
Qed.

Lemma sget_In {V} n (v : V) d : sget n d = Some v -> In (n, v) d.
Proof.
  unfold sget. induction d as [| [k x] r IH]; cbn; intros H; [discriminate H |].
  destruct (String.eqb_spec n k) as [-> |]; [inversion H; subst; left; reflexivity | right; exact (IH H)].
Qed.
Lemma sget_not_in {V} n (d : list (string * V)) : ~ In n (map fst d) -> sget n d = None.
Proof.
  unfold sget. induction d as [| [k x] r IH]; cbn; intros H; [reflexivity |].
  destruct (String.eqb_spec n k) as [-> |]; [exfalso; apply H; left; reflexivity |].
  apply IH. intros K; apply H; right; exact K.
Qed.

Lemma member_by_value_first ms n v : member ms n v -> member_by_value ms v = Some n.
Proof.
  intros (_ & before & after & -> & Hr & Hb). unfold member_by_value.
  assert (E : find (fun m => veq Nat.eqb (snd m) v) (before ++ (n, v) :: after) = Some (n, v)).
  { induction before as [| m r IH]; cbn.
    - rewrite Hr. reflexivity.
    - rewrite Hb by (left; reflexivity). apply IH. intros; apply Hb; right; assumption. }
  rewrite E. reflexivity.
Qed.

Lemma member_by_name_first ms n v : member ms n v -> member_by_name ms n = Some n.
Proof.
  intros M. pose proof (member_by_value_first _ _ _ M) as E.
  destruct M as (Hd & before & after & -> & Hr & Hb). unfold member_by_name.
  rewrite sget_app_in by exact Hd. rewrite E. reflexivity.
Qed.

Lemma member_by_value_reads ms x n :
  member_by_value ms x = Some n -> exists v, In (n, v) ms /\ veq Nat.eqb v x = true.
Proof.
  unfold member_by_value. destruct (find _ ms) as [[k v] |] eqn:E; [| discriminate].
  intros H; inversion H; subst. apply find_some in E. exists v. exact E.
Qed.
Lemma member_by_value_none ms x :
  member_by_value ms x = None -> forall n v, In (n, v) ms -> veq Nat.eqb v x = false.
Proof.
  unfold member_by_value. destruct (find _ ms) as [[k v] |] eqn:E; [discriminate |].
  intros _ n v H. apply (find_none _ _ E _ H).
Qed.

(** Every member equals itself (no enum value is a NaN) *)
Definition self_equal (ms : list (string * value)) : Prop :=
  forall n v, In (n, v) ms -> veq Nat.eqb v v = true.

Lemma member_by_name_names ms s n :
  self_equal ms -> member_by_name ms s = Some n -> names ms s n.
Proof.
  intros Hs. unfold member_by_name. destruct (sget s ms) as [v |] eqn:E; [| discriminate].
  apply sget_In in E. intros H; inversion H as [H1]; clear H. subst n.
  destruct (member_by_value ms v) as [m |] eqn:Em.
  - apply member_by_value_reads in Em. destruct Em as (v' & Hin & He). exists v, v'. auto.
  - exists v, v. split; [exact E | split; [exact E | exact (Hs _ _ E)]].
Qed.
Lemma member_by_name_none ms s : member_by_name ms s = None -> ~ In s (map fst ms).
Proof.
  unfold member_by_name. destruct (sget s ms) as [v |] eqn:E; [discriminate |]. intros _ H.
  apply in_map_iff in H. destruct H as ([k v] & Hk & Hin). cbn in Hk. subst k.
  revert E Hin. unfold sget. induction ms as [| [k x] r IH]; cbn; [intros _ [] |].
  destruct (String.eqb_spec s k) as [-> | Hne]; [discriminate |].
  intros E [H | H]; [inversion H; congruence | exact (IH E H)].
Qed.

Section Marks.
  Context (P : program).
  Lemma mark_transform n m c w : only_a_mark m ->
    m_transform (interp P (S n) m) c w = (Ok (c_val c), w).
  Proof. intros H. unfold only_a_mark in H. repeat (destruct H as [<- | H]; [reflexivity |]). destruct H. Qed.
  Lemma mark_tojson n m c w : only_a_mark m ->
    m_tojson (interp P (S n) m) c w = (Ok (c_val c), w).
  Proof. intros H. unfold only_a_mark in H. repeat (destruct H as [<- | H]; [reflexivity |]). destruct H. Qed.
  Lemma marks_unmarked a e b : Forall only_a_mark a -> Forall only_a_mark b -> unmarked (a ++ MEnum e :: b).
  Proof.
    intros Ha Hb. rewrite Forall_forall in Ha, Hb.
    split; intros H; apply in_app_or in H; destruct H as [H | [H | H]]; try discriminate H;
      first [apply Ha in H | apply Hb in H]; unfold only_a_mark in H; cbn in H; intuition discriminate.
  Qed.
  Lemma marks_fold (op : modifier value ctx world -> ctx -> st world value) n l c v w :
    (forall m c w, only_a_mark m -> op (interp P (S n) m) c w = (Ok (c_val c), w)) ->
    Forall only_a_mark l ->
    fold_st (fun val m => op m (nval c val)) (map (interp P (S n)) l) v w = (Ok v, w).
  Proof.
    intros Hop H. revert w; induction H as [| m l Hm _ IH]; intros w; [reflexivity |].
    cbn [map fold_st]. erewrite bind_eq; [apply IH |]. rewrite Hop by exact Hm. reflexivity.
  Qed.

  Lemma enum_chain_transform n a e b c w :
    Forall only_a_mark a -> Forall only_a_mark b ->
    t_transform (interp P (S n)) (a ++ MEnum e :: b) c w = enum_transform P e c w.
  Proof.
    intros Ha Hb. rewrite unmarked_transform by (apply marks_unmarked; assumption).
    unfold bind at 1. cbn [ret]. rewrite map_app, fold_st_app.
    erewrite bind_eq by (apply marks_fold; [intros; apply mark_transform; assumption | exact Ha]).
    cbn [map fold_st]. unfold bind.
    change (m_transform (interp P (S n) (MEnum e)) (nval c (c_val c)) w)
      with (enum_transform P e (nval c (c_val c)) w). rewrite nval_val.
    destruct (enum_transform P e c w) as [[v | x] w1]; [| reflexivity].
    apply marks_fold; [intros; apply mark_transform; assumption | exact Hb].
  Qed.
  Lemma enum_chain_tojson n a e b c w :
    Forall only_a_mark a -> Forall only_a_mark b ->
    t_tojson (interp P (S n)) (a ++ MEnum e :: b) c w = enum_tojson P c w.
  Proof.
    intros Ha Hb. unfold t_tojson, chain_tojson. rewrite map_app, fold_st_app.
    erewrite bind_eq by (apply marks_fold; [intros; apply mark_tojson; assumption | exact Ha]).
    cbn [map fold_st]. unfold bind.
    change (m_tojson (interp P (S n) (MEnum e)) (nval c (c_val c)) w)
      with (enum_tojson P (nval c (c_val c)) w). rewrite nval_val.
    destruct (enum_tojson P c w) as [[v | x] w1]; [| reflexivity].
    apply marks_fold; [intros; apply mark_tojson; assumption | exact Hb].
  Qed.

  Lemma enum_transform_eq e c x ms i w :
    c_val c = x -> p_enums P e = Some ms -> f_enum_input (c_fdef c) = Some i -> x <> VNone ->
    is_member e x = false ->
    enum_transform P e c w =
      if in_value i then (Ok (match member_by_value ms x with Some n => VEnum e n | None => VNone end), w)
      else match x with
           | VStr s =>
               match (if in_name i then member_by_name ms s else None) with
               | Some n => (Ok (VEnum e n), w)
               | None => match (if in_lname i then member_by_name ms (str_upper s) else None) with
                         | Some n => (Ok (VEnum e n), w)
                         | None => (Err (vexc c "unknown enum value"), w)
                         end
               end
           | _ => (Err (vexc c "unknown enum value"), w)
           end.
  Proof.
    intros Hv Hm Hi Hn Hme. unfold enum_transform, members. rewrite Hv, Hm, Hi.
    destruct x as [| | | | s | | | | | | |]; try (exfalso; apply Hn; reflexivity);
      unfold bind at 1; cbn [ret]; rewrite ?Hme; cbn zeta; try (destruct (in_value i); reflexivity).
    cbn [is_member]. destruct (in_value i); [reflexivity |].
    destruct (if in_name i then member_by_name ms s else None); [reflexivity |].
    destruct (if in_lname i then member_by_name ms (str_upper s) else None); reflexivity.
  Qed.
End Marks.

Theorem round_trip :
  forall (P : program) (e : string) (ms : list (string * value)) (n : string) (v : value)
         (before after : types) (i : enuminput) (o : enumoutput) (fuel : nat) (c : ctx) (w : world),
    p_enums P e = Some ms -> member ms n v -> (forall m, v <> VEnum e m) ->
    Forall only_a_mark before -> Forall only_a_mark after ->
    let ts := before ++ MEnum e :: after in
    f_enum_input (fdef_of ts) = Some i -> f_enum_output (fdef_of ts) = Some o ->
    reads_own_output i o ms n v -> c_fdef c = fdef_of ts ->
    exists json, t_tojson (interp P (S fuel)) ts (nval c (VEnum e n)) w = (Ok json, w) /\
                 json = form o n v /\
                 t_transform (interp P (S fuel)) ts (nval c json) w = (Ok (VEnum e n), w).
Proof.
  intros P e ms n v a b i o fuel c w He M Hv Ha Hb ts Hi Ho R Hc. exists (form o n v).
  assert (Hsg : sget n ms = Some v).
  { destruct M as (Hd & bf & af & -> & _). apply sget_app_in. exact Hd. }
  split; [| split; [reflexivity |]].
  - unfold ts. rewrite enum_chain_tojson by assumption. unfold enum_tojson. cbn [c_val nval c_fdef].
    rewrite Hc, Ho. destruct o; cbn; [reflexivity | | reflexivity].
    unfold members. rewrite He. cbn. rewrite Hsg. reflexivity.
  - unfold ts. rewrite enum_chain_transform by assumption.
    assert (Hf : forall x, c_val (nval c x) = x) by reflexivity.
    assert (Hin : forall x, f_enum_input (c_fdef (nval c x)) = Some i) by (intros x; cbn; rewrite Hc; exact Hi).
    destruct o; cbn [form] in *; cbn [reads_own_output] in R.
    + destruct R as [R1 R2].
      rewrite (enum_transform_eq P e _ (VStr n) ms i w (Hf _) He (Hin _)) by (try discriminate; reflexivity).
      rewrite R1, R2, (member_by_name_first _ _ _ M). reflexivity.
    + destruct R as [R1 R2].
      rewrite (enum_transform_eq P e _ v ms i w (Hf _) He (Hin _)).
      * rewrite R1, (member_by_value_first _ _ _ M). reflexivity.
      * exact R2.
      * destruct v; try reflexivity. cbn. apply String.eqb_neq. intros ->. exact (Hv _ eq_refl).
    + destruct R as (R1 & R2 & R3 & R4).
      rewrite (enum_transform_eq P e _ (VStr (str_lower n)) ms i w (Hf _) He (Hin _)) by (try discriminate; reflexivity).
      rewrite R1, R2, R3, (member_by_name_first _ _ _ M).
      destruct (in_name i) eqn:Ei; [| reflexivity].
      destruct (R4 eq_refl) as [K | K].
      * unfold member_by_name at 1. rewrite sget_not_in by exact K. reflexivity.
      * rewrite K, (member_by_name_first _ _ _ M). reflexivity.
Qed.

Theorem never_another :
  forall (P : program) (e : string) (ms : list (string * value))
         (before after : types) (i : enuminput) (fuel : nat) (c : ctx) (w : world) (x r : value) (w' : world),
    p_enums P e = Some ms -> self_equal ms ->
    Forall only_a_mark before -> Forall only_a_mark after ->
    let ts := before ++ MEnum e :: after in
    f_enum_input (fdef_of ts) = Some i -> c_fdef c = fdef_of ts -> x <> VNone ->
    (forall m, x <> VEnum e m) ->
    t_transform (interp P (S fuel)) ts (nval c x) w = (Ok r, w') ->
    w' = w /\ ((exists n, r = VEnum e n /\ reads i ms x n) \/
               (r = VNone /\ in_value i = true /\ forall n, ~ reads i ms x n)).
Proof.
  intros P e ms a b i fuel c w x r w' He Hs Ha Hb ts Hi Hc Hx Hm H. unfold ts in H.
  rewrite enum_chain_transform in H by assumption.
  rewrite (enum_transform_eq P e _ x ms i w) in H;
    [ | reflexivity | exact He | cbn; rewrite Hc; exact Hi | exact Hx
      | destruct x; try reflexivity; cbn; apply String.eqb_neq; intros ->; exact (Hm _ eq_refl) ].
  unfold reads. destruct (in_value i) eqn:Ev.
  - inversion H; subst; clear H. split; [reflexivity |].
    destruct (member_by_value ms x) as [n |] eqn:E.
    + left. exists n. split; [reflexivity |]. exact (member_by_value_reads _ _ _ E).
    + right. split; [reflexivity | split; [reflexivity |]]. intros n (v & Hin & Heq).
      rewrite (member_by_value_none _ _ E _ _ Hin) in Heq. discriminate Heq.
  - destruct x as [| | | | s | | | | | | |]; try discriminate H.
    destruct (in_name i) eqn:En; [destruct (member_by_name ms s) as [n |] eqn:E |].
    + inversion H; subst; clear H. split; [reflexivity |]. left. exists n. split; [reflexivity |].
      exists s. split; [reflexivity |]. left. split; [reflexivity |]. exact (member_by_name_names _ _ _ Hs E).
    + destruct (in_lname i) eqn:El; [| discriminate H].
      destruct (member_by_name ms (str_upper s)) as [n |] eqn:E2; [| discriminate H].
      inversion H; subst; clear H. split; [reflexivity |]. left. exists n. split; [reflexivity |].
      exists s. split; [reflexivity |]. right. split; [reflexivity |]. exact (member_by_name_names _ _ _ Hs E2).
    + destruct (in_lname i) eqn:El; [| discriminate H].
      destruct (member_by_name ms (str_upper s)) as [n |] eqn:E2; [| discriminate H].
      inversion H; subst; clear H. split; [reflexivity |]. left. exists n. split; [reflexivity |].
      exists s. split; [reflexivity |]. right. split; [reflexivity |]. exact (member_by_name_names _ _ _ Hs E2).
Qed.

Theorem unknown_rejected :
  forall (P : program) (e : string) (ms : list (string * value))
         (before after : types) (i : enuminput) (fuel : nat) (c : ctx) (w : world) (x : value),
    p_enums P e = Some ms -> self_equal ms ->
    Forall only_a_mark before -> Forall only_a_mark after ->
    let ts := before ++ MEnum e :: after in
    f_enum_input (fdef_of ts) = Some i -> c_fdef c = fdef_of ts -> x <> VNone ->
    (forall m, x <> VEnum e m) ->
    in_value i = false -> (forall n, ~ reads i ms x n) ->
    t_transform (interp P (S fuel)) ts (nval c x) w =
      (Err (EValidation [(skp (c_fkr c), "unknown enum value"%string)]), w).
Proof.
  intros P e ms a b i fuel c w x He Hs Ha Hb ts Hi Hc Hx Hm Hv Hr.
  destruct (t_transform (interp P (S fuel)) ts (nval c x) w) as [[r | y] w'] eqn:E.
  - exfalso. destruct (never_another P e ms a b i fuel c w x r w' He Hs Ha Hb Hi Hc Hx Hm E)
      as (_ & [(n & _ & K) | (_ & K & _)]); [exact (Hr _ K) | congruence].
  - unfold ts in E. rewrite enum_chain_transform in E by assumption.
    rewrite (enum_transform_eq P e _ x ms i w) in E;
      [ | reflexivity | exact He | cbn; rewrite Hc; exact Hi | exact Hx
        | destruct x; try reflexivity; cbn; apply String.eqb_neq; intros ->; exact (Hm _ eq_refl) ].
    rewrite Hv in E.
    destruct x as [| | | | s | | | | | | |]; try (rewrite <- E; reflexivity).
    destruct (if in_name i then member_by_name ms s else None); [discriminate E |].
    destruct (if in_lname i then member_by_name ms (str_upper s) else None); [discriminate E |].
    rewrite <- E. reflexivity.
Qed.

(** ** The settings of a field *)
Lemma mark_cases (Q : mdf -> Prop) m : only_a_mark m ->
  Q MInputName -> Q MInputValue -> Q MInputLname -> Q MInputAll -> Q MOutputName -> Q MOutputValue -> Q MOutputLname ->
  Q MRequired -> Q MPresent -> Q MReadonly -> Q MWriteonly -> Q MWriteonce -> Q MWritenonnull -> Q MTemp -> Q MPrimary -> Q m.
Proof. intros H. intros. repeat (destruct H as [<- | H]; [assumption |]). destruct H. Qed.

Definition opt_in (g : enuminput -> bool) (d : fdef) : bool := match f_enum_input d with Some i => g i | None => false end.
Lemma in_snoc (a : mdf) l m : In a (l ++ [m]) <-> In a l \/ m = a.
Proof. rewrite in_app_iff. cbn. intuition. Qed.


Definition sname (m : mdf) := match m with MInputName | MInputAll => true | _ => false end.
Definition svalue (m : mdf) := match m with MInputValue | MInputAll => true | _ => false end.
Definition slname (m : mdf) := match m with MInputLname | MInputAll => true | _ => false end.
Definition input_markb (m : mdf) := match m with MInputName | MInputValue | MInputLname | MInputAll => true | _ => false end.
Lemma says_name m : sname m = true <-> m = MInputName \/ m = MInputAll.
Proof. split; [destruct m; try discriminate; auto | intros [-> | ->]; reflexivity]. Qed.
Lemma says_value m : svalue m = true <-> m = MInputValue \/ m = MInputAll.
Proof. split; [destruct m; try discriminate; auto | intros [-> | ->]; reflexivity]. Qed.
Lemma says_lname m : slname m = true <-> m = MInputLname \/ m = MInputAll.
Proof. split; [destruct m; try discriminate; auto | intros [-> | ->]; reflexivity]. Qed.
Lemma input_markb_spec m : input_markb m = true <-> input_mark m.
Proof. split; [destruct m; try discriminate; intros _; cbn; tauto | intros [<- | [<- | [<- | [<- | []]]]]; reflexivity]. Qed.
Ltac by_marks m d H := pattern m; apply (mark_cases _ m H); cbn; destruct (f_enum_input d) as [[[] [] []] |] eqn:E; cbn; try rewrite E; reflexivity.
Lemma name_step m d : only_a_mark m -> opt_in in_name (define m d) = opt_in in_name d || sname m.
Proof. intros H. unfold opt_in. by_marks m d H. Qed.
Lemma value_step m d : only_a_mark m -> opt_in in_value (define m d) = opt_in in_value d || svalue m.
Proof. intros H. unfold opt_in. by_marks m d H. Qed.
Lemma lname_step m d : only_a_mark m -> opt_in in_lname (define m d) = opt_in in_lname d || slname m.
Proof. intros H. unfold opt_in. by_marks m d H. Qed.
Lemma some_step m d : only_a_mark m ->
  f_enum_input (define m d) = if input_markb m then f_enum_input (define m d) else f_enum_input d.
Proof. intros H. pattern m. apply (mark_cases _ m H); reflexivity. Qed.
Lemma some_mark m d : only_a_mark m -> input_markb m = true -> f_enum_input (define m d) <> None.
Proof. intros H. pattern m. apply (mark_cases _ m H); discriminate. Qed.

Lemma input_marks ts : Forall only_a_mark ts ->
  (opt_in in_name (fdef_of ts) = true <-> In MInputName ts \/ In MInputAll ts) /\
  (opt_in in_value (fdef_of ts) = true <-> In MInputValue ts \/ In MInputAll ts) /\
  (opt_in in_lname (fdef_of ts) = true <-> In MInputLname ts \/ In MInputAll ts) /\
  (f_enum_input (fdef_of ts) = None <-> forall m, In m ts -> ~ input_mark m) /\
  (match f_enum_output (fdef_of ts) with Some o => writes ts o | None => forall x, In x ts -> out_mark x = None end).
Proof.
  induction ts as [| m ts IH] using rev_ind; intros H.
  - cbn. intuition discriminate.
  - apply Forall_app in H. destruct H as [H H1]. inversion H1 as [| ? ? Hm _]; subst.
    specialize (IH H). destruct IH as (A & B & C & D & E).
    unfold fdef_of in *. rewrite fold_left_app. cbn [fold_left].
    set (d := fold_left _ ts _) in *.
    rewrite !in_snoc.
    assert (N : (forall x, In x (ts ++ [m]) -> ~ input_mark x) <-> (forall x, In x ts -> ~ input_mark x) /\ ~ input_mark m).
    { split; [intros Hx; split; [intros x Hi; apply Hx; apply in_snoc; left; exact Hi | apply Hx; apply in_snoc; right; reflexivity]
             | intros [Hx Hy] x Hi; apply in_snoc in Hi; destruct Hi as [Hi | <-]; [exact (Hx x Hi) | exact Hy]]. }
    rewrite N. clear N.
    assert (O : match f_enum_output (define m d) with Some o => writes (ts ++ [m]) o | None => forall x, In x (ts ++ [m]) -> out_mark x = None end).
    { destruct (out_mark m) as [o |] eqn:Eo.
      - assert (Ed : f_enum_output (define m d) = Some o).
        { destruct m; inversion Eo; subst; reflexivity. }
        rewrite Ed. left. exists ts, m, []. repeat apply conj; [reflexivity | exact Eo | intros x []].
      - assert (Ed : f_enum_output (define m d) = f_enum_output d).
        { revert Eo. pattern m. apply (mark_cases _ m Hm); intros Eo; try discriminate Eo; reflexivity. }
        rewrite Ed. destruct (f_enum_output d) as [o |].
        + destruct E as [(a & y & b & E1 & E2 & E3) | [E1 E2]].
          * left. exists a, y, (b ++ [m]). subst ts. repeat apply conj; [rewrite <- app_assoc; reflexivity | exact E2 |].
            intros x Hi. apply in_snoc in Hi. destruct Hi as [Hi | <-]; [exact (E3 x Hi) | exact Eo].
          * right. split; [| exact E2]. intros x Hi. apply in_snoc in Hi. destruct Hi as [Hi | <-]; [exact (E1 x Hi) | exact Eo].
        + intros x Hi. apply in_snoc in Hi. destruct Hi as [Hi | <-]; [exact (E x Hi) | exact Eo]. }
    clear E. split; [| split; [| split; [| split; [| exact O]]]].
    + rewrite (name_step m d Hm), Bool.orb_true_iff, A, says_name. tauto.
    + rewrite (value_step m d Hm), Bool.orb_true_iff, B, says_value. tauto.
    + rewrite (lname_step m d Hm), Bool.orb_true_iff, C, says_lname. tauto.
    + rewrite <- D, (some_step m d Hm). destruct (input_markb m) eqn:Em.
      * pose proof Em as Em0. apply input_markb_spec in Em. split; [intros X; contradiction (some_mark m d Hm Em0 X) | intros [_ X]; contradiction (X Em)].
      * assert (~ input_mark m) by (intros X; apply input_markb_spec in X; rewrite X in Em; discriminate Em). tauto.
Qed.

Lemma settings e before after : Forall only_a_mark before -> Forall only_a_mark after ->
  let ts := before ++ MEnum e :: after in
  (opt_in in_name (fdef_of ts) = true <-> In MInputName ts \/ In MInputAll ts \/ (forall m, In m before -> ~ input_mark m)) /\
  (opt_in in_value (fdef_of ts) = true <-> In MInputValue ts \/ In MInputAll ts) /\
  (opt_in in_lname (fdef_of ts) = true <-> In MInputLname ts \/ In MInputAll ts) /\
  (f_enum_input (fdef_of ts) <> None) /\
  exists o, f_enum_output (fdef_of ts) = Some o /\ writes ts o.
Proof.
  intros Hb. induction after as [| m after IH] using rev_ind; intros Ha ts.
  - destruct (input_marks before Hb) as (A & B & C & D & E). subst ts.
    rewrite !in_snoc. unfold fdef_of in *. rewrite fold_left_app. cbn [fold_left].
    set (d := fold_left _ before _) in *. clearbody d.
    assert (Hin : f_enum_input (define (MEnum e) d) = match f_enum_input d with None => Some only_name | Some i => Some i end).
    { cbn. destruct (f_enum_input d) eqn:E1; cbn; rewrite ?E1; destruct (f_enum_output d); cbn; rewrite ?E1; reflexivity. }
    assert (Hout : f_enum_output (define (MEnum e) d) = match f_enum_output d with None => Some OutName | Some o => Some o end).
    { cbn. destruct (f_enum_input d) eqn:E1; cbn; destruct (f_enum_output d) eqn:E2; cbn; rewrite ?E2; reflexivity. }
    unfold opt_in in *. rewrite Hin, Hout.
    split; [| split; [| split; [| split]]].
    + destruct (f_enum_input d) as [i |].
      * assert (~ forall m, In m before -> ~ input_mark m) by (intros X; apply D in X; discriminate X).
        rewrite A. intuition discriminate.
      * split; [intros _; right; right; apply D; reflexivity | reflexivity].
    + assert (X : forall Y Z : Prop, ((Y \/ MEnum e = MInputValue) \/ Z \/ MEnum e = MInputAll) <-> Y \/ Z) by (intros; intuition discriminate).
      rewrite X. rewrite <- B. destruct (f_enum_input d); reflexivity.
    + assert (X : forall Y Z : Prop, ((Y \/ MEnum e = MInputLname) \/ Z \/ MEnum e = MInputAll) <-> Y \/ Z) by (intros; intuition discriminate).
      rewrite X. rewrite <- C. destruct (f_enum_input d); reflexivity.
    + destruct (f_enum_input d); discriminate.
    + destruct (f_enum_output d) as [o |].
      * exists o. split; [reflexivity |]. destruct E as [(a & y & b & E1 & E2 & E3) | [E1 E2]].
        -- left. exists a, y, (b ++ [MEnum e]). subst before. repeat apply conj; [rewrite <- app_assoc; reflexivity | exact E2 |].
           intros x Hi. apply in_snoc in Hi. destruct Hi as [Hi | <-]; [exact (E3 x Hi) | reflexivity].
        -- right. split; [| exact E2]. intros x Hi. apply in_snoc in Hi. destruct Hi as [Hi | <-]; [exact (E1 x Hi) | reflexivity].
      * exists OutName. split; [reflexivity |]. right. split; [| reflexivity].
        intros x Hi. apply in_snoc in Hi. destruct Hi as [Hi | <-]; [exact (E x Hi) | reflexivity].
  - apply Forall_app in Ha. destruct Ha as [Ha H1]. inversion H1 as [| ? ? Hm _]; subst. specialize (IH Ha). cbv zeta in IH.
    assert (Es : ts = (before ++ MEnum e :: after) ++ [m]) by (unfold ts; rewrite <- app_assoc; reflexivity).
    rewrite Es. clear ts Es. set (ts := before ++ MEnum e :: after) in *. destruct IH as (A & B & C & D & o & E & F).
    rewrite !in_snoc. unfold fdef_of in *. rewrite fold_left_app. cbn [fold_left]. set (d := fold_left _ ts _) in *.
    clearbody d. split; [| split; [| split; [| split]]].
    + rewrite (name_step m d Hm), Bool.orb_true_iff, A, says_name. tauto.
    + rewrite (value_step m d Hm), Bool.orb_true_iff, B, says_value. tauto.
    + rewrite (lname_step m d Hm), Bool.orb_true_iff, C, says_lname. tauto.
    + destruct (input_markb m) eqn:Em; [exact (some_mark m d Hm Em) |]. rewrite (some_step m d Hm), Em. exact D.
    + destruct (out_mark m) as [o1 |] eqn:Eo.
      * exists o1. split; [destruct m; inversion Eo; subst; reflexivity |].
        left. exists ts, m, []. repeat apply conj; [reflexivity | exact Eo | intros x []].
      * exists o. split.
        { assert (Ed : f_enum_output (define m d) = f_enum_output d).
          { revert Eo. pattern m. apply (mark_cases _ m Hm); intros Eo; try discriminate Eo; reflexivity. }
          rewrite Ed. exact E. }
        destruct F as [(a & y & b & E1 & E2 & E3) | [E1 E2]].
        -- left. exists a, y, (b ++ [m]). repeat apply conj; [rewrite E1, <- app_assoc; reflexivity | exact E2 |].
           intros x Hi. apply in_snoc in Hi. destruct Hi as [Hi | <-]; [exact (E3 x Hi) | exact Eo].
        -- right. split; [| exact E2]. intros x Hi. apply in_snoc in Hi. destruct Hi as [Hi | <-]; [exact (E1 x Hi) | exact Eo].
Qed.
