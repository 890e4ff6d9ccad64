(** ReportProofs.v -- where the messages of a validation error come from. *)
From Verif Require Import Base Mon PyList PyDict KeypathModel Values OGraphModel MGraphModel MGraphProofs ChainModel ChainSpec
  TypesModel TypesSpec TypesProofs ObjModel IoModel IoBase CivilSpec TameSpec KeypathProofs ValidateSpec ValidateProofs
  Sound ObjSound LeafSound Keep TameProofs GraphProofs ReachSpec ReachProofs Say ReportSpec.
From Verif Require LeafModel.
Open Scope list_scope.

Lemma receive_from msgs e (x : string * string) : In x (receive msgs e) -> In x msgs \/ In x e.
Proof.
  unfold receive, dupdate. revert msgs. induction e as [| [k v] e IH]; intros msgs H; cbn [fold_left] in H; [left; exact H |].
  apply IH in H. destruct H as [H | H]; [| right; right; exact H]. clear IH.
  induction msgs as [| [k' v'] msgs IH]; cbn in H.
  - destruct H as [<- | []]. right. left. reflexivity.
  - destruct (String.eqb_spec k k') as [-> | N]; destruct H as [<- | H].
    + right. left. reflexivity.
    + left. right. exact H.
    + left. left. reflexivity.
    + destruct (IH H) as [Q | Q]; [left; right; exact Q | right; exact Q].
Qed.

Lemma value_same P w w' x n v : w_heap w = w_heap w' -> value_of P w' x n v -> value_of P w x n v.
Proof.
  unfold value_of, getattr, liftH, ObjModel.getattr. destruct w as [h e g l], w' as [h' e' g' l']. cbn [w_heap]. intros <-.
  destruct (ofield (p_ct P) h x n) as [f |]; [destruct (is_calc f) |]; cbn.
  - intros E; inversion E; reflexivity.
  - destruct (attr h x n); cbn; intros E; inversion E; reflexivity.
  - destruct (attr h x n); cbn; intros E; inversion E; reflexivity.
Qed.

Section Report.
  Context (P : program) (D : nat) (w0 : world) (root : oid).
  Hypothesis CA : calm P.
  Hypothesis CO : courteous P.
  Hypothesis TC : tame_classes D P.
  Let h := w_heap w0.
  Instance silent : manner := Silent.

  (** *** Validation changes no object *)
  Let Ih (k : nat) (w : world) : Prop := w_heap w = h.
  Lemma keep_heap n d m c ts w : tame d m -> c_fdef c = fdef_of ts -> (forall x, In x ts -> tame d x) -> w_heap w = h ->
    w_heap (snd (m_validate (interp P n m) c w)) = h.
  Proof.
    intros Hm Hc Ht Hw.
    assert (X : keeps (Ih 0) (m_validate (interp P n m) c)).
    { apply (heap_validate P h D TC) with (d := d) (ts := ts); try assumption; try (intros; apply any_louder').
      - intros k w1 E o. unfold Ih in E. rewrite E. reflexivity.
      - intros k k' w1 _ E. exact E.
      - intros j k f c0 args _ w1 E. rewrite (call_eq P k f c0 args w1 CA). cbn [fst snd]. split; [exact E | apply any_louder'].
      - intros k o w1 E _. exists k. split; [lia |]. split; [right; left; discriminate |]. exact E.
      - left. discriminate. }
    exact (proj1 (X w Hw)).
  Qed.

  (** *** Modifiers that look at one value *)
  Lemma flat_own n d m c w l w' : flat d m -> m_validate (interp P n m) c w = (Err (EValidation l), w') ->
    forall kp msg, In (kp, msg) l -> kp = skp (c_fkr c).
  Proof.
    intros F H kp msg Hin. pose (K := fun k => k = skp (c_fkr c)).
    assert (T : tells K (m_validate (interp P n m) c)).
    { apply (flat_tells K P) with (d := d); try assumption; try reflexivity.
      - intros k f c0 args w1. rewrite (call_eq P k f c0 args w1 CA). intros e E. cbn [fst] in E. destruct e; try exact Logic.I.
        contradiction (court_call P CO _ _ _ _ _ E).
      - intros h1 o1 n1 e E. destruct e; try exact Logic.I. contradiction (court_getter P CO _ _ _ _ E).
      - intros op a b e E. destruct e; try exact Logic.I. contradiction (court_arith P CO _ _ _ _ E). }
    specialize (T w (EValidation l)). rewrite H in T. specialize (T eq_refl). cbn in T. rewrite Forall_forall in T. exact (T _ Hin).
  Qed.

  Definition explained (kp msg : string) : Prop :=
    exists path ts v m fuel c, kp = skp path /\ rejected P w0 root path msg ts v m fuel c.
  Definition fine (l : list (string * string)) : Prop := forall kp msg, In (kp, msg) l -> explained kp msg.
  Definition fine_err {A} (r : res A) : Prop := forall l, r = Err (EValidation l) -> fine l.
  Lemma fine_any {A B} e : @fine_err A (Err e) -> @fine_err B (Err e).
  Proof. intros H l E. inversion E; subst. apply H. reflexivity. Qed.
  Lemma fine_receive a b : fine a -> fine b -> fine (receive a b).
  Proof. intros A B kp msg H. destruct (receive_from _ _ _ H) as [X | X]; [apply A, X | apply B, X]. Qed.

  Record fits (d : nat) (ts : types) (c : ctx) : Prop := {
    ft_def : c_fdef c = fdef_of ts;
    ft_types : forall x, In x ts -> tame d x;
    ft_orig : orig_ok c;
    ft_place : placed P w0 root (c_fkr c) ts (c_val c) (c_owner c)
  }.
  Lemma own_fine d ts m c n w l w' : fits d ts c -> checks ts m -> w_heap w = h ->
    m_validate (interp P n m) c w = (Err (EValidation l), w') -> (forall kp msg, In (kp, msg) l -> kp = skp (c_fkr c)) -> fine l.
  Proof.
    intros F Hm Hw H O kp msg Hin. pose proof (O kp msg Hin) as ->. exists (c_fkr c), ts, (c_val c), m, n, c.
    split; [reflexivity |]. constructor; try reflexivity; [exists (c_owner c); apply (ft_place _ _ _ F) | exact Hm |].
    exists w, l, w'. auto.
  Qed.
  Definition modifier_fine (n : nat) : Prop := forall d ts m c w, fits d ts c -> checks ts m -> w_heap w = h ->
    fine_err (fst (m_validate (interp P n m) c w)).

  (** *** Chains *)
  Lemma loop_fine n d ts c : modifier_fine n -> fits d ts c -> forall us, (forall m, In m us -> checks ts m) -> forall msgs w, fine msgs -> w_heap w = h ->
    let r := chain_validate_loop all_on (map (interp P n) us) c msgs w in
    w_heap (snd r) = h /\ fine_err (fst r) /\ forall l, fst r = Ok l -> fine l.
  Proof.
    intros M F. induction us as [| m us IH]; intros Hus msgs w Hm Hw; cbn zeta.
    - cbn. split; [exact Hw |]. split; [intros l E; discriminate E |]. intros l E. inversion E; subst. exact Hm.
    - cbn [map chain_validate_loop]. pose proof (Hus m (or_introl eq_refl)) as Hc.
      pose proof (keep_heap n d m c ts w (ft_types _ _ _ F m (checks_In _ _ Hc)) (ft_def _ _ _ F) (ft_types _ _ _ F) Hw) as Hk.
      pose proof (M d ts m c w F Hc Hw) as Hf.
      destruct (m_validate (interp P n m) c w) as [[a | e] w1]; cbn [fst snd] in Hk, Hf.
      + apply IH; try assumption. intros x Hx. apply Hus. right. exact Hx.
      + destruct e; try (split; [exact Hk |]; split; [intros l E; discriminate E | intros l E; discriminate E]).
        assert (R : fine (receive msgs msgs0)) by (apply fine_receive; [exact Hm | apply Hf; reflexivity]).
        destruct (all_on c).
        * apply IH; try assumption. intros x Hx. apply Hus. right. exact Hx.
        * cbn. split; [exact Hk |]. split; [intros l E; discriminate E |]. intros l E. inversion E; subst. exact R.
  Qed.
  Lemma chain_fine n d ts c w : modifier_fine n -> fits d ts c -> w_heap w = h ->
    w_heap (snd (t_validate (interp P n) ts c w)) = h /\ fine_err (fst (t_validate (interp P n) ts c w)).
  Proof.
    intros M F Hw. destruct (nvs_checks P n ts) as (us & E & Hus). unfold t_validate, chain_validate. rewrite E. unfold bind.
    destruct (loop_fine n d ts c M F us (fun m => proj1 (Hus m)) [] w ltac:(intros kp msg []) Hw) as (L1 & L2 & L3).
    destruct (chain_validate_loop all_on (map (interp P n) us) c [] w) as [[msgs | e] w1]; cbn [fst snd] in *; [| split; [exact L1 | exact (fine_any e L2)]].
    specialize (L3 _ eq_refl). unfold raise_collected. destruct msgs; cbn; (split; [exact L1 |]); intros l El; [discriminate El |].
    inversion El; subst. exact L3.
  Qed.

  (** *** The loop over items *)
  Lemma collect_fine {X} all (pre : X -> st world (option (st world unit))) its :
    (forall x w, In x its -> w_heap w = h -> w_heap (snd (pre x w)) = h /\ fine_err (fst (pre x w)) /\
       forall m w1, pre x w = (Ok (Some m), w1) -> w_heap (snd (m w1)) = h /\ fine_err (fst (m w1))) ->
    forall msgs w, fine msgs -> w_heap w = h ->
      fine_err (fst (collect all pre its msgs w)) /\ forall l, fst (collect all pre its msgs w) = Ok l -> fine l.
  Proof.
    induction its as [| x its IH]; intros H msgs w Hm Hw; cbn [collect].
    - split; [intros l E; discriminate E |]. intros l E. inversion E; subst. exact Hm.
    - assert (IH' : forall msgs w, fine msgs -> w_heap w = h ->
        fine_err (fst (collect all pre its msgs w)) /\ forall l, fst (collect all pre its msgs w) = Ok l -> fine l).
      { apply IH. intros y w1 Hy. apply H. right. exact Hy. }
      unfold bind. destruct (H x w (or_introl eq_refl) Hw) as (A1 & A2 & A3).
      destruct (pre x w) as [[[m |] | e] w1] eqn:Ep; cbn [fst snd] in *.
      + destruct (A3 m w1 eq_refl) as [B1 B2]. destruct (m w1) as [[u | e] w2]; cbn [fst snd] in *; [apply IH'; assumption |].
        destruct e; try (split; [intros l E; discriminate E | intros l E; discriminate E]).
        destruct all; [| split; [exact (fine_any _ B2) | intros l E; discriminate E]].
        apply IH'; [| exact B1]. apply fine_receive; [exact Hm | apply B2; reflexivity].
      + apply IH'; assumption.
      + split; [exact (fine_any _ A2) | intros l E; discriminate E].
  Qed.
  Lemma collected_fine (m : st world (list (string * string))) w :
    fine_err (fst (m w)) -> (forall l, fst (m w) = Ok l -> fine l) -> fine_err (fst (bind m raise_collected w)).
  Proof.
    intros A B. unfold bind. destruct (m w) as [[l | e] w1]; cbn [fst] in *; [| intros l E; inversion E; subst; apply A; reflexivity].
    unfold raise_collected. destruct l; intros l' E; [discriminate E |]. inversion E; subst. apply B. reflexivity.
  Qed.

  (** *** Lists and dicts *)
  Lemma item_chain_fdef ts it : item_types (fdef_of ts) = Some it -> item_chain ts it.
  Proof.
    unfold item_types. destruct (f_item (fdef_of ts)) as [it0 |] eqn:E; [| discriminate]. intros X. exists it0.
    split; [apply items_fdef, E |]. destruct (f_item_null (fdef_of it0)); inversion X; auto.
  Qed.
  Lemma enum_list_in l k u : In (k, u) (enum_list 0 l) -> exists i, k = KInt (Z.of_nat i) /\ nth_error l i = Some u.
  Proof.
    assert (G : forall l z, In (k, u) (enum_list z l) -> exists i, k = KInt (z + Z.of_nat i) /\ nth_error l i = Some u).
    { clear l. induction l as [| v l IH]; intros z H; cbn in H; [contradiction |]. destruct H as [H | H].
      - inversion H; subst. exists 0%nat. split; [f_equal; lia | reflexivity].
      - destruct (IH _ H) as (i & -> & E). exists (S i). split; [f_equal; lia | exact E]. }
    intros H. exact (G l 0%Z H).
  Qed.
  Lemma tame_items d ts it x : (forall y, In y ts -> tame (S d) y) -> item_types (fdef_of ts) = Some it -> In x it -> d <> 0%nat -> tame d x.
  Proof.
    intros Ht E Hx Hd. destruct (item_chain_in (tame d) ts it x E) as [F | F].
    - intros l y [Hl | Hl] Hy; apply (Ht _ Hl); exact Hy.
    - exact Hx.
    - destruct d as [| d]; [contradiction Hd; reflexivity |]. destruct x; cbn in F |- *; try exact Logic.I; try contradiction;
        intros ts0 Hts0 y Hy; contradiction (F ts0 Hts0 y Hy).
    - exact F.
  Qed.
  Lemma tame_up d : forall m, tame d m -> tame (S d) m.
  Proof.
    assert (FU : forall d m, flat d m -> flat (S d) m).
    { induction d0 as [| d0 IH]; intros m H; [contradiction H |]. destruct m; cbn [flat] in H; try contradiction;
        intros ts Hts x Hx; apply IH, (H ts Hts x Hx). }
    induction d as [| d IH]; intros m H; [contradiction H |].
    destruct m; cbn [tame] in H; try (apply (FU (S d)) in H; exact H); try exact Logic.I.
    - intros x Hx. apply IH, (H x Hx).
    - intros x Hx. apply IH, (H x Hx).
    - intros us0 x Hts Hx. apply IH, (H us0 x Hts Hx).
  Qed.

  Lemma col_fine n d ts (b : bool) i c w : modifier_fine n -> fits d ts c -> checks ts (if b then MDictOf i else MListOf i) -> w_heap w = h ->
    fine_err (fst (col_validate P (interp P n) b c w)).
  Proof.
    intros M F Hi Hw.
    assert (O : forall l, l = [(skp (c_fkr c), (if b then "value is not dict" else "value is not list")%string)] ->
      fst (col_validate P (interp P n) b c w) = Err (EValidation l) -> fine l).
    { intros l -> E. apply (own_fine d ts (if b then MDictOf i else MListOf i) c (S n) w _ (snd (col_validate P (interp P n) b c w)) F Hi Hw).
      - rewrite <- E. destruct b; apply surjective_pairing.
      - intros kp msg [X | []]. inversion X. reflexivity. }
    unfold col_validate in *.
    assert (X : c_val c <> VNone -> fine_err (fst ((match col_items b (c_val c) with
          | None => raise_vexc c (if b then "value is not dict" else "value is not list")
          | Some its =>
              do* d <- cdef_v P (c_owner c);
              let all := match g_all (c_cfg c) with Some b => b | None => cd_validate_all d end in
              do* msgs <- collect all (fun kv =>
                  do* ts <- items_of c;
                  ret (Some (t_validate (interp P n) ts (colval c (snd kv) (fst kv) (fdef_of ts) (c_val c))))) its [];
              raise_collected msgs
          end : st world unit) w))).
    { intros N. destruct (col_items b (c_val c)) as [its |] eqn:Ei.
      2:{ intros l E. apply O; [| destruct (c_val c); try (first [exact E | rewrite Ei; exact E]); contradiction N; reflexivity].
          unfold raise_vexc, vexc, throw in E. cbn in E. inversion E. reflexivity. }
      clear O. destruct (c_owner c) as [| | | | | | | | | | a |] eqn:Eo; try (intros l1 E; discriminate E).
      rewrite (bind_eq (cdef_v P (VObj a)) _ w (wcdef P w a) w eq_refl). cbn zeta.
      match goal with |- fine_err (fst (bind (collect ?al ?pr ?it ?ms) _ ?s)) =>
        assert (CF : fine_err (fst (collect al pr it ms s)) /\ forall l, fst (collect al pr it ms s) = Ok l -> fine l);
          [apply collect_fine; [| intros kp msg [] | exact Hw] | destruct CF as [C1 C2]; apply collected_fine; assumption] end.
      intros [k u] w1 Hin Hw1. unfold bind, items_of. destruct (item_types (c_fdef c)) as [it |] eqn:Et; cbn [fst snd].
      2:{ split; [exact Hw1 |]. split; [intros l E; discriminate E | intros m w2 E; discriminate E]. }
      split; [exact Hw1 |]. split; [intros l E; discriminate E |]. intros m w2 E. inversion E; subst m w2. clear E.
      rewrite (ft_def _ _ _ F) in Et.
      apply (chain_fine n (S d)); [exact M | | exact Hw1]. constructor; [reflexivity | | left; reflexivity |].
      - intros x Hx. apply (tame_items (S d) ts it x); [intros y Hy; apply tame_up, tame_up, (ft_types _ _ _ F), Hy | exact Et | exact Hx | discriminate].
      - cbn [c_fkr colval c_val c_owner snd fst]. pose proof (ft_place _ _ _ F) as Pl. rewrite Eo in *.
        destruct b; cbn in Ei; destruct (c_val c) as [| | | | | | | | vs | vs | |]; try discriminate Ei; inversion Ei; subst its.
        + unfold enum_dict in Hin. apply in_map_iff in Hin. destruct Hin as ([s v] & Es & Hin). inversion Es; subst.
          eapply pl_entry; [exact Pl | exact Hi | apply item_chain_fdef, Et | exact Hin].
        + destruct (enum_list_in _ _ _ Hin) as (j & -> & Hj). eapply pl_item; [exact Pl | exact Hi | apply item_chain_fdef, Et | exact Hj]. }
    destruct (c_val c) eqn:Ev; try (apply X; discriminate). intros l E. discriminate E.
  Qed.

  (** *** Unions report under their own keypath *)
  Lemma union_own n c w l w' : m_validate (interp P (S n) (MUnion [])) c w = (Err (EValidation l), w') ->
    forall kp msg, In (kp, msg) l -> kp = skp (c_fkr c).
  Proof.
    cbn [interp modif_of m_validate validate_of]. unfold union_validate.
    assert (G : forall us w, union_validate_loop (interp P n) us c w = (Err (EValidation l), w') -> forall kp msg, In (kp, msg) l -> kp = skp (c_fkr c)).
    { induction us as [| ts us IH]; intros w1 H; cbn [union_validate_loop] in H.
      - unfold raise_vexc, vexc, throw in H. inversion H; subst. intros kp msg [X | []]. inversion X. reflexivity.
      - unfold on_validation in H. destruct (t_validate (interp P n) ts (alterfdef c (fdef_of ts)) w1) as [[a | e] w2]; [discriminate H |].
        destruct e; try discriminate H. exact (IH _ H). }
    intros H. destruct (c_val c); try exact (G _ _ H). discriminate H.
  Qed.

  (** *** Objects *)
  Lemma due_or w o f : due w o f \/ ~ due w o f.
  Proof.
    pose proof (skip_iff w o f) as S. cbn zeta in S.
    match type of S with ?b = true <-> _ => destruct b eqn:E end; [right; apply S; reflexivity | left].
    unfold due in *. destruct (o_new (wobj w o)); [left; reflexivity | right]. cbn [negb] in *.
    rewrite andb_true_r in E. apply andb_false_iff in E. destruct E as [E | E].
    - left. intros X. rewrite X in E. discriminate E.
    - right. apply negb_false_iff, sinb_true, initial_keypaths_in in E. exact E.
  Qed.
  Lemma getattr_fine o n w : fine_err (fst (getattr P o n w)).
  Proof.
    intros l E. exfalso. unfold getattr, liftH, ObjModel.getattr in E. destruct w as [h1 x m lg]. cbn [w_heap] in E.
    destruct (ofield (p_ct P) h1 o n) as [f |]; [destruct (is_calc f) |]; cbn in E.
    - exact (court_getter P CO _ _ _ _ E).
    - destruct (attr h1 o n); discriminate E.
    - destruct (attr h1 o n); discriminate E.
  Qed.
  Lemma inst_fine n d ts cls c w : modifier_fine n -> fits d ts c -> checks ts (MInstance cls) -> w_heap w = h ->
    fine_err (fst (inst_validate P (interp P n) c w)).
  Proof.
    intros M F Hc Hw. destruct (c_val c) as [| | | | | | | | | | o |] eqn:Ev.
    11:{
      assert (O : forall k, fst (inst_validate P (interp P n) c w) = Err (EValidation [(skp (c_fkr c), k)]) -> fine [(skp (c_fkr c), k)]).
      { intros k E. apply (own_fine d ts (MInstance cls) c (S n) w _ (snd (inst_validate P (interp P n) c w)) F Hc Hw).
        - cbn [interp modif_of m_validate validate_of]. rewrite <- E. apply surjective_pairing.
        - intros kp msg [X | []]. inversion X. reflexivity. }
      rewrite (inst_validate_obj P _ _ _ _ Ev) in O |- *. destruct (m_has (cname_of w) o (pk_of P w o) (w_mg w)); [intros l E; discriminate E |].
      unfold inst_rest in *.
      destruct (inst_cls c (set_mg (m_put (cname_of w) o (pk_of P w o) (w_mg w)) w)) as [r1 w1] eqn:E1.
      unfold bind at 1 in O. unfold bind at 1. rewrite E1 in O |- *.
      assert (w1 = set_mg (m_put (cname_of w) o (pk_of P w o) (w_mg w)) w /\ forall l, r1 <> Err (EValidation l)) as [-> N1].
      { unfold inst_cls in E1. destruct (f_inst (c_fdef c)); inversion E1; split; try reflexivity; discriminate. }
      destruct r1 as [k | e]; [| intros l E; cbn in E; inversion E; subst; contradiction (N1 l eq_refl)].
      unfold bind at 1 in O. unfold bind at 1. unfold class_named in *. destruct (p_ct P k) as [cd |] eqn:Ek; [| intros l E; discriminate E].
      unfold ret at 1 in O. unfold ret at 1. cbn zeta in O |- *. unfold bind at 1, getW at 1 in O. unfold bind at 1, getW at 1.
      match type of O with context [negb ?b] => destruct (negb b) end.
      { intros l E. unfold raise_vexc, vexc, throw in E, O. cbn [fst] in E. inversion E; subst. apply (O _ eq_refl). }
      clear O. unfold bind at 1, getW at 1. unfold bind at 1, getW at 1. set (wm := set_mg _ w) in *.
      assert (Hwm : w_heap wm = h) by exact Hw.
      match goal with |- fine_err (fst (bind (collect ?al ?pr ?it ?ms) _ ?s)) =>
        assert (CF : fine_err (fst (collect al pr it ms s)) /\ forall l, fst (collect al pr it ms s) = Ok l -> fine l);
          [apply collect_fine; [| intros kp msg [] | exact Hwm] | destruct CF as [C1 C2]; apply collected_fine; assumption] end.
      intros f w2 Hf Hw2. pose proof (getattr_fine o (fl_name f) w2) as Gf.
      assert (Gh : w_heap (snd (getattr P o (fl_name f) w2)) = h).
      { unfold getattr, liftH, ObjModel.getattr. destruct w2 as [h1 x m lg]. cbn [w_heap] in *.
        destruct (ofield (p_ct P) h1 o (fl_name f)) as [g |]; [destruct (is_calc g) |]; exact Hw2. }
      destruct (getattr P o (fl_name f) w2) as [[fv | e] w3] eqn:Eg; cbn [fst snd] in *.
      2:{ match goal with |- context [field_check P ?r c o ?om ?md f w2] =>
            assert (FC : field_check P r c o om md f w2 = (Err e, w3)) by (unfold field_check; rewrite (bind_eq (getW (fun w => wclass w o)) _ w2 (wclass w2 o) w2 eq_refl); rewrite (bind_eq_err _ _ _ _ _ Eg); reflexivity) end.
          rewrite FC. cbn [fst snd]. split; [exact Gh |]. split; [exact (fine_any _ Gf) | intros m w4 E; discriminate E]. }
      assert (w3 = w2) as -> by (apply (getattr_ok P o _ _ _ _ Eg)).
      assert (Ew : wobj wm o = wobj w0 o) by (unfold wobj; rewrite Hwm; reflexivity).
      pose proof (skip_iff w0 o f) as Sk. cbn zeta in Sk. rewrite <- Ew in Sk.
      destruct (fstore_eqb (f_fstore (fl_fdef f)) Embedded && negb (o_new (wobj wm o)) &&
        negb (sinb (fl_name f) (if negb (o_new (wobj wm o)) then initial_keypaths (o_mfields (wobj wm o)) else [])))%bool eqn:Eskip.
      { match goal with |- context [field_check P ?r c o ?om ?md f w2] =>
          assert (FC : field_check P r c o om md f w2 = (Ok None, w2)) by (unfold field_check; rewrite (bind_eq (getW (fun w => wclass w o)) _ w2 (wclass w2 o) w2 eq_refl); rewrite (bind_eq _ _ _ _ _ Eg); rewrite Eskip; reflexivity) end.
        rewrite FC. cbn [fst snd]. split; [exact Hw2 |]. split; [intros l E; discriminate E | intros m w4 E; discriminate E]. }
      assert (Hdue : due w0 o f).
      { destruct (due_or w0 o f) as [Y | Y]; [exact Y |]. apply Sk in Y. discriminate Y. }
      match goal with |- context [field_check P ?r c o ?om ?md f w2] =>
        assert (FC : field_check P r c o om md f w2 = (Ok (Some (do* e <- ekey P c (fl_name f);
          t_validate r (fl_types f) (field_ctx c o f (wclass w2 o) fv e))), w2)) by (unfold field_check; rewrite (bind_eq (getW (fun w => wclass w o)) _ w2 (wclass w2 o) w2 eq_refl); rewrite (bind_eq _ _ _ _ _ Eg); rewrite Eskip; reflexivity) end.
      rewrite FC. cbn [fst snd]. split; [exact Hw2 |]. split; [intros l E; discriminate E |]. intros m w4 E. inversion E; subst m w4. clear E FC.
      assert (V0 : value_of P w0 o (fl_name f) fv).
      { apply (value_same P w0 w2 o (fl_name f) fv (eq_sym Hw2)). exact Eg. }
      pose proof (ft_place _ _ _ F) as Pl. rewrite Ev in Pl.
      destruct (c_owner c) as [| | | | | | | | | | a |] eqn:Eo;
        try (unfold ekey; rewrite Eo; cbn; split; [exact Hw2 | intros l1 E1'; discriminate E1']).
      assert (Ee : ekey P c (fl_name f) w2 = (Ok (cd_outkey (wcdef P w0 a) (fl_name f)), w2)).
      { unfold ekey, cdef_v, the_obj, bind, getW, ret. rewrite Eo. unfold wcdef. fold h. rewrite Hw2. reflexivity. }
      rewrite (bind_eq _ _ _ _ _ Ee). apply (chain_fine n D); [exact M | | exact Hw2].
      assert (DF : due_field P w0 o f fv).
      { constructor; [| exact Hdue | exact V0]. unfold wcdef, cdef_of in Hf. rewrite Hwm in Hf. unfold wclass, wobj. fold h.
        destruct (p_ct P (o_class (h_obj h o))) as [dd |] eqn:Ed; [exists dd; auto | contradiction Hf]. }
      assert (Ow : match c_original c with VNone => VObj o | x => x end = VObj o).
      { destruct (ft_orig _ _ _ F) as [-> | ->]; [| rewrite Ev]; reflexivity. }
      destruct DF as [(dd & Hd & Hin) Q1 Q2].
      pose proof (pl_field P w0 root _ _ _ _ _ f fv Pl Hc (Build_due_field P w0 o f fv (ex_intro _ dd (conj Hd Hin)) Q1 Q2)) as Pf.
      constructor.
      - unfold field_ctx. destruct (is_inst_field f); reflexivity.
      - intros x Hx. apply (TC _ dd f x Hd Hin Hx).
      - left. unfold field_ctx. destruct (is_inst_field f); reflexivity.
      - unfold field_ctx. rewrite Ow. destruct (is_inst_field f); exact Pf. }
    all: unfold inst_validate; rewrite Ev; intros l1 E; discriminate E.
  Qed.

  Lemma all_fine n : modifier_fine n.
  Proof.
    induction n as [| n IH]; intros d ts m c w F Hc Hw; [intros l E; discriminate E |].
    pose proof (ft_types _ _ _ F m (checks_In _ _ Hc)) as T.
    destruct (Keep.part m) eqn:Np.
    - destruct m; try discriminate Np.
      + apply (inst_fine n d ts _ c w IH F Hc Hw).
      + apply (col_fine n d ts false _ c w IH F Hc Hw).
      + apply (col_fine n d ts true _ c w IH F Hc Hw).
      + intros l E. eapply (own_fine d ts (MUnion _) c (S n) w l _ F Hc Hw); [rewrite <- E; apply surjective_pairing |].
        eapply union_own. cbn [interp modif_of m_validate validate_of] in E |- *. rewrite <- E. apply surjective_pairing.
    - intros l E. destruct d as [| d]; [contradiction T |].
      assert (Fl : flat (S d) m) by (destruct m; try discriminate Np; exact T).
      pose proof (surjective_pairing (m_validate (interp P (S n) m) c w)) as SP. rewrite E in SP.
      apply (own_fine (S d) ts m c (S n) w l _ F Hc Hw SP). apply (flat_own (S n) (S d) m c w l _ Fl SP).
  Qed.
End Report.
