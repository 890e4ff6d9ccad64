(** NestProofs.v -- the objects that input describes. *)
From Coq Require Import Lia.
From Verif Require Import Base Mon PyList PyDict StrDict OListModel ODictModel KeypathModel KeypathSpec KeypathProofs Values OGraphModel MGraphModel
  MGraphProofs ChainModel TypesModel TypesSpec TypesProofs ObjModel ObjSpec ObjTrack IoModel IoBase Sound ObjSound LeafSound TameSpec Keep TameProofs
  OutProofs KpSetProofs WriteSpec WriteFrame WriteProofs UpdateSpec UpdateProofs InitProofs MakeSpec MakeProofs SetInSpec SetInProofs
  RoundSpec RoundProofs ReachSpec ReportSpec InErrSpec NestSpec.
From Verif Require LeafModel CalcSpec CalcProofs InErrProofs.
Open Scope list_scope.
Notation alive := InErrProofs.alive.
Notation facts := InErrProofs.facts.
Notation mg_ok := InErrProofs.mg_ok.
Notation stable := InErrProofs.stable.
Notation own := InErrProofs.own.

Lemma prot_any x k A cls fr (R R' : string -> Prop) b w : (forall c, R c) -> prot x k A cls fr R b w -> prot x k A cls fr R' b w.
Proof. intros H [H1 H2]. split; [exact H1 |]. intros B c p _. apply (H2 B c p (H c)). Qed.
Lemma prot_stale x k A cls R b w : prot x k A cls true R b w -> prot x k A cls false R b w.
Proof. intros [[H1 H2 H3 H4 H5 H6] M]. split; [constructor; trivial; discriminate | exact M]. Qed.

Lemma held_by (R : string -> Prop) (H : forall c, R c) d : forall m, tame d m -> holds_only R d m.
Proof.
  induction d as [| d IH]; intros m T; [exact T |]. destruct m; cbn in *; try exact Logic.I.
  - apply H.
  - intros y Hy. apply IH, T, Hy.
  - intros y Hy. apply IH, T, Hy.
  - intros us y Hu Hy. apply IH, (T us y Hu Hy).
Qed.
Lemma no_key d cl c : key_given d [] -> c <> cl :> string.
Proof. intros (pf & v & _ & E & _). discriminate E. Qed.
Lemma getp_none cn c p o m : m_getp c p (m_put cn o None m) = m_getp c p m.
Proof.
  unfold m_getp, m_put, m_table. rewrite sget_sset. destruct (String.eqb_spec c (cn o)) as [-> |]; [| reflexivity].
  destruct (sget (cn o) m); reflexivity.
Qed.
Lemma beside_alone v l : v <> VNone -> Forall beside l -> Forall (leaves_alone v) l.
Proof. intros N. apply Forall_impl. intros m [H | H]; [left; exact H | right; auto]. Qed.
Lemma inst_of before cl after : Forall beside after -> f_inst (fdef_of (before ++ MInstance cl :: after)) = Some cl.
Proof.
  intros H. induction after as [| m after IH] using rev_ind.
  - rewrite fdef_snoc, inst_step. reflexivity.
  - apply Forall_app in H. destruct H as [H1 H2]. inversion H2 as [| ? ? Hm]; subst.
    rewrite app_comm_cons, app_assoc, fdef_snoc, inst_step, (IH H1). destruct Hm as [Hm | [p ->]]; [destruct m; try discriminate Hm; reflexivity | reflexivity].
Qed.
Lemma sset_end {V} k (v : V) d : ~ In k (map fst d) -> sset k v d = d ++ [(k, v)].
Proof.
  unfold sset. induction d as [| [k0 v0] d IH]; intros H; [reflexivity |]. cbn in *.
  destruct (String.eqb_spec k k0) as [-> | N]; [exfalso; apply H; left; reflexivity |]. rewrite IH; [reflexivity |]. intros X. apply H. right. exact X.
Qed.

Section Nest.
  Context (P : program) (D : nat).
  Hypothesis PO : polite P.
  Hypothesis TC : tame_classes D P.
  Hypothesis LC : late_classes D P.
  Hypothesis NB : forall x, newborn P x.
  Hypothesis PN : forall cls d, p_ct P cls = Some d -> proper_names d.
  Hypothesis Lim : (2 <= p_lim P)%nat.
  Existing Instance frame_mode.
  Notation T := (fun _ : string => True).
  Notation fits := (InErrProofs.fits P "" []).
  Notation holds_input := (InErrProofs.holds_input P "" []).
  Notation goes := (InErrProofs.goes P "" []).

  Lemma LT : only_holds T D P.
  Proof. intros cls c f m Hc Hf Hm. apply InErrProofs.any_held, (TC _ _ _ _ Hc Hf Hm). Qed.

  (** ** What stays *)
  Definition isa (w : world) (o : oid) (cl : string) : Prop := alive (o, cl) w.
  Definition stay (w : world) (o : oid) (g : field) (z : value) : Prop :=
    exists cl d, p_ct P cl = Some d /\ In g (cd_fields d) /\ prot o (fl_name g) (fun a => a = Some z) cl false T true w.
  Definition carries (X : oid -> Prop) (w w' : world) : Prop :=
    stable w w' /\ forall o g z, X o -> described P g -> stay w o g z -> stay w' o g z.
  Lemma carries_refl X w : carries X w w.
  Proof. split; [apply InErrProofs.same_refl | auto]. Qed.
  Lemma carries_trans (X : oid -> Prop) w1 w2 w3 : carries X w1 w2 -> carries X w2 w3 -> carries X w1 w3.
  Proof. intros [A B] [A' B']. split; [exact (InErrProofs.same_trans _ _ _ A A') | auto]. Qed.
  Lemma carries_less (X Y : oid -> Prop) w w' : (forall o, Y o -> X o) -> carries X w w' -> carries Y w w'.
  Proof. intros H [A B]. split; [exact A | auto]. Qed.
  Lemma stable_next w w' : stable w w' -> (h_next (w_heap w) <= h_next (w_heap w'))%nat.
  Proof. intros [H _]. exact H. Qed.

  Lemma built_mono fill (N N' : oid) (is_a is_a' : oid -> string -> Prop) (has has' : oid -> field -> value -> Prop) : (N' <= N)%nat ->
    (forall o cl, (N <= o)%nat -> is_a o cl -> is_a' o cl) ->
    (forall o g z, (N <= o)%nat -> described P g -> has o g z -> has' o g z) ->
    forall k ts v y, built P fill N is_a has k ts v y -> built P fill N' is_a' has' k ts v y.
  Proof.
    intros HN C1 C2. induction k as [| k IH]; intros ts v y H; [exact Logic.I |]. destruct H as (H1 & H2 & H3). split; [| split].
    - intros cl d m Ht Hv Hc Hu. destruct (H1 cl d m Ht Hv Hc Hu) as (o & Ey & Ho & Ia & Hg). exists o.
      split; [exact Ey | split; [lia | split; [exact (C1 o cl Ho Ia) |]]].
      intros g Ig Dg. destruct (Hg g Ig Dg) as (y0 & z & A & B & C). exists y0, z. split; [exact A | split; [apply C2; assumption |]].
      unfold outcome in *. destruct (input_of g m) as [u |]; [| exact C]. destruct C as [[C3 (q & Q1 & Q2 & Q3)] | C]; [left | right; exact C].
      split; [exact C3 |]. exists q. split; [exact Q1 | split; [apply IH, Q2 | exact Q3]].
    - intros it l Ht Hv. destruct (H2 it l Ht Hv) as (l' & E & F). exists l'. split; [exact E |]. revert F. apply F2_impl. intros a b. apply IH.
    - intros it m Ht Hv Nd. destruct (H3 it m Ht Hv Nd) as (m' & E & F). exists m'. split; [exact E |]. revert F. apply F2_impl.
      intros a b [F1 F2]. split; [exact F1 | apply IH, F2].
  Qed.
  Lemma built_carries fill (N N' : oid) w w' : (N' <= N)%nat -> carries (fun o => (N <= o)%nat) w w' ->
    forall k ts v y, built P fill N (isa w) (stay w) k ts v y -> built P fill N' (isa w') (stay w') k ts v y.
  Proof.
    intros HN [C1 C2]. apply built_mono; [exact HN | | exact C2]. intros o cl _. exact (InErrProofs.alive_stable 0%nat _ _ _ C1).
  Qed.
  Lemma outcome_mono fill (inner inner' : types -> value -> value -> Prop) a x f m cur z : (forall ts v y, inner ts v y -> inner' ts v y) ->
    outcome P fill inner a x f m cur z -> outcome P fill inner' a x f m cur z.
  Proof.
    intros H O. unfold outcome in *. destruct (input_of f m) as [u |]; [| exact O]. destruct O as [[C3 (q & Q1 & Q2 & Q3)] | C]; [left | right; exact C].
    split; [exact C3 |]. exists q. split; [exact Q1 | split; [apply H, Q2 | exact Q3]].
  Qed.

  (** ** The steps *)
  Section Fact.
    Context (o : oid) (cl : string) (d : cdef) (g : field) (z : value).
    Hypothesis Ed : p_ct P cl = Some d.
    Hypothesis Hg : In g (cd_fields d).
    Hypothesis Dg : described P g.
    Notation A := (fun a : option value => a = Some z).
    Lemma fd2 : exists d, p_ct P cl = Some d /\ In g (cd_fields d) /\ forall g', In g' (cd_fields d) -> fl_name g' = fl_name g -> g' = g.
    Proof. exact (Fd P cl d g Ed Hg (pn_names _ (PN _ _ Ed))). Qed.
    Lemma cn2 : false = true -> newborn P o.
    Proof. discriminate. Qed.
    Lemma no_write2 : false = true -> forall u, yields (prot o (fl_name g) A cl false T false) (fun ok => ok = true -> forall n c w y w',
      c_val c = u -> t_transform (interp P n) (fl_types g) c w = (Ok y, w') -> A (Some y)) (may_write P o g u).
    Proof. discriminate. Qed.
    Lemma keep_transform n b d0 m c : fit T d0 m c -> cok o false b c -> Keep.keeps (prot o (fl_name g) A cl false T b) (m_transform (interp P n m) c).
    Proof. apply (w_transform P o (fl_name g) A cl false false T g D (ds_name _ _ Dg) (ds_user _ _ Dg o) cn2 eq_refl (ds_plain _ _ Dg) fd2 TC LC LT no_write2). Qed.
    Lemma keep_types n b d0 ts c : goods T d0 ts -> c_fdef c = fdef_of ts -> cok o false b c ->
      Keep.keeps (prot o (fl_name g) A cl false T b) (t_transform (interp P n) ts c).
    Proof. apply (w_t_transform P o (fl_name g) A cl false false T (ds_user _ _ Dg o) cn2 n (keep_transform n)). Qed.
    Lemma keep_set x n v : o <> x -> Keep.keeps (prot o (fl_name g) A cl false T true) (setattr P x n v).
    Proof. intros N. apply w_setattr; [apply Dg | apply Dg | discriminate | intros E; symmetry in E; contradiction]. Qed.
    Lemma keep_field n c m x soft c0 d0 g0 acc : p_ct P c0 = Some d0 -> In g0 (cd_fields d0) -> c_original c <> VObj o -> x <> o ->
      Keep.keeps (prot o (fl_name g) A cl false T true) (fill_field P (interp P n) c m x soft acc g0).
    Proof.
      intros E I N Nx.
      pose proof (w_fill_field P o (fl_name g) A cl false false T g D (ds_name _ _ Dg) (ds_user _ _ Dg o) cn2 eq_refl (ds_plain _ _ Dg) fd2 TC LC LT no_write2
        n (keep_transform n) true c m x soft c0 d0 g0 acc E I) as H.
      intros w Hw. apply H; try assumption.
      - split; [intros X; discriminate X | auto].
      - auto.
      - contradiction.
      - contradiction.
    Qed.
  End Fact.

  Lemma goes_run {U} L (m : st world U) w r w' : goes true false L m -> mg_ok true w -> facts L w -> m w = (r, w') -> mg_ok true w' /\ stable w w'.
  Proof. intros G M F E. destruct (G w M F) as (A & B & _). rewrite E in A, B. auto. Qed.
  Lemma keep_run {U} (X : oid -> Prop) (m : st world U) w r w' : m w = (r, w') -> stable w w' ->
    (forall o cl d g z, X o -> p_ct P cl = Some d -> In g (cd_fields d) -> described P g ->
       Keep.keeps (prot o (fl_name g) (fun a => a = Some z) cl false T true) m) -> carries X w w'.
  Proof.
    intros E S K. split; [exact S |]. intros o g z Xo Dg (cl & d & Ed & Ig & Hp). exists cl, d. split; [exact Ed | split; [exact Ig |]].
    destruct (K o cl d g z Xo Ed Ig Dg w Hp) as [H _]. rewrite E in H. exact H.
  Qed.

  Lemma types_carry n d ts c oc L w r w' : fits false d ts c oc L -> mg_ok true w -> facts L w -> t_transform (interp P n) ts c w = (r, w') ->
    mg_ok true w' /\ carries (fun _ => True) w w'.
  Proof.
    intros F M Fa E.
    destruct (goes_run L _ w r w' (InErrProofs.types_goes P D "" [] PO n false d ts c oc L (InErrProofs.all_goes P D "" [] PO TC LC n) F) M Fa E) as [M' S].
    split; [exact M' |]. apply (keep_run _ _ w r w' E S). intros o cl d0 g z _ Ed Ig Dg. destruct F as ((G & Ef & _) & _ & Eo).
    apply (keep_types o cl d0 g z Ed Ig Dg n true d); [exact G | exact Ef |]. split; [intros X; discriminate X | intros _; rewrite Eo; discriminate].
  Qed.
  Lemma set_carry x n v w r w' : setattr P x n v w = (r, w') -> mg_ok true w -> mg_ok true w' /\ carries (fun o => o <> x) w w'.
  Proof.
    intros E M. destruct (goes_run [] _ w r w' (InErrProofs.g_setattr P D "" [] PO true false [] x n v) M (InErrProofs.no_facts w) E) as [M' S].
    split; [exact M' |]. apply (keep_run _ _ w r w' E S). intros o cl d g z N Ed Ig Dg. apply (keep_set o cl g z Dg x n v N).
  Qed.
  Lemma field_carry n c m oc cl d L x soft acc g w r w' : p_ct P cl = Some d -> holds_input false m c oc cl d L -> In g (cd_fields d) -> In (x, cl) L ->
    (c_original c = VNone \/ c_original c = VObj x) -> mg_ok true w -> facts L w -> fill_field P (interp P n) c m x soft acc g w = (r, w') ->
    mg_ok true w' /\ carries (fun o => o <> x) w w'.
  Proof.
    intros Ed HI Ig Ix Co M Fa E.
    destruct (goes_run L _ w r w' (InErrProofs.field_goes P D "" [] PO TC LC n false m c oc cl d L g x soft acc (InErrProofs.all_goes P D "" [] PO TC LC n) Ed HI Ig Ix) M Fa E) as [M' S].
    split; [exact M' |]. apply (keep_run _ _ w r w' E S). intros o cl0 d0 g0 z N Ed0 Ig0 Dg0.
    apply (keep_field o cl0 d0 g0 z Ed0 Ig0 Dg0 n c m x soft cl d); auto. destruct Co as [-> | ->]; [discriminate | congruence].
  Qed.
  Lemma fold_carry n c m oc cl d L x soft : p_ct P cl = Some d -> holds_input false m c oc cl d L -> In (x, cl) L ->
    (c_original c = VNone \/ c_original c = VObj x) -> forall fs acc w r w', incl fs (cd_fields d) -> mg_ok true w -> facts L w ->
    fold_st (fill_field P (interp P n) c m x soft) fs acc w = (r, w') -> mg_ok true w' /\ carries (fun o => o <> x) w w'.
  Proof.
    intros Ed HI Ix Co. induction fs as [| g fs IH]; intros acc w r w' Hi M Fa E.
    - injection E as _ <-. split; [exact M | apply carries_refl].
    - cbn [fold_st] in E. apply bind_any in E. destruct E as (r1 & w1 & G & E).
      destruct (field_carry n c m oc cl d L x soft acc g w r1 w1 Ed HI (Hi g (or_introl eq_refl)) Ix Co M Fa G) as [M1 C1].
      destruct r1 as [a | e]; [| destruct E as [_ ->]; auto].
      destruct (IH a w1 r w' (fun y Hy => Hi y (or_intror Hy)) M1 (InErrProofs.facts_stable 0%nat _ _ _ (proj1 C1) Fa) E) as [M2 C2].
      split; [exact M2 | exact (carries_trans _ _ _ _ C1 C2)].
  Qed.
  Lemma ekey_same c n w r w' : ekey P c n w = (r, w') -> w' = w.
  Proof.
    unfold ekey, cdef_v, the_obj. intros E. destruct (c_owner c); cbn in E; injection E as _ <-; reflexivity.
  Qed.

  Lemma getattr_same x n w r w' : getattr P x n w = (r, w') -> w' = w.
  Proof.
    unfold getattr, liftH. destruct (ObjModel.getattr _ _ _ _ (w_heap w)) as [q h] eqn:E. intros G. injection G as _ <-.
    assert (h = w_heap w) as ->; [| destruct w; reflexivity].
    revert E. unfold ObjModel.getattr. destruct (ofield _ _ _ _) as [g |]; [destruct (is_calc g) |]; intros E; injection E as _ <-; reflexivity.
  Qed.

  (** ** One object *)
  Definition types_built (n : nat) : Prop := forall k d ts c oc L w y w', fits false d ts c oc L -> mg_ok true w -> facts L w ->
    t_transform (interp P n) ts c w = (Ok y, w') -> built P (g_fill (c_cfg c)) (h_next (w_heap w)) (isa w') (stay w') k ts (c_val c) y.

  Section One.
    Context (n : nat) (IH : types_built n) (x : oid) (cl : string) (d : cdef) (kw : list (string * value)) (f : field).
    Notation R := (fun c : string => key_given d kw -> c <> cl).
    Hypothesis Ed : p_ct P cl = Some d.
    Hypothesis Hf : In f (cd_fields d).
    Hypothesis Df : described P f.
    Hypothesis LR : only_holds R D P.
    Notation k := (fl_name f).
    Notation pr v := (prot x k (fun a => a = Some v) cl false R true).
    Notation ND := (pn_names _ (PN _ _ Ed)).
    Notation rec := (interp P n).
    Context (c : ctx) (m : list (string * value)) (oc : string) (L : list (oid * string)).
    Hypothesis HI : holds_input false m c oc cl d L.
    Hypothesis Ix : In (x, cl) L.
    Hypothesis Co : c_original c = VNone \/ c_original c = VObj x.
    Notation fill := (g_fill (c_cfg c)).

    Lemma L1 : (1 <= p_lim P)%nat.
    Proof. lia. Qed.
    Lemma ended cur y w r w' : setattr P x k y w = (Ok r, w') -> pr cur w -> exists z, pr z w' /\ becomes P cur y z.
    Proof.
      intros E H. destruct (set_self1 P cl d f kw x (ds_plain _ _ Df) Ed Hf ND L1 cur y w _ w' E H) as (_ & z & Hz). exists z. exact Hz.
    Qed.
    Lemma default_self cur w r w' : mg_ok true w -> facts L w ->
      fill_default P rec f x c w = (Ok r, w') -> pr cur w -> exists z y, pr z w' /\ default_by P (c_original c) f y /\ becomes P cur y z.
    Proof.
      intros M Fa E H. unfold fill_default in E. unfold default_by.
      assert (K : forall y w1, setattr P x k y w1 = (Ok r, w') -> pr cur w1 -> exists z, pr z w' /\ becomes P cur y z) by (intros y w1 X H1; apply (ended _ _ _ _ _ X H1)).
      destruct (fl_default f); try (destruct (K _ _ E H) as (zz & Z1 & Z2); exists zz; eexists; split; [exact Z1 | split; [reflexivity | exact Z2]]).
      step E ek w0 G. apply ekey_same in G. subst w0. step E c1 w1 G0. inversion G0; subst. clear G0. step E y w2 G1.
      assert (H2 : pr cur w2).
      { revert G1 H. apply MakeProofs.kept. destruct (LC _ _ _ Ed Hf) as [Q1 Q2].
        apply (w_t_transform P x k (fun a => a = Some cur) cl false false R (ds_user _ _ Df x) (cn1 P x) n
          (trans1 P D cl d f kw x TC LC (ds_name _ _ Df) (ds_user _ _ Df x) (ds_plain _ _ Df) Ed Hf ND LR n cur)) with (d := D); [ | reflexivity |].
        + split; [exact Q1 | intros q Hq; split; [apply (TC _ _ _ _ Ed Hf Hq) | split; [apply Q2, Hq | apply (LR _ _ _ _ Ed Hf Hq)]]].
        + split; [intros X; discriminate X | intros _; discriminate]. }
      destruct (K _ _ E H2) as (z & Z1 & Z2). exists z, y. split; [exact Z1 | split; [| exact Z2]].
      exists n. eexists. exists w1, w2. split; [| split; [| split; [| split; [| exact G1]]]]; reflexivity.
    Qed.

    Lemma one_field kd cur acc w acc' w' : mg_ok true w -> facts L w ->
      fill_field P rec c m x false acc f w = (Ok acc', w') -> pr cur w ->
      acc' = acc /\ exists z, pr z w' /\ outcome P fill (built P fill (h_next (w_heap w)) (isa w') (stay w') kd) (c_original c) x f m cur z.
    Proof.
      intros M Fa E H. unfold fill_field in E. unfold outcome. destruct (pieces f (ds_plain _ _ Df)) as [Pr Pc].
      assert (Rest : forall r1 w1 w2, (if fill && negb (is_calc f) then fill_default P rec f x c else ret tt) w1 = (Ok r1, w2) -> w1 = w ->
        exists z, pr z w2 /\ (if fill then exists y, default_by P (c_original c) f y /\ becomes P cur y z else z = cur)).
      { intros r1 w1 w2 E1 ->. rewrite Pc in E1. destruct fill; cbn [andb negb] in E1.
        - destruct (default_self cur w r1 w2 M Fa E1 H) as (z & y & A1 & A2). exists z. split; [exact A1 | exists y; exact A2].
        - injection E1 as _ <-. exists cur. auto. }
      destruct (input_of f m) as [v |] eqn:Ei.
      - destruct (given_value _ _ _ Ei) as [E1 E2]. rewrite E1, E2 in E. clear E1 E2. cbv zeta in E.
        step E ok w0 G. destruct (may_take1 P cl d f kw x (ds_plain _ _ Df) Ed Hf ND cur v _ _ _ G H) as (-> & b & Eb & Tk). injection Eb as <-.
        step E u w1 G0. injection E as <- <-. split; [reflexivity |]. destruct ok.
        + step G0 ek w2 G1. apply ekey_same in G1. subst w2. step G0 c2 w2 G2. inversion G2; subst. clear G2. step G0 y w3 G3. rewrite Pc in G0.
          set (cc := nextvo c v (fl_name f) ek (fl_fdef f) _ (VObj x)) in *.
          assert (Ft : fits false D (fl_types f) cc cl L).
          { split; [split; [apply (InErrProofs.field_good P D TC LC cl d f Ed Hf) | split; [reflexivity | exact Ix]] | split; [discriminate | reflexivity]]. }
          pose proof (IH kd D (fl_types f) cc cl L w2 y w3 Ft M Fa G3) as B.
          destruct (types_carry n D (fl_types f) cc cl L w2 _ w3 Ft M Fa G3) as [M3 C3].
          assert (H3 : pr cur w3).
          { revert G3 H. apply MakeProofs.kept.
            eapply (w_field P x k (fun a => a = Some cur) cl false false R D (ds_user _ _ Df x) (cn1 P x) TC LC LR n
              (trans1 P D cl d f kw x TC LC (ds_name _ _ Df) (ds_user _ _ Df x) (ds_plain _ _ Df) Ed Hf ND LR n cur)); try eassumption. intros Y; discriminate Y. }
          destruct (ended _ _ _ _ _ G0 H3) as (z & Z1 & Z2). exists z. split; [exact Z1 |]. left. split; [exact Tk |]. exists y.
          split; [exists n; exists cc; exists w2, w3; split; [reflexivity | split; [reflexivity | split; [reflexivity | split; [reflexivity | exact G3]]]] | split; [| exact Z2]].
          destruct (set_carry _ _ _ _ _ _ G0 M3) as [_ C4].
          apply (built_carries fill (h_next (w_heap w2)) (h_next (w_heap w2)) w3 w1 (le_n _)); [| exact B].
          apply (carries_less (fun o => o <> x)); [| exact C4]. intros o Ho ->. destruct (Fa _ Ix) as [Al _]. cbn in Al. lia.
        + destruct (Rest _ _ _ G0 eq_refl) as (z & Z1 & Z2). exists z. split; [exact Z1 | right; auto].
      - rewrite (not_given _ _ Ei) in E. unfold absent_field in E. cbv zeta in E. rewrite Pr in E. cbn [negb] in E.
        rewrite Bool.andb_true_r in E. step E u w1 G. injection E as <- <-. split; [reflexivity |]. apply (Rest _ _ _ G eq_refl).
    Qed.

    Lemma all_one kd cur w acc' w' : mg_ok true w -> facts L w ->
      fold_st (fill_field P rec c m x false) (cd_fields d) [] w = (Ok acc', w') -> pr cur w ->
      ~ In k acc' /\ exists z, pr z w' /\ outcome P fill (built P fill (h_next (w_heap w)) (isa w') (stay w') kd) (c_original c) x f m cur z.
    Proof.
      intros M Fa E H. destruct (in_split _ _ Hf) as (l1 & l2 & El). rewrite El, fold_st_app in E.
      assert (Hl : forall g, In g l1 \/ In g l2 -> In g (cd_fields d) /\ fl_name g <> k).
      { intros g Hg. split; [rewrite El; apply in_or_app; destruct Hg; [left | right; right]; assumption |]. intros X.
        pose proof ND as N. rewrite El, map_app in N. cbn [map] in N. apply NoDup_remove_2 in N. apply N. rewrite <- X. apply in_or_app.
        destruct Hg as [Hg | Hg]; [left | right]; apply in_map, Hg. }
      assert (Oth : forall v l acc w0 r0 w1, (forall g, In g l -> In g (cd_fields d) /\ fl_name g <> k) -> ~ In k acc ->
        fold_st (fill_field P rec c m x false) l acc w0 = (r0, w1) -> pr v w0 -> pr v w1 /\ forall a, r0 = Ok a -> ~ In k a).
      { intros v l acc w0 r0 w1 Hl' Na E0 H0.
        exact (yield1 _ _ _ _ _ _ (other_fields1 P D cl d f kw x TC LC (ds_name _ _ Df) (ds_user _ _ Df x) (ds_plain _ _ Df) Ed Hf ND LR n v c m false l acc Hl' Na) E0 H0). }
      step E a w1 G.
      destruct (Oth cur l1 [] w _ w1 (fun g X => Hl g (or_introl X)) (fun X => X) G H) as [H1 Na]. specialize (Na a eq_refl).
      destruct (fold_carry n c m oc cl d L x false Ed HI Ix Co l1 [] w _ w1 (fun g X => proj1 (Hl g (or_introl X))) M Fa G) as [M1 C1].
      pose proof (InErrProofs.facts_stable 0%nat _ _ _ (proj1 C1) Fa) as Fa1.
      cbn [fold_st] in E. step E a2 w2 G2. destruct (one_field kd cur a w1 a2 w2 M1 Fa1 G2 H1) as (-> & z & Hz & O2).
      destruct (field_carry n c m oc cl d L x false a f w1 _ w2 Ed HI Hf Ix Co M1 Fa1 G2) as [M2 C2].
      pose proof (InErrProofs.facts_stable 0%nat _ _ _ (proj1 C2) Fa1) as Fa2.
      destruct (Oth z l2 a w2 _ w' (fun g Y => Hl g (or_intror Y)) Na E Hz) as [H3 Nb].
      destruct (fold_carry n c m oc cl d L x false Ed HI Ix Co l2 a w2 _ w' (fun g X => proj1 (Hl g (or_intror X))) M2 Fa2 E) as [M3 C3].
      split; [apply Nb; reflexivity |]. exists z. split; [exact H3 |].
      unfold outcome in *. destruct (input_of f m) as [u |]; [| exact O2]. destruct O2 as [[O3 (q & Q1 & Q2 & Q3)] | O2]; [left | right; exact O2].
      split; [exact O3 |]. exists q. split; [exact Q1 | split; [| exact Q3]].
      apply (built_carries fill (h_next (w_heap w1)) (h_next (w_heap w)) w2 w' (stable_next _ _ (proj1 C1))); [| exact Q2].
      apply (carries_less (fun o => o <> x)); [| exact C3]. intros o Ho ->. destruct (Fa1 _ Ix) as [Al _]. cbn in Al. lia.
    Qed.

    (** the rest of the transformation, once the object to fill is known *)
    Definition fill_rest : st world value :=
      do* refs <- fold_st (fill_field P rec c m x false) (cd_fields d) [];
      for_st refs (fun n0 => do* cur <- getattr P x n0; if is_none cur then setattr P x n0 (VList []) else ret tt) >> ret (VObj x).
    Lemma refs_carry refs : forall w r w', mg_ok true w ->
      for_st refs (fun n0 => do* cur <- getattr P x n0; if is_none cur then setattr P x n0 (VList []) else ret tt) w = (r, w') ->
      mg_ok true w' /\ carries (fun o => o <> x) w w'.
    Proof.
      induction refs as [| s refs IHr]; intros w1 r2 w2 M1 G2.
      - injection G2 as _ <-. split; [exact M1 | apply carries_refl].
      - cbn [for_st] in G2. apply bind_any in G2. destruct G2 as (r3 & w3 & G3 & G2).
        assert (X : mg_ok true w3 /\ carries (fun o => o <> x) w1 w3).
        { apply bind_any in G3. destruct G3 as (r4 & w4 & G4 & G3). apply getattr_same in G4. subst w4.
          destruct r4 as [cur | e]; [| destruct G3 as [_ ->]; split; [exact M1 | apply carries_refl]].
          destruct (is_none cur); [apply (set_carry _ _ _ _ _ _ G3 M1) | injection G3 as _ <-; split; [exact M1 | apply carries_refl]]. }
        destruct X as [M3 C3]. destruct r3 as [u | e]; [| destruct G2 as [_ ->]; auto].
        destruct (IHr _ _ _ M3 G2) as [M4 C4]. split; [exact M4 | exact (carries_trans _ _ _ _ C3 C4)].
    Qed.
    Lemma rest_carry w r w' : mg_ok true w -> facts L w -> fill_rest w = (r, w') -> mg_ok true w' /\ carries (fun o => o <> x) w w'.
    Proof.
      intros M Fa E. unfold fill_rest in E. apply bind_any in E. destruct E as (r1 & w1 & G & E).
      destruct (fold_carry n c m oc cl d L x false Ed HI Ix Co (cd_fields d) [] w _ w1 (fun g X => X) M Fa G) as [M1 C1].
      destruct r1 as [refs | e]; [| destruct E as [_ ->]; auto].
      apply bind_any in E. destruct E as (r2 & w2 & G2 & E). destruct (refs_carry refs w1 r2 w2 M1 G2) as [M2 C2].
      assert (w' = w2) by (destruct r2; [injection E as _ <-; reflexivity | destruct E as [_ ->]; reflexivity]). subst w'.
      split; [exact M2 | exact (carries_trans _ _ _ _ C1 C2)].
    Qed.
    Lemma rest_field kd cur w r w' : mg_ok true w -> facts L w -> fill_rest w = (Ok r, w') -> pr cur w ->
      r = VObj x /\ exists z, pr z w' /\ outcome P fill (built P fill (h_next (w_heap w)) (isa w') (stay w') kd) (c_original c) x f m cur z.
    Proof.
      intros M Fa E H. unfold fill_rest in E. step E refs w1 G.
      destruct (all_one kd cur w refs w1 M Fa G H) as (Na & z & Hz & O2).
      destruct (fold_carry n c m oc cl d L x false Ed HI Ix Co (cd_fields d) [] w _ w1 (fun g X => X) M Fa G) as [M1 C1].
      step E u w2 G2. injection E as <- <-. split; [reflexivity |]. exists z. destruct (refs_carry refs w1 _ w2 M1 G2) as [_ C2].
      split.
      - revert G2 Hz. apply MakeProofs.kept. apply k_for. intros s Hs.
        apply k_bind; [apply w_getattr | intros cur1]. destruct (is_none cur1); [| apply k_ret].
        apply w_setattr; [apply Df | apply Df | discriminate |]. intros _ ->. contradiction.
      - unfold outcome in *. destruct (input_of f m) as [q |]; [| exact O2]. destruct O2 as [[O3 (y & Q1 & Q2 & Q3)] | O2]; [left | right; exact O2].
        split; [exact O3 |]. exists y. split; [exact Q1 | split; [| exact Q3]].
        apply (built_carries fill (h_next (w_heap w)) (h_next (w_heap w)) w1 w2 (le_n _)); [| exact Q2].
        apply (carries_less (fun o => o <> x)); [| exact C2]. intros o Ho ->. destruct (Fa _ Ix) as [Al _]. cbn in Al. lia.
    Qed.
  End One.

  Lemma L0 cl d : only_holds (fun c => key_given d [] -> c <> cl) D P.
  Proof. intros cls c f m Hc Hf Hm. apply held_by; [intros c0; apply no_key | apply (TC _ _ _ _ Hc Hf Hm)]. Qed.

  (** ** A new object *)
  Lemma default_is n cl w : new_default P (interp P n) cl w = construct P n cl [] w.
  Proof.
    unfold new_default, construct, self_mod. cbn [single_key_args compound_key_args filter]. unfold bind at 1. symmetry. unfold bind at 1.
    destruct (create _ _ _ _ w) as [[o | e] w1]; reflexivity.
  Qed.

  Lemma construct_new n cl kw w o w' : construct P n cl kw w = (Ok o, w') -> o = h_next (w_heap w).
  Proof.
    intros E. unfold construct in E. step E o1 w1 G. step E u w2 G0. step E u1 w3 G1. injection E as <- _. unfold create in G.
    step G d w4 G2. unfold class_named in G2. destruct (p_ct P cl); [injection G2 as <- <- | discriminate G2].
    destruct (cd_abstract _); [discriminate G |]. step G x w5 G3. pose proof (alloc_ok cl w) as Al. destruct (alloc cl w) as [x2 wa].
    injection G3 as <- <-. step G u2 w6 G4. step G u3 w7 G5. injection G as <- _. apply Al.
  Qed.

  Section New.
    Context (n : nat) (IH : types_built n).
    Lemma object_built kd cl d m c oc L w y w' : p_ct P cl = Some d -> unkeyed P d m -> f_inst (c_fdef c) = Some cl -> c_val c = VDict m ->
      c_original c = VNone -> own (c_owner c) oc L -> mg_ok true w -> facts L w -> inst_transform P (interp P n) c w = (Ok y, w') ->
      exists o, y = VObj o /\ (h_next (w_heap w) <= o)%nat /\ isa w' o cl /\
        forall g, In g (cd_fields d) -> described P g -> exists y0 z, default_of P o g y0 /\ stay w' o g z /\
          outcome P (g_fill (c_cfg c)) (built P (g_fill (c_cfg c)) (h_next (w_heap w)) (isa w') (stay w') kd) VNone o g m y0 z.
    Proof.
      intros Ed Uk Ei Cv Co Ow M Fa E. unfold inst_transform in E. rewrite Cv in E. unfold inst_cls in E. rewrite Ei in E.
      step E cl1 w0 G. injection G as <- <-. step E d0 w0 G. unfold class_named in G. rewrite Ed in G. injection G as <- <-. step E os w1 G.
      pose proof (InErrProofs.dest_goes P D "" [] PO n false L c cl d m (InErrProofs.all_goes P D "" [] PO TC LC n) ltac:(rewrite Co; exact Logic.I) ltac:(discriminate) w M Fa) as Gd.
      rewrite G in Gd. destruct Gd as (M1 & S1 & _ & Gd). destruct (Gd os eq_refl) as [Gf _]. clear Gd.
      assert (Fa1 : facts ((fst os, cl) :: L) w1).
      { intros q [<- | Hq]; [apply Gf; left; reflexivity | exact (InErrProofs.alive_stable 0%nat _ _ _ S1 (Fa q Hq))]. }
      clear Gf. unfold find_dest in G. rewrite Co in G.
      assert (Kn : is_none match primary_field d with Some pf => get_or_none (fl_name pf) m | None => VNone end = true).
      { unfold unkeyed in Uk. destruct (primary_field d) as [pf |]; [| reflexivity]. destruct Uk as (_ & [Uk | Uk] & _); unfold get_or_none; rewrite Uk; reflexivity. }
      cbv zeta in G. rewrite Kn in G. clear Kn. step G o wa Gc. step G u wb Gp. injection G as <- <-. cbn [fst] in Fa1. rewrite default_is in Gc.
      assert (Held : forall g, In g (cd_fields d) -> described P g -> o = h_next (w_heap w) /\ w_mg wa = w_mg w /\
        exists y0, default_of P o g y0 /\ prot o (fl_name g) (fun a => a = Some y0) cl false T false wa).
      { intros g Ig Dg. destruct (construct_held P D cl d g [] n w o wa TC LC (ds_name _ _ Dg) (ds_user _ _ Dg _) (NB _) Ed (PN _ _ Ed) Lim Ig (ds_plain _ _ Dg) (L0 cl d) (Forall_nil _) Gc)
          as (E1 & E2 & y0 & E3 & E4). split; [exact E1 | split; [exact E2 |]]. exists y0. split; [exact E3 |].
        apply prot_stale in E4. apply (prot_any _ _ _ _ _ _ T) in E4; [exact E4 | intros c0; apply no_key]. }
      assert (Kp : pk_of P wa o = None \/ cd_fields d = []).
      { destruct (cd_fields d) as [| g0 gs] eqn:Eg; [right; reflexivity | left]. unfold pk_of, id_of.
        assert (Ec : cdef_of (p_ct P) (w_heap wa) o = d).
        { destruct (Fa1 _ (or_introl eq_refl)) as [_ A2]. cbn [fst snd] in A2. unfold cdef_of. unfold mg_put, modW in Gp. injection Gp as _ <-. cbn [set_mg w_heap] in A2. rewrite A2, Ed. reflexivity. }
        rewrite Ec. unfold unkeyed in Uk. destruct (primary_field d) as [pf |] eqn:Ep; [| reflexivity]. destruct Uk as (Dp & _ & Up).
        assert (Ip : In pf (cd_fields d)) by (unfold primary_field in Ep; apply find_some in Ep; apply in_rev, Ep).
        rewrite Eg in Ip. destruct (Held pf Ip Dp) as (_ & _ & y0 & Y1 & [Y2 _]). pose proof (he_attr _ _ _ _ _ _ Y2) as Y3. cbv beta in Y3. rewrite Y3.
        rewrite (Up _ _ Y1). reflexivity. }
      assert (Held1 : forall g, In g (cd_fields d) -> described P g -> exists y0, default_of P o g y0 /\ prot o (fl_name g) (fun a => a = Some y0) cl false T true wb).
      { intros g Ig Dg. destruct (Held g Ig Dg) as (Eo & Em & y0 & Y1 & [Y2 _]). exists y0. split; [exact Y1 |]. destruct Kp as [Kp | Kp]; [| rewrite Kp in Ig; destruct Ig].
        unfold mg_put, modW in Gp. injection Gp as _ <-. split; [exact Y2 |]. intros _ c0 p _. cbn [set_mg w_mg]. fold (pk_of P wa o). rewrite Kp, getp_none, Em.
        intros X. destruct (M eq_refl _ _ _ X) as [X1 _]. cbn [fst] in X1. lia. }
      clear Held Kp. step E od w2 G. injection G as <- <-. step E u1 w2 G.
      assert (Ew : w2 = wb).
      { destruct (is_strict c d); [| injection G as _ <-; reflexivity]. unfold strictness_check in G. destruct (find _ _); [discriminate G | injection G as _ <-; reflexivity]. }
      subst w2. clear G.
      assert (Ec : wcdef P wb o = d). { destruct (Fa1 _ (or_introl eq_refl)) as [_ A2]. cbn [fst snd] in A2. unfold wcdef, cdef_of. rewrite A2, Ed. reflexivity. }
      rewrite Ec in E. change (fill_rest n o d c m wb = (Ok y, w')) in E.
      assert (HI : holds_input false m c oc cl d ((o, cl) :: L)).
      { split; [| split; [rewrite Co; exact Logic.I | discriminate]]. destruct (c_owner c); try exact Logic.I. right. exact Ow. }
      assert (Ey : y = VObj o). { unfold fill_rest in E. step E refs w3 G. step E u2 w4 G2. injection E as <- _. reflexivity. }
      exists o. split; [exact Ey |].
      destruct (rest_carry n o cl d Ed c m oc ((o, cl) :: L) HI (or_introl eq_refl) (or_introl Co) wb _ w' M1 Fa1 E) as [M2 C2].
      split; [| split; [apply (InErrProofs.alive_stable 0%nat _ _ _ (proj1 C2)), (Fa1 _ (or_introl eq_refl)) |]].
      - apply construct_new in Gc. rewrite Gc. apply le_n.
      - intros g Ig Dg. destruct (Held1 g Ig Dg) as (y0 & Y1 & Y2). exists y0.
        destruct (rest_field n IH o cl d [] g Ed Ig Dg (L0 cl d) c m oc ((o, cl) :: L) HI (or_introl eq_refl) (or_introl Co) kd y0 wb y w' M1 Fa1 E) as (_ & z & Z1 & Z2).
        + apply (prot_any _ _ _ _ _ T); [auto | exact Y2].
        + exists z. split; [exact Y1 | split].
          * exists cl, d. split; [exact Ed | split; [exact Ig |]]. apply (prot_any _ _ _ _ _ _ T) in Z1; [exact Z1 | intros c0; apply no_key].
          * rewrite Co in Z2. revert Z2. apply outcome_mono. apply built_carries; [apply (stable_next _ _ S1) | apply carries_refl].
    Qed.

    (** ** Lists and dicts *)
    Section Items.
      Context (dict : bool) (it : types) (c : ctx) (oc : string) (L : list (oid * string)) (col : value) (d : nat) (kd : nat).
      Hypothesis Gi : goods T d it.
      Hypothesis Ow : own (c_owner c) oc L.
      Hypothesis Ei : item_types (c_fdef c) = Some it.
      Hypothesis Sp : forall v, special dict c v = false.
      Notation fill := (g_fill (c_cfg c)).
      Notation step_of := (fun acc (kv : karg * value) =>
        if special dict c (snd kv) then special_handle P c (snd kv) >> ret acc
        else do* ts <- items_of c; col_item P (t_transform (interp P n)) c col ts acc kv).
      Lemma item_one acc k u w a w' : mg_ok true w -> facts L w -> step_of acc (k, u) w = (Ok a, w') ->
        exists x, a = append_value k x acc /\ built P fill (h_next (w_heap w)) (isa w') (stay w') kd it u x /\ mg_ok true w' /\ carries (fun _ => True) w w'.
      Proof.
        intros M Fa E. cbn [snd] in E. rewrite Sp in E. step E ts w0 G. unfold items_of in G. rewrite Ei in G. injection G as <- <-.
        unfold col_item in E. cbn [fst snd] in E. step E x w1 G. step E d1 w2 G0. injection E as <- <-.
        assert (w2 = w1) by (unfold cdef_v, the_obj in G0; destruct (c_owner c); cbn in G0; try discriminate G0; injection G0 as _ <-; reflexivity). subst w2.
        set (cc := colval c u k (fdef_of it) col) in *.
        assert (F : fits false d it cc oc L) by (split; [split; [exact Gi | split; [reflexivity | exact Ow]] | split; [discriminate | reflexivity]]).
        exists x. split; [reflexivity | split; [exact (IH kd d it cc oc L w x w1 F M Fa G) |]]. apply (types_carry n d it cc oc L w _ w1 F M Fa G).
      Qed.
      Lemma list_built : dict = false -> forall l i acc w y w', mg_ok true w -> facts L w -> fold_st step_of (enum_list i l) (VList acc) w = (Ok y, w') ->
        carries (fun _ => True) w w' /\ exists l', y = VList (acc ++ l') /\ Forall2 (built P fill (h_next (w_heap w)) (isa w') (stay w') kd it) l l'.
      Proof.
        intros Ed. induction l as [| u l IHl]; intros i acc w y w' M Fa E.
        - injection E as <- <-. split; [apply carries_refl |]. exists []. rewrite app_nil_r. auto.
        - cbn [enum_list fold_st] in E. step E a w1 G. destruct (item_one _ _ _ _ _ _ M Fa G) as (x & -> & B & M1 & C1). cbn [append_value] in E.
          destruct (IHl _ _ _ _ _ M1 (InErrProofs.facts_stable 0%nat _ _ _ (proj1 C1) Fa) E) as (C2 & l' & -> & F).
          split; [exact (carries_trans _ _ _ _ C1 C2) |]. exists (x :: l'). rewrite <- app_assoc. split; [reflexivity |]. constructor.
          + apply (built_carries fill (h_next (w_heap w)) _ w1 w' (le_n _)); [apply (carries_less (fun _ => True)); auto | exact B].
          + revert F. apply F2_impl. intros v z. apply built_carries; [apply (stable_next _ _ (proj1 C1)) | apply carries_refl].
      Qed.
      Lemma dict_built : forall m acc w y w', NoDup (map fst acc ++ map fst m) -> mg_ok true w -> facts L w -> fold_st step_of (enum_dict m) (VDict acc) w = (Ok y, w') ->
        carries (fun _ => True) w w' /\ exists m', y = VDict (acc ++ m') /\
          Forall2 (fun a b => fst a = fst b /\ built P fill (h_next (w_heap w)) (isa w') (stay w') kd it (snd a) (snd b)) m m'.
      Proof.
        induction m as [| [k u] m IHm]; intros acc w y w' Nd M Fa E.
        - injection E as <- <-. split; [apply carries_refl |]. exists []. rewrite app_nil_r. auto.
        - change (enum_dict ((k, u) :: m)) with ((KStr k, u) :: enum_dict m) in E. cbn [fold_st] in E. step E a w1 G.
          destruct (item_one _ _ _ _ _ _ M Fa G) as (x & -> & B & M1 & C1). cbn [append_value] in E.
          cbn [map fst] in Nd. pose proof (NoDup_remove_2 _ _ _ Nd) as Nk.
          rewrite sset_end in E by (intros X; apply Nk, in_or_app; left; exact X).
          destruct (IHm (acc ++ [(k, x)]) w1 y w') as (C2 & m' & -> & F); [| exact M1 | exact (InErrProofs.facts_stable 0%nat _ _ _ (proj1 C1) Fa) | exact E |].
          { rewrite map_app, <- app_assoc. exact Nd. }
          split; [exact (carries_trans _ _ _ _ C1 C2) |]. exists ((k, x) :: m'). rewrite <- app_assoc. split; [reflexivity |]. constructor.
          + split; [reflexivity |]. apply (built_carries fill (h_next (w_heap w)) _ w1 w' (le_n _)); [apply (carries_less (fun _ => True)); auto | exact B].
          + revert F. apply F2_impl. intros v z [F1 F2]. split; [exact F1 |]. revert F2. apply built_carries; [apply (stable_next _ _ (proj1 C1)) | apply carries_refl].
      Qed.
    End Items.

    (** ** A chain around one type *)
    Lemma around before m after c w y w' : Forall beside before -> Forall beside after -> unmarked [m] -> c_val c <> VNone ->
      t_transform (interp P (S n)) (before ++ m :: after) c w = (Ok y, w') ->
      exists y1 w1, m_transform (interp P (S n) m) (nval c (c_val c)) w = (Ok y1, w1) /\ (y1 <> VNone -> y = y1 /\ w' = w1).
    Proof.
      intros B1 B2 U N E. rewrite unmarked_transform in E by (apply (chain_unmarked (c_val c)); [apply beside_alone | apply beside_alone |]; assumption).
      unfold bind at 1 in E. cbn [ret] in E. rewrite map_app, fold_st_app in E.
      rewrite (bind_eq _ _ w (c_val c) w) in E by (apply alone_fold, beside_alone; assumption). cbn [map fold_st] in E. step E y1 w1 G.
      exists y1, w1. split; [exact G |]. intros N1. rewrite alone_fold in E by (apply beside_alone; assumption). injection E as <- <-. auto.
    Qed.
    Lemma types_next : types_built (S n).
    Proof.
      intros [| k] d ts c oc L w y w' F M Fa E; [exact Logic.I |]. pose proof F as ((Gd & Ef & Ow) & _ & Co). cbn [built]. split; [| split].
      - intros cl d0 m (before & after & -> & B1 & B2) Hv Ed Uk.
        destruct (around before (MInstance cl) after c w y w' B1 B2 ltac:(split; intros [X | []]; discriminate X) ltac:(rewrite Hv; discriminate) E) as (y1 & w1 & G & R).
        cbn [interp modif_of m_transform transform_of] in G.
        destruct (object_built k cl d0 m (nval c (c_val c)) oc L w y1 w1 Ed Uk) as (o & -> & Q); try assumption.
        + cbn [nval c_fdef]. rewrite Ef. apply inst_of, B2.
        + destruct (R ltac:(discriminate)) as [-> ->]. exists o. split; [reflexivity | exact Q].
      - intros it l (before & raw & after & Et & B1 & B2 & Rf & Ei) Hv. subst ts.
        destruct (around before (MListOf raw) after c w y w' B1 B2 ltac:(split; intros [X | []]; discriminate X) ltac:(rewrite Hv; discriminate) E) as (y1 & w1 & G & R).
        cbn [interp modif_of m_transform transform_of] in G. unfold col_transform in G. change (c_val (nval c (c_val c))) with (c_val c) in G. rewrite Hv in G. cbn [col_items] in G.
        assert (X : exists d', goods T d' it).
        { destruct d as [| d']; [contradiction (proj1 (proj2 Gd (MListOf raw) ltac:(apply in_or_app; right; left; reflexivity))) |].
          destruct (items_good T d' c it (goods_ctx _ _ _ c Ef Gd) ltac:(rewrite Ef; exact Ei)) as [H | H]; eauto. }
        destruct X as (d' & Gi).
        destruct (list_built false it (nval c (VList l)) oc L (VList l) d' k Gi Ow) with (6 := G) as (_ & l' & -> & Fl).
        + cbn [nval c_fdef]. rewrite Ef. exact Ei.
        + intros v. unfold special. cbn [nval c_fdef negb andb]. rewrite Ef. unfold is_ref in Rf. destruct (f_fstore _); try discriminate Rf; reflexivity.
        + reflexivity.
        + exact M.
        + exact Fa.
        + destruct (R ltac:(discriminate)) as [-> ->]. exists l'. split; [reflexivity | exact Fl].
      - intros it m (before & raw & after & Et & B1 & B2 & Ei) Hv Nd. subst ts.
        destruct (around before (MDictOf raw) after c w y w' B1 B2 ltac:(split; intros [X | []]; discriminate X) ltac:(rewrite Hv; discriminate) E) as (y1 & w1 & G & R).
        cbn [interp modif_of m_transform transform_of] in G. unfold col_transform in G. change (c_val (nval c (c_val c))) with (c_val c) in G. rewrite Hv in G. cbn [col_items] in G.
        assert (X : exists d', goods T d' it).
        { destruct d as [| d']; [contradiction (proj1 (proj2 Gd (MDictOf raw) ltac:(apply in_or_app; right; left; reflexivity))) |].
          destruct (items_good T d' c it (goods_ctx _ _ _ c Ef Gd) ltac:(rewrite Ef; exact Ei)) as [H | H]; eauto. }
        destruct X as (d' & Gi).
        destruct (dict_built true it (nval c (VDict m)) oc L (VDict m) d' k Gi Ow) with (6 := G) as (_ & l' & -> & Fl).
        + cbn [nval c_fdef]. rewrite Ef. exact Ei.
        + intros v. reflexivity.
        + exact Nd.
        + exact M.
        + exact Fa.
        + destruct (R ltac:(discriminate)) as [-> ->]. exists l'. split; [reflexivity | exact Fl].
    Qed.
  End New.

  Theorem all_built n : types_built n.
  Proof.
    induction n as [| n IH]; [| exact (types_next n IH)].
    intros [| k] d ts c oc L w y w' F M Fa E; [exact Logic.I |].
    assert (N : forall before m after, ts = before ++ m :: after -> Forall beside before -> Forall beside after -> unmarked [m] -> False).
    { clear - E. intros before m after -> B1 B2 U.
      rewrite unmarked_transform in E by (apply (chain_unmarked (VBool true)); [apply beside_alone; [discriminate |] | apply beside_alone; [discriminate |] |]; assumption).
      unfold bind at 1 in E. cbn [ret] in E. destruct before; cbn [app map fold_st] in E; unfold bind, throw in E; discriminate E. }
    split; [| split].
    - intros cl d0 m (before & after & Et & B1 & B2). contradiction (N _ _ _ Et B1 B2). split; intros [X | []]; discriminate X.
    - intros it l (before & raw & after & Et & B1 & B2 & _). contradiction (N _ _ _ Et B1 B2). split; intros [X | []]; discriminate X.
    - intros it l (before & raw & after & Et & B1 & B2 & _). contradiction (N _ _ _ Et B1 B2). split; intros [X | []]; discriminate X.
  Qed.

  (** ** The object that the input is for *)
  Lemma root_built kd cls d f kw x n c w r w' cur : p_ct P cls = Some d -> In f (cd_fields d) -> described P f ->
    only_holds (fun c => key_given d kw -> c <> cls) D P ->
    c_val c = VDict kw -> c_original c = VObj x -> f_inst (c_fdef c) = Some cls -> own (c_owner c) cls [(x, cls)] ->
    mg_ok true w -> alive (x, cls) w ->
    m_transform (interp P n (MInstance cls)) c w = (Ok r, w') ->
    prot x (fl_name f) (fun a => a = Some cur) cls false (fun c => key_given d kw -> c <> cls) true w ->
    stable w w' /\ exists z, prot x (fl_name f) (fun a => a = Some z) cls false (fun c => key_given d kw -> c <> cls) true w' /\
      outcome P (g_fill (c_cfg c)) (built P (g_fill (c_cfg c)) (h_next (w_heap w)) (isa w') (stay w') kd) (VObj x) x f kw cur z.
  Proof.
    intros Ed Hf Df LR Cv Co Ci Ow M Al E H. destruct n as [| n]; [discriminate E |]. cbn [interp modif_of m_transform transform_of] in E.
    unfold inst_transform in E. rewrite Cv in E. unfold inst_cls in E. rewrite Ci in E.
    step E cl1 w0 G. injection G as <- <-. step E d0 w0 G. unfold class_named in G. rewrite Ed in G. injection G as <- <-. step E os w1 G.
    assert (Fa : facts [(x, cls)] w) by (intros q [<- | []]; exact Al).
    pose proof (InErrProofs.dest_goes P D "" [] PO n false [(x, cls)] c cls d kw (InErrProofs.all_goes P D "" [] PO TC LC n) ltac:(rewrite Co; left; reflexivity) ltac:(discriminate) w M Fa) as Gd.
    rewrite G in Gd. destruct Gd as (M1 & S1 & _ & _). cbn [snd] in M1, S1.
    assert (X : os = (x, false) /\ prot x (fl_name f) (fun a => a = Some cur) cls false (fun c => key_given d kw -> c <> cls) true w1).
    { unfold find_dest in G. cbv zeta in G. rewrite Co in G. cbn [the_obj] in G. step G o1 w2 G0. injection G0 as <- <-. step G u w2 G0. injection G as <- <-.
      split; [reflexivity |].
      match type of G0 with (if is_none ?e then _ else _) _ = _ => destruct (is_none e) eqn:En; [injection G0 as _ <-; exact H |]; pose proof (mark_self1 P cls d f kw x cur e w) as K end.
      rewrite G0 in K. cbn [snd] in K. apply K; [| exact H]. intros Rc. apply Rc; [| reflexivity].
      unfold key_given. destruct (primary_field d) as [pf |]; [| discriminate En]. unfold get_or_none in En. exists pf.
      destruct (sget (fl_name pf) kw) as [v |]; [| discriminate En]. exists v. split; [reflexivity | split; [reflexivity | intros ->; discriminate En]]. }
    destruct X as [-> H1]. step E od w2 G0. injection G0 as <- <-. step E u w2 G0.
    assert (Ew : w2 = w1).
    { destruct (is_strict c d); [| injection G0 as _ <-; reflexivity]. unfold strictness_check in G0. destruct (find _ _); [discriminate G0 | injection G0 as _ <-; reflexivity]. }
    subst w2. clear G0. unfold wcdef, cdef_of in E. rewrite (he_class _ _ _ _ _ _ (proj1 H1)), Ed in E. change (fill_rest n x d c kw w1 = (Ok r, w')) in E.
    assert (HI : holds_input false kw c cls cls d [(x, cls)]) by (split; [exact Ow | split; [rewrite Co; left; reflexivity | discriminate]]).
    pose proof (InErrProofs.facts_stable 0%nat _ _ _ S1 Fa) as Fa1.
    destruct (rest_carry n x cls d Ed c kw cls [(x, cls)] HI (or_introl eq_refl) (or_intror Co) w1 _ w' M1 Fa1 E) as [_ C2].
    split; [exact (InErrProofs.same_trans _ _ _ S1 (proj1 C2)) |].
    destruct (rest_field n (all_built n) x cls d kw f Ed Hf Df LR c kw cls [(x, cls)] HI (or_introl eq_refl) (or_intror Co) kd cur w1 r w' M1 Fa1 E H1) as (_ & z & Z1 & Z2).
    exists z. split; [exact Z1 |]. rewrite Co in Z2. revert Z2. apply outcome_mono. apply built_carries; [apply (stable_next _ _ S1) | apply carries_refl].
  Qed.
  (** what is left is what the heap holds *)
  Lemma to_heap fill N k w h : (forall o, h_obj h o = h_obj (w_heap w) o) -> h_next h = h_next (w_heap w) ->
    forall ts v y, built P fill N (isa w) (stay w) k ts v y -> nested P h fill N k ts v y.
  Proof.
    intros E1 E2. apply built_mono; [apply le_n | |].
    - intros o cl _ [A1 A2]. split; [rewrite E2; exact A1 | rewrite E1; exact A2].
    - intros o g z _ _ (cl & d & _ & _ & [Hh _]). unfold has_in, attr. rewrite E1. exact (he_attr _ _ _ _ _ _ Hh).
  Qed.

  Lemma jset_nested cls d f kw x cur n w w' : p_ct P cls = Some d -> In f (cd_fields d) -> described P f ->
    holds_data P (w_heap w) x f -> o_class (h_obj (w_heap w) x) = cls ->
    only_holds (fun c => key_given d kw -> c <> cls) D P -> Forall (fun kv => KeypathSpec.plain (fst kv)) kw ->
    attr (w_heap w) x (fl_name f) = Some cur -> jset P n x kw w = (Ok tt, w') ->
    exists z, attr (w_heap w') x (fl_name f) = Some z /\
      forall k, outcome P false (nested P (w_heap w') false (h_next (w_heap w)) k) (VObj x) x f kw cur z.
  Proof.
    intros Ed Hf Df HD Ec LR Pl Ha E.
    assert (Es : single_key_args kw = kw /\ compound_key_args kw = []).
    { clear - Pl. unfold single_key_args, compound_key_args. induction Pl as [| kv l K _ [I1 I2]]; [auto |].
      apply plain_no_sep, has_sep_spec in K. cbn [filter]. rewrite K. cbn [negb]. rewrite I1, I2. auto. }
    destruct Es as [Es1 Es2]. unfold jset in E. rewrite Es1, Es2 in E. step E u w1 G. injection E as <-.
    unfold set_fields in G. step G cl0 w2 G2. injection G2 as <- <-. unfold set_with in G. step G cl1 w2 G2. injection G2 as <- <-. step G op w2 G2. injection G2 as <- <-.
    step G r w2 G2. injection G as _ <-.
    unfold with_new_mgraph in G2. match type of G2 with (let '(_, _) := ?e in _) = _ => destruct e as [r3 w3] eqn:Et end. injection G2 as -> <-.
    unfold wclass, wobj in Et. rewrite Ec in Et.
    assert (H0 : prot x (fl_name f) (fun a => a = Some cur) cls false (fun c => key_given d kw -> c <> cls) true (set_mg [] w)).
    { destruct HD. split; [constructor; trivial; discriminate | intros _ c p _; discriminate]. }
    assert (R0 : forall kd, stable (set_mg [] w) w3 /\ exists z, prot x (fl_name f) (fun a => a = Some z) cls false (fun c => key_given d kw -> c <> cls) true w3 /\
      outcome P false (built P false (h_next (w_heap w)) (isa w3) (stay w3) kd) (VObj x) x f kw cur z).
    { intros kd. refine (root_built kd cls d f kw x n _ (set_mg [] w) r w3 cur Ed Hf Df LR _ _ _ _ _ _ Et H0); try reflexivity.
      - left. reflexivity.
      - intros _ c p o X. discriminate X.
      - split; [apply (he_next _ _ _ _ _ _ (proj1 H0)) | exact Ec]. }
    destruct (R0 0%nat) as (_ & z & [Z1 _] & _). pose proof (he_attr _ _ _ _ _ _ Z1) as Ez. cbv beta in Ez. exists z. split; [exact Ez |].
    intros k. destruct (R0 k) as (_ & z' & [Z1' _] & Z2). pose proof (he_attr _ _ _ _ _ _ Z1') as Ez'. cbv beta in Ez'.
    assert (z' = z) as -> by congruence. revert Z2. apply outcome_mono. apply to_heap; reflexivity.
  Qed.

  Lemma construct_nested cls d f kw x n w w' : p_ct P cls = Some d -> In f (cd_fields d) -> described P f ->
    only_holds (fun c => key_given d kw -> c <> cls) D P -> Forall (fun kv => KeypathSpec.plain (fst kv)) kw ->
    construct P n cls kw w = (Ok x, w') ->
    exists z, attr (w_heap w') x (fl_name f) = Some z /\
      forall k, outcome P true (nested P (w_heap w') true (h_next (w_heap w)) k) (VObj x) x f kw VNone z.
  Proof.
    intros Ed Hf Df LR Pl E. pose proof (ds_plain _ _ Df) as Fp. pose proof (PN _ _ Ed) as Pn. unfold construct in E.
    assert (Es : single_key_args kw = kw /\ compound_key_args kw = []).
    { clear - Pl. unfold single_key_args, compound_key_args. induction Pl as [| kv l K _ [I1 I2]]; [auto |].
      apply plain_no_sep, has_sep_spec in K. cbn [filter]. rewrite K. cbn [negb]. rewrite I1, I2. auto. }
    destruct Es as [Es1 Es2]. rewrite Es1, Es2 in E. step E o w1 G. cbn [keypath_set for_st] in E. step E u w2 G0. injection G0 as _ <-. step E u1 w3 G1. injection E as <- <-.
    unfold create in G. step G d1 w4 G2. unfold class_named in G2. rewrite Ed in G2. injection G2 as <- <-.
    destruct (cd_abstract d); [discriminate G |]. step G x1 w4 G2. pose proof (alloc_ok cls w) as Al. destruct (alloc cls w) as [x2 wa].
    injection G2 as <- <-. destruct Al as (Ex & A1 & A2 & A3 & A4 & A5 & A6 & A7). subst x2. set (x := h_next (w_heap w)) in *.
    destruct (init_fields_ok P cls d x Lim Ed Pn (cd_fields d) [] wa eq_refl) as (h1 & I1 & I2 & I3).
    { unfold wobj. rewrite A1. apply fresh_blank. }
    rewrite (bind_eq _ _ _ _ _ I1) in G. step G u2 w5 G2. injection G as <- <-. destruct (pieces f Fp) as [Pr Pc].
    assert (H0 : prot x (fl_name f) (fun a => a = Some VNone) cls false (fun c => key_given d kw -> c <> cls) true (set_mg [] (set_heap h1 wa))).
    { split; [| intros _ c p _; discriminate]. cbn [set_mg set_heap w_heap]. destruct Pn as [Nd Rf]. constructor.
      - unfold attr. apply (bl_fields _ _ _ I3 f Hf Pc).
      - apply (bl_class _ _ _ I3).
      - intros lab X. destruct (bl_lkeys _ _ _ I3 _ _ X) as (g & Hg & Lg & _ & Eg).
        pose proof (field_named_in d f Nd Hf) as F1. pose proof (field_named_in d g Nd Hg) as F2. rewrite <- Eg in F2.
        assert (f = g) by congruence. subst g. rewrite (local_is_ref f Lg) in Pr. discriminate Pr.
      - destruct (sget (fl_name f) (o_lkeys (h_obj h1 x))) as [l |] eqn:X; [| reflexivity].
        destruct (bl_lkeys _ _ _ I3 _ _ X) as (g & Hg & Lg & Eg & _). exfalso. apply (Rf g f Hg Hf Lg). symmetry. exact Eg.
      - destruct I2 as (_ & N & _). rewrite N, A3. lia.
      - discriminate. }
    unfold set_with in G2. step G2 cl w6 G3. injection G3 as <- <-. step G2 op w6 G3. injection G3 as <- <-. step G2 r w6 G3. injection G2 as _ <-.
    unfold with_new_mgraph in G3. match type of G3 with (let '(_, _) := ?e in _) = _ => destruct e as [r1 w7] eqn:Et end. injection G3 as -> <-.
    unfold wclass, wobj in Et. cbn [w_heap set_heap] in Et. rewrite (bl_class _ _ _ I3) in Et.
    set (ws := set_mg [] (set_heap h1 wa)) in *.
    assert (Hn : h_next (w_heap ws) = S x) by (destruct I2 as (_ & N & _); cbn [ws set_mg set_heap w_heap]; rewrite N; exact A3).
    assert (R0 : forall kd, stable ws w7 /\ exists z, prot x (fl_name f) (fun a => a = Some z) cls false (fun c => key_given d kw -> c <> cls) true w7 /\
      outcome P true (built P true (h_next (w_heap ws)) (isa w7) (stay w7) kd) (VObj x) x f kw VNone z).
    { intros kd. refine (root_built kd cls d f kw x n _ ws r w7 VNone Ed Hf Df LR _ _ _ _ _ _ Et H0); try reflexivity.
      - left. reflexivity.
      - intros _ c p o X. discriminate X.
      - split; [cbn [fst]; rewrite Hn; lia | apply (he_class _ _ _ _ _ _ (proj1 H0))]. }
    assert (Hh : (forall o, h_obj (w_heap w3) o = h_obj (w_heap w7) o) /\ h_next (w_heap w3) = h_next (w_heap w7)).
    { unfold graph_put, modW in G1. injection G1 as _ <-. cbv zeta. match goal with |- context [g_put ?a ?b ?c ?d] => destruct (g_put a b c d) end; split; reflexivity. }
    destruct Hh as [Hh1 Hh2].
    destruct (R0 0%nat) as (_ & z & [Z1 _] & _). pose proof (he_attr _ _ _ _ _ _ Z1) as Ez. cbv beta in Ez. exists z.
    split; [unfold attr in *; rewrite Hh1; exact Ez |].
    intros k. destruct (R0 k) as (_ & z' & [Z1' _] & Z2). pose proof (he_attr _ _ _ _ _ _ Z1') as Ez'. cbv beta in Ez'.
    assert (z' = z) as -> by congruence. revert Z2. apply outcome_mono. intros ts v y B. apply (to_heap true x k w7 (w_heap w3) Hh1 Hh2).
    revert B. apply built_carries; [rewrite Hn; lia | apply carries_refl].
  Qed.
End Nest.
