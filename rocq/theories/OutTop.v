(** OutTop.v -- lemmas for C41, C42 and C43: calls of tojson. *)
From Verif Require Import Base Mon PyList PyDict StrDict KeypathModel Values OGraphModel MGraphModel ChainModel
  TypesModel TypesSpec TypesProofs ObjModel IoModel IoBase Sound ObjSound LeafSound TameSpec Keep TameProofs GraphSpec GraphProofs OutSpec OutProofs OutRun.
From Verif Require LeafModel.
Open Scope list_scope.

Section Manner.
Context {spk : manner}.
Section Top.
  Context (P : program) (h : heap) (x : oid -> ext) (D : nat).
  Hypothesis C : calm P.
  Hypothesis getter_ok : forall h o n, louder (p_getter P h o n).
  Hypothesis arith_ok : forall op a b, louder (p_arith P op a b).
  Hypothesis call_ok : forall f c args h, louder (fst (p_call P f c args h)).

  Lemma k_new_mgraph {A} (m : st world A) : keeps (same h x) m -> keeps (same h x) (with_new_mgraph m).
  Proof.
    intros H w Hw. unfold with_new_mgraph. destruct (H (set_mg [] w) Hw) as [H1 H2]. destruct (m (set_mg [] w)) as [r w']. split; assumption.
  Qed.
  Lemma k_guard n o a : flat_guards D P a -> enough D n -> keeps (same h x) (guard P n o a).
  Proof.
    intros G E. unfold guard. apply k_bind; [apply k_getW | intros cls]. specialize (G cls).
    destruct (p_guards P cls a) as [| p0 ps0] eqn:Eg; [apply k_ret |]. rewrite <- Eg in *. apply k_bind; [apply k_getW | intros op].
    destruct (is_none op); [apply k_throw; loudly |]. apply k_for. intros p Hp. unfold guard_one. destruct p.
    - apply k_throw; loudly.
    - apply k_bind; [apply k_getW | intros op']. apply k_bind; [apply k_getW | intros c].
      apply k_bind; [apply (same_call P h x C call_ok) | intros r].
      destruct (is_none r || is_true r); [apply k_ret | destruct r; apply k_throw; loudly].
    - apply k_bind; [apply k_getW | intros c]. apply k_new_mgraph.
      assert (F : forall m c', flat D m -> keeps (same h x) (m_validate (interp P n m) c') /\ keeps (same h x) (m_transform (interp P n m) c')).
      { intros m c' Hm. destruct (flat_ok P (same h x) (fun _ => True) ltac:(intros; apply (same_call P h x C call_ok)) getter_ok arith_ok n D m c')
          as (A1 & A2 & A3); [split; [exact Hm | trivial] | exact E | split; assumption]. }
      apply k_checked with (F := flat D); [intros m c' Hm; apply F, Hm | intros m c' Hm; apply F, Hm | | apply k_ret | apply k_throw; loudly].
      intros y Hy. apply (G ts y Hp Hy).
  Qed.
End Top.
End Manner.

(** What a call of tojson is, once the guard has let it pass *)
Definition top_cfg (iw rev : bool) (on : option bool) : ctxcfg :=
  {| g_all := None; g_ignore_writeonly := iw; g_reverse := rev; g_fill := false; g_output_null := on |}.
Definition top_ctx (h : heap) (o : oid) (iw rev : bool) (on : option bool) : ctx :=
  rootctx (fdef_of [MInstance (o_class (h_obj h o))]) (o_operator (h_obj h o)) o (top_cfg iw rev on) VNone.
Lemma tojson_eq P n o iw rev on w : tojson P n o iw rev on w =
  match guard P n o ARead w with
  | (Ok _, w1) =>
      let '(r, w2) := m_tojson (interp P n (MInstance (o_class (h_obj (w_heap w1) o)))) (top_ctx (w_heap w1) o iw rev on) (set_mg [] w1) in
      (r, set_mg (w_mg w1) w2)
  | (Err e, w1) => (Err e, w1)
  end.
Proof. unfold tojson, seq, bind. destruct (guard P n o ARead w) as [[u | e] w1]; reflexivity. Qed.

(** ** Termination *)
Section Ends.
  Context (P : program) (D : nat) (w : world) (U : list string) (M : nat) (rk : oid -> nat).
  Hypothesis C : calm P.
  Hypothesis E : ending P.
  Hypothesis TC : tame_classes D P.
  Hypothesis GC : flat_guards D P ARead.
  Hypothesis FG : finite_graph P (w_heap w).
  Hypothesis OC : orderly_classes P.
  Hypothesis UC : classes_named P U.
  Hypothesis EC : embedding P (w_heap w) rk M.
  Instance ends : manner := Ending.

  Definition out_fuel : nat := (vdepth (w_heap w) D D + (S (length U) * S M) * S (S D) + 2 + D)%nat.
  Lemma ends_tojson n o iw rev on : (out_fuel <= n)%nat -> fst (tojson P n o iw rev on w) <> Err ERecursion.
  Proof.
    intros L. rewrite tojson_eq.
    assert (gk : forall h o n, louder (p_getter P h o n)).
    { intros h0 o0 n0 e He. apply loud_ends. intros ->. exact (ending_getter P E _ _ _ He). }
    assert (ak : forall op a b, louder (p_arith P op a b)).
    { intros op a b e He. apply loud_ends. intros ->. exact (ending_arith P E _ _ _ He). }
    assert (ck : forall f c args h, louder (fst (p_call P f c args h))).
    { intros f c args h e He. apply loud_ends. intros ->. exact (ending_call P E f c args h He). }
    destruct (k_guard P (w_heap w) (w_ext w) D C gk ak ck n o ARead GC) with (s := w) as [[G1 G2] G3];
      [right; unfold out_fuel in L; lia | split; reflexivity |].
    destruct (guard P n o ARead w) as [[u | e] w1]; cbn [fst snd] in *.
    - pose proof (out_ok P (w_heap w) (w_ext w) D C TC gk ak ck (fun _ => FG) (fun _ => True) iw (fun _ => True)
        ltac:(intros; exact Logic.I) ltac:(intros; exact Logic.I) ltac:(intros; exact Logic.I) ltac:(intros; exact Logic.I) ltac:(intros; exact Logic.I) ltac:(intros; exact Logic.I) ltac:(intros; exact Logic.I) ltac:(intros; exact Logic.I) ltac:(intros; exact Logic.I) ltac:(intros; exact Logic.I) ltac:(intros; exact Logic.I)
        U M rk (fun _ => conj OC (conj UC EC)) n 1 [MInstance (o_class (h_obj (w_heap w1) o))]
        (top_ctx (w_heap w1) o iw rev on) (S (length U) * S M)) as K.
      assert (Y : yields (same (w_heap w) (w_ext w)) (fun _ => True)
        (t_tojson (interp P n) [MInstance (o_class (h_obj (w_heap w1) o))] (top_ctx (w_heap w1) o iw rev on))).
      { apply K; auto.
        - intros y [<- | []]. left. exact Logic.I.
        - lia.
        - right. split; [| split].
          + constructor; [cbn; split; [intros y [] | exact Logic.I] |]. intros m us [<- | []] [].
          + intros y Hy. cbn in Hy. inversion Hy; subst. unfold mu. pose proof (proj1 EC o).
            assert (left_of U [] <= length U)%nat.
            { unfold left_of. clear. induction U as [| k l IH]; cbn [filter length]; [lia |]. destruct (negb _); cbn [length]; lia. }
            cbn [c_idchain top_ctx rootctx]. pose proof (Nat.mul_le_mono_r _ _ (S M) H0). cbn [Nat.mul] in *. lia.
          + unfold out_fuel in L. lia. }
      destruct (Y (set_mg [] w1)) as [[_ Y2] _]; [split; assumption |].
      unfold t_tojson, chain_tojson in Y2. cbn [map fold_st] in Y2. unfold bind, ret in Y2. cbn [c_val nval] in Y2.
      change (nval (top_ctx (w_heap w1) o iw rev on) (c_val (top_ctx (w_heap w1) o iw rev on))) with (top_ctx (w_heap w1) o iw rev on) in Y2.
      destruct (m_tojson _ _ (set_mg [] w1)) as [[v | e] w2]; cbn [fst snd] in *; [discriminate |].
      intros X. inversion X; subst e. destruct (Y2 ERecursion eq_refl) as [_ Z]. apply Z; reflexivity.
    - intros X. inversion X; subst e. destruct (G3 ERecursion eq_refl) as [_ Z]. apply Z; reflexivity.
  Qed.
End Ends.

Lemma keep_reads P w v o n : reads P (w_heap w) o n v -> value_at P (w_heap w) o n = v.
Proof. unfold reads, value_at. intros ->. reflexivity. Qed.

Lemma F2_len {A B} (R : A -> B -> Prop) l l' : Forall2 R l l' -> length l = length l'.
Proof. induction 1; cbn; congruence. Qed.

(** ** The entries of the result *)
Section Entries.
  Context (P : program) (h : heap) (x : oid -> ext) (D : nat).
  Hypothesis C : calm P.
  Hypothesis TC : tame_classes D P.
  Instance hush : manner := Silent.
  Lemma silent e : loud e.
  Proof. split; intros X; discriminate X. Qed.
  Lemma silents {A} (r : res A) : louder r.
  Proof. intros e _. apply silent. Qed.
  Notation yields := (yields (same h x)).

  (** Running the types of a field changes nothing. *)
  Lemma k_types n ts c : (forall y, In y ts -> tame D y) -> c_fdef c = fdef_of ts -> keeps (same h x) (t_tojson (interp P n) ts c).
  Proof.
    intros T Ec. apply (y_back (same h x) (fun _ => True)).
    apply (out_ok P h x D C TC) with (ig := g_ignore_writeonly (c_cfg c)) (W := fun _ => True) (U := []) (M := 0%nat) (rk := fun _ => 0%nat)
      (d := D) (q := 0%nat); try (intros; exact Logic.I); try (intros; apply silents); try (intros X; discriminate X); auto.
    - intros y Hy. left. apply T, Hy.
    - left. discriminate.
  Qed.

  Lemma sset_new {V} k (v : V) acc : ~ In k (map fst acc) -> sset k v acc = acc ++ [(k, v)].
  Proof.
    unfold sset. induction acc as [| [k0 v0] acc IH]; cbn [dset map fst app]; intros H; [reflexivity |].
    destruct (String.eqb k k0) eqn:E; [apply String.eqb_eq in E; contradiction H; left; auto |].
    rewrite IH; [reflexivity | intros X; apply H; right; exact X].
  Qed.
  Lemma sset_entry (out_null : bool) k (v : value) acc : ~ In k (map fst acc) ->
    (if out_null || negb (is_none v) then sset k v acc else acc) = acc ++ entry out_null k v.
  Proof.
    intros H. unfold entry. destruct (out_null || negb (is_none v)); [apply sset_new, H | symmetry; apply app_nil_r].
  Qed.
  Lemma entry_names (out_null : bool) k (v : value) : incl (map fst (entry out_null k v)) [k].
  Proof. unfold entry. destruct (out_null || negb (is_none v)); intros y Hy; [exact Hy | contradiction]. Qed.
  Lemma entries_names o ig (out_null : bool) form f :
    incl (map fst (entries_of P h (x o) o ig out_null form f)) (out_names f).
  Proof.
    unfold entries_of, out_names. intros k Hk. rewrite map_app in Hk. apply in_app_iff in Hk. apply in_app_iff.
    destruct Hk as [Hk | Hk].
    - left. destruct (is_local f); [| contradiction]. destruct (picked (x o) (fl_name f)); [| contradiction]. apply entry_names in Hk. exact Hk.
    - right. destruct (visible ig (x o) f); [| contradiction]. apply entry_names in Hk. exact Hk.
  Qed.

  Definition gives (n : nat) (o : oid) (f : field) (v : value) : Prop := writes P n h x o f v.
  Lemma y_field n c o d (out_null : bool) acc f :
    p_ct P (o_class (h_obj h o)) = Some d -> In f (cd_fields d) -> c_idchain c = [] -> c_kr c = [] -> c_tag c = None ->
    NoDup (map fst acc ++ out_names f) ->
    yields (fun r => exists v, (visible (g_ignore_writeonly (c_cfg c)) (x o) f = true -> gives n o f v) /\
        r = acc ++ entries_of P h (x o) o (g_ignore_writeonly (c_cfg c)) out_null (fun _ => v) f)
      (json_field P (interp P n) c o out_null acc f).
  Proof.
    intros Hd Hf Ei Ek Et N. unfold json_field.
    apply y_getW. intros w Hw. unfold wclass, wobj. rewrite (proj1 Hw). clear w Hw.
    apply y_getW. intros w Hw. unfold wcdef, cdef_of. rewrite (proj1 Hw), Hd. clear w Hw.
    apply y_getW. intros w Hw. rewrite (proj2 Hw). clear w Hw.
    apply y_bind with (fun v => reads P h o (fl_name f) v); [apply y_getattr; [intros; apply silents | auto] |]. intros fv Hfv. cbv zeta.
    assert (B : is_way_back P c (o_class (h_obj h o)) f || sinb (cd_name d) (c_idchain c) = false).
    { rewrite Ei. unfold is_way_back. rewrite Ek, Et. cbn [rev sinb existsb]. destruct (g_reverse (c_cfg c)); [reflexivity |].
      destruct (foreign_field (p_ct P) (o_class (h_obj h o)) f); reflexivity. }
    rewrite B, Bool.andb_false_r. clear B.
    assert (Nk : is_local f = true -> ~ In (fl_cref f) (map fst acc)).
    { intros El X. unfold out_names in N. rewrite El in N. cbn [app] in N. apply NoDup_remove_2 in N. apply N, in_app_iff. left. exact X. }
    assert (Nj : forall (l : list (string * value)), incl (map fst l) (if is_local f then [fl_cref f] else []) -> ~ In (fl_json f) (map fst (acc ++ l))).
    { intros l Il X. unfold out_names in N. rewrite app_assoc in N. apply NoDup_remove_2 in N. apply N. rewrite app_nil_r.
      rewrite map_app in X. apply in_app_iff in X. apply in_app_iff. destruct X as [X | X]; [left; exact X | right; apply Il, X]. }
    set (ig := g_ignore_writeonly (c_cfg c)) in *.
    set (ks := if is_local f && picked (x o) (fl_name f) then entry out_null (fl_cref f) (value_at P h o (fl_ref f)) else []).
    assert (Iks : incl (map fst ks) (if is_local f then [fl_cref f] else [])).
    { unfold ks. destruct (is_local f); [| intros y []]. destruct (picked (x o) (fl_name f)); [apply entry_names | intros y []]. }
    assert (Z : forall v, visible ig (x o) f = false -> acc ++ ks = acc ++ entries_of P h (x o) o ig out_null v f).
    { intros v Hv. unfold entries_of, ks. rewrite Hv, app_nil_r. reflexivity. }
    assert (Zt : forall v, visible ig (x o) f = true -> (acc ++ ks) ++ entry out_null (fl_json f) (v f) = acc ++ entries_of P h (x o) o ig out_null v f).
    { intros v Hv. unfold entries_of, ks. rewrite Hv. symmetry. apply app_assoc. }
    destruct (is_local f && negb (picked (x o) (fl_name f))) eqn:Elp.
    { apply y_ret. exists VNone. apply andb_prop in Elp. destruct Elp as [_ Ep]. apply Bool.negb_true_iff in Ep.
      assert (Hv : visible ig (x o) f = false) by (unfold visible; rewrite Ep; apply Bool.andb_false_r). split; [rewrite Hv; discriminate |].
      rewrite <- (Z _ Hv). unfold ks. rewrite Ep, Bool.andb_false_r. symmetry. apply app_nil_r. }
    apply y_bind with (fun a => a = acc ++ ks).
    { destruct (is_local f) eqn:El.
      - apply y_bind with (fun k => value_at P h o (fl_ref f) = k).
        + apply y_getattr; [intros; apply silents |]. intros v Rv. unfold reads in Rv. unfold value_at. rewrite Rv. reflexivity.
        + intros k Hk. apply y_ret. cbn [andb] in Elp, ks. apply Bool.negb_false_iff in Elp. unfold ks. rewrite Elp, Hk. apply sset_entry, Nk; reflexivity.
      - apply y_ret. unfold ks. cbn [andb]. symmetry. apply app_nil_r. }
    intros acc1 ->.
    assert (Hid : forall b, (visible ig (x o) f = false) -> b = acc ++ ks ->
      exists v, (visible ig (x o) f = true -> gives n o f v) /\ b = acc ++ entries_of P h (x o) o ig out_null (fun _ => v) f).
    { intros b Hv ->. exists VNone. split; [rewrite Hv; discriminate | apply Z, Hv]. }
    assert (Vis : visible ig (x o) f = negb (match f_read_rule (fl_fdef f) with NoRead => negb ig | _ => false end) &&
       negb (fstore_eqb (f_fstore (fl_fdef f)) Temp) && picked (x o) (fl_name f)) by reflexivity.
    destruct (match f_read_rule (fl_fdef f) with NoRead => negb ig | _ => false end); [apply y_ret, Hid; auto |].
    destruct (fstore_eqb (f_fstore (fl_fdef f)) Temp); [apply y_ret, Hid; auto |].
    destruct (picked (x o) (fl_name f)); cbn [negb andb] in Vis |- *; [| apply y_ret, Hid; auto].
    apply y_pre; [apply k_ekey | intros e].
    apply y_bind with (fun v => gives n o f v).
    { apply y_and.
      - apply k_types; [intros y Hy; apply (TC _ _ _ _ Hd Hf Hy) |]. destruct (is_inst_field f); reflexivity.
      - intros w a w' Hw Ha. eexists _, w, w'. split; [apply Hw |]. split; [apply Hw |]. split; [| exact Ha].
        destruct (is_inst_field f); exact Hfv. }
    intros v Hv. apply y_ret. exists v. split; [intros _; exact Hv |]. rewrite sset_entry by (apply Nj, Iks).
    apply (Zt (fun _ => v)), Vis.
  Qed.

  Definition laid_out (n : nat) (o : oid) (ig out_null : bool) (fs : list field) (vs : list value) (m : list (string * value)) : Prop :=
    Forall2 (fun f v => visible ig (x o) f = true -> gives n o f v) fs vs /\
    m = flat_map (fun fv => entries_of P h (x o) o ig out_null (fun _ => snd fv) (fst fv)) (combine fs vs).

  Lemma NoDup_app_incl {A} (l l' r : list A) : NoDup (l ++ r) -> NoDup l' -> incl l' l -> NoDup (l' ++ r).
  Proof.
    intros N N' I. induction l' as [| a l' IH]; cbn [app].
    - clear - N. induction l as [| b l IH]; [exact N | apply IH; inversion N; assumption].
    - inversion N'; subst. constructor; [| apply IH; [assumption | intros y Hy; apply I; right; exact Hy]].
      intros X. apply in_app_iff in X. destruct X as [X | X]; [contradiction |].
      assert (Ha : In a l) by (apply I; left; reflexivity). clear - N X Ha. induction l as [| b l IH]; [contradiction |].
      cbn [app] in N. inversion N; subst. destruct Ha as [-> | Ha]; [apply H1, in_app_iff; right; exact X | apply IH; assumption].
  Qed.
  Lemma NoDup_app_r {A} (l r : list A) : NoDup (l ++ r) -> NoDup r.
  Proof. induction l as [| b l IH]; [auto |]. intros H. apply IH. inversion H; assumption. Qed.
  Lemma NoDup_app_l {A} (l r : list A) : NoDup (l ++ r) -> NoDup l.
  Proof.
    induction l as [| b l IH]; intros H; [constructor |]. inversion H; subst. constructor; [| apply IH; assumption].
    intros X. apply H2, in_app_iff. left. exact X.
  Qed.

  Lemma entries_nodup o ig on v f : NoDup (out_names f) -> NoDup (map fst (entries_of P h (x o) o ig on v f)).
  Proof.
    intros N. unfold entries_of. rewrite map_app.
    assert (S1 : forall (b : bool) k (u : value), NoDup (map fst (if b then entry on k u else []))).
    { intros b k u. destruct b; [| constructor]. unfold entry. destruct (on || negb (is_none u)); cbn; repeat constructor. intros []. }
    unfold out_names in N. destruct (is_local f); cbn [andb app] in *; [| apply S1].
    destruct (picked (x o) (fl_name f)) eqn:Ep; [| apply S1].
    unfold entry. inversion N; subst. destruct (on || negb (is_none (value_at P h o (fl_ref f)))); [| apply S1].
    destruct (visible ig (x o) f); [| cbn; repeat constructor; intros []].
    destruct (on || negb (is_none (v f))); cbn; repeat constructor; try (intros []; fail); auto. 
  Qed.
  Lemma laid_names n o ig on fs vs m : NoDup (flat_map out_names fs) -> laid_out n o ig on fs vs m ->
    NoDup (map fst m) /\ incl (map fst m) (flat_map out_names fs).
  Proof.
    intros N [F ->]. induction F as [| f v fs vs Hf F IH]; cbn [combine flat_map map]; [split; [constructor | intros y []] |].
    cbn [flat_map] in N. destruct (IH (NoDup_app_r _ _ N)) as [I1 I2]. rewrite map_app. split.
    - apply NoDup_app_incl with (l := out_names f); [| apply entries_nodup, (NoDup_app_l _ _ N) | apply entries_names].
      assert (Sym : forall (a b : list string), NoDup (a ++ b) -> NoDup (b ++ a)) by (intros a b; apply Permutation.Permutation_NoDup, Permutation.Permutation_app_comm).
      apply Sym. apply NoDup_app_incl with (l := flat_map out_names fs); [apply Sym, N | exact I1 | exact I2].
    - intros y Hy. apply in_app_iff in Hy. apply in_app_iff. destruct Hy as [Hy | Hy]; [left; apply entries_names in Hy; exact Hy | right; apply I2, Hy].
  Qed.

  Lemma y_inst n c o d : c_val c = VObj o ->
    p_ct P (o_class (h_obj h o)) = Some d -> NoDup (flat_map out_names (cd_fields d)) ->
    c_idchain c = [] -> c_kr c = [] -> c_tag c = None ->
    yields (fun r => exists vs m, r = VDict m /\
        laid_out n o (g_ignore_writeonly (c_cfg c)) (match g_output_null (c_cfg c) with Some b => b | None => cd_output_null d end) (cd_fields d) vs m)
      (inst_tojson P (interp P n) c).
  Proof.
    intros Ev Hd N Ei Ek Et. unfold inst_tojson. rewrite Ev. cbn [the_obj]. unfold bind at 1. unfold ret at 1. cbv beta iota.
    apply y_getW. intros w Hw. unfold wcdef, cdef_of. rewrite (proj1 Hw), Hd. clear w Hw. cbv zeta.
    set (on := match g_output_null (c_cfg c) with Some b => b | None => cd_output_null d end).
    apply y_bind with (fun m => exists vs, laid_out n o (g_ignore_writeonly (c_cfg c)) on (cd_fields d) vs m);
      [| intros m [vs L]; apply y_ret; exists vs, m; split; [reflexivity | exact L]].
    apply y_weak with (R := fun m => exists pre vs, cd_fields d = pre ++ [] /\ laid_out n o (g_ignore_writeonly (c_cfg c)) on pre vs m).
    { intros m (pre & vs & E & L). rewrite app_nil_r in E. subst pre. exists vs. exact L. }
    apply (y_fold (same h x) (fun post m => exists pre vs, cd_fields d = pre ++ post /\ laid_out n o (g_ignore_writeonly (c_cfg c)) on pre vs m)).
    - intros pre' f post acc E (pre & vs & E' & L).
      assert (Hf : In f (cd_fields d)) by (rewrite E; apply in_elt).
      assert (N' : NoDup (flat_map out_names pre ++ out_names f)).
      { rewrite E', flat_map_app in N. cbn [flat_map] in N. rewrite app_assoc in N. apply NoDup_app_l in N. exact N. }
      destruct (laid_names n o _ on pre vs acc (NoDup_app_l _ _ N') L) as [L1 L2].
      apply y_weak with (R := fun r => exists v, (visible (g_ignore_writeonly (c_cfg c)) (x o) f = true -> gives n o f v) /\
        r = acc ++ entries_of P h (x o) o (g_ignore_writeonly (c_cfg c)) on (fun _ => v) f).
      + intros r (v & Hv & ->). exists (pre ++ [f]), (vs ++ [v]). split; [rewrite E', <- app_assoc; reflexivity |]. destruct L as [LF ->]. split.
        * apply Forall2_app; [exact LF | constructor; [exact Hv | constructor]].
        * assert (Hl : length pre = length vs) by (apply (F2_len _ _ _ LF)).
          assert (combine (pre ++ [f]) (vs ++ [v]) = combine pre vs ++ [(f, v)]) as ->.
          { clear - Hl. revert vs Hl. induction pre as [| a pre IH]; intros [| u vs] Hl; try discriminate Hl; [reflexivity |].
            cbn. rewrite IH; [reflexivity | inversion Hl; reflexivity]. }
          rewrite flat_map_app. cbn [flat_map fst snd]. rewrite app_nil_r. reflexivity.
      + apply y_field with d; try assumption. apply NoDup_app_incl with (l := flat_map out_names pre); assumption.
    - exists [], []. split; [reflexivity |]. split; [constructor | reflexivity].
  Qed.

  (** The forms, as a function of the field *)
  Lemma laid_form n o ig on fs vs m : NoDup (map fl_name fs) -> laid_out n o ig on fs vs m ->
    exists form : field -> value, (forall f, In f fs -> visible ig (x o) f = true -> gives n o f (form f)) /\
      m = flat_map (entries_of P h (x o) o ig on form) fs.
  Proof.
    intros N [F ->].
    exists (fun f => match find (fun fv => String.eqb (fl_name (fst fv)) (fl_name f)) (combine fs vs) with Some fv => snd fv | None => VNone end).
    assert (K : forall f v, In (f, v) (combine fs vs) ->
      match find (fun fv => String.eqb (fl_name (fst fv)) (fl_name f)) (combine fs vs) with Some fv => snd fv | None => VNone end = v).
    { clear - N F. induction F as [| f0 v0 fs vs _ F IH]; intros f v Hin; [contradiction |]. cbn [combine find fst snd map] in *. inversion N; subst.
      destruct Hin as [E | Hin].
      - inversion E; subst. rewrite String.eqb_refl. reflexivity.
      - destruct (String.eqb (fl_name f0) (fl_name f)) eqn:E; [| apply IH; assumption].
        apply String.eqb_eq in E. contradiction H1. rewrite E. apply in_map. apply (in_combine_l _ _ _ _ Hin). }
    split.
    - intros f Hf Hv. clear N. 
      assert (exists v, In (f, v) (combine fs vs) /\ (visible ig (x o) f = true -> gives n o f v)) as (v & Hin & Gv).
      { clear K. induction F as [| f0 v0 fs vs G F IH]; [contradiction |]. destruct Hf as [-> | Hf].
        - exists v0. split; [left; reflexivity | exact G].
        - destruct (IH Hf) as (v & H1 & H2). exists v. split; [right; exact H1 | exact H2]. }
      rewrite (K f v Hin). apply Gv, Hv.
    - assert (Hl : length fs = length vs) by apply (F2_len _ _ _ F).
      assert (X : forall l, incl l (combine fs vs) -> flat_map (fun fv => entries_of P h (x o) o ig on (fun _ => snd fv) (fst fv)) l =
        flat_map (entries_of P h (x o) o ig on (fun f => match find (fun fv => String.eqb (fl_name (fst fv)) (fl_name f)) (combine fs vs) with Some fv => snd fv | None => VNone end)) (map fst l)).
      { induction l as [| [f v] l IH]; intros I; [reflexivity |]. cbn [flat_map map fst snd]. rewrite IH by (intros y Hy; apply I; right; exact Hy). f_equal.
        unfold entries_of. cbv beta. rewrite (K f v (I _ (or_introl eq_refl))). reflexivity. }
      rewrite X by (intros y Hy; exact Hy). f_equal. clear - Hl. revert vs Hl. induction fs as [| f fs IH]; intros [| v vs] Hl; try discriminate Hl; [reflexivity |].
      cbn. rewrite IH; [reflexivity | inversion Hl; reflexivity].
  Qed.
End Entries.

Lemma tojson_run P D (w : world) n o iw rev on v w' : calm P -> flat_guards D P ARead -> tojson P (S n) o iw rev on w = (Ok v, w') ->
  exists w1 w2, w_heap w1 = w_heap w /\ w_ext w1 = w_ext w /\
    inst_tojson P (interp P n) (top_ctx (w_heap w) o iw rev on) w1 = (Ok v, w2).
Proof.
  intros C G T. rewrite tojson_eq in T.
  destruct (k_guard (spk := hush) P (w_heap w) (w_ext w) D C ltac:(intros; apply silents) ltac:(intros; apply silents) ltac:(intros; apply silents) (S n) o ARead G)
    with (s := w) as [[G1 G2] _]; [left; discriminate | split; reflexivity |].
  destruct (guard P (S n) o ARead w) as [[u | e] w1]; cbn [snd] in *; [| discriminate T].
  exists (set_mg [] w1). cbn [interp modif_of m_tojson tojson_of] in T. rewrite G1 in T.
  destruct (inst_tojson P (interp P n) (top_ctx (w_heap w) o iw rev on) (set_mg [] w1)) as [r w2]. inversion T; subst.
  exists w2. split; [exact G1 |]. split; [exact G2 | reflexivity].
Qed.

Lemma tojson_laid P D (w : world) n o d iw rev on v w' :
  calm P -> tame_classes D P -> flat_guards D P ARead ->
  p_ct P (o_class (h_obj (w_heap w) o)) = Some d -> NoDup (map fl_name (cd_fields d)) -> NoDup (flat_map out_names (cd_fields d)) ->
  tojson P (S n) o iw rev on w = (Ok v, w') ->
  exists form : field -> value,
    (forall f, In f (cd_fields d) -> visible iw (w_ext w o) f = true -> writes P n (w_heap w) (w_ext w) o f (form f)) /\
    v = VDict (flat_map (entries_of P (w_heap w) (w_ext w o) o iw (match on with Some b => b | None => cd_output_null d end) form) (cd_fields d)).
Proof.
  intros C TC G Hd N1 N2 T. destruct (tojson_run P D w n o iw rev on v w' C G T) as (w1 & w2 & E1 & E2 & R).
  destruct (y_inst P (w_heap w) (w_ext w) D C TC n (top_ctx (w_heap w) o iw rev on) o d eq_refl Hd N2 eq_refl eq_refl eq_refl w1) as [_ Y]; [split; assumption |].
  rewrite R in Y. destruct (Y v eq_refl) as (vs & m & -> & L). destruct (laid_form P (w_heap w) (w_ext w) n o _ _ _ vs m N1 L) as (form & F1 & F2).
  exists form. split; [exact F1 |]. rewrite F2. reflexivity.
Qed.

(** ** Secrets *)
Lemma plain_value P n m c w v w' : about_parts m = false -> makes_text m = false ->
  m_tojson (interp P n m) c w = (Ok v, w') -> v = c_val c \/ v = VNone.
Proof.
  intros N M E. destruct n as [| n]; [discriminate E |]. cbn [interp modif_of m_tojson] in E.
  assert (L : forall u (w1 w2 : world), u = c_val c -> (Ok u, w1) = (Ok v, w2) -> v = c_val c \/ v = VNone).
  { intros u w1 w2 -> H. inversion H. left. reflexivity. }
  destruct m; try discriminate N; try discriminate M; cbn [tojson_of] in E; try (apply (L _ _ _ eq_refl E)).
  - destruct l; cbn [LeafModel.leaf_tojson] in E; try (apply (L _ _ _ eq_refl E)).
    destruct k; try discriminate M; try (apply (L _ _ _ eq_refl E)).
  - assert (N0 : forall w1 w2 : world, (@Ok value VNone, w1) = (Ok v, w2) -> v = c_val c \/ v = VNone).
    { intros w1 w2 H. inversion H. right. reflexivity. }
    unfold canr_tojson in E. destruct (is_none (c_operator c)); [apply (N0 _ _ E) |]. destruct p; try discriminate E.
    unfold checked, bind in E. destruct (t_transform (interp P n) ts c w) as [[tv | e] w1]; [| discriminate E].
    destruct (on_validation _ _ w1) as [[b | e] w2]; [| discriminate E]. destruct b; [apply (L _ _ _ eq_refl E) | apply (N0 _ _ E)].
Qed.

Lemma secrets_kept P D (w : world) n o iw rev on v w' secret :
  calm P -> tame_classes D P -> flat_guards D P ARead -> single secret -> kept_secret P (w_heap w) (w_ext w) iw secret ->
  tojson P n o iw rev on w = (Ok v, w') -> ~ contains secret v.
Proof.
  intros C TC G (S1 & S2 & S3 & S4) K T. destruct n as [| n].
  { rewrite tojson_eq in T. destruct (guard P 0 o ARead w) as [[u | e] w1]; [| discriminate T]. cbn in T. discriminate T. }
  destruct (tojson_run P D w n o iw rev on v w' C G T) as (w1 & w2 & E1 & E2 & R).
  assert (Y : yields (spk := hush) (same (w_heap w) (w_ext w)) (fun v => ~ contains secret v)
     (t_tojson (interp P (S n)) [MInstance (o_class (h_obj (w_heap w) o))] (top_ctx (w_heap w) o iw rev on))).
  { apply (out_ok (spk := hush) P (w_heap w) (w_ext w) D C TC) with (ig := iw) (W := fun m => used P m \/ m = MInstance (o_class (h_obj (w_heap w) o)) \/ m = MRequired)
      (U := []) (M := 0%nat) (rk := fun _ => 0%nat) (d := 1%nat) (q := 0%nat);
      try (intros; apply silents); try (intros X; discriminate X); auto.
    - intros X. inversion X; subst. contradiction.
    - intros m Hm X. inversion X; subst; [contradiction (S3 m) | apply (Hm k v0); assumption].
    - intros l Hl X. inversion X; subst; [contradiction (S2 l) | apply (Hl v0); assumption].
    - intros l u Hl Hin X. apply Hl. apply contains_item with u; assumption.
    - intros m k u Hm Hin X. apply Hm. apply contains_entry with k u; assumption.
    - intros m ts y [Hm | [-> | ->]] Hts Hy; try contradiction. left. apply used_part with m ts; assumption.
    - intros cls d f m Hd Hf Hm. left. apply used_field with cls d f; assumption.
    - intros n0 m c w0 u w0' Wm Hm Hc _ E. destruct (makes_text m) eqn:Et.
      + destruct Wm as [Wm | [-> | ->]]; [| discriminate Et | discriminate Et]. apply (ks_texts _ _ _ _ _ K n0 m c w0 u w0'); assumption.
      + destruct (plain_value P n0 m c w0 u w0' Hm Et E) as [-> | ->]; [exact Hc | intros X; inversion X; subst; contradiction].
    - intros o0 d f k Hd Hf El Ep Hr. apply (ks_keys _ _ _ _ _ K o0 d f k); assumption.
    - intros o0 d f u Hd Hf Hw Ht Hp Hr. apply (ks_fields _ _ _ _ _ K o0 d f u); try assumption.
      unfold visible. rewrite Hp, Bool.andb_true_r. apply andb_true_intro. split.
      + destruct (f_read_rule (fl_fdef f)); try reflexivity. rewrite (Hw eq_refl). reflexivity.
      + destruct (f_fstore (fl_fdef f)); try reflexivity. contradiction Ht; reflexivity.
    - intros y [<- | []]. left. exact Logic.I.
    - intros y [<- | []]. auto.
    - lia.
    - intros X. cbn in X. inversion X; subst. contradiction (S4 o).
    - left. discriminate. }
  destruct (Y w1) as [_ Y2]; [split; assumption |]. apply Y2.
  unfold t_tojson, chain_tojson. cbn [map fold_st]. unfold bind, ret. cbn [interp modif_of m_tojson tojson_of].
  change (nval (top_ctx (w_heap w) o iw rev on) (c_val (top_ctx (w_heap w) o iw rev on))) with (top_ctx (w_heap w) o iw rev on).
  rewrite R. reflexivity.
Qed.

(** Plain fields *)
Lemma inert_same P n m c w v w' : inert m = true -> m_tojson (interp P n m) c w = (Ok v, w') -> v = c_val c.
Proof.
  intros N E. destruct n as [| n]; [discriminate E |]. cbn [interp modif_of m_tojson] in E.
  destruct m; try discriminate N; cbn [tojson_of] in E; try (inversion E; reflexivity).
  destruct l; cbn [LeafModel.leaf_tojson] in E; try (inversion E; reflexivity).
  destruct k; try discriminate N; inversion E; reflexivity.
Qed.
Lemma inert_chain P n ts c w v w' : (forall m, In m ts -> inert m = true) -> t_tojson (interp P n) ts c w = (Ok v, w') -> v = c_val c.
Proof.
  intros H. unfold t_tojson, chain_tojson.
  assert (K : forall l u (w0 : world), (forall m, In m l -> inert m = true) ->
    fold_st (fun v m => m_tojson m (nval c v)) (map (interp P n) l) u w0 = (Ok v, w') -> v = u).
  { induction l as [| m l IH]; intros u w0 Hl E; cbn [map fold_st] in E; [inversion E; reflexivity |].
    unfold bind in E. destruct (m_tojson (interp P n m) (nval c u) w0) as [[u1 | e] w1] eqn:E1; [| discriminate E].
    apply (inert_same P n m (nval c u) w0 u1 w1 (Hl m (or_introl eq_refl))) in E1. cbn in E1. subst u1.
    apply (IH u w1); [intros m' Hm'; apply Hl; right; exact Hm' | exact E]. }
  apply K, H.
Qed.
