(** WriteProofs.v -- transformation of input leaves a protected field alone. *)
From Verif Require Import Base Mon PyList PyDict StrDict OListModel ODictModel KeypathModel KeypathSpec KeypathProofs Values OGraphModel MGraphModel
  MGraphProofs ChainModel TypesModel TypesSpec TypesProofs ObjModel ObjSpec ObjTrack IoModel IoBase Sound ObjSound LeafSound TameSpec Keep TameProofs
  OutProofs KpSetProofs WriteSpec WriteFrame.
From Verif Require LeafModel.
Open Scope list_scope.

(** ** Types that check late *)
Lemma first_split {V C S} k (vs : list (modifier V C S)) : forall i, first_vidx k vs = Some i ->
  exists v post, vs = firstn i vs ++ v :: post /\ kind_eqb (kind v) k = true /\ length (firstn i vs) = i.
Proof.
  induction vs as [| v vs IH]; cbn [first_vidx]; intros i H; [discriminate H |].
  destruct (kind_eqb (kind v) k) eqn:E.
  - inversion H; subst. exists v, vs. split; [reflexivity | split; [exact E | reflexivity]].
  - destruct (first_vidx k vs) as [j |] eqn:Ej; [| discriminate H]. inversion H; subst.
    destruct (IH j eq_refl) as (u & post & E1 & E2 & E3). exists u, post. cbn [firstn app length]. rewrite <- E1, E3. auto.
Qed.
Lemma last_split {V C S} k (vs : list (modifier V C S)) i : last_vidx k vs = Some i ->
  exists v post, vs = firstn i vs ++ v :: post /\ kind_eqb (kind v) k = true.
Proof.
  unfold last_vidx. destruct (first_vidx k (rev vs)) as [j |] eqn:E; [| discriminate]. intros H. inversion H; subst. clear H.
  destruct (first_split k (rev vs) j E) as (v & post & E1 & E2 & E3).
  assert (Ev : vs = rev post ++ v :: rev (firstn j (rev vs))).
  { rewrite <- (rev_involutive vs) at 1. rewrite E1 at 1. rewrite rev_app_distr. cbn [rev]. rewrite <- app_assoc. reflexivity. }
  exists v, (rev (firstn j (rev vs))). split; [| exact E2].
  assert (L : (length vs - 1 - j = length (rev post))%nat).
  { rewrite Ev at 1. rewrite app_length. cbn [length]. rewrite (rev_length (firstn j (rev vs))), E3. lia. }
  rewrite L. rewrite Ev at 2. rewrite firstn_app, Nat.sub_diag, firstn_all. cbn [firstn]. rewrite app_nil_r. exact Ev.
Qed.
Lemma interp_kind P n m : kind (interp P n m) = IoModel.kind_of m.
Proof. destruct n; reflexivity. Qed.
Lemma tvs_early P n ts v : In v (tvs (map (interp P n) ts)) ->
  exists m pre post, v = interp P n m /\ In m pre /\ ts = pre ++ MEager :: post.
Proof.
  unfold tvs, levidx. destruct (last_vidx KEager (map (interp P n) ts)) as [i |] eqn:E; [| intros []]. intros H.
  destruct (last_split _ _ _ E) as (u & post & E1 & E2). rewrite firstn_map in E1, H. rewrite <- (firstn_skipn i ts) in E1 at 1.
  rewrite map_app in E1. apply app_inv_head in E1. destruct (skipn i ts) as [| e r] eqn:Es; [discriminate E1 |]. cbn [map] in E1.
  inversion E1; subst. rewrite interp_kind in E2. apply in_map_iff in H. destruct H as (m & <- & Hm).
  exists m, (firstn i ts), r. split; [reflexivity | split; [exact Hm |]]. rewrite <- (firstn_skipn i ts) at 1. rewrite Es.
  destruct e; try discriminate E2. reflexivity.
Qed.

(** where the class of the objects of a field comes from *)
Definition inst_mark (m : mdf) : option (option string) := match m with MInstance c => Some (Some c) | _ => None end.
Lemma inst_step : forall m d, f_inst (define m d) = match inst_mark m with Some x => x | None => f_inst d end.
Proof. crush_define. Qed.
Lemma inst_from ts c : f_inst (fdef_of ts) = Some c -> In (MInstance c) ts.
Proof.
  induction ts as [| m ts IH] using rev_ind; [discriminate |]. rewrite fdef_snoc, inst_step. intros H.
  destruct m; cbn [inst_mark] in H; try (apply in_or_app; left; apply IH; exact H). inversion H; subst. apply in_or_app. right. left. reflexivity.
Qed.

Section Good.
Context (R : string -> Prop).
Definition goodt (d : nat) (m : mdf) : Prop := tame d m /\ late d m /\ holds_only R d m.
Definition goods (d : nat) (ts : types) : Prop := checks_late ts /\ forall m, In m ts -> goodt d m.
Definition good_ctx (d : nat) (c : ctx) : Prop :=
  exists ts, c_fdef c = fdef_of ts /\ forall m, In m ts -> part m = true -> goodt d m.
Lemma goods_ctx d ts c : c_fdef c = fdef_of ts -> goods d ts -> good_ctx d c.
Proof. intros E [_ H]. exists ts. split; [exact E | intros m Hm _; apply H, Hm]. Qed.
Lemma required_good d : goodt (S d) MRequired.
Proof. split; [| split]; cbn; [intros ts [] | exact Logic.I | exact Logic.I]. Qed.
Lemma checks_snoc ts : checks_late ts -> checks_late (ts ++ [MRequired]).
Proof.
  intros H pre post E m Hm. destruct (exists_last (l := MEager :: post)) as (r & l & El); [discriminate |].
  rewrite El, app_assoc in E. apply app_inj_tail in E. destruct E as [E <-].
  destruct r as [| e r]; cbn in El; inversion El; subst. apply (H pre r eq_refl m Hm).
Qed.
Lemma items_good d c ts : good_ctx (S d) c -> item_types (c_fdef c) = Some ts -> goods (S d) ts \/ goods d ts.
Proof.
  intros (us & -> & H) E. unfold item_types in E. destruct (f_item (fdef_of us)) as [it |] eqn:Ei; [| discriminate E].
  assert (T : goods d it).
  { destruct (item_from us it Ei) as [X | X]; destruct (H _ X eq_refl) as [T1 [[T2 T3] T4]]; cbn in T1, T4;
      (split; [exact T2 | intros m Hm; split; [apply (T1 m Hm) | split; [apply (T3 m Hm) | apply (T4 m Hm)]]]). }
  assert (ts = it \/ ts = it ++ [MRequired]) as [-> | ->] by (destruct (f_item_null (fdef_of it)); inversion E; auto).
  - right. exact T.
  - destruct T as [T1 T2]. destruct it as [| m it].
    + left. split; [apply checks_snoc, T1 | intros m [<- | []]; apply required_good].
    + right. split; [apply checks_snoc, T1 |]. intros y Hy. apply in_app_iff in Hy. destruct Hy as [Hy | [<- | []]]; [apply T2, Hy |].
      destruct d as [| d]; [contradiction (proj1 (T2 m (or_introl eq_refl))) | apply required_good].
Qed.
Lemma union_good d c u : good_ctx (S d) c -> In u (f_union (c_fdef c)) -> goods d u.
Proof.
  intros (us & -> & H) E. destruct (union_from us u E) as (vs & A & B). destruct (H _ A eq_refl) as [T [L O]]. cbn in T, L, O.
  destruct (L u B) as [L1 L2]. split; [exact L1 | intros m Hm; split; [apply (T u m B Hm) | split; [apply L2, Hm | apply (O u m B Hm)]]].
Qed.
Lemma inst_good d c cl : good_ctx (S d) c -> f_inst (c_fdef c) = Some cl -> R cl.
Proof. intros (us & -> & H) E. apply inst_from in E. apply (H _ E eq_refl). Qed.
End Good.

(** ** Chains that never turn a value into None *)
Definition gives {S A} (R : A -> Prop) (m : st S A) : Prop := forall s a s', m s = (Ok a, s') -> R a.
Lemma g_ret {S A} (R : A -> Prop) a : R a -> gives R (@ret S A a).
Proof. intros H s b s' E. inversion E; subst. exact H. Qed.
Lemma g_bind {S A B} (R : A -> Prop) (R' : B -> Prop) (m : st S A) k : gives R m -> (forall a, R a -> gives R' (k a)) -> gives R' (bind m k).
Proof. intros H K s b s' E. unfold bind in E. destruct (m s) as [[a | e] s1] eqn:Em; [apply (K a (H _ _ _ Em) _ _ _ E) | discriminate E]. Qed.
Lemma g_pre {S A B} (R : B -> Prop) (m : st S A) k : (forall a, gives R (k a)) -> gives R (bind m k).
Proof. intros K. apply g_bind with (fun _ => True); [intros s a s' _; exact Logic.I | intros a _; apply K]. Qed.
Lemma g_throw {S A} (R : A -> Prop) e : gives R (@throw S A e).
Proof. intros s a s' E. discriminate E. Qed.
Lemma g_lift {S A} (R : A -> Prop) (r : res A) : (forall a, r = Ok a -> R a) -> gives R (@lift S A r).
Proof. intros H s a s' E. unfold lift in E. apply H. congruence. Qed.
Lemma g_fold {S A B} (R : B -> Prop) (g : B -> A -> st S B) l : (forall b a, In a l -> R b -> gives R (g b a)) -> forall b, R b -> gives R (fold_st g l b).
Proof.
  induction l as [| a l IH]; intros H b Hb; cbn [fold_st]; [apply g_ret, Hb |].
  apply g_bind with R; [apply H; [left; reflexivity | exact Hb] |]. intros b' Hb'. apply IH; [| exact Hb']. intros b0 a0 Ha. apply H. right. exact Ha.
Qed.
Notation nonnull := (fun v : value => v <> VNone).

Section NonNull.
  Context {S Q : Type} (other_str : value -> string) (farith : LeafModel.arith -> value -> value -> res value) (resolve : Q -> st S value) (ex : string -> exn).
  Import LeafModel CalModel.
  Ltac go :=
    repeat (cbn zeta; match goal with
      | |- gives _ (ret _) => apply g_ret
      | |- gives _ (throw _) => apply g_throw
      | |- gives _ (fail _ _) => apply g_throw
      | |- gives _ (bind _ _) => apply g_pre; intros
      | |- gives _ (match ?y with _ => _ end) => destruct y
      end); try discriminate; try assumption.
  Lemma rbind_nn {T} (m : res T) (h : T -> res value) a : (forall t, exists v, h t = Ok v /\ v <> VNone \/ exists e, h t = Err e) -> rbind m h = Ok a -> a <> VNone.
  Proof. intros H E. destruct m as [t |]; [| discriminate E]. cbn in E. destruct (H t) as [v [[Ev Nv] | [e Ee]]]; [congruence | rewrite Ee in E; discriminate E]. Qed.
  Lemma leaf_solid l v : (forall op b, l <> LArith op b) -> v <> VNone -> gives nonnull (leaf_transform other_str farith resolve ex l v).
  Proof.
    intros Na Nv. destruct l; cbn [leaf_transform];
      unfold t_truncate, t_padstart, t_padend, t_append, t_prepend, t_insertat, t_split, t_join, t_replace, t_reverse, t_str, t_len, t_type;
      try (go; fail); try (apply g_ret; destruct v; try discriminate; contradiction).
    - unfold t_lowerbond. destruct (is_number v); [| apply g_ret, Nv]. apply g_pre; intros x.
      apply g_bind with (fun _ => x <> VNone); [| intros c Nx; apply g_ret; destruct c; assumption].
      apply g_lift. intros c Ec ->. unfold py_lt, py_cmp in Ec. cbn in Ec. destruct (num_of v); discriminate Ec.
    - unfold t_upperbond. destruct (is_number v); [| apply g_ret, Nv]. apply g_pre; intros x.
      apply g_bind with (fun _ => x <> VNone); [| intros c Nx; apply g_ret; destruct c; assumption].
      apply g_lift. intros c Ec ->. unfold gtb, py_lt, py_cmp in Ec. cbn in Ec. destruct (num_of v); discriminate Ec.
    - apply g_ret. unfold t_abs. destruct v as [ | | | [] | | | | | | | | ]; try discriminate; contradiction.
    - apply g_lift. intros a E. unfold integral in E. destruct v as [ | | | [] | | | | | | | | ]; inversion E; subst; try discriminate; contradiction.
    - apply g_lift. intros a E. unfold integral in E. destruct v as [ | | | [] | | | | | | | | ]; inversion E; subst; try discriminate; contradiction.
    - apply g_lift. intros a E. unfold integral in E. destruct v as [ | | | [] | | | | | | | | ]; inversion E; subst; try discriminate; contradiction.
    - contradiction (Na op by_ eq_refl).
    - apply g_lift. intros a E. unfold tonextday in E. destruct v; try (inversion E; subst; assumption); revert E; apply rbind_nn; intros ?; eexists; left; (split; [reflexivity | discriminate]).
    - apply g_lift. intros a E. unfold tonexthour in E. destruct v; try (inversion E; subst; assumption); revert E; apply rbind_nn; intros ?; eexists; left; (split; [reflexivity | discriminate]).
    - apply g_lift. intros a E. unfold tonextmin in E. destruct v; try (inversion E; subst; assumption); revert E; apply rbind_nn; intros ?; eexists; left; (split; [reflexivity | discriminate]).
    - apply g_lift. intros a E. unfold tonextsec in E. destruct v; try (inversion E; subst; assumption); revert E; apply rbind_nn; intros ?; eexists; left; (split; [reflexivity | discriminate]).
    - apply g_lift. intros a E. unfold tonextmon in E. destruct v; try (inversion E; subst; assumption); destruct (next_month _); revert E; apply rbind_nn; intros ?; eexists; left; (split; [reflexivity | discriminate]).
    - apply g_lift. intros a E. unfold tonextyear in E. destruct v; try (inversion E; subst; assumption); revert E; apply rbind_nn; intros ?; eexists; left; (split; [reflexivity | discriminate]).
  Qed.
End NonNull.

Lemma transform_solid P rec m c : solid m = true -> c_val c <> VNone -> gives nonnull (transform_of P rec m c).
Proof.
  intros Sm Nv.
  destruct m; try discriminate Sm; cbn [transform_of]; try (apply g_ret; exact Nv).
  - apply leaf_solid; [intros op b ->; discriminate Sm | exact Nv].
  - unfold inst_transform. destruct (c_val c) as [ | | | | | | | | | md | | ];
      try contradiction; try (apply g_ret; destruct (c_original c); discriminate).
    repeat (apply g_pre; intros). destruct a1 as [o soft]. repeat (apply g_pre; intros). apply g_ret. discriminate.
  - unfold col_transform. destruct (c_val c) eqn:Ev; try contradiction; try (apply g_ret; discriminate); cbn [col_items]; try (apply g_ret; discriminate).
    all: apply g_fold; [| discriminate].
    all: intros b a _ Hb; destruct (special _ _ _); [apply g_pre; intros; apply g_ret; exact Hb |].
    all: apply g_pre; intros ts; unfold col_item; apply g_pre; intros y; apply g_pre; intros _; apply g_ret; unfold append_value; destruct b; try discriminate; try contradiction; destruct (fst a); discriminate.
  - unfold col_transform. destruct (c_val c) eqn:Ev; try contradiction; try (apply g_ret; discriminate); cbn [col_items]; try (apply g_ret; discriminate).
    all: apply g_fold; [| discriminate].
    all: intros b a _ Hb; destruct (special _ _ _); [apply g_pre; intros; apply g_ret; exact Hb |].
    all: apply g_pre; intros ts; unfold col_item; apply g_pre; intros y; apply g_pre; intros _; apply g_ret; unfold append_value; destruct b; try discriminate; try contradiction; destruct (fst a); discriminate.
  - unfold default_transform. destruct (c_val c); try contradiction; apply g_ret; discriminate.
  - unfold filter_transform. destruct (c_val c); try contradiction; try (apply g_ret; discriminate). apply g_pre; intros. apply g_ret. discriminate.
  - unfold map_transform. destruct (c_val c); try contradiction; try (apply g_ret; discriminate). apply g_pre; intros. apply g_ret. discriminate.
Qed.
Lemma chain_solid P n ts c : (forall m, In m ts -> solid m = true) -> c_val c <> VNone -> gives nonnull (t_transform (interp P n) ts c).
Proof.
  intros Hs Nv.
  assert (One : forall v, In v (map (interp P n) ts) -> forall c', c_val c' <> VNone -> gives nonnull (m_transform v c')).
  { intros v Hv c' Nc. apply in_map_iff in Hv. destruct Hv as (m & <- & Hm).
    destruct n; cbn [interp m_transform modif_of]; [apply g_throw | apply transform_solid; [apply Hs, Hm | exact Nc]]. }
  unfold t_transform, chain_transform. apply g_bind with nonnull.
  - apply g_fold; [| exact Nv]. intros b v Hv Hb. apply tvs_in in Hv. unfold vt.
    apply g_bind with nonnull; [apply One; [exact Hv | exact Hb] |]. intros y Hy. apply g_pre. intros _. apply g_ret. exact Hy.
  - intros v1 H1. apply g_fold; [| exact H1]. intros b v Hv Hb. apply nvs_in in Hv. apply One; [exact Hv | exact Hb].
Qed.

Lemma k_retb {spk : manner} {T U} (I : world -> Prop) (a : T) (F : T -> st world U) : Keep.keeps I (F a) -> Keep.keeps I (bind (ret a) F).
Proof. intros H. exact H. Qed.

Section World.
  Context (P : program) (x : oid) (k : string) (A : option value -> Prop) (cls : string) (fresh lax : bool) (R : string -> Prop) (f : field) (D : nat).
  Hypothesis ON : own_name P k.
  Hypothesis CS : considerate P x k.
  Hypothesis CN : fresh = true -> newborn P x.
  Hypothesis Fk : fl_name f = k.
  Hypothesis Fp : plain_field f = true.
  Hypothesis Fd : exists d, p_ct P cls = Some d /\ In f (cd_fields d) /\ forall g, In g (cd_fields d) -> fl_name g = k -> g = f.
  Hypothesis TC : tame_classes D P.
  Hypothesis LC : late_classes D P.
  Hypothesis LR : only_holds R D P.
  Local Existing Instance frame_mode.
  Notation held := (held x k A cls fresh).
  Notation goodt := (goodt R).
  Notation goods := (goods R).
  Notation good_ctx := (good_ctx R).

  Definition prot (fill : bool) (w : world) : Prop :=
    held (w_heap w) /\ (fill = true -> forall c p, R c -> m_getp c p (w_mg w) <> Some x).
  Notation keepsJ b := (Keep.keeps (prot b)).

  Lemma quiet_ok {T} (r : res T) : louder r.
  Proof. intros e _. split; discriminate. Qed.
  Lemma w_liftH {T} b (m : st heap T) : Keep.keeps held m -> keepsJ b (liftH m).
  Proof.
    intros H w [H1 H2]. unfold liftH. destruct (H _ H1) as [H3 H4]. destruct (m (w_heap w)) as [r h']. split; [| exact H4].
    split; [exact H3 | exact H2].
  Qed.
  Lemma w_modW b F : (forall w, prot b w -> prot b (F w)) -> keepsJ b (modW F).
  Proof. intros H w Hw. split; [apply H, Hw | apply louder_ok]. Qed.
  Lemma w_call b kd g c args : keepsJ b (call P kd g c args).
  Proof.
    unfold call. apply k_bind; [apply w_modW; intros w H; exact H |]. intros _. apply w_liftH. intros h H.
    split; [apply (held_leaves x k A cls fresh h); [apply (cs_call _ _ _ CS) | intros E; apply (nb_call _ _ (CN E)) | exact H] | apply quiet_ok].
  Qed.
  Lemma w_getattr b o n : keepsJ b (getattr P o n).
  Proof. apply k_getattr. intros. apply quiet_ok. Qed.
  Lemma w_setattr b o n v : (o = x -> n <> k) -> keepsJ b (setattr P o n v).
  Proof. intros N. apply w_liftH, run_off; assumption. Qed.
  Lemma named_f : exists d, p_ct P cls = Some d /\ field_named k d = Some f.
  Proof.
    destruct Fd as (d & Ed & I & U). exists d. split; [exact Ed |]. unfold field_named.
    destruct (find (fun g => String.eqb k (fl_name g)) (rev (cd_fields d))) as [g |] eqn:E.
    - apply find_some in E. destruct E as [E1 E2]. apply in_rev in E1. apply String.eqb_eq in E2. f_equal. apply U; auto.
    - exfalso. assert (Ir : In f (rev (cd_fields d))) by (apply -> in_rev; exact I).
      pose proof (find_none _ _ E f Ir) as N. cbv beta in N. rewrite Fk, String.eqb_refl in N. discriminate N.
  Qed.
  Lemma w_setheld b v : A (Some v) -> keepsJ b (setattr P x k v).
  Proof. intros Av. apply w_liftH. apply run_held with f; try assumption. apply named_f. Qed.
  Lemma w_new {T} b b' (m : st world T) : keepsJ b' m -> keepsJ b (with_new_mgraph m).
  Proof.
    intros H w [H1 H2]. unfold with_new_mgraph. destruct (H (set_mg [] w)) as [[H3 _] H4]; [split; [exact H1 | intros _ c p _; discriminate] |].
    destruct (m (set_mg [] w)) as [r w']. split; [| exact H4]. split; [exact H3 | exact H2].
  Qed.
  Lemma getp_put cn o pk m c p : m_getp c p (m_put cn o pk m) = Some x -> o = x \/ m_getp c p m = Some x.
  Proof.
    unfold m_getp, m_put, m_table. destruct (String.eqb_spec c (cn o)) as [-> | N].
    - rewrite sget_sset, String.eqb_refl. unfold t_getp, t_put. destruct pk as [q |]; cbn [t_putp by_key]; [| auto].
      rewrite sget_sset. destruct (String.eqb p q); [intros E; inversion E; auto | auto].
    - rewrite sget_sset. destruct (String.eqb_spec c (cn o)); [contradiction | auto].
  Qed.
  Lemma w_put b o : (b = true -> o <> x) -> keepsJ b (mg_put P o).
  Proof.
    intros N. apply w_modW. intros w [H1 H2]. split; [exact H1 |]. intros E c p Rc X. cbn [set_mg w_mg] in X.
    apply getp_put in X. destruct X as [X | X]; [apply (N E X) | apply (H2 E c p Rc X)].
  Qed.
  Lemma w_putp b pv o : (b = true -> o <> x) -> keepsJ b (mg_putp P pv o).
  Proof.
    intros N. apply w_modW. intros w [H1 H2]. split; [exact H1 |]. intros E c p Rc X. cbn [set_mg w_mg] in X.
    change (m_putp (cname_of w) (LeafModel.py_str (p_str P) pv) o (w_mg w)) with (m_put (cname_of w) o (Some (LeafModel.py_str (p_str P) pv)) (w_mg w)) in X.
    apply getp_put in X. destruct X as [X | X]; [apply (N E X) | apply (H2 E c p Rc X)].
  Qed.
  Lemma w_alloc b c : yields (prot b) (fun o => o <> x) (fun w => let '(o, w') := alloc c w in (Ok o, w')).
  Proof.
    intros w [[H1 H2 H3 H4 H5 H6] HM]. unfold alloc. destruct (new_graph (h_graph (w_heap w)) []) as [i g]. cbn [fst snd].
    split; [split; [| apply louder_ok] | intros a E; inversion E; subst; lia].
    assert (N : Nat.eqb x (h_next (w_heap w)) = false) by (apply Nat.eqb_neq; lia).
    split; [| exact HM]. constructor; cbn [set_ext set_heap w_heap h_obj h_next attr]; unfold attr; cbn [h_obj]; try rewrite N; try assumption. lia.
  Qed.
  Lemma w_graph_put b o : keepsJ b (graph_put P o).
  Proof.
    apply w_modW. intros w [H1 H2]. cbv zeta. match goal with |- context [g_put ?a ?b ?c ?d] => destruct (g_put a b c d) end; [| split; assumption].
    split; [| exact H2]. destruct H1. constructor; assumption.
  Qed.

  (** ** The pieces of transformation *)
  Definition cfok (b : bool) (c : ctx) : Prop := b = false -> g_fill (c_cfg c) = false /\ lax = true.
  Definition cok (b : bool) (c : ctx) : Prop := cfok b c /\ (b = true -> c_original c <> VObj x).
  Hypothesis write_ok : lax = true -> forall v, yields (prot false) (fun ok => ok = true -> forall n c w y w',
    c_val c = v -> t_transform (interp P n) (fl_types f) c w = (Ok y, w') -> A (Some y)) (may_write P x f v).

  Lemma w_may_write b o g v : keepsJ b (may_write P o g v).
  Proof. unfold may_write. destruct (f_write_rule (fl_fdef g)); try apply k_ret. apply k_bind; [apply w_getattr | intros; apply k_ret]. Qed.
  Lemma w_ekey b c n : keepsJ b (ekey P c n).
  Proof. apply k_ekey. Qed.
  Lemma w_flat b n d m c : flat d m -> keepsJ b (m_validate (interp P n m) c) /\ keepsJ b (m_transform (interp P n m) c).
  Proof.
    intros F. destruct (flat_ok P (prot b) (fun _ => True)) with (n := n) (d := d) (m := m) (c := c) as (V & T & _).
    - intros. apply w_call.
    - intros. apply quiet_ok.
    - intros. apply quiet_ok.
    - split; [exact F | trivial].
    - left. discriminate.
    - auto.
  Qed.

  Definition fit (d : nat) (m : mdf) (c : ctx) : Prop :=
    (goodt d m /\ good_ctx d c) \/ ((exists cl, m = MInstance cl) /\ c_original c <> VNone).
  Section Rec.
    Context (n : nat).
    Notation rec := (interp P n).
    Hypothesis IH : forall b d m c, fit d m c -> cok b c -> keepsJ b (m_transform (rec m) c).

    Lemma w_t_transform b d ts c : goods d ts -> c_fdef c = fdef_of ts -> cok b c -> keepsJ b (t_transform rec ts c).
    Proof.
      intros G E C. pose proof (goods_ctx R d ts c E G) as GC. destruct G as [L G].
      assert (Ok1 : forall v y, In v (map rec ts) -> keepsJ b (m_transform v (nval c y))).
      { intros v y Hv. apply in_map_iff in Hv. destruct Hv as (m & <- & Hm). apply (IH b d); [left; split; [apply G, Hm | exact GC] | exact C]. }
      unfold t_transform, chain_transform. apply k_bind; [| intros v1].
      - apply k_fold. intros y v Hv. unfold vt. apply k_bind; [apply Ok1, tvs_in, Hv |]. intros a. apply k_bind; [| intros; apply k_ret].
        destruct (tvs_early P n ts v Hv) as (m & pre & post & -> & Hm & Ets).
        assert (Np : part m = false) by (specialize (L pre post Ets m Hm); destruct m; try reflexivity; contradiction).
        apply (w_flat b n d m). destruct (G m) as [T _]; [rewrite Ets; apply in_or_app; left; exact Hm |].
        destruct d; [contradiction |]. destruct m; try discriminate Np; exact T.
      - apply k_fold. intros y v Hv. apply Ok1, nvs_in, Hv.
    Qed.
    Lemma w_field b c v n0 e g t o c0 d0 : p_ct P c0 = Some d0 -> In g (cd_fields d0) -> cfok b c ->
      keepsJ b (t_transform rec (fl_types g) (nextvo c v n0 e (fl_fdef g) t o)).
    Proof.
      intros E I C. destruct (LC _ _ _ E I) as [L1 L2]. apply w_t_transform with (d := D); [| reflexivity |].
      - split; [exact L1 | intros m Hm; split; [apply (TC _ _ _ _ E I Hm) | split; [apply L2, Hm | apply (LR _ _ _ _ E I Hm)]]].
      - split; [exact C | intros _; discriminate].
    Qed.
    Lemma w_fill_default b c o g c0 d0 : p_ct P c0 = Some d0 -> In g (cd_fields d0) -> cfok b c -> (o = x -> fl_name g <> k) -> keepsJ b (fill_default P rec g o c).
    Proof.
      intros E I C N. unfold fill_default. destruct (fl_default g); try (apply w_setattr; exact N).
      apply k_bind; [apply w_ekey | intros]. apply k_bind; [apply k_getW | intros]. apply k_bind; [| intros; apply w_setattr; exact N].
      destruct (LC _ _ _ E I) as [L1 L2]. apply w_t_transform with (d := D); [| reflexivity |].
      - split; [exact L1 | intros m Hm; split; [apply (TC _ _ _ _ E I Hm) | split; [apply L2, Hm | apply (LR _ _ _ _ E I Hm)]]].
      - split; [exact C | intros _; discriminate].
    Qed.
    Lemma w_fill_default' b c o g c0 d0 : p_ct P c0 = Some d0 -> In g (cd_fields d0) -> cfok b c -> o <> x -> keepsJ b (fill_default P rec g o c).
    Proof. intros E I C N. apply w_fill_default with (c0 := c0) (d0 := d0); try assumption. contradiction. Qed.
    Lemma w_create b c kw : yields (prot b) (fun o => o <> x) (create P (m_transform (rec (MInstance c))) c kw).
    Proof.
      unfold create. apply y_pre; [apply k_class_named | intros d]. destruct (cd_abstract d); [apply y_throw; split; discriminate |].
      apply y_bind with (fun o => o <> x); [apply w_alloc |]. intros o No. apply y_pre; [| intros _].
      - apply k_for. intros g Hg. unfold init_field. apply k_bind.
        + destruct (is_calc g); [apply k_ret | apply w_setattr; contradiction].
        + intros _. destruct (is_local g); [| apply k_ret]. apply w_liftH. apply f_updm. contradiction.
      - apply y_pre; [| intros _; apply y_ret; exact No]. unfold set_with. apply k_bind; [apply k_getW | intros c1]. apply k_bind; [apply k_getW | intros op].
        apply k_bind; [| intros; apply k_ret]. apply w_new with true.
        apply (IH true 1%nat); [right; split; [eexists; reflexivity | discriminate] | split; [discriminate | intros _ X; inversion X; contradiction]].
    Qed.
    Lemma w_new_default b c : yields (prot b) (fun o => o <> x) (new_default P rec c).
    Proof.
      unfold new_default. apply y_bind with (fun o => o <> x); [apply w_create |]. intros o No.
      apply y_pre; [apply w_graph_put | intros; apply y_ret, No].
    Qed.
    Lemma w_find_dest b c cl d m : (c_original c = VNone -> R cl) -> cok b c -> yields (prot b) (fun os => b = true -> fst os <> x) (find_dest P rec c cl d m).
    Proof.
      intros Rc [C1 C2]. unfold find_dest. cbv zeta.
      match goal with |- context [is_none ?e] => generalize e end. intros pv.
      assert (X : forall v, (b = true -> v <> VObj x) -> yields (prot b) (fun os : oid * bool => b = true -> fst os <> x)
        (do* o <- the_obj v; (if is_none pv then ret tt else mg_putp P pv o) >> ret (o, false))).
      { intros v Hv. apply y_bind with (fun o => b = true -> o <> x).
        - unfold the_obj. destruct v; try (apply y_throw; split; discriminate). apply y_ret. intros E N. apply (Hv E). rewrite N. reflexivity.
        - intros o Ho. apply y_pre; [destruct (is_none pv); [apply k_ret | apply w_putp, Ho] | intros; apply y_ret; exact Ho]. }
      destruct (c_original c) eqn:Ec; try (apply X; exact C2). clear X.
      destruct (is_none pv).
      - apply y_bind with (fun o => o <> x); [apply w_new_default |]. intros o No.
        apply y_pre; [apply w_put; auto | intros; apply y_ret; auto].
      - apply y_bind with (fun e => b = true -> e <> Some x).
        + unfold mg_getp. intros w Hw. split; [split; [exact Hw | apply louder_ok] |]. intros a Ea E N. injection Ea as Ea. rewrite N in Ea. apply (proj2 Hw E _ _ (Rc eq_refl) Ea).
        + intros e He. destruct e as [o |].
          * apply y_ret. intros E N. cbn in N. apply (He E). rewrite N. reflexivity.
          * apply y_bind with (fun o => o <> x); [apply w_new_default |]. intros o No.
            apply y_pre; [apply w_putp; auto | intros; apply y_ret; auto].
    Qed.

    (** one field of the object [o] of class [c0] *)
    Lemma w_fill_field b c m o soft c0 d0 g acc : p_ct P c0 = Some d0 -> In g (cd_fields d0) -> cok b c ->
      (b = true -> o <> x) -> (o = x -> c0 = cls) -> (forall s, In s acc -> o = x -> s <> k) ->
      yields (prot b) (fun acc' => forall s, In s acc' -> o = x -> s <> k) (fill_field P rec c m o soft acc g).
    Proof.
      intros E I C No Nc Hacc. pose proof (proj1 C) as Cg.
      assert (Gf : o = x -> fl_name g = k -> g = f).
      { intros Eo Eg. rewrite (Nc Eo) in E. destruct Fd as (d & Ed & _ & U). rewrite E in Ed. inversion Ed; subst. apply U; assumption. }
      assert (Pp : is_ref (fl_fdef f) = false /\ is_calc f = false).
      { unfold plain_field in Fp. apply andb_prop in Fp. destruct Fp as [P1 P2]. apply Bool.negb_true_iff in P1, P2. auto. }
      unfold fill_field. destruct (has_field_value g m).
      - cbv zeta. destruct (Nat.eq_dec o x) as [Eo | Eo]; [destruct (string_dec (fl_name g) k) as [Eg | Eg] |].
        + (* the protected field itself *)
          rewrite (Gf Eo Eg) in *. subst o. destruct b; [contradiction (No eq_refl eq_refl) |].
          eapply y_bind; [apply write_ok, (proj2 (Cg eq_refl)) |]. intros ok Hok. cbv beta in Hok. apply y_pre; [| intros; apply y_ret, Hacc].
          destruct ok; [| rewrite (proj1 (Cg eq_refl)); apply k_ret].
          apply k_bind; [apply w_ekey | intros e]. apply k_bind; [apply k_getW | intros c1].
          set (c' := nextvo _ _ _ _ _ _ _).
          assert (T : yields (prot false) (fun y => A (Some y)) (t_transform rec (fl_types f) c')).
          { apply y_and; [unfold c'; apply (w_field false) with (c0 := c0) (d0 := d0); assumption |].
            intros w a w' _ Et. apply (Hok eq_refl n c' w a w'); [reflexivity | exact Et]. }
          apply (y_back (prot false) (fun _ => True)). eapply y_bind; [exact T |]. intros y Hy. cbv beta in Hy. apply y_keeps.
          rewrite (proj2 Pp), Fk. apply w_setheld, Hy.
        + apply y_pre; [apply w_may_write | intros ok]. apply y_pre; [| intros; apply y_ret, Hacc].
          destruct ok.
          * apply k_bind; [apply w_ekey | intros e]. apply k_bind; [apply k_getW | intros c1].
            apply k_bind; [apply (w_field b) with (c0 := c0) (d0 := d0); assumption |]. intros y. destruct (is_calc g); [apply k_ret | apply w_setattr; auto].
          * destruct b; [contradiction (No eq_refl Eo) | rewrite (proj1 (Cg eq_refl)); apply k_ret].
        + apply y_pre; [apply w_may_write | intros ok]. apply y_pre; [| intros; apply y_ret, Hacc].
          destruct ok.
          * apply k_bind; [apply w_ekey | intros e]. apply k_bind; [apply k_getW | intros c1].
            apply k_bind; [apply (w_field b) with (c0 := c0) (d0 := d0); assumption |]. intros y. destruct (is_calc g); [apply k_ret | apply w_setattr; contradiction].
          * match goal with |- keepsJ b (if ?q then _ else _) => destruct q end; [| apply k_ret]. apply w_fill_default' with (c0 := c0) (d0 := d0); assumption.
      - unfold absent_field. cbv zeta. destruct (is_ref (fl_fdef g)) eqn:Er.
        + assert (Nk : o = x -> fl_name g <> k) by (intros Eo Eg; rewrite (Gf Eo Eg), (proj1 Pp) in Er; discriminate Er).
          apply y_pre.
          * destruct (is_local g); [| apply k_ret]. pose proof (on_keys _ _ ON _ _ _ E I) as Nr.
            apply k_bind; [destruct (get_or_none (fl_ref g) m); try apply k_ret; apply w_setattr; auto | intros _].
            destruct (get_or_none (fl_cref g) m); try apply k_ret; apply w_setattr; auto.
          * intros _. apply y_ret. match goal with |- context [if ?q then _ else _] => destruct q end; [| exact Hacc].
            intros s Hs. apply in_app_iff in Hs. destruct Hs as [Hs | [<- | []]]; [apply Hacc, Hs | exact Nk].
        + apply y_pre; [| intros; apply y_ret, Hacc]. destruct b; [| rewrite (proj1 (Cg eq_refl)); apply k_ret].
          match goal with |- keepsJ _ (if ?q then _ else _) => destruct q end; [| apply k_ret].
          apply w_fill_default' with (c0 := c0) (d0 := d0); auto.
    Qed.

    Lemma w_inst b dp c : (c_original c = VNone -> good_ctx (S dp) c) -> cok b c -> keepsJ b (inst_transform P rec c).
    Proof.
      intros G C. unfold inst_transform. destruct (c_val c); try apply k_ret.
      unfold inst_cls. destruct (f_inst (c_fdef c)) as [cl |] eqn:Ei; [| intros w Hw; split; [exact Hw | apply quiet_ok]].
      assert (Rc : c_original c = VNone -> R cl) by (intros Eo; exact (inst_good R dp c cl (G Eo) Ei)).
      apply (k_retb (prot b)). apply k_bind; [apply k_class_named | intros d0].
      apply (y_back (prot b) (fun _ => True)). eapply y_bind; [apply w_find_dest; assumption |].
      intros [o soft] No. cbn [fst] in No. apply y_getW. intros w Hw. unfold wcdef, cdef_of.
      apply y_pre. { destruct (is_strict c d0); [| apply k_ret]. unfold strictness_check. destruct (find _ _); [apply k_throw; split; discriminate | apply k_ret]. }
      intros _. eapply y_bind with (R := fun acc' => forall s, In s acc' -> o = x -> s <> k).
      - apply (y_fold (prot b) (fun _ acc' => forall s, In s acc' -> o = x -> s <> k)); [| intros s []].
        intros pre g post acc Ef Hacc. destruct (p_ct P (o_class (h_obj (w_heap w) o))) as [d1 |] eqn:Ed.
        + apply w_fill_field with (c0 := o_class (h_obj (w_heap w) o)) (d0 := d1); try assumption.
          * rewrite Ef. apply in_or_app. right. left. reflexivity.
          * intros ->. apply (he_class _ _ _ _ _ _ (proj1 Hw)).
        + destruct pre; discriminate Ef.
      - intros refs Hr. apply y_pre; [| intros; apply y_ret; exact Logic.I]. apply k_for. intros s Hs.
        apply k_bind; [apply w_getattr | intros cur]. destruct (is_none cur); [apply w_setattr, Hr, Hs | apply k_ret].
    Qed.

    Lemma w_key_op b o n0 add q : keepsJ b (local_key_op P o n0 add q).
    Proof.
      unfold local_key_op. apply k_getW_bind. intros w Hw. unfold wcdef, cdef_of.
      apply (y_back (prot b) (fun _ => True)). eapply y_bind with (R := fun g => fl_ref g <> k).
      - unfold named. destruct (p_ct P (o_class (h_obj (w_heap w) o))) as [d1 |] eqn:Ed; [| apply y_throw; split; discriminate].
        destruct (field_named n0 d1) as [g |] eqn:Eg; [| apply y_throw; split; discriminate].
        unfold field_named in Eg. apply find_some in Eg. destruct Eg as [Eg _]. apply in_rev in Eg.
        apply y_ret, (on_keys _ _ ON _ _ _ Ed Eg).
      - intros g Nr. apply y_keeps. apply k_bind; [apply w_getattr | intros cur]. destruct add.
        + apply k_bind; [destruct (is_none cur); [apply w_setattr; auto | apply k_ret] |]. intros _. apply w_liftH, run_off; cbn; auto.
        + destruct (is_none cur); [apply k_ret |]. apply w_liftH, run_off; cbn; auto.
    Qed.
    Lemma w_link_op b o n0 add q : keepsJ b (link_key_op o n0 add q).
    Proof. unfold link_key_op. apply w_modW. intros w H. exact H. Qed.
    Lemma w_special b c v : keepsJ b (special_handle P c v).
    Proof.
      unfold special_handle. apply k_bind; [apply k_lift, quiet_ok | intros kk]. apply k_bind; [apply k_the_obj | intros o]. cbv zeta.
      destruct v as [ | | | | | | | | | md | | ]; try apply k_ret. destruct (sget "_add" md); [| destruct (sget "_del" md); [| apply k_ret]];
        (destruct (fstore_eqb _ _); [apply w_key_op | apply w_link_op]).
    Qed.
    Lemma w_col b d dict c : good_ctx (S d) c -> cok b c -> keepsJ b (col_transform P rec dict c).
    Proof.
      intros G C. unfold col_transform.
      assert (X : forall v, keepsJ b (match col_items dict v with
          | None => ret v
          | Some its =>
              fold_st (fun acc kv =>
                if special dict c (snd kv) then special_handle P c (snd kv) >> ret acc
                else do* ts <- items_of c; col_item P (t_transform rec) c v ts acc kv)
                its (empty_col dict)
          end)).
      { intros v. destruct (col_items dict v) as [its |]; [| apply k_ret]. apply k_fold. intros acc kv _.
        destruct (special dict c (snd kv)); [apply k_bind; [apply w_special | intros; apply k_ret] |].
        unfold items_of. destruct (item_types (c_fdef c)) as [ts |] eqn:Et; [| intros w Hw; split; [exact Hw | apply quiet_ok]].
        intros w Hw. change ((do* ts <- ret ts; col_item P (t_transform rec) c v ts acc kv) w) with (col_item P (t_transform rec) c v ts acc kv w). revert w Hw.
        change (keepsJ b (col_item P (t_transform rec) c v ts acc kv)). unfold col_item. apply k_bind; [| intros; apply k_bind; [apply k_cdef_v | intros; apply k_ret]].
        assert (C' : cok b (colval c (snd kv) (fst kv) (fdef_of ts) v)) by (split; [apply C | intros _; discriminate]).
        destruct (items_good R d c ts G Et) as [T | T]; eapply w_t_transform; try exact T; try reflexivity; exact C'. }
      destruct (c_val c); try apply X. apply k_ret.
    Qed.
    Lemma w_union b d c : good_ctx (S d) c -> cok b c -> keepsJ b (union_transform rec c).
    Proof.
      intros G C. unfold union_transform.
      assert (X : keepsJ b (union_transform_loop rec (f_union (c_fdef c)) c)).
      { assert (H : forall ts, In ts (f_union (c_fdef c)) -> goods d ts) by (intros ts; apply (union_good R d c ts G)).
        revert H. generalize (f_union (c_fdef c)). induction l as [| ts us IHl]; intros H; cbn [union_transform_loop]; [apply k_ret |].
        apply k_on_any; [| apply IHl; intros t Ht; apply H; right; exact Ht].
        apply w_t_transform with d; [apply H; left; reflexivity | reflexivity | exact C]. }
      destruct (c_val c); try exact X. apply k_ret.
    Qed.
  End Rec.

  Theorem w_transform n : forall b d m c, fit d m c -> cok b c -> keepsJ b (m_transform (interp P n m) c).
  Proof.
    induction n as [| n IH]; intros b d m c [[G GC] | [[cl ->] No]] C; try (apply k_throw; split; discriminate).
    - destruct d as [| d]; [contradiction (proj1 G) |]. destruct (part m) eqn:Np.
      + destruct m; try discriminate Np; cbn [interp modif_of m_transform transform_of].
        * apply w_inst with d; auto.
        * apply w_col with d; assumption.
        * apply w_col with d; assumption.
        * apply w_union with d; assumption.
      + apply (w_flat b (S n) (S d) m). destruct m; try discriminate Np; exact (proj1 G).
    - cbn [interp modif_of m_transform transform_of]. apply w_inst with 0%nat; [exact IH | intros Eo; contradiction (No Eo) | exact C].
  Qed.

  Hypothesis lax_on : lax = true.
  Lemma w_set_fields n o kw : keepsJ false (set_fields P n o kw false).
  Proof.
    unfold set_fields. apply k_bind; [apply k_getW | intros c0]. unfold set_with. apply k_bind; [apply k_getW | intros c1].
    apply k_bind; [apply k_getW | intros op]. apply k_bind; [| intros; apply k_ret]. apply w_new with false.
    apply w_transform with (d := 1%nat); [right; split; [eexists; reflexivity | discriminate] | split; [intros _; split; [reflexivity | exact lax_on] | discriminate]].
  Qed.

  Lemma w_container n o a v into : forall items p used dest d, (items <> [] -> o = x -> a <> k) ->
    (forall y its pre, items = pre ++ its -> keepsJ false (into y its v)) ->
    keepsJ false (set_in_container P n o a p used dest items v d into).
  Proof.
    induction items as [| i items IHi]; intros p used dest d Na Hi; cbn [set_in_container].
    - destruct (f_ftype d) as [[] |]; try apply k_ret; destruct dest; try (apply k_throw; split; discriminate).
      apply (Hi o0 [] []). reflexivity.
    - assert (Na' : o = x -> a <> k) by (apply Na; discriminate).
      assert (Hi' : forall y its pre, items = pre ++ its -> keepsJ false (into y its v)) by (intros y its pre E; apply (Hi y its (i :: pre)); rewrite E; reflexivity).
      destruct (f_ftype d) as [[] |]; try apply k_ret; destruct dest; try (apply k_throw; split; discriminate).
      + destruct items as [| i2 items].
        * apply k_bind; [apply k_lift, quiet_ok | intros z]. apply w_liftH, run_off; assumption.
        * destruct (item_types d) as [it |]; [| apply k_throw; split; discriminate]. apply k_bind; [apply k_lift, quiet_ok | intros z]. cbv zeta.
          match goal with |- keepsJ _ (if ?q then _ else _) => destruct q end; [| apply k_throw; split; discriminate].
          destruct (nth_error _ _) as [y |]; [| apply k_throw; split; discriminate]. apply IHi; [intros _; exact Na' | exact Hi'].
      + destruct items as [| i2 items].
        * apply w_liftH, run_off; assumption.
        * destruct (item_types d) as [it |]; [| apply k_throw; split; discriminate].
          destruct (sget i _) as [y |]; [| apply k_throw; split; discriminate]. apply IHi; [intros _; exact Na' | exact Hi'].
      + apply (Hi o0 (i :: items) []). reflexivity.
  Qed.
  Lemma w_keypath1 n : forall q o items v, Forall good_key items -> ~ In k (removelast items) -> keepsJ false (keypath_set1 P n q o items v).
  Proof.
    induction q as [| q IHq]; intros o items v G N; cbn [keypath_set1]; [apply k_throw; split; discriminate |].
    destruct items as [| a rest]; [apply k_throw; split; discriminate |].
    apply k_bind; [apply w_getattr | intros dest]. apply k_bind; [apply k_getW | intros d]. apply k_bind; [apply k_named | intros g].
    apply w_container.
    - intros Nr _ Ea. apply N. rewrite Ea. destruct rest; [contradiction | left; reflexivity].
    - intros y its pre E.
      assert (Gi : Forall good_key its). { inversion G; subst. apply Forall_app in H2. tauto. }
      assert (Ki : keepsJ false (keypath_set1 P n q y (keypath_split (join "." its)) v)).
      { destruct its as [| i its]; [apply IHq; [constructor | intros []] |].
        rewrite split_join_good; [| exact Gi | discriminate]. apply IHq; [exact Gi |]. intros I. apply N. rewrite E.
        change (a :: pre ++ i :: its) with ((a :: pre) ++ i :: its). rewrite removelast_app; [| discriminate]. apply in_or_app. right. exact I. }
      destruct its as [| i [| j its]]; [exact Ki | apply w_set_fields | exact Ki].
  Qed.
  Theorem w_jset n o kw : avoids k kw -> keepsJ false (jset P n o kw).
  Proof.
    intros Av. unfold jset. apply k_bind; [apply w_set_fields | intros _]. unfold keypath_set. apply k_for. intros [key v] Hk.
    apply w_keypath1; [apply split_components | apply (Av key v Hk)].
  Qed.
End World.
