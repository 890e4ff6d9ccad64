(** InErrProofs.v -- where the messages of a validation error of the constructor or of [set]
    come from. *)
From Verif Require Import Base Mon PyList PyDict StrDict OListModel ODictModel KeypathModel KeypathSpec KeypathProofs Values OGraphModel MGraphModel
  MGraphProofs ChainModel TypesModel TypesSpec TypesProofs ObjModel ObjSpec IoModel IoBase Sound LeafSound TameSpec Keep TameProofs
  WriteSpec WriteProofs ReachSpec ReportSpec ReportProofs MakeSpec MakeProofs StrictSpec StrictProofs Say InErrSpec.
From Verif Require LeafModel Mute ObjSound.
From Coq Require Import Lia.
Open Scope list_scope.

Lemma same_refl h : same_classes h h.
Proof. split; [lia | reflexivity]. Qed.
Lemma same_trans a b c : same_classes a b -> same_classes b c -> same_classes a c.
Proof. intros [A1 A2] [B1 B2]. split; [lia |]. intros o L. rewrite B2 by lia. apply A2, L. Qed.

(** Which modifiers of a chain transformation runs, in which order *)
Lemma chain_parts P n ts : exists a b r, ts = a ++ b ++ r /\ tvs (map (interp P n) ts) = map (interp P n) a /\
  nvs (map (interp P n) ts) = map (interp P n) b /\ (a = [] \/ In MEager (b ++ r)).
Proof.
  unfold tvs, nvs. destruct (levidx (map (interp P n) ts)) as [i |] eqn:E.
  - set (hi := match fpvidx _ with Some j => j | None => _ end).
    exists (firstn i ts), (firstn (hi - i) (skipn i ts)), (skipn (hi - i) (skipn i ts)).
    rewrite !firstn_skipn, firstn_map, skipn_map, firstn_map. split; [reflexivity | split; [reflexivity | split; [reflexivity |]]]. right.
    destruct (last_split _ _ _ E) as (u & post & E1 & E2). rewrite firstn_map in E1. rewrite <- (firstn_skipn i ts) in E1 at 1.
    rewrite map_app in E1. apply app_inv_head in E1. destruct (skipn i ts) as [| e r] eqn:Es; [discriminate E1 |]. cbn [map] in E1.
    inversion E1; subst. rewrite interp_kind in E2. left. destruct e; try discriminate E2. reflexivity.
  - set (hi := match fpvidx _ with Some j => j | None => _ end).
    exists [], (firstn (hi - 0) (skipn 0 ts)), (skipn (hi - 0) (skipn 0 ts)).
    rewrite firstn_skipn, skipn_map, firstn_map. cbn [app skipn map]. auto.
Qed.

Lemma any_held d : forall m, tame d m -> holds_only (fun _ => True) d m.
Proof.
  induction d as [| d IH]; intros m T; [exact T |]. destruct m; cbn in *; try exact Logic.I.
  - intros y Hy. apply IH, T, Hy.
  - intros y Hy. apply IH, T, Hy.
  - intros us y Hu Hy. apply IH, (T us y Hu Hy).
Qed.

Lemma items_numbered l k u : In (k, u) (enum_list 0 l) -> exists i, k = KInt (Z.of_nat i) /\ nth_error l i = Some u.
Proof.
  assert (G : forall l z, In (k, u) (enum_list z l) -> exists i, k = KInt (z + Z.of_nat i) /\ nth_error l i = Some u).
  { clear l. induction l as [| v l IH]; intros z H; cbn in H; [contradiction |]. destruct H as [H | H].
    - inversion H; subst. exists 0%nat. split; [f_equal; lia | reflexivity].
    - destruct (IH _ H) as (i & -> & E). exists (S i). split; [f_equal; lia | exact E]. }
  intros H. exact (G l 0%Z H).
Qed.

Section InErr.
  Context (P : program) (D : nat) (cls0 : string) (kw0 : list (string * value)).
  Hypothesis PO : polite P.
  Hypothesis TC : tame_classes D P.
  Hypothesis LC : late_classes D P.
  Instance silent4 : manner := Silent.
  Notation given := (given P cls0 kw0).
  Notation refused := (refused P cls0 kw0).
  Notation unknown_key := (unknown_key P cls0 kw0).
  Notation made := (made P).
  Notation good := (goods (fun _ => True)).

  Definition explained (kp msg : string) : Prop :=
    (exists path ts v u m fuel c, kp = skp path /\ refused path msg ts v u m fuel c) \/
    (exists names k, kp = concat_keypath [KStr (skp names); KStr k] /\ msg = "key is not allowed"%string /\ unknown_key names k).
  Definition fine_err (h : bool) {A} (r : res A) : Prop :=
    h = true -> forall l, r = Err (EValidation l) -> forall kp msg, In (kp, msg) l -> explained kp msg.
  Lemma fine_ok h {A} (a : A) : fine_err h (Ok a).
  Proof. intros _ l E. discriminate E. Qed.
  Lemma fine_any h {A B} e : @fine_err h A (Err e) -> @fine_err h B (Err e).
  Proof. intros H X l E. injection E as ->. apply (H X l eq_refl). Qed.
  Lemma fine_mute h {A} (r : res A) : Mute.muted r -> fine_err h r.
  Proof. intros H _ l ->. contradiction (H _ eq_refl). Qed.

  (** *** The logic *)
  Definition alive (f : oid * string) (w : world) : Prop :=
    (fst f < h_next (w_heap w))%nat /\ o_class (h_obj (w_heap w) (fst f)) = snd f.
  Definition facts (L : list (oid * string)) (w : world) : Prop := forall f, In f L -> alive f w.
  Definition mg_ok (b : bool) (w : world) : Prop := b = true -> forall c p o, m_getp c p (w_mg w) = Some o -> alive (o, c) w.
  Definition stable (w w' : world) : Prop := same_classes (w_heap w) (w_heap w').
  Lemma alive_stable f w w' : stable w w' -> alive f w -> alive f w'.
  Proof. intros [S1 S2] [A1 A2]. split; [lia | rewrite S2; assumption]. Qed.
  Lemma facts_stable L w w' : stable w w' -> facts L w -> facts L w'.
  Proof. intros S H f Hf. apply (alive_stable f w w' S), H, Hf. Qed.
  Lemma mg_stable b w w' : w_mg w' = w_mg w -> stable w w' -> mg_ok b w -> mg_ok b w'.
  Proof. intros E S H B c p o X. rewrite E in X. apply (alive_stable _ w w' S), (H B c p o X). Qed.

  Definition gives (b h : bool) (L : list (oid * string)) {T} (F : T -> list (oid * string)) (Q : T -> Prop) (m : st world T) : Prop :=
    forall w, mg_ok b w -> facts L w -> let r := m w in
      mg_ok b (snd r) /\ stable w (snd r) /\ fine_err h (fst r) /\ forall a, fst r = Ok a -> facts (F a) (snd r) /\ Q a.
  Definition goes (b h : bool) (L : list (oid * string)) {T} (m : st world T) : Prop := gives b h L (fun _ => []) (fun _ => True) m.
  Lemma no_facts w : facts [] w.
  Proof. intros f []. Qed.

  Lemma g_ret b h L {T} (a : T) : goes b h L (ret a).
  Proof. intros w M H. cbn. split; [exact M | split; [apply same_refl | split; [apply fine_ok |]]]. intros a' _. split; [apply no_facts | exact Logic.I]. Qed.
  Lemma g_retF b h L {T} (a : T) (F : T -> list (oid * string)) (Q : T -> Prop) : (forall f, In f (F a) -> In f L) -> Q a -> gives b h L F Q (ret a).
  Proof.
    intros Hf Hq w M H. cbn. split; [exact M | split; [apply same_refl | split; [apply fine_ok |]]]. intros a' E. inversion E; subst.
    split; [intros f X; apply H, Hf, X | exact Hq].
  Qed.
  Lemma g_throw b h L {T} e : Mute.mute e -> goes b h L (@throw world T e).
  Proof.
    intros M0 w M H. cbn. split; [exact M | split; [apply same_refl | split; [apply fine_mute; intros e' E; inversion E; subst; exact M0 |]]]. discriminate.
  Qed.
  Lemma g_lift b h L {T} (r : res T) : Mute.muted r -> goes b h L (@lift world T r).
  Proof.
    intros M0 w M H. cbn. split; [exact M | split; [apply same_refl | split; [apply fine_mute, M0 |]]]. intros; split; [apply no_facts | exact Logic.I].
  Qed.
  Lemma g_more b h L L' {T} F Q (m : st world T) : (forall f, In f L -> In f L') -> gives b h L F Q m -> gives b h L' F Q m.
  Proof. intros I H w M X. apply H; [exact M | intros f Hf; apply X, I, Hf]. Qed.
  Lemma g_less b h L {T} F Q (m : st world T) : gives b h L F Q m -> goes b h L m.
  Proof.
    intros H w M X. destruct (H w M X) as (A & B & C & _). split; [exact A | split; [exact B | split; [exact C |]]].
    intros; split; [apply no_facts | exact Logic.I].
  Qed.
  Lemma g_bind b h L {T U} (F : T -> list (oid * string)) (Q : T -> Prop) F' Q' (m : st world T) (k : T -> st world U) :
    gives b h L F Q m -> (forall a, Q a -> gives b h (F a ++ L) F' Q' (k a)) -> gives b h L F' Q' (bind m k).
  Proof.
    intros Hm Hk w M X. unfold bind. destruct (Hm w M X) as (A & B & C & E). destruct (m w) as [[a | e] w1]; cbn [fst snd] in *.
    - destruct (E a eq_refl) as [E1 E2]. destruct (Hk a E2 w1 A) as (A' & B' & C' & E').
      + intros f Hf. apply in_app_iff in Hf. destruct Hf as [Hf | Hf]; [apply E1, Hf | apply (facts_stable L w w1 B X f Hf)].
      + split; [exact A' | split; [exact (same_trans _ _ _ B B') | split; [exact C' | exact E']]].
    - split; [exact A | split; [exact B | split; [exact (fine_any h e C) | discriminate]]].
  Qed.
  (** the same, with nothing new known *)
  Lemma g_then b h L {T U} F' Q' (m : st world T) (k : T -> st world U) :
    goes b h L m -> (forall a, gives b h L F' Q' (k a)) -> gives b h L F' Q' (bind m k).
  Proof. intros Hm Hk. apply (g_bind b h L (fun _ => []) (fun _ => True)); [exact Hm |]. intros a _. apply Hk. Qed.
  Lemma g_run b h L {T} (m : st world T) : goes b h L m -> gives b h L (fun _ => []) (fun a => exists w w', m w = (Ok a, w')) m.
  Proof.
    intros H w M X. destruct (H w M X) as (A & B & C & _). split; [exact A | split; [exact B | split; [exact C |]]].
    intros a E. split; [apply no_facts |]. exists w, (snd (m w)). rewrite <- E. apply surjective_pairing.
  Qed.
  Lemma g_for b h L {T} (l : list T) (f : T -> st world unit) : (forall x, In x l -> goes b h L (f x)) -> goes b h L (for_st l f).
  Proof.
    induction l as [| x l IH]; intros H; cbn [for_st]; [apply g_ret |]. apply g_then; [apply H; left; reflexivity |].
    intros _. apply IH. intros y Hy. apply H. right. exact Hy.
  Qed.
  Lemma g_fold b h L {T B} (f : B -> T -> st world B) (l : list T) : (forall y x, In x l -> goes b h L (f y x)) -> forall y, goes b h L (fold_st f l y).
  Proof.
    induction l as [| x l IH]; intros H y; cbn [fold_st]; [apply g_ret |]. apply g_then; [apply H; left; reflexivity |].
    intros y'. apply IH. intros y0 z Hz. apply H. right. exact Hz.
  Qed.
  Lemma g_on_any b h L {T} (m k : st world T) : goes b false L m -> goes b h L k -> goes b h L (on_any m k).
  Proof.
    intros Hm Hk w M X. unfold on_any. destruct (Hm w M X) as (A & B & _). destruct (m w) as [[a | e] w1]; cbn [fst snd] in *.
    - split; [exact A | split; [exact B | split; [apply fine_ok |]]]. intros; split; [apply no_facts | exact Logic.I].
    - destruct (Hk w1 A (facts_stable L w w1 B X)) as (A' & B' & C' & E'). split; [exact A' | split; [exact (same_trans _ _ _ B B') | auto]].
  Qed.
  Lemma g_getW b h L {T} (q : world -> T) : goes b h L (getW q).
  Proof. intros w M H. split; [exact M | split; [apply same_refl | split; [apply fine_ok |]]]. intros; split; [apply no_facts | exact Logic.I]. Qed.
  Lemma g_class b h L o c : In (o, c) L -> gives b h L (fun _ => []) (fun a => a = c) (getW (fun w => wclass w o)).
  Proof.
    intros I w M H. split; [exact M | split; [apply same_refl | split; [apply fine_ok |]]]. intros a E. split; [apply no_facts |].
    inversion E. apply (H _ I).
  Qed.
  Lemma g_cdef b h L o c d : In (o, c) L -> p_ct P c = Some d -> gives b h L (fun _ => []) (fun a => a = d) (getW (fun w => wcdef P w o)).
  Proof.
    intros I Ed w M H. split; [exact M | split; [apply same_refl | split; [apply fine_ok |]]]. intros a E. split; [apply no_facts |].
    inversion E. unfold wcdef, cdef_of. destruct (H _ I) as [_ X]. cbn in X. rewrite X, Ed. reflexivity.
  Qed.
  Lemma g_modW b h L F : (forall w, mg_ok b w -> facts L w -> mg_ok b (F w) /\ stable w (F w)) -> goes b h L (modW F).
  Proof.
    intros H w M X. cbn. destruct (H w M X) as [A B]. split; [exact A | split; [exact B | split; [apply fine_ok |]]].
    intros; split; [apply no_facts | exact Logic.I].
  Qed.
  Lemma g_heap b h L {T} (m : st heap T) : (forall s, same_classes s (snd (m s)) /\ Mute.muted (fst (m s))) -> goes b h L (liftH m).
  Proof.
    intros H w M X. unfold liftH. destruct (H (w_heap w)) as [A B]. destruct (m (w_heap w)) as [r s]. cbn [fst snd] in *.
    assert (S : stable w (set_heap s w)) by exact A.
    split; [apply (mg_stable b w); [reflexivity | exact S | exact M] | split; [exact S | split; [apply fine_mute, B |]]].
    intros; split; [apply no_facts | exact Logic.I].
  Qed.

  (** *** Attributes *)
  Lemma mute_getter s o n : Mute.muted (p_getter P s o n).
  Proof. intros e E. destruct e; try exact Logic.I. contradiction (court_getter P (po_courteous P PO) _ _ _ _ E). Qed.
  Lemma run_goes b h L n t : goes b h L (liftH (run (p_ct P) (p_oeq P) (p_getter P) (p_setter P) (LeafModel.py_str (p_str P)) n t)).
  Proof.
    apply g_heap. apply Mute.run_muted_any.
    - apply same_refl.
    - apply same_trans.
    - intros o F s K. split; [cbn; lia |]. intros y _. cbn. destruct (Nat.eqb y o) eqn:E; [| reflexivity]. apply Nat.eqb_eq in E. subst y. apply (ObjSound.k_class _ _ (K _)).
    - intros g s. split; [cbn; lia | reflexivity].
    - apply mute_getter.
    - intros o n0 v s. split; [apply (po_setter_class P PO) |]. intros e E. destruct e; try exact Logic.I. contradiction (po_setter P PO _ _ _ _ _ E).
  Qed.
  Lemma g_setattr b h L o n v : goes b h L (setattr P o n v).
  Proof. apply run_goes. Qed.
  Lemma g_getattr b h L o n : goes b h L (getattr P o n).
  Proof.
    apply g_heap. intros s. unfold ObjModel.getattr. destruct (ofield (p_ct P) s o n) as [f |]; [destruct (is_calc f) |];
      (split; [apply same_refl |]); cbn [fst]; try apply mute_getter; destruct (attr s o n); intros e E; inversion E; exact Logic.I.
  Qed.
  Lemma g_call b h L k f c args : goes b h L (call P k f c args).
  Proof.
    unfold call. apply g_then; [apply g_modW; intros w M X; split; [exact M | apply same_refl] |]. intros _. apply g_heap. intros s.
    split; [apply (po_call_class P PO) |]. intros e E. destruct e; try exact Logic.I. contradiction (court_call P (po_courteous P PO) _ _ _ _ _ E).
  Qed.
  Lemma g_the_obj b h L v : goes b h L (the_obj v).
  Proof. unfold the_obj. destruct v; try (apply g_throw; exact Logic.I). apply g_ret. Qed.
  Lemma g_cdef_v b h L v : goes b h L (cdef_v P v).
  Proof. unfold cdef_v. apply g_then; [apply g_the_obj | intros; apply g_getW]. Qed.
  Lemma g_class_named b h L c : gives b h L (fun _ => []) (fun d => p_ct P c = Some d) (class_named P c).
  Proof.
    unfold class_named. destruct (p_ct P c) as [d |]; [apply g_retF; [intros f [] | reflexivity] |].
    intros w M H. cbn. split; [exact M | split; [apply same_refl | split; [apply fine_mute; intros e E; inversion E; exact Logic.I | discriminate]]].
  Qed.
  Lemma g_named b h L d n : goes b h L (named d n).
  Proof. unfold named. destruct (field_named n d); [apply g_ret | apply g_throw; exact Logic.I]. Qed.
  Definition own (v : value) (oc : string) (L : list (oid * string)) : Prop := match v with VObj a => In (a, oc) L | _ => True end.
  Lemma g_ekey b h L c oc n : own (c_owner c) oc L -> gives b h L (fun _ => []) (fun e => e = outname P oc n) (ekey P c n).
  Proof.
    intros O w M H. unfold ekey, cdef_v, the_obj. destruct (c_owner c) as [| | | | | | | | | | a |]; cbn;
      try (split; [exact M | split; [apply same_refl | split; [apply fine_mute; intros e E; inversion E; exact Logic.I | intros e E; discriminate E]]]).
    split; [exact M | split; [apply same_refl | split; [apply fine_ok |]]]. intros e E. split; [apply no_facts |]. inversion E.
    unfold wcdef, cdef_of, outname. destruct (H _ O) as [_ X]. cbn in X. rewrite X. destruct (p_ct P oc); reflexivity.
  Qed.

  (** *** Marks *)
  Lemma mg_put_ok b cn w o pk : mg_ok b w -> alive (o, cn o) w -> mg_ok b (set_mg (m_put cn o pk (w_mg w)) w).
  Proof.
    intros M A B c p y E. cbn [set_mg w_mg] in E. unfold m_getp, m_put, m_table in E. rewrite sget_sset in E.
    destruct (String.eqb_spec c (cn o)) as [-> | N]; [| apply (M B c p y); exact E].
    unfold t_getp, t_put in E. destruct pk as [q |]; cbn [t_putp by_key] in E; [| apply (M B (cn o) p y); exact E].
    rewrite sget_sset in E. destruct (String.eqb p q); [inversion E; subst; exact A | apply (M B (cn o) p y); exact E].
  Qed.
  Lemma g_mput b h L o c : In (o, c) L -> goes b h L (mg_put P o).
  Proof.
    intros I. apply g_modW. intros w M H. split; [| apply same_refl]. apply mg_put_ok; [exact M |]. destruct (H _ I) as [A B]. split; [exact A | reflexivity].
  Qed.
  Lemma g_putp b h L pv o c : In (o, c) L -> goes b h L (mg_putp P pv o).
  Proof.
    intros I. apply g_modW. intros w M H. split; [| apply same_refl].
    change (m_putp (cname_of w) (LeafModel.py_str (p_str P) pv) o (w_mg w)) with (m_put (cname_of w) o (Some (LeafModel.py_str (p_str P) pv)) (w_mg w)).
    apply mg_put_ok; [exact M |]. destruct (H _ I) as [A B]. split; [exact A | reflexivity].
  Qed.
  Lemma g_getp h L c pv : gives true h L (fun e => match e with Some o => [(o, c)] | None => [] end) (fun _ => True) (mg_getp P c pv).
  Proof.
    intros w M H. cbn. split; [exact M | split; [apply same_refl | split; [apply fine_ok |]]]. intros e E. split; [| exact Logic.I]. inversion E as [E1].
    destruct (m_getp c _ (w_mg w)) as [o |] eqn:X; intros f Hf; [| contradiction Hf]. destruct Hf as [<- | []]. apply (M eq_refl _ _ _ X).
  Qed.
  Lemma g_new b h L {T} (m : st world T) : goes true h L m -> goes b h L (with_new_mgraph m).
  Proof.
    intros H w M X. unfold with_new_mgraph. destruct (H (set_mg [] w)) as (A & B & C & _); [intros _ c p o E; discriminate E | exact X |].
    destruct (m (set_mg [] w)) as [r w1]. cbn [fst snd] in *. assert (S : stable w (set_mg (w_mg w) w1)) by exact B.
    split; [apply (mg_stable b w); [reflexivity | exact S | exact M] | split; [exact S | split; [exact C |]]]. intros; split; [apply no_facts | exact Logic.I].
  Qed.
  Lemma g_alloc b h L c : gives b h L (fun o => [(o, c)]) (fun _ => True) (fun w => let '(o, w') := alloc c w in (Ok o, w')).
  Proof.
    intros w M X. unfold alloc. destruct (new_graph (h_graph (w_heap w)) []) as [i g]. cbn [fst snd].
    assert (S : stable w (set_ext (h_next (w_heap w)) (fun _ => ext0) (set_heap
            {| h_obj := fun x => if Nat.eqb x (h_next (w_heap w)) then fresh_obj c else h_obj (w_heap w) x;
               h_next := Datatypes.S (h_next (w_heap w)); h_graph := point (h_next (w_heap w)) i g |} w))).
    { split; cbn; [lia |]. intros o L0. destruct (Nat.eqb_spec o (h_next (w_heap w))); [lia | reflexivity]. }
    split; [apply (mg_stable b w); [reflexivity | exact S | exact M] | split; [exact S | split; [apply fine_ok |]]].
    intros a E. inversion E; subst. split; [| exact Logic.I]. intros f [<- | []]. split; cbn; [lia | rewrite Nat.eqb_refl; reflexivity].
  Qed.
  Lemma g_graph_put b h L o : goes b h L (graph_put P o).
  Proof.
    apply g_modW. intros w M X. cbv zeta. match goal with |- context [g_put ?a ?b ?c ?d] => destruct (g_put a b c d) end.
    - assert (S : stable w (set_heap (with_graph (set_graph (h_graph (w_heap w)) (graph_of (h_graph (w_heap w)) o) a) (w_heap w)) w))
        by (split; [cbn; lia | reflexivity]).
      split; [| exact S]. apply (mg_stable b w); [reflexivity | exact S | exact M].
    - split; [exact M | apply same_refl].
  Qed.

  (** *** Modifiers that look at one value *)
  Lemma flat_state n d m c w : flat d m ->
    (w_mg (snd (m_validate (interp P n m) c w)) = w_mg w /\ stable w (snd (m_validate (interp P n m) c w))) /\
    (w_mg (snd (m_transform (interp P n m) c w)) = w_mg w /\ stable w (snd (m_transform (interp P n m) c w))).
  Proof.
    intros F. pose (I := fun w' => w_mg w' = w_mg w /\ stable w w').
    destruct (flat_ok P I (fun _ => True)) with (n := n) (d := d) (m := m) (c := c) as (V & T & _).
    - intros k f c0 args _ _ w1 [E1 E2]. split; [| intros e _; split; discriminate]. unfold call, bind, modW, liftH. cbn [w_heap].
      match goal with |- context [p_call P f c0 args ?h] => pose proof (po_call_class P PO f c0 args h) as X; destruct (p_call P f c0 args h) as [r h'] end.
      split; [exact E1 | exact (same_trans _ _ _ E2 X)].
    - intros h o0 n0 e _. split; discriminate.
    - intros op x y e _. split; discriminate.
    - split; [exact F | trivial].
    - left. discriminate.
    - split; [apply (V w) | apply (T w)]; (split; [reflexivity | apply same_refl]).
  Qed.
  Lemma flat_path n d m c w l : flat d m ->
    (fst (m_validate (interp P n m) c w) = Err (EValidation l) \/ fst (m_transform (interp P n m) c w) = Err (EValidation l)) ->
    forall kp msg, In (kp, msg) l -> kp = skp (c_fkr c).
  Proof.
    intros F H kp msg Hin. pose (K := fun k => k = skp (c_fkr c)).
    assert (T : tells K (m_validate (interp P n m) c) /\ tells K (m_transform (interp P n m) c)).
    { pose proof (po_courteous P PO) as CO. apply (flat_tells K P) with (d := d); try assumption; try reflexivity.
      - intros k f c0 args w1 e E. unfold call, bind, modW, liftH in E. cbn [w_heap] in E.
        match type of E with context [p_call P f c0 args ?h] => pose proof (court_call P CO f c0 args h) as X; destruct (p_call P f c0 args h) as [r h'] end.
        cbn [fst] in E, X. destruct e; try exact Logic.I. contradiction (X _ E).
      - intros h1 o1 n1 e E. destruct e; try exact Logic.I. contradiction (court_getter P CO _ _ _ _ E).
      - intros op a b e E. destruct e; try exact Logic.I. contradiction (court_arith P CO _ _ _ _ E). }
    assert (X : Forall (fun x => K (fst x)) l) by (destruct H as [H | H]; [exact (proj1 T w _ H) | exact (proj2 T w _ H)]).
    rewrite Forall_forall in X. exact (X _ Hin).
  Qed.

  (** *** The turn of a modifier *)
  Definition base (c : ctx) (d : nat) (ts : types) (oc : string) (L : list (oid * string)) : Prop :=
    good d ts /\ c_fdef c = fdef_of ts /\ own (c_owner c) oc L.
  Definition turn (h : bool) (d : nat) (pre : types) (m : mdf) (post : types) (v : value) (c : ctx) (oc : string) (L : list (oid * string)) : Prop :=
    base c d (pre ++ m :: post) oc L /\
    (h = true -> given (c_fkr c) (c_kr c) (pre ++ m :: post) v oc /\ made pre v (c_val c)) /\
    (c_original c = VNone \/ exists x cls, pre = [] /\ m = MInstance cls /\ post = [] /\ c_original c = VObj x /\ In (x, cls) L).
  Definition fits (h : bool) (d : nat) (ts : types) (c : ctx) (oc : string) (L : list (oid * string)) : Prop :=
    base c d ts oc L /\ (h = true -> given (c_fkr c) (c_kr c) ts (c_val c) oc) /\ c_original c = VNone.
  Definition modifier_goes (n : nat) : Prop := forall h d pre m post v c oc L, turn h d pre m post v c oc L ->
    goes true h L (m_transform (interp P n m) c).

  Lemma not_part d m : goodt (fun _ => True) d m -> part m = false -> flat d m.
  Proof. intros [T _] N. destruct d; [contradiction |]. destruct m; try discriminate N; exact T. Qed.
  Lemma turn_good h d pre m post v c oc L : turn h d pre m post v c oc L -> goodt (fun _ => True) d m.
  Proof. intros [[[_ G] _] _]. apply G. apply in_or_app. right. left. reflexivity. Qed.
  Lemma flat_goes n h d pre m post v c oc L : turn h d pre m post v c oc L -> part m = false -> goes true h L (m_transform (interp P n m) c).
  Proof.
    intros T N w M X. pose proof (not_part d m (turn_good _ _ _ _ _ _ _ _ _ T) N) as F. destruct (flat_state n d m c w F) as [_ [E1 E2]].
    split; [apply (mg_stable true w); assumption | split; [exact E2 | split; [| intros; split; [apply no_facts | exact Logic.I]]]].
    intros Eh l E kp msg Hin. left. pose proof (flat_path n d m c w l F (or_intror E) kp msg Hin) as Ek.
    destruct T as (_ & G & _). destruct (G Eh) as [G1 G2].
    exists (c_fkr c), (pre ++ m :: post), v, (c_val c), m, n, c. split; [exact Ek |]. constructor; try reflexivity.
    - exists (c_kr c), oc. exact G1.
    - exists pre, post. split; [reflexivity | split; [exact G2 |]]. left. exists w, l, (snd (m_transform (interp P n m) c w)).
      split; [rewrite <- E; apply surjective_pairing | rewrite <- Ek; exact Hin].
    - destruct m; try discriminate N; exact Logic.I.
  Qed.

  (** A modifier before an eager mark: its transform, then its check *)
  Lemma eager_goes n h d pre m post v c oc L : modifier_goes n -> turn h d pre m post v c oc L -> In MEager post ->
    gives true h L (fun _ => []) (fun x => h = true -> made (pre ++ [m]) v x) (vt nval (interp P n m) c).
  Proof.
    intros IH T Ea w M X.
    assert (N : part m = false).
    { destruct T as [[[CL _] _] _]. apply in_split in Ea. destruct Ea as (p1 & p2 & ->).
      specialize (CL (pre ++ m :: p1) p2). rewrite <- app_assoc in CL. specialize (CL eq_refl m).
      destruct m; try reflexivity; contradiction CL; apply in_or_app; right; left; reflexivity. }
    pose proof (not_part d m (turn_good _ _ _ _ _ _ _ _ _ T) N) as F.
    destruct (IH _ _ _ _ _ _ _ _ _ T w M X) as (A & B & C & _). unfold vt, bind.
    destruct (m_transform (interp P n m) c w) as [[x | e] w1] eqn:Et; cbn [fst snd] in *; [| split; [exact A | split; [exact B | split; [exact C | discriminate]]]].
    destruct (flat_state n d m (nval c x) w1 F) as [[E1 E2] _]. pose proof (flat_path n d m (nval c x) w1) as FP.
    destruct (m_validate (interp P n m) (nval c x) w1) as [[u | e] w2] eqn:Ev; cbn [fst snd] in *.
    - split; [apply (mg_stable true w1); assumption | split; [exact (same_trans _ _ _ B E2) | split; [apply fine_ok |]]].
      intros a Ex. inversion Ex; subst a. split; [apply no_facts |]. intros Eh. destruct T as (_ & G & _). destruct (G Eh) as [_ G2].
      apply (made_next P pre m v (c_val c) x n c w w1 G2 eq_refl Et).
    - split; [apply (mg_stable true w1); assumption | split; [exact (same_trans _ _ _ B E2) | split; [| discriminate]]].
      intros Eh l E kp msg Hin. inversion E; subst e. left. destruct T as (_ & G & _). destruct (G Eh) as [G1 G2].
      pose proof (FP l F (or_introl eq_refl) kp msg Hin) as Ek. cbn [nval c_fkr] in Ek.
      exists (c_fkr c), (pre ++ m :: post), v, (c_val c), m, n, c. split; [exact Ek |]. constructor; try reflexivity.
      + exists (c_kr c), oc. exact G1.
      + exists pre, post. split; [reflexivity | split; [exact G2 |]]. right. split; [exact Ea |].
        exists x, w, w1, l, w2. split; [exact Et | split; [exact Ev | rewrite <- Ek; exact Hin]].
      + destruct m; try discriminate N; exact Logic.I.
  Qed.
  Lemma plain_goes n h d pre m post v c oc L : modifier_goes n -> turn h d pre m post v c oc L ->
    gives true h L (fun _ => []) (fun x => h = true -> made (pre ++ [m]) v x) (m_transform (interp P n m) c).
  Proof.
    intros IH T w M X. destruct (g_run true h L _ (IH _ _ _ _ _ _ _ _ _ T) w M X) as (A & B & C & E).
    split; [exact A | split; [exact B | split; [exact C |]]]. intros a Ea. destruct (E a Ea) as [E1 (w1 & w2 & E2)]. split; [exact E1 |].
    intros Eh. destruct T as (_ & G & _). destruct (G Eh) as [_ G2]. apply (made_next P pre m v (c_val c) a n c w1 w2 G2 eq_refl E2).
  Qed.
  (** Folding over a part of the chain *)
  Lemma part_goes n h d ts c oc L (f : modifier value ctx world -> ctx -> st world value) (ok : types -> Prop) : fits h d ts c oc L ->
    (forall pre m post v c', turn h d pre m post v c' oc L -> ok post ->
       gives true h L (fun _ => []) (fun x => h = true -> made (pre ++ [m]) v x) (f (interp P n m) c')) ->
    forall a pre post y, ts = pre ++ a ++ post -> (forall a1 a2, a = a1 ++ a2 -> a1 <> [] -> ok (a2 ++ post)) ->
      (h = true -> made pre (c_val c) y) ->
      gives true h L (fun _ => []) (fun x => h = true -> made (pre ++ a) (c_val c) x) (fold_st (fun y m => f m (nval c y)) (map (interp P n) a) y).
  Proof.
    intros (B & G & O) Hf. induction a as [| m a IHa]; intros pre post y E Ok My; cbn [map fold_st].
    - apply g_retF; [intros x [] | rewrite app_nil_r; exact My].
    - cbn [app] in E. apply (g_bind true h L (fun _ => []) (fun x => h = true -> made (pre ++ [m]) (c_val c) x)).
      + apply Hf with (post := a ++ post).
        * rewrite E in B, G. split; [exact B | split; [| left; exact O]]. intros Eh. split; [apply (G Eh) | apply (My Eh)].
        * apply (Ok [m] a); [reflexivity | discriminate].
      + intros x Mx. cbn [app]. replace (pre ++ m :: a) with ((pre ++ [m]) ++ a) by (rewrite <- app_assoc; reflexivity).
        apply (IHa (pre ++ [m]) post); [rewrite <- app_assoc; exact E | | exact Mx].
        intros a1 a2 -> _. apply (Ok (m :: a1) a2); [reflexivity | discriminate].
  Qed.
  Lemma types_goes n h d ts c oc L : modifier_goes n -> fits h d ts c oc L -> goes true h L (t_transform (interp P n) ts c).
  Proof.
    intros IH T. destruct (chain_parts P n ts) as (a & b & r & E & Ea & Eb & Ee). unfold t_transform, chain_transform. rewrite Ea, Eb.
    apply (g_bind true h L (fun _ => []) (fun x => h = true -> made a (c_val c) x)).
    - apply (part_goes n h d ts c oc L (fun v c' => vt nval v c') (fun post => In MEager post) T) with (pre := []) (post := b ++ r).
      + intros pre m post v c' T' Hp. apply (eager_goes n h d pre m post v c' oc L IH T' Hp).
      + exact E.
      + intros a1 a2 E1 N. apply in_or_app. right. destruct Ee as [-> | Ee]; [| exact Ee]. destruct a1; [contradiction | discriminate E1].
      + intros _. apply made_none.
    - intros y My. apply g_less with (F := fun _ => []) (Q := fun x => h = true -> made (a ++ b) (c_val c) x). cbn [app].
      apply (part_goes n h d ts c oc L (fun v c' => m_transform v c') (fun _ => True) T) with (pre := a) (post := r).
      + intros pre m post v c' T' _. apply (plain_goes n h d pre m post v c' oc L IH T').
      + exact E.
      + trivial.
      + exact My.
  Qed.

  (** *** Lists, dicts and unions *)
  Lemma g_key_op b h L o n0 add q : goes b h L (local_key_op P o n0 add q).
  Proof.
    unfold local_key_op. apply g_then; [apply g_getW | intros d]. apply g_then; [apply g_named | intros f].
    apply g_then; [apply g_getattr | intros cur]. destruct add.
    - apply g_then; [destruct (is_none cur); [apply g_setattr | apply g_ret] |]. intros _. apply run_goes.
    - destruct (is_none cur); [apply g_ret | apply run_goes].
  Qed.
  Lemma g_link_op b h L o n0 add q : goes b h L (link_key_op o n0 add q).
  Proof. unfold link_key_op. apply g_modW. intros w M X. split; [exact M | apply same_refl]. Qed.
  Lemma g_special b h L c v : goes b h L (special_handle P c v).
  Proof.
    unfold special_handle. apply g_then.
    - apply g_lift. unfold last_of. destruct (rev (c_ko c)); intros e E; inversion E; exact Logic.I.
    - intros kk. apply g_then; [apply g_the_obj | intros o]. cbv zeta.
      destruct v as [ | | | | | | | | | md | | ]; try apply g_ret. destruct (sget "_add" md); [| destruct (sget "_del" md); [| apply g_ret]];
        (destruct (fstore_eqb _ _); [apply g_key_op | apply g_link_op]).
  Qed.
  Lemma g_items_of b h L c : gives b h L (fun _ => []) (fun it => item_types (c_fdef c) = Some it) (items_of c).
  Proof.
    unfold items_of. destruct (item_types (c_fdef c)) as [it |]; [apply g_retF; [intros f [] | reflexivity] |].
    intros w M X. cbn. split; [exact M | split; [apply same_refl | split; [apply fine_mute; intros e E; inversion E; exact Logic.I | discriminate]]].
  Qed.
  Lemma turn_none h d pre m post v c oc L : turn h d pre m post v c oc L -> (forall cls, m <> MInstance cls) -> c_original c = VNone.
  Proof. intros (_ & _ & [O | (x & cls & _ & E & _)]) N; [exact O | contradiction (N cls E)]. Qed.
  Lemma col_goes n h d pre (dict : bool) it0 post v c oc L : modifier_goes n ->
    turn h (S d) pre (if dict then MDictOf it0 else MListOf it0) post v c oc L -> goes true h L (col_transform P (interp P n) dict c).
  Proof.
    intros IH T. unfold col_transform. pose proof T as ((G & E & O) & Gv & _).
    assert (X : forall u, u = c_val c -> goes true h L (match col_items dict u with
          | None => ret u
          | Some its =>
              fold_st (fun acc kv =>
                if special dict c (snd kv) then special_handle P c (snd kv) >> ret acc
                else do* ts <- items_of c; col_item P (t_transform (interp P n)) c u ts acc kv)
                its (empty_col dict)
          end)).
    { intros u Eu. destruct (col_items dict u) as [its |] eqn:Ei; [| apply g_ret]. apply g_fold. intros acc [k y] Hk. cbn [snd].
      destruct (special dict c y); [apply g_then; [apply g_special | intros; apply g_ret] |].
      apply (g_bind true h L (fun _ => []) (fun it => item_types (c_fdef c) = Some it)); [apply g_items_of |]. intros it Et. cbn [app].
      unfold col_item. cbn [fst snd]. apply g_then; [| intros; apply g_then; [apply g_cdef_v | intros; apply g_ret]].
      assert (F : forall d', good d' it -> goes true h L (t_transform (interp P n) it (colval c y k (fdef_of it) u))).
      { intros d' Gd. apply (types_goes n h d' it _ oc L IH). split; [split; [exact Gd | split; [reflexivity | exact O]] |].
        split; [| reflexivity]. intros Eh. cbn [colval c_fkr c_kr c_val]. destruct (Gv Eh) as [G1 G2]. rewrite <- Eu in G2. rewrite E in Et. apply item_chain_fdef in Et.
        destruct dict; destruct u as [ | | | | | | | | l | l | | ]; try discriminate Ei; inversion Ei; subst its.
        - apply in_map_iff in Hk. destruct Hk as ([k0 y0] & Ek & Hk). inversion Ek; subst.
          apply (gv_entry P cls0 kw0 _ _ _ v oc it0 it l k0 y G1); [exists pre, post; auto | exact Et | exact Hk].
        - destruct (items_numbered l k y Hk) as (i & -> & Hi).
          apply (gv_item P cls0 kw0 _ _ _ v oc it0 it l i y G1); [exists pre, post; auto | exact Et | exact Hi]. }
      destruct (items_good (fun _ => True) d c it (goods_ctx _ _ _ c E G) Et) as [Gd | Gd]; [apply (F (S d) Gd) | apply (F d Gd)]. }
    destruct (c_val c) eqn:Ec; try (apply X; reflexivity). apply g_ret.
  Qed.
  Lemma union_goes n h d pre us post v c oc L : modifier_goes n -> turn h (S d) pre (MUnion us) post v c oc L ->
    goes true h L (union_transform (interp P n) c).
  Proof.
    intros IH T. unfold union_transform. pose proof (turn_none _ _ _ _ _ _ _ _ _ T ltac:(discriminate)) as On. destruct T as ((G & E & O) & _).
    assert (X : goes true h L (union_transform_loop (interp P n) (f_union (c_fdef c)) c)).
    { assert (H : forall ts, In ts (f_union (c_fdef c)) -> good d ts) by (intros ts; apply (union_good (fun _ => True) d c ts (goods_ctx _ _ _ c E G))).
      revert H. generalize (f_union (c_fdef c)). induction l as [| ts l IHl]; intros H; cbn [union_transform_loop]; [apply g_ret |].
      apply g_on_any; [| apply IHl; intros t Ht; apply H; right; exact Ht].
      apply (types_goes n false d ts _ oc L IH). split; [split; [apply H; left; reflexivity | split; [reflexivity | exact O]] |].
      split; [discriminate | exact On]. }
    destruct (c_val c); try exact X. apply g_ret.
  Qed.

  (** *** Objects *)
  Lemma field_good cls d f : p_ct P cls = Some d -> In f (cd_fields d) -> good D (fl_types f).
  Proof.
    intros E I. destruct (LC _ _ _ E I) as [L1 L2]. split; [exact L1 |]. intros m Hm.
    split; [apply (TC _ _ _ _ E I Hm) | split; [apply L2, Hm | apply any_held, (TC _ _ _ _ E I Hm)]].
  Qed.
  (** the context of the input [m] for an object of the class [cl] *)
  Definition holds_input (h : bool) (m : list (string * value)) (c : ctx) (oc cl : string) (d0 : cdef) (L : list (oid * string)) : Prop :=
    own (c_owner c) oc L /\ own (c_original c) cl L /\
    (h = true -> exists ts v, given (c_fkr c) (c_kr c) ts v oc /\ into P ts v cl d0 m /\ c_fdef c = fdef_of ts).
  Lemma default_goes n h m c oc cl d0 L f o : modifier_goes n -> p_ct P cl = Some d0 -> holds_input h m c oc cl d0 L -> In f (cd_fields d0) ->
    goes true h L (fill_default P (interp P n) f o c).
  Proof.
    intros IH Ed (O1 & O2 & G) If. unfold fill_default. destruct (fl_default f); try apply g_setattr.
    apply (g_bind true h L (fun _ => []) (fun e => e = outname P oc (fl_name f))); [apply g_ekey, O1 |]. intros e ->. cbn [app].
    apply g_then; [apply g_getW | intros cls]. apply g_then; [| intros; apply g_setattr].
    apply (types_goes n h D _ _ cl L IH). split; [split; [apply (field_good cl d0 f Ed If) | split; [reflexivity | exact O2]] |].
    split; [| reflexivity]. intros Eh. destruct (G Eh) as (ts & v & G1 & G2 & _). cbn [defaultctx c_fkr c_kr c_val].
    apply (gv_field P cls0 kw0 _ _ ts v oc cl d0 m f VNone G1 G2 If). right. reflexivity.
  Qed.
  Lemma field_goes n h m c oc cl d0 L f o soft acc : modifier_goes n -> p_ct P cl = Some d0 -> holds_input h m c oc cl d0 L -> In f (cd_fields d0) ->
    In (o, cl) L -> goes true h L (fill_field P (interp P n) c m o soft acc f).
  Proof.
    intros IH Ed HI If Io. pose proof HI as (O1 & O2 & G). unfold fill_field. destruct (input_of f m) as [u |] eqn:Ei.
    - destruct (given_value f m u Ei) as [E1 E2]. rewrite E1, E2. cbv zeta.
      apply g_then.
      { unfold may_write. destruct (f_write_rule (fl_fdef f)); try apply g_ret. apply g_then; [apply g_getattr | intros; apply g_ret]. }
      intros ok. apply g_then; [| intros; apply g_ret]. destruct ok.
      + apply (g_bind true h L (fun _ => []) (fun e => e = outname P oc (fl_name f))); [apply g_ekey, O1 |]. intros e ->. cbn [app].
        apply g_then; [apply g_getW | intros cls]. apply g_then; [| intros; destruct (is_calc f); [apply g_ret | apply g_setattr]].
        apply (types_goes n h D _ _ cl L IH). split; [split; [apply (field_good cl d0 f Ed If) | split; [reflexivity | exact Io]] |].
        split; [| reflexivity]. intros Eh. destruct (G Eh) as (ts & v & G1 & G2 & _). cbn [nextvo c_fkr c_kr c_val].
        apply (gv_field P cls0 kw0 _ _ ts v oc cl d0 m f u G1 G2 If). left. exact Ei.
      + match goal with |- goes _ _ _ (if ?q then _ else _) => destruct q end; [| apply g_ret]. apply (default_goes n h m c oc cl d0 L f o IH Ed HI If).
    - rewrite (not_given f m Ei). unfold absent_field. cbv zeta. destruct (is_ref (fl_fdef f)).
      + apply g_then; [| intros; apply g_ret]. destruct (is_local f); [| apply g_ret].
        apply g_then; [destruct (get_or_none (fl_ref f) m); try apply g_ret; apply g_setattr | intros _].
        destruct (get_or_none (fl_cref f) m); try apply g_ret; apply g_setattr.
      + apply g_then; [| intros; apply g_ret]. match goal with |- goes _ _ _ (if ?q then _ else _) => destruct q end; [| apply g_ret].
        apply (default_goes n h m c oc cl d0 L f o IH Ed HI If).
  Qed.
  (** a call that fills the object [o] of class [cl] *)
  Lemma set_goes n b h L o cl kw fill : modifier_goes n -> In (o, cl) L -> (h = true -> given [] [] [MInstance cl] (VDict kw) cl) ->
    goes b h L (set_with (m_transform (interp P n (MInstance cl))) o kw fill).
  Proof.
    intros IH Io G. unfold set_with. apply (g_bind b h L (fun _ => []) (fun a => a = cl)); [apply g_class, Io |]. intros a ->. cbn [app].
    apply g_then; [apply g_getW | intros op]. apply g_then; [| intros; apply g_ret]. apply g_new.
    apply (IH h 1%nat [] (MInstance cl) [] (VDict kw) _ cl L). split; [split; [| split; [reflexivity | exact Io]] |].
    - split.
      + intros pre post E m Hm. destruct pre as [| x [| y pre]]; discriminate E || inversion E.
      + intros m [<- | []]. split; [| split]; cbn; trivial.
    - split; [intros Eh; split; [exact (G Eh) | apply made_none] |]. right. exists o, cl. auto.
  Qed.
  Lemma create_goes n b h L cl kw : modifier_goes n -> (h = true -> given [] [] [MInstance cl] (VDict kw) cl) ->
    gives b h L (fun o => [(o, cl)]) (fun _ => True) (create P (m_transform (interp P n (MInstance cl))) cl kw).
  Proof.
    intros IH G. unfold create. apply (g_bind b h L (fun _ => []) (fun d => p_ct P cl = Some d)); [apply g_class_named |]. intros d Ed. cbn [app].
    destruct (cd_abstract d).
    - intros w M X. cbn. split; [exact M | split; [apply same_refl | split; [apply fine_mute; intros e E; inversion E; exact Logic.I | discriminate]]].
    - apply (g_bind b h L (fun o => [(o, cl)]) (fun _ => True)); [apply g_alloc |]. intros o _.
      apply g_then; [| intros _].
      + apply g_for. intros f _. unfold init_field. apply g_then; [destruct (is_calc f); [apply g_ret | apply g_setattr] |].
        intros _. destruct (is_local f); [| apply g_ret]. apply g_heap. intros s. unfold updm. split; [| intros e E; discriminate E].
        split; [cbn; lia |]. intros y _. cbn. destruct (Nat.eqb y o) eqn:Ey; [| reflexivity]. apply Nat.eqb_eq in Ey. subst y. reflexivity.
      + apply g_then; [apply set_goes; [exact IH | left; reflexivity | exact G] |]. intros _. apply g_retF; [intros x [<- | []]; left; reflexivity | exact Logic.I].
  Qed.
  Lemma default_obj_goes n h L cl : modifier_goes n -> (h = true -> given [] [] [MInstance cl] (VDict []) cl) ->
    gives true h L (fun o => [(o, cl)]) (fun _ => True) (new_default P (interp P n) cl).
  Proof.
    intros IH G. unfold new_default. apply (g_bind true h L (fun o => [(o, cl)]) (fun _ => True)); [apply create_goes; assumption |]. intros o _.
    apply g_then; [apply g_graph_put |]. intros _. apply g_retF; [intros x [<- | []]; left; reflexivity | exact Logic.I].
  Qed.
  Lemma dest_goes n h L c cl d m : modifier_goes n -> own (c_original c) cl L -> (h = true -> given [] [] [MInstance cl] (VDict []) cl) ->
    gives true h L (fun os => [(fst os, cl)]) (fun _ => True) (find_dest P (interp P n) c cl d m).
  Proof.
    intros IH O G. unfold find_dest. cbv zeta. match goal with |- context [is_none ?e] => generalize e end. intros pv.
    assert (X : forall v, own v cl L -> gives true h L (fun os : oid * bool => [(fst os, cl)]) (fun _ => True)
      (do* o <- the_obj v; (if is_none pv then ret tt else mg_putp P pv o) >> ret (o, false))).
    { intros v Ov. apply (g_bind true h L (fun o => [(o, cl)]) (fun _ => True)).
      - unfold the_obj. destruct v; try (intros w M X; cbn; split; [exact M | split; [apply same_refl | split; [apply fine_mute; intros e E; inversion E; exact Logic.I | discriminate]]]).
        apply g_retF; [intros x [<- | []]; exact Ov | exact Logic.I].
      - intros o _. apply g_then; [destruct (is_none pv); [apply g_ret | apply g_putp with (c := cl); left; reflexivity] |].
        intros _. apply g_retF; [intros x [<- | []]; left; reflexivity | exact Logic.I]. }
    assert (Y : forall k : oid -> st world unit, (forall o, goes true h ((o, cl) :: L) (k o)) -> gives true h L (fun os : oid * bool => [(fst os, cl)]) (fun _ => True)
      (do* o <- new_default P (interp P n) cl; k o >> ret (o, false))).
    { intros k Hk. apply (g_bind true h L (fun o => [(o, cl)]) (fun _ => True)); [apply default_obj_goes; assumption |]. intros o _.
      apply (g_then true h ((o, cl) :: L)); [apply Hk |]. intros _. apply g_retF; [intros x [<- | []]; left; reflexivity | exact Logic.I]. }
    destruct (c_original c) eqn:Ec; try (apply X; exact O). clear X.
    destruct (is_none pv).
    - apply Y. intros o. apply g_mput with (c := cl). left. reflexivity.
    - apply (g_bind true h L (fun e => match e with Some o => [(o, cl)] | None => [] end) (fun _ => True)); [apply g_getp |]. intros [o |] _; cbn [app].
      + apply g_retF; [intros x [<- | []]; left; reflexivity | exact Logic.I].
      + apply Y. intros o. apply g_putp with (c := cl). left. reflexivity.
  Qed.
  Lemma strict_goes h L c cl d m : (h = true -> exists path ts v a, given path (c_kr c) ts v a /\ into P ts v cl d m /\ c_fdef c = fdef_of ts) ->
    goes true h L (if is_strict c d then strictness_check c d (map fst m) else ret tt).
  Proof.
    intros G. destruct (is_strict c d) eqn:Es; [| apply g_ret]. unfold strictness_check.
    destruct (find _ (map fst m)) as [k |] eqn:Ef; [| apply g_ret].
    intros w M X. cbn. split; [exact M | split; [apply same_refl | split; [| discriminate]]]. intros Eh l E kp msg Hin. inversion E; subst l. clear E.
    destruct Hin as [Hin | []]. injection Hin as <- <-. right. exists (c_kr c), k. split; [reflexivity | split; [reflexivity |]]. constructor.
    destruct (G Eh) as (path & ts & v & a & G1 & G2 & G3). exists path, ts, v, a, cl, d, m. split; [exact G1 | split; [exact G2 |]].
    apply find_first in Ef. destruct Ef as (p1 & p2 & Em & _ & N). split; [rewrite Em; apply in_or_app; right; left; reflexivity | split; [exact N |]].
    rewrite <- G3. apply strict_iff, Es.
  Qed.
  Lemma inst_goes n h d pre cls post v c oc L : modifier_goes n -> turn h (S d) pre (MInstance cls) post v c oc L ->
    goes true h L (inst_transform P (interp P n) c).
  Proof.
    intros IH T. unfold inst_transform. destruct (c_val c) as [ | | | | | | | | | m | | ] eqn:Ec; try apply g_ret.
    pose proof T as ((G & E & O) & Gv & Or).
    apply (g_bind true h L (fun _ => []) (fun cl => In (MInstance cl) (pre ++ MInstance cls :: post) /\ f_inst (c_fdef c) = Some cl)).
    { unfold inst_cls. destruct (f_inst (c_fdef c)) as [cl |] eqn:Ei.
      - apply g_retF; [intros f [] |]. split; [rewrite E in Ei; apply inst_from, Ei | reflexivity].
      - intros w M X. cbn. split; [exact M | split; [apply same_refl | split; [apply fine_mute; intros e Ee; inversion Ee; exact Logic.I | discriminate]]]. }
    intros cl [Icl Ei]. cbn [app]. apply (g_bind true h L (fun _ => []) (fun d => p_ct P cl = Some d)); [apply g_class_named |]. intros d0 Ed. cbn [app].
    assert (In0 : h = true -> given (c_fkr c) (c_kr c) (pre ++ MInstance cls :: post) v oc /\ into P (pre ++ MInstance cls :: post) v cl d0 m).
    { intros Eh. destruct (Gv Eh) as [G1 G2]. split; [exact G1 |]. constructor; [| exact Icl | exact Ed].
      exists cls, pre, post. split; [reflexivity | rewrite Ec in G2; exact G2]. }
    assert (Oo : own (c_original c) cl L).
    { destruct Or as [-> | (x & cls' & -> & E1 & -> & -> & Ix)]; [exact Logic.I |]. inversion E1; subst cls'. rewrite E in Ei. cbn in Ei. inversion Ei; subst. exact Ix. }
    apply (g_bind true h L (fun os => [(fst os, cl)]) (fun _ => True)).
    { apply dest_goes; [exact IH | exact Oo |]. intros Eh. destruct (In0 Eh) as [G1 G2]. apply (gv_made P cls0 kw0 _ _ _ v oc cl d0 m G1 G2). }
    intros [o soft] _. cbn [fst app]. set (L' := (o, cl) :: L).
    assert (Up : forall x, own x oc L -> own x oc L') by (intros x; destruct x; cbn; auto).
    assert (HI : holds_input h m c oc cl d0 L').
    { split; [apply Up, O | split; [destruct (c_original c); cbn in *; auto |]]. intros Eh. destruct (In0 Eh) as [G1 G2]. eauto. }
    apply (g_bind true h L' (fun _ => []) (fun a => a = d0)); [apply g_cdef with (c := cl); [left; reflexivity | exact Ed] |]. intros od ->. cbn [app].
    apply g_then.
    { apply strict_goes with (cl := cl). intros Eh. destruct (In0 Eh) as [G1 G2]. exists (c_fkr c). eauto 6. }
    intros _. apply g_then; [apply g_fold; intros acc f If; apply (field_goes n h m c oc cl d0 L' f o soft acc IH Ed HI If); left; reflexivity |].
    intros refs. apply g_then; [| intros; apply g_ret]. apply g_for. intros s _. apply g_then; [apply g_getattr | intros cur].
    destruct (is_none cur); [apply g_setattr | apply g_ret].
  Qed.

  Theorem all_goes n : modifier_goes n.
  Proof.
    induction n as [| n IH]; intros h d pre m post v c oc L T; [apply g_throw; exact Logic.I |].
    destruct (part m) eqn:Np; [| apply (flat_goes (S n) h d pre m post v c oc L T Np)].
    pose proof (turn_good _ _ _ _ _ _ _ _ _ T) as Gm. destruct d as [| d]; [contradiction (proj1 Gm) |].
    destruct m; try discriminate Np; cbn [interp modif_of m_transform transform_of].
    - apply (inst_goes n h d pre _ post v c oc L IH T).
    - apply (col_goes n h d pre false _ post v c oc L IH T).
    - apply (col_goes n h d pre true _ post v c oc L IH T).
    - apply (union_goes n h d pre _ post v c oc L IH T).
  Qed.

  (** *** The two calls *)
  Lemma plain_args (kw : list (string * value)) : Forall (fun kv => KeypathSpec.plain (fst kv)) kw -> single_key_args kw = kw /\ compound_key_args kw = [].
  Proof.
    intros Pl. unfold single_key_args, compound_key_args. induction Pl as [| kv l K _ [I1 I2]]; [auto |].
    apply plain_no_sep, has_sep_spec in K. cbn [filter]. rewrite K. cbn [negb]. rewrite I1, I2. auto.
  Qed.
  Lemma construct_explained n w l w' : Forall (fun kv => KeypathSpec.plain (fst kv)) kw0 ->
    construct P n cls0 kw0 w = (Err (EValidation l), w') -> forall kp msg, In (kp, msg) l -> explained kp msg.
  Proof.
    intros Pl E kp msg Hin. destruct (plain_args kw0 Pl) as [E1 E2].
    assert (G : goes false true [] (construct P n cls0 kw0)).
    { unfold construct. rewrite E1, E2. cbn [keypath_set for_st].
      apply (g_bind false true [] (fun o => [(o, cls0)]) (fun _ => True)); [apply create_goes; [apply all_goes | intros _; apply gv_call] |].
      intros o _. apply g_then; [apply g_ret | intros _]. apply g_then; [apply g_graph_put | intros _; apply g_ret]. }
    destruct (G w ltac:(discriminate) (no_facts w)) as (_ & _ & F & _). rewrite E in F. exact (F eq_refl l eq_refl kp msg Hin).
  Qed.
  Lemma set_explained n o w l w' : Forall (fun kv => KeypathSpec.plain (fst kv)) kw0 -> (o < h_next (w_heap w))%nat -> o_class (h_obj (w_heap w) o) = cls0 ->
    jset P n o kw0 w = (Err (EValidation l), w') -> forall kp msg, In (kp, msg) l -> explained kp msg.
  Proof.
    intros Pl Lo Ec E kp msg Hin. destruct (plain_args kw0 Pl) as [E1 E2].
    assert (G : goes false true [(o, cls0)] (jset P n o kw0)).
    { unfold jset. rewrite E1, E2. cbn [keypath_set for_st]. apply g_then; [| intros; apply g_ret]. unfold set_fields.
      apply (g_bind false true _ (fun _ => []) (fun a => a = cls0)); [apply g_class; left; reflexivity |]. intros a ->. cbn [app].
      apply set_goes; [apply all_goes | left; reflexivity | intros _; apply gv_call]. }
    assert (F0 : facts [(o, cls0)] w) by (intros f [<- | []]; split; [exact Lo | exact Ec]).
    destruct (G w ltac:(discriminate) F0) as (_ & _ & F & _). rewrite E in F. exact (F eq_refl l eq_refl kp msg Hin).
  Qed.
End InErr.
