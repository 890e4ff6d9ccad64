(** IoEffects.v -- what IoSound.v says for three preorders: all states are related (so
    only the messages matter), the log of observable events, and the objects. *)
From Verif Require Import Base Mon PyList PyDict KeypathModel Values OGraphModel ChainModel ChainSpec ChainProofs TypesModel ObjModel
  IoModel IoBase Sound ObjSound LeafSound IoSound CivilSpec.
From Verif Require LeafModel.
Open Scope list_scope.

(** ** Every modifier that rejects says something *)
Definition any (w w' : world) : Prop := True.

Lemma louder_not {A} (r : res A) : r <> Err (EValidation []) -> @louder Speaking A r.
Proof. intros H e ->. split; [intros _ -> | discriminate]. apply H. reflexivity. Qed.

Lemma liftH_any {A} (m : st heap A) : (forall h, @louder Speaking A (fst (m h))) -> @sound Speaking world any A (liftH m).
Proof.
  intros H w. split; [exact Logic.I |]. unfold liftH. specialize (H (w_heap w)).
  destruct (m (w_heap w)). exact H.
Qed.
Lemma any_steps P : civil P -> @steps Speaking P any.
Proof.
  intros [C1 C2 C3 C4].
  constructor; try (intros; exact Logic.I).
  - intros t. apply liftH_any. intros h.
    apply (@run_sound Speaking (p_ct P) (p_oeq P) (p_getter P) (p_setter P) (LeafModel.py_str (p_str P)) (fun _ _ => True));
      try (intros; exact Logic.I).
    + intros. apply louder_not, C1.
    + intros o n v h'. split; [exact Logic.I | apply louder_not, C2].
    + discriminate.
  - intros. apply liftH_any. intros h. apply louder_ok.
  - intros. apply louder_not, C1.
  - intros. apply louder_not, C4.
Qed.
Lemma any_call P k f c args : civil P -> @sound Speaking world any _ (call P k f c args).
Proof.
  intros C. unfold call. apply s_bind; try (intros; exact Logic.I).
  - intros w. split; [exact Logic.I | apply louder_ok].
  - intros _. apply liftH_any. intros h. apply louder_not, (civil_call P C).
Qed.
Lemma interp_speaks P n m : civil P -> speaks (interp P n m).
Proof.
  intros C c w e w' H.
  destruct (@interp_ok Speaking P any (any_steps P C) (fun k f c args _ => any_call P k f c args C) n ltac:(discriminate) m c) as [V _].
  destruct (V w) as [_ L]. rewrite H in L. cbn in L. intros ->. apply (proj1 (L _ eq_refl) eq_refl). reflexivity.
Qed.
Lemma t_validate_speaks P n ts c w w' e : civil P -> t_validate (interp P n) ts c w = (Err (EValidation e), w') -> e <> [].
Proof.
  intros C H. pose proof (@i_t_validate Speaking P any (any_steps P C) (interp P n)) as V.
  assert (Q : forall m c, @sound Speaking world any unit (m_validate (interp P n m) c)).
  { intros m c'. apply (@interp_ok Speaking P any (any_steps P C) (fun k f c args _ => any_call P k f c args C) n ltac:(discriminate) m c'). }
  destruct (V Q ts c w) as [_ L]. rewrite H in L. cbn in L. intros ->. apply (proj1 (L _ eq_refl) eq_refl). reflexivity.
Qed.

(** A chain without marks has one phase, which is the whole chain. *)
Lemma unmarked_none P n ts k : unmarked ts -> k <> KOther -> none_of k (map (interp P n) ts).
Proof.
  intros [He Hp] Hk v Hv E. apply in_map_iff in Hv. destruct Hv as (m & <- & Hm). rewrite kind_interp in E. subst k.
  destruct m; cbn in *; try (apply Hk; reflexivity); contradiction.
Qed.
Lemma unmarked_phases P n ts : unmarked ts ->
  well_marked (map (interp P n) ts) /\ phases (map (interp P n) ts) [] (map (interp P n) ts) [].
Proof.
  intros H. split.
  - intros a m b E K. exfalso. apply (unmarked_none P n ts KPreserialize H) with m; [discriminate | | exact K].
    rewrite E. apply in_app_iff. right. left. reflexivity.
  - repeat split.
    + rewrite app_nil_r. reflexivity.
    + apply unmarked_none; [exact H | discriminate].
    + left. reflexivity.
    + left. split; [reflexivity |]. apply unmarked_none; [exact H | discriminate].
Qed.
Lemma all_speak P n ts : civil P -> Forall speaks (map (interp P n) ts).
Proof. intros C. apply Forall_forall. intros v Hv. apply in_map_iff in Hv. destruct Hv as (m & <- & _). apply interp_speaks, C. Qed.
Lemma unmarked_accepts P n ts c w w' : civil P -> unmarked ts ->
  (t_validate (interp P n) ts c w = (Ok tt, w') <-> all_accept c (map (interp P n) ts) w w').
Proof.
  intros C H. destruct (unmarked_phases P n ts H) as [W F].
  unfold t_validate. apply (validate_ok all_on _ _ _ _ c w w' W F (all_speak P n ts C)).
Qed.

(** ** The log only grows, by events of the given kinds *)
Definition logged (ok : event -> Prop) (w w' : world) : Prop :=
  exists l, w_log w' = w_log w ++ l /\ Forall ok l.
Lemma logged_refl ok w : logged ok w w.
Proof. exists []. split; [rewrite app_nil_r; reflexivity | constructor]. Qed.
Lemma logged_trans ok a b c : logged ok a b -> logged ok b c -> logged ok a c.
Proof.
  intros (l & E & F) (l' & E' & F'). exists (l ++ l'). rewrite E', E, app_assoc. split; [reflexivity |].
  apply Forall_app. split; assumption.
Qed.
Lemma logged_same ok w w' : w_log w' = w_log w -> logged ok w w'.
Proof. intros E. exists []. rewrite E, app_nil_r. split; [reflexivity | constructor]. Qed.
Lemma liftH_log {A} (m : st heap A) w : w_log (snd (liftH m w)) = w_log w.
Proof. unfold liftH. destruct (m (w_heap w)). reflexivity. Qed.
Lemma silent {A} (r : res A) : @louder Silent A r.
Proof. intros e _. split; discriminate. Qed.
Lemma log_steps P ok : @steps Silent P (logged ok).
Proof.
  constructor; intros; try (apply silent); try (apply logged_same; reflexivity).
  - eapply logged_trans; eassumption.
  - intros w. split; [apply logged_same, liftH_log | apply silent].
  - intros w. split; [apply logged_same, liftH_log | apply silent].
Qed.
Lemma log_call P (ok : event -> Prop) k f c args : ok (EvCall k f) -> @sound Silent world (logged ok) _ (call P k f c args).
Proof.
  intros H w. split; [| apply silent]. exists [EvCall k f]. split; [| repeat constructor; exact H].
  unfold call, bind, modW. rewrite liftH_log. reflexivity.
Qed.

(** the callables of fields *)
Definition field_event (e : event) : Prop :=
  match e with EvCall KValidate _ | EvCall KField _ => True | _ => False end.
Definition save_event (e : event) : Prop :=
  match e with EvCall KValidate _ | EvCall KField _ | EvCall KSave _ => True | _ => False end.

Lemma log_interp P n m c :
  @sound Silent world (logged field_event) _ (m_validate (interp P n m) c) /\
  @sound Silent world (logged field_event) _ (m_transform (interp P n m) c) /\
  @sound Silent world (logged field_event) _ (m_tojson (interp P n m) c).
Proof.
  apply interp_ok; [apply log_steps | | discriminate]. intros k f c' args [-> | ->]; apply log_call; exact Logic.I.
Qed.
Lemma log_serialize P n m c : @sound Silent world (logged save_event) _ (m_serialize (interp P n m) c).
Proof.
  apply interp_save_ok; [apply log_steps | | discriminate |].
  - intros k f c' args [-> | ->]; apply log_call; exact Logic.I.
  - intros f c' args. apply log_call. exact Logic.I.
Qed.
