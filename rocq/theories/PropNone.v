(** PropNone.v -- C104: a missing value passes through what does not ask for one. *)
From Verif Require Import Base Mon PyList PyDict KeypathModel Values OGraphModel MGraphModel ChainModel TypesModel ObjModel ObjExample IoModel
  IoBase IoExample LeafSpec OnsaveSpec OnsaveProofs NoneSpec.
From Verif Require LeafModel.
Open Scope string_scope.
Open Scope list_scope.

Section None.
  Context (P : program).

  Lemma none_checked n m c w : ~ asks_value m -> c_val c = VNone -> m_validate (interp P (Datatypes.S n) m) c w = (Ok tt, w).
  Proof.
    intros A E. cbn [interp modif_of m_validate]. unfold validate_of.
    destruct m; try (exfalso; apply A; exact Logic.I); try reflexivity;
      unfold inst_validate, col_validate, union_validate, enum_validate, validate_validate; rewrite ?E; try reflexivity.
    - destruct l; try (exfalso; apply A; exact Logic.I); try reflexivity; try (match goal with k : LeafModel.tykind |- _ => destruct k end; reflexivity).
    - destruct p; try (exfalso; apply A; exact Logic.I); rewrite ?E; reflexivity.
  Qed.
  Lemma none_made n m c w : ~ makes_value m -> c_val c = VNone -> c_original c = VNone -> f_collection_null (c_fdef c) <> NNonnull ->
    m_transform (interp P (Datatypes.S n) m) c w = (Ok VNone, w).
  Proof.
    intros A E Eo N. cbn [interp modif_of m_transform]. unfold transform_of.
    destruct m; try (exfalso; apply A; exact Logic.I); rewrite ?E; try reflexivity;
      unfold inst_transform, col_transform, union_transform, enum_transform, transform_transform, filter_transform, map_transform, at_transform; rewrite ?E; try reflexivity.
    - assert (Fx : forall (a b : param) (K : value -> value -> st world value), ~ ~ (fixed a /\ fixed b) -> (forall x y, K x y w = (Ok VNone, w)) ->
        bind (resolve P (interp P n) c a) (fun x => bind (resolve P (interp P n) c b) (K x)) w = (Ok VNone, w)).
      { intros a b K F H. destruct a as [v | |]; [| exfalso; apply F; intros [X _]; exact X ..]. destruct b as [u | |]; [| exfalso; apply F; intros [_ X]; exact X ..].
        unfold bind. apply H. }
      destruct l; try (exfalso; apply A; exact Logic.I); try reflexivity; try (match goal with k : LeafModel.tykind |- _ => destruct k end; reflexivity).
      all: apply Fx; [unfold makes_value in A; tauto | reflexivity].
    - rewrite Eo. reflexivity.
    - destruct (f_collection_null (c_fdef c)); try reflexivity. contradiction (N eq_refl).
    - destruct (f_collection_null (c_fdef c)); try reflexivity. contradiction (N eq_refl).
    - destruct p; try (exfalso; apply A; exact Logic.I); rewrite ?E; reflexivity.
  Qed.
  Lemma none_shown n m c w : ~ shows_value m -> c_val c = VNone -> m_tojson (interp P (Datatypes.S n) m) c w = (Ok VNone, w).
  Proof.
    intros A E. cbn [interp modif_of m_tojson]. unfold tojson_of.
    destruct m; try (exfalso; apply A; exact Logic.I); rewrite ?E; try reflexivity;
      unfold inst_tojson, col_out, union_out, enum_tojson, fmt_tojson; rewrite ?E; try reflexivity.
    - destruct l; try reflexivity; try (match goal with k : LeafModel.tykind |- _ => destruct k end; reflexivity).
    - destruct p; try (exfalso; apply A; exact Logic.I); rewrite ?E; reflexivity.
  Qed.
  Lemma none_saved n m c w : ~ saves_value m -> c_val c = VNone -> m_serialize (interp P (Datatypes.S n) m) c w = (Ok VNone, w).
  Proof.
    intros A E. cbn [interp modif_of m_serialize]. unfold serialize_of.
    destruct m; try (exfalso; apply A; exact Logic.I); rewrite ?E; try reflexivity;
      unfold inst_serialize, col_out, union_out; rewrite ?E; reflexivity.
  Qed.

  Lemma none_fold {A} (f : value -> A -> st world value) (l : list A) w :
    (forall a, In a l -> f VNone a w = (Ok VNone, w)) -> fold_st f l VNone w = (Ok VNone, w).
  Proof.
    induction l as [| a l IH]; intros H; [reflexivity |]. cbn [fold_st]. unfold bind. rewrite (H a (or_introl eq_refl)). apply IH.
    intros x Hx. apply H. right. exact Hx.
  Qed.
  Lemma nonnull_marked ts : (forall m, In m ts -> m <> MNonnull) -> f_collection_null (fdef_of ts) <> NNonnull.
  Proof.
    intros H. enough (X : forall ts d, (forall m, In m ts -> m <> MNonnull) -> f_collection_null d = NNullable ->
      f_collection_null (fold_left (fun d m => define m d) ts d) = NNullable).
    { unfold fdef_of. rewrite (X ts fdef0 H eq_refl). discriminate. }
    clear. induction ts as [| m ts IH]; intros d H E; [exact E |]. cbn [fold_left]. apply IH; [intros x Hx; apply H; right; exact Hx |].
    specialize (H m (or_introl eq_refl)). destruct m; try exact E; try (contradiction H; reflexivity); cbn [define].
    all: assert (U : forall d', f_collection_null d' = NNullable -> f_collection_null (nonnull_if_undefined d') = NNullable)
      by (intros d' X; unfold nonnull_if_undefined; rewrite X; exact X).
    all: try (destruct l; exact E).
    all: repeat (match goal with |- context [if ?b then _ else _] => destruct b end); unfold link_list_nonnull, default_nullify;
      repeat (match goal with |- context [if ?b then _ else _] => destruct b | |- context [match ?o with Some _ => _ | None => _ end] => destruct o end); try apply U; exact E.
  Qed.

  (** None passes the check of any chain of modifiers none of which asks for a value; no
      callable is called and nothing changes. *)
  Theorem C104_checked : forall n ts c w, (forall m, In m ts -> ~ asks_value m) -> c_val c = VNone ->
    t_validate (interp P (Datatypes.S n)) ts c w = (Ok tt, w).
  Proof.
    intros n ts c w H E. unfold t_validate, chain_validate.
    assert (X : forall vs, (forall v, In v vs -> In v (map (interp P (Datatypes.S n)) ts)) -> chain_validate_loop all_on vs c [] w = (Ok [], w)).
    { induction vs as [| v vs IH]; intros Hv; [reflexivity |]. cbn [chain_validate_loop].
      destruct (proj1 (in_map_iff _ _ _) (Hv v (or_introl eq_refl))) as (m & <- & Hm). rewrite (none_checked n m c w (H m Hm) E).
      apply IH. intros x Hx. apply Hv. right. exact Hx. }
    unfold bind. rewrite (X (nvs (map (interp P (Datatypes.S n)) ts)) (fun v => in_nvs _ v)). reflexivity.
  Qed.
  (** It stays None when input is taken, if in addition no modifier makes a value, *)
  Theorem C104_taken : forall n ts c w, (forall m, In m ts -> ~ asks_value m /\ ~ makes_value m) -> c_fdef c = fdef_of ts -> c_val c = VNone -> c_original c = VNone ->
    t_transform (interp P (Datatypes.S n)) ts c w = (Ok VNone, w).
  Proof.
    intros n ts c w H Ed E Eo. unfold t_transform, chain_transform. rewrite E.
    assert (N : f_collection_null (c_fdef c) <> NNonnull).
    { rewrite Ed. apply nonnull_marked. intros m Hm ->. apply (proj2 (H _ Hm)). exact Logic.I. }
    unfold bind at 1. rewrite none_fold.
    - apply none_fold. intros v Hv. apply in_nvs in Hv. apply in_map_iff in Hv. destruct Hv as (m & <- & Hm).
      apply none_made; [apply (H m Hm) | reflexivity | exact Eo | exact N].
    - intros v Hv. apply in_tvs in Hv. apply in_map_iff in Hv. destruct Hv as (m & <- & Hm). unfold vt, bind, seq.
      rewrite none_made; [| apply (H m Hm) | reflexivity | exact Eo | exact N]. unfold bind. rewrite none_checked; [reflexivity | apply (H m Hm) | reflexivity].
  Qed.
  (** when output is made, *)
  Theorem C104_shown : forall n ts c w, (forall m, In m ts -> ~ shows_value m) -> c_val c = VNone ->
    t_tojson (interp P (Datatypes.S n)) ts c w = (Ok VNone, w).
  Proof.
    intros n ts c w H E. unfold t_tojson, chain_tojson. rewrite E. apply none_fold. intros v Hv. apply in_map_iff in Hv. destruct Hv as (m & <- & Hm).
    apply none_shown; [apply (H m Hm) | reflexivity].
  Qed.
  (** and on save. *)
  Theorem C104_saved : forall n ts c w, (forall m, In m ts -> ~ saves_value m) -> c_val c = VNone ->
    t_serialize P (interp P (Datatypes.S n)) ts c w = (Ok VNone, w).
  Proof.
    intros n ts c w H E. unfold t_serialize, chain_serialize. rewrite E.
    assert (Np : pvs (map (interp P (Datatypes.S n)) ts) = []).
    { unfold pvs. assert (fpvidx (map (interp P (Datatypes.S n)) ts) = None) as ->; [| reflexivity]. unfold fpvidx.
      clear E. induction ts as [| m ts IH]; [reflexivity |]. cbn [map first_vidx]. rewrite IH by (intros x Hx; apply H; right; exact Hx).
      cbn [interp modif_of kind]. specialize (H m (or_introl eq_refl)). destruct m; try reflexivity. exfalso. apply H. exact Logic.I. }
    rewrite Np. unfold bind at 1. rewrite none_fold.
    - unfold bind at 1. rewrite none_fold; [reflexivity |]. intros v Hv. apply in_nvs in Hv. apply in_map_iff in Hv. destruct Hv as (m & <- & Hm).
      apply none_saved; [apply (H m Hm) | reflexivity].
    - intros v Hv. apply in_tvs in Hv. apply in_map_iff in Hv. destruct Hv as (m & <- & Hm). apply none_saved; [apply (H m Hm) | reflexivity].
  Qed.

  (** inverse turns a bool over, twice gives it back, and leaves anything else; wrapintolist
      wraps any value and leaves None. *)
  Theorem C104_inverse : forall n c w b, 
    (c_val c = VBool b -> m_transform (interp P (Datatypes.S n) (MLeaf LeafModel.LInverse)) c w = (Ok (VBool (negb b)), w)) /\
    ((forall b', c_val c <> VBool b') -> m_transform (interp P (Datatypes.S n) (MLeaf LeafModel.LInverse)) c w = (Ok (c_val c), w)).
  Proof.
    intros n c w b. cbn [interp modif_of m_transform transform_of LeafModel.leaf_transform]. split; [intros ->; reflexivity |].
    intros H. destruct (c_val c); try reflexivity. contradiction (H b0 eq_refl).
  Qed.
  Theorem C104_wrapped : forall n c w, c_val c <> VNone ->
    m_transform (interp P (Datatypes.S n) (MLeaf LeafModel.LWrapIntoList)) c w = (Ok (VList [c_val c]), w).
  Proof. intros n c w H. cbn [interp modif_of m_transform transform_of LeafModel.leaf_transform]. destruct (c_val c); try reflexivity. contradiction. Qed.
End None.
Print Assumptions C104_checked.
Print Assumptions C104_taken.
Print Assumptions C104_shown.
Print Assumptions C104_saved.
Print Assumptions C104_inverse.
Print Assumptions C104_wrapped.

(** ** Cases that meet the hypotheses *)
Definition none_chain : list mdf :=
  [MLeaf (LeafModel.LType LeafModel.TStr); MEager; MLeaf (LeafModel.LMinlength (PCall 4%nat)); MLeaf (LeafModel.LHasPrefix (PCall 7%nat));
   MLeaf (LeafModel.LReplace (PVal (VStr "a")) (PVal (VStr "b"))); MListOf [MInstance "Item"; MRequired]; MValidate (PCall 5%nat) None; MTransform (PCall 6%nat)].
Definition none_ctx (ts : list mdf) (v : value) : ctx :=
  let c := rootctx (fdef_of ts) VNone 0%nat cfg0 v in nextvo c v "a" "a" (fdef_of ts) None (VObj 0%nat).
Example C104_example : forall P n w, let ts := none_chain in let c := none_ctx ts VNone in let rec := interp P (Datatypes.S n) in
  t_validate rec ts c w = (Ok tt, w) /\ t_transform rec ts c w = (Ok VNone, w) /\ t_tojson rec ts c w = (Ok VNone, w) /\ t_serialize P rec ts c w = (Ok VNone, w).
Proof.
  intros P n w ts c rec. unfold rec. split; [| split; [| split]].
  - apply C104_checked; [| reflexivity]. intros m Hm. repeat (destruct Hm as [<- | Hm]; [intros X; exact X |]). destruct Hm.
  - apply C104_taken; [| reflexivity ..]. intros m Hm. repeat (destruct Hm as [<- | Hm]; [split; intros X; cbn in X; tauto |]). destruct Hm.
  - apply C104_shown; [| reflexivity]. intros m Hm. repeat (destruct Hm as [<- | Hm]; [intros X; exact X |]). destruct Hm.
  - apply C104_saved; [| reflexivity]. intros m Hm. repeat (destruct Hm as [<- | Hm]; [intros X; exact X |]). destruct Hm.
Qed.

(** ** The exceptions *)
(** neq(None) refuses None, tobool makes it False, a list marked nonnull makes it [], and
    padstart and the like call the callables they are given although there is nothing to pad. *)
Theorem C104_exceptions_refuted :
  exists P n w,
    fst (t_validate (interp P n) [MLeaf (LeafModel.LNeq (PVal VNone))] (none_ctx [] VNone) w) <> Ok tt /\
    t_transform (interp P n) [MLeaf LeafModel.LToBool] (none_ctx [] VNone) w = (Ok (VBool false), w) /\
    (let ts := [MNonnull; MListOf [MAny]] in t_transform (interp P n) ts (none_ctx ts VNone) w = (Ok (VList []), w)) /\
    (let ts := [MLeaf (LeafModel.LPadStart (PCall 4%nat) (PVal (VInt 3)))] in let r := t_transform (interp P n) ts (none_ctx ts VNone) w in
     fst r = Ok VNone /\ w_log w = [] /\ w_log (snd r) = [EvCall KField 4%nat]).
Proof.
  exists ex_prog, 5%nat, (ex_world true). split; [vm_compute; discriminate |]. split; [vm_compute; reflexivity |]. split; [vm_compute; reflexivity |].
  repeat split; vm_compute; reflexivity.
Qed.
Print Assumptions C104_exceptions_refuted.
