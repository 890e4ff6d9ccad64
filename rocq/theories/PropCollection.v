(** PropCollection.v -- C25: None in collections. *)
From Verif Require Import Base Mon PyDict KeypathModel Values OGraphModel ChainModel ChainSpec ChainProofs TypesModel TypesSpec ObjModel ObjExample IoModel IoBase
  IoExample CivilSpec IoEffects ValidateSpec ValidateProofs CollectionSpec CollectionProofs PropPresence PropValidate.
From Verif Require LeafModel.
Open Scope string_scope.
Open Scope list_scope.

(** A None item is accepted when the item type is marked nullable, and otherwise
    rejected under its own keypath, in either mode, if the item type has no other reason
    to reject None ... *)
Theorem C25_null_item :
  forall (P : program) (fuel : nat) (dict : bool) (ts raw chain : types) (c : ctx) (k : karg) (col : value) (w : world),
    collection dict ts raw -> item_types (fdef_of ts) = Some chain ->
    c_fdef c = fdef_of ts -> unmarked raw -> plain_store raw -> Forall (admits_none P (S fuel)) raw ->
    (nullable raw -> t_validate (interp P (S fuel)) chain (colval c VNone k (fdef_of chain) col) w = (Ok tt, w)) /\
    (~ nullable raw -> t_validate (interp P (S fuel)) chain (colval c VNone k (fdef_of chain) col) w
       = (Err (EValidation [(skp (c_fkr c ++ [k]), "value required")]), w)).
Proof. intros P fuel dict ts raw chain c k col w Hc Hch Hf U Hp Ha. exact (null_item P fuel dict ts raw c k col w Hc Hf U Hp Ha chain Hch). Qed.
Print Assumptions C25_null_item.
(** ... and the types themselves have none. *)
Theorem C25_types_admit_none :
  forall (P : program) (fuel : nat) (m : mdf), is_type m = true -> admits_none P (S fuel) m.
Proof. exact types_admit. Qed.
Print Assumptions C25_types_admit_none.

(** A value found valid has no None item, at any depth, other than where the item type is
    marked nullable. *)
Theorem C25_valid_at_any_depth :
  forall (P : program) (fuel : nat) (ts raw : types) (c : ctx) (w w' : world) (path : list karg),
    civil P -> c_fdef c = fdef_of ts ->
    t_validate (interp P fuel) ts c w = (Ok tt, w') ->
    within ts (c_val c) path raw VNone -> plain_store raw -> nullable raw.
Proof.
  intros P fuel ts raw c w w' path C Hf H Hw Hp.
  exact (valid_deep P ts (c_val c) path raw VNone C Hw Hp eq_refl ts fuel c w w' (or_introl eq_refl) eq_refl Hf H).
Qed.
Print Assumptions C25_valid_at_any_depth.
(** ... so for the fields of an object that validate accepts. *)
Theorem C25_valid_object :
  forall (P : program) (fuel : nat) (o : oid) (mode : option bool) (w w' : world) (d : cdef) (f : field),
    civil P -> of_class P w o d -> validate P (S fuel) o mode w = (Ok tt, w') ->
    In f (cd_fields d) -> due w o f ->
    exists w1 v, value_of P w1 o (fl_name f) v /\
      forall path raw, within (fl_types f) v path raw VNone -> plain_store raw -> nullable raw.
Proof.
  intros P fuel o mode w w' d f C Hd H Hin Hdue. apply (C12_valid_iff P fuel o mode w d w' C Hd) in H.
  destruct H as (l & w1 & Hs & Hl & _). clear w'. revert Hs. generalize (call_start P o w) as w0.
  assert (Hin' : In f (cd_fields d)) by exact Hin. clear Hin. revert Hin' l Hl w1.
  induction (cd_fields d) as [| g fs IH]; intros Hin l Hl w1 w0 Hs; [destruct Hin |].
  inversion Hs as [w2 | g' fs' w2 v l' w3 Hn Hv Hs' | g' fs' w2 w3 l' w4 Hg R Hs' | g' fs' w2 w3 e l' w4 Hg R Hs']; subst.
  - destruct Hin as [<- | Hin]; [contradiction | exact (IH Hin l Hl w1 w0 Hs')].
  - destruct Hin as [<- | Hin]; [| inversion Hl; subst; eapply IH; eauto].
    destruct R as (v & e & V & _ & R). exists w0, v. split; [exact V |]. intros path raw Hw Hp.
    apply (C25_valid_at_any_depth P fuel (fl_types g) raw _ w0 w3 path C) in R; [exact R | | | exact Hp].
    + unfold field_ctx. destruct (is_inst_field g); reflexivity.
    + unfold field_ctx. destruct (is_inst_field g); exact Hw.
  - inversion Hl as [| x y Hx Hy]. discriminate Hx.
Qed.
Print Assumptions C25_valid_object.

(** With all failures wanted, a None item where it is not allowed, at any depth, has an
    entry in the report under its keypath. *)
Theorem C25_reported_at_any_depth :
  forall (P : program) (fuel : nat) (ts raw : types) (c : ctx) (w w' : world) (r : res unit) (path : list karg),
    c_fdef c = fdef_of ts -> g_all (c_cfg c) = Some true ->
    within ts (c_val c) path raw VNone -> plain_store raw -> ~ nullable raw ->
    t_validate (interp P fuel) ts c w = (r, w') -> regular r ->
    says r (skp (c_fkr c ++ path)).
Proof.
  intros P fuel ts raw c w w' r path Hf Ha Hw Hp Hn H Hr.
  exact (reported_deep P ts (c_val c) path raw VNone Hw Hp eq_refl Hn ts fuel c w r w' (or_introl eq_refl) eq_refl Hf Ha H Hr).
Qed.
Print Assumptions C25_reported_at_any_depth.

(** A nonnull collection given None becomes empty; without the mark and without a link
    None stays None. *)
Theorem C25_nonnull :
  forall (P : program) (fuel : nat) (before after raw : types) (dict : bool) (c : ctx) (w : world),
    let ts := before ++ (if dict then MDictOf raw else MListOf raw) :: after in
    unmarked ts -> c_fdef c = fdef_of ts -> c_val c = VNone ->
    Forall (passes_on P (S fuel)) before -> Forall (passes_on P (S fuel)) after ->
    In MNonnull ts ->
    t_transform (interp P (S fuel)) ts c w = (Ok (if dict then VDict [] else VList []), w).
Proof.
  intros P fuel before after raw dict c w ts U Hf Hv Hb Ha Hin. rewrite unmarked_transform by exact U. cbn [bind ret].
  assert (Q : forall l v w, Forall (passes_on P (S fuel)) l ->
    fold_st (fun val v => m_transform v (nval c val)) (map (interp P (S fuel)) l) v w = (Ok v, w)).
  { intros l v w0 H. induction H as [| m l Hm _ IH]; [reflexivity |]. cbn [map fold_st]. unfold bind. unfold passes_on in Hm. rewrite Hm. exact IH. }
  unfold bind, ret. unfold ts at 1. rewrite map_app, fold_st_app. unfold bind. rewrite (Q before _ _ Hb). cbn [map fold_st]. unfold bind.
  assert (E : m_transform (interp P (S fuel) (if dict then MDictOf raw else MListOf raw)) (nval c (c_val c)) w
              = (Ok (if dict then VDict [] else VList []), w)).
  { rewrite nval_val. destruct dict; cbn [interp modif_of m_transform transform_of]; unfold col_transform; rewrite Hv, Hf, (nonnull_in ts Hin); reflexivity. }
  rewrite E. apply Q. exact Ha.
Qed.
Print Assumptions C25_nonnull.
Theorem C25_null_stays :
  forall (P : program) (fuel : nat) (raw : types) (dict : bool) (c : ctx) (w : world),
    c_val c = VNone -> f_collection_null (c_fdef c) <> NNonnull ->
    m_transform (interp P (S fuel) (if dict then MDictOf raw else MListOf raw)) c w = (Ok VNone, w).
Proof.
  intros P fuel raw dict c w Hv Hn. destruct dict; cbn [interp modif_of m_transform transform_of]; unfold col_transform; rewrite Hv;
    destruct (f_collection_null (c_fdef c)); try reflexivity; contradiction.
Qed.
Print Assumptions C25_null_stays.

(** A dict of lists of texts, with a None inside, and one whose inner items may be None. *)
Definition col_strict : types := [MDictOf [MListOf [tstr]]; MNonnull].
Definition col_loose : types := [MDictOf [MListOf [tstr; MNullable]]].
Definition col_value : value := VDict [("a", VList [VStr "x"; VNone]); ("b", VList [])].
Definition c_album : cdef := mkc "Album"
  [ f_id; mkf "strict" "strict_id" col_strict; mkf "loose" "loose_id" col_loose ].
Definition co_prog : program := mkprog (fun c => if String.eqb c "Album" then Some c_album else None) no_guards no_hooks.
Definition co_heap : heap :=
  {| h_obj := fun o => pr_obj "Album" [("id", VInt 1); ("strict", col_value); ("loose", col_value)] [];
     h_next := 1%nat; h_graph := {| graphs := repeat [] 2; graph_of := fun o => Nat.min o 1 |} |}.

Lemma co_within inner : unmarked inner ->
  within [MDictOf [MListOf inner]] col_value [KStr "a"; KInt 1] inner VNone.
Proof.
  intros U. eapply (wi_below true _ _ [MListOf inner]).
  - split; intros [H | []]; discriminate H.
  - exists [], []. split; [reflexivity | intros m []].
  - eexists _, "a". split; [reflexivity |]. split; [reflexivity | left; reflexivity].
  - eapply (wi_here false).
    + split; intros [H | []]; discriminate H.
    + exact U.
    + exists [], []. split; [reflexivity | intros m []].
    + eexists _, 1%nat. split; [reflexivity |]. split; reflexivity.
Qed.
Example C25_example :
  civil co_prog /\ of_class co_prog (mkw co_heap) 0%nat c_album /\
  within [MDictOf [MListOf [tstr]]] col_value [KStr "a"; KInt 1] [tstr] VNone /\ plain_store [tstr] /\ ~ nullable [tstr] /\
  nullable [tstr; MNullable] /\
  fst (validate co_prog 9 0%nat (Some true) (mkw co_heap)) = Err (EValidation [("strict.a.1", "value required")]) /\
  fst (t_transform (interp co_prog 9) col_strict (ex_ctx col_strict VNone) (mkw co_heap)) = Ok (VDict []).
Proof.
  split; [apply mkprog_civil |]. split; [split; reflexivity |].
  split; [apply co_within; split; intros [H | []]; discriminate H |].
  split; [intros m [<- | []]; reflexivity |]. split; [intros [H | []]; discriminate H |].
  split; [right; left; reflexivity |]. split; vm_compute; reflexivity.
Qed.

(** Finding: an item type with a pre-serialize mark (as [setonsave] adds) lets None
    through: the added requirement comes after the mark. *)
Theorem C25_preserialize_item_refuted :
  exists (P : program) (w : world) (o : oid) (raw : types) (f : field),
    getattr P o (fl_name f) w = (Ok (VList [VNone]), w) /\ fl_types f = [MListOf raw] /\ ~ nullable raw /\
    fst (validate P 9 o (Some true) w) = Ok tt.
Proof.
  set (raw := [tstr; MPreserialize; MSetonsave (PCall 0%nat) false]).
  set (f := mkf "names" "names_id" [MListOf raw]).
  exists (mkprog (fun c => if String.eqb c "A" then Some (mkc "A" [f]) else None) no_guards no_hooks).
  exists (mkw {| h_obj := fun o => pr_obj "A" [("names", VList [VNone])] [];
     h_next := 1%nat; h_graph := {| graphs := repeat [] 2; graph_of := fun o => Nat.min o 1 |} |}), 0%nat, raw, f.
  split; [reflexivity |]. split; [reflexivity |]. split; [intros [H | [H | [H | []]]]; discriminate H | vm_compute; reflexivity].
Qed.
Print Assumptions C25_preserialize_item_refuted.
