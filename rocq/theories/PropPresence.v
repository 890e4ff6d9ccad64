(** PropPresence.v -- C24: required, present, presentwith and presentwithout. *)
From Verif Require Import Base Mon KeypathModel Values OGraphModel ChainModel ChainSpec ChainProofs TypesModel ObjModel ObjExample
  IoModel IoBase IoEffects IoExample CivilSpec PresenceSpec.
From Verif Require LeafModel.
Open Scope string_scope.
Open Scope list_scope.

(** A required field that holds its value itself is rejected exactly when it is None. *)
Theorem C24_required_value :
  forall (P : program) (fuel : nat) (c : ctx) (w : world),
    f_fstore (c_fdef c) <> LocalKey -> f_fstore (c_fdef c) <> ForeignKey ->
    (c_val c = VNone -> rejected P (S fuel) MRequired c w "value required") /\
    (c_val c <> VNone -> accepted P (S fuel) MRequired c w).
Proof.
  intros P fuel c w H1 H2.
  assert (K : m_validate (interp P (S fuel) MRequired) c w
    = (if is_none (c_val c) then raise_vexc c "value required" else ret tt) w).
  { cbn [interp modif_of m_validate validate_of]. unfold required_validate.
    destruct (f_fstore (c_fdef c)); first [reflexivity | contradiction]. }
  unfold accepted, rejected. rewrite K. split; intros E.
  - rewrite E. reflexivity.
  - destruct (c_val c); first [reflexivity | contradiction].
Qed.
Print Assumptions C24_required_value.

(** A reference whose key is stored on the other side is never checked. *)
Theorem C24_required_other_side :
  forall (P : program) (fuel : nat) (c : ctx) (w : world),
    f_fstore (c_fdef c) = ForeignKey -> accepted P (S fuel) MRequired c w.
Proof.
  intros P fuel c w H. unfold accepted. cbn [interp modif_of m_validate validate_of].
  unfold required_validate. rewrite H. reflexivity.
Qed.
Print Assumptions C24_required_other_side.

(** A reference to one object, with the key stored here: the context in which
    validation of [o] checks the field is [nexto c v ...]; it is rejected exactly when
    there is neither an object nor a key. *)
Theorem C24_required_by_key :
  forall (P : program) (fuel : nat) (c : ctx) (w : world) (o : oid) (f : field) (v : value) (e : string) t,
    c_owner c = VObj o -> has_field P w o f -> f_fstore (fl_fdef f) = LocalKey ->
    key_is_no_field P w o f ->
    let fc := nexto c v (fl_name f) e (fl_fdef f) t None in
    (v = VNone /\ ~ has_key w o f -> rejected P (S fuel) MRequired fc w "value required") /\
    (v <> VNone \/ has_key w o f -> accepted P (S fuel) MRequired fc w).
Proof.
  intros P fuel c w o f v e t Ho Hf Hs Hn fc.
  unfold accepted, rejected. cbn [interp modif_of m_validate validate_of].
  assert (Q : v <> VNone -> required_validate P fc w = (Ok tt, w)).
  { intros Hv. unfold required_validate. cbn [fc nexto c_fdef c_val]. rewrite Hs.
    destruct v; first [reflexivity | contradiction]. }
  assert (K : v = VNone -> required_validate P fc w =
    match stored w o f with
    | Some VNone | None => raise_vexc fc "value required" w
    | Some _ => (Ok tt, w)
    end).
  { intros ->. unfold required_validate. cbn [fc nexto c_fdef c_val c_holder c_kh]. rewrite Hs, Ho.
    unfold cdef_v, the_obj, bind, ret, getW, lift. cbn [first_of str_of_karg].
    unfold named, wcdef. unfold has_field, ofield in Hf. rewrite Hf. cbn [ret].
    unfold getattr, liftH, ObjModel.getattr. rewrite Hn. unfold attr, stored.
    destruct w as [h x g l]. cbn [w_heap]. unfold set_heap. cbn.
    destruct (o_attr (h_obj h o) (fl_ref f)) as [k |]; [| reflexivity].
    destruct k; reflexivity. }
  split.
  - intros [Hv Hk]. rewrite K by exact Hv. unfold has_key in Hk.
    destruct (stored w o f) as [k |]; [| reflexivity].
    destruct k; try reflexivity; exfalso; apply Hk; eexists; (split; [reflexivity | discriminate]).
  - intros [Hv | (k & Hk & Hv)]; [exact (Q Hv) |].
    destruct v; try (apply Q; discriminate). rewrite K by reflexivity. rewrite Hk.
    destruct k; first [reflexivity | contradiction].
Qed.
Print Assumptions C24_required_by_key.

(** A field whose chain asks for a value is valid only with a value, in either mode. *)
Theorem C24_required_field_valid :
  forall (P : program) (fuel : nat) (ts : types) (c : ctx) (w w' : world),
    civil P -> unmarked ts -> In MRequired ts ->
    f_fstore (c_fdef c) <> LocalKey -> f_fstore (c_fdef c) <> ForeignKey ->
    t_validate (interp P (S fuel)) ts c w = (Ok tt, w') -> c_val c <> VNone.
Proof.
  intros P fuel ts c w w' C Hu Hin H1 H2 H Hv.
  pose proof (proj1 (unmarked_accepts P (S fuel) ts c w w' C Hu) H) as A.
  clear H Hu. revert w A. induction ts as [| m ts IH]; intros w A; [destruct Hin |].
  inversion A as [| m' l s s1 s' Hm Hl]; subst. destruct Hin as [-> | Hin]; [| exact (IH Hin s1 Hl)].
  destruct (C24_required_value P fuel c w H1 H2) as [K _]. specialize (K Hv). unfold rejected in K.
  assert (Q : (Err (EValidation [(skp (c_fkr c), "value required")]), w) = (Ok tt, s1)) by (rewrite <- K; exact Hm).
  discriminate Q.
Qed.
Print Assumptions C24_required_field_valid.

(** A present field is rejected exactly when it is None, however it is stored. *)
Theorem C24_present :
  forall (P : program) (fuel : nat) (c : ctx) (w : world),
    (c_val c = VNone -> rejected P (S fuel) MPresent c w "value is not present") /\
    (c_val c <> VNone -> accepted P (S fuel) MPresent c w).
Proof.
  intros P fuel c w. unfold accepted, rejected. cbn [interp modif_of m_validate validate_of]. unfold present_validate.
  split; intros E; [rewrite E; reflexivity |]. destruct (c_val c); first [reflexivity | contradiction].
Qed.
Print Assumptions C24_present.

(** presentwith: rejected exactly when the value is None and the other attribute of the
    same object is not. *)
Theorem C24_presentwith :
  forall (P : program) (fuel : nat) (c : ctx) (w : world) (o : oid) (k : string) (other : value),
    c_owner c = VObj o -> reads_as P w o k other ->
    (c_val c = VNone /\ other <> VNone ->
       rejected P (S fuel) (MPresentwith k) c w ("value is not present with '" ++ k ++ "'")) /\
    (c_val c <> VNone \/ other = VNone -> accepted P (S fuel) (MPresentwith k) c w).
Proof.
  intros P fuel c w o k other Ho Hr. unfold accepted, rejected. cbn [interp modif_of m_validate validate_of].
  assert (K : c_val c = VNone -> presentwith_validate P k c w
    = (if is_none other then ret tt else raise_vexc c ("value is not present with '" ++ k ++ "'")) w).
  { intros Hv. unfold presentwith_validate, bind, referred, getattr_v. rewrite Hv, Ho. cbn [is_none]. unfold reads_as in Hr. rewrite Hr. reflexivity. }
  split.
  - intros [Hv Hn]. rewrite (K Hv). destruct other; first [reflexivity | contradiction].
  - destruct (c_val c) eqn:Hv; try (intros _; unfold presentwith_validate; rewrite Hv; reflexivity).
    intros [H | ->]; [contradiction |]. rewrite (K eq_refl). reflexivity.
Qed.
Print Assumptions C24_presentwith.

(** presentwithout: rejected exactly when the value is None and so is every other
    attribute named. *)
Theorem C24_presentwithout :
  forall (P : program) (fuel : nat) (c : ctx) (w : world) (o : oid) (ks : list string) (reads : string -> value),
    c_owner c = VObj o -> (forall k, In k ks -> reads_as P w o k (reads k)) ->
    (c_val c = VNone /\ (forall k, In k ks -> reads k = VNone) ->
       rejected P (S fuel) (MPresentwithout ks) c w "value is not present without") /\
    (c_val c <> VNone \/ (exists k, In k ks /\ reads k <> VNone) ->
       accepted P (S fuel) (MPresentwithout ks) c w).
Proof.
  intros P fuel c w o ks reads Ho Hr. unfold accepted, rejected. cbn [interp modif_of m_validate validate_of].
  unfold presentwithout_validate.
  assert (step : forall k ks, reads_as P w o k (reads k) -> presentwithout_loop P (k :: ks) c w
    = (if is_none (reads k) then presentwithout_loop P ks c else ret tt) w).
  { intros k r H. cbn [presentwithout_loop]. unfold bind, referred, getattr_v. rewrite Ho. unfold reads_as in H. rewrite H. destruct (is_none (reads k)); reflexivity. }
  split.
  - intros [Hv Hn]. rewrite Hv. cbn [is_none]. induction ks as [| k ks IH]; [reflexivity |].
    rewrite step by (apply Hr; left; reflexivity). rewrite (Hn k (or_introl eq_refl)). cbn [is_none].
    apply IH; intros x Hx; [apply Hr | apply Hn]; right; exact Hx.
  - destruct (c_val c); try (intros _; reflexivity). intros [H | (k0 & Hk & Hn)]; [contradiction |]. cbn [is_none].
    induction ks as [| k ks IH]; [destruct Hk |]. rewrite step by (apply Hr; left; reflexivity).
    destruct (is_none (reads k)) eqn:En; [| reflexivity].
    destruct Hk as [-> | Hk]; [destruct (reads k0); first [contradiction | discriminate En] |].
    apply IH; [intros x Hx; apply Hr; right; exact Hx | exact Hk].
Qed.
Print Assumptions C24_presentwithout.

(** A program in which the hypotheses are met: an article needs a title, and an author
    object or key; its note goes with the title and is needed without the tags. *)
Definition c_article : cdef := mkc "Article"
  [ f_id; mkf "title" "title_id" [tstr; MRequired];
    mkf "author" "author_id" [MInstance "User"; MLinkto; MRequired];
    mkf "note" "note_id" [tstr; MPresentwith "title"; MPresentwithout ["tags"; "id"]];
    mkf "tags" "tags_id" [tstr; MPresent] ].
Definition c_blog : cdef := mkc "Blog"
  [ f_id; mkf "articles" "article_ids" [MListOf [MInstance "Article"]] ].
Definition c_shelf : cdef := mkc "Shelf"
  [ f_id; mkf "boxes" "box_ids" [MListOf [MInstance "User"]; MLinkto; MRequired] ].
Definition c_card : cdef := mkc "Card"
  [ f_id; mkf "owner" "owner_id" [MInstance "User"; MLinkto; MPresentwith "id"] ].
Definition pr_ct (c : string) : option cdef :=
  if String.eqb c "Article" then Some c_article else if String.eqb c "Blog" then Some c_blog
  else if String.eqb c "Shelf" then Some c_shelf else if String.eqb c "Card" then Some c_card else ex_ct c.
Definition pr_prog : program := mkprog pr_ct no_guards no_hooks.

Definition pr_obj (cls : string) (attrs : list (string * value)) (lk : list (string * string)) : obj :=
  {| o_class := cls; o_attr := fun n => sget n attrs; o_new := true; o_modified := false; o_mfields := [];
     o_prev := []; o_lkeys := lk; o_raw := []; o_unlinked := []; o_operator := VNone |}.
(** an article with a key and no author object; a blog holding it *)
Definition pr_heap : heap :=
  {| h_obj := fun o => match o with
       | 0%nat => pr_obj "Article" [("id", VInt 1); ("title", VStr "t"); ("author", VNone); ("author_id", VInt 5);
                                     ("note", VNone); ("tags", VStr "x")] [("author_id", "author")]
       | 1%nat => pr_obj "Blog" [("id", VInt 2); ("articles", VList [VObj 0%nat])] []
       | 2%nat => pr_obj "Shelf" [("id", VInt 3); ("boxes", VNone); ("box_ids", VList [VInt 5])] [("box_ids", "boxes")]
       | 3%nat => pr_obj "Card" [("id", VInt 4); ("owner", VNone); ("owner_id", VNone)] [("owner_id", "owner")]
       | _ => pr_obj "Article" [("id", VInt 9); ("title", VNone); ("author", VNone); ("author_id", VNone);
                                 ("note", VNone); ("tags", VNone)] [("author_id", "author")]
       end;
     h_next := 5%nat; h_graph := {| graphs := repeat [] 6; graph_of := fun o => Nat.min o 5 |} |}.

Lemma mkprog_civil classes guards hooks : civil (mkprog classes guards hooks).
Proof.
  constructor; cbn; try discriminate. intros f c args h. do 5 (destruct f as [| f]; [discriminate |]). discriminate.
Qed.

Example C24_example :
  let root := root_ctx 0%nat cfg0 (mkw pr_heap) in
  let f := mkf "author" "author_id" [MInstance "User"; MLinkto; MRequired] in
  civil pr_prog /\ c_owner root = VObj 0%nat /\ has_field pr_prog (mkw pr_heap) 0%nat f /\
  f_fstore (fl_fdef f) = LocalKey /\ key_is_no_field pr_prog (mkw pr_heap) 0%nat f /\
  has_key (mkw pr_heap) 0%nat f /\ ~ has_key (mkw pr_heap) 4%nat f /\
  reads_as pr_prog (mkw pr_heap) 0%nat "title" (VStr "t") /\
  fst (validate pr_prog 9 0%nat (Some true) (mkw pr_heap))
    = Err (EValidation [("note", "value is not present with 'title'")]) /\
  fst (validate pr_prog 9 4%nat (Some true) (mkw pr_heap))
    = Err (EValidation [("title", "value required"); ("author", "value required"); ("tags", "value is not present")]).
Proof.
  split; [apply mkprog_civil |]. split; [reflexivity |]. split; [reflexivity |]. split; [reflexivity |].
  split; [reflexivity |]. split; [exists (VInt 5); split; [reflexivity | discriminate] |].
  split; [intros (v & E & N); vm_compute in E; inversion E; subst; apply N; reflexivity |].
  split; [reflexivity |]. split; vm_compute; reflexivity.
Qed.

(** Finding: an object inside a list is checked against the owner of the list, so its
    stored key is not found and validation ends in ValueError, although the article
    alone has a key and no complaint is due. *)
Theorem C24_key_in_listed_object_refuted :
  exists (P : program) (w : world) (blog article : oid) (f : field),
    has_field P w article f /\ f_fstore (fl_fdef f) = LocalKey /\ has_key w article f /\
    wobj w blog = pr_obj "Blog" [("id", VInt 2); ("articles", VList [VObj article])] [] /\
    fst (validate P 9 blog None w) = Err EValueError.
Proof.
  exists pr_prog, (mkw pr_heap), 1%nat, 0%nat, (mkf "author" "author_id" [MInstance "User"; MLinkto; MRequired]).
  split; [reflexivity |]. split; [reflexivity |].
  split; [exists (VInt 5); split; [reflexivity | discriminate] |]. split; [reflexivity | vm_compute; reflexivity].
Qed.
Print Assumptions C24_key_in_listed_object_refuted.

(** Finding: a required list of references with stored keys that is None makes validate
    fail with AttributeError. *)
Theorem C24_required_key_list_refuted :
  exists (P : program) (w : world) (o : oid) (f : field),
    has_field P w o f /\ f_fstore (fl_fdef f) = LocalKey /\ has_key w o f /\
    reads_as P w o (fl_name f) VNone /\ fst (validate P 9 o None w) = Err EAttributeError.
Proof.
  exists pr_prog, (mkw pr_heap), 2%nat, (mkf "boxes" "box_ids" [MListOf [MInstance "User"]; MLinkto; MRequired]).
  split; [reflexivity |]. split; [reflexivity |].
  split; [exists (VList [VInt 5]); split; [reflexivity | discriminate] |]. split; [reflexivity | vm_compute; reflexivity].
Qed.
Print Assumptions C24_required_key_list_refuted.

(** Finding: presentwith on a reference to one object that is None ends in ValueError:
    the other attribute is looked up on the missing value. *)
Theorem C24_presentwith_on_reference_refuted :
  exists (P : program) (w : world) (o : oid),
    reads_as P w o "id" (VInt 4) /\ reads_as P w o "owner" VNone /\
    fst (validate P 9 o None w) = Err EValueError.
Proof.
  exists pr_prog, (mkw pr_heap), 3%nat. split; [reflexivity | split; [reflexivity | vm_compute; reflexivity]].
Qed.
Print Assumptions C24_presentwith_on_reference_refuted.
