(** PropOwn.v -- C77: permissions that compare the operator with the owner of an object. *)
From Verif Require Import Base Mon PyDict KeypathModel Values TypesModel ObjModel ObjSpec ObjTrack ObjExample
  LinkSpec PropLink FetchModel FetchSpec PropFetch OwnModel OwnSpec.
Open Scope string_scope.
Open Scope list_scope.

(** ** C77 Owners *)

Section Owner.
  Context (ct : string -> option cdef).
  Context (oeq : heap -> Values.oid -> Values.oid -> bool).
  Context (getter : heap -> Values.oid -> string -> res value).
  Context (vexc : string -> exn).

  (** What fval gives for a reference: the object, a stand-in made of the stored key, or None. *)
  Lemma fval_run h o f : wf_classes ct -> single_reference ct h o f ->
    exists i, fval ct getter (fl_name f) (VObj o) h = (Ok i, h) /\
      ((exists a, i = IVal (VObj a) /\ attr h o (fl_name f) = Some (VObj a)) \/
       (exists c k, i = IRef c k /\ stands_for ct h o f c k /\ attr h o (fl_name f) = Some VNone) \/
       (i = IVal VNone /\ forall c k, ~ stands_for ct h o f c k)).
  Proof.
    intros WF [F RF TY (c & CL & CT) AV KY].
    assert (NC : is_calc f = false).
    { unfold is_ref in RF. unfold is_calc. destruct (f_fstore (fl_fdef f)); try discriminate RF; reflexivity. }
    assert (FC : foreign_class f = Some c).
    { unfold foreign_class. rewrite TY. exact CL. }
    unfold fval, bind, gets. rewrite F.
    assert (G : forall x, attr h o (fl_name f) = Some x -> getattr ct getter o (fl_name f) h = (Ok x, h)).
    { intros x E. unfold getattr. rewrite F, NC, E. reflexivity. }
    destruct AV as [AV|(a & AV)]; rewrite (G _ AV).
    - destruct (is_local f) eqn:L.
      + assert (LK : f_fstore (fl_fdef f) = LocalKey).
        { unfold is_local in L. destruct (f_fstore (fl_fdef f)); try discriminate L; reflexivity. }
        rewrite LK, TY, FC. destruct (ct c) as [dc|] eqn:EC; [|congruence].
        destruct (KY eq_refl) as (k & K).
        assert (GK : getattr ct getter o (fl_ref f) h = (Ok k, h)).
        { unfold getattr.
          assert (N : ofield ct h o (fl_ref f) = None).
          { destruct (ofield ct h o (fl_ref f)) as [g|] eqn:E; [|reflexivity]. exfalso.
            unfold ofield, cdef_of in E, F.
            destruct (ct (o_class (h_obj h o))) as [d|] eqn:D; [|discriminate F].
            apply field_named_in in E. destruct E as [E1 E2].
            apply field_named_in in F. destruct F as [F1 F2].
            apply (wf_refname _ _ _ (WF _ _ D) _ _ F1 E1 L). symmetry. exact E2. }
          rewrite N, K. reflexivity. }
        rewrite GK.
        assert (SF : k <> VNone -> stands_for ct h o f c k).
        { intros NN. apply sf_key; assumption. }
        destruct k; try (eexists; split; [reflexivity|]; right; left; eexists _, _;
          split; [reflexivity|]; split; [apply SF; discriminate|exact AV]).
        exists (IVal VNone). split; [reflexivity|]. right. right. split; [reflexivity|].
        intros c' k' S. inversion S; congruence.
      + assert (LK : f_fstore (fl_fdef f) <> LocalKey).
        { unfold is_local in L. destruct (f_fstore (fl_fdef f)); try discriminate L; discriminate. }
        exists (IVal VNone). split; [destruct (f_fstore (fl_fdef f)); reflexivity || congruence|].
        right. right. split; [reflexivity|]. intros c' k' S. inversion S; congruence.
    - exists (IVal (VObj a)). split; [destruct (f_fstore (fl_fdef f)); reflexivity|].
      left. exists a. split; [reflexivity|exact AV].
  Qed.

  Lemma stands_unique h o f c k c' k' : stands_for ct h o f c k -> stands_for ct h o f c' k' -> c = c' /\ k = k'.
  Proof. intros A B. inversion A; inversion B; subst; try congruence; split; congruence. Qed.

  (** An operator may act on the object exactly if the reference stands for an object of
      the operator's class with the operator's key, whether that object has been loaded or
      only its key is stored; nothing is changed and nothing is fetched. *)
  Theorem C77_owner_may : forall h o f action u,
    wf_classes ct -> (forall m, exists d, vexc m = EValidation d) ->
    single_reference ct h o f ->
    (owner_guard ct oeq getter vexc action (fl_name f) (VObj u) o h = (Ok tt, h) <->
       exists k, stands_for ct h o f (o_class (h_obj h u)) k /\ eqv oeq h k (id_of ct h u) = true) /\
    (owner_guard ct oeq getter vexc action (fl_name f) (VObj u) o h
       = (Err (EUnauthorized ("cannot " ++ action)), h) <->
     ~ exists k, stands_for ct h o f (o_class (h_obj h u)) k /\ eqv oeq h k (id_of ct h u) = true).
  Proof.
    intros h o f action u WF VE SR.
    destruct (fval_run h o f WF SR) as (i & FV & CASES).
    assert (GEN : forall c k, stands_for ct h o f c k -> identity ct i h = (Ok (c, k), h) -> i <> IVal VNone ->
      owner_guard ct oeq getter vexc action (fl_name f) (VObj u) o h =
      (if String.eqb c (o_class (h_obj h u)) && eqv oeq h k (id_of ct h u) then Ok tt
       else Err (EUnauthorized ("cannot " ++ action)), h)).
    { intros c k S ID NN. unfold owner_guard, isobj. unfold bind at 1. rewrite FV.
      assert (E : forall A (x y : A), match i with IVal VNone => x | _ => y end = y).
      { intros A x y. destruct i as [[]|]; try reflexivity. destruct (NN eq_refl). }
      rewrite E. unfold bind. cbn [identity]. unfold gets at 1. rewrite ID. unfold gets. cbn [fst snd].
      destruct (String.eqb c (o_class (h_obj h u)) && eqv oeq h k (id_of ct h u)).
      - reflexivity.
      - destruct (VE "objects are not equal") as (d & E0). unfold throw. rewrite E0. reflexivity. }
    assert (FIN : forall c k, stands_for ct h o f c k -> identity ct i h = (Ok (c, k), h) -> i <> IVal VNone ->
      (exists k', stands_for ct h o f (o_class (h_obj h u)) k' /\ eqv oeq h k' (id_of ct h u) = true) <->
      String.eqb c (o_class (h_obj h u)) && eqv oeq h k (id_of ct h u) = true).
    { intros c k S ID NN. rewrite Bool.andb_true_iff, String.eqb_eq. split.
      - intros (k' & S' & E). destruct (stands_unique _ _ _ _ _ _ _ S S') as [-> ->]. split; [reflexivity|exact E].
      - intros [<- E]. exists k. split; assumption. }
    assert (DONE : forall c k, stands_for ct h o f c k -> identity ct i h = (Ok (c, k), h) -> i <> IVal VNone ->
      (owner_guard ct oeq getter vexc action (fl_name f) (VObj u) o h = (Ok tt, h) <->
         exists k, stands_for ct h o f (o_class (h_obj h u)) k /\ eqv oeq h k (id_of ct h u) = true) /\
      (owner_guard ct oeq getter vexc action (fl_name f) (VObj u) o h
         = (Err (EUnauthorized ("cannot " ++ action)), h) <->
       ~ exists k, stands_for ct h o f (o_class (h_obj h u)) k /\ eqv oeq h k (id_of ct h u) = true)).
    { intros c k S ID NN. rewrite (GEN c k S ID NN), (FIN c k S ID NN).
      destruct (String.eqb c (o_class (h_obj h u)) && eqv oeq h k (id_of ct h u)).
      - split; split; intros Q; reflexivity || (discriminate Q) || (destruct (Q eq_refl)).
      - split; split; intros Q; try discriminate Q; try reflexivity. discriminate. }
    destruct CASES as [(a & -> & A)|[(c & k & -> & S & A)|(-> & N)]].
    - apply (DONE (o_class (h_obj h a)) (id_of ct h a)); [apply sf_object; exact A|reflexivity|discriminate].
    - apply (DONE c k); [exact S|reflexivity|discriminate].
    - assert (R : owner_guard ct oeq getter vexc action (fl_name f) (VObj u) o h
                  = (Err (EUnauthorized ("cannot " ++ action)), h)).
      { unfold owner_guard, isobj, bind. rewrite FV.
        destruct (VE "comparing value not found") as (d & E0). unfold throw. rewrite E0. reflexivity. }
      rewrite R. split; split; intros Q; try discriminate Q; try reflexivity.
      + destruct Q as (k & S & _). destruct (N _ _ S).
      + intros (k & S & _). destruct (N _ _ S).
  Qed.

  (** Without an operator the action is refused; so is an action on an object that is
      nobody's; an operator that is no object raises AttributeError. *)
  Theorem C77_otherwise : forall h o f action,
    wf_classes ct -> (forall m, exists d, vexc m = EValidation d) ->
    single_reference ct h o f ->
    owner_guard ct oeq getter vexc action (fl_name f) VNone o h = (Err (EUnauthorized "no operator"), h) /\
    ((forall c k, ~ stands_for ct h o f c k) -> forall op, op <> VNone ->
       owner_guard ct oeq getter vexc action (fl_name f) op o h
         = (Err (EUnauthorized ("cannot " ++ action)), h)) /\
    (forall c k op, stands_for ct h o f c k -> op <> VNone -> (forall u, op <> VObj u) ->
       owner_guard ct oeq getter vexc action (fl_name f) op o h = (Err EAttributeError, h)).
  Proof.
    intros h o f action WF VE SR. split; [reflexivity|].
    destruct (fval_run h o f WF SR) as (i & FV & CASES). split.
    - intros N op NO.
      assert (i = IVal VNone) as ->.
      { destruct CASES as [(a & -> & A)|[(c & k & -> & S & A)|(-> & _)]]; [|destruct (N _ _ S)|reflexivity].
        destruct (N _ _ (sf_object ct h o f a A)). }
      destruct (VE "comparing value not found") as (d & E).
      destruct op; try congruence; unfold owner_guard, isobj, bind; rewrite FV; unfold throw; rewrite E; reflexivity.
    - intros c k op S NO NU.
      assert (NN : i <> IVal VNone).
      { destruct CASES as [(a & -> & A)|[(c' & k' & -> & _)|(_ & N)]]; try discriminate. destruct (N _ _ S). }
      assert (E : forall A (x y : A), match i with IVal VNone => x | _ => y end = y).
      { intros A x y. destruct i as [[]|]; try reflexivity. destruct (NN eq_refl). }
      destruct op; try congruence; unfold owner_guard, isobj, bind; rewrite FV, E; reflexivity.
  Qed.

  (** Whether the owner has been loaded makes no difference: two states of an object, one
      with the owner in the field and one with only its key stored, let the same operators
      act, for keys that are numbers or text. *)
  Theorem C77_loaded_or_not : forall h1 h2 o f action a k u,
    wf_classes ct -> (forall m, exists d, vexc m = EValidation d) ->
    single_reference ct h1 o f -> single_reference ct h2 o f -> is_local f = true ->
    attr h1 o (fl_name f) = Some (VObj a) -> id_of ct h1 a = k -> f_inst (fl_fdef f) = Some (o_class (h_obj h1 a)) ->
    attr h2 o (fl_name f) = Some VNone -> attr h2 o (fl_ref f) = Some k ->
    (exists s, k = VStr s) \/ (exists z, k = VInt z) ->
    o_class (h_obj h2 u) = o_class (h_obj h1 u) -> id_of ct h2 u = id_of ct h1 u ->
    fst (owner_guard ct oeq getter vexc action (fl_name f) (VObj u) o h1) =
    fst (owner_guard ct oeq getter vexc action (fl_name f) (VObj u) o h2).
  Proof.
    intros h1 h2 o f action a k u WF VE S1 S2 L A1 K FI A2 KA KK UC UI.
    destruct (C77_owner_may h1 o f action u WF VE S1) as [P1 N1].
    destruct (C77_owner_may h2 o f action u WF VE S2) as [P2 N2].
    assert (NK : k <> VNone) by (destruct KK as [(s & ->)|(z & ->)]; discriminate).
    assert (ST1 : stands_for ct h1 o f (o_class (h_obj h1 a)) k).
    { rewrite <- K. apply sf_object. exact A1. }
    assert (ST2 : stands_for ct h2 o f (o_class (h_obj h1 a)) k).
    { apply sf_key; assumption. }
    assert (EQ : eqv oeq h1 k (id_of ct h1 u) = eqv oeq h2 k (id_of ct h2 u)).
    { rewrite UI. unfold eqv. destruct KK as [(s & ->)|(z & ->)]; reflexivity. }
    destruct (String.eqb (o_class (h_obj h1 a)) (o_class (h_obj h1 u)) && eqv oeq h1 k (id_of ct h1 u)) eqn:E.
    - apply Bool.andb_true_iff in E. destruct E as [EC EK]. apply String.eqb_eq in EC.
      rewrite (proj2 P1), (proj2 P2); [reflexivity| |].
      + exists k. rewrite UC, <- EC, <- EQ. split; assumption.
      + exists k. rewrite <- EC. split; assumption.
    - rewrite (proj2 N1), (proj2 N2); [reflexivity| |].
      + intros (k' & S & Q). destruct (stands_unique _ _ _ _ _ _ _ ST2 S) as [EC <-].
        rewrite UC in EC. rewrite EC, String.eqb_refl, EQ, Q in E. discriminate E.
      + intros (k' & S & Q). destruct (stands_unique _ _ _ _ _ _ _ ST1 S) as [EC <-].
        rewrite EC, String.eqb_refl, Q in E. discriminate E.
  Qed.

  (** isobj by itself, in any chain.  None is refused without computing the value to compare
      with; a comparing value of None is refused; two values that stand for objects pass
      exactly if class and key agree; the comparison changes nothing. *)
  Theorem C77_isobj : forall that,
    (forall h, isobj ct oeq vexc that (IVal VNone) h = (Err (vexc "none is not an object"), h)) /\
    (forall h this e h', this <> IVal VNone -> that h = (Err e, h') ->
       isobj ct oeq vexc that this h = (Err e, h')) /\
    (forall h this h', this <> IVal VNone -> that h = (Ok (IVal VNone), h') ->
       isobj ct oeq vexc that this h = (Err (vexc "comparing value not found"), h')) /\
    (forall h this t h' c k c' k', that h = (Ok t, h') ->
       denotes ct h' this c k -> denotes ct h' t c' k' ->
       isobj ct oeq vexc that this h
         = (Ok tt, h') /\ c' = c /\ eqv oeq h' k' k = true \/
       isobj ct oeq vexc that this h
         = (Err (vexc "objects are not equal"), h') /\ ~ (c' = c /\ eqv oeq h' k' k = true)).
  Proof.
    intros that. split; [reflexivity|].
    assert (E : forall i A (x y : A), i <> IVal VNone -> match i with IVal VNone => x | _ => y end = y).
    { intros i A x y N. destruct i as [[]|]; try reflexivity. destruct (N eq_refl). }
    split; [|split].
    - intros h this e h' N T. unfold isobj. rewrite E by exact N. unfold bind. rewrite T. reflexivity.
    - intros h this h' N T. unfold isobj. rewrite E by exact N. unfold bind. rewrite T. reflexivity.
    - intros h this t h' c k c' k' T D1 D2.
      assert (R : isobj ct oeq vexc that this h
        = (if String.eqb c' c && eqv oeq h' k' k then Ok tt else Err (vexc "objects are not equal"), h')).
      { unfold isobj. rewrite E by (destruct D1; discriminate). unfold bind at 1. rewrite T.
        rewrite E by (destruct D2; discriminate).
        destruct D1; destruct D2; unfold bind; cbn [identity]; unfold gets, ret; cbn [fst snd];
          match goal with |- context [String.eqb ?x ?y && ?b] => destruct (String.eqb x y && b) end; reflexivity. }
      rewrite R. destruct (String.eqb c' c) eqn:C.
      + apply String.eqb_eq in C. destruct (eqv oeq h' k' k) eqn:K; cbn [andb].
        * left. repeat split; assumption.
        * right. split; [reflexivity|]. intros [_ Q]. discriminate Q.
      + right. split; [reflexivity|]. intros [Q _]. rewrite Q, String.eqb_refl in C. discriminate C.
  Qed.
End Owner.
Print Assumptions C77_isobj.
Print Assumptions C77_owner_may.
Print Assumptions C77_otherwise.
Print Assumptions C77_loaded_or_not.

Lemma include_class ct oeq getter setter pystr fuel ask R h o q v h1 h' :
  setting ct oeq R h -> o_class (h_obj h o) = ra_class R ->
  asks ct h o (ra_field R) q -> ask q h = (Ok v, h1) ->
  setting ct oeq R h1 -> on_side R h1 (HSet o (fl_name (ra_field R)) v) ->
  include ct oeq getter setter pystr fuel ask o (fl_name (ra_field R)) h = (Ok tt, h') ->
  o_class (h_obj h' o) = ra_class R.
Proof.
  intros ST C A Q ST1 OS H.
  destruct (include_run ct oeq getter setter pystr fuel ask R h o q v h1 h' ST C A Q H) as (h2 & RUN & ->).
  unfold upd. cbn [h_obj]. rewrite Nat.eqb_refl. cbn [set_modified set_mfields o_class].
  assert (AF : after ct oeq getter setter pystr R fuel [HSet o (fl_name (ra_field R)) v] h1 h2).
  { split.
    - split; [right; left; exact OS|]. intros; exact Logic.I.
    - unfold history. cbn [for_st task_of]. unfold bind. rewrite RUN. reflexivity. }
  destruct (after_sets _ _ _ _ _ _ _ _ _ _ ST1 AF) as (_ & EC & _). rewrite EC. apply OS.
Qed.

(** fobj gives what is in the field, without asking the data base if there is something. *)
Theorem C77_fobj : forall ct oeq getter setter pystr fuel ask R h o x,
  setting ct oeq R h -> o_class (h_obj h o) = ra_class R ->
  attr h o (fl_name (ra_field R)) = Some x ->
  let run := fobj ct oeq getter setter pystr fuel ask (fl_name (ra_field R)) (VObj o) h in
  (x <> VNone -> run = (Ok x, h)) /\
  (x = VNone -> forall q v h1 y h', asks ct h o (ra_field R) q -> ask q h = (Ok v, h1) ->
     setting ct oeq R h1 -> on_side R h1 (HSet o (fl_name (ra_field R)) v) ->
     run = (Ok y, h') -> objs (Some y) = objs (Some v)) /\
  (x = VNone -> forall q e h1, asks ct h o (ra_field R) q -> ask q h = (Err e, h1) -> run = (Err e, h1)).
Proof.
  intros ct oeq getter setter pystr fuel ask R h o x ST C A run.
  assert (NC : is_calc (ra_field R) = false).
  { destruct (st_rel _ _ _ _ ST) as [[_ RF _ _ _ _] _ _]. unfold is_ref in RF. unfold is_calc.
    destruct (f_fstore (fl_fdef (ra_field R))); try discriminate RF; reflexivity. }
  assert (F : ofield ct h o (fl_name (ra_field R)) = Some (ra_field R)).
  { destruct (st_rel _ _ _ _ ST) as [[[d [D1 D2]] _ _ _ _ _] _ _].
    unfold ofield, cdef_of. rewrite C, D1. apply field_named_of; [|exact D2].
    apply (wf_names _ _ _ (st_wf _ _ _ _ ST _ _ D1)). }
  assert (G : getattr ct getter o (fl_name (ra_field R)) h = (Ok x, h)).
  { unfold getattr. rewrite F, NC, A. reflexivity. }
  split; [|split].
  - intros NN. unfold run, fobj, bind. rewrite G. destruct x; try congruence; unfold ret; rewrite G; reflexivity.
  - intros -> q v h1 y h' AS Q ST1 OS H. unfold run, fobj, bind in H. rewrite G in H.
    destruct (include ct oeq getter setter pystr fuel ask o (fl_name (ra_field R)) h) as [[[]|e] h2] eqn:I;
      [|discriminate H].
    destruct (C71_include ct oeq getter setter pystr fuel ask R h o q v h1 h2 ST C AS Q ST1 OS I) as (RE & _).
    pose proof (include_class ct oeq getter setter pystr fuel ask R h o q v h1 h2 ST C AS Q ST1 OS I) as C2.
    assert (F2 : ofield ct h2 o (fl_name (ra_field R)) = Some (ra_field R)).
    { unfold ofield, cdef_of in F |- *. rewrite C2. rewrite C in F. exact F. }
    unfold getattr in H. rewrite F2, NC in H.
    destruct (attr h2 o (fl_name (ra_field R))) as [y'|] eqn:Y; [|discriminate H]. injection H as <- _.
    unfold refs in RE. rewrite Y in RE. exact RE.
  - intros -> q e h1 AS Q. unfold run, fobj, bind. rewrite G.
    destruct (C71_otherwise ct oeq getter setter pystr fuel ask o (fl_name (ra_field R)) h) as (_ & _ & X).
    rewrite (X R q e h1 ST C eq_refl AS Q). reflexivity.
Qed.
Print Assumptions C77_fobj.

(** *** Findings *)

(** Two users that have not been given keys count as the same: the one may act on what is
    the other's. *)
Definition keyless : heap :=
  let none h o := upd o (set_attr "id" VNone) h in
  upd 2 (set_attr "author" (VObj 0)) (none (none (ex_heap true) 0) 1).
Theorem C77_unsaved_refuted :
  fst (owner_guard ex_ct ex_oeq ex_getter (fun m => EValidation [("", m)]) "update" "author" (VObj 1) 2 keyless)
    = Ok tt /\
  attr keyless 2 "author" = Some (VObj 0) /\ ex_oeq keyless 0 1 = false.
Proof. vm_compute. repeat apply conj; reflexivity. Qed.
Print Assumptions C77_unsaved_refuted.

(** A post whose author's key is stored and whose author has not been loaded: its author
    may act, another user and an object of another class with the same key may not. *)
Definition stored : heap := upd 2 (set_attr "author_id" (VInt 1)) (upd 4 (set_attr "id" (VInt 1)) (ex_heap false)).
Example C77_example :
  let guard u := fst (owner_guard ex_ct ex_oeq ex_getter (fun m => EValidation [("", m)]) "update" "author" (VObj u) 2 stored) in
  single_reference ex_ct stored 2 (fld_of c_post "author") /\
  stands_for ex_ct stored 2 (fld_of c_post "author") "User" (VInt 1) /\
  guard 0 = Ok tt /\ guard 1 = Err (EUnauthorized "cannot update") /\
  id_of ex_ct stored 4 = VInt 1 /\ guard 4 = Err (EUnauthorized "cannot update").
Proof.
  repeat apply conj; try (vm_compute; reflexivity).
  - constructor; try reflexivity.
    + exists "User". split; [reflexivity|discriminate].
    + left. reflexivity.
    + intros _. exists (VInt 1). reflexivity.
  - apply sf_key; reflexivity || discriminate.
Qed.

(** Comparing with the stored key of the author, and with the author once loaded: the author
    passes, another user does not. *)
Example C77_isobj_example :
  let vexc m := EValidation [("", m)] in
  let run t u := fst (isobj ex_ct ex_oeq vexc (ret t) (IVal (VObj u)) stored) in
  denotes ex_ct stored (IVal (VObj 0)) "User" (VInt 1) /\
  denotes ex_ct stored (IRef "User" (VInt 1)) "User" (VInt 1) /\
  run (IRef "User" (VInt 1)) 0%nat = Ok tt /\ run (IVal (VObj 0)) 0%nat = Ok tt /\
  run (IRef "User" (VInt 1)) 1%nat = Err (vexc "objects are not equal").
Proof.
  repeat apply conj; try (vm_compute; reflexivity).
  - exact (dn_object ex_ct stored 0%nat).
  - apply dn_ref.
Qed.
