(** PropOut.v -- C41, C42 and C43: what tojson writes. *)
From Verif Require Import Base Mon PyList PyDict StrDict KeypathModel Values CalModel OGraphModel MGraphModel ChainModel
  TypesModel TypesSpec ObjModel ObjExample IoModel IoBase IoExample Sound TameSpec GraphSpec PropGraph OutSpec OutProofs OutRun OutTop.
From Verif Require LeafModel.
Open Scope string_scope.
Open Scope list_scope.

(** ** C42: termination *)

(** tojson finishes on every finite graph, however cyclic by references, as long as what
    is held otherwise than by reference is embedded to a finite depth: the depth of the
    recursion that it needs is the same for all objects and options. *)
Theorem C42_tojson_terminates :
  forall (P : program) (D : nat) (w : world) (U : list string) (M : nat) (rk : oid -> nat),
    calm P -> ending P -> tame_classes D P -> flat_guards D P ARead ->
    finite_graph P (w_heap w) -> orderly_classes P -> classes_named P U -> embedding P (w_heap w) rk M ->
    exists N, forall (n : nat) (o : oid) (ignore_writeonly reverse : bool) (out_null : option bool),
      (N <= n)%nat -> fst (tojson P n o ignore_writeonly reverse out_null w) <> Err ERecursion.
Proof.
  intros P D w U M rk C E T G F O N B. exists (out_fuel D w U M). intros n o iw rev on L.
  apply (ends_tojson P D w U M rk); assumption.
Qed.
Print Assumptions C42_tojson_terminates.

(** Graphs in which objects are held by references only: all of them. *)
Theorem C42_reference_graphs :
  forall (P : program) (D : nat) (w : world) (U : list string),
    calm P -> ending P -> tame_classes D P -> flat_guards D P ARead ->
    finite_graph P (w_heap w) -> orderly_classes P -> classes_named P U ->
    (forall o d f v x, p_ct P (o_class (h_obj (w_heap w) o)) = Some d -> In f (cd_fields d) ->
       reads P (w_heap w) o (fl_name f) v -> occurs x v -> is_ref (fl_fdef f) = true) ->
    exists N, forall (n : nat) (o : oid) (ignore_writeonly reverse : bool) (out_null : option bool),
      (N <= n)%nat -> fst (tojson P n o ignore_writeonly reverse out_null w) <> Err ERecursion.
Proof.
  intros P D w U C E T G F O N B. apply (C42_tojson_terminates P D w U 0 (fun _ => 0%nat)); try assumption.
  split; [lia |]. intros o d f v x Hd Hf Hr _ Hv Hx. rewrite (B o d f v x Hd Hf Hv Hx) in Hr. discriminate Hr.
Qed.
Print Assumptions C42_reference_graphs.

(** But an object that is embedded in itself is expanded without end: whatever the limit
    of the recursion, tojson exceeds it. *)
Definition c_box : cdef := mkc "Box" [ mkf "inner" "inner_id" [MInstance "Box"] ].
Definition box_ct (c : string) : option cdef := if String.eqb c "Box" then Some c_box else None.
Definition box_prog : program := mkprog box_ct no_guards no_hooks.
Definition box_obj : obj :=
  {| o_class := "Box"; o_attr := fun n => if String.eqb n "inner" then Some (VObj 0%nat) else None;
     o_new := true; o_modified := false; o_mfields := []; o_prev := []; o_lkeys := [];
     o_raw := []; o_unlinked := []; o_operator := VNone |}.
Definition box_heap : heap :=
  {| h_obj := fun o => match o with 0%nat => box_obj | _ => ex_obj "" 0 [] true end; h_next := 1%nat; h_graph := h_graph (ex_heap true) |}.

Lemma bind_err {A B} (m : st world A) (k : A -> st world B) w e : fst (m w) = Err e -> fst (bind m k w) = Err e.
Proof. unfold bind. destruct (m w) as [[a | e'] w1]; cbn; intros H; congruence. Qed.
Lemma box_endless : forall n c (w : world), w_heap w = box_heap -> w_ext w 0%nat = ext0 -> c_val c = VObj 0%nat -> c_owner c = VObj 0%nat ->
  fst (m_tojson (interp box_prog n (MInstance "Box")) c w) = Err ERecursion.
Proof.
  induction n as [| n IH]; intros c w Hw Hx Hc Ho; [reflexivity |].
  cbn [interp modif_of m_tojson tojson_of]. unfold inst_tojson. rewrite Hc. cbn [the_obj].
  unfold bind at 1, ret at 1. unfold bind at 1, getW at 1. unfold wcdef. rewrite Hw. cbv zeta.
  apply bind_err. unfold cdef_of. change (p_ct box_prog (o_class (h_obj box_heap 0%nat))) with (Some c_box).
  cbn [cd_fields c_box mkc fold_st]. apply bind_err.
  unfold json_field. unfold bind at 1, getW at 1. unfold bind at 1, getW at 1. unfold bind at 1, getW at 1.
  unfold bind at 1. unfold getattr, liftH. rewrite Hw. cbn [fl_name mkf].
  change (ObjModel.getattr (p_ct box_prog) (p_getter box_prog) 0%nat "inner" box_heap) with (Ok (VObj 0%nat), box_heap).
  cbv iota beta zeta. unfold wclass, wobj, wcdef. rewrite Hx, Hw.
  match goal with |- context [if ?b then _ else _] => change b with false end. cbv iota.
  unfold bind at 1. match goal with |- context [if ?b then _ else ret _] => change b with false end. cbv iota. unfold ret at 1. cbv iota beta.
  change (is_ref (fl_fdef (mkf "inner" "inner_id" [MInstance "Box"]))) with false. cbn [andb].
  change (f_read_rule (fl_fdef (mkf "inner" "inner_id" [MInstance "Box"]))) with ReadUnlimited. cbv iota.
  change (fstore_eqb (f_fstore (fl_fdef (mkf "inner" "inner_id" [MInstance "Box"]))) Temp) with false. cbv iota.
  change (picked ext0 "inner") with true. cbn [negb].
  unfold ekey, cdef_v. rewrite Ho. cbn [the_obj]. unfold bind at 1. unfold bind at 1. unfold bind at 1. unfold ret at 1. unfold getW at 1.
  unfold ret at 1. cbv iota beta. apply bind_err.
  change (is_inst_field (mkf "inner" "inner_id" [MInstance "Box"])) with true. cbv iota.
  unfold t_tojson, chain_tojson. cbn [fl_types mkf map fold_st]. apply bind_err. apply IH; try reflexivity. exact Hx.
Qed.
Theorem C42_embedded_cycle_refuted :
  finite_graph box_prog box_heap /\
  forall (n : nat) (ignore_writeonly reverse : bool) (out_null : option bool),
    fst (tojson box_prog n 0%nat ignore_writeonly reverse out_null (mkw box_heap)) = Err ERecursion.
Proof.
  split.
  - intros o H. destruct o as [| o]; [cbn; lia |]. exfalso. apply H. reflexivity.
  - intros n iw rev on. rewrite tojson_eq. change (guard box_prog n 0%nat ARead (mkw box_heap)) with (@Ok unit tt, mkw box_heap). cbv iota.
    pose proof (box_endless n (top_ctx box_heap 0%nat iw rev on) (set_mg [] (mkw box_heap)) eq_refl eq_refl eq_refl eq_refl) as H.
    change (o_class (h_obj (w_heap (mkw box_heap)) 0%nat)) with "Box".
    change (w_heap (mkw box_heap)) with box_heap. destruct (m_tojson _ _ _) as [r w2]. exact H.
Qed.
Print Assumptions C42_embedded_cycle_refuted.

(** ** C43: the entries *)

(** What tojson gives is a dict with, for the fields of the class in their order, the stored
    key of a reference and the JSON form of the value of a visible field, and nothing
    else; entries of None only if nulls are asked for (by the call, or else by the class).
    The form is what the field's types write for the value. *)
Theorem C43_entries :
  forall (P : program) (D : nat) (w : world) (n : nat) (o : oid) (d : cdef) (ignore_writeonly reverse : bool)
         (out_null : option bool) (v : value) (w' : world),
    calm P -> tame_classes D P -> flat_guards D P ARead ->
    p_ct P (o_class (h_obj (w_heap w) o)) = Some d ->
    NoDup (map fl_name (cd_fields d)) -> NoDup (flat_map out_names (cd_fields d)) ->
    tojson P (S n) o ignore_writeonly reverse out_null w = (Ok v, w') ->
    exists form : field -> value,
      (forall f, In f (cd_fields d) -> visible ignore_writeonly (w_ext w o) f = true ->
         writes P n (w_heap w) (w_ext w) o f (form f)) /\
      v = VDict (flat_map (entries_of P (w_heap w) (w_ext w o) o ignore_writeonly
                             (match out_null with Some b => b | None => cd_output_null d end) form) (cd_fields d)).
Proof. exact tojson_laid. Qed.
Print Assumptions C43_entries.

(** The keys of the result, when nulls are output: the JSON names of all the visible
    fields, and those of the stored keys (of picked fields). *)
Theorem C43_keys :
  forall (P : program) (D : nat) (w : world) (n : nat) (o : oid) (d : cdef) (ignore_writeonly reverse : bool)
         (v : value) (w' : world),
    calm P -> tame_classes D P -> flat_guards D P ARead ->
    p_ct P (o_class (h_obj (w_heap w) o)) = Some d ->
    NoDup (map fl_name (cd_fields d)) -> NoDup (flat_map out_names (cd_fields d)) ->
    tojson P (S n) o ignore_writeonly reverse (Some true) w = (Ok v, w') ->
    exists m, v = VDict m /\ forall k, In k (map fst m) <->
      exists f, In f (cd_fields d) /\
        (fl_json f = k /\ visible ignore_writeonly (w_ext w o) f = true \/
         fl_cref f = k /\ is_local f = true /\ picked (w_ext w o) (fl_name f) = true).
Proof.
  intros P D w n o d iw rev v w' C T G Hd N1 N2 E.
  destruct (C43_entries P D w n o d iw rev (Some true) v w' C T G Hd N1 N2 E) as (form & _ & ->).
  eexists. split; [reflexivity |]. intros k. split.
  - intros Hk. apply in_map_iff in Hk. destruct Hk as ([k0 u] & <- & Hin). apply in_flat_map in Hin. destruct Hin as (f & Hf & Hin).
    exists f. split; [exact Hf |]. unfold entries_of, entry in Hin. cbn [orb] in Hin. apply in_app_iff in Hin. destruct Hin as [Hin | Hin].
    + right. destruct (is_local f); [| contradiction]. destruct (picked (w_ext w o) (fl_name f)); [| contradiction].
      destruct Hin as [X | []]. inversion X; subst. auto.
    + left. destruct (visible iw (w_ext w o) f); [| contradiction]. destruct Hin as [X | []]. inversion X; subst. auto.
  - intros (f & Hf & H). apply in_map_iff.
    destruct H as [[<- Hv] | (<- & H1 & H2)].
    + exists (fl_json f, form f). split; [reflexivity |]. apply in_flat_map. exists f. split; [exact Hf |].
      unfold entries_of, entry. cbn [orb]. rewrite Hv. apply in_app_iff. right. left. reflexivity.
    + eexists (fl_cref f, _). split; [reflexivity |]. apply in_flat_map. exists f. split; [exact Hf |].
      unfold entries_of, entry. cbn [orb]. rewrite H1, H2. apply in_app_iff. left. left. reflexivity.
Qed.
Print Assumptions C43_keys.

(** The value of a visible plain field (no modifier that changes a value in output) is
    there as it is, under the JSON name; if nulls are not output, unless it is None. *)
Theorem C43_plain :
  forall (P : program) (D : nat) (w : world) (n : nat) (o : oid) (d : cdef) (ignore_writeonly reverse : bool)
         (out_null : option bool) (f : field) (v : value) (w' : world),
    calm P -> tame_classes D P -> flat_guards D P ARead ->
    p_ct P (o_class (h_obj (w_heap w) o)) = Some d ->
    NoDup (map fl_name (cd_fields d)) -> NoDup (flat_map out_names (cd_fields d)) ->
    tojson P (S n) o ignore_writeonly reverse out_null w = (Ok v, w') ->
    In f (cd_fields d) -> visible ignore_writeonly (w_ext w o) f = true ->
    (forall m, In m (fl_types f) -> inert m = true) ->
    exists u m, reads P (w_heap w) o (fl_name f) u /\ v = VDict m /\
      forall u', In (fl_json f, u') m <->
        u' = u /\ ((match out_null with Some b => b | None => cd_output_null d end) = true \/ u <> VNone).
Proof.
  intros P D w n o d iw rev on f v w' C T G Hd N1 N2 E Hf Hv Hi.
  destruct (C43_entries P D w n o d iw rev on v w' C T G Hd N1 N2 E) as (form & F & ->).
  destruct (F f Hf Hv) as (c & w1 & w2 & _ & _ & Hr & Hw). apply inert_chain in Hw; [| exact Hi].
  exists (c_val c). eexists. split; [exact Hr |]. split; [reflexivity |]. intros u'. rewrite <- Hw.
  set (nul := match on with Some b => b | None => cd_output_null d end).
  assert (Me : forall u, In u (entry nul (fl_json f) (form f)) <-> u = (fl_json f, form f) /\ (nul = true \/ form f <> VNone)).
  { intros u. unfold entry. destruct nul; cbn [orb].
    - split; [intros [<- | []]; auto | intros [-> _]; left; reflexivity].
    - destruct (form f) eqn:Ef; cbn [is_none negb]; (split; [try (intros []; fail); intros [<- | []]; (split; [reflexivity | right; discriminate]) |]);
        intros [-> [X | X]]; try discriminate X; try (left; reflexivity). contradiction X; reflexivity. }
  split.
  - intros Hin. apply in_flat_map in Hin. destruct Hin as (g & Hg & Hin).
    assert (g = f).
    { assert (Hn : In (fl_json f) (out_names g)).
      { apply (entries_names P (w_heap w) (w_ext w) o iw nul form g). apply in_map_iff. exists (fl_json f, u'). split; [reflexivity | exact Hin]. }
      assert (Hn' : In (fl_json f) (out_names f)) by (unfold out_names; apply in_app_iff; right; left; reflexivity).
      clear - N2 Hn Hn' Hf Hg. revert N2 Hf Hg. induction (cd_fields d) as [| a l IH]; intros N2 Hf Hg; [contradiction |].
      cbn [flat_map] in N2.
      assert (Dis : forall g, In g l -> In (fl_json f) (out_names g) -> In (fl_json f) (out_names a) -> False).
      { intros g' Hg' H1 H2. assert (H3 : In (fl_json f) (flat_map out_names l)) by (apply in_flat_map; exists g'; auto).
        clear - N2 H2 H3. induction (out_names a) as [| b r IH]; [contradiction |]. cbn [app] in N2. inversion N2; subst.
        destruct H2 as [-> | H2]; [apply H1, in_app_iff; right; exact H3 | apply IH; assumption]. }
      destruct Hf as [-> | Hf]; destruct Hg as [-> | Hg]; try reflexivity; try (exfalso; eapply Dis; eassumption; fail).
      apply IH; try assumption. apply (NoDup_app_r _ _ N2). }
    subst g. unfold entries_of in Hin. rewrite Hv in Hin. apply in_app_iff in Hin. destruct Hin as [Hin | Hin].
    + exfalso. destruct (is_local f) eqn:El; [| contradiction]. cbn [andb] in Hin. destruct (picked (w_ext w o) (fl_name f)); [| contradiction].
      assert (fl_json f = fl_cref f) as Ej.
      { unfold entry in Hin. destruct (nul || _); [| contradiction]. destruct Hin as [X | []]. inversion X; reflexivity. }
      assert (Nf : NoDup (out_names f)).
      { clear - N2 Hf. induction (cd_fields d) as [| a l IH]; [contradiction |]. cbn [flat_map] in N2. destruct Hf as [-> | Hf]; [apply (NoDup_app_l _ _ N2) | apply IH; [apply (NoDup_app_r _ _ N2) | exact Hf]]. }
      unfold out_names in Nf. rewrite El, Ej in Nf. cbn in Nf. inversion Nf; subst. apply H1. left. reflexivity.
    + apply Me in Hin. destruct Hin as [X Y]. inversion X; subst. auto.
  - intros [-> Hx]. apply in_flat_map. exists f. split; [exact Hf |]. unfold entries_of. rewrite Hv. apply in_app_iff. right. apply Me. auto.
Qed.
Print Assumptions C43_plain.

(** ** C41: secrets *)

(** Single values that no visible field of any object holds are nowhere in what tojson
    writes, at any depth: a write-only field (unless told to ignore the mark), a temporary
    field, and an unpicked field do not show. *)
Theorem C41_nothing_hidden_is_shown :
  forall (P : program) (D : nat) (w : world) (n : nat) (o : oid) (ignore_writeonly reverse : bool)
         (out_null : option bool) (secret : value -> Prop) (v : value) (w' : world),
    calm P -> tame_classes D P -> flat_guards D P ARead ->
    single secret -> kept_secret P (w_heap w) (w_ext w) ignore_writeonly secret ->
    tojson P n o ignore_writeonly reverse out_null w = (Ok v, w') -> ~ contains secret v.
Proof.
  intros P D w n o iw rev on secret v w' C T G S K E. exact (secrets_kept P D w n o iw rev on v w' secret C T G S K E).
Qed.
Print Assumptions C41_nothing_hidden_is_shown.

(** Two people who are each other's boss, each with an embedded home *)
Definition c_person : cdef := mkc "Person"
  [ f_id;
    mkf "name" "name_id" [tstr];
    mkf "password" "password_id" [tstr; MWriteonly];
    mkf "token" "token_id" [tstr; MTemp];
    mkf "boss" "boss_id" [MInstance "Person"; MLinkto];
    mkf "home" "home_id" [MInstance "Home"] ].
Definition c_home : cdef := mkc "Home" [ f_id; mkf "code" "code_id" [tstr; MWriteonly] ].
Definition out_ct (c : string) : option cdef :=
  if String.eqb c "Person" then Some c_person else if String.eqb c "Home" then Some c_home else None.
Definition out_prog : program := mkprog out_ct no_guards no_hooks.
Definition out_obj (cls : string) (id : Z) (at_ : list (string * value)) : obj :=
  {| o_class := cls; o_attr := fun n => if String.eqb n "id" then Some (VInt id) else Some (match sget n at_ with Some v => v | None => VNone end);
     o_new := true; o_modified := false; o_mfields := []; o_prev := []; o_lkeys := [];
     o_raw := []; o_unlinked := []; o_operator := VNone |}.
Definition out_person (id : Z) (name : string) (boss home : oid) (key : Z) : obj :=
  out_obj "Person" id [("name", VStr name); ("password", VStr "secret"); ("token", VStr "secret");
                       ("boss", VObj boss); ("boss_id", VInt key); ("home", VObj home)].
Definition out_heap : heap :=
  {| h_obj := fun o => match o with
                       | 0%nat => out_person 1 "ann" 1%nat 2%nat 2
                       | 1%nat => out_person 2 "bob" 0%nat 3%nat 1
                       | 2%nat => out_obj "Home" 8 [("code", VStr "secret")]
                       | 3%nat => out_obj "Home" 9 [("code", VStr "secret")]
                       | _ => ex_obj "" 0 [] true end;
     h_next := 4%nat; h_graph := h_graph (ex_heap true) |}.

Ltac out_classes Hc := cbn in Hc; unfold out_ct in Hc;
  match type of Hc with (if String.eqb ?c "Person" then _ else _) = _ => destruct (String.eqb c "Person") end;
  [| match type of Hc with (if String.eqb ?c "Home" then _ else _) = _ => destruct (String.eqb c "Home") end; [| discriminate Hc]];
  inversion Hc; subst; clear Hc.
Ltac each H := cbn in H; repeat (destruct H as [<- | H]; [| ]); [.. | contradiction].
Lemma out_tame : tame_classes 2 out_prog.
Proof.
  intros cls c f m Hc Hf Hm. apply tame_b. out_classes Hc; each Hf; each Hm; reflexivity.
Qed.
Lemma out_finite : finite_graph out_prog out_heap.
Proof. intros o H. do 4 (destruct o as [| o]; [cbn; lia |]). exfalso. apply H. reflexivity. Qed.
Lemma out_orderly : orderly_classes out_prog.
Proof.
  intros cls c f Hc Hf. out_classes Hc; each Hf; (constructor;
    [cbn [in_order fl_types mkf f_id]; repeat apply conj; try exact Logic.I; intros y Hy; cbn in Hy; repeat (destruct Hy as [<- | Hy]; [discriminate |]); contradiction
    | intros m us Hm Hu; each Hm; contradiction]).
Qed.
Lemma out_named : classes_named out_prog ["Person"; "Home"].
Proof. intros cls c Hc. out_classes Hc; cbn; auto. Qed.
Definition out_rk (o : oid) : nat := match o with 0%nat | 1%nat => 1%nat | _ => 0%nat end.
Lemma out_embedding : embedding out_prog out_heap out_rk 1.
Proof.
  split; [intros [| [| o]]; cbn; lia |]. intros o d f v x Hd Hf Hr Ht Hv Hx.
  do 4 (destruct o as [| o]; [cbn in Hd; unfold out_ct in Hd; cbn in Hd; inversion Hd; subst; each Hf; try discriminate Hr; try (contradiction Ht; reflexivity);
    cbn in Hv; inversion Hv; subst; inversion Hx; subst; cbn; lia |]).
  discriminate Hd.
Qed.
Lemma out_kept : kept_secret out_prog out_heap (fun _ => ext0) false (fun v => v = VStr "secret").
Proof.
  split.
  - intros o d f v Hd Hf Hv Hr Hs.
    do 4 (destruct o as [| o]; [cbn in Hd; unfold out_ct in Hd; cbn in Hd; inversion Hd; subst; each Hf; try discriminate Hv;
      cbn in Hr; inversion Hr; subst; inversion Hs; subst; discriminate |]).
    discriminate Hd.
  - intros o d f k Hd Hf Hl _ Hr Hs.
    do 4 (destruct o as [| o]; [cbn in Hd; unfold out_ct in Hd; cbn in Hd; inversion Hd; subst; each Hf; try discriminate Hl;
      cbn in Hr; inversion Hr; subst; inversion Hs; subst; discriminate |]).
    discriminate Hd.
  - intros n m c w v w' Hu Hm. exfalso.
    assert (K : forall y, used out_prog y -> makes_text y = false /\ parts_of y = []).
    { intros y U. induction U as [cls d f y Hc Hf Hy | y ts z U IH Hts Hz].
      - out_classes Hc; each Hf; each Hy; split; reflexivity.
      - destruct IH as [_ IH]. rewrite IH in Hts. contradiction. }
    destruct (K m Hu) as [X _]. congruence.
Qed.
Example C41_C42_C43_people :
  calm out_prog /\ ending out_prog /\ tame_classes 2 out_prog /\ flat_guards 2 out_prog ARead /\
  finite_graph out_prog out_heap /\ orderly_classes out_prog /\ classes_named out_prog ["Person"; "Home"] /\
  embedding out_prog out_heap out_rk 1 /\
  NoDup (map fl_name (cd_fields c_person)) /\ NoDup (flat_map out_names (cd_fields c_person)) /\
  single (fun v => v = VStr "secret") /\ kept_secret out_prog out_heap (fun _ => ext0) false (fun v => v = VStr "secret") /\
  fst (tojson out_prog 9 0%nat false false None (mkw out_heap)) =
    Ok (VDict [("id", VInt 1); ("name", VStr "ann"); ("boss_id", VInt 2);
               ("boss", VDict [("id", VInt 2); ("name", VStr "bob"); ("boss_id", VInt 1); ("home", VDict [("id", VInt 9)])]);
               ("home", VDict [("id", VInt 8)])]) /\
  fst (tojson out_prog 9 2%nat true false None (mkw out_heap)) = Ok (VDict [("id", VInt 8); ("code", VStr "secret")]).
Proof.
  split; [apply mkprog_calm |]. split; [apply mkprog_ending |]. split; [exact out_tame |]. split; [intros cls ts x [] |].
  split; [exact out_finite |]. split; [exact out_orderly |]. split; [exact out_named |]. split; [exact out_embedding |].
  split; [cbn; repeat constructor; cbn; intuition discriminate |]. split; [cbn; repeat constructor; cbn; intuition discriminate |].
  split; [repeat split; intros; discriminate |]. split; [exact out_kept |]. split; vm_compute; reflexivity.
Qed.

(** The mark does not cover the stored key: of a write-only reference the key is written. *)
Definition c_spy : cdef := mkc "Spy" [ f_id; mkf "chief" "chief_id" [MInstance "Spy"; MLinkto; MWriteonly] ].
Definition spy_prog : program := mkprog (fun c => if String.eqb c "Spy" then Some c_spy else None) no_guards no_hooks.
Definition spy_heap : heap :=
  {| h_obj := fun o => match o with 0%nat => out_obj "Spy" 1 [("chief_id", VInt 7)] | _ => ex_obj "" 0 [] true end;
     h_next := 1%nat; h_graph := h_graph (ex_heap true) |}.
Theorem C41_stored_key_refuted :
  exists f, In f (cd_fields c_spy) /\ f_read_rule (fl_fdef f) = NoRead /\ is_local f = true /\
    visible false ext0 f = false /\
    fst (tojson spy_prog 9 0%nat false false None (mkw spy_heap)) = Ok (VDict [("id", VInt 1); (fl_cref f, VInt 7)]).
Proof.
  exists (mkf "chief" "chief_id" [MInstance "Spy"; MLinkto; MWriteonly]). split; [right; left; reflexivity |].
  repeat split; vm_compute; reflexivity.
Qed.
Print Assumptions C41_stored_key_refuted.
