(** GiveLink.v -- lemmas for C93 and C94: relations and assignments made by [set] and by the constructor. *)
From Coq Require Import Lia.
From Verif Require Import Base Mon PyList PyDict StrDict KeypathModel KeypathSpec PyStr Values OListModel OListSpec LeafSpec ChainModel
  TypesModel ObjModel ObjSpec ObjTrack LinkOps LinkSpec LinkFrame LinkHist PropLink IoModel IoBase RoundSpec
  StrictSpec StrictProofs KeypathProofs MakeSpec GiveSpec GiveProofs.
From Verif Require LeafModel InitProofs.
Open Scope list_scope.

Lemma F2_in_r {A B} (Q : A -> B -> Prop) l m : Forall2 Q l m -> forall b, In b m -> exists a, In a l /\ Q a b.
Proof. induction 1; intros z Hz; [destruct Hz |]. destruct Hz as [<- | Hz]; [exists x; split; [left; reflexivity | assumption] |]. destruct (IHForall2 z Hz) as (a & Ha & Qa). exists a. split; [right; exact Ha | exact Qa]. Qed.

Section Sets.
  Context (ct : string -> option cdef)
          (oeq : heap -> Values.oid -> Values.oid -> bool)
          (getter : heap -> Values.oid -> string -> res value)
          (setter : Values.oid -> string -> value -> st heap unit)
          (pystr : value -> string) (R : relation) (fuel : nat).
  Notation run1 := (fun x => run ct oeq getter setter pystr fuel (task_of x)).
  Notation hist := (history ct oeq getter setter pystr fuel).

  Definition is_set (x : hop) : Prop := match x with HSet _ _ _ => True | _ => False end.

  Lemma op_stable h h1 x : typed_heap ct h -> typed_heap ct h1 -> (forall z, o_class (h_obj h1 z) = o_class (h_obj h z)) ->
    is_set x -> link_op ct R h x -> link_op ct R h1 x.
  Proof.
    intros T T1 C X L. destruct x as [o n v | |]; try destruct X. 
    assert (OF : forall o n, ofield ct h1 o n = ofield ct h o n) by (intros; unfold ofield, cdef_of; rewrite C; reflexivity).
    destruct L as [[L1 L2] | [L | L]].
    - left. split.
      + cbn [typed_hop task_of typed_task] in *. destruct L1 as [(f & H1 & H2 & H3) | (H1 & m & H2)].
        * left. exists f. rewrite OF. split; [exact H1 | split; [exact H2 |]]. intros Hr b Hb. rewrite C. auto.
        * right. rewrite OF. split; [exact H1 |]. destruct (th_keys _ _ T o n m H2) as (f & F1 & F2 & <-). exists m. apply (th_local _ _ T1); [rewrite OF; exact F1 | exact F2].
      + unfold of_relation, of_side in *. rewrite C. exact L2.
    - right; left. cbn [on_side] in *. rewrite C. destruct L as (A & B & new & N & D & E). split; [exact A | split; [exact B |]]. exists new.
      split; [exact N | split; [intros b Hb; rewrite C; auto | exact E]].
    - right; right. cbn [on_side] in *. rewrite C. destruct L as (A & B & new & N & D & E). split; [exact A | split; [exact B |]]. exists new.
      split; [exact N | split; [intros b Hb; rewrite C; auto | exact E]].
  Qed.

  Lemma set_lawful xs : Forall is_set xs -> forall h, setting ct oeq R h -> Forall (link_op ct R h) xs -> lawful run1 (link_op ct R) xs h.
  Proof.
    induction 1 as [| x xs Hx Hs IH]; intros h S F; [exact I |]. inversion F as [| ? ? F1 F2]; subst. split; [assumption |]. intros h1 H1.
    assert (A : after ct oeq getter setter pystr R fuel [x] h h1).
    { split; [split; [assumption | intros; exact I] |]. unfold history. cbn [for_st]. unfold bind. rewrite H1. reflexivity. }
    destruct (after_sets _ _ _ _ _ _ _ _ _ _ S A) as (S1 & C1 & _). apply IH; [exact S1 |].
    rewrite Forall_forall in *. intros y Hy. apply (op_stable h); [apply S | apply S1 | exact C1 | apply Hs, Hy | auto].
  Qed.
  Lemma set_in_step xs : Forall is_set xs -> forall h, lawful run1 (link_op ct R) xs h -> lawful run1 (fun h x => link_op ct R h x /\ in_step R h x) xs h.
  Proof.
    induction 1 as [| x xs Hx _ IH]; intros h L; [exact I |]. destruct L as [L1 L2]. split; [| intros h1 H1; apply IH, L2, H1].
    split; [exact L1 |]. destruct x; try destruct Hx. exact I.
  Qed.

  Lemma hist_app xs ys h r h' : hist (xs ++ ys) h = (r, h') ->
    (exists e, r = Err e /\ hist xs h = (Err e, h')) \/ (exists h1, hist xs h = (Ok tt, h1) /\ hist ys h1 = (r, h')).
  Proof.
    unfold history. rewrite for_app. unfold bind. destruct (for_st xs _ h) as [[[] | e] h1]; intros E; [right; eauto | left].
    injection E as <- <-. eauto.
  Qed.
  Lemma hist_join xs ys h h1 r : hist xs h = (Ok tt, h1) -> hist (xs ++ ys) h = hist ys h1 /\ (r = hist ys h1 -> True).
  Proof. intros E. split; [| auto]. unfold history in *. rewrite for_app. unfold bind. rewrite E. reflexivity. Qed.

  Lemma else_stable h h1 x : typed_heap ct h -> typed_heap ct h1 -> (forall z, o_class (h_obj h1 z) = o_class (h_obj h z)) ->
    is_set x -> elsewhere ct R h x -> elsewhere ct R h1 x.
  Proof.
    intros T T1 C X [L1 L2]. destruct x as [o n v | |]; try destruct X.
    assert (OF : forall o n, ofield ct h1 o n = ofield ct h o n) by (intros; unfold ofield, cdef_of; rewrite C; reflexivity).
    split.
    - cbn [typed_hop task_of typed_task] in *. destruct L1 as [(f & H1 & H2 & H3) | (H1 & m & H2)].
      + left. exists f. rewrite OF. split; [exact H1 | split; [exact H2 |]]. intros Hr b Hb. rewrite C. auto.
      + right. rewrite OF. split; [exact H1 |]. destruct (th_keys _ _ T o n m H2) as (f & F1 & F2 & <-). exists m. apply (th_local _ _ T1); [rewrite OF; exact F1 | exact F2].
    - unfold of_relation, of_side in *. rewrite C. exact L2.
  Qed.
  (** Assignments to anything else leave the relation as it is. *)
  Lemma elsewhere_refs x h h' q : setting ct oeq R h -> elsewhere ct R h x -> run1 x h = (q, h') ->
    forall a, o_class (h_obj h a) = ra_class R -> refs h' a (ra_field R) = refs h a (ra_field R).
  Proof.
    intros S E H a A. destruct S as [W PP RO TY OB KA KB CO].
    assert (G : good_now ct R false h h (shown R h h)) by (apply (start_good ct getter setter W R RO false h TY CO); discriminate).
    assert (G' : good_now ct R false h h' (shown R h h)) by (apply (other_step ct oeq getter setter pystr W PP R RO false h TY fuel h _ x q h' G E H)).
    destruct G as (S0 & _), G' as (S1 & _).
    change (ra_field R) with (fd R true). rewrite <- (state_refs ct R h h (shown R h h) true a S0 A).
    rewrite <- (state_refs ct R h h' (shown R h h) true a S1 A). reflexivity.
  Qed.

  Lemma else_history xs : Forall is_set xs -> forall h h', setting ct oeq R h -> Forall (elsewhere ct R h) xs -> hist xs h = (Ok tt, h') ->
    setting ct oeq R h' /\ (forall z, o_class (h_obj h' z) = o_class (h_obj h z)) /\
    forall a, o_class (h_obj h a) = ra_class R -> refs h' a (ra_field R) = refs h a (ra_field R).
  Proof.
    induction 1 as [| x xs Hx Hs IH]; intros h h' S F H; [injection H as <-; auto |]. inversion F as [| ? ? F1 F2]; subst.
    unfold history in H. cbn [for_st] in H. unfold bind in H. destruct (run1 x h) as [[[] | e] h1] eqn:H1; [| discriminate H].
    assert (A : after ct oeq getter setter pystr R fuel [x] h h1).
    { split; [split; [left; assumption | intros; exact I] |]. unfold history. cbn [for_st]. unfold bind. rewrite H1. reflexivity. }
    destruct (after_sets _ _ _ _ _ _ _ _ _ _ S A) as (S1 & C1 & _).
    destruct (IH h1 h' S1) as (S2 & C2 & R2); [| exact H |].
    - rewrite Forall_forall in *. intros y Hy. apply (else_stable h); [apply S | apply S1 | exact C1 | apply Hs, Hy | auto].
    - split; [exact S2 | split; [intros z; rewrite C2; apply C1 |]]. intros a Ha. rewrite R2 by (rewrite C1; exact Ha).
      apply (elsewhere_refs x h h1 (Ok tt) S F1 H1 a Ha).
  Qed.

  (** One assignment to the relation among others *)
  Lemma one_effect pre o u post h h' : Forall is_set (pre ++ post) -> setting ct oeq R h ->
    Forall (elsewhere ct R h) (pre ++ post) -> on_side R h (HSet o (fl_name (ra_field R)) u) ->
    hist (pre ++ HSet o (fl_name (ra_field R)) u :: post) h = (Ok tt, h') -> refs h' o (ra_field R) = objs (Some u).
  Proof.
    intros Hs S F OS H. apply Forall_app in Hs, F. destruct Hs as [Hs1 Hs2], F as [F1 F2].
    destruct (hist_app _ _ _ _ _ H) as [(e & K & _) | (h1 & H1 & H2)]; [discriminate K |].
    destruct (else_history pre Hs1 h h1 S F1 H1) as (S1 & C1 & _).
    unfold history in H2. cbn [for_st] in H2. unfold bind in H2.
    destruct (run1 (HSet o (fl_name (ra_field R)) u) h1) as [[[] | e] h2] eqn:E2; [| discriminate H2].
    assert (OS1 : on_side R h1 (HSet o (fl_name (ra_field R)) u)).
    { cbn [on_side] in *. rewrite C1. destruct OS as (A & B & new & N & D & E). split; [exact A | split; [exact B |]]. exists new.
      split; [exact N | split; [intros b Hb; rewrite C1; auto | exact E]]. }
    pose proof (C34_operations_take_effect ct oeq getter setter pystr fuel R _ h1 h2 S1 OS1 E2) as T. cbn [takes_effect] in T.
    assert (A : after ct oeq getter setter pystr R fuel [HSet o (fl_name (ra_field R)) u] h1 h2).
    { split; [split; [right; left; exact OS1 | intros; exact I] |]. unfold history. cbn [for_st]. unfold bind. rewrite E2. reflexivity. }
    destruct (after_sets _ _ _ _ _ _ _ _ _ _ S1 A) as (S2 & C2 & _).
    destruct (else_history post Hs2 h2 h' S2) as (_ & _ & R3); [| exact H2 |].
    - rewrite Forall_forall in *. intros y Hy. apply (else_stable h); [apply S | apply S2 | intros z; rewrite C2; apply C1 | apply Hs2, Hy | auto].
    - rewrite R3; [exact T |]. rewrite C2, C1. apply OS.
  Qed.
End Sets.

(** ** The assignments made from an input *)
Section Input.
  Context (P : program).
  Notation ct := (p_ct P).
  Notation hist := (history (p_ct P) (p_oeq P) (p_getter P) (p_setter P) (LeafModel.py_str (p_str P)) (p_lim P)).

  Lemma assigns_sets new o kw fs xss : Forall2 (assigns P new o kw) fs xss -> Forall is_set (concat xss).
  Proof.
    induction 1 as [| f xs fs xss A _ IH]; [constructor |]. cbn [concat]. apply Forall_app. split; [| exact IH].
    destruct A; try (constructor; [exact I | constructor]); try constructor. destruct (is_local f); [| constructor].
    apply Forall_forall. intros x Hx. apply in_map_iff in Hx. destruct Hx as (v & <- & _). exact I.
  Qed.

  (** what one of them is *)
  Lemma assigned_name new o kw f xs x : assigns P new o kw f xs -> In x xs ->
    exists n v, x = HSet o n v /\ (n = fl_name f /\ xs = [HSet o n v] /\ owed_list kw f = false \/ is_local f = true /\ n = fl_ref f).
  Proof.
    assert (Oi : forall v, input_of f kw = Some v -> owed_list kw f = false) by (intros v E; unfold owed_list; rewrite E; apply andb_false_r).
    assert (Or : is_ref (fl_fdef f) = false -> owed_list kw f = false) by (intros E; unfold owed_list; rewrite E; reflexivity).
    intros A Hx. destruct A as [v u Ei T Nw Ec D | v u Ei T Nw Ec D | v Ei T Ne | v u Ei T Ne Ec D | Ei Er | Ei Er Ne | u Ei Er Ne Ec D]; try destruct Hx.
    - subst x. eauto 8.
    - contradiction.
    - subst x. eauto 8.
    - contradiction.
    - destruct (is_local f) eqn:L; [| destruct Hx]. apply in_map_iff in Hx. destruct Hx as (v & <- & _). eauto 8.
    - subst x. eauto 8.
    - contradiction.
  Qed.

  Lemma ensure_history o fs : forall h h', for_st fs (ensure_list P o) h = (Ok tt, h') ->
    exists ys, Forall (fun y => exists f, In f fs /\ y = HSet o (fl_name f) (VList [])) ys /\ hist ys h = (Ok tt, h').
  Proof.
    induction fs as [| f fs IH]; intros h h' H; [injection H as <-; exists []; split; [constructor | reflexivity] |].
    cbn [for_st] in H. unfold bind at 1 in H. destruct (ensure_list P o f h) as [[[] | e] h1] eqn:E; [| discriminate H].
    destruct (IH h1 h' H) as (ys & F & Hy).
    assert (F' : Forall (fun y => exists f0, In f0 (f :: fs) /\ y = HSet o (fl_name f0) (VList [])) ys).
    { revert F. apply Forall_impl. intros y (f0 & A & B). exists f0. split; [right; exact A | exact B]. }
    unfold ensure_list, bind in E. destruct (ObjModel.getattr ct (p_getter P) o (fl_name f) h) as [[cur | e] h0] eqn:Eg; [| discriminate E].
    assert (h0 = h) as ->.
    { unfold ObjModel.getattr in Eg. destruct (ofield ct h o (fl_name f)) as [g |]; [destruct (is_calc g) |]; inversion Eg; reflexivity. }
    assert (X : h1 = h \/ assign P (HSet o (fl_name f) (VList [])) h = (Ok tt, h1)) by (destruct cur; try (injection E as <-; auto); auto).
    destruct X as [-> | X]; [exists ys; split; assumption |].
    exists (HSet o (fl_name f) (VList []) :: ys). split; [constructor; [exists f; split; [left; reflexivity | reflexivity] | exact F'] |].
    unfold history in *. cbn [for_st]. unfold bind. unfold assign in X. rewrite X. exact Hy.
  Qed.

  Lemma given_history o d kw xss h h' : given P o d kw xss h = (Ok tt, h') ->
    exists ys, Forall (fun y => exists f, In f (cd_fields d) /\ owed_list kw f = true /\ y = HSet o (fl_name f) (VList [])) ys /\
      hist (concat xss ++ ys) h = (Ok tt, h').
  Proof.
    unfold given. intros H. unfold bind in H. destruct (hist (concat xss) h) as [[[] | e] h1] eqn:E; [| discriminate H].
    destruct (ensure_history o _ h1 h' H) as (ys & F & Hy). exists ys. split.
    - revert F. apply Forall_impl. intros y (f & A & B). apply filter_In in A. exists f. intuition.
    - unfold history in *. rewrite for_app. unfold bind. rewrite E. exact Hy.
  Qed.

  Lemma owed_op R h o cls d kw f : setting ct (p_oeq P) R h -> o_class (h_obj h o) = cls -> ct cls = Some d -> In f (cd_fields d) ->
    owed_list kw f = true -> 
    (cls = ra_class R /\ f = ra_field R /\ on_side R h (HSet o (fl_name f) (VList []))) \/
    (cls = rb_class R /\ f = rb_field R /\ on_side (flip R) h (HSet o (fl_name f) (VList []))) \/
    elsewhere ct R h (HSet o (fl_name f) (VList [])).
  Proof.
    intros S C D Hf O. unfold owed_list in O. apply andb_true_iff in O. destruct O as [O _]. apply andb_true_iff in O. destruct O as [O _].
    apply andb_true_iff in O. destruct O as [Or Ol]. pose proof (st_wf _ _ _ _ S cls d D) as W.
    assert (Uniq : forall g, In g (cd_fields d) -> fl_name g = fl_name f -> g = f).
    { intros g Hg En. pose proof (wf_names _ _ _ W) as Nd. clear - Nd Hf Hg En. induction (cd_fields d) as [| a l IH]; [destruct Hf |].
      inversion Nd; subst. destruct Hf as [<- | Hf], Hg as [<- | Hg]; auto; exfalso; [apply H1; rewrite <- En | apply H1; rewrite En]; apply in_map; assumption. }
    assert (Side : forall Q, one_side ct Q -> cls = ra_class Q -> fl_name f = fl_name (ra_field Q) ->
              f = ra_field Q /\ on_side Q h (HSet o (fl_name f) (VList []))).
    { intros Q OQ Ec En. destruct (os_field _ _ OQ) as (d' & D' & Hq). rewrite <- Ec, D in D'. injection D' as <-.
      assert (ra_field Q = f) as E by (apply Uniq; [exact Hq | symmetry; exact En]). split; [symmetry; exact E |].
      cbn [on_side]. split; [rewrite C; exact Ec | split; [exact En |]]. exists []. split; [constructor | split; [intros b [] |]].
      right. rewrite E. unfold is_list_type, is_list_field in *. rewrite Ol. reflexivity. }
    pose proof (st_rel _ _ _ _ S) as [RA RB _].
    destruct (string_dec cls (ra_class R)) as [Ea | Na], (string_dec (fl_name f) (fl_name (ra_field R))) as [En | Nn];
      try (left; split; [exact Ea | apply (Side R RA Ea En)]);
    (destruct (string_dec cls (rb_class R)) as [Eb | Nb], (string_dec (fl_name f) (fl_name (rb_field R))) as [En' | Nn'];
      try (right; left; split; [exact Eb | apply (Side (flip R) RB Eb En')]); right; right).
    all: split; [left; exists f; split; [unfold ofield, cdef_of; rewrite C, D; apply InitProofs.field_named_in; [apply (wf_names _ _ _ W) | exact Hf] |
           split; [unfold is_ref, is_calc in *; destruct (f_fstore (fl_fdef f)); try reflexivity; discriminate Or |
             intros _ b Hb; unfold refers, link_items in Hb; destruct (f_ftype (fl_fdef f)) as [[] |]; destruct Hb]] |].
    all: unfold of_relation, of_side; rewrite C; intros [[A [B | [B1 B2]]] | [[A [B | [B1 B2]]] | (d' & g & D' & Pg & B)]]; try congruence.
    all: try (destruct (os_field _ _ RA) as (d' & D' & Hq); rewrite <- A, D in D'; injection D' as <-; exact (wf_refname _ _ _ W _ _ Hq Hf B1 (eq_sym B2))).
    all: try (destruct (os_field _ _ RB) as (d' & D' & Hq); cbn [flip ra_class ra_field] in *; rewrite <- A, D in D'; injection D' as <-; exact (wf_refname _ _ _ W _ _ Hq Hf B1 (eq_sym B2))).
    all: rewrite D in D'; injection D' as <-; pose proof (st_primary _ _ _ _ S _ _ _ D Pg) as K;
      unfold primary_field in Pg; apply find_some in Pg; destruct Pg as [Pg _]; apply in_rev in Pg;
      rewrite (Uniq g Pg (eq_sym B)) in K; rewrite K in Or; discriminate Or.
  Qed.

  (** The whole of it, for a relation *)
  Lemma given_after R new o cls d kw fs xss h h' : ct cls = Some d -> Forall2 (assigns P new o kw) fs xss ->
    setting ct (p_oeq P) R h -> o_class (h_obj h o) = cls -> Forall (link_op ct R h) (concat xss) ->
    given P o d kw xss h = (Ok tt, h') ->
    exists ys, Forall is_set (concat xss ++ ys) /\
      Forall (fun y => exists f, In f (cd_fields d) /\ owed_list kw f = true /\ y = HSet o (fl_name f) (VList [])) ys /\
      after ct (p_oeq P) (p_getter P) (p_setter P) (LeafModel.py_str (p_str P)) R (p_lim P) (concat xss ++ ys) h h'.
  Proof.
    intros D A S C L G. destruct (given_history _ _ _ _ _ _ G) as (ys & F & H). exists ys.
    assert (Hs : Forall is_set (concat xss ++ ys)).
    { apply Forall_app. split; [apply (assigns_sets _ _ _ _ _ A) |]. revert F. apply Forall_impl. intros y (f & _ & _ & ->). exact I. }
    split; [exact Hs | split; [exact F | split; [| exact H]]]. apply set_lawful; [exact Hs | exact S |].
    apply Forall_app. split; [exact L |]. revert F. apply Forall_impl. intros y (f & Hf & O & ->).
    destruct (owed_op R h o cls d kw f S C D Hf O) as [(_ & _ & K) | [(_ & _ & K) | K]]; [right; left | right; right | left]; exact K.
  Qed.

  Lemma given_refs R new o cls d kw fs xss h h' u : ct cls = Some d -> Forall2 (assigns P new o kw) fs xss ->
    incl fs (cd_fields d) -> NoDup (map fl_name fs) ->
    setting ct (p_oeq P) R h -> o_class (h_obj h o) = cls -> Forall (link_op ct R h) (concat xss) ->
    cls = ra_class R -> ra_class R <> rb_class R -> In (HSet o (fl_name (ra_field R)) u) (concat xss) ->
    given P o d kw xss h = (Ok tt, h') -> refs h' o (ra_field R) = objs (Some u).
  Proof.
    intros D A Inc Nd S C L Ec Ne Hu G. pose proof (st_wf _ _ _ _ S cls d D) as W. pose proof (st_rel _ _ _ _ S) as [RA RB _].
    destruct (os_field _ _ RA) as (d' & D' & Hr). rewrite <- Ec, D in D'. injection D' as <-.
    destruct (given_after R new o cls d kw fs xss h h' D A S C L G) as (ys & Hs & F & (_ & H)).
    (* the place of the field *)
    assert (X : exists pre post, concat xss = pre ++ HSet o (fl_name (ra_field R)) u :: post /\ owed_list kw (ra_field R) = false /\
                forall n v, In (HSet o n v) (pre ++ post) -> n <> fl_name (ra_field R)).
    { assert (Nr : forall g, In g (cd_fields d) -> is_local g = true -> fl_ref g <> fl_name (ra_field R)) by (intros g Hg Lg; apply (wf_refname _ _ _ W); assumption).
      assert (Hf : In (ra_field R) fs).
      { pose proof Hu as Hi. apply in_concat in Hi. destruct Hi as (zs & H1 & H2). destruct (F2_in_r _ _ _ A _ H1) as (g & Hg & Ag).
        destruct (assigned_name _ _ _ _ _ _ Ag H2) as (n' & v' & E & K). injection E as <- <-.
        destruct K as [(K & _) | (K1 & K2)]; [| exfalso; apply (Nr g (Inc g Hg) K1); symmetry; exact K2].
        pose proof (InitProofs.field_named_in d _ (wf_names _ _ _ W) Hr) as F1. pose proof (InitProofs.field_named_in d _ (wf_names _ _ _ W) (Inc g Hg)) as F2.
        rewrite <- K, F1 in F2. injection F2 as ->. exact Hg. }
      assert (Nr' : forall g, In g fs -> is_local g = true -> fl_ref g <> fl_name (ra_field R)) by (intros g Hg; apply Nr, Inc, Hg).
      clear - A Hu Nr' Hf Nd. rename Nr' into Nr.
      induction A as [| g xs fs xss A0 A IH]; [destruct Hu |]. cbn [concat] in *. inversion Nd as [| ? ? Nd1 Nd2]; subst.
      destruct Hf as [-> | Hf].
      - assert (Others : forall n v, In (HSet o n v) (concat xss) -> n <> fl_name (ra_field R)).
        { intros n v Hi En. apply in_concat in Hi. destruct Hi as (ys & H1 & H2).
          destruct (F2_in_r _ _ _ A _ H1) as (g & Hg & Ag). destruct (assigned_name _ _ _ _ _ _ Ag H2) as (n' & v' & E & K). injection E as <- <-. subst n.
          destruct K as [(K & _) | (K1 & K2)]; [apply Nd1; rewrite K; apply in_map, Hg | apply (Nr g (or_intror Hg) K1); symmetry; exact K2]. }
        apply in_app_or in Hu. destruct Hu as [Hu | Hu]; [| exfalso; eapply Others; [exact Hu | reflexivity]].
        destruct (assigned_name _ _ _ _ _ _ A0 Hu) as (n' & v' & E & K). injection E as <- <-.
        destruct K as [(_ & -> & O) | (K1 & K2)]; [| exfalso; apply (Nr _ (or_introl eq_refl) K1); symmetry; exact K2].
        exists [], (concat xss). split; [reflexivity | split; [exact O | exact Others]].
      - assert (No : forall n v, In (HSet o n v) xs -> n <> fl_name (ra_field R)).
        { intros n v Hi En. destruct (assigned_name _ _ _ _ _ _ A0 Hi) as (n' & v' & E & K). injection E as <- <-. subst n.
          destruct K as [(K & _) | (K1 & K2)]; [apply Nd1; rewrite <- K; apply in_map, Hf | apply (Nr _ (or_introl eq_refl) K1); symmetry; exact K2]. }
        apply in_app_or in Hu. destruct Hu as [Hu | Hu]; [exfalso; eapply No; [exact Hu | reflexivity] |].
        destruct IH as (pre & post & E & O & K); auto; [intros; apply Nr; [right; assumption | assumption] |]. exists (xs ++ pre), post. rewrite E, <- app_assoc. split; [reflexivity | split; [exact O |]].
        intros n v Hi. rewrite <- app_assoc in Hi. apply in_app_or in Hi. destruct Hi as [Hi | Hi]; [apply (No n v Hi) | apply (K n v Hi)]. }
    destruct X as (pre & post & E & O & Others). rewrite E, <- app_assoc in H. cbn [app] in H.
    assert (Lu : on_side R h (HSet o (fl_name (ra_field R)) u)).
    { assert (K : link_op ct R h (HSet o (fl_name (ra_field R)) u)) by (rewrite Forall_forall in L; apply L, Hu).
      destruct K as [[_ K] | [K | K]]; [| exact K |].
      - exfalso. apply K. left. split; [congruence | left; reflexivity].
      - exfalso. cbn [on_side flip ra_class] in K. destruct K as (K & _). congruence. }
    apply (one_effect ct (p_oeq P) (p_getter P) (p_setter P) (LeafModel.py_str (p_str P)) R (p_lim P) pre o u (post ++ ys) h h'); [| exact S | | exact Lu | exact H].
    - rewrite E in Hs. rewrite !Forall_forall in *. intros x Hx. apply Hs. rewrite !in_app_iff in *. cbn. tauto.
    - rewrite app_assoc. apply Forall_app. split.
      + rewrite E in L. rewrite Forall_forall in *. intros x Hx. assert (Lx : link_op ct R h x) by (apply L; rewrite !in_app_iff in *; cbn; tauto).
        assert (Sx : is_set x) by (apply Hs; rewrite E; rewrite !in_app_iff in *; cbn; tauto).
        destruct x as [o' n v | |]; try destruct Sx. destruct Lx as [Lx | [Lx | Lx]]; [exact Lx | |]; exfalso.
        * assert (o' = o) as ->. { assert (Hi : In (HSet o' n v) (concat xss)) by (rewrite E; rewrite !in_app_iff in *; cbn; tauto).
            apply in_concat in Hi. destruct Hi as (zs & H1 & H2). destruct (F2_in_r _ _ _ A _ H1) as (g & Hg & Ag).
            destruct (assigned_name _ _ _ _ _ _ Ag H2) as (n' & v' & E' & _). congruence. }
          apply (Others n v Hx). apply Lx.
        * assert (o' = o) as ->. { assert (Hi : In (HSet o' n v) (concat xss)) by (rewrite E; rewrite !in_app_iff in *; cbn; tauto).
            apply in_concat in Hi. destruct Hi as (zs & H1 & H2). destruct (F2_in_r _ _ _ A _ H1) as (g & Hg & Ag).
            destruct (assigned_name _ _ _ _ _ _ Ag H2) as (n' & v' & E' & _). congruence. }
          cbn [on_side flip ra_class] in Lx. destruct Lx as (K & _). congruence.
      + revert F. apply Forall_impl. intros y (f & Hg & O' & ->). destruct (owed_op R h o cls d kw f S C D Hg O') as [(_ & -> & _) | [(K & _) | K]]; [congruence | congruence | exact K].
  Qed.
End Input.
