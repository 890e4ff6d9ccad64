(** NestLinkProofs.v -- lemmas for C105: relations whose objects the input describes. *)
From Coq Require Import Lia.
From Verif Require Import Base Mon PyList PyDict StrDict KeypathModel KeypathSpec PyStr Values OGraphModel OListModel OListSpec LeafSpec ChainModel
  TypesModel ObjModel ObjSpec LinkOps LinkSpec LinkFrame LinkHist PropLink IoModel IoBase Sound Keep InitProofs TameSpec RoundSpec RoundProofs
  StrictSpec StrictProofs KeypathProofs MakeSpec MakeProofs SetInProofs GiveSpec GiveProofs GiveLink GiveNew GraphProofs NestLinkSpec.
From Verif Require LeafModel ObjTrack ObjSound WriteFrame NestProofs.
Open Scope list_scope.

Definition side (R : relation) (s : bool) : relation := if s then R else flip R.

(** A value that a field can hold *)
Definition right (h : heap) (f : field) (v : value) : Prop :=
  is_ref (fl_fdef f) = true ->
  (f_ftype (fl_fdef f) = Some FTList \/ f_ftype (fl_fdef f) = Some FTInstance) /\
  (v = VNone \/
   if is_list_type f then exists l, v = VList (map VObj l) /\ NoDup l /\ forall b, In b l -> foreign_class f = Some (o_class (h_obj h b))
   else exists b, v = VObj b /\ foreign_class f = Some (o_class (h_obj h b))).

Lemma objs_list l : objs (Some (VList (map VObj l))) = l.
Proof. cbn. induction l as [| a l IH]; [reflexivity |]. cbn. rewrite IH. reflexivity. Qed.

Lemma right_refers h f v : right h f v -> is_ref (fl_fdef f) = true -> forall b, refers f v b -> foreign_class f = Some (o_class (h_obj h b)).
Proof.
  intros H Rf b Hb. destruct (H Rf) as [T [-> | V]]; [apply refers_objs in Hb; destruct Hb |].
  unfold is_list_type in V. destruct T as [T | T]; rewrite T in V.
  - destruct V as (l & -> & _ & V). apply V. apply refers_objs in Hb. rewrite objs_list in Hb. exact Hb.
  - destruct V as (b' & -> & V). apply refers_objs in Hb. destruct Hb as [<- | []]. exact V.
Qed.

Section Heap.
  Context (P : program) (D : nat) (R : relation).
  Notation ct := (p_ct P).
  Notation run := (run (p_ct P) (p_oeq P) (p_getter P) (p_setter P) (LeafModel.py_str (p_str P)) (p_lim P)).
  Hypothesis PL : plain_program D P.
  Hypothesis RO : relation_ok ct R.
  Hypothesis NK : no_key_list R.
  Notation W := (pl_wf _ _ PL).
  Notation PP := (pl_primary _ _ PL).

  Lemma setting_of h : sound_heap P R h -> setting ct (p_oeq P) R h.
  Proof.
    intros [T C _]. constructor; try assumption; try apply PL.
    - intros h' a b _ _ _. apply PL.
    - intros A B. contradiction (proj1 NK A B).
    - intros A B. contradiction (proj2 NK A B).
  Qed.
  Lemma setting_flip h : setting ct (p_oeq P) R h -> setting ct (p_oeq P) (flip R) h.
  Proof.
    intros [A B C E F G H [I1 I2 I3]]. constructor; try assumption.
    - constructor; [apply C | destruct R; apply C |]. cbn. intros X. pose proof (ro_two _ _ C) as Y. intros Z. apply Y; congruence.
    - intros h' a b X1 X2 X3. apply PL.
    - constructor; [exact I2 | exact I1 |]. cbn. intros a b Ha Hb. symmetry. apply I3; assumption.
  Qed.
  Lemma setting_side h s : setting ct (p_oeq P) R h -> setting ct (p_oeq P) (side R s) h.
  Proof. destruct s; [auto | apply setting_flip]. Qed.
  Lemma side_ok s : one_side ct (side R s).
  Proof. destruct s; apply RO. Qed.
  Lemma flip_side s : flip (side R s) = side R (negb s).
  Proof. destruct s, R; reflexivity. Qed.

  Lemma fields_of h o n f : ofield ct h o n = Some f -> exists d, ct (o_class (h_obj h o)) = Some d /\ In f (cd_fields d) /\ fl_name f = n.
  Proof. apply of_field. Qed.
  Lemma side_named h o s : o_class (h_obj h o) = ra_class (side R s) -> ofield ct h o (fl_name (ra_field (side R s))) = Some (ra_field (side R s)).
  Proof.
    intros C. destruct (os_field _ _ (side_ok s)) as (d & Ed & Hf). unfold ofield, cdef_of. rewrite C, Ed.
    apply field_named_in; [apply (wf_names _ _ _ (W _ _ Ed)) | exact Hf].
  Qed.

  (** ** Which assignment it is *)
  Definition on_a_side (h : heap) (o : oid) (n : string) : Prop := exists s, o_class (h_obj h o) = ra_class (side R s) /\ n = fl_name (ra_field (side R s)).
  Definition outside (h : heap) (o : oid) (n : string) : Prop := forall s, ~ of_side h (ra_class (side R s)) (ra_field (side R s)) o n.
  Lemma side_or_not h o n f : ofield ct h o n = Some f -> on_a_side h o n \/ outside h o n.
  Proof.
    intros E. destruct (fields_of _ _ _ _ E) as (d & Ed & Hf & <-).
    assert (K : forall s, (o_class (h_obj h o) = ra_class (side R s) /\ fl_name f = fl_name (ra_field (side R s))) \/
                     ~ of_side h (ra_class (side R s)) (ra_field (side R s)) o (fl_name f)).
    { intros s. destruct (string_dec (o_class (h_obj h o)) (ra_class (side R s))) as [C | N]; [| right; intros [X _]; contradiction].
      destruct (string_dec (fl_name f) (fl_name (ra_field (side R s)))) as [En | N]; [left; auto |]. right. intros [_ [X | [L X]]]; [contradiction |].
      destruct (os_field _ _ (side_ok s)) as (d' & Ed' & Hg). rewrite <- C, Ed in Ed'. injection Ed' as <-.
      apply (wf_refname _ _ _ (W _ _ Ed) _ f Hg Hf L). symmetry. exact X. }
    destruct (K true) as [A | A]; [left; exists true; exact A |]. destruct (K false) as [B | B]; [left; exists false; exact B |].
    right. intros []; assumption.
  Qed.
  Lemma side_set h o n f v s : ofield ct h o n = Some f -> right h f v -> o_class (h_obj h o) = ra_class (side R s) -> n = fl_name (ra_field (side R s)) ->
    f = ra_field (side R s) /\ on_side (side R s) h (HSet o n v).
  Proof.
    intros E Rv C ->. pose proof (side_named h o s C) as E'. rewrite E in E'. injection E' as ->. split; [reflexivity |].
    destruct (Rv (os_ref _ _ (side_ok s))) as [T V]. split; [exact C | split; [reflexivity |]].
    pose proof (os_class _ _ (side_ok s)) as FC. rewrite FC in V. destruct V as [-> | V].
    - exists []. split; [constructor | split; [intros b [] | left; auto]].
    - destruct (is_list_type (ra_field (side R s))).
      + destruct V as (l & -> & Nd & V). exists l. split; [exact Nd | split; [| right; reflexivity]]. intros b Hb. specialize (V b Hb). congruence.
      + destruct V as (b & -> & V). exists [b]. split; [constructor; [intros [] | constructor] | split; [| right; exists b; auto]].
        intros b' [<- | []]. congruence.
  Qed.

  (** ** Assignments outside the relation *)
  Section Out.
    Context (h : heap) (T : typed_heap ct h).
    Definition prot0 (z : oid) (n : string) : Prop := exists s, of_side h (ra_class (side R s)) (ra_field (side R s)) z n.
    Definition primary0 (z : oid) (n : string) : Prop :=
      exists d f, ct (o_class (h_obj h z)) = Some d /\ primary_field d = Some f /\ n = fl_name f.
    Lemma prim_in0 d' f : primary_field d' = Some f -> In f (cd_fields d').
    Proof. intros Pf. unfold primary_field in Pf. apply find_some in Pf. apply in_rev, (proj1 Pf). Qed.
    Lemma prim_ref0 z n f : ofield ct h z n = Some f -> is_ref (fl_fdef f) = true -> ~ primary0 z n.
    Proof.
      intros Ef Rf (d' & g & Ed & Pg & ->). destruct (fields_of _ _ _ _ Ef) as (d2 & Ed2 & Hf & En). rewrite Ed in Ed2. injection Ed2 as <-.
      pose proof (field_named_in d' g (wf_names _ _ _ (W _ _ Ed)) (prim_in0 _ _ Pg)) as G. pose proof (field_named_in d' f (wf_names _ _ _ (W _ _ Ed)) Hf) as G'.
      rewrite En, G in G'. injection G' as ->. rewrite (PP _ _ _ Ed Pg) in Rf. discriminate Rf.
    Qed.
    Lemma prim_key0 z n f : ofield ct h z n = Some f -> is_local f = true -> ~ primary0 z (fl_ref f).
    Proof.
      intros Ef Lf (d' & g & Ed & Pg & E). destruct (fields_of _ _ _ _ Ef) as (d2 & Ed2 & Hf & En). rewrite Ed in Ed2. injection Ed2 as <-.
      apply (wf_refname _ _ _ (W _ _ Ed) f g Hf (prim_in0 _ _ Pg) Lf E).
    Qed.
    Lemma prot_0 z n : ~ primary0 z n -> (prot0 z n <-> prot ct R h z n).
    Proof.
      intros N. unfold prot0, prot, of_relation. split.
      - intros [[] H]; [left | right; left]; exact H.
      - intros [H | [H | H]]; [exists true; exact H | exists false; exact H | contradiction].
    Qed.
    Lemma out_frame o n f v : ofield ct h o n = Some f -> is_calc f = false -> right h f v -> outside h o n ->
      okp ct h prot0 h (run (TSet o n v) h).
    Proof.
      intros E Kc Rv Out. apply run_frame; [exact W | | | | | |].
      - intros z n' g Ef Lf N. rewrite (prot_0 z _ (prim_key0 z n' g Ef Lf)). rewrite (prot_0 z n' (prim_ref0 z n' g Ef (local_is_ref g Lf))) in N.
        apply (LinkHist.p_ref ct W R RO h T z n' g Ef Lf N).
      - intros z n' g Ef Lf N. rewrite (prot_0 z _ (prim_key0 z n' g Ef Lf)) in N. rewrite (prot_0 z n' (prim_ref0 z n' g Ef (local_is_ref g Lf))).
        apply (LinkHist.p_key ct W PP R RO h z n' g Ef Lf N).
      - intros z n' g g' b Ef Rf N FF FC.
        destruct (ObjTrack.foreign_other ct W h z n' g g' b Ef FF FC) as (G1 & _ & _).
        destruct (fields_of _ _ _ _ Ef) as (d2 & Ed2 & Hf & En). pose proof (wf_other _ _ _ (W _ _ Ed2) g g' Hf FF) as G2.
        rewrite (prot_0 b _ (prim_ref0 b _ g' G1 G2)). rewrite (prot_0 z n' (prim_ref0 z n' g Ef Rf)) in N.
        apply (LinkHist.p_other ct W PP R RO h z n' g g' b Ef Rf N FF FC).
      - constructor; [exact T | reflexivity | reflexivity].
      - left. exists f. split; [exact E | split; [exact Kc |]]. intros Rf. apply (right_refers h f v Rv Rf).
      - cbn [off]. intros [s H]. apply (Out s H).
    Qed.

    Context (h' : heap) (I' : inv ct h h') (K' : kp prot0 h h').
    Lemma kept_side s z n : of_side h (ra_class (side R s)) (ra_field (side R s)) z n ->
      attr h' z n = attr h z n /\ sget n (o_unlinked (h_obj h' z)) = sget n (o_unlinked (h_obj h z)).
    Proof. intros H. apply K'. exists s. exact H. Qed.
    Lemma kept_refs s z : o_class (h_obj h z) = ra_class (side R s) -> refs h' z (ra_field (side R s)) = refs h z (ra_field (side R s)).
    Proof. intros C. unfold refs. destruct (kept_side s z (fl_name (ra_field (side R s)))) as [-> _]; [split; [exact C | left; reflexivity] | reflexivity]. Qed.
    Lemma kept_fine s : side_fine h (ra_class (side R s)) (ra_field (side R s)) -> side_fine h' (ra_class (side R s)) (ra_field (side R s)).
    Proof.
      assert (A : forall z, o_class (h_obj h' z) = ra_class (side R s) -> o_class (h_obj h z) = ra_class (side R s) /\
        attr h' z (fl_name (ra_field (side R s))) = attr h z (fl_name (ra_field (side R s))) /\
        sget (fl_name (ra_field (side R s))) (o_unlinked (h_obj h' z)) = sget (fl_name (ra_field (side R s))) (o_unlinked (h_obj h z))).
      { intros z C. rewrite (iv_class _ _ _ I') in C. split; [exact C |]. apply (kept_side s). split; [exact C | left; reflexivity]. }
      intros [S1 S2 S3 S4 S5]. constructor; intros z.
      - intros C. destruct (A z C) as (A0 & A1 & A2). unfold refs. rewrite A1. apply S1, A0.
      - intros C. destruct (A z C) as (A0 & A1 & A2). unfold refs. rewrite A1. apply S2, A0.
      - intros C. destruct (A z C) as (A0 & A1 & A2). unfold unlinked, recorded. rewrite A2. apply S3, A0.
      - intros b C. destruct (A z C) as (A0 & A1 & A2). unfold unlinked, recorded, refs. rewrite A1, A2. apply S4, A0.
      - intros C L. rewrite (iv_class _ _ _ I') in C. unfold stored. destruct (kept_side s z (fl_ref (ra_field (side R s)))) as [-> _]; [split; [exact C | right; auto] |].
        apply S5; assumption.
    Qed.
    Lemma kept_agree : consistent R h -> consistent R h'.
    Proof.
      intros [A B C]. constructor; [apply (kept_fine true A) | apply (kept_fine false B) |]. intros a b Ca Cb.
      rewrite (iv_class _ _ _ I') in Ca, Cb. pose proof (kept_refs true a Ca) as E1. pose proof (kept_refs false b Cb) as E2. cbn in E1, E2.
      rewrite E1, E2. apply C; assumption.
    Qed.
  End Out.

  Lemma next_kept t h : h_next (snd (run t h)) = h_next h.
  Proof.
    pose proof (@ObjSound.run_sound WriteFrame.frame_mode ct (p_oeq P) (p_getter P) (p_setter P) (LeafModel.py_str (p_str P)) (fun a b : heap => h_next b = h_next a)) as H.
    refine (proj1 (H _ _ _ _ _ _ (p_lim P) _ t h)); try reflexivity; try congruence.
    - intros h0 o n e _. split; discriminate.
    - intros o n v h0. split; [apply (pl_setter _ _ PL) |]. intros e _. split; discriminate.
    - discriminate.
  Qed.

  (** ** One assignment *)
  Lemma refs_class h s a b : sound_heap P R h -> o_class (h_obj h a) = ra_class (side R s) -> In b (refs h a (ra_field (side R s))) ->
    o_class (h_obj h b) = rb_class (side R s).
  Proof.
    intros [T C _] Ca Hb. assert (F : side_fine h (ra_class (side R s)) (ra_field (side R s))) by (destruct s; apply C).
    pose proof (side_named h a s Ca) as Ef. pose proof (os_ref _ _ (side_ok s)) as Rf. pose proof (os_class _ _ (side_ok s)) as FC.
    set (f := ra_field (side R s)) in *.
    assert (X : exists v, attr h a (fl_name f) = Some v /\ refers f v b).
    { destruct (sf_shape _ _ _ F a Ca) as [E | E]; [unfold refs in Hb; rewrite E in Hb; destruct Hb |].
      unfold is_list_type in E. destruct (os_type _ _ (side_ok s)) as [Tf | Tf]; fold f in Tf; rewrite Tf in E.
      - eexists. split; [exact E |]. unfold refers, link_items. rewrite Tf. apply in_map, Hb.
      - destruct E as (x & E). unfold refs in Hb. rewrite E in Hb. destruct Hb as [-> | []]. exists (VObj b). split; [exact E |].
        unfold refers, link_items. rewrite Tf. left. reflexivity. }
    destruct X as (v & Ev & Hr). pose proof (th_refs _ _ T a _ f v b Ef Rf Ev Hr) as K. congruence.
  Qed.
  Lemma known_side s : exists d, ct (rb_class (side R s)) = Some d.
  Proof. pose proof (os_field _ _ (side_ok (negb s))) as (d & Ed & _). exists d. destruct s; exact Ed. Qed.
  Lemma refs_next h s a b : sound_heap P R h -> o_class (h_obj h a) = ra_class (side R s) -> In b (refs h a (ra_field (side R s))) -> (b < h_next h)%nat.
  Proof.
    intros S Ca Hb. pose proof (refs_class h s a b S Ca Hb) as Cb. destruct (known_side s) as (d & Ed).
    destruct (Nat.lt_ge_cases b (h_next h)) as [L | L]; [exact L |]. pose proof (sd_no_others _ _ _ S b L) as K. congruence.
  Qed.
  Lemma sym_side h s a b : sound_heap P R h -> o_class (h_obj h a) = ra_class (side R s) -> o_class (h_obj h b) = rb_class (side R s) ->
    (In b (refs h a (ra_field (side R s))) <-> In a (refs h b (rb_field (side R s)))).
  Proof. intros [_ C _] Ca Cb. destruct s; cbn in *; [apply C; assumption | symmetry; apply C; assumption]. Qed.

  (** The links of the objects below [N] lead to objects below [N]; they stay as they are. *)
  Definition below (N : oid) (h : heap) : Prop :=
    forall s a b, (a < N)%nat -> o_class (h_obj h a) = ra_class (side R s) -> In b (refs h a (ra_field (side R s))) -> (b < N)%nat.
  Definition same_below (N : oid) (h h' : heap) : Prop :=
    forall s a b, (a < N)%nat -> o_class (h_obj h a) = ra_class (side R s) ->
      (In b (refs h' a (ra_field (side R s))) <-> In b (refs h a (ra_field (side R s)))).
  Definition grow (h h' : heap) : Prop :=
    (h_next h <= h_next h')%nat /\ forall z, (z < h_next h)%nat -> o_class (h_obj h' z) = o_class (h_obj h z).
  Lemma grow_refl h : grow h h.
  Proof. split; [lia | auto]. Qed.
  Lemma grow_trans a b c : grow a b -> grow b c -> grow a c.
  Proof. clear. intros [A1 A2] [B1 B2]. split; [lia |]. intros z L. rewrite B2 by lia. apply A2, L. Qed.
  Lemma same_refl N h : same_below N h h.
  Proof. intros s a b _ _. reflexivity. Qed.
  Lemma below_same N h h' : (N <= h_next h)%nat -> grow h h' -> same_below N h h' -> below N h -> below N h'.
  Proof. intros L [_ G] S B s a b La Ca Hb. rewrite G in Ca by lia. apply (S s a b La Ca) in Hb. apply (B s a b La Ca Hb). Qed.
  Lemma same_trans N a b c : (N <= h_next a)%nat -> grow a b -> same_below N a b -> same_below N b c -> same_below N a c.
  Proof. intros L [_ G] S1 S2 s z x Lz Cz. rewrite (S2 s z x Lz) by (rewrite G by lia; exact Cz). apply S1; assumption. Qed.
  Lemma below_next h : sound_heap P R h -> below (h_next h) h.
  Proof. intros S s a b _ Ca Hb. apply (refs_next h s a b S Ca Hb). Qed.

  Lemma step_set h o n f v h' : sound_heap P R h -> ofield ct h o n = Some f -> is_calc f = false -> right h f v -> run (TSet o n v) h = (Ok tt, h') ->
    sound_heap P R h' /\ (forall z, o_class (h_obj h' z) = o_class (h_obj h z)) /\ h_next h' = h_next h /\
    (outside h o n -> forall s z, o_class (h_obj h z) = ra_class (side R s) -> refs h' z (ra_field (side R s)) = refs h z (ra_field (side R s))) /\
    (forall s, o_class (h_obj h o) = ra_class (side R s) -> n = fl_name (ra_field (side R s)) -> refs h' o (ra_field (side R s)) = objs (Some v)) /\
    (forall N, below N h -> (N <= o)%nat -> (is_ref (fl_fdef f) = true -> forall b, In b (objs (Some v)) -> (N <= b)%nat) -> same_below N h h').
  Proof.
    intros S E Kc Rv H. pose proof (next_kept (TSet o n v) h) as Nx. rewrite H in Nx. cbn [snd] in Nx.
    destruct (side_or_not h o n f E) as [(s & C & En) | Out].
    - destruct (side_set h o n f v s E Rv C En) as [-> OS]. pose proof (setting_of h S) as ST. pose proof (setting_side h s ST) as STs.
      assert (A : after ct (p_oeq P) (p_getter P) (p_setter P) (LeafModel.py_str (p_str P)) R (p_lim P) [HSet o n v] h h').
      { split; [split; [right; destruct s; [left | right]; exact OS | intros; exact Logic.I] |].
        unfold history. cbn [for_st task_of]. unfold bind. rewrite H. reflexivity. }
      destruct (after_sets _ _ _ _ _ _ _ _ _ _ ST A) as (ST' & EC & _).
      assert (S' : sound_heap P R h') by (constructor; [apply ST' | apply ST' | intros z L; rewrite EC; apply (sd_no_others _ _ _ S); lia]).
      split; [exact S' | split; [exact EC | split; [exact Nx |]]].
      assert (Ef : forall s', o_class (h_obj h o) = ra_class (side R s') -> n = fl_name (ra_field (side R s')) -> refs h' o (ra_field (side R s')) = objs (Some v)).
      { intros s' C' En'. destruct (side_set h o n _ v s' E Rv C' En') as [_ OS']. pose proof (setting_side h s' ST) as STs'.
        pose proof (C34_operations_take_effect _ _ _ _ _ _ _ _ _ _ STs' OS' H) as K. exact K. }
      split; [| split; [exact Ef |]].
      { intros Out. contradiction (Out s). split; [exact C | left; exact En]. }
      intros N B Lo Lv s' a b La Ca.
      pose proof (C34_nothing_else_changes _ _ _ _ _ _ _ _ _ _ STs OS H) as K. cbn [leaves_others] in K.
      specialize (Lv (os_ref _ _ (side_ok s))). specialize (Ef s C En).
      destruct (Bool.bool_dec s' s) as [-> | Ns].
      + rewrite (K a b ltac:(lia) Ca), Ef. split; [intros [X _]; exact X |]. intros X. split; [exact X |]. right. intros Y.
        pose proof (B s a b La Ca X). specialize (Lv b Y). lia.
      + assert (s' = negb s) as -> by (clear - Ns; destruct s, s'; try reflexivity; contradiction Ns; reflexivity). rewrite <- flip_side in *. cbn [flip ra_class ra_field] in *.
        assert (Ca' : o_class (h_obj h' a) = rb_class (side R s)) by (rewrite EC; exact Ca).
        assert (Fl : forall h0 (S0 : sound_heap P R h0) x, o_class (h_obj h0 a) = rb_class (side R s) -> In x (refs h0 a (rb_field (side R s))) ->
                  o_class (h_obj h0 x) = ra_class (side R s)).
        { intros h0 S0 x C0 Hx. pose proof (refs_class h0 (negb s) a x S0) as Y. rewrite <- flip_side in Y. exact (Y C0 Hx). }
        split; intros X.
        * pose proof (Fl h' S' b Ca' X) as Cb'. apply (sym_side h' s b a S' Cb' Ca') in X.
          destruct (Nat.eq_dec b o) as [-> | Nb]; [rewrite Ef in X; specialize (Lv a X); lia |].
          rewrite EC in Cb'. apply (K b a Nb Cb') in X. apply (sym_side h s b a S Cb' Ca). apply X.
        * pose proof (Fl h S b Ca X) as Cb. pose proof (B (negb s) a b La) as Bb. rewrite <- flip_side in Bb. specialize (Bb Ca X).
          apply (sym_side h s b a S Cb Ca) in X. apply (sym_side h' s b a S'); [rewrite EC; exact Cb | exact Ca' |].
          apply (K b a ltac:(lia) Cb). split; [exact X |]. right. rewrite Ef. intros Y. specialize (Lv a Y). lia.
    - pose proof (out_frame h (sd_typed _ _ _ S) o n f v E Kc Rv Out) as X. rewrite H in X. destruct X as [I' K']. cbn [snd] in I', K'.
      pose proof (iv_class _ _ _ I') as EC.
      split; [constructor; [apply I' | apply (kept_agree h h' I' K'), S | intros z L; rewrite EC; apply (sd_no_others _ _ _ S); lia] |].
      split; [exact EC | split; [exact Nx |]]. split; [intros _ s z Cz; apply (kept_refs h h' K' s z Cz) |]. split.
      + intros s C En. contradiction (Out s). split; [exact C | left; exact En].
      + intros N _ _ _ s a b La Ca. rewrite (kept_refs h h' K' s a Ca). reflexivity.
  Qed.

  (** ** A new object *)
  Lemma sound_ext h h' : h_obj h' = h_obj h -> h_next h' = h_next h -> sound_heap P R h -> sound_heap P R h'.
  Proof.
    destruct h as [a b c], h' as [a' b' c']. cbn. intros -> -> [[T1 T2 T3 T4] [[A1 A2 A3 A4 A5] [B1 B2 B3 B4 B5] C] Ne].
    constructor; [constructor; assumption | constructor; [constructor; assumption | constructor; assumption | assumption] | assumption].
  Qed.
  Lemma sound_newcomer h : sound_heap P R h -> newcomer ct R h (h_next h).
  Proof.
    intros S. pose proof (sd_no_others _ _ _ S (h_next h) (le_n _)) as U. split.
    - intros z n f v N Ef Rf Ev Hr. pose proof (th_refs _ _ (sd_typed _ _ _ S) z n f v _ Ef Rf Ev Hr) as K.
      destruct (fields_of _ _ _ _ Ef) as (d & Ed & Hf & _). apply (pl_declared _ _ PL _ _ _ _ Ed Hf Rf K U).
    - intros s z N C Hb. pose proof (refs_next h s z _ S C Hb). lia.
  Qed.
  Lemma birth cls d h h1 : ct cls = Some d -> sound_heap P R h -> (forall z, z <> h_next h -> h_obj h1 z = h_obj h z) ->
    blank cls (cd_fields d) (h_obj h1 (h_next h)) -> ready (cd_fields d) (h_obj h1 (h_next h)) -> h_next h1 = S (h_next h) ->
    sound_heap P R h1 /\ grow h h1 /\ o_class (h_obj h1 (h_next h)) = cls /\ forall N, (N <= h_next h)%nat -> same_below N h h1.
  Proof.
    intros Ed S Oth Bl Rd Nx. pose proof (sound_newcomer h S) as Un. split; [| split; [| split]].
    - constructor.
      + apply (typed1 P R W (h_next h) cls d h h1 Ed Oth Bl Rd (sd_typed _ _ _ S) Un).
      + apply (consistent1 P R RO (h_next h) cls d h h1 Ed Oth Bl Rd (sd_agree _ _ _ S) Un).
      + intros z L. rewrite Oth by lia. apply (sd_no_others _ _ _ S). lia.
    - split; [lia |]. intros z L. rewrite Oth by lia. reflexivity.
    - apply (bl_class _ _ _ Bl).
    - intros N L s a b La Ca. unfold refs, attr. rewrite Oth by lia. reflexivity.
  Qed.
End Heap.

(** ** The input *)
Section Io.
  Context (P : program) (D : nat) (R : relation).
  Notation ct := (p_ct P).
  Hypothesis PL : plain_program D P.
  Hypothesis RO : relation_ok ct R.
  Hypothesis NK : no_key_list R.
  Context (h0 : heap) (old : oid -> Prop).
  Notation fine w := (sound_heap P R (w_heap w)).
  Notation since w := (grow h0 (w_heap w)).
  Notation grows w w' := (grow (w_heap w) (w_heap w')).
  Notation describes := (describes D P h0 old).
  Notation entries := (entries D P h0 old).
  Definition pure_keeps (N : oid) (w w' : world) : Prop :=
    (forall b, ~ old b) -> (N <= h_next (w_heap w))%nat -> below R N (w_heap w) -> same_below R N (w_heap w) (w_heap w').
  (** What a step does: the heap stays sound, it only grows, and links of objects below stay. *)
  Definition goes (N : oid) (w w' : world) : Prop := fine w' /\ grows w w' /\ pure_keeps N w w'.

  Lemma goes_refl N w : fine w -> goes N w w.
  Proof. intros F. split; [exact F | split; [apply grow_refl | intros _ _ _; apply same_refl]]. Qed.
  Lemma goes_trans N w1 w2 w3 : goes N w1 w2 -> goes N w2 w3 -> goes N w1 w3.
  Proof.
    intros (F1 & G1 & K1) (F2 & G2 & K2). split; [exact F2 | split; [apply (grow_trans _ _ _ G1 G2) |]]. intros U L B.
    eapply same_trans; [exact L | exact G1 | apply K1; assumption |].
    apply K2; [exact U | destruct G1; lia | eapply below_same; [exact L | exact G1 | apply K1; assumption | exact B]].
  Qed.
  Lemma goes_eq N w w1 w' : w_heap w' = w_heap w -> goes N w1 w -> goes N w1 w'.
  Proof. intros E (A & B & C). split; [rewrite E; exact A | split; [rewrite E; exact B |]]. unfold pure_keeps. rewrite E. exact C. Qed.
  Lemma goes_heap N w w' : w_heap w' = w_heap w -> fine w -> goes N w w'.
  Proof. intros E F. apply (goes_eq N w w w' E), goes_refl, F. Qed.
  Lemma since_grow w w' : since w -> grows w w' -> since w'.
  Proof. apply grow_trans. Qed.

  (** What is made of the input *)
  Definition made (w w' : world) (s : shape) (v y : value) : Prop :=
    match s with
    | Data => True
    | One cl =>
        match v with
        | VDict _ => exists b, y = VObj b /\ o_class (h_obj (w_heap w') b) = cl /\ (h_next (w_heap w) <= b < h_next (w_heap w'))%nat
        | _ => y = v
        end
    | Many cl =>
        match v with
        | VList l => exists ys, y = VList (map VObj ys) /\ NoDup ys /\ List.length ys = List.length l /\
            forall b, In b ys -> o_class (h_obj (w_heap w') b) = cl /\ (b < h_next (w_heap w'))%nat /\
              (In b (objs (Some (VList l))) \/ (h_next (w_heap w) <= b)%nat)
        | _ => y = VNone \/ y = VList []
        end
    end.
  Lemma old_objects cl l : describes (Many cl) (VList l) -> forall b, In b (objs (Some (VList l))) -> old b /\ (b < h_next h0)%nat /\ o_class (h_obj h0 b) = cl.
  Proof.
    intros H. inversion H as [| | | | ? ? Hl _]; subst. intros b Hb. cbn [objs] in Hb. apply in_flat_map in Hb. destruct Hb as (x & Hx & Hb).
    destruct x; try destruct Hb as []. subst. destruct (Hl _ Hx) as (_ & _ & Hd). inversion Hd; subst. auto. destruct H0.
  Qed.

  (** The field takes what is made. *)
  Lemma made_right w w' f s v y : shaped D f s -> describes s v -> since w -> grows w w' -> made w w' s v y -> right (w_heap w') f y.
  Proof.
    intros [Sc Sr] Dv Si G M Rf. destruct (Sr Rf) as [_ K]. destruct s as [| cl | cl]; [destruct K | |]; destruct K as [Tf Fc].
    - split; [right; exact Tf |]. unfold is_list_type. rewrite Tf, Fc. cbn [made] in M.
      inversion Dv as [| | ? b B1 B2 B3 | |]; subst; cbn in M.
      + left. exact M.
      + right. exists b. split; [exact M |]. f_equal. symmetry. pose proof (grow_trans _ _ _ Si G) as [_ X]. apply X, B2.
      + right. destruct M as (b & -> & C & _). exists b. split; [reflexivity | congruence].
    - split; [left; exact Tf |]. unfold is_list_type. rewrite Tf, Fc. cbn [made] in M.
      inversion Dv; subst; cbn in M.
      + destruct M as [-> | ->]; [left; reflexivity | right; exists []; split; [reflexivity | split; [constructor | intros b []]]].
      + right. destruct M as (ys & -> & Nd & _ & Hy). exists ys. split; [reflexivity | split; [exact Nd |]]. intros b Hb. destruct (Hy b Hb) as [C _]. congruence.
  Qed.
  Lemma made_above N w w' f s v y : (forall b, ~ old b) -> (N <= h_next (w_heap w))%nat -> shaped D f s -> is_ref (fl_fdef f) = true -> describes s v ->
    made w w' s v y -> forall b, In b (objs (Some y)) -> (N <= b)%nat.
  Proof.
    intros U L [Sc Sr] Rf Dv M b Hb. destruct (Sr Rf) as [_ K]. destruct s as [| cl | cl]; [destruct K | |].
    - cbn [made] in M. inversion Dv as [| | ? b' B1 | |]; subst; cbn in M; [subst y; destruct Hb | contradiction (U _ B1) |].
      destruct M as (b' & -> & _ & Q). destruct Hb as [<- | []]. lia.
    - cbn [made] in M. inversion Dv; subst; cbn in M; [destruct M as [-> | ->]; destruct Hb |].
      destruct M as (ys & -> & _ & _ & Hy). rewrite objs_list in Hb. destruct (Hy b Hb) as (_ & _ & [X | X]); [| lia].
      destruct (old_objects cl l Dv b X) as [Y _]. contradiction (U _ Y).
  Qed.

  (** ** Assignments *)
  Lemma setattr_goes N w o cls d f v w' : fine w -> ct cls = Some d -> In f (cd_fields d) -> o_class (h_obj (w_heap w) o) = cls -> is_calc f = false ->
    right (w_heap w) f v -> (N <= o)%nat -> ((forall b, ~ old b) -> is_ref (fl_fdef f) = true -> forall b, In b (objs (Some v)) -> (N <= b)%nat) ->
    setattr P o (fl_name f) v w = (Ok tt, w') -> goes N w w'.
  Proof.
    intros F Ed Hf C Kc Rv L La E. unfold setattr, liftH in E.
    destruct (ObjModel.run _ _ _ _ _ _ _ (w_heap w)) as [r h] eqn:H. injection E as -> <-.
    assert (Ef : ofield ct (w_heap w) o (fl_name f) = Some f).
    { unfold ofield, cdef_of. rewrite C, Ed. apply field_named_in; [apply (wf_names _ _ _ (pl_wf _ _ PL _ _ Ed)) | exact Hf]. }
    destruct (step_set P D R PL RO NK _ o _ f v h F Ef Kc Rv H) as (S' & EC & Nx & _ & _ & Sb).
    split; [exact S' | split; [split; [cbn; lia | intros z _; apply EC] |]]. intros U _ B. apply Sb; auto.
  Qed.
  Lemma setattr_class w o cls d f v w' : fine w -> ct cls = Some d -> In f (cd_fields d) -> o_class (h_obj (w_heap w) o) = cls -> is_calc f = false ->
    right (w_heap w) f v -> setattr P o (fl_name f) v w = (Ok tt, w') -> forall z, o_class (h_obj (w_heap w') z) = o_class (h_obj (w_heap w) z).
  Proof.
    intros F Ed Hf C Kc Rv E. unfold setattr, liftH in E.
    destruct (ObjModel.run _ _ _ _ _ _ _ (w_heap w)) as [r h] eqn:H. injection E as -> <-.
    assert (Ef : ofield ct (w_heap w) o (fl_name f) = Some f).
    { unfold ofield, cdef_of. rewrite C, Ed. apply field_named_in; [apply (wf_names _ _ _ (pl_wf _ _ PL _ _ Ed)) | exact Hf]. }
    apply (step_set P D R PL RO NK _ o _ f v h F Ef Kc Rv H).
  Qed.

  (** ** Fields *)
  Definition types_go (n : nat) : Prop := forall N ts s c w y w', chain_shape D ts s -> c_fdef c = fdef_of ts -> c_original c = VNone -> describes s (c_val c) ->
    fine w -> since w -> t_transform (interp P n) ts c w = (Ok y, w') -> goes N w w' /\ made w w' s (c_val c) y.

  Section Fields.
    Context (n : nat) (IH : types_go n) (o : oid) (cls : string) (d : cdef) (m : list (string * value)) (N : oid).
    Hypothesis Ed : ct cls = Some d.
    Hypothesis En : entries d m.
    Hypothesis LN : (N <= o)%nat.
    Definition here (w : world) : Prop := fine w /\ since w /\ (o < h_next (w_heap w))%nat /\ o_class (h_obj (w_heap w) o) = cls.
    Lemma here_goes w w' : here w -> goes N w w' -> here w'.
    Proof.
      intros (F & Si & L & C) (F' & G & _). split; [exact F' | split; [apply (since_grow _ _ Si G) | split; [destruct G; lia |]]].
      destruct G as [_ G]. rewrite G by exact L. exact C.
    Qed.
    Lemma take s f c v w y w1 w2 : here w -> In f (cd_fields d) -> shaped D f s -> c_fdef c = fl_fdef f -> c_original c = VNone -> c_val c = v -> describes s v ->
      t_transform (interp P n) (fl_types f) c w = (Ok y, w1) -> (if is_calc f then w2 = w1 else setattr P o (fl_name f) y w1 = (Ok tt, w2)) -> goes N w w2.
    Proof.
      intros H Hf Sf Cf Co Cv Dv E1 E2. destruct H as (F & Si & L & C). subst v.
      destruct (IH N _ s c w y w1 (sh_chain _ _ _ Sf) Cf Co Dv F Si E1) as [G1 M]. destruct (is_calc f) eqn:Kc; [subst w2; exact G1 |].
      pose proof (here_goes w w1 (conj F (conj Si (conj L C))) G1) as (F1 & Si1 & L1 & C1).
      apply (goes_trans N w w1 w2 G1). destruct G1 as (_ & Gw & _). destruct (Nat.le_gt_cases N (h_next (w_heap w))) as [LN' | LN']; [| exfalso; lia].
      apply (setattr_goes N w1 o cls d f y w2 F1 Ed Hf C1 Kc); [apply (made_right w w1 f s (c_val c)); assumption | exact LN | | exact E2].
      intros U Rf. apply (made_above N w w1 f s (c_val c)); assumption.
    Qed.
    Lemma default_goes f c w w' : here w -> In f (cd_fields d) -> is_calc f = false -> fill_default P (interp P n) f o c w = (Ok tt, w') -> goes N w w'.
    Proof.
      intros H Hf Kc E. destruct (pl_shapes _ _ PL _ _ _ Ed Hf) as (s & Sf). unfold fill_default in E. destruct (fl_default f) eqn:Df;
        try (destruct H as (F & Si & L & C); apply (setattr_goes N w o cls d f _ w' F Ed Hf C Kc) in E; [exact E | | exact LN | ];
             [intros Rf | intros _ Rf]; destruct (sh_ref _ _ _ Sf Rf) as [X _]; rewrite Df in X; discriminate X).
      step E e w1 G1. apply NestProofs.ekey_same in G1. subst w1. step E k1 w1 G1. injection G1 as <- <-. step E y w1 G1.
      apply (take s f _ VNone w y w1 w' H Hf Sf) in G1; [exact G1 | reflexivity | reflexivity | reflexivity | constructor | rewrite Kc; exact E].
    Qed.
    Lemma field_goes c soft acc f w acc' w' : here w -> In f (cd_fields d) -> fill_field P (interp P n) c m o soft acc f w = (Ok acc', w') ->
      goes N w w' /\ (acc' = acc \/ acc' = acc ++ [fl_name f] /\ is_ref (fl_fdef f) = true /\ is_list_field f = true).
    Proof.
      intros H Hf E. destruct (pl_shapes _ _ PL _ _ _ Ed Hf) as (s & Sf). inversion En as [? ? Ks Kd]; subst.
      unfold fill_field in E. destruct (has_field_value f m) eqn:Hv.
      - step E ok w1 G. assert (w1 = w) as ->.
        { unfold may_write in G. destruct (f_write_rule (fl_fdef f)); try (injection G as _ <-; reflexivity).
          step G cur w2 G2. apply NestProofs.getattr_same in G2. injection G as _ <-. exact G2. }
        step E u w1 G1. injection E as <- <-. split; [| left; reflexivity]. destruct ok.
        + step G1 e w2 G2. apply NestProofs.ekey_same in G2. subst w2. step G1 k1 w2 G2. injection G2 as <- <-. step G1 y w2 G2.
          apply (take s f _ (get_field_value f m) w y w2 w1 H Hf Sf) in G2; try reflexivity; [exact G2 | apply Kd; assumption |].
          destruct (is_calc f); [injection G1 as _ <-; reflexivity | destruct u; exact G1].
        + destruct (g_fill (c_cfg c) && negb (is_calc f)) eqn:X; [| injection G1 as _ <-; apply goes_refl, H].
          apply andb_true_iff in X. destruct X as [_ X]. apply negb_true_iff in X. destruct u. apply (default_goes f c w w1 H Hf X G1).
      - unfold absent_field in E. destruct (is_ref (fl_fdef f)) eqn:Rf.
        + step E u w1 G. injection E as <- <-. split.
          * destruct (is_local f) eqn:Lf; [| injection G as _ <-; apply goes_refl, H]. destruct (Ks f Hf Lf) as [K1 K2]. rewrite K1, K2 in G.
            injection G as _ <-. apply goes_refl, H.
          * destruct (is_list_field f) eqn:Il; cbn [andb]; [| left; reflexivity]. destruct (f_collection_null (fl_fdef f)); auto.
        + step E u w1 G. injection E as <- <-. split; [| left; reflexivity].
          destruct (g_fill (c_cfg c) && negb soft && negb (is_calc f)) eqn:X; [| injection G as _ <-; apply goes_refl, H].
          apply andb_true_iff in X. destruct X as [_ X]. apply negb_true_iff in X. destruct u. apply (default_goes f c w w1 H Hf X G).
    Qed.
    Definition lists (acc : list string) : Prop :=
      forall k, In k acc -> exists f, In f (cd_fields d) /\ fl_name f = k /\ is_ref (fl_fdef f) = true /\ is_list_field f = true.
    Lemma fold_goes c soft : forall fs acc w acc' w', incl fs (cd_fields d) -> here w -> lists acc ->
      fold_st (fill_field P (interp P n) c m o soft) fs acc w = (Ok acc', w') -> goes N w w' /\ lists acc'.
    Proof.
      induction fs as [| f fs IHf]; intros acc w acc' w' Hi H La E.
      - injection E as <- <-. split; [apply goes_refl, H | exact La].
      - cbn [fold_st] in E. step E a w1 G. destruct (field_goes c soft acc f w a w1 H (Hi f (or_introl eq_refl)) G) as [G1 Q].
        destruct (IHf a w1 acc' w' (fun x Hx => Hi x (or_intror Hx)) (here_goes _ _ H G1)) as [G2 L2]; [| exact E |].
        + destruct Q as [-> | (-> & Q1 & Q2)]; [exact La |]. intros k Hk. apply in_app_or in Hk. destruct Hk as [Hk | [<- | []]]; [apply La, Hk |].
          exists f. split; [apply Hi; left; reflexivity | auto].
        + split; [apply (goes_trans N _ _ _ G1 G2) | exact L2].
    Qed.
    Lemma empties_goes : forall acc w u w', here w -> lists acc ->
      for_st acc (fun k => do* cur <- getattr P o k; if is_none cur then setattr P o k (VList []) else ret tt) w = (Ok u, w') -> goes N w w'.
    Proof.
      induction acc as [| k acc IHa]; intros w u w' H La E.
      - injection E as _ <-. apply goes_refl, H.
      - cbn [for_st] in E. step E u1 w1 G. destruct (La k (or_introl eq_refl)) as (f & Hf & <- & Rf & Lf).
        assert (G1 : goes N w w1).
        { step G cur w2 G2. apply NestProofs.getattr_same in G2. subst w2. destruct (is_none cur); [| injection G as _ <-; apply goes_refl, H].
          destruct u1. destruct H as (F & Si & L & C). apply (setattr_goes N w o cls d f (VList []) w1 F Ed Hf C (ref_calc f Rf)); [| exact LN | intros _ _ b [] | exact G].
          intros _. destruct (pl_shapes _ _ PL _ _ _ Ed Hf) as (s & Sf). destruct (sh_ref _ _ _ Sf Rf) as [_ K]. unfold is_list_field in Lf. unfold is_list_type.
          destruct s as [| cl | cl]; [destruct K | |]; destruct K as [Tf _]; rewrite Tf in *; [discriminate Lf |].
          split; [left; reflexivity |]. right. exists []. split; [reflexivity | split; [constructor | intros b []]]. }
        apply (goes_trans N w w1 w' G1). apply (IHa w1 u w' (here_goes _ _ H G1)); [intros k' Hk; apply La; right; exact Hk | exact E].
    Qed.
    Lemma rest_goes c w y w' : here w -> NestProofs.fill_rest P n o d c m w = (Ok y, w') -> goes N w w' /\ y = VObj o.
    Proof.
      intros H E. unfold NestProofs.fill_rest in E. step E acc w1 G. destruct (fold_goes c false _ [] w acc w1 (fun x X => X) H ltac:(intros k []) G) as [G1 La].
      step E u w2 G2. injection E as <- <-. split; [| reflexivity]. apply (goes_trans N w w1 w2 G1). apply (empties_goes acc w1 u w2 (here_goes _ _ H G1) La G2).
    Qed.
  End Fields.

  (** ** Objects *)
  Lemma goes_any N w w' : goes 0%nat w w' -> (h_next (w_heap w) < N)%nat -> goes N w w'.
  Proof. intros (A & B & _) L. split; [exact A | split; [exact B |]]. intros _ X. lia. Qed.
  Lemma goes_from N w w0 w' : w_heap w0 = w_heap w -> goes N w0 w' -> goes N w w'.
  Proof. unfold goes, pure_keeps. intros ->. auto. Qed.
  Lemma no_entries d : entries d [].
  Proof. constructor; [intros f _ _; split; reflexivity | intros f s _ _; constructor]. Qed.
  Lemma wcdef_here w o cls d : ct cls = Some d -> o_class (h_obj (w_heap w) o) = cls -> wcdef P w o = d.
  Proof. intros Ed C. unfold wcdef, cdef_of. rewrite C, Ed. reflexivity. Qed.

  Lemma found_goes n N cls d o m c w y w' : types_go n -> ct cls = Some d -> entries d m -> (N <= o)%nat -> here o cls w ->
    (do* od <- getW (fun w => wcdef P w o);
     (if is_strict c d then strictness_check c od (map fst m) else ret tt) >>
     (do* refs <- fold_st (fill_field P (interp P n) c m o false) (cd_fields od) [];
      for_st refs (fun n => do* cur <- getattr P o n; if is_none cur then setattr P o n (VList []) else ret tt) >> ret (VObj o))) w = (Ok y, w') ->
    goes N w w' /\ y = VObj o.
  Proof.
    intros IH Ed En L H E. step E od w1 G. injection G as <- <-. rewrite (wcdef_here w o cls d Ed (proj2 (proj2 (proj2 H)))) in E. step E u w1 G.
    assert (w1 = w) as ->.
    { destruct (is_strict c d); [| injection G as _ <-; reflexivity]. unfold strictness_check in G. destruct (find _ _); [discriminate G | injection G as _ <-; reflexivity]. }
    apply (rest_goes n IH o cls d m N Ed En L c w y w' H E).
  Qed.
  Lemma root_steps n cls d o m c w y w' : ct cls = Some d -> o_class (h_obj (w_heap w) o) = cls ->
    c_val c = VDict m -> c_original c = VObj o -> f_inst (c_fdef c) = Some cls -> inst_transform P (interp P n) c w = (Ok y, w') ->
    exists w2, w_heap w2 = w_heap w /\ NestProofs.fill_rest P n o d c m w2 = (Ok y, w').
  Proof.
    intros Ed C Cv Co Ci E. unfold inst_transform in E. rewrite Cv in E. unfold inst_cls in E. rewrite Ci in E.
    step E c1 w0 G. injection G as <- <-. step E d0 w0 G. unfold class_named in G. rewrite Ed in G. injection G as <- <-. step E os w1 G.
    unfold find_dest in G. cbv zeta in G. rewrite Co in G. cbn [the_obj] in G. step G o1 w2 G0. injection G0 as <- <-. step G u w2 G0. injection G as <- <-.
    assert (Eh : w_heap w2 = w_heap w).
    { destruct (is_none _); [injection G0 as _ <-; reflexivity |]. unfold mg_putp, modW in G0. injection G0 as _ <-. reflexivity. }
    exists w2. split; [exact Eh |]. step E od w1 G. injection G as <- <-. rewrite (wcdef_here w2 o cls d Ed) in E by (rewrite Eh; exact C). step E u1 w1 G.
    assert (w1 = w2) as ->.
    { destruct (is_strict c d); [| injection G as _ <-; reflexivity]. unfold strictness_check in G. destruct (find _ _); [discriminate G | injection G as _ <-; reflexivity]. }
    exact E.
  Qed.
  Lemma root_goes n N cls d o m c w y w' : types_go n -> ct cls = Some d -> entries d m -> (N <= o)%nat -> here o cls w ->
    c_val c = VDict m -> c_original c = VObj o -> f_inst (c_fdef c) = Some cls -> inst_transform P (interp P n) c w = (Ok y, w') -> goes N w w' /\ y = VObj o.
  Proof.
    intros IH Ed En L H Cv Co Ci E. destruct (root_steps n cls d o m c w y w' Ed (proj2 (proj2 (proj2 H))) Cv Co Ci E) as (w2 & Eh & G).
    destruct (rest_goes n IH o cls d m N Ed En L c w2 y w') as [A Y]; [unfold here; rewrite Eh; exact H | exact G |].
    split; [apply (goes_from N w w2 w' Eh A) | exact Y].
  Qed.

  Lemma create_steps n N cls d kw w o w' : ct cls = Some d -> fine w -> since w -> (N <= h_next (w_heap w))%nat ->
    create P (m_transform (interp P n (MInstance cls))) cls kw w = (Ok o, w') ->
    exists k c wi y wb, n = S k /\ goes N w wi /\ here o cls wi /\ o = h_next (w_heap w) /\ w_heap w' = w_heap wb /\
      c_val c = VDict kw /\ c_original c = VObj o /\ f_inst (c_fdef c) = Some cls /\ inst_transform P (interp P k) c wi = (Ok y, wb).
  Proof.
    intros Ed F Si L E. unfold create in E. step E d1 w0 G. unfold class_named in G. rewrite Ed in G. injection G as <- <-.
    destruct (cd_abstract d); [discriminate E |]. step E x w1 G. pose proof (alloc_ok cls w) as Al. destruct (alloc cls w) as [x2 wa].
    injection G as <- <-. destruct Al as (A1 & A2 & A3 & A4 & _). destruct (pl_names _ _ PL _ _ Ed) as [Pn Ok_]. step E u w2 I1.
    destruct (init_fields_ok P cls d x2 (pl_lim _ _ PL) Ed Pn (cd_fields d) [] wa eq_refl) as (h1 & I1' & (I2 & NxI & _) & I3).
    { unfold wobj. rewrite A2. apply fresh_blank. }
    rewrite I1 in I1'. injection I1' as -> ->.
    pose proof (ready_fields P cls d x2 (pl_lim _ _ PL) Ed Pn Ok_ (cd_fields d) [] wa eq_refl) as Rd. unfold wobj in Rd. rewrite A2 in Rd.
    specialize (Rd (fresh_blank cls) (fresh_ready cls) _ I1). cbn [set_heap w_heap] in Rd.
    subst x2. destruct (birth P D R PL RO cls d (w_heap w) h1 Ed F) as (S1 & G1 & C1 & K1); [intros z Nz; rewrite (I2 z Nz); apply A3, Nz | exact I3 | exact Rd | congruence |].
    step E u2 w3 E1. injection E as <- <-. unfold set_with in E1. step E1 k1 w4 G. injection G as <- <-. step E1 op w4 G. injection G as <- <-.
    step E1 y w4 G. injection E1 as <- <-. unfold with_new_mgraph in G.
    set (wi := set_mg [] (set_heap h1 wa)) in *.
    destruct (m_transform (interp P n (MInstance cls)) _ wi) as [r wb] eqn:Et. injection G as -> <-.
    destruct n as [| n]; [discriminate Et |]. cbn [interp modif_of m_transform transform_of] in Et.
    match type of Et with inst_transform _ _ ?c _ = _ => exists n, c, wi, y, wb end. split; [reflexivity |].
    split; [split; [exact S1 | split; [exact G1 |]]; intros _ _ _; apply K1, L |].
    split; [split; [exact S1 | split; [apply (grow_trans _ _ _ Si G1) | split; [cbn; lia | exact C1]]] |].
    split; [reflexivity | split; [reflexivity | split; [reflexivity | split; [reflexivity | split; [| exact Et]]]]].
    unfold rootctx. cbn [c_fdef]. change (wclass (set_heap h1 wa) (h_next (w_heap w))) with (o_class (h_obj h1 (h_next (w_heap w)))). rewrite C1. reflexivity.
  Qed.
  Lemma create_goes n N cls d kw w o w' : (forall k, (k < n)%nat -> types_go k) -> ct cls = Some d -> entries d kw -> fine w -> since w -> (N <= h_next (w_heap w))%nat ->
    create P (m_transform (interp P n (MInstance cls))) cls kw w = (Ok o, w') ->
    goes N w w' /\ o = h_next (w_heap w) /\ (o < h_next (w_heap w'))%nat /\ o_class (h_obj (w_heap w') o) = cls.
  Proof.
    intros IH Ed En F Si L E. destruct (create_steps n N cls d kw w o w' Ed F Si L E) as (k & c & wi & y & wb & -> & Gi & H & Eo & Eh & Cv & Co & Ci & Et).
    apply (root_goes k N cls d o kw) in Et; try assumption; [| apply IH; lia | rewrite Eo; exact L]. destruct Et as [Et _].
    assert (LN : (N <= o)%nat) by (rewrite Eo; exact L).
    assert (H2 : here o cls wb) by (eapply here_goes; [exact LN | exact H | exact Et]). destruct H2 as (_ & _ & L2 & C2).
    rewrite Eh. split; [| split; [exact Eo | split; [exact L2 | exact C2]]].
    apply (goes_eq N wb w _ Eh). apply (goes_trans N w wi wb Gi Et).
  Qed.
  Lemma put_heap o w w' : graph_put P o w = (Ok tt, w') -> h_obj (w_heap w') = h_obj (w_heap w) /\ h_next (w_heap w') = h_next (w_heap w).
  Proof. unfold graph_put, modW. intros E. injection E as <-. destruct (g_put _ _ _ _); split; reflexivity. Qed.
  Lemma goes_same N w w1 w' : h_obj (w_heap w') = h_obj (w_heap w1) -> h_next (w_heap w') = h_next (w_heap w1) -> goes N w w1 -> goes N w w'.
  Proof.
    intros E1 E2 (A & B & C). split; [apply (sound_ext P R _ _ E1 E2 A) | split].
    - destruct B as [B1 B2]. split; [rewrite E2; exact B1 | intros z L; rewrite E1; apply B2, L].
    - intros U L Bl s a b La Ca. unfold refs, attr. rewrite E1. apply (C U L Bl s a b La Ca).
  Qed.
  Lemma new_goes n N cls d w o w' : (forall k, (k < n)%nat -> types_go k) -> ct cls = Some d -> fine w -> since w -> (N <= h_next (w_heap w))%nat ->
    new_default P (interp P n) cls w = (Ok o, w') -> goes N w w' /\ o = h_next (w_heap w) /\ (o < h_next (w_heap w'))%nat /\ o_class (h_obj (w_heap w') o) = cls.
  Proof.
    intros IH Ed F Si L E. unfold new_default in E. step E x w1 G. step E u w2 G2. injection E as <- <-. destruct u. apply put_heap in G2. destruct G2 as [Q1 Q2].
    destruct (create_goes n N cls d [] w x w1 IH Ed (no_entries d) F Si L G) as (A & B & C & X). split; [apply (goes_same N w w1 w2 Q1 Q2 A) |].
    rewrite Q1, Q2. auto.
  Qed.
  Lemma object_goes n N cl m c w y w' : (forall k, (k <= n)%nat -> types_go k) -> describes (One cl) (VDict m) -> fine w -> since w -> (N <= h_next (w_heap w))%nat ->
    c_val c = VDict m -> c_original c = VNone -> f_inst (c_fdef c) = Some cl -> inst_transform P (interp P n) c w = (Ok y, w') ->
    goes N w w' /\ made w w' (One cl) (VDict m) y.
  Proof.
    intros IH Dm F Si L Cv Co Ci E. unfold inst_transform in E. rewrite Cv in E. unfold inst_cls in E. rewrite Ci in E.
    step E c1 w0 G. injection G as <- <-. step E d w0 G. unfold class_named in G. destruct (ct cl) as [d1 |] eqn:Ed; [| discriminate G]. injection G as <- <-. step E os w1 G.
    inversion Dm as [| | | ? ? Dm1 |]; subst. destruct (Dm1 _ Ed) as [Nk En].
    unfold find_dest in G. cbv zeta in G. rewrite Co in G.
    assert (Kn : is_none match primary_field d1 with Some pf => get_or_none (fl_name pf) m | None => VNone end = true).
    { destruct (primary_field d1) as [pf |] eqn:Ep; [| reflexivity]. rewrite (Nk pf Ep). reflexivity. }
    rewrite Kn in G. step G o w2 G0. step G u w3 G1. injection G as <- <-. unfold mg_put, modW in G1. injection G1 as _ <-.
    destruct (new_goes n N cl d1 w o w2 ltac:(intros k Lk; apply IH; lia) Ed F Si L G0) as (A & B & C & X).
    set (w3 := set_mg _ w2) in *. assert (Eh : w_heap w3 = w_heap w2) by reflexivity.
    destruct (found_goes n N cl d1 o m c w3 y w' (IH n (le_n _)) Ed En) with (3 := E) as [G Y].
    - rewrite B. exact L.
    - unfold here. rewrite Eh. destruct A as (A1 & A2 & _). split; [exact A1 | split; [apply (grow_trans _ _ _ Si A2) | auto]].
    - apply (goes_from N w2 w3 w' Eh) in G. split; [apply (goes_trans N w w2 w' A G) |]. exists o. split; [exact Y |]. destruct G as (_ & [G1 G2] & _).
      split; [rewrite G2 by exact C; exact X | lia].
  Qed.

  (** ** Chains *)
  Lemma silent_alone (l : types) v : (forall m, In m l -> silent m = true) -> Forall (leaves_alone v) l.
  Proof. intros H. apply Forall_forall. intros m Hm. left. apply H, Hm. Qed.
  Lemma around n before m after c w y w' : (forall x, In x (before ++ after) -> silent x = true) -> unmarked [m] ->
    t_transform (interp P n) (before ++ m :: after) c w = (Ok y, w') -> exists k, n = S k /\ m_transform (interp P (S k) m) c w = (Ok y, w').
  Proof.
    intros B U E.
    assert (B1 : forall v, Forall (leaves_alone v) before) by (intros v; apply silent_alone; intros x Hx; apply B, in_or_app; left; exact Hx).
    assert (B2 : forall v, Forall (leaves_alone v) after) by (intros v; apply silent_alone; intros x Hx; apply B, in_or_app; right; exact Hx).
    rewrite unmarked_transform in E by (apply (chain_unmarked VNone); [apply B1 | apply B2 | exact U]).
    unfold bind at 1 in E. cbn [ret] in E. destruct n as [| k].
    { exfalso. destruct before; cbn [app map fold_st] in E; unfold bind, throw in E; discriminate E. }
    exists k. split; [reflexivity |]. rewrite map_app, fold_st_app in E.
    rewrite (bind_eq _ _ w (c_val c) w) in E by (apply alone_fold, B1). cbn [map fold_st] in E. step E y1 w1 G.
    rewrite alone_fold in E by apply B2. injection E as <- <-. rewrite nval_val in G. exact G.
  Qed.
  Existing Instance WriteFrame.frame_mode.
  Lemma flat_heap n ts c w r w' : (forall m, In m ts -> flat D m) -> t_transform (interp P n) ts c w = (r, w') -> w_heap w' = w_heap w.
  Proof.
    intros Fl E. set (J := fun w1 : world => w_heap w1 = w_heap w). change (J w').
    assert (Kc : Keep.keeps J (t_transform (interp P n) ts c)).
    { apply (k_t_transform J (interp P n) (fun m => flat D m)); [| | exact Fl].
      - intros m c0 Hm. apply (flat_ok P J (fun _ => True)) with (d := D); try (intros; apply WriteFrame.silent_any); [| split; [exact Hm | intros; exact Logic.I] | left; discriminate].
        intros k f c1 args _ _ w1 H1. rewrite (call_eq P k f c1 args w1 (pl_calm _ _ PL)). split; [exact H1 | apply WriteFrame.silent_any].
      - intros m c0 Hm. apply (flat_ok P J (fun _ => True)) with (d := D); try (intros; apply WriteFrame.silent_any); [| split; [exact Hm | intros; exact Logic.I] | left; discriminate].
        intros k f c1 args _ _ w1 H1. rewrite (call_eq P k f c1 args w1 (pl_calm _ _ PL)). split; [exact H1 | apply WriteFrame.silent_any]. }
    destruct (Kc w eq_refl) as [X _]. rewrite E in X. exact X.
  Qed.
  Lemma items_heap n dict it c : is_ref (c_fdef c) = false -> item_types (c_fdef c) = Some it -> (forall x, In x it -> flat D x) ->
    forall w y w', col_transform P (interp P n) dict c w = (Ok y, w') -> w_heap w' = w_heap w.
  Proof.
    intros Rf Ei Fl w y w' E. unfold col_transform in E.
    assert (Sp : forall v, special dict c v = false).
    { intros v. unfold special. unfold is_ref in Rf. destruct (f_fstore _); try discriminate Rf; destruct dict; reflexivity. }
    destruct (c_val c) as [| | | | | | | | l | dd | |] eqn:Cv; try (injection E as _ <-; reflexivity);
      (destruct (col_items dict _) as [its |]; [| injection E as _ <-; reflexivity]); revert E; generalize (empty_col dict) as acc; revert w y w';
      induction its as [| kv its IHi]; intros w y w' acc E; try (injection E as _ <-; reflexivity); cbn [fold_st] in E; step E a w1 G; apply IHi in E; rewrite E; clear E;
      rewrite Sp in G; step G ts w2 G1; unfold items_of in G1; rewrite Ei in G1; injection G1 as <- <-; unfold col_item in G; step G x w2 G1; apply (flat_heap n it _ _ _ _ Fl) in G1;
      step G d1 w3 G2; injection G as _ <-; rewrite <- G1; unfold cdef_v, the_obj in G2; destruct (c_owner c); cbn in G2; try discriminate G2; injection G2 as _ <-; reflexivity.
  Qed.
  Lemma data_goes n N ts c w y w' : chain_shape D ts Data -> c_fdef c = fdef_of ts -> fine w -> t_transform (interp P n) ts c w = (Ok y, w') -> goes N w w'.
  Proof.
    intros Sh Cf F E. apply goes_heap; [| exact F]. destruct Sh as [Fl | (before & m & after & raw & it & -> & Em & B & Rf & Ei & Fl)]; [apply (flat_heap n ts c w _ w' Fl E) |].
    destruct (around n before m after c w y w' B ltac:(destruct Em as [-> | ->]; split; intros [X | []]; discriminate X) E) as (k & -> & G).
    rewrite <- Cf in Rf, Ei. destruct Em as [-> | ->]; cbn [interp modif_of m_transform transform_of] in G; apply (items_heap k _ it c Rf Ei Fl) in G; exact G.
  Qed.

  Lemma one_goes n N cl ts c w y w' : (forall k, (k < n)%nat -> types_go k) -> one_chain cl ts -> c_fdef c = fdef_of ts -> c_original c = VNone -> describes (One cl) (c_val c) ->
    fine w -> since w -> t_transform (interp P n) ts c w = (Ok y, w') -> goes N w w' /\ made w w' (One cl) (c_val c) y.
  Proof.
    intros IH (before & after & -> & B) Cf Co Dv F Si E. destruct (around n before (MInstance cl) after c w y w' B ltac:(split; intros [X | []]; discriminate X) E) as (k & -> & G).
    clear E. cbn [interp modif_of m_transform transform_of] in G.
    assert (Ci : f_inst (c_fdef c) = Some cl).
    { rewrite Cf. apply NestProofs.inst_of. apply Forall_forall. intros x Hx. left. apply B, in_or_app. right. exact Hx. }
    remember (c_val c) as v eqn:Ev. symmetry in Ev. unfold inst_transform in G. destruct v; try (exfalso; inversion Dv; fail).
    - rewrite Ev, Co in G. injection G as <- <-. split; [apply goes_refl, F | reflexivity].
    - change (inst_transform P (interp P k) c w = (Ok y, w')) in G. destruct (Nat.le_gt_cases N (h_next (w_heap w))) as [L | L].
      + refine (object_goes k N cl _ c w y w' _ Dv F Si L Ev Co Ci G). intros j Lj. apply IH. lia.
      + assert (IH' : forall j, (j <= k)%nat -> types_go j) by (intros j Lj; apply IH; lia).
        destruct (object_goes k 0%nat cl _ c w y w' IH' Dv F Si (Nat.le_0_l _) Ev Co Ci G) as [A M]. split; [apply goes_any; assumption | exact M].
    - rewrite Ev, Co in G. injection G as <- <-. split; [apply goes_refl, F | reflexivity].
  Qed.

  Section Items.
    Context (n : nat) (IH : forall k, (k < n)%nat -> types_go k) (N : oid) (cl : string) (it : types) (c : ctx) (col : value).
    Hypothesis Oc : one_chain cl it.
    Hypothesis Ei : item_types (c_fdef c) = Some it.
    Notation step_of := (fun acc (kv : karg * value) =>
      if special false c (snd kv) then special_handle P c (snd kv) >> ret acc
      else do* ts <- items_of c; col_item P (t_transform (interp P n)) c col ts acc kv).
    Lemma list_goes : forall l i ys0 w y w', (forall v, In v l -> v <> VNone /\ no_link_words v /\ describes (One cl) v) -> NoDup (objs (Some (VList l))) ->
      fine w -> since w -> NoDup ys0 -> (forall b, In b ys0 -> (b < h_next (w_heap w))%nat /\ ~ In b (objs (Some (VList l)))) ->
      fold_st step_of (enum_list i l) (VList (map VObj ys0)) w = (Ok y, w') ->
      goes N w w' /\ exists ys, y = VList (map VObj (ys0 ++ ys)) /\ NoDup (ys0 ++ ys) /\ List.length ys = List.length l /\
        forall b, In b ys -> o_class (h_obj (w_heap w') b) = cl /\ (b < h_next (w_heap w'))%nat /\ (In b (objs (Some (VList l))) \/ (h_next (w_heap w) <= b)%nat).
    Proof.
      induction l as [| v l IHl]; intros i ys0 w y w' Hl Nd F Si N0 H0 E.
      - injection E as <- <-. split; [apply goes_refl, F |]. exists []. rewrite app_nil_r. split; [reflexivity | split; [exact N0 | split; [reflexivity | intros b []]]].
      - cbn [enum_list fold_st] in E. step E a w1 G. cbn [snd] in G. destruct (Hl v (or_introl eq_refl)) as (Nv & Lw & Dv).
        assert (Sp : special false c v = false).
        { unfold special. destruct v; try apply andb_false_r. destruct Lw as [L1 L2]. rewrite L1, L2. apply andb_false_r. }
        rewrite Sp in G. step G ts w0 G0. unfold items_of in G0. rewrite Ei in G0. injection G0 as <- <-. unfold col_item in G. cbn [fst snd] in G.
        step G x w2 G1. step G d1 w3 G2. injection G as <- <-.
        assert (w3 = w2) by (unfold cdef_v, the_obj in G2; destruct (c_owner c); cbn in G2; try discriminate G2; injection G2 as _ <-; reflexivity). subst w3.
        destruct (one_goes n N cl it (colval c v (KInt i) (fdef_of it) col) w x w2 IH Oc eq_refl eq_refl Dv F Si G1) as [A M]. cbn [colval c_val] in M.
        assert (X : exists b, x = VObj b /\ o_class (h_obj (w_heap w2) b) = cl /\ (b < h_next (w_heap w2))%nat /\ (v = VObj b /\ (b < h_next h0)%nat \/ (forall z, v <> VObj z) /\ (h_next (w_heap w) <= b)%nat)).
        { inversion Dv as [| | ? b O1 O2 O3 | ? m Dm |]; subst; [contradiction Nv; reflexivity | |].
          - cbn in M. exists b. destruct A as (_ & A & _). pose proof (grow_trans _ _ _ Si A) as [Y1 Y2]. split; [exact M | split; [rewrite Y2 by exact O2; reflexivity | split; [lia | auto]]].
          - destruct M as (b & -> & M1 & M2). exists b. split; [reflexivity | split; [exact M1 | split; [lia | right; split; [discriminate | lia]]]]. }
        destruct X as (b & -> & Xc & Xn & Xo). cbn [append_value] in E. pose proof A as (A1 & A2 & _).
        assert (Sub : forall z, In z (objs (Some (VList l))) -> In z (objs (Some (VList (v :: l))))) by (intros z Hz; cbn [objs flat_map]; apply in_or_app; right; exact Hz).
        assert (Ol : forall z, In z (objs (Some (VList l))) -> (z < h_next h0)%nat).
        { intros z Hz. cbn [objs] in Hz. apply in_flat_map in Hz. destruct Hz as (u & Hu & Hz). destruct u; try destruct Hz as []; [| contradiction]. subst.
          destruct (Hl _ (or_intror Hu)) as (_ & _ & Du). inversion Du; subst. assumption. }
        assert (Nb : ~ In b ys0).
        { intros Hb. destruct (H0 b Hb) as [Y1 Y2]. destruct Xo as [[-> _] | [_ Xo]]; [apply Y2; left; reflexivity | lia]. }
        assert (Nl : ~ In b (objs (Some (VList l)))).
        { intros Hb. destruct Xo as [[-> _] | [_ Xo]]; [cbn [objs flat_map] in Nd; inversion Nd; contradiction |]. apply Ol in Hb. destruct Si as [Y _]. lia. }
        change (map VObj ys0 ++ [VObj b]) with (map VObj ys0 ++ map VObj [b]) in E. rewrite <- map_app in E.
        destruct (IHl (i + 1)%Z (ys0 ++ [b]) w2 y w') as (B & ys & Y1 & Y2 & Y3 & Y4); try exact E.
        + intros u Hu. apply Hl. right. exact Hu.
        + cbn [objs flat_map] in Nd. destruct v; try exact Nd. inversion Nd; assumption.
        + exact A1.
        + exact (grow_trans _ _ _ Si A2).
        + apply NoDup_Add with (a := b) (l := ys0); [| split; assumption]. rewrite <- (app_nil_r ys0) at 1. apply Add_app.
        + intros z Hz. apply in_app_or in Hz. destruct Hz as [Hz | [<- | []]]; [| auto]. destruct (H0 z Hz) as [Z1 Z2]. split; [destruct A2; lia | intros X; apply Z2, Sub, X].
        + split; [apply (goes_trans N w w2 w' A B) |]. exists (b :: ys). rewrite <- app_assoc in Y1, Y2. split; [exact Y1 | split; [exact Y2 | split; [cbn; lia |]]].
          destruct B as (_ & [B1 B2] & _). intros z [<- | Hz].
          * split; [rewrite B2 by exact Xn; exact Xc | split; [lia |]]. destruct Xo as [[-> _] | [_ Xo]]; [left; left; reflexivity | right; exact Xo].
          * destruct (Y4 z Hz) as (Z1 & Z2 & Z3). split; [exact Z1 | split; [exact Z2 |]]. destruct Z3 as [Z3 | Z3]; [left; apply Sub, Z3 | right; destruct A2; lia].
    Qed.
  End Items.

  Theorem all_go n : types_go n.
  Proof.
    induction n as [n IH] using lt_wf_ind. intros N ts s c w y w' Sh Cf Co Dv F Si E. destruct s as [| cl | cl].
    - split; [apply (data_goes n N ts c w y w' Sh Cf F E) | exact Logic.I].
    - apply (one_goes n N cl ts c w y w' IH Sh Cf Co Dv F Si E).
    - destruct Sh as (before & raw & after & it & -> & B & Ei & Oc).
      destruct (around n before (MListOf raw) after c w y w' B ltac:(split; intros [X | []]; discriminate X) E) as (k & -> & G). clear E.
      cbn [interp modif_of m_transform transform_of] in G. unfold col_transform in G. rewrite <- Cf in Ei.
      remember (c_val c) as v eqn:Ev. destruct v as [| | | | | | | | l | | |]; try (exfalso; inversion Dv; fail).
      + injection G as <- <-. split; [apply goes_refl, F |]. cbn [made]. destruct (f_collection_null _); auto.
      + inversion Dv as [| | | | ? ? Hl Nd]; subst. cbn [col_items] in G.
        destruct (list_goes k ltac:(intros j Lj; apply IH; lia) N cl it c (VList l) Oc Ei l 0%Z [] w y w' Hl Nd F Si (NoDup_nil _) ltac:(intros b []) G) as (A & ys & Y1 & Y2 & Y3 & Y4).
        split; [exact A |]. exists ys. auto.
  Qed.

  (** ** The links of the object the input is for *)
  Section Own.
    Context (n : nat) (o : oid) (d : cdef) (m : list (string * value)) (c : ctx).
    Notation cls := (ra_class R).
    Notation f0 := (ra_field R).
    Hypothesis Ed : ct cls = Some d.
    Hypothesis En : entries d m.
    Hypothesis U : forall b, ~ old b.
    Hypothesis Two : ra_class R <> rb_class R.
    Notation here := (here o cls).
    Definition linked (rs : list oid) (w : world) : Prop := forall b, In b (refs (w_heap w) o f0) <-> In b rs.

    Lemma linked_goes rs w w' : here w -> goes (h_next (w_heap w)) w w' -> linked rs w -> linked rs w'.
    Proof.
      intros (F & Si & L & C) (_ & _ & K) H b. rewrite <- (H b). apply (K U (le_n _) (below_next P D R PL RO _ F) true o b L C).
    Qed.
    Lemma here_next w w' : here w -> goes (h_next (w_heap w)) w w' -> here w'.
    Proof.
      intros (F & Si & L & C) (F' & G & _). split; [exact F' | split; [apply (grow_trans _ _ _ Si G) |]]. destruct G as [G1 G2].
      split; [lia | rewrite G2 by exact L; exact C].
    Qed.
    Lemma linked_set rs w f v w' : here w -> In f (cd_fields d) -> fl_name f <> fl_name f0 -> is_calc f = false -> right (w_heap w) f v ->
      setattr P o (fl_name f) v w = (Ok tt, w') -> linked rs w -> linked rs w'.
    Proof.
      intros (F & Si & L & C) Hf Nf Kc Rv E H. unfold setattr, liftH in E.
      destruct (ObjModel.run _ _ _ _ _ _ _ (w_heap w)) as [r h] eqn:Hr. injection E as -> <-.
      assert (Ef : ofield ct (w_heap w) o (fl_name f) = Some f).
      { unfold ofield, cdef_of. rewrite C, Ed. apply field_named_in; [apply (wf_names _ _ _ (pl_wf _ _ PL _ _ Ed)) | exact Hf]. }
      destruct (step_set P D R PL RO NK _ o _ f v h F Ef Kc Rv Hr) as (_ & _ & _ & Out & _ & _).
      intros b. rewrite <- (H b). cbn [set_heap w_heap]. change f0 with (ra_field (side R true)). rewrite Out; [reflexivity | | exact C].
      destruct (side_or_not P D R PL RO (w_heap w) o (fl_name f) f Ef) as [(s & Cs & Es) | X]; [| exact X].
      destruct s; [contradiction (Nf Es) | rewrite C in Cs; contradiction (Two Cs)].
    Qed.
    Lemma linked_take rs s f c0 w y w1 w2 : here w -> In f (cd_fields d) -> fl_name f <> fl_name f0 -> shaped D f s -> c_fdef c0 = fl_fdef f -> c_original c0 = VNone ->
      describes s (c_val c0) -> t_transform (interp P n) (fl_types f) c0 w = (Ok y, w1) ->
      (if is_calc f then w2 = w1 else setattr P o (fl_name f) y w1 = (Ok tt, w2)) -> linked rs w -> linked rs w2.
    Proof.
      intros H Hf Nf Sf Cf Co Dv E1 E2 K. pose proof H as (F & Si & L & C).
      destruct (all_go n (h_next (w_heap w)) _ s c0 w y w1 (sh_chain _ _ _ Sf) Cf Co Dv F Si E1) as [G1 M].
      pose proof (linked_goes rs w w1 H G1 K) as K1. destruct (is_calc f) eqn:Kc; [subst w2; exact K1 |].
      apply (linked_set rs w1 f y w2 (here_next _ _ H G1) Hf Nf Kc); [| exact E2 | exact K1].
      apply (made_right w w1 f s (c_val c0)); try assumption. apply G1.
    Qed.
    Lemma linked_default rs f w w' : here w -> In f (cd_fields d) -> fl_name f <> fl_name f0 -> is_calc f = false ->
      fill_default P (interp P n) f o c w = (Ok tt, w') -> linked rs w -> linked rs w'.
    Proof.
      intros H Hf Nf Kc E K. destruct (pl_shapes _ _ PL _ _ _ Ed Hf) as (s & Sf). unfold fill_default in E. destruct (fl_default f) eqn:Df;
        try (apply (linked_set rs w f _ w' H Hf Nf Kc) in E; [exact E | | exact K]; intros Rf; destruct (sh_ref _ _ _ Sf Rf) as [X _]; rewrite Df in X; discriminate X).
      step E e w1 G1. apply NestProofs.ekey_same in G1. subst w1. step E k1 w1 G1. injection G1 as <- <-. step E y w1 G1.
      apply (linked_take rs s f _ w y w1 w' H Hf Nf Sf) in G1; [exact G1 | reflexivity | reflexivity | constructor | rewrite Kc; exact E | exact K].
    Qed.
    Lemma linked_field rs acc f w acc' w' : here w -> In f (cd_fields d) -> fl_name f <> fl_name f0 -> fill_field P (interp P n) c m o false acc f w = (Ok acc', w') ->
      linked rs w -> linked rs w'.
    Proof.
      intros H Hf Nf E K. destruct (pl_shapes _ _ PL _ _ _ Ed Hf) as (s & Sf). inversion En as [? ? Ks Kd]; subst.
      unfold fill_field in E. destruct (has_field_value f m) eqn:Hv.
      - step E ok w1 G. assert (w1 = w) as ->.
        { unfold may_write in G. destruct (f_write_rule (fl_fdef f)); try (injection G as _ <-; reflexivity).
          step G cur w2 G2. apply NestProofs.getattr_same in G2. injection G as _ <-. exact G2. }
        step E u w1 G1. injection E as <- <-. destruct ok.
        + step G1 e w2 G2. apply NestProofs.ekey_same in G2. subst w2. step G1 k1 w2 G2. injection G2 as <- <-. step G1 y w2 G2.
          apply (linked_take rs s f _ w y w2 w1 H Hf Nf Sf) in G2; try reflexivity; [exact G2 | apply Kd; assumption | | exact K].
          destruct (is_calc f); [injection G1 as _ <-; reflexivity | destruct u; exact G1].
        + destruct (g_fill (c_cfg c) && negb (is_calc f)) eqn:X; [| injection G1 as _ <-; exact K].
          apply andb_true_iff in X. destruct X as [_ X]. apply negb_true_iff in X. destruct u. apply (linked_default rs f w w1 H Hf Nf X G1 K).
      - unfold absent_field in E. destruct (is_ref (fl_fdef f)) eqn:Rf.
        + step E u w1 G. injection E as <- <-. destruct (is_local f) eqn:Lf; [| injection G as _ <-; exact K]. destruct (Ks f Hf Lf) as [K1 K2]. rewrite K1, K2 in G.
          injection G as _ <-. exact K.
        + step E u w1 G. injection E as <- <-.
          destruct (g_fill (c_cfg c) && negb false && negb (is_calc f)) eqn:X; [| injection G as _ <-; exact K].
          apply andb_true_iff in X. destruct X as [_ X]. apply negb_true_iff in X. destruct u. apply (linked_default rs f w w1 H Hf Nf X G K).
    Qed.
    Lemma goes0 w w' : here w -> goes 0%nat w w' -> here w'.
    Proof.
      intros (F & Si & L & C) (F' & G & _). split; [exact F' | split; [apply (grow_trans _ _ _ Si G) |]]. destruct G as [G1 G2].
      split; [lia | rewrite G2 by exact L; exact C].
    Qed.
    Notation lists := (lists d).
    Lemma linked_fold rs : forall fs acc w acc' w', incl fs (cd_fields d) -> (forall f, In f fs -> fl_name f <> fl_name f0) -> here w -> lists acc -> ~ In (fl_name f0) acc ->
      fold_st (fill_field P (interp P n) c m o false) fs acc w = (Ok acc', w') -> lists acc' /\ ~ In (fl_name f0) acc' /\ here w' /\ goes 0%nat w w' /\ (linked rs w -> linked rs w').
    Proof.
      induction fs as [| f fs IHf]; intros acc w acc' w' Hi Hn H La Na E.
      - injection E as <- <-. split; [exact La | split; [exact Na | split; [exact H | split; [apply goes_refl, H | auto]]]].
      - cbn [fold_st] in E. step E a w1 G. pose proof (Hi f (or_introl eq_refl)) as Hf. pose proof (Hn f (or_introl eq_refl)) as Nf.
        destruct (field_goes n (all_go n) o cls d m 0%nat Ed En (Nat.le_0_l _) c false acc f w a w1 H Hf G) as [G1 Q].
        destruct (IHf a w1 acc' w' (fun x Hx => Hi x (or_intror Hx)) (fun x Hx => Hn x (or_intror Hx)) (goes0 _ _ H G1)) as (L2 & N2 & H2 & G2 & K2); [| | exact E |].
        + destruct Q as [-> | (-> & Q1 & Q2)]; [exact La |]. intros k Hk. apply in_app_or in Hk. destruct Hk as [Hk | [<- | []]]; [apply La, Hk |].
          exists f. auto.
        + destruct Q as [-> | (-> & _)]; [exact Na |]. intros X. apply in_app_or in X. destruct X as [X | [X | []]]; auto.
        + split; [exact L2 | split; [exact N2 | split; [exact H2 | split; [apply (goes_trans 0%nat _ _ _ G1 G2) |]]]].
          intros K. apply K2, (linked_field rs acc f w a w1 H Hf Nf G K).
    Qed.
    Lemma linked_empties rs : forall acc w u w', here w -> lists acc -> ~ In (fl_name f0) acc ->
      for_st acc (fun k => do* cur <- getattr P o k; if is_none cur then setattr P o k (VList []) else ret tt) w = (Ok u, w') -> linked rs w -> linked rs w'.
    Proof.
      induction acc as [| k acc IHa]; intros w u w' H La Na E K.
      - injection E as _ <-. exact K.
      - cbn [for_st] in E. step E u1 w1 G. destruct (La k (or_introl eq_refl)) as (f & Hf & Ek & Rf & Lf). subst k.
        assert (G1 : goes 0%nat w w1 /\ linked rs w1).
        { step G cur w2 G2. apply NestProofs.getattr_same in G2. subst w2. destruct (is_none cur); [| injection G as _ <-; split; [apply goes_refl, H | exact K]].
          assert (Rg : right (w_heap w) f (VList [])).
          { intros _. destruct (pl_shapes _ _ PL _ _ _ Ed Hf) as (s & Sf). destruct (sh_ref _ _ _ Sf Rf) as [_ Q]. unfold is_list_field in Lf. unfold is_list_type.
            destruct s as [| cl | cl]; [destruct Q | |]; destruct Q as [Tf _]; rewrite Tf in *; [discriminate Lf |].
            split; [left; reflexivity |]. right. exists []. split; [reflexivity | split; [constructor | intros b []]]. }
          destruct u1. split.
          - destruct H as (F & Si & L & C). apply (setattr_goes 0%nat w o cls d f (VList []) w1 F Ed Hf C (ref_calc f Rf) Rg (Nat.le_0_l _) ltac:(intros _ _ b []) G).
          - apply (linked_set rs w f (VList []) w1 H Hf); [intros X; apply Na; left; exact X | apply ref_calc, Rf | exact Rg | exact G | exact K]. }
        apply (IHa w1 u w' (goes0 _ _ H (proj1 G1))); [intros k' Hk; apply La; right; exact Hk | intros X; apply Na; right; exact X | exact E | apply G1].
    Qed.

    Hypothesis Wr : f_write_rule (fl_fdef f0) = WriteUnlimited.
    Hypothesis Gv : get_field_value f0 m <> VNone.
    Lemma own_field acc w acc' w' : here w -> fill_field P (interp P n) c m o false acc f0 w = (Ok acc', w') ->
      acc' = acc /\ goes 0%nat w w' /\ exists rs, linked rs w' /\ NoDup rs /\ List.length rs = described_objects (get_field_value f0 m) /\
        forall b, In b rs -> (h_next (w_heap w) <= b < h_next (w_heap w'))%nat /\ o_class (h_obj (w_heap w') b) = rb_class R.
    Proof.
      intros H E. destruct (ro_a _ _ RO) as [(d' & Ed' & Hf) Rf _ Fc _ _]. rewrite Ed in Ed'. injection Ed' as <-.
      destruct (pl_shapes _ _ PL _ _ _ Ed Hf) as (s & Sf). inversion En as [? ? Ks Kd]; subst. specialize (Kd f0 s Hf Sf).
      destruct (field_goes n (all_go n) o cls d m 0%nat Ed En (Nat.le_0_l _) c false acc f0 w acc' w' H Hf E) as [G0 _].
      unfold fill_field in E.
      assert (Hv : has_field_value f0 m = true).
      { unfold has_field_value, smem, dmem. change (dget String.eqb (fl_json f0) m) with (sget (fl_json f0) m). change (dget String.eqb (fl_name f0) m) with (sget (fl_name f0) m). unfold get_field_value, get_or_none in Gv. destruct (sget (fl_json f0) m); [reflexivity |]. destruct (sget (fl_name f0) m); [reflexivity | contradiction Gv; reflexivity]. }
      rewrite Hv in E. unfold may_write in E. rewrite Wr in E. step E ok w1 G. injection G as <- <-. step E u w1 G1. injection E as <- <-.
      split; [reflexivity | split; [exact G0 |]].
      step G1 e w2 G2. apply NestProofs.ekey_same in G2. subst w2. step G1 k1 w2 G2. injection G2 as <- <-. step G1 y w2 G2.
      rewrite (ref_calc _ Rf) in G1. destruct u. pose proof H as (F & Si & L & C).
      match type of G2 with t_transform _ _ ?c0 _ = _ =>
        destruct (all_go n (h_next (w_heap w)) (fl_types f0) s c0 w y w2 (sh_chain _ _ _ Sf) eq_refl eq_refl Kd F Si G2) as [G3 M] end. cbn [nextvo c_val] in M.
      pose proof (here_next _ _ H G3) as (F3 & Si3 & L3 & C3).
      pose proof (made_right w w2 f0 s _ y Sf Kd Si (proj1 (proj2 G3)) M) as Rv.
      unfold setattr, liftH in G1. destruct (ObjModel.run _ _ _ _ _ _ _ (w_heap w2)) as [r h] eqn:Hr. injection G1 as -> <-.
      assert (Ef : ofield ct (w_heap w2) o (fl_name f0) = Some f0).
      { unfold ofield, cdef_of. rewrite C3, Ed. apply field_named_in; [apply (wf_names _ _ _ (pl_wf _ _ PL _ _ Ed)) | exact Hf]. }
      destruct (step_set P D R PL RO NK _ o _ f0 y h F3 Ef (ref_calc _ Rf) Rv Hr) as (_ & Cl & Nx & _ & On & _).
      specialize (On true C3 eq_refl). change (ra_field (side R true)) with f0 in On.
      exists (objs (Some y)). split; [intros b; cbn [set_heap w_heap]; rewrite On; reflexivity |].
      cbn [set_heap w_heap]. rewrite Nx. destruct (sh_ref _ _ _ Sf Rf) as [_ K].
      assert (Mk : NoDup (objs (Some y)) /\ List.length (objs (Some y)) = described_objects (get_field_value f0 m) /\
        forall b, In b (objs (Some y)) -> (h_next (w_heap w) <= b < h_next (w_heap w2))%nat /\ o_class (h_obj (w_heap w2) b) = rb_class R).
      { clear Wr Hr On Rv G2 G0 Hv. revert Kd Gv M. generalize (get_field_value f0 m). intros v Kd Gv M.
        destruct s as [| cl | cl]; [destruct K | |]; destruct K as [_ K]; rewrite Fc in K; injection K as <-; inversion Kd as [| | ? b O1 | ? m1 Dm | ? l Hl Nd]; subst.
        - contradiction Gv. reflexivity.
        - contradiction (U _ O1).
        - destruct M as (b & -> & M1 & M2). cbn. split; [constructor; [intros [] | constructor] | split; [reflexivity |]]. intros z [<- | []]. auto.
        - contradiction Gv. reflexivity.
        - destruct M as (ys & -> & M1 & M2 & M3). rewrite objs_list. split; [exact M1 | split; [exact M2 |]]. intros b Hb. destruct (M3 b Hb) as (X1 & X2 & X3).
          split; [| exact X1]. split; [| exact X2]. destruct X3 as [X3 | X3]; [| exact X3]. destruct (old_objects _ l Kd b X3) as [Y _]. contradiction (U _ Y). }
      destruct Mk as (M1 & M2 & M3). split; [exact M1 | split; [exact M2 |]]. intros b Hb. destruct (M3 b Hb) as [X1 X2]. split; [exact X1 | rewrite Cl; exact X2].
    Qed.
    Lemma own_rest w y w' : here w -> NestProofs.fill_rest P n o d c m w = (Ok y, w') ->
      fine w' /\ exists rs, linked rs w' /\ NoDup rs /\ List.length rs = described_objects (get_field_value f0 m) /\
        forall b, In b rs -> (h_next (w_heap w) <= b < h_next (w_heap w'))%nat /\ o_class (h_obj (w_heap w') b) = rb_class R.
    Proof.
      intros H E. destruct (ro_a _ _ RO) as [(d' & Ed' & Hf) Rf _ Fc _ _]. rewrite Ed in Ed'. injection Ed' as <-.
      pose proof (wf_names _ _ _ (pl_wf _ _ PL _ _ Ed)) as Nd. destruct (in_split _ _ Hf) as (pre & post & Sp).
      unfold NestProofs.fill_rest in E. step E acc w1 G. rewrite Sp in G, Nd. rewrite fold_st_app in G. step G a1 w2 G1. cbn [fold_st] in G. step G a2 w3 G2.
      rewrite map_app in Nd. cbn [map] in Nd. pose proof (NoDup_remove_2 _ _ _ Nd) as Nf.
      assert (Np : forall f, In f pre -> fl_name f <> fl_name f0) by (intros f X Y; apply Nf; rewrite <- Y; apply in_or_app; left; apply in_map, X).
      assert (Nq : forall f, In f post -> fl_name f <> fl_name f0) by (intros f X Y; apply Nf; rewrite <- Y; apply in_or_app; right; apply in_map, X).
      destruct (linked_fold [] pre [] w a1 w2) as (L1 & N1 & H1 & T1 & _); try assumption; [rewrite Sp; intros f X; apply in_or_app; left; exact X | intros k [] | intros [] |].
      destruct (own_field a1 w2 a2 w3 H1 G2) as (-> & T2 & rs & K & Rn & Rl & Rb). pose proof (goes0 _ _ H1 T2) as H2.
      destruct (linked_fold rs post a1 w3 acc w1) as (L3 & N3 & H3 & T3 & K3); try assumption; [rewrite Sp; intros f X; apply in_or_app; right; right; exact X |].
      step E u w4 G4. injection E as <- <-.
      pose proof (linked_empties rs acc w1 u w4 H3 L3 N3 G4 (K3 K)) as K4.
      assert (T4 : goes 0%nat w1 w4) by (eapply empties_goes; [exact Ed | apply Nat.le_0_l | exact H3 | exact L3 | exact G4]).
      split; [apply T4 |]. exists rs. split; [exact K4 | split; [exact Rn | split; [exact Rl |]]]. intros b Hb. destruct (Rb b Hb) as [X1 X2].
      destruct T1 as (_ & [T1 _] & _). destruct T3 as (_ & [T3 T3'] & _). destruct T4 as (_ & [T4 T4'] & _). split; [lia |].
      rewrite T4', T3' by lia. exact X2.
    Qed.
  End Own.

  (** ** The API *)
  Lemma construct_goes n N cls d kw w o w' : ct cls = Some d -> entries d kw -> fine w -> since w -> Forall (fun kv => plain (fst kv)) kw -> (N <= h_next (w_heap w))%nat ->
    construct P n cls kw w = (Ok o, w') -> goes N w w' /\ o = h_next (w_heap w) /\ (o < h_next (w_heap w'))%nat /\ o_class (h_obj (w_heap w') o) = cls.
  Proof.
    intros Ed En F Si Pl L E. destruct (plain_args kw Pl) as [E1 E2]. unfold construct in E. rewrite E1, E2 in E. step E x w1 G. cbn [keypath_set for_st] in E.
    step E u w2 G2. injection G2 as _ <-. step E u2 w2 G2. injection E as <- <-. destruct u2. apply put_heap in G2. destruct G2 as [Q1 Q2].
    destruct (create_goes n N cls d kw w x w1 (fun k _ => all_go k) Ed En F Si L G) as (A & B & C & X). split; [apply (goes_same N w w1 w2 Q1 Q2 A) |].
    rewrite Q1, Q2. auto.
  Qed.
  Lemma construct_links n d kw w o w' : ct (ra_class R) = Some d -> entries d kw -> fine w -> since w -> Forall (fun kv => plain (fst kv)) kw ->
    (forall b, ~ old b) -> ra_class R <> rb_class R -> f_write_rule (fl_fdef (ra_field R)) = WriteUnlimited -> get_field_value (ra_field R) kw <> VNone ->
    construct P n (ra_class R) kw w = (Ok o, w') ->
    List.length (refs (w_heap w') o (ra_field R)) = described_objects (get_field_value (ra_field R) kw) /\
    forall b, In b (refs (w_heap w') o (ra_field R)) -> (o < b < h_next (w_heap w'))%nat /\ o_class (h_obj (w_heap w') b) = rb_class R /\ In o (refs (w_heap w') b (rb_field R)).
  Proof.
    intros Ed En F Si Pl U Two Wr Gv E. destruct (construct_goes n 0%nat _ d kw w o w' Ed En F Si Pl (Nat.le_0_l _) E) as ((Fi & _) & Eo & Lo & Co).
    destruct (plain_args kw Pl) as [E1 E2]. unfold construct in E. rewrite E1, E2 in E. step E x w1 G. cbn [keypath_set for_st] in E.
    step E u w2 G2. injection G2 as _ <-. step E u2 w2 G2. injection E as <- <-. destruct u2. apply put_heap in G2. destruct G2 as [Q1 Q2].
    destruct (create_steps n 0%nat _ d kw w x w1 Ed F Si (Nat.le_0_l _) G) as (k & c & wi & y & wb & -> & Gi & H & _ & Eh & Cv & Cor & Ci & Et).
    destruct (root_steps k _ d x kw c wi y wb Ed (proj2 (proj2 (proj2 H))) Cv Cor Ci Et) as (w3 & Eh3 & Er).
    destruct (own_rest k x d kw c Ed En U Two Wr Gv w3 y wb) as (_ & rs & K & Rn & Rl & Rb); [unfold here; rewrite Eh3; exact H | exact Er |].
    assert (Re : forall z f, refs (w_heap w2) z f = refs (w_heap wb) z f) by (intros z f; unfold refs, attr; rewrite Q1, Eh; reflexivity).
    assert (Rg : forall b, In b (refs (w_heap w2) x (ra_field R)) <-> In b rs) by (intros b; rewrite Re; apply K).
    assert (Nd : NoDup (refs (w_heap w2) x (ra_field R))) by (apply (sf_once _ _ _ (co_a _ _ (sd_agree _ _ _ Fi))), Co).
    split.
    - rewrite <- Rl. apply Nat.le_antisymm; apply NoDup_incl_length; try assumption; intros b Hb; apply Rg, Hb.
    - intros b Hb. destruct (Rb b (proj1 (Rg b) Hb)) as [X1 X2]. rewrite Eh3 in X1. rewrite Q1, Q2, Eh. destruct H as (_ & _ & Lx & _).
      split; [lia | split; [exact X2 |]]. assert (Cb : o_class (h_obj (w_heap w2) b) = rb_class R) by (rewrite Q1, Eh; exact X2).
      apply (co_sym _ _ (sd_agree _ _ _ Fi) x b Co Cb), Hb.
  Qed.
  Lemma set_goes n o cls d kw w w' : ct cls = Some d -> entries d kw -> fine w -> since w -> Forall (fun kv => plain (fst kv)) kw ->
    (o < h_next (w_heap w))%nat -> o_class (h_obj (w_heap w) o) = cls -> jset P n o kw w = (Ok tt, w') -> goes 0%nat w w'.
  Proof.
    intros Ed En F Si Pl L C E. destruct (plain_args kw Pl) as [E1 E2]. unfold jset in E. rewrite E1, E2 in E. step E u w1 G. cbn [keypath_set for_st] in E.
    injection E as <-. unfold set_fields in G. step G k1 w2 G1. injection G1 as <- <-. unfold set_with in G. step G k1 w2 G1. injection G1 as <- <-. step G op w2 G1. injection G1 as <- <-.
    step G y w2 G1. injection G as _ <-. unfold with_new_mgraph in G1. unfold self_mod in G1.
    change (wclass w o) with (o_class (h_obj (w_heap w) o)) in G1. rewrite C in G1.
    destruct (m_transform (interp P n (MInstance cls)) _ (set_mg [] w)) as [r wb] eqn:Et. injection G1 as -> <-.
    destruct n as [| n]; [discriminate Et |]. cbn [interp modif_of m_transform transform_of] in Et.
    apply (root_goes n 0%nat cls d o kw) in Et; try assumption; try reflexivity; [| apply all_go | lia | split; [exact F | split; [exact Si | split; [exact L | exact C]]]].
    apply (goes_eq 0%nat wb w _ eq_refl). apply (goes_from 0%nat w (set_mg [] w) wb eq_refl), Et.
  Qed.
End Io.
