(** TripProofs.v -- lemmas for C90. *)
From Coq Require Import Lia.
From Verif Require Import Base Mon PyList PyDict StrDict KeypathModel Values CalModel ChainModel
  TypesModel ObjModel ObjSpec IoModel IoBase OutSpec OutProofs OutFormSpec OutFormProofs WriteSpec MakeSpec SetInSpec RoundSpec RoundProofs InitProofs NestSpec TripSpec.
From Verif Require LeafModel.
Open Scope list_scope.

Lemma beside_leaves v l : v <> VNone -> Forall beside l -> Forall (leaves_alone v) l.
Proof. intros N. apply Forall_impl. intros m [H | (p & ->)]; [left; exact H | right; eauto]. Qed.
Lemma eqv_none P h y : eqv (p_oeq P) h y VNone = true -> y = VNone.
Proof.
  destruct y; try discriminate; try reflexivity. cbn. match goal with |- context [match ?q with Some _ => _ | None => _ end] => destruct q end; discriminate.
Qed.
Lemma becomes_none P y z : becomes P VNone y z -> z = y.
Proof. intros [-> | (-> & h & E)]; [reflexivity |]. symmetry. exact (eqv_none _ _ _ E). Qed.
Lemma becomes_obj P g q c o z : empty_default P g -> default_of P q g c -> becomes P c (VObj o) z -> z = VObj o.
Proof.
  intros E D [-> | (-> & h & B)]; [reflexivity |]. destruct (E _ _ D) as [-> | [-> | ->]]; discriminate B.
Qed.
Lemma becomes_list P g q c l z : empty_default P g -> default_of P q g c -> becomes P c (VList l) z -> z = VList l.
Proof.
  intros E D [-> | (-> & h & B)]; [reflexivity |]. destruct (E _ _ D) as [-> | [-> | ->]]; try discriminate B.
  destruct l; [reflexivity | discriminate B].
Qed.
Lemma becomes_dict P g q c m z : empty_default P g -> default_of P q g c -> becomes P c (VDict m) z -> z = VDict m.
Proof.
  intros E D [-> | (-> & h & B)]; [reflexivity |]. destruct (E _ _ D) as [-> | [-> | ->]]; try discriminate B.
  destruct m; [reflexivity | discriminate B].
Qed.
Lemma no_default_body P g : no_default P g -> fl_default g = VNone.
Proof. intros H. specialize (H 0%nat (fl_default g)). unfold default_of in H. destruct (fl_default g); auto. Qed.

Section Trip.
  Context (P : program) (h : heap) (x : oid -> ext) (op : value) (ig rv : bool) (on : option bool).
  Notation form := (form P h x op ig rv on).
  Notation fields := (fields P h x op ig rv on).
  Notation step := (step P h x op ig rv on).

  (** What the output of an object has for one of its fields *)
  Lemma written p o d es f v :
    p_ct P (o_class (h_obj h o)) = Some d -> NoDup (map fl_name (cd_fields d)) -> In f (cd_fields d) ->
    travels P x ig d o f -> reads P h o (fl_name f) v -> fields p o (cd_fields d) es ->
    exists q j, form q (fl_types f) v j /\
      (j <> VNone -> input_of f (as_dict es) = Some j) /\
      (j = VNone -> (input_of f (as_dict es) = None \/ input_of f (as_dict es) = Some VNone) /\
                    (sget (fl_name f) (as_dict es) = None \/ sget (fl_name f) (as_dict es) = Some VNone)).
  Proof.
    intros Ed Nd Hf [Td Ok V] R Hfs.
    assert (Ec : class_of P h o = d) by (unfold class_of; rewrite Ed; reflexivity).
    destruct (fields_at P h x op ig rv on _ _ _ _ f v Nd Hf (ds_plain _ _ Td) V R Hfs) as (a & b & j & q & -> & Fm & Keys). rewrite Ec.
    assert (Kb : forall k, k = fl_json f \/ k = fl_name f -> ~ In k (map fst a) /\ ~ In k (map fst b)).
    { intros k Ek. split; intros H; destruct (Keys k) as (g & G1 & G2 & G3); auto; destruct (Ok g G1) as [O1 O2]; specialize (O1 G2);
        destruct G3 as [-> | [L ->]]; try specialize (O2 L); destruct Ek; intuition congruence. }
    assert (Get : forall k, k = fl_json f \/ k = fl_name f ->
      sget k (as_dict (a ++ entry (nulls on d) (fl_json f) j ++ b)) = (if String.eqb k (fl_json f) then if nulls on d || negb (is_none j) then Some j else None else None)).
    { intros k Ek. destruct (Kb k Ek) as [Ka Kb']. rewrite app_assoc, as_dict_skip by exact Kb'. unfold entry.
      destruct (nulls on d || negb (is_none j)).
      - rewrite as_dict_snoc, sget_sset. destruct (String.eqb k (fl_json f)); [reflexivity | apply as_dict_none, Ka].
      - rewrite app_nil_r, as_dict_none by exact Ka. destruct (String.eqb k (fl_json f)); reflexivity. }
    exists q, j. split; [exact Fm |].
    unfold input_of. rewrite (Get (fl_json f)), (Get (fl_name f)) by auto. rewrite String.eqb_refl. split.
    - intros Nj. assert (is_none j = false) as -> by (destruct j; try reflexivity; contradiction Nj; reflexivity). rewrite Bool.orb_true_r.
      destruct j; try (destruct (String.eqb (fl_name f) (fl_json f)); reflexivity).
    - intros ->. cbn [is_none negb]. rewrite Bool.orb_false_r. destruct (nulls on d), (String.eqb (fl_name f) (fl_json f)); auto.
  Qed.

  (** ** The forms of objects, lists and dicts *)
  Lemma object_form p cl ts o j : object_types cl ts -> form p ts (VObj o) j ->
    exists es, j = VDict (as_dict es) /\ fields p o (cd_fields (class_of P h o)) es.
  Proof.
    intros (a & b & -> & Ha & Hb) F. apply form_at in F; [| apply beside_leaves; [discriminate | assumption] ..].
    inversion F; subst; try discriminate. eauto.
  Qed.
  Lemma list_form p it ts l j : list_types it ts -> form p ts (VList l) j ->
    exists js, j = VList js /\ Forall2 (fun v j => exists q, form q it v j) l js.
  Proof.
    intros (a & raw & b & -> & Ha & Hb & _ & Hit) F. apply form_at in F; [| apply beside_leaves; [discriminate | assumption] ..].
    inversion F; subst; try discriminate; [| match goal with K : forall _, _ <> _ |- _ => exfalso; eapply K; reflexivity end].
    match goal with H : item_types _ = Some ?y |- _ => rewrite Hit in H; inversion H; subst y; clear H end.
    exists js. split; [reflexivity |]. match goal with H : items _ _ _ _ _ _ _ _ _ _ _ _ |- _ => revert H end. generalize 0%nat. clear.
    revert js. induction l as [| v l IH]; intros js i H; inversion H; subst; constructor; [eauto | eapply IH; eassumption].
  Qed.
  Lemma dict_form p it ts m j : dict_types it ts -> NoDup (map fst m) -> form p ts (VDict m) j ->
    exists js, j = VDict js /\ NoDup (map fst js) /\ Forall2 (fun a b => fst a = fst b /\ exists q, form q it (snd a) (snd b)) m js.
  Proof.
    intros (a & raw & b & -> & Ha & Hb & Hit) Nd F. apply form_at in F; [| apply beside_leaves; [discriminate | assumption] ..].
    inversion F; subst; try discriminate; [| match goal with K : forall _, _ <> _ |- _ => exfalso; eapply K; reflexivity end].
    match goal with H : item_types _ = Some ?y |- _ => rewrite Hit in H; inversion H; subst y; clear H end.
    match goal with H : entries _ _ _ _ _ _ _ _ _ _ _ |- _ => rename H into He end.
    assert (X : map fst es = map fst m /\ Forall2 (fun a b => fst a = fst b /\ exists q, form q it (snd a) (snd b)) m es).
    { clear - He. revert es He. induction m as [| [k v] m IH]; intros es H; inversion H; subst; [split; [reflexivity | constructor] |].
      destruct (IH es0) as [A1 A2]; [assumption |]. split; [cbn; congruence |]. constructor; [cbn; eauto | exact A2]. }
    destruct X as [X1 X2]. rewrite <- X1 in Nd. exists es. rewrite as_dict_distinct by exact Nd. auto.
  Qed.

  Lemma taken g c j : settable P g -> (exists q, default_of P q g c) -> j <> VNone -> takes_now g c j.
  Proof.
    unfold settable, takes_now. intros S0 (q & D) Nj. destruct (f_write_rule (fl_fdef g)); auto. apply (S0 _ _ D).
  Qed.

  (** ** The copy *)
  Context (h' : heap) (N : oid) (fill : bool).
  Hypothesis PN : forall c d, p_ct P c = Some d -> proper_names d.
  Notation built := (built P fill N (is_in h') (has_in h')).
  Notation alike := (alike P h x ig h' N).

  (** One field; [c] is what it held before. *)
  Lemma value_copied q g u j y : kept P (fl_types g) u -> form q (fl_types g) u j -> (exists o, makes_of P o g j y) -> y = u.
  Proof.
    intros K F (o & n & c & w1 & w2 & E1 & _ & E2 & E3 & E4).
    exact (proj1 (b_only _ _ _ _ (proj1 (kept_back_both P h x op ig rv on) _ _ K _ _ F) n c w1 y w2 E1 E2 E3 E4)).
  Qed.
  Lemma none_default q g a y : kept P (fl_types g) VNone -> form q (fl_types g) VNone VNone -> no_default P g -> default_by P a g y -> y = VNone.
  Proof.
    intros K F D B. unfold default_by in B. rewrite (no_default_body _ _ D) in B. destruct B as (n & c & w1 & w2 & E1 & _ & E2 & E3 & E4).
    exact (proj1 (b_only _ _ _ _ (proj1 (kept_back_both P h x op ig rv on) _ _ K _ _ F) n c w1 y w2 E1 E2 E3 E4)).
  Qed.
  Lemma kept_some q ts u j : kept P ts u -> form q ts u j -> u <> VNone -> j <> VNone.
  Proof. intros K F. exact (b_some _ _ _ _ (proj1 (kept_back_both P h x op ig rv on) _ _ K _ _ F)). Qed.

  Lemma built_alike k : forall p ts v j y, form p ts v j -> built k ts j y -> alike k ts v y.
  Proof.
    induction k as [| k IH]; [intros; exact Logic.I |]. intros p ts v j y F (B1 & B2 & B3). split; [| split].
    - intros cl d o Ot -> Ec Ed Kl. destruct (object_form _ _ _ _ _ Ot F) as (es & -> & Fs).
      assert (Ed' : p_ct P (o_class (h_obj h o)) = Some d) by (rewrite Ec; exact Ed).
      assert (Ec' : class_of P h o = d) by (unfold class_of; rewrite Ed'; reflexivity). rewrite Ec' in Fs.
      pose proof (pn_names _ (PN _ _ Ed)) as Nd.
      assert (Uk : unkeyed P d (as_dict es)).
      { unfold unkeyed. unfold keyless in Kl. destruct (primary_field d) as [pf |] eqn:Ep; [| exact Logic.I].
        destruct Kl as (T & Dn & R & K).
        assert (Hp : In pf (cd_fields d)) by (unfold primary_field in Ep; apply List.find_some in Ep; apply in_rev, Ep).
        destruct (written p o d es pf VNone Ed' Nd Hp T R Fs) as (q & jj & Fm & _ & X).
        assert (jj = VNone) as -> by (eapply kept_none; eassumption).
        split; [apply T | split; [apply X; reflexivity | exact Dn]]. }
      destruct (B1 cl d (as_dict es) Ot eq_refl Ed Uk) as (o' & -> & Lo & Io & Hg).
      exists o'. split; [reflexivity | split; [exact Lo | split; [exact Io |]]].
      intros g u Hin T St R. destruct (Hg g Hin (tv_data _ _ _ _ _ _ T)) as (y0 & z & Dy & Hz & Oc).
      exists z. split; [exact Hz |]. destruct (written p o d es g u Ed' Nd Hin T R Fs) as (q & jj & Fm & X1 & X2).
      assert (Dj : jj = VNone \/ jj <> VNone) by (destruct jj; auto; right; discriminate).
      unfold outcome in Oc. split.
      + intros K Dn. destruct Dj as [-> | Nj].
        * assert (u = VNone) as ->.
          { assert (Du : u = VNone \/ u <> VNone) by (destruct u; auto; right; discriminate). destruct Du as [Du | Du]; [exact Du |].
            exfalso. exact (kept_some _ _ _ _ K Fm Du eq_refl). }
          specialize (Dn eq_refl). pose proof (Dn _ _ Dy) as ->.
          assert (Rest : (if fill then exists yy, default_by P VNone g yy /\ becomes P VNone yy z else z = VNone) -> z = VNone).
          { destruct fill; [| auto]. intros (yy & Dd & Bc). apply (none_default _ _ _ _ K Fm Dn) in Dd. subst yy. apply becomes_none in Bc. exact Bc. }
          left. destruct (X2 eq_refl) as [[Ei | Ei] _]; rewrite Ei in Oc; [exact (Rest Oc) |].
          destruct Oc as [(_ & yy & Mk & _ & Bc) | (_ & Oc)]; [| exact (Rest Oc)].
          apply becomes_none in Bc. subst yy. apply (value_copied _ _ _ _ _ K Fm). eauto.
        * rewrite (X1 Nj) in Oc. destruct Oc as [(_ & yy & Mk & _ & Bc) | (Nt & _)]; [| exfalso; apply Nt, taken; eauto].
          pose proof (value_copied _ _ _ _ _ K Fm (ex_intro (fun o0 => makes_of P o0 g jj yy) o' Mk)) as ->. destruct Bc as [-> | (-> & hh & Bc)]; [left; reflexivity | right; exists hh; exact Bc].
      + intros Em.
        assert (Got : jj <> VNone -> exists yy, alike k (fl_types g) u yy /\ becomes P y0 yy z).
        { intros Nj. rewrite (X1 Nj) in Oc. destruct Oc as [(_ & yy & _ & Bt & Bc) | (Nt & _)]; [| exfalso; apply Nt, taken; eauto].
          exists yy. split; [eapply IH; eassumption | exact Bc]. }
        destruct k as [| k]; [exact Logic.I |]. split; [| split].
        * intros cl' d' o1 Ot' -> Ec1 Ed1 Kl1. destruct (object_form _ _ _ _ _ Ot' Fm) as (es' & -> & _).
          destruct (Got ltac:(discriminate)) as (yy & (A & _) & Bc). destruct (A cl' d' o1 Ot' eq_refl Ec1 Ed1 Kl1) as (o2 & -> & A').
          exists o2. split; [exact (becomes_obj _ _ _ _ _ _ Em Dy Bc) | exact A'].
        * intros it l Lt ->. destruct (list_form _ _ _ _ _ Lt Fm) as (js & -> & _).
          destruct (Got ltac:(discriminate)) as (yy & (_ & A & _) & Bc). destruct (A it l Lt eq_refl) as (l' & -> & A').
          exists l'. split; [exact (becomes_list _ _ _ _ _ _ Em Dy Bc) | exact A'].
        * intros it m Dt -> Nm. destruct (dict_form _ _ _ _ _ Dt Nm Fm) as (js & -> & _).
          destruct (Got ltac:(discriminate)) as (yy & (_ & _ & A) & Bc). destruct (A it m Dt eq_refl Nm) as (l' & -> & A').
          exists l'. split; [exact (becomes_dict _ _ _ _ _ _ Em Dy Bc) | exact A'].
    - intros it l Lt ->. destruct (list_form _ _ _ _ _ Lt F) as (js & -> & Fl).
      destruct (B2 it js Lt eq_refl) as (l' & -> & Bl). exists l'. split; [reflexivity |].
      clear - IH Fl Bl. revert l' Bl. induction Fl as [| v j l js (q & Fv) _ IHl]; intros l' Bl; inversion Bl; subst; constructor; eauto.
    - intros it m Dt -> Nm. destruct (dict_form _ _ _ _ _ Dt Nm F) as (js & -> & Nj & Fl).
      destruct (B3 it js Dt eq_refl Nj) as (l' & -> & Bl). exists l'. split; [reflexivity |].
      clear - IH Fl Bl. revert l' Bl. induction Fl as [| v j l js (E & q & Fv) _ IHl]; intros l' Bl; inversion Bl as [| ? ? ? ? [E1 E2]]; subst; constructor; [| eauto].
      split; [congruence | eauto].
  Qed.

  (** A field that is structured has a form that is not None. *)
  Lemma alike_none k p ts u y : form p ts u VNone -> alike k ts u y.
  Proof.
    intros F. destruct k as [| k]; [exact Logic.I |]. split; [| split].
    - intros cl d o Ot -> _ _ _. destruct (object_form _ _ _ _ _ Ot F) as (es & E & _). discriminate E.
    - intros it l Lt ->. destruct (list_form _ _ _ _ _ Lt F) as (js & E & _). discriminate E.
    - intros it m Dt -> Nm. destruct (dict_form _ _ _ _ _ Dt Nm F) as (js & E & _). discriminate E.
  Qed.
End Trip.
