(** EqProofs.v -- [==] decides whether objects have the same content, where it answers. *)
From Coq Require Import QArith Lia.
From Verif Require Import Base Mon PyDict Values TypesModel ObjModel ObjTrack StrDict EqModel EqSpec.
Open Scope nat_scope.
Open Scope list_scope.

Lemma Forall2_length {A B} {R : A -> B -> Prop} {l l'} : Forall2 R l l' -> length l = length l'.
Proof. induction 1; cbn; congruence. Qed.

Ltac kill_plain := match goal with
  | Q : plain (VList _) |- _ => destruct Q | Q : plain (VDict _) |- _ => destruct Q | Q : plain (VObj _) |- _ => destruct Q end.

Section Eq.
  Context (ct : string -> option cdef).
  Context (getter : heap -> Values.oid -> string -> res value).
  Notation same := (same ct getter).
  Notation obj_eq := (obj_eq ct getter).
  Notation fields_of := (fields_of ct getter).
  Notation reads := (reads ct getter).

  (** ** Induction on [same] *)
  Section Ind.
    Context (h : heap) (P : value -> value -> Prop).
    Hypothesis Hp : forall v w, plain v -> plain w -> veq (fun _ _ => false) v w = true -> P v w.
    Hypothesis Hl : forall l l', Forall2 (same h) l l' -> Forall2 P l l' -> P (VList l) (VList l').
    Hypothesis Hd : forall d d', length d = length d' ->
      Forall (fun kv => exists y, sget (fst kv) d' = Some y /\ same h (snd kv) y /\ P (snd kv) y) d ->
      P (VDict d) (VDict d').
    Hypothesis Hs : forall a, P (VObj a) (VObj a).
    Hypothesis Ho : forall a b xs ys, o_class (h_obj h a) = o_class (h_obj h b) ->
      Forall2 (reads h a) (cd_fields (cdef_of ct h a)) xs ->
      Forall2 (reads h b) (cd_fields (cdef_of ct h b)) ys ->
      Forall2 (same h) xs ys -> Forall2 P xs ys -> P (VObj a) (VObj b).

    Fixpoint same_ind2 v w (H : same h v w) {struct H} : P v w :=
      let all := fix all l l' (F : Forall2 (same h) l l') {struct F} : Forall2 P l l' :=
        match F in Forall2 _ l l' return Forall2 P l l' with
        | Forall2_nil _ => Forall2_nil _
        | Forall2_cons x y f r => Forall2_cons x y (same_ind2 x y f) (all _ _ r)
        end in
      match H in EqSpec.same _ _ _ v w return P v w with
      | sm_plain _ _ _ v w p q e => Hp v w p q e
      | sm_list _ _ _ l l' F => Hl l l' F (all l l' F)
      | sm_dict _ _ _ d d' e F =>
          Hd d d' e ((fix go d (F : Forall (fun kv => exists y, sget (fst kv) d' = Some y /\ same h (snd kv) y) d)
            {struct F} : Forall (fun kv => exists y, sget (fst kv) d' = Some y /\ same h (snd kv) y /\ P (snd kv) y) d :=
            match F in Forall _ d return Forall (fun kv => exists y, sget (fst kv) d' = Some y /\ same h (snd kv) y /\ P (snd kv) y) d with
            | Forall_nil _ => Forall_nil _
            | Forall_cons kv f r =>
                Forall_cons kv
                  (match f with
                   | ex_intro _ y (conj g s) => ex_intro _ y (conj g (conj s (same_ind2 (snd kv) y s)))
                   end) (go _ r)
            end) d F)
      | sm_self _ _ _ a => Hs a
      | sm_object _ _ _ a b xs ys c ra rb F => Ho a b xs ys c ra rb F (all xs ys F)
      end.
  End Ind.

  (** ** Reading the fields *)
  Lemma read_all_ok h o fs l : read_all ct getter h o fs = Ok l <-> Forall2 (reads h o) fs l.
  Proof.
    revert l. induction fs as [|f r IH]; intros l; cbn [read_all].
    - split; intros H; [injection H as <-; constructor|inversion H; reflexivity].
    - unfold rbind. split.
      + destruct (fst (getattr ct getter o (fl_name f) h)) as [v|e] eqn:E; [|discriminate].
        destruct (read_all ct getter h o r) as [m|e] eqn:E2; [|discriminate].
        intros H. injection H as <-. constructor; [exact E|]. apply IH. reflexivity.
      + intros H. inversion H as [|? v ? m R F]; subst. unfold EqSpec.reads in R. rewrite R.
        apply IH in F. rewrite F. reflexivity.
  Qed.
  Lemma fields_ok h o l : fields_of h o = Ok l <-> Forall2 (reads h o) (cd_fields (cdef_of ct h o)) l.
  Proof. apply read_all_ok. Qed.

  (** ** Answers are right *)
  Lemma list_go oq l : forall l',
    (fix go (l l' : list value) : res bool :=
                 match l, l' with
                 | x :: r, y :: r' => let* e := veqr oq x y in if e then go r r' else Ok false
                 | _, _ => Ok true
                 end) l l' = tuple_eq oq l l'.
  Proof. induction l as [|x l IH]; intros [|y l']; reflexivity. Qed.

  (** dict comparison with its second operand fixed *)
  Fixpoint dict_eq (oq : Values.oid -> Values.oid -> res bool) (d' d : list (string * value)) : res bool :=
    match d with
    | (k, x) :: r =>
        match sget k d' with
        | Some y => let* e := veqr oq x y in if e then dict_eq oq d' r else Ok false
        | None => Ok false
        end
    | [] => Ok true
    end.
  Lemma veqr_list oq l l' : veqr oq (VList l) (VList l') =
    if Nat.eqb (length l) (length l') then tuple_eq oq l l' else Ok false.
  Proof. cbn [veqr]. rewrite list_go. reflexivity. Qed.
  Lemma veqr_dict oq d d' : veqr oq (VDict d) (VDict d') =
    if Nat.eqb (length d) (length d') then dict_eq oq d' d else Ok false.
  Proof.
    cbn [veqr]. destruct (Nat.eqb (length d) (length d')); [|reflexivity].
    induction d as [|[k x] d IH]; [reflexivity|]. cbn [dict_eq]. destruct (sget k d'); [|reflexivity].
    unfold rbind. destruct (veqr oq x v) as [[]|]; try reflexivity. exact IH.
  Qed.
  Lemma veqr_plain oq v w : plain v -> veqr oq v w = Ok (veq (fun _ _ => false) v w).
  Proof. destruct v; intros P; try destruct P; reflexivity. Qed.
  Lemma veq_plain v w : plain v -> veq (fun _ _ => false) v w = true -> plain w.
  Proof. destruct v; intros P; try destruct P; destruct w; intros H; try exact Logic.I;
    cbn in H; try discriminate H; repeat match type of H with context [match ?x with _ => _ end] => destruct x end; discriminate H. Qed.

  Definition right (h : heap) (oq : Values.oid -> Values.oid -> res bool) : Prop :=
    forall a b, a <> b -> (oq a b = Ok true -> same h (VObj a) (VObj b)) /\
                          (oq a b = Ok false -> ~ same h (VObj a) (VObj b)).

  Lemma tuple_right h oq l : Forall (fun v => forall w, (veqr oq v w = Ok true -> same h v w) /\
                                       (veqr oq v w = Ok false -> ~ same h v w)) l ->
    forall l', length l = length l' ->
    (tuple_eq oq l l' = Ok true -> Forall2 (same h) l l') /\
    (tuple_eq oq l l' = Ok false -> ~ Forall2 (same h) l l').
  Proof.
    induction 1 as [|x l X _ IH]; intros [|y l'] LE; try discriminate LE; cbn [tuple_eq].
    - split; [constructor|discriminate].
    - injection LE as LE. unfold rbind. destruct (X y) as [X1 X2]. destruct (IH l' LE) as [I1 I2].
      destruct (veqr oq x y) as [[]|e]; [| |split; discriminate].
      + split; intros H.
        * constructor; [apply X1; reflexivity|apply I1, H].
        * intros F. inversion F; subst. apply (I2 H). assumption.
      + split; [discriminate|]. intros _ F. inversion F; subst. apply (X2 eq_refl). assumption.
  Qed.

  Lemma veqr_right h oq : right h oq -> forall v w,
    (veqr oq v w = Ok true -> same h v w) /\ (veqr oq v w = Ok false -> ~ same h v w).
  Proof.
    intros R.
    assert (PL : forall v w, plain v -> (veqr oq v w = Ok true -> same h v w) /\ (veqr oq v w = Ok false -> ~ same h v w)).
    { intros v w P. rewrite (veqr_plain oq v w P). split; intros H; injection H as H.
      - apply sm_plain; [exact P|exact (veq_plain v w P H)|exact H].
      - intros S. inversion S; subst; try destruct P. congruence. }
    induction v using value_ind2; intros w; try (apply PL; exact Logic.I).
    - destruct w; try (split; [discriminate|intros _ S; inversion S; subst; kill_plain]).
      rewrite veqr_list. destruct (Nat.eqb (length l) (length l0)) eqn:E.
      + apply Nat.eqb_eq in E. destruct (tuple_right h oq l H l0 E) as [T1 T2]. split; intros Q.
        * apply sm_list, T1, Q.
        * intros S. inversion S; subst; [kill_plain|]. apply (T2 Q). assumption.
      + split; [discriminate|]. intros _ S. inversion S as [? ? P|? ? F| | |]; subst; [destruct P|].
        apply Forall2_length in F. rewrite F, Nat.eqb_refl in E. discriminate E.
    - destruct w; try (split; [discriminate|intros _ S; inversion S; subst; kill_plain]).
      rewrite veqr_dict. destruct (Nat.eqb (length d) (length d0)) eqn:E.
      + apply Nat.eqb_eq in E.
        assert (G : (dict_eq oq d0 d = Ok true -> Forall (fun kv => exists y, sget (fst kv) d0 = Some y /\ same h (snd kv) y) d) /\
                    (dict_eq oq d0 d = Ok false -> ~ Forall (fun kv => exists y, sget (fst kv) d0 = Some y /\ same h (snd kv) y) d)).
        { clear E. induction H as [|[k x] d X _ IH]; cbn [dict_eq].
          - split; [constructor|discriminate].
          - cbn [snd] in X. destruct (sget k d0) as [y|] eqn:G.
            + unfold rbind. destruct (X y) as [X1 X2]. destruct IH as [I1 I2].
              destruct (veqr oq x y) as [[]|e]; [| |split; discriminate].
              * split; intros Q.
                -- constructor; [exists y; split; [exact G|apply X1; reflexivity]|apply I1, Q].
                -- intros F. inversion F; subst. apply (I2 Q). assumption.
              * split; [discriminate|]. intros _ F. inversion F as [|? ? (y' & G' & S)]; subst.
                cbn [fst snd] in *. rewrite G in G'. injection G' as <-. exact (X2 eq_refl S).
            + split; [discriminate|]. intros _ F. inversion F as [|? ? (y' & G' & S)]; subst.
              cbn [fst] in G'. congruence. }
        destruct G as [G1 G2]. split; intros Q.
        * apply sm_dict; [exact E|apply G1, Q].
        * intros S. inversion S; subst; [kill_plain|]. apply (G2 Q). assumption.
      + split; [discriminate|]. intros _ S. inversion S as [? ? P| |? ? L| |]; subst; [destruct P|].
        rewrite L, Nat.eqb_refl in E. discriminate E.
    - destruct w; try (split; [discriminate|intros _ S; inversion S; subst; kill_plain]).
      cbn [veqr]. destruct (Nat.eqb o o0) eqn:E.
      + apply Nat.eqb_eq in E. subst o0. split; [intros _; apply sm_self|discriminate].
      + apply Nat.eqb_neq in E. apply R, E.
  Qed.

  Lemma obj_eq_right h fuel : right h (obj_eq fuel h).
  Proof.
    induction fuel as [|n IH]; intros a b AB; [split; discriminate|]. cbn [EqModel.obj_eq].
    apply Nat.eqb_neq in AB. rewrite AB. apply Nat.eqb_neq in AB.
    destruct (String.eqb (o_class (h_obj h b)) (o_class (h_obj h a))) eqn:C.
    - apply String.eqb_eq in C. unfold rbind.
      destruct (fields_of h a) as [xs|e] eqn:FA; [|split; discriminate].
      destruct (fields_of h b) as [ys|e] eqn:FB; [|split; discriminate].
      apply fields_ok in FA. apply fields_ok in FB.
      assert (LE : length xs = length ys).
      { rewrite <- (Forall2_length FA), <- (Forall2_length FB). unfold cdef_of. rewrite C. reflexivity. }
      assert (AL : Forall (fun v => forall w, (veqr (obj_eq n h) v w = Ok true -> same h v w) /\
                                    (veqr (obj_eq n h) v w = Ok false -> ~ same h v w)) xs).
      { apply Forall_forall. intros v _ w. apply veqr_right, IH. }
      destruct (tuple_right h _ xs AL ys LE) as [T1 T2]. split; intros Q.
      + apply (sm_object ct getter h a b xs ys); auto.
      + intros S. inversion S as [? ? P| | | |? ? xs' ys' CC RA RB F]; subst; [destruct P|congruence|].
        assert (xs' = xs) as ->.
        { apply fields_ok in FA. apply fields_ok in RA. congruence. }
        assert (ys' = ys) as ->.
        { apply fields_ok in FB. apply fields_ok in RB. congruence. }
        exact (T2 Q F).
    - apply String.eqb_neq in C. split; [discriminate|]. intros _ S.
      inversion S as [? ? P| | | |? ? ? ? CC]; subst; [destruct P|congruence|congruence].
  Qed.

  (** ** More fuel does not change an answer *)
  Definition extends (p q : Values.oid -> Values.oid -> res bool) : Prop :=
    forall a b r, p a b = Ok r -> q a b = Ok r.
  Lemma tuple_mono p q l : Forall (fun v => forall w r, veqr p v w = Ok r -> veqr q v w = Ok r) l ->
    forall l' r, tuple_eq p l l' = Ok r -> tuple_eq q l l' = Ok r.
  Proof.
    induction 1 as [|x l X _ IH]; intros [|y l'] r; cbn [tuple_eq]; try (intros H; exact H).
    unfold rbind. destruct (veqr p x y) as [e|] eqn:E; [|discriminate]. rewrite (X _ _ E).
    destruct e; [apply IH|intros H; exact H].
  Qed.
  Lemma veqr_mono p q : extends p q -> forall v w r, veqr p v w = Ok r -> veqr q v w = Ok r.
  Proof.
    intros X. induction v using value_ind2; intros w r; try (intros Q; exact Q).
    - destruct w; try (intros Q; exact Q). rewrite !veqr_list. destruct (Nat.eqb _ _); [|intros Q; exact Q].
      apply tuple_mono. exact H.
    - destruct w; try (intros Q; exact Q). rewrite !veqr_dict. destruct (Nat.eqb _ _); [|intros Q; exact Q].
      induction H as [|[k x] d1 Y _ IH]; cbn [dict_eq]; [intros Q; exact Q|].
      destruct (sget k d0) as [y|]; [|intros Q; exact Q]. unfold rbind.
      destruct (veqr p x y) as [e|] eqn:E; [|discriminate]. cbn [snd] in Y. rewrite (Y _ _ E).
      destruct e; [exact IH|intros Q; exact Q].
    - destruct w; try (intros Q; exact Q). cbn [veqr]. destruct (Nat.eqb _ _); [intros Q; exact Q|apply X].
  Qed.
  Lemma obj_eq_step h fuel : extends (obj_eq fuel h) (obj_eq (S fuel) h).
  Proof.
    induction fuel as [|n IH]; intros a b r; [discriminate|]. 
    change (obj_eq (S (S n)) h a b) with
      (if Nat.eqb a b then Ok true
        else if String.eqb (o_class (h_obj h b)) (o_class (h_obj h a)) then
          let* xs := fields_of h a in let* ys := fields_of h b in tuple_eq (obj_eq (S n) h) xs ys
        else Ok false).
    change (obj_eq (S n) h a b) with
      (if Nat.eqb a b then Ok true
        else if String.eqb (o_class (h_obj h b)) (o_class (h_obj h a)) then
          let* xs := fields_of h a in let* ys := fields_of h b in tuple_eq (obj_eq n h) xs ys
        else Ok false).
    destruct (Nat.eqb a b); [intros Q; exact Q|]. destruct (String.eqb _ _); [|intros Q; exact Q].
    unfold rbind. destruct (fields_of h a); [|intros Q; exact Q]. destruct (fields_of h b); [|intros Q; exact Q].
    apply tuple_mono. apply Forall_forall. intros v _ w r'. apply veqr_mono. exact IH.
  Qed.
  Lemma obj_eq_mono h n m : n <= m -> extends (obj_eq n h) (obj_eq m h).
  Proof.
    induction 1 as [|m _ IH]; intros a b r H; [exact H|]. apply obj_eq_step, IH, H.
  Qed.

  (** ** Objects with the same content are found equal *)
  Lemma tuple_complete h l l' : Forall2 (fun v w => exists n, veqr (obj_eq n h) v w = Ok true) l l' ->
    exists n, tuple_eq (obj_eq n h) l l' = Ok true.
  Proof.
    induction 1 as [|x y l l' (n & X) _ (m & IH)]; [exists 0; reflexivity|].
    exists (n + m). cbn [tuple_eq]. unfold rbind.
    rewrite (veqr_mono _ (obj_eq (n + m) h) (obj_eq_mono h n (n + m) ltac:(lia)) _ _ _ X).
    apply (tuple_mono (obj_eq m h)); [|exact IH]. apply Forall_forall. intros v _ w r.
    apply veqr_mono, obj_eq_mono. lia.
  Qed.
  Lemma same_found h v w : same h v w -> exists n, veqr (obj_eq n h) v w = Ok true.
  Proof.
    revert v w. apply same_ind2.
    - intros v w P _ E. exists 0. rewrite (veqr_plain _ v w P), E. reflexivity.
    - intros l l' F IH. destruct (tuple_complete h l l' IH) as (n & T). exists n.
      rewrite veqr_list, (Forall2_length F), Nat.eqb_refl. exact T.
    - intros d d' L F.
      assert (G : exists n, dict_eq (obj_eq n h) d' d = Ok true).
      { clear L. induction F as [|[k x] d (y & G & _ & (n & X)) _ (m & IH)]; [exists 0; reflexivity|].
        cbn [fst snd] in *. exists (n + m). cbn [dict_eq]. rewrite G. unfold rbind.
        rewrite (veqr_mono _ (obj_eq (n + m) h) (obj_eq_mono h n (n + m) ltac:(lia)) _ _ _ X).
        assert (D : forall p q d d', extends p q -> dict_eq p d' d = Ok true -> dict_eq q d' d = Ok true).
        { clear. intros p q d d' E. induction d as [|[k x] d IH]; cbn [dict_eq]; [intros H; exact H|].
          destruct (sget k d') as [y|]; [|discriminate]. unfold rbind.
          destruct (veqr p x y) as [[]|] eqn:V; try discriminate. rewrite (veqr_mono p q E _ _ _ V). exact IH. }
        apply (D (obj_eq m h)); [apply obj_eq_mono; lia|exact IH]. }
      destruct G as (n & G). exists n. rewrite veqr_dict, L, Nat.eqb_refl. exact G.
    - intros a. exists 0. cbn [veqr]. rewrite Nat.eqb_refl. reflexivity.
    - intros a b xs ys C RA RB F IH. destruct (tuple_complete h xs ys IH) as (n & T).
      exists (S n). cbn [veqr EqModel.obj_eq]. destruct (Nat.eqb a b); [reflexivity|].
      rewrite C, String.eqb_refl. apply fields_ok in RA, RB. unfold rbind. rewrite RA, RB. exact T.
  Qed.
  Lemma eq_same h a b : (exists n, obj_eq n h a b = Ok true) <-> same h (VObj a) (VObj b).
  Proof.
    destruct (Nat.eq_dec a b) as [->|AB].
    - split; intros _; [apply sm_self|]. exists 1. cbn [EqModel.obj_eq]. rewrite Nat.eqb_refl. reflexivity.
    - split.
      + intros (n & H). apply (obj_eq_right h n a b AB). exact H.
      + intros S. destruct (same_found h _ _ S) as (n & V). cbn [veqr] in V. apply Nat.eqb_neq in AB.
        rewrite AB in V. exists n. exact V.
  Qed.

  (** ** An equivalence *)
  Lemma xeq_sym a b : xeq a b = true -> xeq b a = true.
  Proof. destruct a, b; cbn; intros H; try discriminate H; try reflexivity.
    apply Qeq_bool_iff in H. apply Qeq_bool_iff. symmetry. exact H. Qed.
  Lemma xeq_trans a b c : xeq a b = true -> xeq b c = true -> xeq a c = true.
  Proof. destruct a, b; cbn; intros H; try discriminate H; destruct c; cbn; intros K; try discriminate K; try reflexivity.
    apply Qeq_bool_iff in H, K. apply Qeq_bool_iff. transitivity q0; assumption. Qed.
  Lemma date_eqb_eq a b : date_eqb a b = true <->
    d_year a = d_year b /\ d_month a = d_month b /\ d_day a = d_day b.
  Proof. unfold date_eqb. rewrite !Bool.andb_true_iff, !Z.eqb_eq. intuition. Qed.

  Definition num_eq (x y : option xnum) : bool := match x, y with Some a, Some b => xeq a b | _, _ => false end.
  Lemma num_sym x y : num_eq x y = true -> num_eq y x = true.
  Proof. destruct x, y; cbn [num_eq]; intros H; try discriminate H. apply xeq_sym, H. Qed.
  Lemma num_trans x y z : num_eq x y = true -> num_eq y z = true -> num_eq x z = true.
  Proof. destruct x, y; cbn [num_eq]; intros H; try discriminate H. destruct z; [|discriminate]. apply xeq_trans, H. Qed.

  Definition numeric (v : value) : Prop := match v with VBool _ | VInt _ | VFloat _ => True | _ => False end.
  Lemma numeric_some v : numeric v <-> exists x, num_of v = Some x.
  Proof.
    destruct v as [|b|z|f| | | | | | | |]; cbn; split; try (intros []; fail); try (intros [x H]; discriminate H);
      try (intros _; eexists; reflexivity); try (intros _; exact Logic.I).
    intros _. destruct f as [q|[]|]; eexists; reflexivity.
  Qed.
  Lemma numeric_veq v w : numeric v -> veq (fun _ _ => false) v w = num_eq (num_of v) (num_of w).
  Proof. destruct v; intros N; try destruct N; reflexivity. Qed.
  Lemma numeric_other v w : numeric v -> veq (fun _ _ => false) v w = true -> numeric w.
  Proof.
    intros N H. rewrite (numeric_veq v w N) in H. apply numeric_some.
    destruct (num_of v), (num_of w); try discriminate H. eexists; reflexivity.
  Qed.
  Lemma numeric_dec v : numeric v \/ ~ numeric v.
  Proof. destruct v; try (left; exact Logic.I); right; intros []. Qed.

  Lemma plain_sym v w : plain v -> veq (fun _ _ => false) v w = true -> veq (fun _ _ => false) w v = true.
  Proof.
    intros P H. destruct (numeric_dec v) as [N|N].
    - pose proof (numeric_other v w N H) as M. rewrite (numeric_veq v w N) in H.
      rewrite (numeric_veq w v M). apply num_sym, H.
    - destruct v; try (destruct (N Logic.I)); try destruct P; destruct w; cbn [veq] in H |- *; try discriminate H; try reflexivity.
      + apply String.eqb_eq in H. subst. apply String.eqb_refl.
      + apply date_eqb_eq in H. apply date_eqb_eq. intuition.
      + unfold datetime_eqb in *. destruct (t_tz t), (t_tz t0); try discriminate H; apply Z.eqb_eq in H; apply Z.eqb_eq; auto.
      + apply Bool.andb_true_iff in H. destruct H as [A B]. apply String.eqb_eq in A, B. subst.
        rewrite !String.eqb_refl. reflexivity.
      + apply Nat.eqb_eq in H. subst. apply Nat.eqb_refl.
  Qed.
  Lemma plain_trans u v w : plain u -> veq (fun _ _ => false) u v = true -> veq (fun _ _ => false) v w = true ->
    veq (fun _ _ => false) u w = true.
  Proof.
    intros P H K. destruct (numeric_dec u) as [N|N].
    - pose proof (numeric_other u v N H) as M. rewrite (numeric_veq u v N) in H. rewrite (numeric_veq v w M) in K.
      rewrite (numeric_veq u w N). eapply num_trans; eassumption.
    - destruct u; try (destruct (N Logic.I)); try destruct P; destruct v; cbn [veq] in H; try discriminate H;
        destruct w; cbn [veq] in K |- *; try discriminate K; try reflexivity.
      + apply String.eqb_eq in H, K. subst. apply String.eqb_refl.
      + apply date_eqb_eq in H, K. apply date_eqb_eq. intuition congruence.
      + unfold datetime_eqb in *. destruct (t_tz t), (t_tz t0), (t_tz t1); try discriminate H; try discriminate K;
          apply Z.eqb_eq in H, K; apply Z.eqb_eq; congruence.
      + apply Bool.andb_true_iff in H, K. destruct H as [A B], K as [C D]. apply String.eqb_eq in A, B, C, D. subst.
        rewrite !String.eqb_refl. reflexivity.
      + apply Nat.eqb_eq in H, K. subst. apply Nat.eqb_refl.
  Qed.

  Lemma same_trans h u v : same h u v -> forall w, same h v w -> same h u w.
  Proof.
    revert u v. apply (same_ind2 h (fun u v => forall w, same h v w -> same h u w)).
    - intros u v PU PV E w S. inversion S; subst; try (destruct PV; fail).
      apply sm_plain; auto. eapply plain_trans; eauto.
    - intros l l' _ IH w S. inversion S as [? ? P|? m F| | |]; subst; [destruct P|]. apply sm_list.
      clear S. revert m F. induction IH as [|x y l l' X _ IH]; intros m F; inversion F; subst; constructor; auto.
    - intros d d' L IH w S. inversion S as [? ? P| |? m LM F| |]; subst; [destruct P|].
      apply sm_dict; [congruence|]. rewrite Forall_forall in IH, F |- *. intros kv I.
      destruct (IH kv I) as (y & G & _ & X). pose proof (sget_In _ _ _ G) as IN.
      destruct (F _ IN) as (z & GZ & SZ). cbn [fst snd] in *. exists z. split; [exact GZ|apply X, SZ].
    - intros a w S. exact S.
    - intros a b xs ys C RA RB F IH w S. inversion S as [? ? P| | |?|? c ys' zs C' RB' RC F']; subst.
      + destruct P.
      + apply (sm_object ct getter h a b xs ys); assumption.
      + assert (ys' = ys) as -> by (apply fields_ok in RB; apply fields_ok in RB'; congruence).
        apply (sm_object ct getter h a c xs zs); [congruence|exact RA|exact RC|].
        clear - IH F'. revert zs F'. induction IH as [|x y l l' X _ IH]; intros m F; inversion F; subst; constructor; auto.
  Qed.

  Lemma reads_proper h a fs xs : proper_heap ct getter h -> Forall2 (reads h a) fs xs -> Forall proper xs.
  Proof. intros PH. induction 1 as [|f x fs xs R _ IH]; constructor; [exact (PH a _ _ R)|exact IH]. Qed.

  Lemma same_sym h : proper_heap ct getter h -> forall u v, same h u v -> proper u -> proper v -> same h v u.
  Proof.
    intros PH. apply (same_ind2 h (fun u v => proper u -> proper v -> same h v u)).
    - intros u v PU PV E _ _. apply sm_plain; auto. apply plain_sym; assumption.
    - intros l l' _ IH A B. inversion A as [? Q|? A'| |]; subst; [destruct Q|]. inversion B as [? Q|? B'| |]; subst; [destruct Q|].
      apply sm_list. clear A B. induction IH; inversion A'; inversion B'; subst; constructor; auto.
    - intros d d' L IH A B. inversion A as [? Q| |? NA A'|]; subst; [destruct Q|]. inversion B as [? Q| |? NB B'|]; subst; [destruct Q|].
      apply sm_dict; [congruence|]. rewrite Forall_forall in IH, A', B' |- *.
      assert (IN : incl (map fst d') (map fst d)).
      { apply NoDup_length_incl; [exact NA|rewrite !map_length; lia|].
        intros k I. apply in_map_iff in I. destruct I as (kv & <- & I). destruct (IH kv I) as (y & G & _).
        apply sget_In in G. apply in_map_iff. exists (fst kv, y). split; [reflexivity|exact G]. }
      intros [k y] I. cbn [fst snd].
      assert (IK : In k (map fst d)). { apply IN, in_map_iff. exists (k, y). split; [reflexivity|exact I]. }
      apply in_map_iff in IK. destruct IK as ([k' x] & EK & IX). cbn [fst] in EK. subst k'.
      exists x. split; [apply sget_In_iff; [apply suniq_NoDup; exact NA|exact IX]|].
      destruct (IH _ IX) as (y' & G & _ & X). cbn [fst snd] in *.
      assert (y' = y) as ->.
      { apply (sget_In_iff k y d') in I; [congruence|apply suniq_NoDup; exact NB]. }
      apply X; [apply (A' _ IX)|apply (B' _ I)].
    - intros a _ _. apply sm_self.
    - intros a b xs ys C RA RB F IH _ _.
      apply (sm_object ct getter h b a ys xs); [auto|exact RB|exact RA|].
      apply reads_proper in RA; [|exact PH]. apply reads_proper in RB; [|exact PH].
      clear - IH RA RB. induction IH; inversion RA; inversion RB; subst; constructor; auto.
  Qed.
End Eq.
