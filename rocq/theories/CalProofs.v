(** CalProofs.v -- proofs about the date modifiers. *)
From Verif Require Import Base Mon Values PyStr CalModel CalSpec LeafModel LeafSpec LeafNumProofs
  LeafStrProofs.
Open Scope Z_scope.

Lemma valid_date_iff : forall d, valid_date d = true <->
  1 <= d_year d <= 9999 /\ 1 <= d_month d <= 12 /\
  1 <= d_day d <= days_in_month (d_year d) (d_month d).
Proof. intros d. unfold valid_date. rewrite !andb_true_iff, !Z.leb_le. tauto. Qed.

Lemma valid_clock_iff : forall h m s u, valid_clock h m s u = true <->
  0 <= h <= 23 /\ 0 <= m <= 59 /\ 0 <= s <= 59 /\ 0 <= u <= 999999.
Proof. intros. unfold valid_clock. rewrite !andb_true_iff, !Z.leb_le. tauto. Qed.

Lemma valid_datetime_iff : forall t, valid_datetime t = true <->
  valid_date (t_date t) = true /\
  valid_clock (t_hour t) (t_min t) (t_sec t) (t_us t) = true.
Proof. intros. unfold valid_datetime. apply andb_true_iff. Qed.

Lemma days_in_month_pos : forall y m, 28 <= days_in_month y m <= 31.
Proof.
  intros. unfold days_in_month. destruct (m =? 2); [destruct (leap_year y); lia|].
  destruct ((m =? 4) || (m =? 6) || (m =? 9) || (m =? 11)); lia.
Qed.

Lemma days_year_indep : forall m, m <> 2 -> forall y y', days_in_month y m = days_in_month y' m.
Proof. intros m H y y'. unfold days_in_month. apply Z.eqb_neq in H. rewrite H. reflexivity. Qed.

Ltac shown H :=
  inversion H; subst; clear H;
  repeat match goal with
  | V : valid_date _ = true |- _ => apply valid_date_iff in V
  | V : valid_datetime _ = true |- _ => apply valid_datetime_iff in V; destruct V as [? V]
  | V : valid_clock _ _ _ _ = true |- _ => apply valid_clock_iff in V
  end.

Ltac day1 := match goal with
  |- context [days_in_month ?y ?m] => pose proof (days_in_month_pos y m) end.

(** ** Beginnings *)
Lemma beginning_spec : forall u v a c, shows v a c ->
  exists b, shows (beginning_of u v) b c /\ starts_unit u b /\ same_unit u b a /\
    not_later b a /\
    (forall w x, shows w x c -> starts_unit u x -> not_later x a -> not_later x b).
Proof.
  intros u v a c H. inversion H as [d Vd|t Vt]; subst; clear H.
  - pose proof (proj1 (valid_date_iff d) Vd) as Vd'.
    pose proof (days_in_month_pos (d_year d) (d_month d)) as D1.
    pose proof (days_in_month_pos (d_year d) 1) as D2.
    destruct u; eexists;
      (split; [constructor; try exact Vd; apply valid_date_iff; cbn [d_year d_month d_day]; lia|]);
      cbn [d_year d_month d_day]; unfold starts_unit, same_unit;
      cbn [unit_width firstn skipn not_later];
      (split; [try reflexivity|split; [reflexivity|split; [lia|]]]);
      intros w x Hx Sx Nx; shown Hx; cbn [skipn not_later] in *;
      try (injection Sx; intros); try lia.
  - destruct t as [[y m d] h mi s us tz]. cbn [t_date t_hour t_min t_sec t_us t_tz] in *.
    pose proof (proj1 (valid_datetime_iff _) Vt) as [Vd Vc].
    pose proof (proj1 (valid_date_iff _) Vd) as Vd'.
    pose proof (proj1 (valid_clock_iff _ _ _ _) Vc) as Vc'.
    cbn [t_date t_hour t_min t_sec t_us t_tz d_year d_month d_day] in *.
    pose proof (days_in_month_pos y m) as D1.
    pose proof (days_in_month_pos y 1) as D2.
    destruct u; eexists; cbn [beginning_of toboyear tobomon toboday tobohour tobomin tobosec];
      cbn [t_date t_hour t_min t_sec t_us t_tz d_year d_month d_day];
      (split; [apply sh_time; apply valid_datetime_iff; split;
               [apply valid_date_iff; cbn [t_date d_year d_month d_day]; lia
               |apply valid_clock_iff; cbn [t_hour t_min t_sec t_us]; lia]|]);
      cbn [t_date t_hour t_min t_sec t_us t_tz d_year d_month d_day];
      unfold starts_unit, same_unit;
      cbn [unit_width firstn skipn not_later];
      (split; [reflexivity|split; [reflexivity|split; [lia|]]]);
      intros w x Hx Sx Nx; shown Hx; cbn [skipn not_later] in *;
      injection Sx; intros; lia.
Qed.

Lemma beginning_idem : forall u v, beginning_of u (beginning_of u v) = beginning_of u v.
Proof. intros u v. destruct u, v; reflexivity. Qed.

(** ** Next units *)
Definition dlist (d : pdate) : list Z := [d_year d; d_month d; d_day d].

Lemma next_day_spec : forall d d', valid_date d = true -> next_day d = Ok d' ->
  valid_date d' = true /\ earlier (dlist d) (dlist d') /\
  (forall x, valid_date x = true -> earlier (dlist d) (dlist x) -> not_later (dlist d') (dlist x)).
Proof.
  intros [y m d] d' V H. pose proof V as V'. apply valid_date_iff in V'.
  cbn [d_year d_month d_day] in V'. unfold next_day in H.
  destruct (d <? days_in_month y m) eqn:E1; [|destruct (m <? 12) eqn:E2; [|destruct (y <? 9999) eqn:E3]];
    try discriminate H; injection H as <-;
    rewrite ?Z.ltb_lt, ?Z.ltb_ge in *.
  - split; [apply valid_date_iff; cbn [d_year d_month d_day]; lia|]. unfold dlist.
    cbn [d_year d_month d_day earlier not_later]. split; [lia|].
    intros [y2 m2 d2] Vx Hx. cbn [d_year d_month d_day] in *. lia.
  - pose proof (days_in_month_pos y (m + 1)).
    split; [apply valid_date_iff; cbn [d_year d_month d_day]; lia|]. unfold dlist.
    cbn [d_year d_month d_day earlier not_later]. split; [lia|].
    intros [y2 m2 d2] Vx Hx. apply valid_date_iff in Vx. cbn [d_year d_month d_day] in *.
    destruct Hx as [Hx|[-> [Hx|[-> [Hx|[_ []]]]]]]; lia.
  - pose proof (days_in_month_pos (y + 1) 1).
    split; [apply valid_date_iff; cbn [d_year d_month d_day]; lia|]. unfold dlist.
    cbn [d_year d_month d_day earlier not_later]. split; [lia|].
    intros [y2 m2 d2] Vx Hx. apply valid_date_iff in Vx. cbn [d_year d_month d_day] in *.
    destruct Hx as [Hx|[-> [Hx|[-> [Hx|[_ []]]]]]]; lia.
Qed.

Lemma next_day_exists : forall d x, valid_date d = true -> valid_date x = true ->
  earlier (dlist d) (dlist x) -> exists d', next_day d = Ok d'.
Proof.
  intros [y m d] [y2 m2 d2] V Vx H. apply valid_date_iff in V, Vx.
  cbn [d_year d_month d_day] in *. unfold dlist in H. cbn [d_year d_month d_day earlier] in H.
  unfold next_day.
  destruct (d <? days_in_month y m) eqn:E1; [eexists; reflexivity|].
  destruct (m <? 12) eqn:E2; [eexists; reflexivity|].
  destruct (y <? 9999) eqn:E3; [eexists; reflexivity|].
  rewrite ?Z.ltb_ge in *. exfalso.
  destruct H as [H|[-> [H|[-> [H|[_ []]]]]]]; lia.
Qed.

(** [dt_plus] for one unit, when the clock fields are valid *)
Lemma add_days_0 : forall d, add_days 0 d = Ok d.
Proof. reflexivity. Qed.
Lemma add_days_1 : forall d, add_days 1 d = next_day d.
Proof. intros. unfold add_days. destruct (next_day d); reflexivity. Qed.

Lemma small_div : forall a b, 0 <= a < b -> a / b = 0 /\ a mod b = a.
Proof. intros. split; [apply Z.div_small|apply Z.mod_small]; lia. Qed.
Lemma carry_div : forall a b, b <= a < 2 * b -> a / b = 1 /\ a mod b = a - b.
Proof.
  intros a b H. assert (a / b = 1) by (symmetry; apply Z.div_unique with (r := a - b); lia).
  split; [assumption|]. rewrite Z.mod_eq by lia. rewrite H0. lia.
Qed.

Definition next_good (u : unit_) (v : value) (a : list Z) (c : clock) : Prop :=
  (forall r, next_of u v = Ok r ->
     exists b, shows r b c /\ starts_unit u b /\ earlier a b /\
       (forall w x, shows w x c -> starts_unit u x -> earlier a x -> not_later b x)) /\
  (forall w x, shows w x c -> starts_unit u x -> earlier a x -> exists r, next_of u v = Ok r).

Ltac clockgoal :=
  apply sh_time; apply valid_datetime_iff; split;
    [try assumption|apply valid_clock_iff; cbn [t_hour t_min t_sec t_us]; lia].

Ltac cb := cbn [t_date t_hour t_min t_sec t_us t_tz d_year d_month d_day] in *.

(** One step within the day, given the new clock. *)
Lemma step_same_day : forall u y m d h mi s us h' mi' s' tz,
  valid_datetime {| t_date := {| d_year := y; d_month := m; d_day := d |};
                    t_hour := h; t_min := mi; t_sec := s; t_us := us; t_tz := tz |} = true ->
  next_of u (VDatetime {| t_date := {| d_year := y; d_month := m; d_day := d |};
                    t_hour := h; t_min := mi; t_sec := s; t_us := us; t_tz := tz |}) =
    Ok (VDatetime {| t_date := {| d_year := y; d_month := m; d_day := d |};
                    t_hour := h'; t_min := mi'; t_sec := s'; t_us := 0; t_tz := tz |}) ->
  0 <= h' <= 23 -> 0 <= mi' <= 59 -> 0 <= s' <= 59 ->
  starts_unit u [y; m; d; h'; mi'; s'; 0] ->
  earlier [h; mi; s; us] [h'; mi'; s'; 0] ->
  (forall y2 m2 d2 a b c e, starts_unit u [y2; m2; d2; a; b; c; e] ->
     0 <= a <= 23 -> 0 <= b <= 59 -> 0 <= c <= 59 -> 0 <= e <= 999999 ->
     earlier [h; mi; s; us] [a; b; c; e] -> not_later [h'; mi'; s'; 0] [a; b; c; e]) ->
  next_good u (VDatetime {| t_date := {| d_year := y; d_month := m; d_day := d |};
                    t_hour := h; t_min := mi; t_sec := s; t_us := us; t_tz := tz |})
    [y; m; d; h; mi; s; us] (Clock tz).
Proof.
  intros u y m d h mi s us h' mi' s' tz V E Hh Hm Hs St Ea Mi.
  apply valid_datetime_iff in V. destruct V as [Vd Vc]. cb. split.
  - intros r Hr. rewrite E in Hr. injection Hr as <-. eexists. split; [|split; [|split]].
    + apply sh_time. apply valid_datetime_iff. split; [exact Vd|].
      apply valid_clock_iff. cb. lia.
    + cb. exact St.
    + cb. cbn [earlier] in *. lia.
    + cb. intros w x Hx Sx Lx. inversion Hx as [|t Vt]; subst; clear Hx.
      destruct t as [[y2 m2 d2] a b c e tz2]. cb.
      apply valid_datetime_iff in Vt. destruct Vt as [_ Vct]. apply valid_clock_iff in Vct. cb.
      destruct Vct as [V1 [V2 [V3 V4]]].
      cbn [earlier] in Lx.
      destruct Lx as [Lx|[<- [Lx|[<- [Lx|[<- Lx]]]]]]; cbn [not_later]; try lia.
      do 3 (right; split; [reflexivity|]).
      exact (Mi y m d a b c e Sx V1 V2 V3 V4 Lx).
  - intros. eexists. exact E.
Qed.

(** A step to the start of the next day. *)
Lemma step_next_day : forall u y m d h mi s us tz,
  valid_datetime {| t_date := {| d_year := y; d_month := m; d_day := d |};
                    t_hour := h; t_min := mi; t_sec := s; t_us := us; t_tz := tz |} = true ->
  next_of u (VDatetime {| t_date := {| d_year := y; d_month := m; d_day := d |};
                    t_hour := h; t_min := mi; t_sec := s; t_us := us; t_tz := tz |}) =
    (let* dd := next_day {| d_year := y; d_month := m; d_day := d |} in
     Ok (VDatetime {| t_date := dd;
                    t_hour := 0; t_min := 0; t_sec := 0; t_us := 0; t_tz := tz |})) ->
  (forall dd, starts_unit u (dlist dd ++ [0; 0; 0; 0])) ->
  (forall y2 m2 d2 a b c e, starts_unit u [y2; m2; d2; a; b; c; e] ->
     0 <= a <= 23 -> 0 <= b <= 59 -> 0 <= c <= 59 -> 0 <= e <= 999999 ->
     ~ earlier [h; mi; s; us] [a; b; c; e]) ->
  next_good u (VDatetime {| t_date := {| d_year := y; d_month := m; d_day := d |};
                    t_hour := h; t_min := mi; t_sec := s; t_us := us; t_tz := tz |})
    [y; m; d; h; mi; s; us] (Clock tz).
Proof.
  intros u y m d h mi s us tz V E St No.
  apply valid_datetime_iff in V. destruct V as [Vd Vc]. cb. split.
  - intros r Hr. rewrite E in Hr.
    destruct (next_day {| d_year := y; d_month := m; d_day := d |}) as [dd|] eqn:En; [|discriminate Hr].
    injection Hr as <-.
    destruct (next_day_spec _ _ Vd En) as [Vdd [Edd Mdd]].
    eexists. split; [|split; [|split]].
    + apply sh_time. apply valid_datetime_iff. split; [exact Vdd|]. reflexivity.
    + exact (St dd).
    + cb. unfold dlist in Edd. cbn [d_year d_month d_day earlier] in *. lia.
    + cb. intros w x Hx Sx Lx. inversion Hx as [|t Vt]; subst; clear Hx.
      destruct t as [[y2 m2 d2] a b c e tz2]. cb.
      apply valid_datetime_iff in Vt. destruct Vt as [Vdt Vct]. apply valid_clock_iff in Vct. cb.
      destruct Vct as [V1 [V2 [V3 V4]]].
      specialize (Mdd _ Vdt). unfold dlist in Mdd. cbn [d_year d_month d_day earlier not_later] in *.
      assert (D : y < y2 \/ y = y2 /\ (m < m2 \/ m = m2 /\ (d < d2 \/ d = d2 /\ False))).
      { destruct Lx as [Lx|[<- [Lx|[<- [Lx|[<- Lx]]]]]]; try lia.
        exfalso. exact (No y m d a b c e Sx V1 V2 V3 V4 Lx). }
      specialize (Mdd D). lia.
  - intros w x Hx Sx Lx. inversion Hx as [|t Vt]; subst; clear Hx.
    destruct t as [[y2 m2 d2] a b c e tz2]. cb.
    apply valid_datetime_iff in Vt. destruct Vt as [Vdt Vct]. apply valid_clock_iff in Vct. cb.
    destruct Vct as [V1 [V2 [V3 V4]]].
    destruct (next_day_exists _ _ Vd Vdt) as [dd En].
    + unfold dlist. cbn [d_year d_month d_day earlier] in *.
      destruct Lx as [Lx|[<- [Lx|[<- [Lx|[<- Lx]]]]]]; try lia.
      exfalso. exact (No y m d a b c e Sx V1 V2 V3 V4 Lx).
    + rewrite E, En. eexists. reflexivity.
Qed.

Ltac norm_carry := repeat match goal with
  | |- context [?a / 60] => first
      [ rewrite (proj1 (small_div a 60 ltac:(lia))) | rewrite (proj1 (carry_div a 60 ltac:(lia))) ]
  | |- context [?a mod 60] => first
      [ rewrite (proj2 (small_div a 60 ltac:(lia))) | rewrite (proj2 (carry_div a 60 ltac:(lia))) ]
  | |- context [?a / 24] => first
      [ rewrite (proj1 (small_div a 24 ltac:(lia))) | rewrite (proj1 (carry_div a 24 ltac:(lia))) ]
  | |- context [?a mod 24] => first
      [ rewrite (proj2 (small_div a 24 ltac:(lia))) | rewrite (proj2 (carry_div a 24 ltac:(lia))) ]
  end.

Lemma dt_congr : forall d h mi s us tz h' mi' s' us', h = h' -> mi = mi' -> s = s' -> us = us' ->
  Ok (VDatetime {| t_date := d; t_hour := h; t_min := mi; t_sec := s; t_us := us; t_tz := tz |}) =
  Ok (VDatetime {| t_date := d; t_hour := h'; t_min := mi'; t_sec := s'; t_us := us'; t_tz := tz |}).
Proof. intros. subst. reflexivity. Qed.

Lemma next_hour_good : forall t, valid_datetime t = true -> forall a,
  shows (VDatetime t) a (Clock (t_tz t)) -> next_good UHour (VDatetime t) a (Clock (t_tz t)).
Proof.
  intros [[y m d] h mi s us tz] V a Ha. inversion Ha; subst; clear Ha. cb.
  pose proof V as V'. apply valid_datetime_iff in V'. destruct V' as [Vd Vc]. cb.
  apply valid_clock_iff in Vc.
  destruct (Z.ltb_spec h 23) as [L|L].
  - apply step_same_day with (h' := h + 1) (mi' := 0) (s' := 0); try assumption; try lia.
    + unfold next_of, tonexthour, dt_plus. cb. norm_carry.
      replace (Z.to_nat (0 + 0)) with 0%nat by lia. cbn [add_days rbind tobohour]. cb.
      apply dt_congr; lia.
    + reflexivity.
    + cbn [earlier]. lia.
    + intros y2 m2 d2 aa b c e S _ _ _ _ E. unfold starts_unit in S. cbn in S.
      injection S as -> -> ->. cbn [earlier not_later] in *. lia.
  - apply step_next_day; [exact V| |reflexivity|].
    + unfold next_of, tonexthour, dt_plus. cb. norm_carry.
      replace (Z.to_nat (0 + 1)) with 1%nat by lia. rewrite add_days_1.
      destruct (next_day _) as [dd|]; [|reflexivity]. cbn [rbind tobohour]. cb.
      apply dt_congr; lia.
    + intros y2 m2 d2 aa b c e S V1 V2 V3 V4 E. unfold starts_unit in S. cbn in S.
      injection S as -> -> ->. cbn [earlier] in *. lia.
Qed.

Lemma next_min_good : forall t, valid_datetime t = true -> forall a,
  shows (VDatetime t) a (Clock (t_tz t)) -> next_good UMinute (VDatetime t) a (Clock (t_tz t)).
Proof.
  intros [[y m d] h mi s us tz] V a Ha. inversion Ha; subst; clear Ha. cb.
  pose proof V as V'. apply valid_datetime_iff in V'. destruct V' as [Vd Vc]. cb.
  apply valid_clock_iff in Vc.
  destruct (Z.ltb_spec mi 59) as [L|L]; [|destruct (Z.ltb_spec h 23) as [L2|L2]].
  - apply step_same_day with (h' := h) (mi' := mi + 1) (s' := 0); try assumption; try lia.
    + unfold next_of, tonextmin, dt_plus. cb. norm_carry.
      replace (Z.to_nat (0 + 0)) with 0%nat by lia. cbn [add_days rbind tobomin]. cb.
      apply dt_congr; lia.
    + reflexivity.
    + cbn [earlier]. lia.
    + intros y2 m2 d2 aa b c e S _ _ _ _ E. unfold starts_unit in S. cbn in S.
      injection S as -> ->. cbn [earlier not_later] in *. lia.
  - apply step_same_day with (h' := h + 1) (mi' := 0) (s' := 0); try assumption; try lia.
    + unfold next_of, tonextmin, dt_plus. cb. norm_carry.
      replace (Z.to_nat (0 + 0)) with 0%nat by lia. cbn [add_days rbind tobomin]. cb.
      apply dt_congr; lia.
    + reflexivity.
    + cbn [earlier]. lia.
    + intros y2 m2 d2 aa b c e S _ V2 _ _ E. unfold starts_unit in S. cbn in S.
      injection S as -> ->. cbn [earlier not_later] in *. lia.
  - apply step_next_day; [exact V| |reflexivity|].
    + unfold next_of, tonextmin, dt_plus. cb. norm_carry.
      replace (Z.to_nat (0 + 1)) with 1%nat by lia. rewrite add_days_1.
      destruct (next_day _) as [dd|]; [|reflexivity]. cbn [rbind tobomin]. cb.
      apply dt_congr; lia.
    + intros y2 m2 d2 aa b c e S V1 V2 V3 V4 E. unfold starts_unit in S. cbn in S.
      injection S as -> ->. cbn [earlier] in *. lia.
Qed.

Lemma next_sec_good : forall t, valid_datetime t = true -> forall a,
  shows (VDatetime t) a (Clock (t_tz t)) -> next_good USecond (VDatetime t) a (Clock (t_tz t)).
Proof.
  intros [[y m d] h mi s us tz] V a Ha. inversion Ha; subst; clear Ha. cb.
  pose proof V as V'. apply valid_datetime_iff in V'. destruct V' as [Vd Vc]. cb.
  apply valid_clock_iff in Vc.
  destruct (Z.ltb_spec s 59) as [L0|L0]; [|destruct (Z.ltb_spec mi 59) as [L|L];
    [|destruct (Z.ltb_spec h 23) as [L2|L2]]].
  - apply step_same_day with (h' := h) (mi' := mi) (s' := s + 1); try assumption; try lia.
    + unfold next_of, tonextsec, dt_plus. cb. norm_carry.
      replace (Z.to_nat (0 + 0)) with 0%nat by lia. cbn [add_days rbind tobosec]. cb.
      apply dt_congr; lia.
    + reflexivity.
    + cbn [earlier]. lia.
    + intros y2 m2 d2 aa b c e S _ _ _ _ E. unfold starts_unit in S. cbn in S.
      injection S as ->. cbn [earlier not_later] in *. lia.
  - apply step_same_day with (h' := h) (mi' := mi + 1) (s' := 0); try assumption; try lia.
    + unfold next_of, tonextsec, dt_plus. cb. norm_carry.
      replace (Z.to_nat (0 + 0)) with 0%nat by lia. cbn [add_days rbind tobosec]. cb.
      apply dt_congr; lia.
    + reflexivity.
    + cbn [earlier]. lia.
    + intros y2 m2 d2 aa b c e S _ _ V3 _ E. unfold starts_unit in S. cbn in S.
      injection S as ->. cbn [earlier not_later] in *. lia.
  - apply step_same_day with (h' := h + 1) (mi' := 0) (s' := 0); try assumption; try lia.
    + unfold next_of, tonextsec, dt_plus. cb. norm_carry.
      replace (Z.to_nat (0 + 0)) with 0%nat by lia. cbn [add_days rbind tobosec]. cb.
      apply dt_congr; lia.
    + reflexivity.
    + cbn [earlier]. lia.
    + intros y2 m2 d2 aa b c e S _ V2 V3 _ E. unfold starts_unit in S. cbn in S.
      injection S as ->. cbn [earlier not_later] in *. lia.
  - apply step_next_day; [exact V| |reflexivity|].
    + unfold next_of, tonextsec, dt_plus. cb. norm_carry.
      replace (Z.to_nat (0 + 1)) with 1%nat by lia. rewrite add_days_1.
      destruct (next_day _) as [dd|]; [|reflexivity]. cbn [rbind tobosec]. cb.
      apply dt_congr; lia.
    + intros y2 m2 d2 aa b c e S V1 V2 V3 V4 E. unfold starts_unit in S. cbn in S.
      injection S as ->. cbn [earlier] in *. lia.
Qed.

Lemma next_day_good : forall v a c, shows v a c -> next_good UDay v a c.
Proof.
  intros v a c H. inversion H as [d Vd|t Vt]; subst; clear H.
  - split.
    + intros r Hr. cbn [next_of tonextday] in Hr.
      destruct (next_day d) as [dd|] eqn:En; [|discriminate Hr]. cbn [rbind] in Hr.
      injection Hr as <-. destruct (next_day_spec _ _ Vd En) as [Vdd [Edd Mdd]].
      eexists. split; [constructor; exact Vdd|]. split; [reflexivity|].
      unfold dlist in *. cbn [earlier] in Edd. cbn [earlier]. split; [lia|].
      intros w x Hx Sx Lx. inversion Hx as [e Ve|]; subst; clear Hx.
      specialize (Mdd e Ve). cbn [earlier not_later] in *. lia.
    + intros w x Hx Sx Lx. inversion Hx as [e Ve|]; subst; clear Hx.
      destruct (next_day_exists d e Vd Ve) as [dd En].
      * unfold dlist. cbn [earlier] in *. lia.
      * cbn [next_of tonextday]. rewrite En. eexists. reflexivity.
  - destruct t as [[y m d] h mi s us tz]. cb.
    pose proof Vt as V'. apply valid_datetime_iff in V'. destruct V' as [Vd Vc]. cb.
    apply valid_clock_iff in Vc.
    apply step_next_day; [exact Vt| |reflexivity|].
    + unfold next_of, tonextday, dt_plus. cb. norm_carry.
      replace (Z.to_nat (1 + 0)) with 1%nat by lia. rewrite add_days_1.
      destruct (next_day _) as [dd|]; reflexivity.
    + intros y2 m2 d2 aa b c e S V1 V2 V3 V4 E. unfold starts_unit in S. cbn in S.
      injection S as -> -> -> ->. cbn [earlier] in *. lia.
Qed.

Lemma next_month_spec : forall m, 1 <= m <= 12 ->
  next_month m = if m =? 12 then (1, 1) else (0, m + 1).
Proof.
  intros m H. assert (C : m = 1 \/ m = 2 \/ m = 3 \/ m = 4 \/ m = 5 \/ m = 6 \/ m = 7 \/ m = 8 \/
    m = 9 \/ m = 10 \/ m = 11 \/ m = 12) by lia.
  repeat (destruct C as [->|C]; [reflexivity|]). subst. reflexivity.
Qed.

Lemma mk_date_ok : forall y m, mk_date y m 1 =
  if (1 <=? y) && (y <=? 9999) && (1 <=? m) && (m <=? 12)
  then Ok {| d_year := y; d_month := m; d_day := 1 |} else Err EValueError.
Proof.
  intros. unfold mk_date, valid_date. cbn [d_year d_month d_day].
  pose proof (days_in_month_pos y m).
  destruct (1 <=? days_in_month y m) eqn:E; [|apply Z.leb_gt in E; lia].
  rewrite !andb_true_r. reflexivity.
Qed.

Ltac ifsplit := match goal with
  | |- context [if ?b then _ else _] => destruct b eqn:?
  | H : context [if ?b then _ else _] |- _ => destruct b eqn:?
  end.

Lemma mk_datetime_ok : forall y m tz, mk_datetime y m 1 0 0 0 0 tz =
  if (1 <=? y) && (y <=? 9999) && (1 <=? m) && (m <=? 12)
  then Ok {| t_date := {| d_year := y; d_month := m; d_day := 1 |};
             t_hour := 0; t_min := 0; t_sec := 0; t_us := 0; t_tz := tz |}
  else Err EValueError.
Proof.
  intros. unfold mk_datetime. rewrite mk_date_ok.
  destruct ((1 <=? y) && (y <=? 9999) && (1 <=? m) && (m <=? 12)); reflexivity.
Qed.

(** The next first of a month, or of a year, as year and month. *)
Lemma first_of_good : forall u (f : Z -> Z -> Z * Z),
  (u = UMonth \/ u = UYear) ->
  (forall d, next_of u (VDate d) =
     let '(y, m) := f (d_year d) (d_month d) in
     let* d' := mk_date y m 1 in Ok (VDate d')) ->
  (forall t, next_of u (VDatetime t) =
     let '(y, m) := f (d_year (t_date t)) (d_month (t_date t)) in
     let* t' := mk_datetime y m 1 0 0 0 0 (t_tz t) in Ok (VDatetime t')) ->
  (forall y m, 1 <= y <= 9999 -> 1 <= m <= 12 ->
     let '(y', m') := f y m in
     (y < y' \/ y = y' /\ m < m') /\ 1 <= m' <= 12 /\ 1 <= y' /\
     starts_unit u [y'; m'; 1; 0; 0; 0; 0] /\
     (forall y2 m2, (u = UYear -> m2 = 1) -> 1 <= m2 <= 12 ->
        (y < y2 \/ y = y2 /\ m < m2) -> (y' < y2 \/ y' = y2 /\ m' <= m2))) ->
  forall v a c, shows v a c -> next_good u v a c.
Proof.
  intros u f Hu Hd Ht Hf v a c H.
  assert (Su : forall y m d h mi s us, starts_unit u [y; m; d; h; mi; s; us] ->
                 (u = UYear -> m = 1) /\ d = 1 /\ h = 0 /\ mi = 0 /\ s = 0 /\ us = 0).
  { intros y m d h mi s us S. destruct Hu as [-> | ->]; unfold starts_unit in S; cbn in S;
      injection S; intros; subst; repeat split; intros; try reflexivity; discriminate. }
  inversion H as [d Vd|t Vt]; subst; clear H.
  - destruct d as [y m d]. cb. pose proof (proj1 (valid_date_iff _) Vd) as V'. cb.
    pose proof (Hf y m ltac:(lia) ltac:(lia)) as F.
    split.
    + intros r Hr. rewrite Hd in Hr. cb. destruct (f y m) as [y' m'].
      destruct F as [F1 [F2 [F3 [F4 F5]]]].
      rewrite mk_date_ok in Hr. ifsplit; [|discriminate Hr]. cbn [rbind] in Hr.
      rewrite !andb_true_iff, !Z.leb_le in *. injection Hr as <-.
      eexists. split; [|split; [|split]].
      * constructor. apply valid_date_iff. cb. pose proof (days_in_month_pos y' m'). lia.
      * exact F4.
      * cb. cbn [earlier]. lia.
      * cb. intros w x Hx Sx Lx. inversion Hx as [e Ve|]; subst; clear Hx.
        destruct e as [y2 m2 d2]. cb. apply valid_date_iff in Ve. cb.
        apply Su in Sx. destruct Sx as [S1 [-> _]]. cbn [earlier not_later] in *.
        specialize (F5 y2 m2 S1 ltac:(lia)). lia.
    + intros w x Hx Sx Lx. inversion Hx as [e Ve|]; subst; clear Hx.
      destruct e as [y2 m2 d2]. cb. apply valid_date_iff in Ve. cb.
      apply Su in Sx. destruct Sx as [S1 [-> _]]. rewrite Hd. cb. destruct (f y m) as [y' m'].
      destruct F as [F1 [F2 [F3 [F4 F5]]]]. cbn [earlier] in *.
      specialize (F5 y2 m2 S1 ltac:(lia)).
      rewrite mk_date_ok. ifsplit; [eexists; reflexivity|]. exfalso.
      rewrite <- not_true_iff_false, !andb_true_iff, !Z.leb_le in *. lia.
  - destruct t as [[y m d] h mi s us tz]. cb.
    pose proof (proj1 (valid_datetime_iff _) Vt) as [Vd Vc]. cb.
    pose proof (proj1 (valid_date_iff _) Vd) as V'. cb.
    pose proof (proj1 (valid_clock_iff _ _ _ _) Vc) as Vc'.
    pose proof (Hf y m ltac:(lia) ltac:(lia)) as F.
    split.
    + intros r Hr. rewrite Ht in Hr. cb. destruct (f y m) as [y' m'].
      destruct F as [F1 [F2 [F3 [F4 F5]]]].
      rewrite mk_datetime_ok in Hr. ifsplit; [|discriminate Hr]. cbn [rbind] in Hr.
      rewrite !andb_true_iff, !Z.leb_le in *. injection Hr as <-.
      eexists. split; [|split; [|split]].
      * apply sh_time. apply valid_datetime_iff. split; [|reflexivity].
        apply valid_date_iff. cb. pose proof (days_in_month_pos y' m'). lia.
      * exact F4.
      * cb. cbn [earlier]. lia.
      * cb. intros w x Hx Sx Lx. inversion Hx as [|e Ve]; subst; clear Hx.
        destruct e as [[y2 m2 d2] h2 mi2 s2 us2 tz2]. cb.
        apply valid_datetime_iff in Ve. destruct Ve as [Vd2 Vc2]. apply valid_date_iff in Vd2.
        apply valid_clock_iff in Vc2. cb.
        apply Su in Sx. destruct Sx as [S1 [-> [-> [-> [-> ->]]]]]. cbn [earlier not_later] in *.
        specialize (F5 y2 m2 S1 ltac:(lia)). lia.
    + intros w x Hx Sx Lx. inversion Hx as [|e Ve]; subst; clear Hx.
      destruct e as [[y2 m2 d2] h2 mi2 s2 us2 tz2]. cb.
      apply valid_datetime_iff in Ve. destruct Ve as [Vd2 Vc2]. apply valid_date_iff in Vd2.
      apply valid_clock_iff in Vc2. cb.
      apply Su in Sx. destruct Sx as [S1 [-> [-> [-> [-> ->]]]]].
      rewrite Ht. cb. destruct (f y m) as [y' m'].
      destruct F as [F1 [F2 [F3 [F4 F5]]]]. cbn [earlier] in *.
      specialize (F5 y2 m2 S1 ltac:(lia)).
      rewrite mk_datetime_ok. ifsplit; [eexists; reflexivity|]. exfalso.
      rewrite <- not_true_iff_false, !andb_true_iff, !Z.leb_le in *. lia.
Qed.

Lemma next_month_good : forall v a c, shows v a c -> next_good UMonth v a c.
Proof.
  apply (first_of_good UMonth (fun y m => (y + fst (next_month m), snd (next_month m)))).
  - left. reflexivity.
  - intros d. cbn [next_of tonextmon]. destruct (next_month (d_month d)); reflexivity.
  - intros t. cbn [next_of tonextmon]. destruct (next_month (d_month (t_date t))); reflexivity.
  - intros y m Hy Hm. rewrite next_month_spec by exact Hm.
    destruct (m =? 12) eqn:E; [apply Z.eqb_eq in E|apply Z.eqb_neq in E]; cbn [fst snd];
      repeat split; lia.
Qed.

Lemma next_year_good : forall v a c, shows v a c -> next_good UYear v a c.
Proof.
  apply (first_of_good UYear (fun y m => (y + 1, 1))).
  - right. reflexivity.
  - intros d. reflexivity.
  - intros t. reflexivity.
  - intros y m Hy Hm. repeat split; try lia. intros y2 m2 Hu H2 H. specialize (Hu eq_refl). lia.
Qed.

Lemma next_unit : forall u v a c, shows v a c -> applies u c -> next_good u v a c.
Proof.
  intros u v a c H Ap. destruct u; try (apply next_year_good || apply next_month_good ||
    apply next_day_good); try assumption; inversion H; subst; try contradiction;
    [apply next_hour_good|apply next_min_good|apply next_sec_good]; assumption.
Qed.

(** ** The calendar agrees with the day count *)
Ltac const_months := repeat match goal with
  | |- context [(153 * ?k + 2) / 5] =>
      let v := eval vm_compute in ((153 * k + 2) / 5) in change ((153 * k + 2) / 5) with v
  end.

Lemma next_day_number : forall d d', valid_date d = true -> next_day d = Ok d' ->
  day_number d' = day_number d + 1.
Proof.
  intros [y m d] d' V H. apply valid_date_iff in V. cb. unfold next_day in H.
  assert (C : m = 1 \/ m = 2 \/ m = 3 \/ m = 4 \/ m = 5 \/ m = 6 \/ m = 7 \/ m = 8 \/
    m = 9 \/ m = 10 \/ m = 11 \/ m = 12) by lia.
  destruct (d <? days_in_month y m) eqn:E1.
  { injection H as <-. unfold day_number. cb. lia. }
  apply Z.ltb_ge in E1.
  assert (Ed : d = days_in_month y m) by lia. subst d. clear E1 V.
  repeat (destruct C as [->|C];
    [ injection H as <-; unfold day_number, days_in_month; cb; cbn -[Z.div Z.mul Z.add leap_year];
      const_months; try lia | ]).
  - unfold leap_year.
    destruct (y mod 4 =? 0) eqn:A; [apply Z.eqb_eq in A|apply Z.eqb_neq in A];
    (destruct (y mod 100 =? 0) eqn:B; [apply Z.eqb_eq in B|apply Z.eqb_neq in B]);
    (destruct (y mod 400 =? 0) eqn:C'; [apply Z.eqb_eq in C'|apply Z.eqb_neq in C']);
    cbn [andb orb negb]; Z.to_euclidean_division_equations; lia.
  - subst m. destruct (12 <? 12) eqn:E; [discriminate E|].
    destruct (y <? 9999); [|discriminate H]. injection H as <-.
    unfold day_number, days_in_month; cb; cbn -[Z.div Z.mul Z.add leap_year]. const_months.
    replace (y + 1 - 1) with y by lia. lia.
Qed.

(** ** JSON round trips *)
Lemma digit_cases : forall (P : ascii -> Z -> Prop),
  P "0"%char 0 -> P "1"%char 1 -> P "2"%char 2 -> P "3"%char 3 -> P "4"%char 4 ->
  P "5"%char 5 -> P "6"%char 6 -> P "7"%char 7 -> P "8"%char 8 -> P "9"%char 9 ->
  forall n, P (digit n) (n mod 10).
Proof.
  intros P H0 H1 H2 H3 H4 H5 H6 H7 H8 H9 n. unfold digit.
  pose proof (Z.mod_pos_bound n 10 ltac:(lia)) as B. set (k := n mod 10) in *.
  assert (C : k = 0 \/ k = 1 \/ k = 2 \/ k = 3 \/ k = 4 \/ k = 5 \/ k = 6 \/ k = 7 \/ k = 8 \/ k = 9)
    by lia.
  clearbody k. clear B.
  repeat (destruct C as [->|C]; [assumption|]). subst. assumption.
Qed.

Lemma digit_val_digit : forall n, digit_val (digit n) = Some (n mod 10).
Proof. apply (digit_cases (fun c k => digit_val c = Some k)); reflexivity. Qed.

Lemma digit_plain : forall n, Ascii.eqb (digit n) "Z" = false /\
  Ascii.eqb (digit n) "+" = false /\ Ascii.eqb (digit n) "-" = false.
Proof.
  apply (digit_cases (fun c _ => Ascii.eqb c "Z" = false /\ Ascii.eqb c "+" = false /\
    Ascii.eqb c "-" = false)); repeat split; reflexivity.
Qed.

Lemma two_digits : forall n, 0 <= n < 100 ->
  digits_val 0 [digit (n / 10); digit n] = Some n.
Proof.
  intros n H. cbn [digits_val]. rewrite !digit_val_digit. f_equal.
  Z.to_euclidean_division_equations. lia.
Qed.

Lemma three_digits : forall n, 0 <= n < 1000 ->
  digits_val 0 [digit (n / 10 / 10); digit (n / 10); digit n] = Some n.
Proof.
  intros n H. cbn [digits_val]. rewrite !digit_val_digit. f_equal.
  Z.to_euclidean_division_equations. lia.
Qed.

Lemma four_digits : forall n, 0 <= n < 10000 ->
  digits_val 0 [digit (n / 10 / 10 / 10); digit (n / 10 / 10); digit (n / 10); digit n] = Some n.
Proof.
  intros n H. cbn [digits_val]. rewrite !digit_val_digit. f_equal.
  Z.to_euclidean_division_equations. lia.
Qed.

Lemma two_two : forall n, 0 <= n < 100 -> two (digit (n / 10)) (digit n) = Ok n.
Proof. intros. unfold two. rewrite two_digits by assumption. reflexivity. Qed.

Lemma days_in_month_max : forall y m, days_in_month y m <= 31.
Proof.
  intros. unfold days_in_month. repeat ifsplit; lia.
Qed.

Lemma date_fromiso_iso : forall d, valid_date d = true -> date_fromiso (date_iso d) = Ok d.
Proof.
  intros [y m d] V. pose proof (proj1 (valid_date_iff _) V) as V'. cb.
  pose proof (days_in_month_max y m).
  unfold date_iso. cbn [zpad app d_year d_month d_day date_fromiso].
  change (Ascii.eqb "-" "-") with true. cbn [andb].
  rewrite four_digits, !two_digits by lia. unfold mk_date. rewrite V. reflexivity.
Qed.

Lemma chars_unchars : forall l, chars (unchars l) = l.
Proof. apply list_ascii_of_string_of_list_ascii. Qed.

Lemma date_iso_length : forall d, length (date_iso d) = 10%nat.
Proof. reflexivity. Qed.

Lemma date_round_trip : forall d, valid_date d = true -> read_date (json_date d) = Ok d.
Proof.
  intros d V. unfold read_date, json_date. rewrite chars_unchars, firstn_app, date_iso_length.
  change (10 - 10)%nat with 0%nat. rewrite firstn_O, app_nil_r.
  rewrite firstn_all2 by (rewrite date_iso_length; lia). apply date_fromiso_iso. exact V.
Qed.

(** [read_date] looks only at the first ten characters *)
Lemma read_date_prefix : forall d s, valid_date d = true ->
  read_date (unchars (date_iso d) ++ s) = Ok d.
Proof.
  intros d s V. unfold read_date.
  assert (E : chars (unchars (date_iso d) ++ s) = date_iso d ++ chars s).
  { rewrite <- (chars_unchars (date_iso d)) at 2.
    generalize (unchars (date_iso d)). intros x. induction x as [|c x IH]; [reflexivity|].
    cbn. f_equal. exact IH. }
  rewrite E, firstn_app, date_iso_length. change (10 - 10)%nat with 0%nat.
  rewrite firstn_O, app_nil_r, firstn_all2 by (rewrite date_iso_length; lia).
  apply date_fromiso_iso. exact V.
Qed.

Definition noZ (c : ascii) : bool := negb (Ascii.eqb c "Z").

Lemma noZ_digit : forall n, noZ (digit n) = true.
Proof. intros. unfold noZ. rewrite (proj1 (digit_plain n)). reflexivity. Qed.

Lemma filter_date_iso : forall d l, filter noZ (date_iso d ++ l) = date_iso d ++ filter noZ l.
Proof.
  intros. unfold date_iso. cbn [zpad app filter]. rewrite !noZ_digit. reflexivity.
Qed.

Definition clock_iso (t : pdatetime) : list ascii :=
  zpad 2 (t_hour t) ++ [":"%char] ++ zpad 2 (t_min t) ++ [":"%char] ++ zpad 2 (t_sec t).

Lemma firstn_iso : forall t l, firstn 23 (date_iso (t_date t) ++ ["T"%char] ++ clock_iso t ++ l) =
  date_iso (t_date t) ++ ["T"%char] ++ clock_iso t ++ firstn 4 l.
Proof. reflexivity. Qed.

Lemma filter_clock_iso : forall t l, filter noZ (clock_iso t ++ l) = clock_iso t ++ filter noZ l.
Proof.
  intros. unfold clock_iso. cbn [zpad app filter]. rewrite !noZ_digit. reflexivity.
Qed.

Lemma split_digit : forall n l, split_offset (digit n :: l) =
  (digit n :: fst (split_offset l), snd (split_offset l)).
Proof.
  intros. cbn [split_offset]. destruct (digit_plain n) as [_ [E1 E2]]. rewrite E1, E2.
  destruct (split_offset l); reflexivity.
Qed.

Lemma split_colon : forall l, split_offset (":"%char :: l) =
  (":"%char :: fst (split_offset l), snd (split_offset l)).
Proof. intros. cbn [split_offset]. cbn. destruct (split_offset l); reflexivity. Qed.

Lemma split_dot : forall l, split_offset ("."%char :: l) =
  ("."%char :: fst (split_offset l), snd (split_offset l)).
Proof. intros. cbn [split_offset]. cbn. destruct (split_offset l); reflexivity. Qed.

Lemma split_clock_iso : forall t l, split_offset (clock_iso t ++ l) =
  (clock_iso t ++ fst (split_offset l), snd (split_offset l)).
Proof.
  intros. unfold clock_iso. cbn [zpad app].
  repeat first [rewrite split_digit | rewrite split_colon]. reflexivity.
Qed.

Lemma parse_clock_iso : forall t l, valid_datetime t = true ->
  parse_clock (clock_iso t ++ l) =
  (let* u := parse_fraction l in Ok (t_hour t, t_min t, t_sec t, u)).
Proof.
  intros t l V. apply valid_datetime_iff in V. destruct V as [_ V]. apply valid_clock_iff in V.
  unfold clock_iso. cbn [zpad app parse_clock].
  rewrite two_two by lia. cbn [rbind]. change (Ascii.eqb ":" ":") with true. cbn iota.
  rewrite two_two by lia. cbn [rbind].
  rewrite two_two by lia. cbn [rbind]. reflexivity.
Qed.

(** what a text made of the date, the clock, and a remainder without 'Z' reads as *)
Lemma read_iso : forall t l z, valid_datetime t = true -> filter noZ l = l -> filter noZ z = [] ->
  read_datetime (unchars (date_iso (t_date t) ++ ["T"%char] ++ clock_iso t ++ l ++ z)) =
  (let* u := parse_fraction (fst (split_offset l)) in
   let* _ := match snd (split_offset l) with
             | None => Ok None
             | Some (neg, o) => let* x := parse_offset neg o in Ok (Some x)
             end in
   let* r := mk_datetime (d_year (t_date t)) (d_month (t_date t)) (d_day (t_date t))
               (t_hour t) (t_min t) (t_sec t) u None in
   Ok {| t_date := t_date r; t_hour := t_hour r; t_min := t_min r; t_sec := t_sec r;
         t_us := t_us r; t_tz := Some 0 |}).
Proof.
  intros t l z V Hl Hz. unfold read_datetime. rewrite chars_unchars.
  change (fun c => negb (Ascii.eqb c "Z")) with noZ.
  rewrite filter_date_iso. cbn [app]. cbn [filter]. change (noZ "T") with true. cbn iota.
  rewrite filter_clock_iso, filter_app, Hl, Hz, app_nil_r.
  unfold datetime_fromiso.
  assert (E1 : forall x, firstn 10 (date_iso (t_date t) ++ x) = date_iso (t_date t)) by reflexivity.
  assert (E2 : forall x, skipn 10 (date_iso (t_date t) ++ x) = x) by reflexivity.
  rewrite E1, E2. pose proof (proj1 (valid_datetime_iff _) V) as [Vd Vc]. clear Vc.
  rewrite date_fromiso_iso by exact Vd. cbn [rbind].
  rewrite split_clock_iso. rewrite parse_clock_iso by exact V.
  destruct (parse_fraction (fst (split_offset l))) as [u|]; [|reflexivity]. cbn [rbind].
  destruct (snd (split_offset l)) as [[neg o]|].
  - destruct (parse_offset neg o) as [x|]; [|reflexivity]. cbn [rbind]. 
    unfold mk_datetime. destruct (mk_date _ _ _); [|reflexivity]. cbn [rbind].
    destruct (valid_clock _ _ _ _); reflexivity.
  - reflexivity.
Qed.

Lemma iso_split : forall t, datetime_iso t = date_iso (t_date t) ++ ["T"%char] ++ clock_iso t ++
  ((if t_us t =? 0 then [] else ["."%char] ++ zpad 6 (t_us t))
   ++ match t_tz t with None => [] | Some o => offset_iso o end).
Proof. reflexivity. Qed.

Lemma filter_zpad : forall w n, filter noZ (zpad w n) = zpad w n.
Proof.
  induction w as [|w IH]; intros n; [reflexivity|]. cbn [zpad]. rewrite filter_app, IH.
  cbn [filter]. rewrite noZ_digit. reflexivity.
Qed.

Lemma datetime_round_trip : forall t, valid_datetime t = true ->
  read_datetime (json_datetime t) =
  match t_tz t with
  | Some _ => if t_us t =? 0 then Err EValueError else
      Ok {| t_date := t_date t; t_hour := t_hour t; t_min := t_min t; t_sec := t_sec t;
            t_us := t_us t / 1000 * 1000; t_tz := Some 0 |}
  | None =>
      Ok {| t_date := t_date t; t_hour := t_hour t; t_min := t_min t; t_sec := t_sec t;
            t_us := t_us t / 1000 * 1000; t_tz := Some 0 |}
  end.
Proof.
  intros t V. unfold json_datetime. rewrite iso_split, firstn_iso.
  rewrite <- !app_assoc. pose proof (proj1 (valid_datetime_iff _) V) as [Vd Vc].
  pose proof (proj1 (valid_clock_iff _ _ _ _) Vc) as Vc'.
  assert (Mk : forall u, 0 <= u <= 999999 -> mk_datetime (d_year (t_date t)) (d_month (t_date t)) (d_day (t_date t))
               (t_hour t) (t_min t) (t_sec t) u None =
    Ok {| t_date := t_date t; t_hour := t_hour t; t_min := t_min t; t_sec := t_sec t; t_us := u; t_tz := None |}).
  { intros u Hu. unfold mk_datetime, mk_date.
    destruct t as [[y m d] h mi s us tz]. cb. rewrite Vd. cbn [rbind].
    assert (E : valid_clock h mi s u = true) by (apply valid_clock_iff; lia).
    rewrite E. reflexivity. }
  destruct (t_us t =? 0) eqn:Eu.
  - apply Z.eqb_eq in Eu. destruct (t_tz t) as [o|].
    + rewrite read_iso; [|exact V| |reflexivity].
      * unfold offset_iso. cbn [zpad app firstn]. destruct (o <? 0).
        -- reflexivity.
        -- reflexivity.
      * unfold offset_iso. cbn [zpad app firstn filter]. destruct (o <? 0);
          [change (noZ "-") with true|change (noZ "+") with true]; cbn iota;
          rewrite !noZ_digit; change (noZ ":") with true; reflexivity.
    + rewrite read_iso; [|exact V|reflexivity|reflexivity]. cbn [app firstn split_offset fst snd parse_fraction rbind].
      rewrite Mk by lia. rewrite Eu. reflexivity.
  - apply Z.eqb_neq in Eu.
    assert (E : forall x, firstn 4 ((["."%char] ++ zpad 6 (t_us t)) ++ x) =
       ["."%char; digit (t_us t / 1000 / 10 / 10); digit (t_us t / 1000 / 10); digit (t_us t / 1000)]).
    { intros x. cbn [zpad app firstn].
      replace (t_us t / 10 / 10 / 10) with (t_us t / 1000) by (Z.to_euclidean_division_equations; lia).
      reflexivity. }
    rewrite !E.
    rewrite read_iso; [|exact V| |reflexivity].
    + rewrite split_dot, !split_digit. cbn [split_offset fst snd parse_fraction].
      change (Ascii.eqb "." ".") with true. cbn iota.
      rewrite three_digits by (Z.to_euclidean_division_equations; lia).
      cbn [length Nat.eqb rbind]. rewrite Mk by (Z.to_euclidean_division_equations; lia).
      destruct (t_tz t); reflexivity.
    + cbn [filter]. rewrite !noZ_digit. reflexivity.
Qed.

(** Reading the ISO text of a datetime: the offset is read and thrown away. *)
Lemma mk_self : forall t, valid_datetime t = true ->
  mk_datetime (d_year (t_date t)) (d_month (t_date t)) (d_day (t_date t))
    (t_hour t) (t_min t) (t_sec t) (t_us t) None =
  Ok {| t_date := t_date t; t_hour := t_hour t; t_min := t_min t; t_sec := t_sec t;
        t_us := t_us t; t_tz := None |}.
Proof.
  intros t V. apply valid_datetime_iff in V. destruct V as [Vd Vc]. unfold mk_datetime, mk_date.
  destruct t as [[y m d] h mi s us tz]. cb. rewrite Vd. cbn [rbind]. rewrite Vc. reflexivity.
Qed.

Lemma six_digits : forall n, 0 <= n < 1000000 ->
  digits_val 0 [digit (n / 10 / 10 / 10 / 10 / 10); digit (n / 10 / 10 / 10 / 10);
    digit (n / 10 / 10 / 10); digit (n / 10 / 10); digit (n / 10); digit n] = Some n.
Proof.
  intros n H. cbn [digits_val]. rewrite !digit_val_digit. f_equal.
  Z.to_euclidean_division_equations. lia.
Qed.

Lemma filter_offset : forall o, filter noZ (offset_iso o) = offset_iso o.
Proof.
  intros. unfold offset_iso. rewrite !filter_app, !filter_zpad.
  destruct (o <? 0); destruct (Z.abs o mod 60 =? 0); rewrite ?filter_app, ?filter_zpad; reflexivity.
Qed.

Lemma parse_offset_iso : forall o, Z.abs o < 86400 ->
  exists neg l, split_offset (offset_iso o) = ([], Some (neg, l)) /\ parse_offset neg l = Ok o.
Proof.
  intros o Ho. exists (o <? 0), (zpad 2 (Z.abs o / 3600) ++ [":"%char]
    ++ zpad 2 (Z.abs o / 60 mod 60)
    ++ (if Z.abs o mod 60 =? 0 then [] else [":"%char] ++ zpad 2 (Z.abs o mod 60))).
  split.
  - unfold offset_iso. destruct (o <? 0); reflexivity.
  - unfold parse_offset.
    assert (B1 : 0 <= Z.abs o / 3600 < 24) by (Z.to_euclidean_division_equations; lia).
    assert (B2 : 0 <= Z.abs o / 60 mod 60 < 60) by (apply Z.mod_pos_bound; lia).
    assert (B3 : 0 <= Z.abs o mod 60 < 60) by (apply Z.mod_pos_bound; lia).
    assert (B4 : Z.abs o / 3600 * 3600 + Z.abs o / 60 mod 60 * 60 + Z.abs o mod 60 = Z.abs o).
    { clear. Z.to_euclidean_division_equations. lia. }
    set (H := Z.abs o / 3600) in *. set (M := Z.abs o / 60 mod 60) in *.
    set (S := Z.abs o mod 60) in *. clearbody H M S.
    destruct (S =? 0) eqn:E; cbn [zpad app length Nat.eqb orb parse_clock];
      change (Ascii.eqb ":" ":") with true; cbn iota; rewrite !two_two by lia; cbn [rbind parse_fraction].
    + apply Z.eqb_eq in E. subst S.
      destruct (86400 <=? H * 3600 + M * 60 + 0) eqn:E2; [apply Z.leb_le in E2; lia|].
      destruct (Z.ltb_spec o 0); f_equal; lia.
    + destruct (86400 <=? H * 3600 + M * 60 + S) eqn:E2; [apply Z.leb_le in E2; lia|].
      destruct (Z.ltb_spec o 0); f_equal; lia.
Qed.

Lemma read_iso_text : forall t z, valid_datetime t = true ->
  (forall o, t_tz t = Some o -> Z.abs o < 86400) -> filter noZ z = [] ->
  read_datetime (unchars (datetime_iso t ++ z)) = Ok (wall_in_utc t).
Proof.
  intros t z V Hz Hf. rewrite iso_split, <- !app_assoc.
  rewrite (app_assoc (if t_us t =? 0 then [] else ["."%char] ++ zpad 6 (t_us t))).
  pose proof (proj1 (valid_datetime_iff _) V) as [Vd Vc].
  pose proof (proj1 (valid_clock_iff _ _ _ _) Vc) as Vc'.
  assert (Off : exists x, split_offset (match t_tz t with Some o => offset_iso o | None => [] end) = ([], x)
      /\ exists y, match x with None => Ok None | Some (neg, o) => let* x := parse_offset neg o in Ok (Some x) end = Ok y).
  { destruct (t_tz t) as [o|].
    - destruct (parse_offset_iso o (Hz o eq_refl)) as [neg [l [E1 E2]]].
      exists (Some (neg, l)). split; [exact E1|]. rewrite E2. eexists. reflexivity.
    - eexists. split; [reflexivity|]. eexists. reflexivity. }
  assert (Fo : filter noZ (match t_tz t with Some o => offset_iso o | None => [] end) =
               match t_tz t with Some o => offset_iso o | None => [] end).
  { destruct (t_tz t); [apply filter_offset|reflexivity]. }
  set (off := match t_tz t with Some o => offset_iso o | None => [] end) in *. clearbody off.
  destruct Off as [x [E1 [y E2]]].
  rewrite read_iso; [|exact V| |exact Hf].
  - assert (E : fst (split_offset ((if t_us t =? 0 then [] else ["."%char] ++ zpad 6 (t_us t)) ++ off))
         = (if t_us t =? 0 then [] else ["."%char] ++ zpad 6 (t_us t)) /\
       snd (split_offset ((if t_us t =? 0 then [] else ["."%char] ++ zpad 6 (t_us t)) ++ off)) = x).
    { destruct (t_us t =? 0); cbn [zpad app]; rewrite ?split_dot, ?split_digit, ?E1; split; reflexivity. }
    destruct E as [Ea Eb]. rewrite Ea, Eb, E2.
    assert (Pf : parse_fraction (if t_us t =? 0 then [] else ["."%char] ++ zpad 6 (t_us t)) = Ok (t_us t)).
    { destruct (t_us t =? 0) eqn:E0; [apply Z.eqb_eq in E0; rewrite E0; reflexivity|].
      cbn [zpad app parse_fraction]. change (Ascii.eqb "." ".") with true. cbn iota.
      rewrite six_digits by lia. reflexivity. }
    rewrite Pf. cbn [rbind]. rewrite mk_self by exact V. reflexivity.
  - rewrite filter_app, Fo. destruct (t_us t =? 0); [reflexivity|].
    rewrite filter_app, filter_zpad. reflexivity.
Qed.

(** ** Texts without seconds, minutes or a clock *)
Lemma short_date : forall d z, valid_date d = true -> filter noZ z = [] ->
  read_datetime (unchars (date_iso d ++ z)) = Ok (at_clock d 0 0).
Proof.
  intros d z V Hz. unfold read_datetime. rewrite chars_unchars.
  change (fun c => negb (Ascii.eqb c "Z")) with noZ. rewrite filter_date_iso, Hz.
  unfold datetime_fromiso.
  assert (E1 : forall x, firstn 10 (date_iso d ++ x) = date_iso d) by reflexivity.
  assert (E2 : forall x, skipn 10 (date_iso d ++ x) = x) by reflexivity.
  rewrite E1, E2, date_fromiso_iso by exact V. cbn [rbind]. unfold mk_datetime, mk_date.
  destruct d as [y m dd]. cb. rewrite V. reflexivity.
Qed.

Lemma short_clock : forall d c h m z, valid_date d = true -> filter noZ z = [] -> filter noZ c = c ->
  split_offset c = (c, None) -> parse_clock c = Ok (h, m, 0, 0) -> valid_clock h m 0 0 = true ->
  read_datetime (unchars (date_iso d ++ ["T"%char] ++ c ++ z)) = Ok (at_clock d h m).
Proof.
  intros d c h m z V Hz Hc Hs Hp Hv. unfold read_datetime. rewrite chars_unchars.
  change (fun c => negb (Ascii.eqb c "Z")) with noZ. rewrite filter_date_iso.
  cbn [app]. cbn [filter]. change (noZ "T") with true. cbn iota.
  rewrite filter_app, Hc, Hz, app_nil_r. unfold datetime_fromiso.
  assert (E1 : forall x, firstn 10 (date_iso d ++ x) = date_iso d) by reflexivity.
  assert (E2 : forall x, skipn 10 (date_iso d ++ x) = x) by reflexivity.
  rewrite E1, E2, date_fromiso_iso by exact V. cbn [rbind]. rewrite Hs, Hp. cbn [rbind].
  unfold mk_datetime, mk_date. destruct d as [y mo dd]. cb. rewrite V. cbn [rbind]. rewrite Hv. reflexivity.
Qed.

Lemma short_hour : forall d h z, valid_date d = true -> 0 <= h < 24 -> filter noZ z = [] ->
  read_datetime (unchars (date_iso d ++ ["T"%char] ++ zpad 2 h ++ z)) = Ok (at_clock d h 0).
Proof.
  intros d h z V Hh Hz. apply short_clock; try assumption.
  - apply filter_zpad.
  - cbn [zpad app]. rewrite !split_digit. reflexivity.
  - cbn [zpad app parse_clock]. rewrite two_two by lia. reflexivity.
  - apply valid_clock_iff. lia.
Qed.

Lemma short_minute : forall d h m z, valid_date d = true -> 0 <= h < 24 -> 0 <= m < 60 -> filter noZ z = [] ->
  read_datetime (unchars (date_iso d ++ ["T"%char] ++ (zpad 2 h ++ [":"%char] ++ zpad 2 m) ++ z)) =
  Ok (at_clock d h m).
Proof.
  intros d h m z V Hh Hm Hz. apply short_clock; try assumption.
  - rewrite !filter_app, !filter_zpad. reflexivity.
  - cbn [zpad app]. rewrite !split_digit, split_colon, !split_digit. reflexivity.
  - cbn [zpad app parse_clock]. rewrite two_two by lia. cbn [rbind].
    change (Ascii.eqb ":" ":") with true. cbn iota. rewrite two_two by lia. reflexivity.
  - apply valid_clock_iff. lia.
Qed.

(** ** The day count is ordered as the calendar is *)
Definition yday (y : Z) : Z := 365 * y + y / 4 - y / 100 + y / 400.

Lemma yday_step : forall y, yday (y + 1) - yday y = if leap_year (y + 1) then 366 else 365.
Proof.
  intros y. unfold yday, leap_year.
  destruct ((y + 1) mod 4 =? 0) eqn:A; [apply Z.eqb_eq in A|apply Z.eqb_neq in A];
  (destruct ((y + 1) mod 100 =? 0) eqn:B; [apply Z.eqb_eq in B|apply Z.eqb_neq in B]);
  (destruct ((y + 1) mod 400 =? 0) eqn:C'; [apply Z.eqb_eq in C'|apply Z.eqb_neq in C']);
  cbn [andb orb negb]; Z.to_euclidean_division_equations; lia.
Qed.

Lemma yday_mono : forall y k, 0 <= k -> yday y + 365 * k <= yday (y + k).
Proof.
  intros y k. revert k. apply natlike_ind.
  - replace (y + 0) with y by lia. lia.
  - intros k Hk IH. pose proof (yday_step (y + k)) as E.
    replace (y + Z.succ k) with (y + k + 1) by lia.
    destruct (leap_year (y + k + 1)); lia.
Qed.

(** where a date lies in the year that begins in March *)
Definition march_year (d : pdate) : Z := if d_month d <=? 2 then d_year d - 1 else d_year d.
Definition march_day (d : pdate) : Z := (153 * ((d_month d + 9) mod 12) + 2) / 5 + d_day d - 1.

Lemma day_number_split : forall d, day_number d = yday (march_year d) + march_day d.
Proof. intros. unfold day_number, yday, march_day, march_year. lia. Qed.

Ltac each_month m := let C := fresh "C" in
  assert (C : m = 1 \/ m = 2 \/ m = 3 \/ m = 4 \/ m = 5 \/ m = 6 \/ m = 7 \/ m = 8 \/
    m = 9 \/ m = 10 \/ m = 11 \/ m = 12) by lia;
  repeat (destruct C as [->|C]); [.. | subst m].

Lemma march_day_bound : forall d, valid_date d = true ->
  0 <= march_day d < yday (march_year d + 1) - yday (march_year d).
Proof.
  intros [y m d] V. apply valid_date_iff in V. cb. rewrite yday_step.
  unfold march_day, march_year. cb. unfold days_in_month in V.
  each_month m; cbn -[leap_year Z.add Z.sub Z.mul Z.div] in *; const_months; rewrite ?Z.sub_add;
    destruct (leap_year _); lia.
Qed.

Lemma day_number_mono : forall a b, valid_date a = true -> valid_date b = true ->
  earlier (dlist a) (dlist b) -> day_number a < day_number b.
Proof.
  intros a b Va Vb H. rewrite !day_number_split.
  pose proof (march_day_bound a Va) as Ba. pose proof (march_day_bound b Vb) as Bb.
  assert (C : march_year a < march_year b \/ march_year a = march_year b /\ march_day a < march_day b).
  { apply valid_date_iff in Va, Vb. destruct a as [y m d], b as [y2 m2 d2]. unfold dlist in H.
    pose proof (days_in_month_pos y m) as P1.
    cb. cbn [earlier] in H. unfold march_year, march_day in *. cb. clear Ba Bb.
    unfold days_in_month in Va.
    destruct H as [H|[<- [H|[<- [H|[_ []]]]]]].
    - destruct (m <=? 2) eqn:E1; destruct (m2 <=? 2) eqn:E2; rewrite ?Z.leb_le, ?Z.leb_gt in *; try lia.
      destruct (Z.eq_dec y (y2 - 1)); [right|left; lia]. split; [lia|]. clear P1.
      assert (M2 : m2 = 1 \/ m2 = 2) by lia.
      destruct M2 as [-> | ->]; each_month m; cbn -[Z.div Z.add Z.mul Z.modulo] in Va; try lia;
        const_months; lia.
    - destruct (m <=? 2) eqn:E1; destruct (m2 <=? 2) eqn:E2; rewrite ?Z.leb_le, ?Z.leb_gt in *; try lia;
        right; (split; [reflexivity|]); clear P1.
      + assert (m = 1 /\ m2 = 2) as [-> ->] by lia. const_months. cbn in Va. lia.
      + each_month m; try lia; each_month m2; try lia; cbn -[Z.div Z.add Z.mul Z.modulo] in Va;
          const_months; lia.
    - right. split; [reflexivity|]. lia. }
  destruct C as [C|[C1 C2]]; [|rewrite C1; lia].
  replace (march_year b) with (march_year a + 1 + (march_year b - march_year a - 1)) by lia.
  pose proof (yday_mono (march_year a + 1) (march_year b - march_year a - 1) ltac:(lia)). lia.
Qed.

Definition tlist (t : pdatetime) : list Z :=
  [d_year (t_date t); d_month (t_date t); d_day (t_date t); t_hour t; t_min t; t_sec t; t_us t].

Lemma clock_mono : forall a b, valid_datetime a = true -> valid_datetime b = true ->
  earlier (tlist a) (tlist b) -> clock_us a < clock_us b.
Proof.
  intros a b Va Vb H. apply valid_datetime_iff in Va, Vb.
  destruct Va as [Da Ca], Vb as [Db Cb]. apply valid_clock_iff in Ca, Cb.
  assert (C : day_number (t_date a) < day_number (t_date b) \/
     t_date a = t_date b /\ earlier [t_hour a; t_min a; t_sec a; t_us a]
                              [t_hour b; t_min b; t_sec b; t_us b]).
  { pose proof (day_number_mono _ _ Da Db) as M. unfold dlist in M. unfold tlist in H.
    cbn [earlier] in *.
    destruct H as [H|[E1 [H|[E2 [H|[E3 H]]]]]]; [left; apply M; lia..|].
    right. split; [|exact H]. destruct (t_date a), (t_date b). cb. congruence. }
  unfold clock_us. destruct C as [C|[-> C]]; [lia|]. cbn [earlier] in C. lia.
Qed.

Lemma earlier_cases : forall a b, length a = length b -> earlier a b \/ a = b \/ earlier b a.
Proof.
  induction a as [|x a IH]; intros [|y b] H; try discriminate H; [auto|].
  injection H as H. destruct (IH b H) as [E|[->|E]]; destruct (Z.lt_total x y) as [L|[->|L]];
    cbn [earlier]; auto.
Qed.

Lemma tlist_inj : forall a b, tlist a = tlist b -> clock_us a = clock_us b.
Proof.
  intros [[y m d] h mi s us tz] [[y2 m2 d2] h2 mi2 s2 us2 tz2] H. unfold tlist in H. cb.
  injection H as -> -> -> -> -> -> ->. reflexivity.
Qed.

Lemma clock_order : forall a b, valid_datetime a = true -> valid_datetime b = true ->
  (clock_us a < clock_us b <-> earlier (tlist a) (tlist b)).
Proof.
  intros a b Va Vb. split; [|apply clock_mono; assumption]. intros H.
  destruct (earlier_cases (tlist a) (tlist b) eq_refl) as [E|[E|E]]; [exact E| |].
  - apply tlist_inj in E. lia.
  - apply clock_mono in E; [lia|assumption..].
Qed.

(** ** before and after *)
Lemma moment_dt : forall v a o, moment v a o -> exists t, date_to_datetime v = VDatetime t /\
  valid_datetime t = true /\ tlist t = a /\ t_tz t = o /\ is_none v = false.
Proof.
  intros v a o H. inversion H; subst; clear H.
  - eexists. split; [reflexivity|]. repeat split. apply valid_datetime_iff. split; [assumption|reflexivity].
  - eexists. split; [reflexivity|]. repeat split. assumption.
Qed.

Lemma moment_fun : forall v a o a' o', moment v a o -> moment v a' o' -> a = a' /\ o = o'.
Proof. intros v a o a' o' H H'. inversion H; subst; inversion H'; subst; auto. Qed.

Lemma dt_le_precedes : forall v w, comparable v w ->
  exists b, dt_le (date_to_datetime w) (date_to_datetime v) = Ok b /\
    (b = false <-> precedes v w).
Proof.
  intros v w (a & oa & b & ob & Ma & Mb & O).
  destruct (moment_dt _ _ _ Ma) as (t & Et & Vt & La & Ta & _).
  destruct (moment_dt _ _ _ Mb) as (u & Eu & Vu & Lb & Tb & _).
  rewrite Et, Eu. cbn [dt_le]. rewrite Ta, Tb.
  destruct oa as [i|], ob as [j|].
  - eexists. split; [reflexivity|]. rewrite Z.leb_gt. split.
    + intros L.
      inversion Ma; subst. inversion Mb; subst.
      cbn [date_to_datetime] in Et, Eu. injection Et as <-. injection Eu as <-.
      eapply pr_aware; eassumption.
    + intros P. inversion P as [? ? ? ? M1 M2|t' u' i' j' V1 V2 T1 T2 L]; subst.
      * destruct (moment_fun _ _ _ _ _ Ma M1) as [_ E]. discriminate E.
      * cbn [date_to_datetime] in Et, Eu. injection Et as <-. injection Eu as <-.
        rewrite T1 in Ta. rewrite T2 in Tb. injection Ta as <-. injection Tb as <-. exact L.
  - exfalso. destruct O as [_ O]. discriminate (O eq_refl).
  - exfalso. destruct O as [O _]. discriminate (O eq_refl).
  - eexists. split; [reflexivity|]. rewrite Z.leb_gt. split.
    + intros L. apply clock_order in L; [|assumption..].
      rewrite La, Lb in L. eapply pr_naive; eassumption.
    + intros P. inversion P as [? ? a' b' M1 M2 L|t' u' i' j' V1 V2 T1 T2 L]; subst.
      * destruct (moment_fun _ _ _ _ _ Ma M1) as [<- _].
        destruct (moment_fun _ _ _ _ _ Mb M2) as [<- _].
        apply clock_mono in L; [exact L|assumption..].
      * cbn [date_to_datetime] in Et. injection Et as <-. rewrite T1 in Ta. discriminate Ta.
Qed.

Lemma comparable_sym : forall v w, comparable v w -> comparable w v.
Proof.
  intros v w (a & oa & b & ob & Ma & Mb & O). exists b, ob, a, oa. repeat split; try assumption; tauto.
Qed.

Lemma dt_le_mixed : forall v w, incomparable v w ->
  dt_le (date_to_datetime w) (date_to_datetime v) = Err ETypeError.
Proof.
  intros v w (a & oa & b & ob & Ma & Mb & O).
  destruct (moment_dt _ _ _ Ma) as (t & Et & Vt & La & Ta & _).
  destruct (moment_dt _ _ _ Mb) as (u & Eu & Vu & Lb & Tb & _).
  rewrite Et, Eu. cbn [dt_le]. rewrite Ta, Tb.
  destruct oa, ob; try reflexivity; exfalso; apply O; split; intros H; congruence.
Qed.

Lemma incomparable_sym : forall v w, incomparable v w -> incomparable w v.
Proof.
  intros v w (a & oa & b & ob & Ma & Mb & O). exists b, ob, a, oa. repeat split; try assumption; tauto.
Qed.

Section BA.
  Context {S P : Type} (s0 : S).
  Variable oeq : oid -> oid -> bool.
  Variable resolve : P -> st S value.
  Variable vexc : string -> exn.
  Notation validate := (leaf_validate oeq resolve vexc).

  Lemma comparable_some : forall v w, comparable v w -> is_none v = false /\ is_none w = false.
  Proof.
    intros v w (a & oa & b & ob & Ma & Mb & O).
    destruct (moment_dt _ _ _ Ma) as (t & _ & _ & _ & _ & E1).
    destruct (moment_dt _ _ _ Mb) as (u & _ & _ & _ & _ & E2). auto.
  Qed.

  Lemma incomparable_some : forall v w, incomparable v w -> is_none v = false /\ is_none w = false.
  Proof.
    intros v w (a & oa & b & ob & Ma & Mb & O).
    destruct (moment_dt _ _ _ Ma) as (t & _ & _ & _ & _ & E1).
    destruct (moment_dt _ _ _ Mb) as (u & _ & _ & _ & _ & E2). auto.
  Qed.

  Lemma run_before : forall p w v s, resolves resolve p w -> is_none v = false -> is_none w = false ->
    validate (LBefore p) v s =
    (match dt_le (date_to_datetime w) (date_to_datetime v) with
     | Ok true => Err (vexc "value is too late"%string) | Ok false => Ok tt | Err e => Err e end, s).
  Proof.
    intros p w v s R Nv Nw. cbn [leaf_validate]. unfold v_before. rewrite Nv.
    unfold bind at 1. rewrite (R s).
    assert (E : (match w with VDate _ => bind (resolve p) (fun q => ret (date_to_datetime q)) | _ => ret w end) s
                = (Ok (date_to_datetime w), s)).
    { destruct w; try reflexivity. unfold bind. rewrite (R s). reflexivity. }
    unfold bind at 1. rewrite E.
    assert (N : is_none (date_to_datetime w) = false) by (destruct w; auto). rewrite N.
    unfold bind, lift. destruct (dt_le _ _) as [[|]|]; reflexivity.
  Qed.

  Lemma run_after : forall p w v s, resolves resolve p w -> is_none v = false ->
    validate (LAfter p) v s =
    (match dt_le (date_to_datetime v) (date_to_datetime w) with
     | Ok true => Err (vexc "value is too early"%string) | Ok false => Ok tt | Err e => Err e end, s).
  Proof.
    intros p w v s R Nv. cbn [leaf_validate]. unfold v_after. rewrite Nv.
    unfold bind at 1. rewrite (R s). unfold bind, lift.
    destruct (dt_le _ _) as [[|]|]; reflexivity.
  Qed.

  Lemma decides_bool : forall (m : st S unit) (b : bool) msg (H : Prop),
    (forall s, m s = ((if b then Err (vexc msg) else Ok tt), s)) -> (b = false <-> H) ->
    decides vexc m H.
  Proof.
    intros m b msg H E I. apply decides_intro.
    - exact s0.
    - intros h. apply I in h. subst b. exact E.
    - intros h. destruct b; [|exfalso; apply h; apply I; reflexivity]. exists msg. exact E.
    - destruct b; [right|left; apply I; reflexivity]. intros h. apply I in h. discriminate h.
  Qed.

  Lemma before_decides : forall p w v, resolves resolve p w -> comparable v w ->
    decides vexc (validate (LBefore p) v) (precedes v w).
  Proof.
    intros p w v R C. destruct (comparable_some _ _ C) as [Nv Nw].
    destruct (dt_le_precedes _ _ C) as [b [E I]].
    apply decides_bool with (b := b) (msg := "value is too late"%string); [|exact I].
    intros s. rewrite (run_before p w v s R Nv Nw), E. destruct b; reflexivity.
  Qed.

  Lemma after_decides : forall p w v, resolves resolve p w -> comparable v w ->
    decides vexc (validate (LAfter p) v) (precedes w v).
  Proof.
    intros p w v R C. destruct (comparable_some _ _ C) as [Nv Nw].
    destruct (dt_le_precedes _ _ (comparable_sym _ _ C)) as [b [E I]].
    apply decides_bool with (b := b) (msg := "value is too early"%string); [|exact I].
    intros s. rewrite (run_after p w v s R Nv), E. destruct b; reflexivity.
  Qed.

  Lemma mixed_raises : forall p w v, resolves resolve p w -> incomparable v w ->
    raises (validate (LBefore p) v) ETypeError /\ raises (validate (LAfter p) v) ETypeError.
  Proof.
    intros p w v R C. destruct (incomparable_some _ _ C) as [Nv Nw]. split; intros s.
    - rewrite (run_before p w v s R Nv Nw), (dt_le_mixed _ _ C). reflexivity.
    - rewrite (run_after p w v s R Nv), (dt_le_mixed _ _ (incomparable_sym _ _ C)). reflexivity.
  Qed.

  Lemma before_none_point : forall p v, resolves resolve p VNone ->
    accepts (validate (LBefore p) v).
  Proof.
    intros p v R s. cbn [leaf_validate]. unfold v_before. destruct (is_none v) eqn:N; [reflexivity|].
    unfold bind. rewrite (R s). reflexivity.
  Qed.

  Lemma after_none_point : forall p v a o, resolves resolve p VNone -> moment v a o ->
    raises (validate (LAfter p) v) ETypeError.
  Proof.
    intros p v a o R M s. destruct (moment_dt _ _ _ M) as (t & Et & _ & _ & _ & Nv).
    rewrite (run_after p VNone v s R Nv), Et. reflexivity.
  Qed.
End BA.

(** ** The modifiers in a chain *)
Section Chain.
  Context {S P : Type} (s0 : S).
  Variable other_str : value -> string.
  Variable farith : arith -> value -> value -> res value.
  Variable resolve : P -> st S value.
  Variable vexc : string -> exn.
  Notation transform := (leaf_transform other_str farith resolve vexc).
  Notation tojson := (leaf_tojson (S := S)).

  Lemma beginning_run : forall u v s, transform (beginning_leaf u) v s = (Ok (beginning_of u v), s).
  Proof. intros [] v s; reflexivity. Qed.

  Lemma next_run : forall u v s, transform (next_leaf u) v s = (next_of u v, s).
  Proof.
    intros [] v s; reflexivity.
  Qed.

  Lemma beginning_thm : forall u v a c, shows v a c ->
    exists r b, gives (transform (beginning_leaf u) v) r /\ shows r b c /\
      starts_unit u b /\ same_unit u b a /\ not_later b a /\
      (forall w x, shows w x c -> starts_unit u x -> not_later x a -> not_later x b) /\
      gives (transform (beginning_leaf u) r) r.
  Proof.
    intros u v a c H. destruct (beginning_spec u v a c H) as [b [H1 [H2 [H3 [H4 H5]]]]].
    exists (beginning_of u v), b. repeat (split; [assumption || (intros s; apply beginning_run)|]).
    intros s. rewrite beginning_run. rewrite (beginning_idem u v). reflexivity.
  Qed.

  Lemma next_thm : forall u v a c, shows v a c -> applies u c ->
    (forall s, snd (transform (next_leaf u) v s) = s) /\
    (forall r s, fst (transform (next_leaf u) v s) = Ok r ->
       exists b, shows r b c /\ starts_unit u b /\ earlier a b /\
         (forall w x, shows w x c -> starts_unit u x -> earlier a x -> not_later b x)) /\
    ((exists w x, shows w x c /\ starts_unit u x /\ earlier a x) ->
       exists r, gives (transform (next_leaf u) v) r).
  Proof.
    intros u v a c H A. destruct (next_unit u v a c H A) as [N1 N2]. split; [|split].
    - intros s. rewrite next_run. reflexivity.
    - intros r s E. rewrite next_run in E. exact (N1 r E).
    - intros (w & x & H1 & H2 & H3). destruct (N2 w x H1 H2 H3) as [r E].
      exists r. intros s. rewrite next_run, E. reflexivity.
  Qed.

  Lemma date_json_thm : forall d, valid_date d = true ->
    exists text, gives (tojson (LType (P := P) TDate) (VDate d)) (VStr text) /\
      gives (transform (LType TDate) (VStr text)) (VDate d).
  Proof.
    intros d V. exists (json_date d). split; intros s; [reflexivity|].
    cbn [leaf_transform t_type]. unfold t_type. rewrite (date_round_trip d V). reflexivity.
  Qed.

  Lemma datetime_json_thm : forall t, valid_datetime t = true ->
    exists text, gives (tojson (LType (P := P) TDatetime) (VDatetime t)) (VStr text) /\
      (t_tz t = None \/ t_us t <> 0 ->
         gives (transform (LType TDatetime) (VStr text)) (VDatetime (in_utc_ms t))) /\
      (t_tz t <> None /\ t_us t = 0 ->
         raises (transform (LType TDatetime) (VStr text)) (vexc "wrong datetime format"%string)).
  Proof.
    intros t V. exists (json_datetime t). split; [intros s; reflexivity|].
    pose proof (datetime_round_trip t V) as E. split.
    - intros H s. cbn [leaf_transform]. unfold t_type. rewrite E. unfold in_utc_ms.
      destruct (t_tz t); [|reflexivity]. destruct (t_us t =? 0) eqn:E0; [|reflexivity].
      apply Z.eqb_eq in E0. destruct H as [H|H]; [discriminate H|contradiction].
    - intros [H H0] s. cbn [leaf_transform]. unfold t_type. rewrite E, H0.
      destruct (t_tz t); [reflexivity|contradiction].
  Qed.

  Lemma datetime_text_thm : forall t zs, valid_datetime t = true ->
    (forall o, t_tz t = Some o -> Z.abs o < 86400) -> (forall c, In c zs -> c = "Z"%char) ->
    gives (transform (LType TDatetime) (VStr (unchars (datetime_iso t ++ zs))))
      (VDatetime (wall_in_utc t)).
  Proof.
    intros t zs V Ho Hz s. cbn [leaf_transform]. unfold t_type.
    rewrite read_iso_text; [reflexivity|exact V|exact Ho|].
    induction zs as [|c zs IH]; [reflexivity|]. cbn [filter].
    rewrite (Hz c (or_introl eq_refl)). apply IH. intros x Hx. apply Hz. right. exact Hx.
  Qed.

  Lemma short_text_thm : forall d h m zs, valid_date d = true -> 0 <= h < 24 -> 0 <= m < 60 ->
    (forall c, In c zs -> c = "Z"%char) ->
    gives (transform (LType TDatetime) (VStr (unchars (date_iso d ++ zs)))) (VDatetime (at_clock d 0 0)) /\
    gives (transform (LType TDatetime) (VStr (unchars (date_iso d ++ ["T"%char] ++ zpad 2 h ++ zs))))
      (VDatetime (at_clock d h 0)) /\
    gives (transform (LType TDatetime)
             (VStr (unchars (date_iso d ++ ["T"%char] ++ (zpad 2 h ++ [":"%char] ++ zpad 2 m) ++ zs))))
      (VDatetime (at_clock d h m)).
  Proof.
    intros d h m zs V Hh Hm Hz.
    assert (F : filter noZ zs = []).
    { induction zs as [|c zs IH]; [reflexivity|]. cbn [filter].
      rewrite (Hz c (or_introl eq_refl)). apply IH. intros x Hx. apply Hz. right. exact Hx. }
    repeat split; intros s; cbn [leaf_transform]; unfold t_type.
    - rewrite (short_date d zs V F). reflexivity.
    - rewrite (short_hour d h zs V Hh F). reflexivity.
    - rewrite (short_minute d h m zs V Hh Hm F). reflexivity.
  Qed.

  Lemma date_text_thm : forall d rest, valid_date d = true ->
    gives (transform (LType TDate) (VStr (unchars (date_iso d) ++ rest))) (VDate d).
  Proof.
    intros d rest V s. cbn [leaf_transform]. unfold t_type.
    rewrite (read_date_prefix d rest V). reflexivity.
  Qed.
End Chain.
