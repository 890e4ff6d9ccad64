(** PropCal.v -- C18, C19, C20 and C53: dates and times.

    In the section, [S] is the program state, [resolve] evaluates a modifier's
    parameter, [oeq] is the equality of JSON objects, [other_str] is [str()] of values
    other than None, bools, ints and strings, and [farith] is float arithmetic.  All are
    arbitrary; [s0] only says that there is a state. *)
From Verif Require Import Base Mon Values PyStr CalModel CalSpec LeafModel LeafSpec CalProofs.
From Coq Require Import Lia.
Open Scope Z_scope.
Open Scope list_scope.

Lemma digit_numeral n : (48 <= nat_of_ascii (digit n) <= 57)%nat /\ Z.of_nat (nat_of_ascii (digit n)) - 48 = n mod 10.
Proof.
  unfold digit. pose proof (Z.mod_pos_bound n 10 ltac:(lia)). rewrite nat_ascii_embedding by lia. lia.
Qed.
Lemma zpad_numeral w : forall n, 0 <= n < 10 ^ Z.of_nat w -> numeral w n (zpad w n).
Proof.
  induction w as [| w IH]; intros n Hn; unfold numeral.
  - cbn in Hn. cbn. repeat split; [contradiction | contradiction | lia].
  - rewrite Nat2Z.inj_succ, Z.pow_succ_r in Hn by lia.
    destruct (IH (n / 10)) as (L & D & V). { split; [apply Z.div_pos; lia | apply Z.div_lt_upper_bound; lia]. }
    destruct (digit_numeral n) as [B E]. cbn [zpad]. split; [| split].
    + rewrite app_length, L. cbn. lia.
    + intros c Hc. apply in_app_iff in Hc. destruct Hc as [Hc | [<- | []]]; [apply D, Hc | exact B].
    + rewrite fold_left_app, V. cbn [fold_left]. rewrite E. pose proof (Z.div_mod n 10 ltac:(lia)). lia.
Qed.
Lemma valid_date_numerals d : valid_date d = true ->
  numeral 4 (d_year d) (zpad 4 (d_year d)) /\ numeral 2 (d_month d) (zpad 2 (d_month d)) /\ numeral 2 (d_day d) (zpad 2 (d_day d)).
Proof.
  unfold valid_date. rewrite !andb_true_iff, !Z.leb_le. intros H.
  assert (days_in_month (d_year d) (d_month d) <= 31) by (unfold days_in_month; destruct (d_month d =? 2); [destruct (leap_year _); lia | destruct (_ || _); lia]).
  (split; [| split]); apply zpad_numeral; cbn; lia.
Qed.
Lemma valid_clock_numerals h m s u : valid_clock h m s u = true ->
  numeral 2 h (zpad 2 h) /\ numeral 2 m (zpad 2 m) /\ numeral 2 s (zpad 2 s) /\ numeral 3 (u / 1000) (zpad 3 (u / 1000)).
Proof.
  unfold valid_clock. rewrite !andb_true_iff, !Z.leb_le. intros H.
  split; [| split; [| split]]; apply zpad_numeral; cbn; [lia | lia | lia |].
  split; [apply Z.div_pos; lia | apply Z.div_lt_upper_bound; lia].
Qed.

Section Props.
  Context {S P : Type} (s0 : S).
  Variable oeq : oid -> oid -> bool.
  Variable other_str : value -> string.
  Variable farith : arith -> value -> value -> res value.
  Variable resolve : P -> st S value.
  Variable vexc : string -> exn.
  Notation validate := (leaf_validate oeq resolve vexc).
  Notation transform := (leaf_transform other_str farith resolve vexc).
  Notation tojson := (leaf_tojson (S := S)).
  Notation denotes := (resolves resolve).

  (** ** C18: the result starts the unit that contains the input; it is the latest start
      that is not after the input; doing it again changes nothing. *)
  Theorem C18_beginning : forall u v a c, shows v a c ->
    exists r b, gives (transform (beginning_leaf u) v) r /\ shows r b c /\
      starts_unit u b /\ same_unit u b a /\ not_later b a /\
      (forall w x, shows w x c -> starts_unit u x -> not_later x a -> not_later x b) /\
      gives (transform (beginning_leaf u) r) r.
  Proof. exact (beginning_thm other_str farith resolve vexc). Qed.

  (** ** C19: the result starts a unit, is later than the input, and is the first such;
      it exists whenever the calendar has a later start of a unit. *)
  Theorem C19_next : forall u v a c, shows v a c -> applies u c ->
    (forall s, snd (transform (next_leaf u) v s) = s) /\
    (forall r s, fst (transform (next_leaf u) v s) = Ok r ->
       exists b, shows r b c /\ starts_unit u b /\ earlier a b /\
         (forall w x, shows w x c -> starts_unit u x -> earlier a x -> not_later b x)) /\
    ((exists w x, shows w x c /\ starts_unit u x /\ earlier a x) ->
       exists r, gives (transform (next_leaf u) v) r).
  Proof. exact (next_thm other_str farith resolve vexc). Qed.

  (** ** C20 *)
  Theorem C20_date_round_trip : forall d, valid_date d = true ->
    exists text, gives (tojson (LType (P := P) TDate) (VDate d)) (VStr text) /\
      gives (transform (LType TDate) (VStr text)) (VDate d).
  Proof. exact (date_json_thm other_str farith resolve vexc). Qed.

  (** The form of a date: year, month and day in digits, and midnight in UTC. *)
  Theorem C20_date_form : forall d, valid_date d = true ->
    exists y m dd, numeral 4 (d_year d) y /\ numeral 2 (d_month d) m /\ numeral 2 (d_day d) dd /\
      gives (tojson (LType (P := P) TDate) (VDate d))
        (VStr (unchars (y ++ chars "-" ++ m ++ chars "-" ++ dd ++ chars "T00:00:00.000Z"))).
  Proof.
    intros d V. apply valid_date_numerals in V. destruct V as (Y & M & D).
    exists (zpad 4 (d_year d)), (zpad 2 (d_month d)), (zpad 2 (d_day d)). do 3 (split; [assumption |]).
    intros s. cbn [leaf_tojson]. unfold json_date, date_iso. rewrite <- !app_assoc. reflexivity.
  Qed.

  (** The form of a datetime: the same, and its clock; milliseconds are there unless they and
      the microseconds are 0. *)
  Theorem C20_datetime_form : forall t, valid_datetime t = true ->
    exists y m dd h mi sec, numeral 4 (d_year (t_date t)) y /\ numeral 2 (d_month (t_date t)) m /\
      numeral 2 (d_day (t_date t)) dd /\ numeral 2 (t_hour t) h /\ numeral 2 (t_min t) mi /\ numeral 2 (t_sec t) sec /\
      let text := y ++ chars "-" ++ m ++ chars "-" ++ dd ++ chars "T" ++ h ++ chars ":" ++ mi ++ chars ":" ++ sec in
      (t_us t <> 0 -> exists ms, numeral 3 (t_us t / 1000) ms /\
         gives (tojson (LType (P := P) TDatetime) (VDatetime t)) (VStr (unchars (text ++ chars "." ++ ms ++ chars "Z")))) /\
      (t_us t = 0 -> t_tz t = None ->
         gives (tojson (LType (P := P) TDatetime) (VDatetime t)) (VStr (unchars (text ++ chars "Z")))).
  Proof.
    intros t V. apply andb_true_iff in V. destruct V as [VD VC]. apply valid_date_numerals in VD. destruct VD as (Y & M & D).
    apply valid_clock_numerals in VC. destruct VC as (H & MI & SE & US).
    exists (zpad 4 (d_year (t_date t))), (zpad 2 (d_month (t_date t))), (zpad 2 (d_day (t_date t))), (zpad 2 (t_hour t)), (zpad 2 (t_min t)), (zpad 2 (t_sec t)).
    do 6 (split; [assumption |]). cbn zeta. split.
    - intros N. exists (zpad 3 (t_us t / 1000)). split; [exact US |]. intros s. cbn [leaf_tojson]. unfold json_datetime, datetime_iso, date_iso.
      apply Z.eqb_neq in N. rewrite N. cbn [zpad app firstn chars list_ascii_of_string]. rewrite !Z.div_div by lia. reflexivity.
    - intros N T. intros s. cbn [leaf_tojson]. unfold json_datetime, datetime_iso, date_iso. rewrite N, T. cbn [Z.eqb zpad app firstn chars list_ascii_of_string]. reflexivity.
  Qed.

  (** What every datetime reads back as: the same clock in UTC, cut to milliseconds; but
      a datetime with an offset and no fraction of a second is refused. *)
  Theorem C20_datetime_round_trip : forall t, valid_datetime t = true ->
    exists text, gives (tojson (LType (P := P) TDatetime) (VDatetime t)) (VStr text) /\
      (t_tz t = None \/ t_us t <> 0 ->
         gives (transform (LType TDatetime) (VStr text)) (VDatetime (in_utc_ms t))) /\
      (t_tz t <> None /\ t_us t = 0 ->
         raises (transform (LType TDatetime) (VStr text)) (vexc "wrong datetime format"%string)).
  Proof. exact (datetime_json_thm other_str farith resolve vexc). Qed.

  (** ISO text with an offset is accepted, but the offset is replaced by UTC. *)
  Theorem C20_iso_text : forall t zs, valid_datetime t = true ->
    (forall o, t_tz t = Some o -> Z.abs o < 86400) -> (forall c, In c zs -> c = "Z"%char) ->
    gives (transform (LType TDatetime) (VStr (unchars (datetime_iso t ++ zs))))
      (VDatetime (wall_in_utc t)).
  Proof. exact (datetime_text_thm other_str farith resolve vexc). Qed.

  (** A text without seconds, without minutes or without a clock is the start of what it
      names. *)
  Theorem C20_short_text : forall d h m zs, valid_date d = true -> 0 <= h < 24 -> 0 <= m < 60 ->
    (forall c, In c zs -> c = "Z"%char) ->
    gives (transform (LType TDatetime) (VStr (unchars (date_iso d ++ zs)))) (VDatetime (at_clock d 0 0)) /\
    gives (transform (LType TDatetime) (VStr (unchars (date_iso d ++ ["T"%char] ++ zpad 2 h ++ zs))))
      (VDatetime (at_clock d h 0)) /\
    gives (transform (LType TDatetime)
             (VStr (unchars (date_iso d ++ ["T"%char] ++ (zpad 2 h ++ [":"%char] ++ zpad 2 m) ++ zs))))
      (VDatetime (at_clock d h m)).
  Proof. exact (short_text_thm other_str farith resolve vexc). Qed.

  (** A date field reads the first ten characters and ignores what follows. *)
  Theorem C20_date_ignores_rest : forall d rest, valid_date d = true ->
    gives (transform (LType TDate) (VStr (unchars (date_iso d) ++ rest))) (VDate d).
  Proof. exact (date_text_thm other_str farith resolve vexc). Qed.

  (** ** C53 *)
  Theorem C53_before : forall p w v, denotes p w -> comparable v w ->
    decides vexc (validate (LBefore p) v) (precedes v w).
  Proof. exact (before_decides s0 oeq resolve vexc). Qed.

  Theorem C53_after : forall p w v, denotes p w -> comparable v w ->
    decides vexc (validate (LAfter p) v) (precedes w v).
  Proof. exact (after_decides s0 oeq resolve vexc). Qed.

  (** One with an offset and one without: neither accepted nor refused, a TypeError. *)
  Theorem C53_mixed_type_error : forall p w v, denotes p w -> incomparable v w ->
    raises (validate (LBefore p) v) ETypeError /\ raises (validate (LAfter p) v) ETypeError.
  Proof. exact (mixed_raises oeq resolve vexc). Qed.

  (** A point that is None: before accepts everything, after raises. *)
  Theorem C53_before_no_point : forall p v, denotes p VNone -> accepts (validate (LBefore p) v).
  Proof. exact (before_none_point oeq resolve vexc). Qed.

  Theorem C53_after_no_point : forall p v a o, denotes p VNone -> moment v a o ->
    raises (validate (LAfter p) v) ETypeError.
  Proof. exact (after_none_point oeq resolve vexc). Qed.
End Props.

(** The calendar used above is the day count: the day after a date is one more day, and
    the order of the numbers is the order of the counts. *)
Theorem C19_next_day_is_one_day : forall d d', valid_date d = true -> next_day d = Ok d' ->
  day_number d' = day_number d + 1.
Proof. exact next_day_number. Qed.

Theorem C53_order_is_day_count : forall a b, valid_datetime a = true -> valid_datetime b = true ->
  (clock_us a < clock_us b <->
   earlier [d_year (t_date a); d_month (t_date a); d_day (t_date a); t_hour a; t_min a; t_sec a; t_us a]
           [d_year (t_date b); d_month (t_date b); d_day (t_date b); t_hour b; t_min b; t_sec b; t_us b]).
Proof. exact clock_order. Qed.

Print Assumptions C18_beginning.
Print Assumptions C19_next.
Print Assumptions C20_date_round_trip.
Print Assumptions C20_date_form.
Print Assumptions C20_datetime_form.
Print Assumptions C20_datetime_round_trip.
Print Assumptions C20_iso_text.
Print Assumptions C20_short_text.
Print Assumptions C20_date_ignores_rest.
Print Assumptions C53_before.
Print Assumptions C53_after.
Print Assumptions C53_mixed_type_error.
Print Assumptions C53_before_no_point.
Print Assumptions C53_after_no_point.
Print Assumptions C19_next_day_is_one_day.
Print Assumptions C53_order_is_day_count.

(** ** Examples *)
Definition k_resolve (v : value) : st nat value := ret v.
Definition k_vexc (m : string) : exn := EValueError.
Definition k_arith (a : arith) (x y : value) : res value := Err ETypeError.
Definition day (y m d : Z) := {| d_year := y; d_month := m; d_day := d |}.
Definition at_ (d : pdate) (h m s us : Z) (tz : option Z) :=
  {| t_date := d; t_hour := h; t_min := m; t_sec := s; t_us := us; t_tz := tz |}.
Notation k_run l v := (leaf_transform (fun _ => ""%string) k_arith k_resolve k_vexc l v).
Notation k_check l v := (leaf_validate Nat.eqb k_resolve k_vexc l v).
Notation k_json l v := (leaf_tojson (S := nat) (l : leaf value) v).

Example C18_example :
  shows (VDatetime (at_ (day 2024 2 29) 23 59 59 7 (Some 0))) [2024; 2; 29; 23; 59; 59; 7] (Clock (Some 0)) /\
  gives (k_run LToBoMon (VDatetime (at_ (day 2024 2 29) 23 59 59 7 (Some 0))))
    (VDatetime (at_ (day 2024 2 1) 0 0 0 0 (Some 0))).
Proof. split; [apply (sh_time (at_ (day 2024 2 29) 23 59 59 7 (Some 0))); reflexivity|intros s; reflexivity]. Qed.

Example C19_example :
  shows (VDatetime (at_ (day 2023 12 31) 23 59 59 7 None)) [2023; 12; 31; 23; 59; 59; 7] (Clock None) /\
  applies USecond (Clock None) /\
  gives (k_run LToNextSec (VDatetime (at_ (day 2023 12 31) 23 59 59 7 None)))
    (VDatetime (at_ (day 2024 1 1) 0 0 0 0 None)) /\
  gives (k_run LToNextMon (VDate (day 2023 11 30))) (VDate (day 2023 12 1)) /\
  gives (k_run LToNextDay (VDate (day 2024 2 28))) (VDate (day 2024 2 29)) /\
  raises (k_run LToNextYear (VDate (day 9999 2 28))) EValueError.
Proof.
  split; [apply (sh_time (at_ (day 2023 12 31) 23 59 59 7 None)); reflexivity|].
  repeat split; intros s; reflexivity.
Qed.

Example C20_example :
  gives (k_json (LType TDate) (VDate (day 2024 2 29))) (VStr "2024-02-29T00:00:00.000Z") /\
  gives (k_json (LType TDatetime) (VDatetime (at_ (day 2024 2 29) 1 2 3 45000 (Some 0))))
    (VStr "2024-02-29T01:02:03.045Z") /\
  gives (k_run (LType TDatetime) (VStr "2024-02-29T01:02:03.045Z"))
    (VDatetime (at_ (day 2024 2 29) 1 2 3 45000 (Some 0))) /\
  gives (k_run (LType TDatetime) (VStr "2024-02-29T01:02Z"))
    (VDatetime (at_ (day 2024 2 29) 1 2 0 0 (Some 0))).
Proof. repeat split; intros s; reflexivity. Qed.

(** A JSON datetime on a whole second is read, but the value it gives is written as a
    text that is not a datetime. *)
Theorem C20_whole_second_refuted :
  gives (k_run (LType TDatetime) (VStr "2024-02-29T01:02:03.000Z"))
    (VDatetime (at_ (day 2024 2 29) 1 2 3 0 (Some 0))) /\
  gives (k_json (LType TDatetime) (VDatetime (at_ (day 2024 2 29) 1 2 3 0 (Some 0))))
    (VStr "2024-02-29T01:02:03+00:Z") /\
  rejects k_vexc (k_run (LType TDatetime) (VStr "2024-02-29T01:02:03+00:Z") >> ret tt).
Proof.
  repeat split; try (intros s; reflexivity).
  exists "wrong datetime format"%string. intros s. reflexivity.
Qed.

(** Noon in Shanghai becomes noon in Greenwich, eight hours later. *)
Theorem C20_offset_refuted :
  gives (k_run (LType TDatetime) (VStr "2024-02-29T12:00:00+08:00"))
    (VDatetime (at_ (day 2024 2 29) 12 0 0 0 (Some 0))) /\
  instant_us (at_ (day 2024 2 29) 12 0 0 0 (Some 28800)) 28800 + 8 * 3600 * 1000000 =
  instant_us (at_ (day 2024 2 29) 12 0 0 0 (Some 0)) 0.
Proof. split; [intros s; reflexivity|reflexivity]. Qed.

Example C53_example :
  comparable (VDate (day 2024 2 28)) (VDatetime (at_ (day 2024 2 28) 0 0 0 1 None)) /\
  accepts (k_check (LBefore (VDatetime (at_ (day 2024 2 28) 0 0 0 1 None))) (VDate (day 2024 2 28))) /\
  rejects k_vexc (k_check (LBefore (VDate (day 2024 2 28))) (VDate (day 2024 2 28))) /\
  rejects k_vexc (k_check (LAfter (VDate (day 2024 2 28))) (VDate (day 2024 2 28))) /\
  incomparable (VDatetime (at_ (day 2024 2 28) 0 0 0 1 (Some 0))) (VDate (day 2024 2 28)) /\
  raises (k_check (LAfter (VDate (day 2024 2 28))) (VDatetime (at_ (day 2024 2 29) 0 0 0 1 (Some 0))))
    ETypeError.
Proof.
  split; [|split; [|split; [|split; [|split]]]].
  - do 4 eexists. split; [apply mo_date; reflexivity|]. split; [apply mo_time; reflexivity|]. split; reflexivity.
  - intros s. reflexivity.
  - exists "value is too late"%string. intros s. reflexivity.
  - exists "value is too early"%string. intros s. reflexivity.
  - do 4 eexists. split; [apply mo_time; reflexivity|]. split; [apply mo_date; reflexivity|].
    cbn. intros [_ H]. discriminate (H eq_refl).
  - intros s. reflexivity.
Qed.
