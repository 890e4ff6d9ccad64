(** PropFmt.v -- C96: the modifier that writes a date or datetime in a given format.

    In the section, [S] is the program state, [resolve] evaluates a modifier's parameter and
    [strftime] is the platform's formatting of a datetime.  All are arbitrary. *)
From Verif Require Import Base Mon Values PyStr CalModel CalSpec LeafModel LeafSpec CalProofs
  FmtModel.
Open Scope Z_scope.
Open Scope list_scope.

(** The midnight that begins a date, in UTC *)
Definition utc_midnight (d : pdate) : pdatetime :=
  {| t_date := d; t_hour := 0; t_min := 0; t_sec := 0; t_us := 0; t_tz := Some 0 |}.

Section Props.
  Context {S P : Type}.
  Variable resolve : P -> st S value.
  Variable strftime : pdatetime -> string -> res string.
  Notation denotes := (resolves resolve).
  Notation fmtd := (j_fmtd resolve strftime).
  Notation field := (field_fmtd resolve strftime).

  (** [m] formats the moment [t] with [f] and does nothing else. *)
  Definition writes (m : st S value) (t : pdatetime) (f : string) : Prop :=
    forall st, m st = (match strftime t f with Ok s => Ok (VStr s) | Err e => Err e end, st).

  Lemma read_midnight : forall d, valid_date d = true ->
    read_datetime (json_date d) = Ok (utc_midnight d).
  Proof.
    intros d V.
    assert (W : valid_datetime (utc_midnight d) = true).
    { unfold valid_datetime, utc_midnight. cbn. rewrite V. reflexivity. }
    pose proof (read_iso (utc_midnight d) (chars ".000") (chars "Z") W eq_refl eq_refl) as R.
    unfold json_date.
    change (date_iso d ++ chars "T00:00:00.000Z") with
      (date_iso (t_date (utc_midnight d)) ++ ["T"%char] ++ clock_iso (utc_midnight d) ++
       chars ".000" ++ chars "Z").
    rewrite R. cbn [utc_midnight t_date t_hour t_min t_sec].
    change (fst (split_offset (chars ".000"))) with (chars ".000").
    change (parse_fraction (chars ".000")) with (Ok 0). cbn [rbind].
    change (snd (split_offset (chars ".000"))) with (@None (bool * list ascii)). cbn [rbind].
    unfold mk_datetime, mk_date. destruct d as [y m dd]. cbn [d_year d_month d_day].
    rewrite V. reflexivity.
  Qed.

  (** A date field writes the midnight that begins the date, in UTC; without the type before
      it, fmtd writes the midnight without an offset. *)
  Theorem C96_date : forall p f d, denotes p (VStr f) -> valid_date d = true ->
    writes (field (LType TDate) p (VDate d)) (utc_midnight d) f /\
    writes (fmtd p (VDate d)) (midnight d) f.
  Proof.
    intros p f d H V. split; intros st.
    - unfold field_fmtd, leaf_tojson, j_fmtd, bind, ret. rewrite (read_midnight d V). cbn [lift].
      rewrite H. cbn [formatted]. unfold bind, lift, ret. destruct (strftime _ f); reflexivity.
    - unfold j_fmtd, bind. rewrite H. cbn [formatted]. unfold bind, lift, ret.
      destruct (strftime _ f); reflexivity.
  Qed.

  (** A datetime field writes the same clock reading called UTC and cut to milliseconds; but
      writing a datetime with an offset and no fraction of a second raises. *)
  Theorem C96_datetime : forall p f t, denotes p (VStr f) -> valid_datetime t = true ->
    (t_tz t = None \/ t_us t <> 0 ->
       writes (field (LType TDatetime) p (VDatetime t)) (in_utc_ms t) f) /\
    (t_tz t <> None /\ t_us t = 0 ->
       raises (field (LType TDatetime) p (VDatetime t)) EValueError) /\
    writes (fmtd p (VDatetime t)) t f.
  Proof.
    intros p f t H V. pose proof (datetime_round_trip t V) as R. split; [|split].
    - intros C st. unfold field_fmtd, leaf_tojson, j_fmtd, bind, ret.
      assert (E : read_datetime (json_datetime t) = Ok (in_utc_ms t)).
      { rewrite R. destruct (t_tz t) as [o|]; [|reflexivity].
        destruct C as [C|C]; [discriminate C|]. apply Z.eqb_neq in C. rewrite C. reflexivity. }
      rewrite E. cbn [lift]. rewrite H. cbn [formatted]. unfold bind, lift, ret.
      destruct (strftime _ f); reflexivity.
    - intros [C1 C2] st. unfold field_fmtd, leaf_tojson, j_fmtd, bind, ret.
      assert (E : read_datetime (json_datetime t) = Err EValueError).
      { rewrite R. destruct (t_tz t); [|contradiction]. rewrite C2. reflexivity. }
      rewrite E. reflexivity.
    - intros st. unfold j_fmtd, bind. rewrite H. cbn [formatted]. unfold bind, lift, ret.
      destruct (strftime _ f); reflexivity.
  Qed.

  (** A string is read as by a datetime field; what cannot be read raises.  Everything else is
      written as it is, None among it, whatever the format. *)
  Theorem C96_rest : forall p,
    (forall s e, read_datetime s = Err e -> raises (fmtd p (VStr s)) e) /\
    (forall f s t, denotes p (VStr f) -> read_datetime s = Ok t -> writes (fmtd p (VStr s)) t f) /\
    (forall v st, (forall d, v <> VDate d) -> (forall t, v <> VDatetime t) ->
       (forall s, v <> VStr s) -> fmtd p v st = (Ok v, st)).
  Proof.
    intros p. split; [|split].
    - intros s e E st. unfold j_fmtd, bind. rewrite E. reflexivity.
    - intros f s t H E st. unfold j_fmtd, bind. rewrite E. cbn [lift]. rewrite H.
      cbn [formatted]. unfold bind, lift, ret. destruct (strftime _ f); reflexivity.
    - intros v st N1 N2 N3. destruct v; try reflexivity;
        exfalso; [eapply N3|eapply N1|eapply N2]; reflexivity.
  Qed.
End Props.

Print Assumptions C96_date.
Print Assumptions C96_datetime.
Print Assumptions C96_rest.

(** ** A concrete case *)

(** A [strftime] that knows one format *)
Definition ex_strftime (t : pdatetime) (f : string) : res string :=
  if String.eqb f "%Y%m%d %H" then
    Ok (unchars (zpad 4 (d_year (t_date t)) ++ zpad 2 (d_month (t_date t)) ++
                 zpad 2 (d_day (t_date t)) ++ chars " " ++ zpad 2 (t_hour t)))
  else Ok f.
Definition ex_field := field_fmtd (S := unit) (P := value) (fun v => ret v) ex_strftime.
Definition ex_day : pdate := {| d_year := 2024; d_month := 2; d_day := 29 |}.
Definition ex_time (us : Z) (tz : option Z) : pdatetime :=
  {| t_date := ex_day; t_hour := 12; t_min := 0; t_sec := 0; t_us := us; t_tz := tz |}.

Example C96_example :
  valid_date ex_day = true /\ valid_datetime (ex_time 5 None) = true /\
  fst (ex_field (LType TDate) (VStr "%Y%m%d %H") (VDate ex_day) tt) = Ok (VStr "20240229 00") /\
  fst (ex_field (LType TDatetime) (VStr "%Y%m%d %H") (VDatetime (ex_time 5 None)) tt) =
    Ok (VStr "20240229 12").
Proof. repeat split; vm_compute; reflexivity. Qed.

(** Exceptions.  Noon at eight hours east of Greenwich is written as noon in UTC.  And a
    datetime field that has read a whole second from JSON cannot be written at all. *)
Theorem C96_offset_refuted :
  field_fmtd (S := unit) (P := value) (fun v => ret v) ex_strftime (LType TDatetime)
    (VStr "%Y%m%d %H") (VDatetime (ex_time 5 (Some 28800))) tt =
  (Ok (VStr "20240229 12"), tt) /\
  (exists t, read_datetime "2024-02-29T12:00:00.000Z" = Ok t /\
     raises (ex_field (LType TDatetime) (VStr "%Y%m%d %H") (VDatetime t)) EValueError).
Proof.
  split; [vm_compute; reflexivity|]. exists (ex_time 0 (Some 0)).
  split; [vm_compute; reflexivity|]. intros st. destruct st. vm_compute. reflexivity.
Qed.
Print Assumptions C96_offset_refuted.
