(** CalModel.v -- Python's calendar ([datetime] module) as far as the date modifiers
    use it, and the date modifiers themselves. *)
From Verif Require Import Base PyList Values PyStr.
Open Scope Z_scope.

(** ** The calendar *)
Definition leap_year (y : Z) : bool :=
  (y mod 4 =? 0) && (negb (y mod 100 =? 0) || (y mod 400 =? 0)).

Definition days_in_month (y m : Z) : Z :=
  if m =? 2 then (if leap_year y then 29 else 28)
  else if (m =? 4) || (m =? 6) || (m =? 9) || (m =? 11) then 30
  else 31.

Definition valid_date (d : pdate) : bool :=
  (1 <=? d_year d) && (d_year d <=? 9999) &&
  (1 <=? d_month d) && (d_month d <=? 12) &&
  (1 <=? d_day d) && (d_day d <=? days_in_month (d_year d) (d_month d)).

Definition valid_clock (h m s u : Z) : bool :=
  (0 <=? h) && (h <=? 23) && (0 <=? m) && (m <=? 59) &&
  (0 <=? s) && (s <=? 59) && (0 <=? u) && (u <=? 999999).

Definition valid_datetime (t : pdatetime) : bool :=
  valid_date (t_date t) && valid_clock (t_hour t) (t_min t) (t_sec t) (t_us t).

(** [date(y, m, d)] *)
Definition mk_date (y m d : Z) : res pdate :=
  let r := {| d_year := y; d_month := m; d_day := d |} in
  if valid_date r then Ok r else Err EValueError.

(** [datetime(y, m, d, h, mi, s, us, tzinfo)] *)
Definition mk_datetime (y m d h mi s us : Z) (tz : option Z) : res pdatetime :=
  let* dt := mk_date y m d in
  if valid_clock h mi s us
  then Ok {| t_date := dt; t_hour := h; t_min := mi; t_sec := s; t_us := us; t_tz := tz |}
  else Err EValueError.

(** [d + timedelta(days=1)] *)
Definition next_day (d : pdate) : res pdate :=
  let '{| d_year := y; d_month := m; d_day := dd |} := d in
  if dd <? days_in_month y m then Ok {| d_year := y; d_month := m; d_day := dd + 1 |}
  else if m <? 12 then Ok {| d_year := y; d_month := m + 1; d_day := 1 |}
  else if y <? 9999 then Ok {| d_year := y + 1; d_month := 1; d_day := 1 |}
  else Err EOverflow.

Fixpoint add_days (n : nat) (d : pdate) : res pdate :=
  match n with O => Ok d | S n' => let* d' := next_day d in add_days n' d' end.

(** [t + timedelta(days, hours, minutes, seconds)] for amounts that are not negative;
    the clock of an aware datetime moves, its offset stays. *)
Definition dt_plus (days hours mins secs : Z) (t : pdatetime) : res pdatetime :=
  let s := t_sec t + secs in
  let mi := t_min t + mins + s / 60 in
  let h := t_hour t + hours + mi / 60 in
  let* d := add_days (Z.to_nat (days + h / 24)) (t_date t) in
  Ok {| t_date := d; t_hour := h mod 24; t_min := mi mod 60; t_sec := s mod 60;
        t_us := t_us t; t_tz := t_tz t |}.

(** ** The modifiers *)

(** modifiers/toboday_modifier.py:15-21 *)
Definition toboday (v : value) : value :=
  match v with
  | VDatetime t =>
      VDatetime {| t_date := t_date t; t_hour := 0; t_min := 0; t_sec := 0; t_us := 0;
                   t_tz := t_tz t |}
  | _ => v
  end.

(** modifiers/tobohour_modifier.py:14-15 *)
Definition tobohour (v : value) : value :=
  match v with
  | VDatetime t =>
      VDatetime {| t_date := t_date t; t_hour := t_hour t; t_min := 0; t_sec := 0;
                   t_us := 0; t_tz := t_tz t |}
  | _ => v
  end.

(** modifiers/tobomin_modifier.py:14-15 *)
Definition tobomin (v : value) : value :=
  match v with
  | VDatetime t =>
      VDatetime {| t_date := t_date t; t_hour := t_hour t; t_min := t_min t; t_sec := 0;
                   t_us := 0; t_tz := t_tz t |}
  | _ => v
  end.

(** modifiers/tobosec_modifier.py:14-15 *)
Definition tobosec (v : value) : value :=
  match v with
  | VDatetime t =>
      VDatetime {| t_date := t_date t; t_hour := t_hour t; t_min := t_min t;
                   t_sec := t_sec t; t_us := 0; t_tz := t_tz t |}
  | _ => v
  end.

(** modifiers/tobomon_modifier.py:15-21 *)
Definition tobomon (v : value) : value :=
  match v with
  | VDatetime t =>
      VDatetime {| t_date := {| d_year := d_year (t_date t); d_month := d_month (t_date t);
                                d_day := 1 |};
                   t_hour := 0; t_min := 0; t_sec := 0; t_us := 0; t_tz := t_tz t |}
  | VDate d => VDate {| d_year := d_year d; d_month := d_month d; d_day := 1 |}
  | _ => v
  end.

(** modifiers/toboyear_modifier.py:15-21 *)
Definition toboyear (v : value) : value :=
  match v with
  | VDatetime t =>
      VDatetime {| t_date := {| d_year := d_year (t_date t); d_month := 1; d_day := 1 |};
                   t_hour := 0; t_min := 0; t_sec := 0; t_us := 0; t_tz := t_tz t |}
  | VDate d => VDate {| d_year := d_year d; d_month := 1; d_day := 1 |}
  | _ => v
  end.

(** modifiers/tonextday_modifier.py:12-18 *)
Definition tonextday (v : value) : res value :=
  match v with
  | VDatetime t => let* t' := dt_plus 1 0 0 0 t in Ok (toboday (VDatetime t'))
  | VDate d => let* d' := next_day d in Ok (VDate d')
  | _ => Ok v
  end.

(** modifiers/tonexthour_modifier.py:12-13 *)
Definition tonexthour (v : value) : res value :=
  match v with
  | VDatetime t => let* t' := dt_plus 0 1 0 0 t in Ok (tobohour (VDatetime t'))
  | _ => Ok v
  end.

(** modifiers/tonextmin_modifier.py:12-13 *)
Definition tonextmin (v : value) : res value :=
  match v with
  | VDatetime t => let* t' := dt_plus 0 0 1 0 t in Ok (tobomin (VDatetime t'))
  | _ => Ok v
  end.

(** modifiers/tonextsec_modifier.py:12-13 *)
Definition tonextsec (v : value) : res value :=
  match v with
  | VDatetime t => let* t' := dt_plus 0 0 0 1 t in Ok (tobosec (VDatetime t'))
  | _ => Ok v
  end.

(** modifiers/tonextmon_modifier.py:14-17 and 21-24 *)
Definition next_month (m : Z) : Z * Z :=
  let year := (m + 1) / 12 in
  let month := (m + 1) mod 12 in
  if month =? 0 then (year - 1, 12) else (year, month).

(** modifiers/tonextmon_modifier.py:12-28 *)
Definition tonextmon (v : value) : res value :=
  match v with
  | VDatetime t =>
      let '(dy, m) := next_month (d_month (t_date t)) in
      let* t' := mk_datetime (d_year (t_date t) + dy) m 1 0 0 0 0 (t_tz t) in
      Ok (VDatetime t')
  | VDate d =>
      let '(dy, m) := next_month (d_month d) in
      let* d' := mk_date (d_year d + dy) m 1 in
      Ok (VDate d')
  | _ => Ok v
  end.

(** modifiers/tonextyear_modifier.py:12-18 *)
Definition tonextyear (v : value) : res value :=
  match v with
  | VDatetime t =>
      let* t' := mk_datetime (d_year (t_date t) + 1) 1 1 0 0 0 0 (t_tz t) in
      Ok (VDatetime t')
  | VDate d => let* d' := mk_date (d_year d + 1) 1 1 in Ok (VDate d')
  | _ => Ok v
  end.

(** ** ISO 8601 text *)

Definition digit (n : Z) : ascii := ascii_of_nat (48 + Z.to_nat (n mod 10)).

(** ["%0wd" % n] for [0 <= n < 10^w] *)
Fixpoint zpad (w : nat) (n : Z) : list ascii :=
  match w with O => [] | S w' => zpad w' (n / 10) ++ [digit n] end.

(** [date.isoformat()] *)
Definition date_iso (d : pdate) : list ascii :=
  zpad 4 (d_year d) ++ ["-"%char] ++ zpad 2 (d_month d) ++ ["-"%char] ++ zpad 2 (d_day d).

(** the offset part of [datetime.isoformat()] *)
Definition offset_iso (o : Z) : list ascii :=
  let a := Z.abs o in
  [if o <? 0 then "-"%char else "+"%char] ++ zpad 2 (a / 3600) ++ [":"%char]
  ++ zpad 2 (a / 60 mod 60)
  ++ (if a mod 60 =? 0 then [] else [":"%char] ++ zpad 2 (a mod 60)).

(** [datetime.isoformat()] *)
Definition datetime_iso (t : pdatetime) : list ascii :=
  date_iso (t_date t) ++ ["T"%char]
  ++ zpad 2 (t_hour t) ++ [":"%char] ++ zpad 2 (t_min t) ++ [":"%char] ++ zpad 2 (t_sec t)
  ++ (if t_us t =? 0 then [] else ["."%char] ++ zpad 6 (t_us t))
  ++ match t_tz t with None => [] | Some o => offset_iso o end.

(** a field of decimal digits *)
Definition digit_val (c : ascii) : option Z :=
  if is_digit c then Some (Z.of_nat (nat_of_ascii c) - 48) else None.

Fixpoint digits_val (acc : Z) (l : list ascii) : option Z :=
  match l with
  | [] => Some acc
  | c :: r =>
      match digit_val c with Some d => digits_val (acc * 10 + d) r | None => None end
  end.

(** [date.fromisoformat(s)]: exactly YYYY-MM-DD (Python up to 3.10) *)
Definition date_fromiso (l : list ascii) : res pdate :=
  match l with
  | [y1; y2; y3; y4; s1; m1; m2; s2; d1; d2] =>
      if Ascii.eqb s1 "-" && Ascii.eqb s2 "-" then
        match digits_val 0 [y1; y2; y3; y4], digits_val 0 [m1; m2], digits_val 0 [d1; d2] with
        | Some y, Some m, Some d => mk_date y m d
        | _, _, _ => Err EValueError
        end
      else Err EValueError
  | _ => Err EValueError
  end.

(** HH[:MM[:SS[.fff[fff]]]] (datetime.py, _parse_hh_mm_ss_ff) *)
Definition two (a b : ascii) : res Z :=
  match digits_val 0 [a; b] with Some n => Ok n | None => Err EValueError end.

Definition parse_fraction (l : list ascii) : res Z :=
  match l with
  | [] => Ok 0
  | c :: r =>
      if Ascii.eqb c "." then
        match digits_val 0 r with
        | Some n =>
            if Nat.eqb (length r) 3 then Ok (n * 1000)
            else if Nat.eqb (length r) 6 then Ok n
            else Err EValueError
        | None => Err EValueError
        end
      else Err EValueError
  end.

Definition parse_clock (l : list ascii) : res (Z * Z * Z * Z) :=
  match l with
  | a :: b :: r =>
      let* h := two a b in
      match r with
      | [] => Ok (h, 0, 0, 0)
      | c :: r1 =>
          if Ascii.eqb c ":" then
            match r1 with
            | a :: b :: r2 =>
                let* m := two a b in
                match r2 with
                | [] => Ok (h, m, 0, 0)
                | c :: r3 =>
                    if Ascii.eqb c ":" then
                      match r3 with
                      | a :: b :: r4 =>
                          let* s := two a b in
                          let* u := parse_fraction r4 in
                          Ok (h, m, s, u)
                      | _ => Err EValueError
                      end
                    else Err EValueError
                end
            | _ => Err EValueError
            end
          else Err EValueError
      end
  | _ => Err EValueError
  end.

(** the clock text before the offset, and the sign and text of the offset *)
Fixpoint split_offset (l : list ascii) : list ascii * option (bool * list ascii) :=
  match l with
  | [] => ([], None)
  | c :: r =>
      if Ascii.eqb c "+" then ([], Some (false, r))
      else if Ascii.eqb c "-" then ([], Some (true, r))
      else let '(a, o) := split_offset r in (c :: a, o)
  end.

Definition parse_offset (neg : bool) (l : list ascii) : res Z :=
  if Nat.eqb (length l) 5 || Nat.eqb (length l) 8 || Nat.eqb (length l) 15 then
    let* (h, m, s, u) := parse_clock l in
    let o := h * 3600 + m * 60 + s in
    if 86400 <=? o then Err EValueError else Ok (if neg then - o else o)
  else Err EValueError.

(** [datetime.fromisoformat(s)] (Python up to 3.10).  Simplification: a fraction of a
    second in the offset is dropped. *)
Definition datetime_fromiso (l : list ascii) : res pdatetime :=
  let* d := date_fromiso (firstn 10 l) in
  match skipn 10 l with
  | [] => mk_datetime (d_year d) (d_month d) (d_day d) 0 0 0 0 None
  | _ :: r =>
      let '(clock, off) := split_offset r in
      let* (h, m, s, u) := parse_clock clock in
      let* tz :=
        match off with
        | None => Ok None
        | Some (neg, o) => let* x := parse_offset neg o in Ok (Some x)
        end in
      mk_datetime (d_year d) (d_month d) (d_day d) h m s u tz
  end.

(** ** The date and datetime types *)

(** modifiers/date_modifier.py:37-38 *)
Definition json_date (d : pdate) : string :=
  unchars (date_iso d ++ chars "T00:00:00.000Z").

(** modifiers/date_modifier.py:19-32; [Err EValueError] is turned into a validation
    failure by the caller. *)
Definition read_date (s : string) : res pdate := date_fromiso (firstn 10 (chars s)).

(** modifiers/datetime_modifier.py:37 *)
Definition json_datetime (t : pdatetime) : string :=
  unchars (firstn 23 (datetime_iso t) ++ chars "Z").

(** modifiers/datetime_modifier.py:24-25: the offset that was read is replaced by UTC. *)
Definition read_datetime (s : string) : res pdatetime :=
  let* t := datetime_fromiso (filter (fun c => negb (Ascii.eqb c "Z")) (chars s)) in
  Ok {| t_date := t_date t; t_hour := t_hour t; t_min := t_min t; t_sec := t_sec t;
        t_us := t_us t; t_tz := Some 0 |}.
