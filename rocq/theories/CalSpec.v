(** CalSpec.v -- what the date modifiers are supposed to do. *)
From Verif Require Import Base Values CalModel LeafModel.
Open Scope Z_scope.

(** Lexicographic order on [year; month; day; hour; minute; second; microsecond]. *)
Fixpoint earlier (a b : list Z) : Prop :=
  match a, b with
  | x :: a', y :: b' => x < y \/ (x = y /\ earlier a' b')
  | _, _ => False
  end.

Fixpoint not_later (a b : list Z) : Prop :=
  match a, b with
  | x :: a', y :: b' => x < y \/ (x = y /\ not_later a' b')
  | _, _ => True
  end.

(** What kind of clock a value shows; only values of the same kind are compared. *)
Inductive clock := Calendar | Clock (tz : option Z).

(** A valid date or datetime shows these numbers. *)
Inductive shows : value -> list Z -> clock -> Prop :=
| sh_date : forall d, valid_date d = true ->
    shows (VDate d) [d_year d; d_month d; d_day d; 0; 0; 0; 0] Calendar
| sh_time : forall t, valid_datetime t = true ->
    shows (VDatetime t)
      [d_year (t_date t); d_month (t_date t); d_day (t_date t);
       t_hour t; t_min t; t_sec t; t_us t] (Clock (t_tz t)).

Inductive unit_ := UYear | UMonth | UDay | UHour | UMinute | USecond.

(** How many leading numbers determine the unit. *)
Definition unit_width (u : unit_) : nat :=
  match u with
  | UYear => 1 | UMonth => 2 | UDay => 3 | UHour => 4 | UMinute => 5 | USecond => 6
  end.

Definition same_unit (u : unit_) (a b : list Z) : Prop :=
  firstn (unit_width u) a = firstn (unit_width u) b.

(** The first moment of a unit: everything below the unit is at its start. *)
Definition starts_unit (u : unit_) (a : list Z) : Prop :=
  skipn (unit_width u) a = skipn (unit_width u) [0; 1; 1; 0; 0; 0; 0].

(** The modifiers by unit. *)
Definition beginning_of (u : unit_) (v : value) : value :=
  match u with
  | UYear => toboyear v | UMonth => tobomon v | UDay => toboday v
  | UHour => tobohour v | UMinute => tobomin v | USecond => tobosec v
  end.

Definition next_of (u : unit_) (v : value) : res value :=
  match u with
  | UYear => tonextyear v | UMonth => tonextmon v | UDay => tonextday v
  | UHour => tonexthour v | UMinute => tonextmin v | USecond => tonextsec v
  end.

(** Hours and below make no sense for a date. *)
Definition applies (u : unit_) (c : clock) : Prop :=
  match u, c with
  | UYear, _ | UMonth, _ | UDay, _ | _, Clock _ => True
  | _, Calendar => False
  end.

(** ** Before and after *)

(** The moment a date or datetime denotes: its numbers, and its offset when it has one.
    A date is the midnight that begins it, without an offset. *)
Inductive moment : value -> list Z -> option Z -> Prop :=
| mo_date : forall d, valid_date d = true ->
    moment (VDate d) [d_year d; d_month d; d_day d; 0; 0; 0; 0] None
| mo_time : forall t, valid_datetime t = true ->
    moment (VDatetime t)
      [d_year (t_date t); d_month (t_date t); d_day (t_date t);
       t_hour t; t_min t; t_sec t; t_us t] (t_tz t).

(** Without offsets the numbers are compared; with offsets the instants, which are the
    microseconds since a fixed midnight, less the offset. *)
Inductive precedes : value -> value -> Prop :=
| pr_naive : forall v w a b, moment v a None -> moment w b None -> earlier a b -> precedes v w
| pr_aware : forall t u i j, valid_datetime t = true -> valid_datetime u = true ->
    t_tz t = Some i -> t_tz u = Some j -> instant_us t i < instant_us u j ->
    precedes (VDatetime t) (VDatetime u).

(** Both have an offset, or neither has. *)
Definition comparable (v w : value) : Prop :=
  exists a oa b ob, moment v a oa /\ moment w b ob /\ (oa = None <-> ob = None).
Definition incomparable (v w : value) : Prop :=
  exists a oa b ob, moment v a oa /\ moment w b ob /\ ~ (oa = None <-> ob = None).

(** The modifiers, by unit, as they stand in a chain. *)
Definition beginning_leaf {P} (u : unit_) : leaf P :=
  match u with
  | UYear => LToBoYear | UMonth => LToBoMon | UDay => LToBoDay
  | UHour => LToBoHour | UMinute => LToBoMin | USecond => LToBoSec
  end.
Definition next_leaf {P} (u : unit_) : leaf P :=
  match u with
  | UYear => LToNextYear | UMonth => LToNextMon | UDay => LToNextDay
  | UHour => LToNextHour | UMinute => LToNextMin | USecond => LToNextSec
  end.

(** The same clock reading in UTC. *)
Definition wall_in_utc (t : pdatetime) : pdatetime :=
  {| t_date := t_date t; t_hour := t_hour t; t_min := t_min t; t_sec := t_sec t;
     t_us := t_us t; t_tz := Some 0 |}.

(** The start of a minute of a day, in UTC. *)
Definition at_clock (d : pdate) (h m : Z) : pdatetime :=
  {| t_date := d; t_hour := h; t_min := m; t_sec := 0; t_us := 0; t_tz := Some 0 |}.

(** The same clock reading, cut to whole milliseconds and called UTC. *)
Definition in_utc_ms (t : pdatetime) : pdatetime :=
  {| t_date := t_date t; t_hour := t_hour t; t_min := t_min t; t_sec := t_sec t;
     t_us := t_us t / 1000 * 1000; t_tz := Some 0 |}.

(** A text of [w] digits that is the decimal form of [n]. *)
Definition numeral (w : nat) (n : Z) (l : list ascii) : Prop :=
  length l = w /\ (forall c, In c l -> (48 <= nat_of_ascii c <= 57)%nat) /\
  fold_left (fun a c => 10 * a + (Z.of_nat (nat_of_ascii c) - 48)) l 0 = n.
