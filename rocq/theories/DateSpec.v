(** Specification of the civil calendar, weekdays and the daylight-saving
    rules, written without reference to the code. *)
From Coq Require Import List ZArith Bool.
Import ListNotations.
Open Scope Z_scope.

(** * The Gregorian calendar, one day at a time *)

Definition leap (y : Z) : bool :=
  (y mod 4 =? 0) && (negb (y mod 100 =? 0) || (y mod 400 =? 0)).

Definition month_len (y m : Z) : Z :=
  if m =? 2 then (if leap y then 29 else 28)
  else if (m =? 4) || (m =? 6) || (m =? 9) || (m =? 11) then 30 else 31.

Record civil_date := Civil { c_year : Z; c_month : Z; c_day : Z }.

(** The day after a given day. *)
Definition next_day (c : civil_date) : civil_date :=
  if c_day c <? month_len (c_year c) (c_month c)
  then Civil (c_year c) (c_month c) (c_day c + 1)
  else if c_month c <? 12 then Civil (c_year c) (c_month c + 1) 1
  else Civil (c_year c + 1) 1 1.

(** The date [n] days after 1 January 1970. *)
Fixpoint civil (n : nat) : civil_date :=
  match n with O => Civil 1970 1 1 | S n => next_day (civil n) end.

(** The days of the week; 1 January 1970 was a Thursday. *)
Inductive weekday := Monday | Tuesday | Wednesday | Thursday | Friday | Saturday | Sunday.

Definition tomorrow (w : weekday) : weekday :=
  match w with
  | Monday => Tuesday | Tuesday => Wednesday | Wednesday => Thursday
  | Thursday => Friday | Friday => Saturday | Saturday => Sunday | Sunday => Monday
  end.

Fixpoint weekday_of (n : nat) : weekday :=
  match n with O => Thursday | S n => tomorrow (weekday_of n) end.

(** Numbers shown for weekdays: Monday is 0. *)
Definition weekday_number (w : weekday) : Z :=
  match w with
  | Monday => 0 | Tuesday => 1 | Wednesday => 2 | Thursday => 3
  | Friday => 4 | Saturday => 5 | Sunday => 6
  end.

(** * Day numbers of dates, used to write down switch dates *)

Definition year_len (y : Z) : Z := if leap y then 366 else 365.

Fixpoint zsum (f : Z -> Z) (start : Z) (n : nat) : Z :=
  match n with O => 0 | S n => zsum f start n + f (start + Z.of_nat n) end.

(** Days from 1 January 1970 to 1 January of year [y]. *)
Definition days_to_year (y : Z) : Z := zsum year_len 1970 (Z.to_nat (y - 1970)).

(** Days from 1 January to the first of month [m]. *)
Definition days_to_month (y m : Z) : Z := zsum (month_len y) 1 (Z.to_nat (m - 1)).

Definition day_number (c : civil_date) : Z :=
  days_to_year (c_year c) + days_to_month (c_year c) (c_month c) + (c_day c - 1).

Definition valid_date (c : civil_date) : Prop :=
  1970 <= c_year c /\ 1 <= c_month c <= 12 /\
  1 <= c_day c <= month_len (c_year c) (c_month c).

(** Day number within the year, 1 January = 1. *)
Definition ordinal_day (c : civil_date) : Z :=
  days_to_month (c_year c) (c_month c) + c_day c.

Definition yyyymmdd_of (c : civil_date) : Z :=
  10000 * c_year c + 100 * c_month c + c_day c.

(** * Time zones *)

Inductive zone := UTC | NewYork | Dublin | Sydney | HongKong | Tokyo | Seoul | Kolkata.

Definition hour : Z := 3600000000000.
Definition minute : Z := 60000000000.
Definition day : Z := 24 * hour.

(** Standard time minus UTC. *)
Definition std_offset (z : zone) : Z :=
  match z with
  | UTC => 0 | NewYork => -5 * hour | Dublin => 0 | Sydney => 10 * hour
  | HongKong => 8 * hour | Tokyo => 9 * hour | Seoul => 9 * hour
  | Kolkata => 5 * hour + 30 * minute
  end.

(** First Sunday on or after a day: day number 3 (4 January 1970) is a Sunday. *)
Definition sunday_from (d : Z) : Z := d + (3 - d) mod 7.

Definition date (y m d : Z) : Z := day_number (Civil y m d).
Definition nth_sunday (y m n : Z) : Z := sunday_from (date y m (7 * (n - 1) + 1)).
Definition last_sunday (y m : Z) : Z := sunday_from (date y m (month_len y m) - 6).

(** UTC instant of local standard time [h]:00 on day [d]. *)
Definition at_std (z : zone) (d h : Z) : Z := d * day + h * hour - std_offset z.
(** The same for daylight (summer) time. *)
Definition at_dst (z : zone) (d h : Z) : Z := d * day + h * hour - (std_offset z + hour).

(** New York: last Sunday of April to last Sunday of October until 1986
    (from 6 January in 1974 and 23 February in 1975), first Sunday of April
    to last Sunday of October 1987-2006, second Sunday of March to first Sunday
    of November from 2007; at 2:00 local. *)
Definition new_york_period (y : Z) : Z * Z :=
  ( at_std NewYork
      (if y =? 1974 then date 1974 1 6 else if y =? 1975 then date 1975 2 23
       else if y <=? 1986 then last_sunday y 4
       else if y <=? 2006 then nth_sunday y 4 1 else nth_sunday y 3 2) 2,
    at_dst NewYork (if y <=? 2006 then last_sunday y 10 else nth_sunday y 11 1) 2 ).

(** Dublin from 1981: last Sunday of March, 1:00 UTC, to 1:00 UTC of the first
    Sunday from 23 October (until 1989), from 22 October (1990-1995), or the last
    Sunday of October. *)
Definition dublin_period (y : Z) : Z * Z :=
  ( at_std Dublin (last_sunday y 3) 1,
    at_dst Dublin (if y <=? 1989 then sunday_from (date y 10 23)
                   else if y <=? 1995 then sunday_from (date y 10 22) else last_sunday y 10) 2 ).

(** Sydney from 2008: first Sunday of October, 2:00 standard time, to the first
    Sunday of the next April, 3:00 summer time. *)
Definition sydney_period (y : Z) : Z * Z :=
  ( at_std Sydney (nth_sunday y 10 1) 2, at_dst Sydney (nth_sunday (y + 1) 4 1) 3 ).

(** Seoul 1987 and 1988: second Sunday of May, 2:00, to second Sunday of
    October, 3:00. *)
Definition seoul_period (y : Z) : Z * Z :=
  ( at_std Seoul (nth_sunday y 5 2) 2, at_dst Seoul (nth_sunday y 10 2) 3 ).

(** Summer time starting in year [y], if any: first instant, first instant after. *)
Definition dst_period (z : zone) (y : Z) : option (Z * Z) :=
  match z with
  | NewYork => Some (new_york_period y)
  | Dublin => Some (dublin_period y)
  | Sydney => Some (sydney_period y)
  | Seoul => if (y =? 1987) || (y =? 1988) then Some (seoul_period y) else None
  | UTC | HongKong | Tokyo | Kolkata => None
  end.

(** Is UTC instant [u] in summer time? *)
Definition summer (z : zone) (u : Z) : Prop :=
  exists y s e, 1970 <= y /\ dst_period z y = Some (s, e) /\ s <= u < e.

(** Is [u] the very instant of a switch? *)
Definition switch_instant (z : zone) (u : Z) : Prop :=
  exists y s e, 1970 <= y /\ dst_period z y = Some (s, e) /\ (u = s \/ u = e).

(** The instants for which the rules above describe the zone and which lie
    within the tables of this version of the library. *)
Definition covered (z : zone) (u : Z) : Prop :=
  match z with
  | NewYork => 0 <= u < date 2041 1 1 * day
  | Dublin => date 1981 1 1 * day <= u < date 2041 1 1 * day
  | Sydney => date 2008 6 1 * day <= u < date 2040 10 1 * day
  | HongKong => date 1980 1 1 * day <= u
  | UTC | Tokyo | Seoul | Kolkata => 0 <= u
  end.

(** The time clocks in zone [z] show at UTC instant [u]: standard time, or one
    hour more in summer. *)
Definition local_time (z : zone) (u x : Z) : Prop :=
  (summer z u /\ x = u + std_offset z + hour) \/ (~ summer z u /\ x = u + std_offset z).
