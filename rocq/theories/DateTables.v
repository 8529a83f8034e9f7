(** Dates, date-times and time zones: tables copied from the source.
    Generated once from /repo/riptable/rt_datetime.py and rt_timezone.py. *)
From Coq Require Import List ZArith Bool.
Import ListNotations.
Open Scope Z_scope.

(* rt_datetime.py:72-76, 81-84 *)
Definition NANOS_PER_MICROSECOND : Z := 1000.
Definition NANOS_PER_MILLISECOND : Z := 1000000.
Definition NANOS_PER_SECOND : Z := 1000000000.
Definition NANOS_PER_MINUTE : Z := NANOS_PER_SECOND * 60.
Definition NANOS_PER_HOUR : Z := NANOS_PER_MINUTE * 60.
Definition NANOS_PER_DAY : Z := NANOS_PER_HOUR * 24.
Definition SECONDS_PER_DAY : Z := 60 * 60 * 24.
Definition DAYS_PER_YEAR : Z := 365.
Definition DAYS_PER_LEAPYEAR : Z := 366.
Definition DAYS_AT_2000 : Z := (DAYS_PER_YEAR * 30) + 7.

(* rt_datetime.py:85-218 *)
Definition UTC_1970_DAY_SPLITS : list Z :=
  [
  0 ;
  DAYS_PER_YEAR ;
  2 * DAYS_PER_YEAR ;
  (3 * DAYS_PER_YEAR) + (1) ;
  (4 * DAYS_PER_YEAR) + (1) ;
  (5 * DAYS_PER_YEAR) + (1) ;
  (6 * DAYS_PER_YEAR) + (1) ;
  (7 * DAYS_PER_YEAR) + (2) ;
  (8 * DAYS_PER_YEAR) + (2) ;
  (9 * DAYS_PER_YEAR) + (2) ;
  (10 * DAYS_PER_YEAR) + (2) ;
  (11 * DAYS_PER_YEAR) + (3) ;
  (12 * DAYS_PER_YEAR) + (3) ;
  (13 * DAYS_PER_YEAR) + (3) ;
  (14 * DAYS_PER_YEAR) + (3) ;
  (15 * DAYS_PER_YEAR) + (4) ;
  (16 * DAYS_PER_YEAR) + (4) ;
  (17 * DAYS_PER_YEAR) + (4) ;
  (18 * DAYS_PER_YEAR) + (4) ;
  (19 * DAYS_PER_YEAR) + (5) ;
  (20 * DAYS_PER_YEAR) + (5) ;
  (21 * DAYS_PER_YEAR) + (5) ;
  (22 * DAYS_PER_YEAR) + (5) ;
  (23 * DAYS_PER_YEAR) + (6) ;
  (24 * DAYS_PER_YEAR) + (6) ;
  (25 * DAYS_PER_YEAR) + (6) ;
  (26 * DAYS_PER_YEAR) + (6) ;
  (27 * DAYS_PER_YEAR) + (7) ;
  (28 * DAYS_PER_YEAR) + (7) ;
  (29 * DAYS_PER_YEAR) + (7) ;
  DAYS_AT_2000 ;
  DAYS_AT_2000 + DAYS_PER_LEAPYEAR ;
  DAYS_AT_2000 + (2 * DAYS_PER_YEAR) + (1) ;
  DAYS_AT_2000 + (3 * DAYS_PER_YEAR) + (1) ;
  DAYS_AT_2000 + (4 * DAYS_PER_YEAR) + (1) ;
  DAYS_AT_2000 + (5 * DAYS_PER_YEAR) + (2) ;
  DAYS_AT_2000 + (6 * DAYS_PER_YEAR) + (2) ;
  DAYS_AT_2000 + (7 * DAYS_PER_YEAR) + (2) ;
  DAYS_AT_2000 + (8 * DAYS_PER_YEAR) + (2) ;
  DAYS_AT_2000 + (9 * DAYS_PER_YEAR) + (3) ;
  DAYS_AT_2000 + (10 * DAYS_PER_YEAR) + (3) ;
  DAYS_AT_2000 + (11 * DAYS_PER_YEAR) + (3) ;
  DAYS_AT_2000 + (12 * DAYS_PER_YEAR) + (3) ;
  DAYS_AT_2000 + (13 * DAYS_PER_YEAR) + (4) ;
  DAYS_AT_2000 + (14 * DAYS_PER_YEAR) + (4) ;
  DAYS_AT_2000 + (15 * DAYS_PER_YEAR) + (4) ;
  DAYS_AT_2000 + (16 * DAYS_PER_YEAR) + (4) ;
  DAYS_AT_2000 + (17 * DAYS_PER_YEAR) + (5) ;
  DAYS_AT_2000 + (18 * DAYS_PER_YEAR) + (5) ;
  DAYS_AT_2000 + (19 * DAYS_PER_YEAR) + (5) ;
  DAYS_AT_2000 + (20 * DAYS_PER_YEAR) + (5) ;
  DAYS_AT_2000 + (21 * DAYS_PER_YEAR) + (6) ;
  DAYS_AT_2000 + (22 * DAYS_PER_YEAR) + (6) ;
  DAYS_AT_2000 + (23 * DAYS_PER_YEAR) + (6) ;
  DAYS_AT_2000 + (24 * DAYS_PER_YEAR) + (6) ;
  DAYS_AT_2000 + (25 * DAYS_PER_YEAR) + (7) ;
  DAYS_AT_2000 + (26 * DAYS_PER_YEAR) + (7) ;
  DAYS_AT_2000 + (27 * DAYS_PER_YEAR) + (7) ;
  DAYS_AT_2000 + (28 * DAYS_PER_YEAR) + (7) ;
  DAYS_AT_2000 + (29 * DAYS_PER_YEAR) + (8) ;
  DAYS_AT_2000 + (30 * DAYS_PER_YEAR) + (8) ;
  DAYS_AT_2000 + (31 * DAYS_PER_YEAR) + (8) ;
  DAYS_AT_2000 + (32 * DAYS_PER_YEAR) + (8) ;
  DAYS_AT_2000 + (33 * DAYS_PER_YEAR) + (9) ;
  DAYS_AT_2000 + (34 * DAYS_PER_YEAR) + (9) ;
  DAYS_AT_2000 + (35 * DAYS_PER_YEAR) + (9) ;
  DAYS_AT_2000 + (36 * DAYS_PER_YEAR) + (9) ;
  DAYS_AT_2000 + (37 * DAYS_PER_YEAR) + (10) ;
  DAYS_AT_2000 + (38 * DAYS_PER_YEAR) + (10) ;
  DAYS_AT_2000 + (39 * DAYS_PER_YEAR) + (10) ;
  DAYS_AT_2000 + (40 * DAYS_PER_YEAR) + (10) ;
  DAYS_AT_2000 + (41 * DAYS_PER_YEAR) + (11) ;
  DAYS_AT_2000 + (42 * DAYS_PER_YEAR) + (11) ;
  DAYS_AT_2000 + (43 * DAYS_PER_YEAR) + (11) ;
  DAYS_AT_2000 + (44 * DAYS_PER_YEAR) + (11) ;
  DAYS_AT_2000 + (45 * DAYS_PER_YEAR) + (12) ;
  DAYS_AT_2000 + (46 * DAYS_PER_YEAR) + (12) ;
  DAYS_AT_2000 + (47 * DAYS_PER_YEAR) + (12) ;
  DAYS_AT_2000 + (48 * DAYS_PER_YEAR) + (12) ;
  DAYS_AT_2000 + (49 * DAYS_PER_YEAR) + (13) ;
  DAYS_AT_2000 + (50 * DAYS_PER_YEAR) + (13) ;
  DAYS_AT_2000 + (51 * DAYS_PER_YEAR) + (13) ;
  DAYS_AT_2000 + (52 * DAYS_PER_YEAR) + (13) ;
  DAYS_AT_2000 + (53 * DAYS_PER_YEAR) + (14) ;
  DAYS_AT_2000 + (54 * DAYS_PER_YEAR) + (14) ;
  DAYS_AT_2000 + (55 * DAYS_PER_YEAR) + (14) ;
  DAYS_AT_2000 + (56 * DAYS_PER_YEAR) + (14) ;
  DAYS_AT_2000 + (57 * DAYS_PER_YEAR) + (15) ;
  DAYS_AT_2000 + (58 * DAYS_PER_YEAR) + (15) ;
  DAYS_AT_2000 + (59 * DAYS_PER_YEAR) + (15) ;
  DAYS_AT_2000 + (60 * DAYS_PER_YEAR) + (15) ;
  DAYS_AT_2000 + (61 * DAYS_PER_YEAR) + (16) ;
  DAYS_AT_2000 + (62 * DAYS_PER_YEAR) + (16) ;
  DAYS_AT_2000 + (63 * DAYS_PER_YEAR) + (16) ;
  DAYS_AT_2000 + (64 * DAYS_PER_YEAR) + (16) ;
  DAYS_AT_2000 + (65 * DAYS_PER_YEAR) + (17) ;
  DAYS_AT_2000 + (66 * DAYS_PER_YEAR) + (17) ;
  DAYS_AT_2000 + (67 * DAYS_PER_YEAR) + (17) ;
  DAYS_AT_2000 + (68 * DAYS_PER_YEAR) + (17) ;
  DAYS_AT_2000 + (69 * DAYS_PER_YEAR) + (18) ;
  DAYS_AT_2000 + (70 * DAYS_PER_YEAR) + (18) ;
  DAYS_AT_2000 + (71 * DAYS_PER_YEAR) + (18) ;
  DAYS_AT_2000 + (72 * DAYS_PER_YEAR) + (18) ;
  DAYS_AT_2000 + (73 * DAYS_PER_YEAR) + (19) ;
  DAYS_AT_2000 + (74 * DAYS_PER_YEAR) + (19) ;
  DAYS_AT_2000 + (75 * DAYS_PER_YEAR) + (19) ;
  DAYS_AT_2000 + (76 * DAYS_PER_YEAR) + (19) ;
  DAYS_AT_2000 + (77 * DAYS_PER_YEAR) + (20) ;
  DAYS_AT_2000 + (78 * DAYS_PER_YEAR) + (20) ;
  DAYS_AT_2000 + (79 * DAYS_PER_YEAR) + (20) ;
  DAYS_AT_2000 + (80 * DAYS_PER_YEAR) + (20) ;
  DAYS_AT_2000 + (81 * DAYS_PER_YEAR) + (21) ;
  DAYS_AT_2000 + (82 * DAYS_PER_YEAR) + (21) ;
  DAYS_AT_2000 + (83 * DAYS_PER_YEAR) + (21) ;
  DAYS_AT_2000 + (84 * DAYS_PER_YEAR) + (21) ;
  DAYS_AT_2000 + (85 * DAYS_PER_YEAR) + (22) ;
  DAYS_AT_2000 + (86 * DAYS_PER_YEAR) + (22) ;
  DAYS_AT_2000 + (87 * DAYS_PER_YEAR) + (22) ;
  DAYS_AT_2000 + (88 * DAYS_PER_YEAR) + (22) ;
  DAYS_AT_2000 + (89 * DAYS_PER_YEAR) + (23) ;
  DAYS_AT_2000 + (90 * DAYS_PER_YEAR) + (23) ;
  DAYS_AT_2000 + (91 * DAYS_PER_YEAR) + (23) ;
  DAYS_AT_2000 + (92 * DAYS_PER_YEAR) + (23) ;
  DAYS_AT_2000 + (93 * DAYS_PER_YEAR) + (24) ;
  DAYS_AT_2000 + (94 * DAYS_PER_YEAR) + (24) ;
  DAYS_AT_2000 + (95 * DAYS_PER_YEAR) + (24) ;
  DAYS_AT_2000 + (96 * DAYS_PER_YEAR) + (24) ;
  DAYS_AT_2000 + (97 * DAYS_PER_YEAR) + (25) ;
  DAYS_AT_2000 + (98 * DAYS_PER_YEAR) + (25) ;
  DAYS_AT_2000 + (99 * DAYS_PER_YEAR) + (25) ].

(* rt_datetime.py:221 *)
Definition UTC_1970_SPLITS : list Z := map (fun d => d * NANOS_PER_DAY) UTC_1970_DAY_SPLITS.

(* rt_datetime.py:224 (DayOfWeek.Thursday = 3) *)
Definition EPOCH_DAY_OF_WEEK : Z := 3.

(* rt_datetime.py:225 *)
Definition YDAY_SPLITS : list Z := [0; 31; 59; 90; 120; 151; 181; 212; 243; 273; 304; 334].
(* rt_datetime.py:226 *)
Definition YDAY_SPLITS_LEAP : list Z := [0; 31; 60; 91; 121; 152; 182; 213; 244; 274; 305; 335].

(* rt_datetime.py:230-245 *)
Definition UTC_YDAY_SPLITS : list Z :=
  [ NANOS_PER_DAY * 0; NANOS_PER_DAY * 31; NANOS_PER_DAY * 59; NANOS_PER_DAY * 90;
    NANOS_PER_DAY * 120; NANOS_PER_DAY * 151; NANOS_PER_DAY * 181; NANOS_PER_DAY * 212;
    NANOS_PER_DAY * 243; NANOS_PER_DAY * 273; NANOS_PER_DAY * 304; NANOS_PER_DAY * 334 ].

(* rt_datetime.py:247-262 *)
Definition UTC_YDAY_SPLITS_LEAP : list Z :=
  [ NANOS_PER_DAY * 0; NANOS_PER_DAY * 31; NANOS_PER_DAY * 60; NANOS_PER_DAY * 91;
    NANOS_PER_DAY * 121; NANOS_PER_DAY * 152; NANOS_PER_DAY * 182; NANOS_PER_DAY * 213;
    NANOS_PER_DAY * 244; NANOS_PER_DAY * 274; NANOS_PER_DAY * 305; NANOS_PER_DAY * 335 ].

(** Daylight-saving tables: (year, month, day, hour, minute) of each text entry
    "YYYY-MM-DD HH:MM:00".  The conversion of the texts to nanoseconds
    (rc.DateTimeStringToNanos, rt_timezone.py:1333-1346) is C++ and is taken by
    contract in DateModel.v. *)
Definition stamp := (Z * Z * Z * Z * Z)%type.

(* rt_timezone.py:11-156 *)
Definition DST_CUTOFFS_NYC : list stamp :=
  [ (1970,4,26,2,0); (1970,10,25,2,0); (1971,4,25,2,0); (1971,10,31,2,0); (1972,4,30,2,0); (1972,10,29,2,0);
  (1973,4,29,2,0); (1973,10,28,2,0); (1974,1,6,2,0); (1974,10,27,2,0); (1975,2,23,2,0); (1975,10,26,2,0);
  (1976,4,25,2,0); (1976,10,31,2,0); (1977,4,24,2,0); (1977,10,30,2,0); (1978,4,30,2,0); (1978,10,29,2,0);
  (1979,4,29,2,0); (1979,10,28,2,0); (1980,4,27,2,0); (1980,10,26,2,0); (1981,4,26,2,0); (1981,10,25,2,0);
  (1982,4,25,2,0); (1982,10,31,2,0); (1983,4,24,2,0); (1983,10,30,2,0); (1984,4,29,2,0); (1984,10,28,2,0);
  (1985,4,28,2,0); (1985,10,27,2,0); (1986,4,27,2,0); (1986,10,26,2,0); (1987,4,5,2,0); (1987,10,25,2,0);
  (1988,4,3,2,0); (1988,10,30,2,0); (1989,4,2,2,0); (1989,10,29,2,0); (1990,4,1,2,0); (1990,10,28,2,0);
  (1991,4,7,2,0); (1991,10,27,2,0); (1992,4,5,2,0); (1992,10,25,2,0); (1993,4,4,2,0); (1993,10,31,2,0);
  (1994,4,3,2,0); (1994,10,30,2,0); (1995,4,2,2,0); (1995,10,29,2,0); (1996,4,7,2,0); (1996,10,27,2,0);
  (1997,4,6,2,0); (1997,10,26,2,0); (1998,4,5,2,0); (1998,10,25,2,0); (1999,4,4,2,0); (1999,10,31,2,0);
  (2000,4,2,2,0); (2000,10,29,2,0); (2001,4,1,2,0); (2001,10,28,2,0); (2002,4,7,2,0); (2002,10,27,2,0);
  (2003,4,6,2,0); (2003,10,26,2,0); (2004,4,4,2,0); (2004,10,31,2,0); (2005,4,3,2,0); (2005,10,30,2,0);
  (2006,4,2,2,0); (2006,10,29,2,0); (2007,3,11,2,0); (2007,11,4,2,0); (2008,3,9,2,0); (2008,11,2,2,0);
  (2009,3,8,2,0); (2009,11,1,2,0); (2010,3,14,2,0); (2010,11,7,2,0); (2011,3,13,2,0); (2011,11,6,2,0);
  (2012,3,11,2,0); (2012,11,4,2,0); (2013,3,10,2,0); (2013,11,3,2,0); (2014,3,9,2,0); (2014,11,2,2,0);
  (2015,3,8,2,0); (2015,11,1,2,0); (2016,3,13,2,0); (2016,11,6,2,0); (2017,3,12,2,0); (2017,11,5,2,0);
  (2018,3,11,2,0); (2018,11,4,2,0); (2019,3,10,2,0); (2019,11,3,2,0); (2020,3,8,2,0); (2020,11,1,2,0);
  (2021,3,14,2,0); (2021,11,7,2,0); (2022,3,13,2,0); (2022,11,6,2,0); (2023,3,12,2,0); (2023,11,5,2,0);
  (2024,3,10,2,0); (2024,11,3,2,0); (2025,3,9,2,0); (2025,11,2,2,0); (2026,3,8,2,0); (2026,11,1,2,0);
  (2027,3,14,2,0); (2027,11,7,2,0); (2028,3,12,2,0); (2028,11,5,2,0); (2029,3,11,2,0); (2029,11,4,2,0);
  (2030,3,10,2,0); (2030,11,3,2,0); (2031,3,9,2,0); (2031,11,2,2,0); (2032,3,14,2,0); (2032,11,7,2,0);
  (2033,3,13,2,0); (2033,11,6,2,0); (2034,3,12,2,0); (2034,11,5,2,0); (2035,3,11,2,0); (2035,11,4,2,0);
  (2036,3,9,2,0); (2036,11,2,2,0); (2037,3,8,2,0); (2037,11,1,2,0); (2038,3,14,2,0); (2038,11,7,2,0);
  (2039,3,13,2,0); (2039,11,6,2,0); (2040,3,11,2,0); (2040,11,4,2,0) ].

(* rt_timezone.py:158-303 *)
Definition DST_REVERSE_NYC : list stamp :=
  [ (1970,4,26,7,0); (1970,10,25,6,0); (1971,4,25,7,0); (1971,10,31,6,0); (1972,4,30,7,0); (1972,10,29,6,0);
  (1973,4,29,7,0); (1973,10,28,6,0); (1974,1,6,7,0); (1974,10,27,6,0); (1975,2,23,7,0); (1975,10,26,6,0);
  (1976,4,25,7,0); (1976,10,31,6,0); (1977,4,24,7,0); (1977,10,30,6,0); (1978,4,30,7,0); (1978,10,29,6,0);
  (1979,4,29,7,0); (1979,10,28,6,0); (1980,4,27,7,0); (1980,10,26,6,0); (1981,4,26,7,0); (1981,10,25,6,0);
  (1982,4,25,7,0); (1982,10,31,6,0); (1983,4,24,7,0); (1983,10,30,6,0); (1984,4,29,7,0); (1984,10,28,6,0);
  (1985,4,28,7,0); (1985,10,27,6,0); (1986,4,27,7,0); (1986,10,26,6,0); (1987,4,5,7,0); (1987,10,25,6,0);
  (1988,4,3,7,0); (1988,10,30,6,0); (1989,4,2,7,0); (1989,10,29,6,0); (1990,4,1,7,0); (1990,10,28,6,0);
  (1991,4,7,7,0); (1991,10,27,6,0); (1992,4,5,7,0); (1992,10,25,6,0); (1993,4,4,7,0); (1993,10,31,6,0);
  (1994,4,3,7,0); (1994,10,30,6,0); (1995,4,2,7,0); (1995,10,29,6,0); (1996,4,7,7,0); (1996,10,27,6,0);
  (1997,4,6,7,0); (1997,10,26,6,0); (1998,4,5,7,0); (1998,10,25,6,0); (1999,4,4,7,0); (1999,10,31,6,0);
  (2000,4,2,7,0); (2000,10,29,6,0); (2001,4,1,7,0); (2001,10,28,6,0); (2002,4,7,7,0); (2002,10,27,6,0);
  (2003,4,6,7,0); (2003,10,26,6,0); (2004,4,4,7,0); (2004,10,31,6,0); (2005,4,3,7,0); (2005,10,30,6,0);
  (2006,4,2,7,0); (2006,10,29,6,0); (2007,3,11,7,0); (2007,11,4,6,0); (2008,3,9,7,0); (2008,11,2,6,0);
  (2009,3,8,7,0); (2009,11,1,6,0); (2010,3,14,7,0); (2010,11,7,6,0); (2011,3,13,7,0); (2011,11,6,6,0);
  (2012,3,11,7,0); (2012,11,4,6,0); (2013,3,10,7,0); (2013,11,3,6,0); (2014,3,9,7,0); (2014,11,2,6,0);
  (2015,3,8,7,0); (2015,11,1,6,0); (2016,3,13,7,0); (2016,11,6,6,0); (2017,3,12,7,0); (2017,11,5,6,0);
  (2018,3,11,7,0); (2018,11,4,6,0); (2019,3,10,7,0); (2019,11,3,6,0); (2020,3,8,7,0); (2020,11,1,6,0);
  (2021,3,14,7,0); (2021,11,7,6,0); (2022,3,13,7,0); (2022,11,6,6,0); (2023,3,12,7,0); (2023,11,5,6,0);
  (2024,3,10,7,0); (2024,11,3,6,0); (2025,3,9,7,0); (2025,11,2,6,0); (2026,3,8,7,0); (2026,11,1,6,0);
  (2027,3,14,7,0); (2027,11,7,6,0); (2028,3,12,7,0); (2028,11,5,6,0); (2029,3,11,7,0); (2029,11,4,6,0);
  (2030,3,10,7,0); (2030,11,3,6,0); (2031,3,9,7,0); (2031,11,2,6,0); (2032,3,14,7,0); (2032,11,7,6,0);
  (2033,3,13,7,0); (2033,11,6,6,0); (2034,3,12,7,0); (2034,11,5,6,0); (2035,3,11,7,0); (2035,11,4,6,0);
  (2036,3,9,7,0); (2036,11,2,6,0); (2037,3,8,7,0); (2037,11,1,6,0); (2038,3,14,7,0); (2038,11,7,6,0);
  (2039,3,13,7,0); (2039,11,6,6,0); (2040,3,11,7,0); (2040,11,4,6,0) ].

(* rt_timezone.py:312-453 *)
Definition DST_CUTOFFS_DUBLIN : list stamp :=
  [ (1972,3,19,2,0); (1972,10,29,2,0); (1973,3,18,2,0); (1973,10,28,2,0); (1974,3,17,2,0); (1974,10,27,2,0);
  (1975,3,16,2,0); (1975,10,26,2,0); (1976,3,21,2,0); (1976,10,24,2,0); (1977,3,20,2,0); (1977,10,23,2,0);
  (1978,3,19,2,0); (1978,10,29,2,0); (1979,3,18,2,0); (1979,10,28,2,0); (1980,3,16,2,0); (1980,10,26,2,0);
  (1981,3,29,2,0); (1981,10,25,2,0); (1982,3,28,2,0); (1982,10,24,2,0); (1983,3,27,2,0); (1983,10,23,2,0);
  (1984,3,25,2,0); (1984,10,28,2,0); (1985,3,31,2,0); (1985,10,27,2,0); (1986,3,30,2,0); (1986,10,26,2,0);
  (1987,3,29,2,0); (1987,10,25,2,0); (1988,3,27,2,0); (1988,10,23,2,0); (1989,3,26,2,0); (1989,10,29,2,0);
  (1990,3,25,2,0); (1990,10,28,2,0); (1991,3,31,2,0); (1991,10,27,2,0); (1992,3,29,2,0); (1992,10,25,2,0);
  (1993,3,28,2,0); (1993,10,24,2,0); (1994,3,27,2,0); (1994,10,23,2,0); (1995,3,26,2,0); (1995,10,22,2,0);
  (1996,3,31,2,0); (1996,10,27,2,0); (1997,3,30,2,0); (1997,10,26,2,0); (1998,3,29,2,0); (1998,10,25,2,0);
  (1999,3,28,2,0); (1999,10,31,2,0); (2000,3,26,2,0); (2000,10,29,2,0); (2001,3,25,2,0); (2001,10,28,2,0);
  (2002,3,31,2,0); (2002,10,27,2,0); (2003,3,30,2,0); (2003,10,26,2,0); (2004,3,28,2,0); (2004,10,31,2,0);
  (2005,3,27,2,0); (2005,10,30,2,0); (2006,3,26,2,0); (2006,10,29,2,0); (2007,3,25,2,0); (2007,10,28,2,0);
  (2008,3,30,2,0); (2008,10,26,2,0); (2009,3,29,2,0); (2009,10,25,2,0); (2010,3,28,2,0); (2010,10,31,2,0);
  (2011,3,27,2,0); (2011,10,30,2,0); (2012,3,25,2,0); (2012,10,28,2,0); (2013,3,31,2,0); (2013,10,27,2,0);
  (2014,3,30,2,0); (2014,10,26,2,0); (2015,3,29,2,0); (2015,10,25,2,0); (2016,3,27,2,0); (2016,10,30,2,0);
  (2017,3,26,2,0); (2017,10,29,2,0); (2018,3,25,2,0); (2018,10,28,2,0); (2019,3,31,2,0); (2019,10,27,2,0);
  (2020,3,29,2,0); (2020,10,25,2,0); (2021,3,28,2,0); (2021,10,31,2,0); (2022,3,27,2,0); (2022,10,30,2,0);
  (2023,3,26,2,0); (2023,10,29,2,0); (2024,3,31,2,0); (2024,10,27,2,0); (2025,3,30,2,0); (2025,10,26,2,0);
  (2026,3,29,2,0); (2026,10,25,2,0); (2027,3,28,2,0); (2027,10,31,2,0); (2028,3,26,2,0); (2028,10,29,2,0);
  (2029,3,25,2,0); (2029,10,28,2,0); (2030,3,31,2,0); (2030,10,27,2,0); (2031,3,30,2,0); (2031,10,26,2,0);
  (2032,3,28,2,0); (2032,10,31,2,0); (2033,3,27,2,0); (2033,10,30,2,0); (2034,3,26,2,0); (2034,10,29,2,0);
  (2035,3,25,2,0); (2035,10,28,2,0); (2036,3,30,2,0); (2036,10,26,2,0); (2037,3,29,2,0); (2037,10,25,2,0);
  (2038,3,28,2,0); (2038,10,31,2,0); (2039,3,27,2,0); (2039,10,30,2,0); (2040,3,25,2,0); (2040,10,28,2,0) ].

(* rt_timezone.py:455-596 *)
Definition DST_REVERSE_DUBLIN : list stamp :=
  [ (1972,3,19,1,0); (1972,10,29,1,0); (1973,3,18,1,0); (1973,10,28,1,0); (1974,3,17,1,0); (1974,10,27,1,0);
  (1975,3,16,1,0); (1975,10,26,1,0); (1976,3,21,1,0); (1976,10,24,1,0); (1977,3,20,1,0); (1977,10,23,1,0);
  (1978,3,19,1,0); (1978,10,29,1,0); (1979,3,18,1,0); (1979,10,28,1,0); (1980,3,16,1,0); (1980,10,26,1,0);
  (1981,3,29,1,0); (1981,10,25,1,0); (1982,3,28,1,0); (1982,10,24,1,0); (1983,3,27,1,0); (1983,10,23,1,0);
  (1984,3,25,1,0); (1984,10,28,1,0); (1985,3,31,1,0); (1985,10,27,1,0); (1986,3,30,1,0); (1986,10,26,1,0);
  (1987,3,29,1,0); (1987,10,25,1,0); (1988,3,27,1,0); (1988,10,23,1,0); (1989,3,26,1,0); (1989,10,29,1,0);
  (1990,3,25,1,0); (1990,10,28,1,0); (1991,3,31,1,0); (1991,10,27,1,0); (1992,3,29,1,0); (1992,10,25,1,0);
  (1993,3,28,1,0); (1993,10,24,1,0); (1994,3,27,1,0); (1994,10,23,1,0); (1995,3,26,1,0); (1995,10,22,1,0);
  (1996,3,31,1,0); (1996,10,27,1,0); (1997,3,30,1,0); (1997,10,26,1,0); (1998,3,29,1,0); (1998,10,25,1,0);
  (1999,3,28,1,0); (1999,10,31,1,0); (2000,3,26,1,0); (2000,10,29,1,0); (2001,3,25,1,0); (2001,10,28,1,0);
  (2002,3,31,1,0); (2002,10,27,1,0); (2003,3,30,1,0); (2003,10,26,1,0); (2004,3,28,1,0); (2004,10,31,1,0);
  (2005,3,27,1,0); (2005,10,30,1,0); (2006,3,26,1,0); (2006,10,29,1,0); (2007,3,25,1,0); (2007,10,28,1,0);
  (2008,3,30,1,0); (2008,10,26,1,0); (2009,3,29,1,0); (2009,10,25,1,0); (2010,3,28,1,0); (2010,10,31,1,0);
  (2011,3,27,1,0); (2011,10,30,1,0); (2012,3,25,1,0); (2012,10,28,1,0); (2013,3,31,1,0); (2013,10,27,1,0);
  (2014,3,30,1,0); (2014,10,26,1,0); (2015,3,29,1,0); (2015,10,25,1,0); (2016,3,27,1,0); (2016,10,30,1,0);
  (2017,3,26,1,0); (2017,10,29,1,0); (2018,3,25,1,0); (2018,10,28,1,0); (2019,3,31,1,0); (2019,10,27,1,0);
  (2020,3,29,1,0); (2020,10,25,1,0); (2021,3,28,1,0); (2021,10,31,1,0); (2022,3,27,1,0); (2022,10,30,1,0);
  (2023,3,26,1,0); (2023,10,29,1,0); (2024,3,31,1,0); (2024,10,27,1,0); (2025,3,30,1,0); (2025,10,26,1,0);
  (2026,3,29,1,0); (2026,10,25,1,0); (2027,3,28,1,0); (2027,10,31,1,0); (2028,3,26,1,0); (2028,10,29,1,0);
  (2029,3,25,1,0); (2029,10,28,1,0); (2030,3,31,1,0); (2030,10,27,1,0); (2031,3,30,1,0); (2031,10,26,1,0);
  (2032,3,28,1,0); (2032,10,31,1,0); (2033,3,27,1,0); (2033,10,30,1,0); (2034,3,26,1,0); (2034,10,29,1,0);
  (2035,3,25,1,0); (2035,10,28,1,0); (2036,3,30,1,0); (2036,10,26,1,0); (2037,3,29,1,0); (2037,10,25,1,0);
  (2038,3,28,1,0); (2038,10,31,1,0); (2039,3,27,1,0); (2039,10,30,1,0); (2040,3,25,1,0); (2040,10,28,1,0) ].

(* rt_timezone.py:604-755 *)
Definition DST_CUTOFFS_Australia__Sydney : list stamp :=
  [ (1969,10,26,2,0); (1970,4,5,3,0); (1970,10,4,2,0); (1971,4,4,3,0); (1971,10,3,2,0); (1972,4,2,3,0);
  (1972,10,1,2,0); (1973,4,1,3,0); (1973,10,7,2,0); (1974,4,7,3,0); (1974,10,6,2,0); (1975,4,6,3,0);
  (1975,10,5,2,0); (1976,4,4,3,0); (1976,10,3,2,0); (1977,4,3,3,0); (1977,10,2,2,0); (1978,4,2,3,0);
  (1978,10,1,2,0); (1979,4,1,3,0); (1979,10,7,2,0); (1980,4,6,3,0); (1980,10,5,2,0); (1981,4,5,3,0);
  (1981,10,4,2,0); (1982,4,4,3,0); (1982,10,3,2,0); (1983,4,3,3,0); (1983,10,2,2,0); (1984,4,1,3,0);
  (1984,10,7,2,0); (1985,4,7,3,0); (1985,10,6,2,0); (1986,4,6,3,0); (1986,10,5,2,0); (1987,4,5,3,0);
  (1987,10,4,2,0); (1988,4,3,3,0); (1988,10,2,2,0); (1989,4,2,3,0); (1989,10,1,2,0); (1990,4,1,3,0);
  (1990,10,7,2,0); (1991,4,7,3,0); (1991,10,6,2,0); (1992,4,5,3,0); (1992,10,4,2,0); (1993,4,4,3,0);
  (1993,10,3,2,0); (1994,4,3,3,0); (1994,10,2,2,0); (1995,4,2,3,0); (1995,10,1,2,0); (1996,4,7,3,0);
  (1996,10,6,2,0); (1997,4,6,3,0); (1997,10,5,2,0); (1998,4,5,3,0); (1998,10,4,2,0); (1999,4,4,3,0);
  (1999,10,3,2,0); (2000,4,2,3,0); (2000,10,1,2,0); (2001,4,1,3,0); (2001,10,7,2,0); (2002,4,7,3,0);
  (2002,10,6,2,0); (2003,4,6,3,0); (2003,10,5,2,0); (2004,4,4,3,0); (2004,10,3,2,0); (2005,4,3,3,0);
  (2005,10,2,2,0); (2006,4,2,3,0); (2006,10,1,2,0); (2007,4,1,3,0); (2007,10,7,2,0); (2008,4,6,3,0);
  (2008,10,5,2,0); (2009,4,5,3,0); (2009,10,4,2,0); (2010,4,4,3,0); (2010,10,3,2,0); (2011,4,3,3,0);
  (2011,10,2,2,0); (2012,4,1,3,0); (2012,10,7,2,0); (2013,4,7,3,0); (2013,10,6,2,0); (2014,4,6,3,0);
  (2014,10,5,2,0); (2015,4,5,3,0); (2015,10,4,2,0); (2016,4,3,3,0); (2016,10,2,2,0); (2017,4,2,3,0);
  (2017,10,1,2,0); (2018,4,1,3,0); (2018,10,7,2,0); (2019,4,7,3,0); (2019,10,6,2,0); (2020,4,5,3,0);
  (2020,10,4,2,0); (2021,4,4,3,0); (2021,10,3,2,0); (2022,4,3,3,0); (2022,10,2,2,0); (2023,4,2,3,0);
  (2023,10,1,2,0); (2024,4,7,3,0); (2024,10,6,2,0); (2025,4,6,3,0); (2025,10,5,2,0); (2026,4,5,3,0);
  (2026,10,4,2,0); (2027,4,4,3,0); (2027,10,3,2,0); (2028,4,2,3,0); (2028,10,1,2,0); (2029,4,1,3,0);
  (2029,10,7,2,0); (2030,4,7,3,0); (2030,10,6,2,0); (2031,4,6,3,0); (2031,10,5,2,0); (2032,4,4,3,0);
  (2032,10,3,2,0); (2033,4,3,3,0); (2033,10,2,2,0); (2034,4,2,3,0); (2034,10,1,2,0); (2035,4,1,3,0);
  (2035,10,7,2,0); (2036,4,6,3,0); (2036,10,5,2,0); (2037,4,5,3,0); (2037,10,4,2,0); (2038,4,4,3,0);
  (2038,10,3,2,0); (2039,4,3,3,0); (2039,10,2,2,0); (2040,4,1,3,0); (2040,10,7,2,0) ].

(* rt_timezone.py:757-903 *)
Definition DST_REVERSE_Australia__Sydney : list stamp :=
  [ (1969,10,25,16,0); (1970,4,4,16,0); (1970,10,3,16,0); (1971,4,3,16,0); (1971,10,2,16,0); (1972,4,1,16,0);
  (1972,9,30,16,0); (1973,3,31,16,0); (1973,10,6,16,0); (1974,4,6,16,0); (1974,10,5,16,0); (1975,4,5,16,0);
  (1975,10,4,16,0); (1976,4,3,16,0); (1976,10,2,16,0); (1977,4,2,16,0); (1977,10,1,16,0); (1978,4,1,16,0);
  (1978,9,30,16,0); (1979,3,31,16,0); (1979,10,6,16,0); (1980,4,5,16,0); (1980,10,4,16,0); (1981,4,4,16,0);
  (1981,10,3,16,0); (1982,4,3,16,0); (1982,10,2,16,0); (1983,4,2,16,0); (1983,10,1,16,0); (1984,3,31,16,0);
  (1984,10,6,16,0); (1985,4,6,16,0); (1985,10,5,16,0); (1986,4,5,16,0); (1986,10,4,16,0); (1987,4,4,16,0);
  (1987,10,3,16,0); (1988,4,2,16,0); (1988,10,1,16,0); (1989,4,1,16,0); (1989,9,30,16,0); (1990,3,31,16,0);
  (1990,10,6,16,0); (1991,4,6,16,0); (1991,10,5,16,0); (1992,4,4,16,0); (1992,10,3,16,0); (1993,4,3,16,0);
  (1993,10,2,16,0); (1994,4,2,16,0); (1994,10,1,16,0); (1995,4,1,16,0); (1995,9,30,16,0); (1996,4,6,16,0);
  (1996,10,5,16,0); (1997,4,5,16,0); (1997,10,4,16,0); (1998,4,4,16,0); (1998,10,3,16,0); (1999,4,3,16,0);
  (1999,10,2,16,0); (2000,4,1,16,0); (2000,9,30,16,0); (2001,3,31,16,0); (2001,10,6,16,0); (2002,4,6,16,0);
  (2002,10,5,16,0); (2003,4,5,16,0); (2003,10,4,16,0); (2004,4,3,16,0); (2004,10,2,16,0); (2005,4,2,16,0);
  (2005,10,1,16,0); (2006,4,1,16,0); (2006,9,30,16,0); (2007,3,31,16,0); (2007,10,6,16,0); (2008,4,5,16,0);
  (2008,10,4,16,0); (2009,4,4,16,0); (2009,10,3,16,0); (2010,4,3,16,0); (2010,10,2,16,0); (2011,4,2,16,0);
  (2011,10,1,16,0); (2012,3,31,16,0); (2012,10,6,16,0); (2013,4,6,16,0); (2013,10,5,16,0); (2014,4,5,16,0);
  (2014,10,4,16,0); (2015,4,4,16,0); (2015,10,3,16,0); (2016,4,2,16,0); (2016,10,1,16,0); (2017,4,1,16,0);
  (2017,9,30,16,0); (2018,3,31,16,0); (2018,10,6,16,0); (2019,4,6,16,0); (2019,10,5,16,0); (2020,4,4,16,0);
  (2020,10,3,16,0); (2021,4,3,16,0); (2021,10,2,16,0); (2022,4,2,16,0); (2022,10,1,16,0); (2023,4,1,16,0);
  (2023,9,30,16,0); (2024,4,6,16,0); (2024,10,5,16,0); (2025,4,5,16,0); (2025,10,4,16,0); (2026,4,4,16,0);
  (2026,10,3,16,0); (2027,4,3,16,0); (2027,10,2,16,0); (2028,4,1,16,0); (2028,9,30,16,0); (2029,3,31,16,0);
  (2029,10,6,16,0); (2030,4,6,16,0); (2030,10,5,16,0); (2031,4,5,16,0); (2031,10,4,16,0); (2032,4,3,16,0);
  (2032,10,2,16,0); (2033,4,2,16,0); (2033,10,1,16,0); (2034,4,1,16,0); (2034,9,30,16,0); (2035,3,31,16,0);
  (2035,10,6,16,0); (2036,4,5,16,0); (2036,10,4,16,0); (2037,4,4,16,0); (2037,10,3,16,0); (2038,4,3,16,0);
  (2038,10,2,16,0); (2039,4,2,16,0); (2039,10,1,16,0); (2040,3,31,16,0); (2040,10,6,16,0) ].

(* rt_timezone.py:915-934 *)
Definition DST_CUTOFFS_Asia__Hong_Kong : list stamp :=
  [ (1970,4,19,3,30); (1970,10,18,3,30); (1971,4,18,3,30); (1971,10,17,3,30); (1972,4,16,3,30); (1972,10,22,3,30);
  (1973,4,22,3,30); (1973,10,21,3,30); (1973,12,30,3,30); (1974,10,20,3,30); (1975,4,20,3,30); (1975,10,19,3,30);
  (1976,4,18,3,30); (1976,10,17,3,30); (1979,5,13,3,30); (1979,10,21,3,30) ].

(* rt_timezone.py:936-955 *)
Definition DST_REVERSE_Asia__Hong_Kong : list stamp :=
  [ (1970,4,18,19,30); (1970,10,17,18,30); (1971,4,17,19,30); (1971,10,16,18,30); (1972,4,15,19,30); (1972,10,21,18,30);
  (1973,4,21,19,30); (1973,10,20,18,30); (1973,12,29,19,30); (1974,10,19,18,30); (1975,4,19,19,30); (1975,10,18,18,30);
  (1976,4,17,19,30); (1976,10,16,18,30); (1979,5,12,19,30); (1979,10,20,18,30) ].

(* rt_timezone.py:967-974 *)
Definition DST_CUTOFFS_Asia__Seoul : list stamp :=
  [ (1987,5,10,2,0); (1987,10,11,3,0); (1988,5,8,2,0); (1988,10,9,3,0) ].

(* rt_timezone.py:976-983 *)
Definition DST_REVERSE_Asia__Seoul : list stamp :=
  [ (1987,5,9,17,0); (1987,10,10,17,0); (1988,5,7,17,0); (1988,10,8,17,0) ].

(* rt_timezone.py:309, 602, 909, 961, 965, 989, 999 *)
Definition NYC_OFFSET_NS : Z := 5 * NANOS_PER_HOUR.
Definition DUBLIN_OFFSET_NS : Z := 0 * NANOS_PER_HOUR.
Definition Australia__Sydney_OFFSET_NS : Z := -10 * NANOS_PER_HOUR.
Definition Asia__Hong_Kong_OFFSET_NS : Z := -8 * NANOS_PER_HOUR.
Definition Asia__Tokyo_OFFSET_NS : Z := -9 * NANOS_PER_HOUR.
Definition Asia__Seoul_OFFSET_NS : Z := -9 * NANOS_PER_HOUR.
Definition Asia__Kolkata_OFFSET_NS : Z := - (5 * NANOS_PER_HOUR + 30 * NANOS_PER_MINUTE).
