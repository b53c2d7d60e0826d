(** Which dates and times there are.  Specification only. *)
From Verif Require Import Base SqlVal.

(** The dates of the Gregorian calendar, in the years chrono knows. *)
Definition in_calendar (d : date) : Prop :=
  let y := d_year d in let m := d_month d in
  (-262143 <= y <= 262142)%Z /\ (1 <= d_day d)%Z /\
  (In m [1; 3; 5; 7; 8; 10; 12]%Z /\ (d_day d <= 31)%Z
   \/ In m [4; 6; 9; 11]%Z /\ (d_day d <= 30)%Z
   \/ m = 2%Z /\ (d_day d <= 28)%Z
   \/ m = 2%Z /\ d_day d = 29%Z /\ (4 | y)%Z /\ (~ (100 | y)%Z \/ (400 | y)%Z)).
(** The times of a day; a leap second, nanoseconds from 1000000000 on, only at second 59. *)
Definition on_clock (t : timestamp) : Prop :=
  (0 <= t_hour t <= 23)%Z /\ (0 <= t_min t <= 59)%Z /\ (0 <= t_sec t <= 59)%Z
  /\ (0 <= t_nano t <= 999999999 \/ t_sec t = 59 /\ 1000000000 <= t_nano t <= 1999999999)%Z.
