(** Vocabulary for the next time of a cron expression. *)
From Verif Require Export CronNext SpecParse.

(** Times are counted in seconds from an epoch; this is a billion years of them. *)
Definition a_time (u : Z) : Prop := 0 <= u < 2 ^ 55.
(** A clock that shows the local time [lt u] at time [u]: the fields are in their ranges, minutes and half hours of local
    time begin at multiples of 60 and 1800 seconds, and within a minute all the fields except the second stay, within half
    an hour the hour, the day and the day of the week. *)
Record regular (lt : Z -> tm) : Prop := mk_regular {
  rg_range : forall u, a_time u ->
    0 <= tm_min (lt u) <= 59 /\ 0 <= tm_hour (lt u) <= 23 /\ 1 <= tm_mday (lt u) <= 31 /\ 0 <= tm_mon (lt u) <= 11
    /\ 0 <= tm_wday (lt u) <= 6 /\ - 2 ^ 31 + 100 <= tm_year (lt u) < 2 ^ 31;
  rg_second : forall u, a_time u -> tm_sec (lt u) = u mod 60;
  rg_minute : forall u v, a_time u -> a_time v -> u / 60 = v / 60 ->
    tm_min (lt u) = tm_min (lt v) /\ tm_hour (lt u) = tm_hour (lt v) /\ tm_mday (lt u) = tm_mday (lt v)
    /\ tm_mon (lt u) = tm_mon (lt v) /\ tm_wday (lt u) = tm_wday (lt v) /\ tm_year (lt u) = tm_year (lt v);
  rg_half : forall u v, a_time u -> a_time v -> u / 1800 = v / 1800 ->
    tm_hour (lt u) = tm_hour (lt v) /\ tm_mday (lt u) = tm_mday (lt v) /\ tm_wday (lt u) = tm_wday (lt v) }.

(** All fields except the year match. *)
Definition matches_but_year (t : tm) (k : cronmap) : bool :=
  bit_on (k_sec k) (tm_sec t) && bit_on (k_min k) (tm_min t) && bit_on (k_hour k) (tm_hour t) && bit_on (k_mday k) (tm_mday t)
  && bit_on (k_mon k) (tm_mon t + 1) && bit_on (k_wday k) (tm_wday t).
(** The map of the years has room for the years 2000 to 2103. *)
Definition year_in_map (t : tm) : Prop := 100 <= tm_year t < 204.
(** [u] is the first time after [now] at which [P] holds. *)
Definition first_after (now : Z) (P : Z -> Prop) (u : Z) : Prop := now < u /\ P u /\ forall v, now < v < u -> ~ P v.
(** The expression fires at time [u]. *)
Definition fires (lt : Z -> tm) (k : cronmap) (u : Z) : Prop := matches (lt u) k = true.
(** At time [u] all fields except the year match, and the year matches too or is not in the map. *)
Definition decisive (lt : Z -> tm) (k : cronmap) (u : Z) : Prop :=
  matches_but_year (lt u) k = true /\ (year_in_map (lt u) -> matches (lt u) k = true).

(** ** A calendar *)

(** The civil date of a day counted from 1 January 1970: year, month (1 to 12) and day. The years begin in March and are
    counted in eras of 400. *)
Definition civil (day : Z) : Z * Z * Z :=
  let z := day + 719468 in
  let era := z / 146097 in
  let doe := z mod 146097 in
  let yoe := (doe - doe / 1460 + doe / 36524 - doe / 146096) / 365 in
  let doy := doe - (365 * yoe + yoe / 4 - yoe / 100) in
  let mp := (5 * doy + 2) / 153 in
  let m := if mp <? 10 then mp + 3 else mp - 9 in
  (yoe + era * 400 + (if m <=? 2 then 1 else 0), m, doy - (153 * mp + 2) / 5 + 1).
(** Local time [off] seconds ahead of the time counted. *)
Definition zone (off u : Z) : tm :=
  let l := u + off in
  let '(y, m, d) := civil (l / 86400) in
  mk_tm (l mod 60) (l / 60 mod 60) (l / 3600 mod 24) d (m - 1) ((l / 86400 + 4) mod 7) (y - 1900).
(** The text 0 0 0 * * * *, every day at midnight. *)
Definition midnight_text : list Z := [48; 32; 48; 32; 48; 32; 42; 32; 42; 32; 42; 32; 42].
