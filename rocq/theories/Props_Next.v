(** Property theorems: next time of a cron expression, several expressions (C50, C51). *)
From Verif Require Import P_Next Demo.
From Verif Require Import P_Parse.

(** ** C50 *)

(** C50: what lwdtc_cron_next does on any regular clock. It goes to the first time after the given one at which all the
    fields except the year match and the year matches too or is not in the map of years (2000 to 2103). That time is the
    result if its year is in the map; otherwise the map is read outside its bounds. *)
Theorem C50_exact : forall lt k now u, regular lt -> full_map k -> 0 <= now -> u < 2 ^ 55 -> first_after now (decisive lt k) u ->
  forall fuel, u - now <= Z.of_nat fuel ->
  (year_in_map (lt u) -> cron_next fuel lt k now = Ok u) /\ (~ year_in_map (lt u) -> cron_next fuel lt k now = Bad UB_oob).
Proof. exact C50_exact_l. Qed.
Print Assumptions C50_exact.

(** C50: if the expression fires at some time after [now], before the year 2104 and never before the year 2000 on the way,
    the result is the first such time. *)
Theorem C50_first : forall lt k now u, regular lt -> full_map k -> 0 <= now -> u < 2 ^ 55 -> (forall v, now < v <= u -> year_in_map (lt v)) ->
  first_after now (fires lt k) u -> forall fuel, u - now <= Z.of_nat fuel -> cron_next fuel lt k now = Ok u.
Proof. exact C50_first_l. Qed.
Print Assumptions C50_first.

(** C50: whenever a time is returned, it is the first one after [now] at which the expression fires. *)
Theorem C50_sound : forall lt k now u fuel, regular lt -> full_map k -> 0 <= now -> u + 1800 < 2 ^ 55 -> cron_next fuel lt k now = Ok u ->
  first_after now (fires lt k) u.
Proof. exact C50_sound_l. Qed.
Print Assumptions C50_sound.

(** C50: an expression whose fields other than the year never match again, for instance the 30th of February, makes the loop
    run on without end (for as many iterations as stay within the billion years of times considered). *)
Theorem C50_endless_actual : forall lt k now fuel, regular lt -> full_map k -> 0 <= now -> now + 1800 * (Z.of_nat fuel + 2) < 2 ^ 55 ->
  (forall v, now < v -> matches_but_year (lt v) k = false) -> cron_next fuel lt k now = NoFuel.
Proof. exact C50_endless_actual_l. Qed.
Print Assumptions C50_endless_actual.

(** ** Properties of the calendar *)

(** ** C50: other clocks *)

(** C50: where local time is not a whole number of half hours ahead (for instance Nepal, 5 h 45 min), the function fails: the
    expression for every day at midnight does fire at every midnight, but started at any other minute the loop passes over
    all midnights and does not end. *)
Theorem C50_quarter_zone_actual : forall off, off mod 60 = 0 -> off mod 1800 <> 0 ->
  exists k, cron_parse map0 midnight_text = Ok (L_OK, k)
    /\ (forall u, (u + off) mod 86400 = 0 -> 100 <= tm_year (zone off u) <= 200 -> fires (zone off) k u)
    /\ forall now fuel, 0 <= now -> now + 1800 * Z.of_nat fuel + 1 < 2 ^ 63 -> 60 <= (now + 1 + off) mod 86400 ->
         cron_next fuel (zone off) k now = NoFuel.
Proof. exact C50_quarter_zone_actual_l. Qed.
Print Assumptions C50_quarter_zone_actual.
(** 0 30 9 * * 1-5 *: half past nine on working days. Asked on Friday 7 November 2025 at 10:00 (UTC), the function returns
    Monday 10 November 2025, 9:30. *)
Definition C50_text : list Z := [48; 32; 51; 48; 32; 57; 32; 42; 32; 42; 32; 49; 45; 53; 32; 42].
Definition C50_map : cronmap := match cron_parse map0 C50_text with Ok (_, k) => k | _ => map0 end.
Example C50_first_case : regular (zone 0) /\ cron_parse map0 C50_text = Ok (L_OK, C50_map) /\ full_map C50_map
  /\ zone 0 1762509600 = mk_tm 0 0 10 7 10 5 125 /\ zone 0 1762767000 = mk_tm 0 30 9 10 10 1 125
  /\ cron_next 1000 (zone 0) C50_map 1762509600 = Ok 1762767000
  /\ first_after 1762509600 (fires (zone 0) C50_map) 1762767000.
Proof.
  assert (R : regular (zone 0)) by (exact (zone_regular 0 ltac:(lia))). split; [exact R|]. split; [vm_compute; reflexivity|].
  assert (F : full_map C50_map) by (vm_compute; repeat split). split; [exact F|].
  assert (X : cron_next 1000 (zone 0) C50_map 1762509600 = Ok 1762767000) by (vm_compute; reflexivity).
  split; [vm_compute; reflexivity|]. split; [vm_compute; reflexivity|]. split; [exact X|]. refine (C50_sound _ _ _ _ _ R F _ _ X); lia.
Qed.
(** The calendar knows leap years: 29 February 2000 was a Tuesday, 1 March 2100 will be a Monday, the day before it is 28 February. *)
Example C50_calendar_case : zone 0 951782400 = mk_tm 0 0 0 29 1 2 100 /\ zone 3600 4107538800 = mk_tm 0 0 0 1 2 1 200 /\ zone 3600 4107538799 = mk_tm 59 59 23 28 1 0 200.
Proof. repeat split; vm_compute; reflexivity. Qed.
(** A year that is over, asked in December 2103: the year map is read outside its bounds in 2104. *)
Example C50_exact_case : cron_next 5000 (zone 0) (set_k_year (1 :: repeat 0 12) (set_k_mon [2; 0] (set_k_mday [2; 0; 0; 0] midnight))) 4227552000 = Bad UB_oob.
Proof. vm_compute. reflexivity. Qed.
(** The 30th of February. *)
Lemma C50_february v : matches_but_year (zone 0 v) (set_k_mon [4; 0] (set_k_mday [0; 0; 0; 64] midnight)) = false.
Proof.
  unfold matches_but_year. cbn [k_sec k_min k_hour k_mday k_mon k_wday set_k_mon set_k_mday midnight].
  destruct (zone_ranges 0 v) as (_ & _ & _ & R3 & R4 & _). destruct (zone_fields 0 v) as (_ & _ & _ & _ & D & M & _).
  pose proof (civil_range ((v + 0) / 86400)) as C. destruct (civil ((v + 0) / 86400)) as [[y m] d]. cbn [fst snd] in *. rewrite D, M in *.
  destruct (bit_on [4; 0] (m - 1 + 1)) eqn:E; [|rewrite !andb_false_r; reflexivity].
  assert (m = 2).
  { destruct (Z.eq_dec m 2); [assumption|]. exfalso. replace (m - 1 + 1) with m in E by lia.
    assert (Q : bit_on [4; 0] m = (m =? 2)).
    { apply eqb_prop. apply (all_from_ok (fun m => eqb (bit_on [4; 0] m) (m =? 2)) 12 1); [vm_compute; reflexivity|lia]. }
    rewrite Q in E. lia. }
  subst m. change (days_in 2) with 29 in C.
  assert (Q : bit_on [0; 0; 0; 64] d = (d =? 30)).
  { apply eqb_prop. apply (all_from_ok (fun m => eqb (bit_on [0; 0; 0; 64] m) (m =? 30)) 31 1); [vm_compute; reflexivity|lia]. }
  rewrite Q. replace (d =? 30) with false by lia. rewrite !andb_false_r. reflexivity.
Qed.
Example C50_endless_case : cron_next 2000 (zone 0) (set_k_mon [4; 0] (set_k_mday [0; 0; 0; 64] midnight)) 1762509600 = NoFuel.
Proof.
  apply C50_endless_actual; [exact (zone_regular 0 ltac:(lia))|repeat split|lia|reflexivity|]. intros v _. apply C50_february.
Qed.
(** Nepal, local time 10:00 on 7 November 2025. *)
Example C50_quarter_zone_case : zone 20700 1762488900 = mk_tm 0 0 10 7 10 5 125 /\ cron_next 2000 (zone 20700) midnight 1762488900 = NoFuel
  /\ cron_next 100 (zone 19800) midnight 1762488900 <> NoFuel.
Proof. split; [vm_compute; reflexivity|]. split; [vm_compute; reflexivity|vm_compute; discriminate]. Qed.

(** ** C51 *)

(** C51: the expressions are parsed in order up to the first one that is not accepted, whose index is reported; every one
    of them as if it were parsed alone; the maps behind it stay as they were. *)
Theorem C51_parse : forall ks ss r f ks', ss <> [] -> (length ss <= length ks)%nat -> parse_multi ks ss = Ok (r, f, ks') ->
  length ks' = length ks /\ exists n, (n < length ss)%nat
    /\ (forall j k s k', (j <= n)%nat -> nth_error ks j = Some k -> nth_error ss j = Some s -> nth_error ks' j = Some k' ->
          cron_parse k s = Ok ((if (j <? n)%nat then L_OK else r), k'))
    /\ (forall j, (n < j)%nat -> nth_error ks' j = nth_error ks j)
    /\ (r = L_OK -> n = (length ss - 1)%nat /\ f = None) /\ (r <> L_OK -> f = Some n).
Proof. exact C51_parse_l. Qed.
Print Assumptions C51_parse.

(** C51: for any number of good expressions, parsing all of them succeeds, and at every calendar time the OR test answers OK
    exactly when the time is in at least one of them, the AND test exactly when it is in all of them; otherwise the answer is
    ERR. *)
Theorem C51_expressions : forall fss ks, fss <> [] -> length ks = length fss -> Forall good_expression fss ->
  exists ks', parse_multi ks (map expression fss) = Ok (L_OK, None, ks')
    /\ forall t, calendar t -> exists a b, multi_or t ks' = Ok a /\ multi_and t ks' = Ok b
         /\ (a = L_OK \/ a = L_ERR) /\ (a = L_OK <-> exists fs, In fs fss /\ time_in t fs)
         /\ (b = L_OK \/ b = L_ERR) /\ (b = L_OK <-> forall fs, In fs fss -> time_in t fs).
Proof. exact C51_expressions_l. Qed.
Print Assumptions C51_expressions.
(** Working days at half past nine, and every minute of November; the second of two bad texts is reported by its index. *)
Definition C51_texts : list (list Z) := [C50_text; [42; 32; 42; 32; 42; 32; 42; 32; 49; 49; 32; 42; 32; 42]].
Definition C51_maps : list cronmap := match parse_multi [map0; map0] C51_texts with Ok (_, _, l) => l | _ => [] end.
Example C51_parse_case : parse_multi [map0; map0] C51_texts = Ok (L_OK, None, C51_maps)
  /\ multi_or (mk_tm 0 31 9 10 10 1 125) C51_maps = Ok L_OK /\ multi_and (mk_tm 0 31 9 10 10 1 125) C51_maps = Ok L_ERR
  /\ multi_and (mk_tm 0 30 9 10 10 1 125) C51_maps = Ok L_OK /\ multi_or (mk_tm 0 31 9 10 11 1 125) C51_maps = Ok L_ERR
  /\ exists l, parse_multi [map0; map0] [C50_text; [42; 32; 55; 48]] = Ok (L_ERRTOKEN, Some 1%nat, l).
Proof. repeat split; try (vm_compute; reflexivity). eexists. vm_compute. reflexivity. Qed.
Definition C51_star : list (list Z * list item) := ([], [mk_item Star None None]) :: repeat ([32], [mk_item Star None None]) 6.
Example C51_expressions_case : Forall good_expression [C51_star; C51_star].
Proof.
  assert (G : good_expression C51_star).
  { split; [|repeat constructor; discriminate].
    assert (I : forall mn mx, 0 <= mn <= mx -> good_field mn mx [mk_item Star None None]).
    { intros mn mx M. split; [discriminate|]. constructor; [|constructor]. split; [wf_item|]. split; [unfold in_range; cbn; lia|]. split; [cbn; lia|].
      unfold wraps. cbn. lia. }
    repeat (constructor; [split; [repeat constructor|apply I; cbn; lia]|]); constructor. }
  constructor; [exact G|constructor; [exact G|constructor]].
Qed.
