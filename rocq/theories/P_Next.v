(** next time of a cron expression, several expressions (C50, C51). *)
From Verif Require Import P_Cron Parse P_Parse.
From Verif Require Export SpecNext.
(*IMPORT P_Parse *)

Lemma bit_exact mp n p : length mp = n -> (n < 100)%nat -> 0 <= p < 8 * Z.of_nat n -> bit_is_set mp (u32 p) = Ok (bit_on mp p).
Proof. intros L N R. destruct (bit_small mp p n L R N) as [b B]. rewrite B. f_equal. symmetry. apply bit_value; [lia|exact B]. Qed.
Lemma year_out k y : full_map k -> - 2 ^ 31 + 100 <= y < 2 ^ 31 -> ~ 100 <= y < 204 -> bit_is_set (k_year k) (u32 (y - 100)) = Bad UB_oob.
Proof.
  intros F R N. unfold bit_is_set. assert (L : length (k_year k) = 13%nat) by apply F. unfold lget.
  assert (U : 104 <= u32 (y - 100)).
  { unfold u32. destruct (Z_lt_le_dec y 100).
    - rewrite <- (Z_mod_plus_full _ 1). rewrite Z.mod_small; lia.
    - rewrite Z.mod_small; lia. }
  rewrite Z.shiftr_div_pow2 by lia. change (2 ^ 3) with 8.
  assert (13 <= u32 (y - 100) / 8) by (apply Z.div_le_lower_bound; lia).
  unfold idx_ok. rewrite L, (proj2 (Z.ltb_ge (u32 (y - 100) / 8) (Z.of_nat 13))) by lia. rewrite andb_false_r. reflexivity.
Qed.

(** What the validity test computes at a time of a regular clock. *)
Lemma valid_exact lt k u : regular lt -> full_map k -> a_time u ->
  cron_valid (lt u) k = if matches_but_year (lt u) k then (if (100 <=? tm_year (lt u)) && (tm_year (lt u) <? 204) then Ok (matches (lt u) k) else Bad UB_oob) else Ok false.
Proof.
  intros G F U. destruct (rg_range lt G u U) as (R1 & R2 & R3 & R4 & R5 & R6). pose proof (rg_second lt G u U) as R0.
  assert (RS : 0 <= tm_sec (lt u) <= 59) by (rewrite R0; pose proof (Z.mod_pos_bound u 60); lia).
  assert (FF := F). destruct FF as (L1 & L2 & L3 & L4 & L5 & L6 & L7).
  unfold cron_valid, matches, matches_but_year.
  rewrite (bit_exact _ 8 (tm_sec (lt u)) L1), (bit_exact _ 8 (tm_min (lt u)) L2), (bit_exact _ 3 (tm_hour (lt u)) L3), (bit_exact _ 4 (tm_mday (lt u)) L4),
    (bit_exact _ 2 (tm_mon (lt u) + 1) L5), (bit_exact _ 1 (tm_wday (lt u)) L6) by lia.
  unfold and_bit. cbn [rbind].
  destruct (bit_on (k_sec k) _); [|reflexivity]. destruct (bit_on (k_min k) _); [|reflexivity]. destruct (bit_on (k_hour k) _); [|reflexivity].
  destruct (bit_on (k_mday k) _); [|reflexivity]. destruct (bit_on (k_mon k) _); [|reflexivity]. destruct (bit_on (k_wday k) _); [|reflexivity]. cbn [andb].
  destruct (100 <=? tm_year (lt u)) eqn:E1; destruct (tm_year (lt u) <? 204) eqn:E2; cbn [andb]; try (apply year_out; auto; lia).
  apply (bit_exact _ 13); [exact L7|lia|lia].
Qed.
Lemma matches_year t k : matches t k = true -> matches_but_year t k = true.
Proof. unfold matches, matches_but_year. rewrite !andb_true_iff. tauto. Qed.

Lemma tm_eta b : mk_tm (tm_sec b) (tm_min b) (tm_hour b) (tm_mday b) (tm_mon b) (tm_wday b) (tm_year b) = b.
Proof. destruct b; reflexivity. Qed.
(** The broken-down time kept in the loop is the local time. *)
Lemma next_second lt t : regular lt -> a_time t -> a_time (t + 1) ->
  (let b := lt t in let b' := mk_tm (tm_sec b + 1) (tm_min b) (tm_hour b) (tm_mday b) (tm_mon b) (tm_wday b) (tm_year b) in
   if tm_sec b' <=? 59 then b' else lt (t + 1)) = lt (t + 1).
Proof.
  intros G A B. cbn. destruct (tm_sec (lt t) + 1 <=? 59) eqn:E; [|reflexivity].
  rewrite (rg_second lt G t A) in *. assert (Q : t / 60 = (t + 1) / 60) by (Z.to_euclidean_division_equations; lia).
  destruct (rg_minute lt G t (t + 1) A B Q) as (-> & -> & -> & -> & -> & ->).
  replace (t mod 60 + 1) with (tm_sec (lt (t + 1))) by (rewrite (rg_second lt G _ B); Z.to_euclidean_division_equations; lia). apply tm_eta.
Qed.
Definition day_hour_on (t : tm) (k : cronmap) : bool := bit_on (k_mday k) (tm_mday t) && bit_on (k_wday k) (tm_wday t) && bit_on (k_hour k) (tm_hour t).
Lemma day_hour_exact lt k u : regular lt -> full_map k -> a_time u -> day_hour (lt u) k = Ok (day_hour_on (lt u) k).
Proof.
  intros G F U. destruct (rg_range lt G u U) as (R1 & R2 & R3 & R4 & R5 & R6). destruct F as (L1 & L2 & L3 & L4 & L5 & L6 & L7).
  unfold day_hour, day_hour_on, and_bit.
  rewrite (bit_exact _ 3 (tm_hour (lt u)) L3), (bit_exact _ 4 (tm_mday (lt u)) L4), (bit_exact _ 1 (tm_wday (lt u)) L6) by lia.
  cbn [rbind]. destruct (bit_on (k_mday k) _); [|reflexivity]. destruct (bit_on (k_wday k) _); reflexivity.
Qed.
(** The time to which one iteration that does not stop goes on. *)
Definition hop (lt : Z -> tm) (k : cronmap) (t : Z) : Z :=
  if day_hour_on (lt t) k then if bit_on (k_min k) (tm_min (lt t)) then t + 1 else (t / 60 + 1) * 60 else (t / 1800 + 1) * 1800.
Lemma hop_later lt k t : t < hop lt k t <= t + 1800.
Proof. unfold hop. destruct (day_hour_on _ _); [destruct (bit_on _ _)|]; Z.to_euclidean_division_equations; lia. Qed.
(** The times it leaves out do not match, whatever the year. *)
Lemma hop_skips lt k t v : regular lt -> a_time t -> a_time v -> t < v < hop lt k t -> matches_but_year (lt v) k = false.
Proof.
  intros G A B R. unfold hop in R. destruct (matches_but_year (lt v) k) eqn:M; [|reflexivity]. exfalso.
  unfold matches_but_year in M. rewrite !andb_true_iff in M. destruct M as [[[[[M1 M2] M3] M4] M5] M6].
  destruct (day_hour_on (lt t) k) eqn:D.
  - destruct (bit_on (k_min k) (tm_min (lt t))) eqn:E; [lia|].
    assert (Q : t / 60 = v / 60) by (Z.to_euclidean_division_equations; lia). destruct (rg_minute lt G t v A B Q) as (W & _). rewrite W in E. congruence.
  - assert (Q : t / 1800 = v / 1800) by (Z.to_euclidean_division_equations; lia). destruct (rg_half lt G t v A B Q) as (W1 & W2 & W3).
    unfold day_hour_on in D. rewrite W1, W2, W3, M4, M6, M3 in D. discriminate.
Qed.
Lemma next_step f lt k t : regular lt -> full_map k -> a_time t -> hop lt k t < 2 ^ 55 ->
  next_loop (S f) lt k t (lt t) = let? v := cron_valid (lt t) k in if v then Ok t else next_loop f lt k (hop lt k t) (lt (hop lt k t)).
Proof.
  intros G F A H. cbn [next_loop]. destruct (cron_valid (lt t) k) as [[]| |]; [reflexivity| |reflexivity|reflexivity]. cbn [rbind].
  rewrite (day_hour_exact lt k t G F A). cbn [rbind]. pose proof (hop_later lt k t) as L. unfold hop in *. unfold a_time in A.
  assert (P : 2 ^ 55 < 2 ^ 63) by reflexivity.
  destruct (day_hour_on (lt t) k) eqn:D.
  - destruct (rg_range lt G t A) as (R1 & _). rewrite (bit_exact _ 8 (tm_min (lt t))) by (try apply F; lia). cbn [rbind].
    destruct (bit_on (k_min k) (tm_min (lt t))) eqn:E.
    + unfold time_add. rewrite (proj2 (Z.ltb_lt (t + 1) (2 ^ 63))) by lia. cbn [rbind].
      pose proof (next_second lt t G A ltac:(unfold a_time; lia)) as N. cbn in N |- *. rewrite N. reflexivity.
    + replace (t + (60 - Z.rem t 60)) with ((t / 60 + 1) * 60) by (rewrite Z.rem_mod_nonneg by lia; Z.to_euclidean_division_equations; lia).
      unfold time_add. replace (t + (60 - Z.rem t 60)) with ((t / 60 + 1) * 60) by (rewrite Z.rem_mod_nonneg by lia; Z.to_euclidean_division_equations; lia).
      rewrite (proj2 (Z.ltb_lt ((t / 60 + 1) * 60) (2 ^ 63))) by lia. reflexivity.
  - unfold time_add. replace (t + (1800 - Z.rem t 1800)) with ((t / 1800 + 1) * 1800) by (rewrite Z.rem_mod_nonneg by lia; Z.to_euclidean_division_equations; lia).
    rewrite (proj2 (Z.ltb_lt ((t / 1800 + 1) * 1800) (2 ^ 63))) by lia. reflexivity.
Qed.

(** ** C50 *)

Lemma loop_exact lt k u : regular lt -> full_map k -> u < 2 ^ 55 -> decisive lt k u ->
  forall fuel t, 0 <= t <= u -> (forall v, t <= v < u -> ~ decisive lt k v) -> u - t < Z.of_nat fuel ->
  next_loop fuel lt k t (lt t) = if (100 <=? tm_year (lt u)) && (tm_year (lt u) <? 204) then Ok u else Bad UB_oob.
Proof.
  intros G F U [D1 D2] fuel. induction fuel as [|f IH]; [lia|]. intros t T N L.
  assert (A : a_time t) by (unfold a_time; lia).
  destruct (Z.eq_dec t u) as [->|NE].
  - cbn [next_loop]. rewrite (valid_exact lt k u G F A), D1. destruct ((100 <=? tm_year (lt u)) && (tm_year (lt u) <? 204)) eqn:Y; [|reflexivity].
    rewrite D2; [reflexivity|]. unfold year_in_map. lia.
  - assert (H : hop lt k t <= u).
    { destruct (Z_le_gt_dec (hop lt k t) u); [assumption|]. rewrite (hop_skips lt k t u G A) in D1; [discriminate|unfold a_time; lia|lia]. }
    pose proof (hop_later lt k t). rewrite next_step by (auto; lia).
    assert (V : cron_valid (lt t) k = Ok false).
    { rewrite (valid_exact lt k t G F A). specialize (N t ltac:(lia)). unfold decisive, year_in_map in N. destruct (matches_but_year (lt t) k); [|reflexivity].
      destruct ((100 <=? tm_year (lt t)) && (tm_year (lt t) <? 204)) eqn:Y.
      - destruct (matches (lt t) k); [|reflexivity]. exfalso. apply N. auto.
      - exfalso. apply N. split; [reflexivity|]. lia. }
    rewrite V. cbn [rbind]. apply IH; [lia| |lia]. intros v Hv. apply N. lia.
Qed.
(** C50: what lwdtc_cron_next does on any regular clock. It goes to the first time after the given one at which all the
    fields except the year match and the year matches too or is not in the map of years (2000 to 2103). That time is the
    result if its year is in the map; otherwise the map is read outside its bounds. *)
Lemma C50_exact_l : forall lt k now u, regular lt -> full_map k -> 0 <= now -> u < 2 ^ 55 -> first_after now (decisive lt k) u ->
  forall fuel, u - now <= Z.of_nat fuel ->
  (year_in_map (lt u) -> cron_next fuel lt k now = Ok u) /\ (~ year_in_map (lt u) -> cron_next fuel lt k now = Bad UB_oob).
Proof.
  intros lt k now u G F N0 U (LU & D & N) fuel L. unfold cron_next, time_add. assert (P : 2 ^ 55 < 2 ^ 63) by reflexivity.
  rewrite (proj2 (Z.ltb_lt (now + 1) (2 ^ 63))) by lia. cbn [rbind].
  rewrite (loop_exact lt k u G F U D fuel (now + 1)); [|lia|intros v Hv; apply N; lia|lia].
  unfold year_in_map. split; intros Y; destruct ((100 <=? tm_year (lt u)) && (tm_year (lt u) <? 204)) eqn:Q; try reflexivity; lia.
Qed.
(** C50: if the expression fires at some time after [now], before the year 2104 and never before the year 2000 on the way,
    the result is the first such time. *)
Lemma C50_first_l : forall lt k now u, regular lt -> full_map k -> 0 <= now -> u < 2 ^ 55 -> (forall v, now < v <= u -> year_in_map (lt v)) ->
  first_after now (fires lt k) u -> forall fuel, u - now <= Z.of_nat fuel -> cron_next fuel lt k now = Ok u.
Proof.
  intros lt k now u G F N0 U Y (LU & D & N) fuel L. refine (proj1 (C50_exact_l lt k now u G F N0 U _ fuel L) (Y u ltac:(lia))).
  split; [exact LU|]. split; [split; [apply matches_year; exact D|intros _; exact D]|]. intros v R [D1 D2]. apply (N v R). apply D2, Y. lia.
Qed.
Lemma loop_mono lt k u : forall fuel t b, 0 <= t -> next_loop fuel lt k t b = Ok u -> t <= u.
Proof.
  induction fuel as [|f IH]; [discriminate|]. intros t b T R. cbn [next_loop] in R. unfold time_add in R.
  destruct (cron_valid b k) as [[]| |]; try discriminate; cbn [rbind] in R; [injection R as <-; lia|].
  destruct (day_hour b k) as [[]| |]; try discriminate; cbn [rbind] in R.
  - destruct (bit_is_set (k_min k) (u32 (tm_min b))) as [[]| |]; try discriminate; cbn [rbind] in R.
    + destruct (t + 1 <? 2 ^ 63); [|discriminate]. cbn [rbind] in R. apply IH in R; lia.
    + destruct (_ <? 2 ^ 63); [|discriminate]. cbn [rbind] in R. pose proof (Z.rem_bound_pos t 60 T). apply IH in R; lia.
  - destruct (_ <? 2 ^ 63); [|discriminate]. cbn [rbind] in R. pose proof (Z.rem_bound_pos t 1800 T). apply IH in R; lia.
Qed.
Lemma loop_sound lt k u : regular lt -> full_map k -> u + 1800 < 2 ^ 55 -> forall fuel t, 0 <= t -> next_loop fuel lt k t (lt t) = Ok u ->
  t <= u /\ fires lt k u /\ forall v, t <= v < u -> ~ fires lt k v.
Proof.
  intros G F U fuel. induction fuel as [|f IH]; [discriminate|]. intros t T R. pose proof (loop_mono lt k u _ _ _ T R) as TU.
  assert (A : a_time t) by (unfold a_time; lia). pose proof (hop_later lt k t). rewrite next_step in R by (auto; lia).
  destruct (cron_valid (lt t) k) as [b| |] eqn:V; try discriminate. cbn [rbind] in R. rewrite (valid_exact lt k t G F A) in V. destruct b.
  + injection R as <-. split; [lia|]. split; [|intros v; lia]. unfold fires. destruct (matches_but_year (lt t) k); [|discriminate].
    destruct ((100 <=? tm_year (lt t)) && (tm_year (lt t) <? 204)); [|discriminate]. congruence.
  + destruct (IH (hop lt k t) ltac:(lia) R) as (I1 & I2 & I3). split; [lia|]. split; [exact I2|]. intros v Hv.
    destruct (Z.eq_dec v t) as [->|NE].
    * unfold fires. intros M. pose proof (matches_year _ _ M) as M'. rewrite M', M in V. destruct ((100 <=? tm_year (lt t)) && (tm_year (lt t) <? 204)); discriminate.
    * destruct (Z_lt_le_dec v (hop lt k t)) as [B2|B2]; [|apply I3; lia]. unfold fires. intros M.
      apply matches_year in M. rewrite (hop_skips lt k t v G A) in M; [discriminate|unfold a_time; lia|lia].
Qed.
(** C50: whenever a time is returned, it is the first one after [now] at which the expression fires. *)
Lemma C50_sound_l : forall lt k now u fuel, regular lt -> full_map k -> 0 <= now -> u + 1800 < 2 ^ 55 -> cron_next fuel lt k now = Ok u ->
  first_after now (fires lt k) u.
Proof.
  intros lt k now u fuel G F N U R. unfold cron_next, time_add in R. destruct (now + 1 <? 2 ^ 63); [|discriminate]. cbn [rbind] in R.
  destruct (loop_sound lt k u G F U fuel (now + 1) ltac:(lia) R) as (A & B & C). split; [lia|]. split; [exact B|]. intros v Hv. apply C. lia.
Qed.
Lemma loop_endless lt k : regular lt -> full_map k -> forall fuel t, 0 <= t -> t + 1800 * (Z.of_nat fuel + 1) < 2 ^ 55 ->
  (forall v, t <= v -> matches_but_year (lt v) k = false) -> next_loop fuel lt k t (lt t) = NoFuel.
Proof.
  intros G F fuel. induction fuel as [|f IH]; [reflexivity|]. intros t T B N. assert (A : a_time t) by (unfold a_time; lia).
  pose proof (hop_later lt k t). rewrite next_step by (auto; lia). rewrite (valid_exact lt k t G F A), N by lia. cbn [rbind].
  apply IH; [lia|lia|]. intros v Hv. apply N. lia.
Qed.
(** C50: an expression whose fields other than the year never match again, for instance the 30th of February, makes the loop
    run on without end (for as many iterations as stay within the billion years of times considered). *)
Lemma C50_endless_actual_l : forall lt k now fuel, regular lt -> full_map k -> 0 <= now -> now + 1800 * (Z.of_nat fuel + 2) < 2 ^ 55 ->
  (forall v, now < v -> matches_but_year (lt v) k = false) -> cron_next fuel lt k now = NoFuel.
Proof.
  intros lt k now fuel G F N U M. unfold cron_next, time_add. assert (P : 2 ^ 55 < 2 ^ 63) by reflexivity. rewrite (proj2 (Z.ltb_lt (now + 1) (2 ^ 63))) by lia. cbn [rbind].
  apply loop_endless; auto; try lia. intros v Hv. apply M. lia.
Qed.

(** ** Properties of the calendar *)

(** Month and day depend only on the day of the era. *)
Definition of_era (doe : Z) : Z * Z * Z :=
  let yoe := (doe - doe / 1460 + doe / 36524 - doe / 146096) / 365 in
  let doy := doe - (365 * yoe + yoe / 4 - yoe / 100) in
  let mp := (5 * doy + 2) / 153 in
  (yoe, (if mp <? 10 then mp + 3 else mp - 9), doy - (153 * mp + 2) / 5 + 1).
Definition days_in (m : Z) : Z := if (m =? 2) then 29 else if (m =? 4) || (m =? 6) || (m =? 9) || (m =? 11) then 30 else 31.
Definition era_ok (doe : Z) : bool :=
  let '(y, m, d) := of_era doe in (0 <=? y) && (y <=? 400) && (1 <=? m) && (m <=? 12) && (1 <=? d) && (d <=? days_in m).
Fixpoint all_from (n : nat) (z : Z) (p : Z -> bool) : bool := match n with O => true | S n => p z && all_from n (z + 1) p end.
Lemma all_from_ok p : forall n z, all_from n z p = true -> forall v, z <= v < z + Z.of_nat n -> p v = true.
Proof.
  induction n as [|n IH]; intros z H v V; [lia|]. cbn [all_from] in H. apply andb_true_iff in H. destruct H as [H1 H2].
  destruct (Z.eq_dec v z) as [->|]; [exact H1|]. apply (IH (z + 1) H2). lia.
Qed.
Lemma eras : all_from (Z.to_nat 146097) 0 era_ok = true.
Proof. vm_compute. reflexivity. Qed.
Lemma era_range day : era_ok ((day + 719468) mod 146097) = true.
Proof. pose proof (Z.mod_pos_bound (day + 719468) 146097). apply (all_from_ok _ _ _ eras). rewrite Z2Nat.id; lia. Qed.
Lemma civil_range day : let '(y, m, d) := civil day in
  1 <= m <= 12 /\ 1 <= d <= days_in m /\ (day + 719468) / 146097 * 400 <= y <= (day + 719468) / 146097 * 400 + 401.
Proof.
  pose proof (era_range day) as H. unfold civil. unfold era_ok, of_era in H. set (doe := (day + 719468) mod 146097) in *. set (era := (day + 719468) / 146097) in *.
  set (yoe := (doe - doe / 1460 + doe / 36524 - doe / 146096) / 365) in *. set (doy := doe - (365 * yoe + yoe / 4 - yoe / 100)) in *.
  set (mp := (5 * doy + 2) / 153) in *. set (m := if mp <? 10 then mp + 3 else mp - 9) in *. set (d := doy - (153 * mp + 2) / 5 + 1) in *. clearbody m d yoe.
  rewrite !andb_true_iff in H. destruct (m <=? 2); lia.
Qed.
Lemma days_most m : days_in m <= 31.
Proof. unfold days_in. destruct (m =? 2); [lia|]. destruct (_ || _); lia. Qed.
Lemma zone_fields off u :
  tm_sec (zone off u) = (u + off) mod 60 /\ tm_min (zone off u) = (u + off) / 60 mod 60 /\ tm_hour (zone off u) = (u + off) / 3600 mod 24
  /\ tm_wday (zone off u) = ((u + off) / 86400 + 4) mod 7
  /\ tm_mday (zone off u) = snd (civil ((u + off) / 86400)) /\ tm_mon (zone off u) = snd (fst (civil ((u + off) / 86400))) - 1
  /\ tm_year (zone off u) = fst (fst (civil ((u + off) / 86400))) - 1900.
Proof. unfold zone. destruct (civil ((u + off) / 86400)) as [[y m] d]. repeat split. Qed.
Lemma zone_ranges off u : 0 <= tm_sec (zone off u) <= 59 /\ 0 <= tm_min (zone off u) <= 59 /\ 0 <= tm_hour (zone off u) <= 23 /\ 1 <= tm_mday (zone off u) <= 31
  /\ 0 <= tm_mon (zone off u) <= 11 /\ 0 <= tm_wday (zone off u) <= 6.
Proof.
  destruct (zone_fields off u) as (-> & -> & -> & -> & -> & -> & _). pose proof (civil_range ((u + off) / 86400)) as C.
  destruct (civil ((u + off) / 86400)) as [[y m] d]. cbn [fst snd]. pose proof (days_most m).
  pose proof (Z.mod_pos_bound (u + off) 60). pose proof (Z.mod_pos_bound ((u + off) / 60) 60). pose proof (Z.mod_pos_bound ((u + off) / 3600) 24).
  pose proof (Z.mod_pos_bound ((u + off) / 86400 + 4) 7). lia.
Qed.
Lemma zone_day off u v : (u + off) / 86400 = (v + off) / 86400 ->
  tm_mday (zone off u) = tm_mday (zone off v) /\ tm_mon (zone off u) = tm_mon (zone off v) /\ tm_wday (zone off u) = tm_wday (zone off v) /\ tm_year (zone off u) = tm_year (zone off v).
Proof. intros E. destruct (zone_fields off u) as (_ & _ & _ & -> & -> & -> & ->), (zone_fields off v) as (_ & _ & _ & -> & -> & -> & ->). rewrite E. auto. Qed.
(** Local times that differ from the time counted by a whole number of half hours, less than a day, are regular clocks. *)
Lemma zone_regular h : -48 < h < 48 -> regular (zone (1800 * h)).
Proof.
  intros H. constructor.
  - intros u [U1 U2]. destruct (zone_ranges (1800 * h) u) as (_ & Z1 & Z2 & Z3 & Z4 & Z5). repeat split; try lia.
    + destruct (zone_fields (1800 * h) u) as (_ & _ & _ & _ & _ & _ & ->). pose proof (civil_range ((u + 1800 * h) / 86400)) as C.
      destruct (civil ((u + 1800 * h) / 86400)) as [[y m] d]. cbn [fst snd].
      assert (-1 <= (u + 1800 * h) / 86400) by (apply Z.div_le_lower_bound; lia).
      assert (0 <= ((u + 1800 * h) / 86400 + 719468) / 146097) by (apply Z.div_pos; lia). lia.
    + destruct (zone_fields (1800 * h) u) as (_ & _ & _ & _ & _ & _ & ->). pose proof (civil_range ((u + 1800 * h) / 86400)) as C.
      destruct (civil ((u + 1800 * h) / 86400)) as [[y m] d]. cbn [fst snd].
      assert ((u + 1800 * h) / 86400 < 2 ^ 39) by (apply Z.div_lt_upper_bound; lia).
      assert (((u + 1800 * h) / 86400 + 719468) / 146097 < 2 ^ 22) by (apply Z.div_lt_upper_bound; lia). lia.
  - intros u _. destruct (zone_fields (1800 * h) u) as (-> & _). replace (u + 1800 * h) with (u + (30 * h) * 60) by lia. apply Z_mod_plus_full.
  - intros u v _ _ E. assert (E2 : (u + 1800 * h) / 60 = (v + 1800 * h) / 60) by (replace (1800 * h) with ((30 * h) * 60) by lia; rewrite !Z_div_plus_full by lia; lia).
    assert (E3 : (u + 1800 * h) / 3600 = (v + 1800 * h) / 3600) by (change 3600 with (60 * 60); rewrite <- !Z.div_div by lia; congruence).
    assert (E4 : (u + 1800 * h) / 86400 = (v + 1800 * h) / 86400) by (change 86400 with (3600 * 24); rewrite <- !Z.div_div by lia; congruence).
    destruct (zone_day (1800 * h) u v E4) as (-> & -> & -> & ->). destruct (zone_fields (1800 * h) u) as (_ & -> & -> & _), (zone_fields (1800 * h) v) as (_ & -> & -> & _).
    rewrite E2, E3. auto 10.
  - intros u v _ _ E. assert (E2 : (u + 1800 * h) / 1800 = (v + 1800 * h) / 1800) by (rewrite (Z.mul_comm 1800 h), !Z_div_plus_full by lia; lia).
    assert (E3 : (u + 1800 * h) / 3600 = (v + 1800 * h) / 3600) by (change 3600 with (1800 * 2); rewrite <- !Z.div_div by lia; congruence).
    assert (E4 : (u + 1800 * h) / 86400 = (v + 1800 * h) / 86400) by (change 86400 with (3600 * 24); rewrite <- !Z.div_div by lia; congruence).
    destruct (zone_day (1800 * h) u v E4) as (-> & _ & -> & _). destruct (zone_fields (1800 * h) u) as (_ & _ & -> & _), (zone_fields (1800 * h) v) as (_ & _ & -> & _).
    rewrite E3. auto.
Qed.

(** ** C50: other clocks *)

Definition midnight : cronmap :=
  mk_cronmap (1 :: repeat 0 7) (1 :: repeat 0 7) (1 :: repeat 0 2) [254; 255; 255; 255] [254; 31] [127] (repeat 255 12 ++ [31]).
Lemma only_zero n : forall p, 0 <= p -> bit_on (1 :: repeat 0 n) p = (p =? 0).
Proof.
  intros p P. unfold bit_on. rewrite (proj2 (Z.leb_le 0 p)) by lia. cbn [andb]. destruct (Z.eq_dec (p / 8) 0) as [E|E].
  - rewrite E. cbn [Z.to_nat nth_error]. assert (p < 8) by (Z.to_euclidean_division_equations; lia). rewrite Z.mod_small by lia. destruct (p =? 0) eqn:Q.
    + apply Z.eqb_eq in Q. subst. reflexivity.
    + change 1 with (2 ^ 0). apply Z.pow2_bits_false. lia.
  - assert (0 <= p / 8) by (apply Z.div_pos; lia). destruct (Z.to_nat (p / 8)) as [|m] eqn:M; [lia|]. cbn [nth_error].
    assert (p <> 0) by (intros ->; apply E; reflexivity). rewrite (proj2 (Z.eqb_neq p 0)) by assumption.
    destruct (nth_error (repeat 0 n) m) eqn:Q; [|reflexivity]. apply nth_error_In, repeat_spec in Q. subst. apply Z.testbit_0_l.
Qed.
Lemma full_midnight : full_map midnight.
Proof. repeat split. Qed.
Lemma midnight_off off u : (u + off) / 60 mod 60 <> 0 \/ (u + off) / 3600 mod 24 <> 0 -> cron_valid (zone off u) midnight = Ok false.
Proof.
  intros H. destruct (zone_ranges off u) as (R0 & R1 & R2 & R3 & R4 & R5). destruct full_midnight as (L1 & L2 & L3 & L4 & L5 & L6 & L7).
  unfold cron_valid. rewrite (bit_exact _ 8 (tm_sec (zone off u)) L1), (bit_exact _ 8 (tm_min (zone off u)) L2), (bit_exact _ 3 (tm_hour (zone off u)) L3) by lia.
  unfold and_bit. cbn [rbind k_sec k_min k_hour midnight]. destruct (bit_on _ (tm_sec (zone off u))); [|reflexivity].
  rewrite !only_zero by lia. destruct (zone_fields off u) as (_ & -> & -> & _).
  destruct (_ =? 0) eqn:E1; [|reflexivity]. destruct (_ / 3600 mod 24 =? 0) eqn:E2; [|reflexivity]. lia.
Qed.
Lemma every_day p : 1 <= p <= 31 -> bit_on [254; 255; 255; 255] p = true.
Proof. intros P. apply (all_from_ok (bit_on [254; 255; 255; 255]) 31 1); [vm_compute; reflexivity|lia]. Qed.
Lemma every_wday p : 0 <= p <= 6 -> bit_on [127] p = true.
Proof. intros P. apply (all_from_ok (bit_on [127]) 7 0); [vm_compute; reflexivity|lia]. Qed.
Lemma midnight_hours off u : day_hour (zone off u) midnight = Ok ((u + off) / 3600 mod 24 =? 0).
Proof.
  destruct (zone_ranges off u) as (R0 & R1 & R2 & R3 & R4 & R5). destruct full_midnight as (L1 & L2 & L3 & L4 & L5 & L6 & L7).
  unfold day_hour. rewrite (bit_exact _ 4 (tm_mday (zone off u)) L4), (bit_exact _ 1 (tm_wday (zone off u)) L6), (bit_exact _ 3 (tm_hour (zone off u)) L3) by lia.
  unfold and_bit. cbn [rbind k_sec k_min k_hour k_mday k_wday midnight]. rewrite every_day, every_wday by lia. cbn [rbind]. rewrite only_zero by lia.
  destruct (zone_fields off u) as (_ & _ & -> & _). reflexivity.
Qed.
Lemma midnight_min off u : bit_is_set (k_min midnight) (u32 (tm_min (zone off u))) = Ok ((u + off) / 60 mod 60 =? 0).
Proof.
  destruct (zone_ranges off u) as (R0 & R1 & R2 & R3 & R4 & R5). rewrite (bit_exact _ 8 (tm_min (zone off u))) by (try reflexivity; lia).
  cbn [k_min midnight]. rewrite only_zero by lia. destruct (zone_fields off u) as (_ & -> & _). reflexivity.
Qed.
Lemma never_midnight off : off mod 60 = 0 -> off mod 1800 <> 0 -> forall fuel t, 0 <= t -> t + 1800 * Z.of_nat fuel < 2 ^ 63 ->
  (t + off) / 60 mod 60 <> 0 \/ (t + off) / 3600 mod 24 <> 0 -> next_loop fuel (zone off) midnight t (zone off t) = NoFuel.
Proof.
  intros O1 O2 fuel. induction fuel as [|f IH]; [reflexivity|]. intros t T B H. cbn [next_loop]. rewrite (midnight_off off t H). cbn [rbind].
  rewrite midnight_hours. cbn [rbind]. unfold time_add. destruct ((t + off) / 3600 mod 24 =? 0) eqn:E.
  - rewrite midnight_min. cbn [rbind]. destruct (((t + off) / 60 mod 60) =? 0) eqn:E2; [lia|]. rewrite Z.rem_mod_nonneg by lia.
    pose proof (Z.mod_pos_bound t 60). rewrite (proj2 (Z.ltb_lt (t + (60 - t mod 60)) (2 ^ 63))) by lia. cbn [rbind]. apply IH; [lia|lia|].
    clear IH B T. Z.to_euclidean_division_equations. lia.
  - rewrite Z.rem_mod_nonneg by lia. pose proof (Z.mod_pos_bound t 1800). rewrite (proj2 (Z.ltb_lt (t + (1800 - t mod 1800)) (2 ^ 63))) by lia. cbn [rbind]. apply IH; [lia|lia|].
    left. clear IH B T H E. Z.to_euclidean_division_equations. lia.
Qed.

Lemma every_mon p : 1 <= p <= 12 -> bit_on [254; 31] p = true.
Proof. intros P. apply (all_from_ok (bit_on [254; 31]) 12 1); [vm_compute; reflexivity|lia]. Qed.
Lemma every_year p : 0 <= p <= 100 -> bit_on (repeat 255 12 ++ [31]) p = true.
Proof. intros P. apply (all_from_ok (bit_on (repeat 255 12 ++ [31])) 101 0); [vm_compute; reflexivity|lia]. Qed.
Lemma midnight_fires off u : (u + off) mod 86400 = 0 -> 100 <= tm_year (zone off u) <= 200 -> fires (zone off) midnight u.
Proof.
  intros H Y. destruct (zone_ranges off u) as (R0 & R1 & R2 & R3 & R4 & R5). unfold fires, matches. cbn [k_sec k_min k_hour k_mday k_mon k_wday k_year midnight].
  rewrite every_day, every_wday, every_mon, every_year by lia. rewrite !only_zero by lia. destruct (zone_fields off u) as (-> & -> & -> & _).
  replace ((u + off) mod 60) with 0 by (Z.to_euclidean_division_equations; lia). replace ((u + off) / 60 mod 60) with 0 by (Z.to_euclidean_division_equations; lia).
  replace ((u + off) / 3600 mod 24) with 0 by (Z.to_euclidean_division_equations; lia). reflexivity.
Qed.
(** C50: where local time is not a whole number of half hours ahead (for instance Nepal, 5 h 45 min), the function fails: the
    expression for every day at midnight does fire at every midnight, but started at any other minute the loop passes over
    all midnights and does not end. *)
Lemma C50_quarter_zone_actual_l : forall off, off mod 60 = 0 -> off mod 1800 <> 0 ->
  exists k, cron_parse map0 midnight_text = Ok (L_OK, k)
    /\ (forall u, (u + off) mod 86400 = 0 -> 100 <= tm_year (zone off u) <= 200 -> fires (zone off) k u)
    /\ forall now fuel, 0 <= now -> now + 1800 * Z.of_nat fuel + 1 < 2 ^ 63 -> 60 <= (now + 1 + off) mod 86400 ->
         cron_next fuel (zone off) k now = NoFuel.
Proof.
  intros off O1 O2. exists midnight. split; [vm_compute; reflexivity|]. split; [apply midnight_fires|].
  intros now fuel N B M. unfold cron_next, time_add. rewrite (proj2 (Z.ltb_lt (now + 1) (2 ^ 63))) by lia. cbn [rbind].
  apply never_midnight; try assumption; try lia. clear - M. Z.to_euclidean_division_equations. lia.
Qed.
(*EX
(** 0 30 9 * * 1-5 *: half past nine on working days. Asked on Friday 7 November 2025 at 10:00 (UTC), the function returns
    Monday 10 November 2025, 9:30. *)
Definition C50_text : list Z := [48; 32; 51; 48; 32; 57; 32; 42; 32; 42; 32; 49; 45; 53; 32; 42].
Definition C50_map : cronmap := match cron_parse map0 C50_text with Ok (_, k) => k | _ => map0 end.
Example C50_first_case : regular (zone 0) /\ cron_parse map0 C50_text = Ok (L_OK, C50_map) /\ full_map C50_map
  /\ zone 0 1762509600 = mk_tm 0 0 10 7 10 5 125 /\ zone 0 1762767000 = mk_tm 0 30 9 10 10 1 125
  /\ cron_next 1000 (zone 0) C50_map 1762509600 = Ok 1762767000
  /\ first_after 1762509600 (fires (zone 0) C50_map) 1762767000.
Proof.
  assert (R : regular (zone 0)) by (exact (zone_regular 0 ltac:(lia))). split; [exact R|]. split; [vm_compute; reflexivity|].
  assert (F : full_map C50_map) by (vm_compute; repeat split). split; [exact F|].
  assert (X : cron_next 1000 (zone 0) C50_map 1762509600 = Ok 1762767000) by (vm_compute; reflexivity).
  split; [vm_compute; reflexivity|]. split; [vm_compute; reflexivity|]. split; [exact X|]. refine (C50_sound _ _ _ _ _ R F _ _ X); lia.
Qed.
(** The calendar knows leap years: 29 February 2000 was a Tuesday, 1 March 2100 will be a Monday, the day before it is 28 February. *)
Example C50_calendar_case : zone 0 951782400 = mk_tm 0 0 0 29 1 2 100 /\ zone 3600 4107538800 = mk_tm 0 0 0 1 2 1 200 /\ zone 3600 4107538799 = mk_tm 59 59 23 28 1 0 200.
Proof. repeat split; vm_compute; reflexivity. Qed.
(** A year that is over, asked in December 2103: the year map is read outside its bounds in 2104. *)
Example C50_exact_case : cron_next 5000 (zone 0) (set_k_year (1 :: repeat 0 12) (set_k_mon [2; 0] (set_k_mday [2; 0; 0; 0] midnight))) 4227552000 = Bad UB_oob.
Proof. vm_compute. reflexivity. Qed.
(** The 30th of February. *)
Lemma C50_february v : matches_but_year (zone 0 v) (set_k_mon [4; 0] (set_k_mday [0; 0; 0; 64] midnight)) = false.
Proof.
  unfold matches_but_year. cbn [k_sec k_min k_hour k_mday k_mon k_wday set_k_mon set_k_mday midnight].
  destruct (zone_ranges 0 v) as (_ & _ & _ & R3 & R4 & _). destruct (zone_fields 0 v) as (_ & _ & _ & _ & D & M & _).
  pose proof (civil_range ((v + 0) / 86400)) as C. destruct (civil ((v + 0) / 86400)) as [[y m] d]. cbn [fst snd] in *. rewrite D, M in *.
  destruct (bit_on [4; 0] (m - 1 + 1)) eqn:E; [|rewrite !andb_false_r; reflexivity].
  assert (m = 2).
  { destruct (Z.eq_dec m 2); [assumption|]. exfalso. replace (m - 1 + 1) with m in E by lia.
    assert (Q : bit_on [4; 0] m = (m =? 2)).
    { apply eqb_prop. apply (all_from_ok (fun m => eqb (bit_on [4; 0] m) (m =? 2)) 12 1); [vm_compute; reflexivity|lia]. }
    rewrite Q in E. lia. }
  subst m. change (days_in 2) with 29 in C.
  assert (Q : bit_on [0; 0; 0; 64] d = (d =? 30)).
  { apply eqb_prop. apply (all_from_ok (fun m => eqb (bit_on [0; 0; 0; 64] m) (m =? 30)) 31 1); [vm_compute; reflexivity|lia]. }
  rewrite Q. replace (d =? 30) with false by lia. rewrite !andb_false_r. reflexivity.
Qed.
Example C50_endless_case : cron_next 2000 (zone 0) (set_k_mon [4; 0] (set_k_mday [0; 0; 0; 64] midnight)) 1762509600 = NoFuel.
Proof.
  apply C50_endless_actual; [exact (zone_regular 0 ltac:(lia))|repeat split|lia|reflexivity|]. intros v _. apply C50_february.
Qed.
(** Nepal, local time 10:00 on 7 November 2025. *)
Example C50_quarter_zone_case : zone 20700 1762488900 = mk_tm 0 0 10 7 10 5 125 /\ cron_next 2000 (zone 20700) midnight 1762488900 = NoFuel
  /\ cron_next 100 (zone 19800) midnight 1762488900 <> NoFuel.
Proof. split; [vm_compute; reflexivity|]. split; [vm_compute; reflexivity|vm_compute; discriminate]. Qed.
EX*)

(** ** C51 *)

Lemma or_exact t ks : calendar t -> Forall full_map ks -> valid_or t ks = Ok (if existsb (matches t) ks then L_OK else L_ERR).
Proof.
  intros C F. induction F as [|k ks K F IH]; [reflexivity|]. cbn [valid_or existsb]. destruct (valid_total t k C K) as [b B]. rewrite B. cbn [rbind].
  rewrite (valid_matches t k b C B). destruct b; [reflexivity|exact IH].
Qed.
Lemma and_exact t ks : calendar t -> Forall full_map ks -> valid_and t ks = Ok (if forallb (matches t) ks then L_OK else L_ERR).
Proof.
  intros C F. induction F as [|k ks K F IH]; [reflexivity|]. cbn [valid_and forallb]. destruct (valid_total t k C K) as [b B]. rewrite B. cbn [rbind].
  rewrite (valid_matches t k b C B). destruct b; [exact IH|reflexivity].
Qed.
Lemma parse_all_spec : forall ss i ks r f ks', ss <> [] -> (length ss <= length ks)%nat -> parse_all i ks ss = Ok (r, f, ks') ->
  length ks' = length ks /\ exists n, (n < length ss)%nat
    /\ (forall j k s k', (j <= n)%nat -> nth_error ks j = Some k -> nth_error ss j = Some s -> nth_error ks' j = Some k' ->
          cron_parse k s = Ok ((if (j <? n)%nat then L_OK else r), k'))
    /\ (forall j, (n < j)%nat -> nth_error ks' j = nth_error ks j)
    /\ (r = L_OK -> n = (length ss - 1)%nat /\ f = None) /\ (r <> L_OK -> f = Some (i + n)%nat).
Proof.
  induction ss as [|s ss IH]; [contradiction|]. intros i ks r f ks' _ L R. destruct ks as [|k ks]; [cbn in L; lia|]. cbn [parse_all] in R.
  destruct (cron_parse k s) as [[r1 k1]| |] eqn:P; try discriminate. cbn [rbind] in R. destruct (lok r1) eqn:LO.
  - assert (r1 = L_OK) by (destruct r1; try discriminate; reflexivity). subst r1. destruct ss as [|s2 ss].
    + injection R as <- <- <-. split; [reflexivity|]. exists O. split; [cbn; lia|]. split.
      { intros [|j] k0 s0 k0' J; [|lia]. cbn. intros E1 E2 E3. injection E1 as <-. injection E2 as <-. injection E3 as <-. exact P. }
      split; [intros [|j] J; [lia|reflexivity]|]. split; [auto|congruence].
    + destruct (parse_all (S i) ks (s2 :: ss)) as [[[r2 f2] ks2]| |] eqn:Q; try discriminate. cbn [rbind] in R. injection R as <- <- <-.
      apply IH in Q; [|discriminate|cbn in *; lia]. destruct Q as (L2 & n & N & A & B & C & D). split; [cbn; congruence|]. exists (S n).
      split; [cbn in *; lia|]. split; [|split; [|split]].
      * intros [|j] k0 s0 k0' J E1 E2 E3.
        -- cbn in E1, E2, E3. injection E1 as <-. injection E2 as <-. injection E3 as <-. exact P.
        -- cbn in E1, E2, E3. change (S j <? S n)%nat with (j <? n)%nat. apply A; auto. lia.
      * intros [|j] J; [lia|]. cbn. apply B. lia.
      * intros E. destruct (C E) as [-> ->]. split; [cbn; lia|reflexivity].
      * intros E. rewrite (D E). f_equal. lia.
  - injection R as <- <- <-. split; [reflexivity|]. exists O. split; [cbn; lia|]. split.
    { intros [|j] k0 s0 k0' J; [|lia]. cbn. intros E1 E2 E3. injection E1 as <-. injection E2 as <-. injection E3 as <-. exact P. }
    split; [intros [|j] J; [lia|reflexivity]|]. split; [intros ->; discriminate|]. intros _. f_equal. lia.
Qed.
(** C51: the expressions are parsed in order up to the first one that is not accepted, whose index is reported; every one
    of them as if it were parsed alone; the maps behind it stay as they were. *)
Lemma C51_parse_l : forall ks ss r f ks', ss <> [] -> (length ss <= length ks)%nat -> parse_multi ks ss = Ok (r, f, ks') ->
  length ks' = length ks /\ exists n, (n < length ss)%nat
    /\ (forall j k s k', (j <= n)%nat -> nth_error ks j = Some k -> nth_error ss j = Some s -> nth_error ks' j = Some k' ->
          cron_parse k s = Ok ((if (j <? n)%nat then L_OK else r), k'))
    /\ (forall j, (n < j)%nat -> nth_error ks' j = nth_error ks j)
    /\ (r = L_OK -> n = (length ss - 1)%nat /\ f = None) /\ (r <> L_OK -> f = Some n).
Proof. intros ks ss r f ks' N L R. exact (parse_all_spec ss 0 ks r f ks' N L R). Qed.
Lemma parse_good : forall fss i ks, fss <> [] -> length ks = length fss -> Forall good_expression fss ->
  exists ks', parse_all i ks (map expression fss) = Ok (L_OK, None, ks')
    /\ Forall2 (fun k fs => full_map k /\ forall t, calendar t -> (matches t k = true <-> time_in t fs)) ks' fss.
Proof.
  induction fss as [|fs fss IH]; [contradiction|]. intros i ks _ L F. inversion F as [|? ? G F']; subst. destruct ks as [|k ks]; [discriminate|].
  destruct (C45_expression_l k fs [] G I) as (k' & P & K & V). rewrite app_nil_r in P. cbn [map parse_all]. rewrite P. cbn [rbind lok].
  assert (X : full_map k' /\ forall t, calendar t -> (matches t k' = true <-> time_in t fs)).
  { split; [exact K|]. intros t C. destruct (V t C) as (b & B & W). rewrite (valid_matches t k' b C B). exact W. }
  destruct fss as [|fs2 fss].
  - destruct ks; [|discriminate]. eexists. split; [reflexivity|]. constructor; [exact X|constructor].
  - destruct (IH (S i) ks) as (ks' & Q & W); [discriminate|cbn in *; lia|exact F'|]. cbn [map] in Q |- *. rewrite Q. cbn [rbind].
    eexists. split; [reflexivity|]. constructor; assumption.
Qed.
(** C51: for any number of good expressions, parsing all of them succeeds, and at every calendar time the OR test answers OK
    exactly when the time is in at least one of them, the AND test exactly when it is in all of them; otherwise the answer is
    ERR. *)
Lemma C51_expressions_l : forall fss ks, fss <> [] -> length ks = length fss -> Forall good_expression fss ->
  exists ks', parse_multi ks (map expression fss) = Ok (L_OK, None, ks')
    /\ forall t, calendar t -> exists a b, multi_or t ks' = Ok a /\ multi_and t ks' = Ok b
         /\ (a = L_OK \/ a = L_ERR) /\ (a = L_OK <-> exists fs, In fs fss /\ time_in t fs)
         /\ (b = L_OK \/ b = L_ERR) /\ (b = L_OK <-> forall fs, In fs fss -> time_in t fs).
Proof.
  intros fss ks N L F. destruct (parse_good fss 0 ks N L F) as (ks' & P & W). exists ks'. split; [exact P|]. intros t C.
  assert (NE : ks' <> []) by (intros ->; inversion W; subst; contradiction).
  assert (FM : Forall full_map ks') by (clear - W; induction W; constructor; tauto).
  exists (if existsb (matches t) ks' then L_OK else L_ERR), (if forallb (matches t) ks' then L_OK else L_ERR).
  split; [destruct ks'; [contradiction|]; cbn [multi_or]; apply or_exact; assumption|]. split; [destruct ks'; [contradiction|]; cbn [multi_and]; apply and_exact; assumption|].
  assert (HO : existsb (matches t) ks' = true <-> exists fs, In fs fss /\ time_in t fs).
  { clear - W C. induction W as [|k fs ks fss [K V] W IH]; cbn [existsb]; [split; [discriminate|intros (? & [] & _)]|]. rewrite orb_true_iff, IH, (V t C). split.
    - intros [A|(f & A & B)]; [exists fs; split; [left; reflexivity|exact A]|exists f; split; [right; exact A|exact B]].
    - intros (f & [<-|A] & B); [left; exact B|right; exists f; auto]. }
  assert (HA : forallb (matches t) ks' = true <-> forall fs, In fs fss -> time_in t fs).
  { clear - W C. induction W as [|k fs ks fss [K V] W IH]; cbn [forallb]; [split; [intros _ f []|reflexivity]|]. rewrite andb_true_iff, IH, (V t C). split.
    - intros [A B] f [<-|I]; auto.
    - intros A. split; [apply A; left; reflexivity|intros f I; apply A; right; exact I]. }
  split; [destruct (existsb _ _); auto|]. split; [rewrite <- HO; destruct (existsb _ _); split; congruence|].
  split; [destruct (forallb _ _); auto|]. rewrite <- HA; destruct (forallb _ _); split; congruence.
Qed.
(*EX
(** Working days at half past nine, and every minute of November; the second of two bad texts is reported by its index. *)
Definition C51_texts : list (list Z) := [C50_text; [42; 32; 42; 32; 42; 32; 42; 32; 49; 49; 32; 42; 32; 42]].
Definition C51_maps : list cronmap := match parse_multi [map0; map0] C51_texts with Ok (_, _, l) => l | _ => [] end.
Example C51_parse_case : parse_multi [map0; map0] C51_texts = Ok (L_OK, None, C51_maps)
  /\ multi_or (mk_tm 0 31 9 10 10 1 125) C51_maps = Ok L_OK /\ multi_and (mk_tm 0 31 9 10 10 1 125) C51_maps = Ok L_ERR
  /\ multi_and (mk_tm 0 30 9 10 10 1 125) C51_maps = Ok L_OK /\ multi_or (mk_tm 0 31 9 10 11 1 125) C51_maps = Ok L_ERR
  /\ exists l, parse_multi [map0; map0] [C50_text; [42; 32; 55; 48]] = Ok (L_ERRTOKEN, Some 1%nat, l).
Proof. repeat split; try (vm_compute; reflexivity). eexists. vm_compute. reflexivity. Qed.
Definition C51_star : list (list Z * list item) := ([], [mk_item Star None None]) :: repeat ([32], [mk_item Star None None]) 6.
Example C51_expressions_case : Forall good_expression [C51_star; C51_star].
Proof.
  assert (G : good_expression C51_star).
  { split; [|repeat constructor; discriminate].
    assert (I : forall mn mx, 0 <= mn <= mx -> good_field mn mx [mk_item Star None None]).
    { intros mn mx M. split; [discriminate|]. constructor; [|constructor]. split; [wf_item|]. split; [unfold in_range; cbn; lia|]. split; [cbn; lia|].
      unfold wraps. cbn. lia. }
    repeat (constructor; [split; [repeat constructor|apply I; cbn; lia]|]); constructor. }
  constructor; [exact G|constructor; [exact G|constructor]].
Qed.
EX*)
