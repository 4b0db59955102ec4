(** Property theorems: the cron expression parser (C45). *)
From Verif Require Import P_Parse Demo.
From Verif Require Import DemoTask.

(** ** C45 *)

(** C45: a field made of items within the range, with good steps, is accepted, and the bits it sets in the map are exactly
    the values it denotes; the parser goes on behind the field. *)
Theorem C45_field : forall m mn mx sp its rest,
  0 <= mn <= mx -> mx < 2 ^ 63 -> mx < 8 * Z.of_nat (length m) -> good_field mn mx its -> blanks sp -> ends_field rest ->
  exists m', parse_field m mn mx (sp ++ field_text its ++ rest) = Ok (L_OK, m', rest) /\ length m' = length m
    /\ forall p, 0 <= p -> bit_on m' p = true <-> bit_on m p = true \/ field_has mn mx its p.
Proof. exact C45_field_l. Qed.
Print Assumptions C45_field.
(** The minutes 50-10/5,30: 50, 55, 0, 5, 10 and 30. *)
Definition C45_minutes : list item := [mk_item (From [53; 48]) (Some [49; 48]) (Some [53]); mk_item (From [51; 48]) None None].
Example C45_field_case : good_field 0 59 C45_minutes
  /\ parse_field (repeat 0 8) 0 59 ([32] ++ field_text C45_minutes ++ [32; 42]) = Ok (L_OK, [33; 4; 0; 64; 0; 0; 132; 0], [32; 42])
  /\ field_has 0 59 C45_minutes 55 /\ field_has 0 59 C45_minutes 5.
Proof.
  split; [|split; [vm_compute; reflexivity|]].
  - split; [discriminate|]. constructor; [|constructor; [|constructor]]; (split; [wf_item|split; [vm_compute; repeat split; congruence|split; [vm_compute; split; congruence|]]]).
    + intros _. exists 12. reflexivity.
    + intros K. vm_compute in K. discriminate.
  - split; (eexists; split; [left; reflexivity|vm_compute; repeat split; congruence]).
Qed.

(** C45: an expression of seven such fields is accepted whatever follows it after a blank, and the stored job matches a
    calendar time exactly when every one of the seven fields contains the corresponding value of that time. *)
Theorem C45_expression : forall mp fs rest, good_expression fs -> ends_field rest ->
  exists k, cron_parse mp (expression fs ++ rest) = Ok (L_OK, k) /\ full_map k
    /\ forall t, calendar t -> exists b, cron_valid t k = Ok b /\ (b = true <-> time_in t fs).
Proof. exact C45_expression_l. Qed.
Print Assumptions C45_expression.
(** Every second of ten fifteen and thirty seconds on working days: 30 15 10 * * 1-5 *. *)
Definition C45_star : list item := [mk_item Star None None].
Definition C45_working_days : list (list Z * list item) :=
  [([], [mk_item (From [51; 48]) None None]); ([32], [mk_item (From [49; 53]) None None]); ([32], [mk_item (From [49; 48]) None None]);
   ([32], C45_star); ([32; 32], C45_star); ([32], [mk_item (From [49]) (Some [53]) None]); ([32], C45_star)].
Example C45_expression_case : good_expression C45_working_days /\ expression C45_working_days = [51; 48; 32; 49; 53; 32; 49; 48; 32; 42; 32; 32; 42; 32; 49; 45; 53; 32; 42]
  /\ time_in (mk_tm 30 15 10 3 4 5 126) C45_working_days /\ ~ time_in (mk_tm 30 15 10 3 4 6 126) C45_working_days.
Proof.
  split; [|split; [reflexivity|split]].
  - split; [|repeat constructor; discriminate]. unfold C45_working_days, ranges, C45_star.
    repeat (constructor; [cbn [fst snd]; split; [repeat constructor|split; [discriminate|constructor; [|constructor]]]|]); try apply Forall2_nil;
      (split; [wf_item|split; [vm_compute; repeat split; congruence|split; [vm_compute; split; congruence|intros K; vm_compute in K; discriminate]]]).
  - intros i f r v. do 7 (destruct i as [|i]; [cbn [nth_error C45_working_days ranges field_values]; intros F R V; injection F as <-; injection R as <-; injection V as <-; eexists; split; [left; reflexivity|vm_compute; repeat split; congruence]|]).
    destruct i; discriminate.
  - intros H. destruct (H 5%nat _ _ _ eq_refl eq_refl eq_refl) as (it & [<-|[]] & (_ & _ & K)). vm_compute in K. congruence.
Qed.

(** C45: what is accepted is a list of well-formed items after blanks, and an item whose numbers are below 2^64 - 1 is
    within the range of the field, unless it is a single number above the range with a step. *)
Theorem C45_sound : forall m mn mx s m' rest,
  0 <= mn <= mx -> mx < 2 ^ 63 -> mx < 8 * Z.of_nat (length m) -> ~ has_item huge_range s -> parse_field m mn mx s = Ok (L_OK, m', rest) ->
  exists sp its, blanks sp /\ ends_field rest /\ its <> [] /\ s = sp ++ field_text its ++ rest
    /\ Forall (fun it => well_formed it /\ (small_numbers it -> in_range mn mx it \/ overshoots mx it)) its.
Proof. exact C45_sound_l. Qed.
Print Assumptions C45_sound.
Example C45_sound_case : parse_field (repeat 0 4) 1 31 [49; 44; 49; 53; 45; 50; 48; 32; 42] = Ok (L_OK, [2; 128; 31; 0], [32; 42])
  /\ ~ has_item huge_range [49; 44; 49; 53; 45; 50; 48; 32; 42].
Proof.
  split; [vm_compute; reflexivity|]. intros (pre & it & post & E & W & (ds & dt & H & T & M) & _). unfold item_text in E. rewrite H, T in E.
  assert (L : (length ds <= 9)%nat) by (apply (f_equal (@length Z)) in E; rewrite !app_length in E; simpl in E; lia).
  destruct W as (W & _ & _). destruct (W ds H) as [_ F]. assert (B : forall l a, Forall digit l -> 0 <= a -> 0 <= fold_left (fun a c => 10 * a + (c - 48)) l a <= (a + 1) * 10 ^ Z.of_nat (length l) - 1).
  { intros l. induction l as [|c l IH]; intros a FL A; [simpl; lia|]. inversion FL; subst. cbn [fold_left length]. rewrite Nat2Z.inj_succ, Z.pow_succ_r by lia.
    unfold digit in *. specialize (IH (10 * a + (c - 48)) ltac:(assumption) ltac:(lia)). pose proof (Z.pow_pos_nonneg 10 (Z.of_nat (length l)) ltac:(lia) ltac:(lia)). nia. }
  specialize (B ds 0 F ltac:(lia)). fold (number ds) in B. assert (10 ^ Z.of_nat (length ds) <= 10 ^ 9) by (apply Z.pow_le_mono_r; lia). change (10 ^ 9) with 1000000000 in *.
  rewrite Z.mod_small in M by (change (2 ^ 64) with 18446744073709551616; lia). change (2 ^ 64 - 1) with 18446744073709551615 in M. lia.
Qed.

(** C45: a list with an item outside the range, its numbers below 2^64 - 1 and not of the form n/step, is never accepted. *)
Theorem C45_rejects : forall m mn mx sp its rest it r m' rest',
  0 <= mn <= mx -> mx < 2 ^ 63 -> blanks sp -> ends_field rest -> Forall well_formed its -> In it its -> small_numbers it -> ~ in_range mn mx it -> ~ overshoots mx it ->
  parse_field m mn mx (sp ++ field_text its ++ rest) = Ok (r, m', rest') -> r <> L_OK.
Proof. exact C45_rejects_l. Qed.
Print Assumptions C45_rejects.
(** Hours 5,24: the value 5 is already in the map when 24 is refused. *)
Example C45_rejects_case : let its := [mk_item (From [53]) None None; mk_item (From [50; 52]) None None] in
  Forall well_formed its /\ ~ in_range 0 23 (mk_item (From [50; 52]) None None) /\ ~ overshoots 23 (mk_item (From [50; 52]) None None)
  /\ parse_field (repeat 0 3) 0 23 (field_text its) = Ok (L_ERRTOKEN, [32; 0; 0], []).
Proof.
  cbv zeta. split; [constructor; [wf_item|constructor; [wf_item|constructor]]|].
  split; [intros ((_ & K) & _); vm_compute in K; congruence|]. split; [intros (ds & ss & K & _); discriminate|vm_compute; reflexivity].
Qed.

(** C45: parsing an expression ends with a result on every string that contains no step which is zero modulo 2^64 and no
    range whose first number is 2^64 - 1 modulo 2^64. *)
Theorem C45_total : forall mp s, ~ has_item zero_step s -> ~ has_item huge_range s -> exists r k, cron_parse mp s = Ok (r, k).
Proof. exact C45_total_l. Qed.
Print Assumptions C45_total.

(** C45: the same for one field, and the map keeps its length. *)
Theorem C45_field_total : forall m mn mx s,
  0 <= mn <= mx -> mx < 2 ^ 63 -> mx < 8 * Z.of_nat (length m) -> ~ has_item zero_step s -> ~ has_item huge_range s ->
  exists r m' u rest, parse_field m mn mx s = Ok (r, m', rest) /\ length m' = length m /\ s = u ++ rest.
Proof. exact C45_field_total_l. Qed.
Print Assumptions C45_field_total.

(** C45: in particular every string without slash and minus sign is parsed to a result, whatever else it contains. *)
Theorem C45_plain_total : forall mp s, Forall (fun c => c <> 47 /\ c <> 45) s -> exists r k, cron_parse mp s = Ok (r, k).
Proof. exact C45_plain_total_l. Qed.
Print Assumptions C45_plain_total.
Example C45_total_case : (forall s, s = [53; 44; 44; 32; 120] -> ~ has_item zero_step s /\ ~ has_item huge_range s) /\ cron_parse map0 [53; 44; 44; 32; 120] = Ok (L_ERRTOKEN, set_k_sec [32; 0; 0; 0; 0; 0; 0; 0] map0)
  /\ Forall (fun c => c <> 47 /\ c <> 45) [53; 44; 44; 32; 120].
Proof.
  split; [|split; [vm_compute; reflexivity|repeat constructor; lia]]. intros s ->. split.
  - apply (no_text_item _ 47); [repeat constructor; lia|apply zero_step_slash].
  - apply (no_text_item _ 45); [repeat constructor; lia|apply huge_range_minus].
Qed.

(** C45, finding: with the step 0 the loop that sets the bits never ends: however many iterations are allowed, they are
    used up. *)
Theorem C45_step_zero_diverges : forall fuel m b last, 0 <= b <= last -> b < 2 ^ 64 -> last < 8 * Z.of_nat (length m) -> set_bits fuel m b last 0 = NoFuel.
Proof. exact C45_step_zero_diverges_l. Qed.
Print Assumptions C45_step_zero_diverges.

(** C45, finding: so every field of good items that ends with an item in the range whose step is zero modulo 2^64 hangs the
    parser. *)
Theorem C45_step_zero_hangs : forall m mn mx sp its it rest,
  0 <= mn <= mx -> mx < 2 ^ 63 -> mx < 8 * Z.of_nat (length m) -> blanks sp -> ends_field rest -> its = [] \/ good_field mn mx its ->
  well_formed it -> in_range mn mx it -> zero_step it ->
  parse_field m mn mx (sp ++ field_text (its ++ [it]) ++ rest) = NoFuel.
Proof. exact C45_step_zero_hangs_l. Qed.
Print Assumptions C45_step_zero_hangs.
(** The minutes field 7,*/0. *)
Example C45_step_zero_case : let its := [mk_item (From [55]) None None] in let it := mk_item Star None (Some [48]) in
  good_field 0 59 its /\ well_formed it /\ in_range 0 59 it /\ zero_step it /\ field_text (its ++ [it]) = [55; 44; 42; 47; 48].
Proof.
  cbv zeta. split; [split; [discriminate|constructor; [|constructor]]; split; [wf_item|split; [vm_compute; repeat split; congruence|split; [vm_compute; split; congruence|intros K; vm_compute in K; discriminate]]]|].
  split; [wf_item|].
  split; [vm_compute; repeat split; congruence|]. split; [exists [48]; split; reflexivity|reflexivity].
Qed.

(** C45, finding: a range from a number that is 2^64 - 1 modulo 2^64 to a number beyond the map writes outside the map. *)
Theorem C45_overflow_undefined : forall m mn mx sp ds dt rest,
  0 <= mn <= mx -> mx < 8 * Z.of_nat (length m) -> 8 * Z.of_nat (length m) < 2 ^ 63 -> blanks sp -> ends_field rest -> numeral ds -> numeral dt ->
  number ds mod 2 ^ 64 = 2 ^ 64 - 1 -> 8 * Z.of_nat (length m) <= number dt < 2 ^ 64 - 1 ->
  parse_field m mn mx (sp ++ field_text [mk_item (From ds) (Some dt) None] ++ rest) = Bad UB_oob.
Proof. exact C45_overflow_undefined_l. Qed.
Print Assumptions C45_overflow_undefined.
(** The expression 18446744073709551615-200 * * * * * *. *)
Example C45_overflow_case : let ds := [49; 56; 52; 52; 54; 55; 52; 52; 48; 55; 51; 55; 48; 57; 53; 53; 49; 54; 49; 53] in
  number ds mod 2 ^ 64 = 2 ^ 64 - 1
  /\ cron_parse map0 (ds ++ [45; 50; 48; 48; 32; 42; 32; 42; 32; 42; 32; 42; 32; 42; 32; 42]) = Bad UB_oob.
Proof. split; vm_compute; reflexivity. Qed.

(** C45 is refuted as stated: the month field 11-2/2 denotes November and January, but the parser sets November and
    February. *)
Theorem C45_wrapped_step_refuted : exists its m', Forall (fun it => well_formed it /\ in_range 1 12 it /\ 1 <= step_of it <= 12) its
  /\ parse_field (repeat 0 2) 1 12 (field_text its) = Ok (L_OK, m', [])
  /\ field_has 1 12 its 1 /\ bit_on m' 1 = false /\ ~ field_has 1 12 its 2 /\ bit_on m' 2 = true.
Proof. exact C45_wrapped_step_refuted_l. Qed.
Print Assumptions C45_wrapped_step_refuted.

(** C45 is refuted as stated: numbers outside the range can be accepted. The seconds fields 75/5 and 18446744073709551621
    are accepted, the first as the empty set, the second as 5. *)
Theorem C45_out_of_range_refuted : exists i1 i2 m1 m2, well_formed i1 /\ well_formed i2 /\ ~ in_range 0 59 i1 /\ ~ in_range 0 59 i2
  /\ parse_field (repeat 0 8) 0 59 (field_text [i1]) = Ok (L_OK, m1, []) /\ parse_field (repeat 0 8) 0 59 (field_text [i2]) = Ok (L_OK, m2, [])
  /\ (forall p, bit_on m1 p = false) /\ bit_on m2 5 = true.
Proof. exact C45_out_of_range_refuted_l. Qed.
Print Assumptions C45_out_of_range_refuted.
