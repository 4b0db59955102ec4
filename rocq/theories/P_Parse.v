(** the cron expression parser (C45). *)
From Verif Require Import P_Cron Parse.
From Verif Require Export SpecParse.
(*IMPORT DemoTask *)

(** ** C45 *)

Ltac wf_item := split; [|split]; cbn; intros ? K; try discriminate; injection K as <-; (split; [discriminate|repeat constructor; unfold digit; lia]).

Lemma field_exact m mn mx sp its rest : 0 <= mn <= mx -> mx < 2 ^ 63 -> mx < 8 * Z.of_nat (length m) -> good_field mn mx its -> blanks sp -> ends_field rest ->
  exists m', parse_field m mn mx (sp ++ field_text its ++ rest) = Ok (L_OK, m', rest) /\ length m' = length m
    /\ forall p, 0 <= p -> bit_on m' p = true <-> bit_on m p = true \/ field_has mn mx its p.
Proof.
  intros MM MX ML [NE F] B RE. rewrite field_run; auto; [|eapply Forall_impl; [|exact F]; tauto].
  destruct (run_ok mn mx MM MX its m ML F) as (m' & R & L & H). rewrite R. cbn [rbind]. eauto.
Qed.

(** C45: a field made of items within the range, with good steps, is accepted, and the bits it sets in the map are exactly
    the values it denotes; the parser goes on behind the field. *)
Lemma C45_field_l : forall m mn mx sp its rest,
  0 <= mn <= mx -> mx < 2 ^ 63 -> mx < 8 * Z.of_nat (length m) -> good_field mn mx its -> blanks sp -> ends_field rest ->
  exists m', parse_field m mn mx (sp ++ field_text its ++ rest) = Ok (L_OK, m', rest) /\ length m' = length m
    /\ forall p, 0 <= p -> bit_on m' p = true <-> bit_on m p = true \/ field_has mn mx its p.
Proof. exact field_exact. Qed.

(*EX
(** The minutes 50-10/5,30: 50, 55, 0, 5, 10 and 30. *)
Definition C45_minutes : list item := [mk_item (From [53; 48]) (Some [49; 48]) (Some [53]); mk_item (From [51; 48]) None None].
Example C45_field_case : good_field 0 59 C45_minutes
  /\ parse_field (repeat 0 8) 0 59 ([32] ++ field_text C45_minutes ++ [32; 42]) = Ok (L_OK, [33; 4; 0; 64; 0; 0; 132; 0], [32; 42])
  /\ field_has 0 59 C45_minutes 55 /\ field_has 0 59 C45_minutes 5.
Proof.
  split; [|split; [vm_compute; reflexivity|]].
  - split; [discriminate|]. constructor; [|constructor; [|constructor]]; (split; [wf_item|split; [vm_compute; repeat split; congruence|split; [vm_compute; split; congruence|]]]).
    + intros _. exists 12. reflexivity.
    + intros K. vm_compute in K. discriminate.
  - split; (eexists; split; [left; reflexivity|vm_compute; repeat split; congruence]).
Qed.
EX*)

Definition empty_map (m : list Z) : Prop := forall p, bit_on m p = false.
Lemma zero_empty n : forall p, bit_on (repeat 0 n) p = false.
Proof.
  intros p. unfold bit_on. destruct (0 <=? p); [|reflexivity]. cbn [andb]. destruct (nth_error (repeat 0 n) (Z.to_nat (p / 8))) eqn:E; [|reflexivity].
  apply nth_error_In, repeat_spec in E. subst. apply Z.testbit_0_l.
Qed.
Lemma ends_expression fs : Forall (fun f : list Z * list item => fst f <> [] /\ blanks (fst f)) fs -> forall rest, ends_field rest -> ends_field (expression fs ++ rest).
Proof. intros F rest RE. destruct F as [|[sp its] t [NE B] F]; [exact RE|]. cbn [expression fst] in *. destruct B as [|c sp -> B]; [contradiction|]. reflexivity. Qed.

(** C45: an expression of seven such fields is accepted whatever follows it after a blank, and the stored job matches a
    calendar time exactly when every one of the seven fields contains the corresponding value of that time. *)
Lemma C45_expression_l : forall mp fs rest, good_expression fs -> ends_field rest ->
  exists k, cron_parse mp (expression fs ++ rest) = Ok (L_OK, k) /\ full_map k
    /\ forall t, calendar t -> exists b, cron_valid t k = Ok b /\ (b = true <-> time_in t fs).
Proof.
  intros mp fs rest [F2 FN] RE. unfold ranges in F2.
  inversion F2 as [|[s1 i1] ? f1 ? [B1 G1] F3]; subst. inversion F3 as [|[s2 i2] ? f2 ? [B2 G2] F4]; subst. inversion F4 as [|[s3 i3] ? f3 ? [B3 G3] F5]; subst.
  inversion F5 as [|[s4 i4] ? f4 ? [B4 G4] F6]; subst. inversion F6 as [|[s5 i5] ? f5 ? [B5 G5] F7]; subst. inversion F7 as [|[s6 i6] ? f6 ? [B6 G6] F8]; subst.
  inversion F8 as [|[s7 i7] ? f7 ? [B7 G7] F9]; subst. inversion F9; subst. clear F2 F3 F4 F5 F6 F7 F8 F9. cbn [fst snd tl] in *.
  inversion FN as [|? ? N2 FN3]; subst. inversion FN3 as [|? ? N3 FN4]; subst. inversion FN4 as [|? ? N4 FN5]; subst. inversion FN5 as [|? ? N5 FN6]; subst.
  inversion FN6 as [|? ? N6 FN7]; subst. inversion FN7 as [|? ? N7 _]; subst. clear FN FN3 FN4 FN5 FN6 FN7. cbn [fst] in *.
  unfold cron_parse. cbn [expression]. rewrite !app_nil_r, <- !app_assoc.
  set (r7 := s7 ++ field_text i7 ++ rest). set (r6 := s6 ++ field_text i6 ++ r7). set (r5 := s5 ++ field_text i5 ++ r6). set (r4 := s4 ++ field_text i4 ++ r5).
  set (r3 := s3 ++ field_text i3 ++ r4). set (r2 := s2 ++ field_text i2 ++ r3).
  assert (EB : forall sp x, sp <> [] -> blanks sp -> ends_field (sp ++ x)) by (intros sp x NE B; destruct B as [|c l -> B]; [contradiction|reflexivity]).
  assert (P63 : 2 ^ 63 = 9223372036854775808) by reflexivity.
  destruct (field_exact (repeat 0 8) 0 59 s1 i1 r2) as (m1 & E1 & L1 & H1); auto; try (simpl; lia). { unfold r2. auto. }
  destruct (field_exact (repeat 0 8) 0 59 s2 i2 r3) as (m2 & E2 & L2 & H2); auto; try (simpl; lia). { unfold r3. auto. }
  destruct (field_exact (repeat 0 3) 0 23 s3 i3 r4) as (m3 & E3 & L3 & H3); auto; try (simpl; lia). { unfold r4. auto. }
  destruct (field_exact (repeat 0 4) 1 31 s4 i4 r5) as (m4 & E4 & L4 & H4); auto; try (simpl; lia). { unfold r5. auto. }
  destruct (field_exact (repeat 0 2) 1 12 s5 i5 r6) as (m5 & E5 & L5 & H5); auto; try (simpl; lia). { unfold r6. auto. }
  destruct (field_exact (repeat 0 1) 0 6 s6 i6 r7) as (m6 & E6 & L6 & H6); auto; try (simpl; lia). { unfold r7. auto. }
  destruct (field_exact (repeat 0 13) 0 100 s7 i7 rest) as (m7 & E7 & L7 & H7); auto; try (simpl; lia).
  fold r7 in E7. fold r6 in E6. fold r5 in E5. fold r4 in E4. fold r3 in E3. fold r2 in E2.
  destruct (s1 ++ field_text i1 ++ r2) as [|ch tl] eqn:S1.
  { exfalso. apply app_eq_nil in S1 as [_ S1]. apply app_eq_nil in S1 as [S1 _]. destruct G1 as [NE G1]. apply (field_text_ne i1 NE); [eapply Forall_impl; [|exact G1]; intros it (W & _); exact W|exact S1]. }
  cbv zeta. unfold map0. cbn [k_sec]. rewrite E1. cbn [rbind lok negb]. unfold set_k_sec. cbn [k_min k_hour k_mday k_mon k_wday k_year k_sec].
  rewrite E2. cbn [rbind lok negb]. unfold set_k_min. cbn [k_min k_hour k_mday k_mon k_wday k_year k_sec].
  rewrite E3. cbn [rbind lok negb]. unfold set_k_hour. cbn [k_min k_hour k_mday k_mon k_wday k_year k_sec].
  rewrite E4. cbn [rbind lok negb]. unfold set_k_mday. cbn [k_min k_hour k_mday k_mon k_wday k_year k_sec].
  rewrite E5. cbn [rbind lok negb]. unfold set_k_mon. cbn [k_min k_hour k_mday k_mon k_wday k_year k_sec].
  rewrite E6. cbn [rbind lok negb]. unfold set_k_wday. cbn [k_min k_hour k_mday k_mon k_wday k_year k_sec].
  rewrite E7. cbn [rbind lok negb]. unfold set_k_year. cbn [k_min k_hour k_mday k_mon k_wday k_year k_sec].
  eexists. split; [reflexivity|]. assert (FM : full_map (mk_cronmap m1 m2 m3 m4 m5 m6 m7)).
  { rewrite repeat_length in *. repeat split; cbn [k_min k_hour k_mday k_mon k_wday k_year k_sec]; assumption. }
  split; [exact FM|]. intros t CAL. destruct (valid_total t _ CAL FM) as (b & V). exists b. split; [exact V|]. pose proof (valid_matches t _ b CAL V) as M. rewrite <- M. unfold matches.
  cbn [k_min k_hour k_mday k_mon k_wday k_year k_sec]. destruct CAL as (C1 & C2 & C3 & C4 & C5 & C6 & C7).
  assert (Z8 : forall n p its (mn mx : Z) m, (forall p, 0 <= p -> bit_on m p = true <-> bit_on (repeat 0 n) p = true \/ field_has mn mx its p) -> 0 <= p -> bit_on m p = true <-> field_has mn mx its p).
  { intros n p its mn mx m H P. rewrite H by exact P. rewrite zero_empty. split; [intros [K|K]; [discriminate|exact K]|auto]. }
  rewrite !andb_true_iff. rewrite (Z8 _ _ _ _ _ _ H1), (Z8 _ _ _ _ _ _ H2), (Z8 _ _ _ _ _ _ H3), (Z8 _ _ _ _ _ _ H4), (Z8 _ _ _ _ _ _ H5), (Z8 _ _ _ _ _ _ H6), (Z8 _ _ _ _ _ _ H7) by lia.
  unfold time_in, ranges, field_values. split.
  - intros ((((((K1 & K2) & K3) & K4) & K5) & K6) & K7) i f r v. do 7 (destruct i as [|i]; [cbn [nth_error]; intros F R V0; injection F as <-; injection R as <-; injection V0 as <-; assumption|]).
    destruct i; discriminate.
  - intros K. repeat split; [exact (K 0%nat _ _ _ eq_refl eq_refl eq_refl)|exact (K 1%nat _ _ _ eq_refl eq_refl eq_refl)|exact (K 2%nat _ _ _ eq_refl eq_refl eq_refl)|exact (K 3%nat _ _ _ eq_refl eq_refl eq_refl)
      |exact (K 4%nat _ _ _ eq_refl eq_refl eq_refl)|exact (K 5%nat _ _ _ eq_refl eq_refl eq_refl)|exact (K 6%nat _ _ _ eq_refl eq_refl eq_refl)].
Qed.

(*EX
(** Every second of ten fifteen and thirty seconds on working days: 30 15 10 * * 1-5 *. *)
Definition C45_star : list item := [mk_item Star None None].
Definition C45_working_days : list (list Z * list item) :=
  [([], [mk_item (From [51; 48]) None None]); ([32], [mk_item (From [49; 53]) None None]); ([32], [mk_item (From [49; 48]) None None]);
   ([32], C45_star); ([32; 32], C45_star); ([32], [mk_item (From [49]) (Some [53]) None]); ([32], C45_star)].
Example C45_expression_case : good_expression C45_working_days /\ expression C45_working_days = [51; 48; 32; 49; 53; 32; 49; 48; 32; 42; 32; 32; 42; 32; 49; 45; 53; 32; 42]
  /\ time_in (mk_tm 30 15 10 3 4 5 126) C45_working_days /\ ~ time_in (mk_tm 30 15 10 3 4 6 126) C45_working_days.
Proof.
  split; [|split; [reflexivity|split]].
  - split; [|repeat constructor; discriminate]. unfold C45_working_days, ranges, C45_star.
    repeat (constructor; [cbn [fst snd]; split; [repeat constructor|split; [discriminate|constructor; [|constructor]]]|]); try apply Forall2_nil;
      (split; [wf_item|split; [vm_compute; repeat split; congruence|split; [vm_compute; split; congruence|intros K; vm_compute in K; discriminate]]]).
  - intros i f r v. do 7 (destruct i as [|i]; [cbn [nth_error C45_working_days ranges field_values]; intros F R V; injection F as <-; injection R as <-; injection V as <-; eexists; split; [left; reflexivity|vm_compute; repeat split; congruence]|]).
    destruct i; discriminate.
  - intros H. destruct (H 5%nat _ _ _ eq_refl eq_refl eq_refl) as (it & [<-|[]] & (_ & _ & K)). vm_compute in K. congruence.
Qed.
EX*)

Lemma accepted m mn mx it b e st opp m' : 0 <= mn <= mx -> mx < 2 ^ 63 -> well_formed it -> small_numbers it -> read_item mn mx it = (b, e, st, opp) ->
  apply_item m mn mx b e st opp = Ok (L_OK, m') -> in_range mn mx it \/ overshoots mx it.
Proof.
  intros MM MX (W1 & W2 & W3) SM RI A. assert (P64 : 2 ^ 64 = 18446744073709551616) by reflexivity. assert (P63 : 2 ^ 63 = 9223372036854775808) by reflexivity.
  assert (CK : mn <= b /\ (e <= mx \/ e = size_max)).
  { unfold apply_item in A. destruct (Z.ltb_spec b mn); [discriminate|]. split; [assumption|]. destruct (Z.ltb_spec mx e); [|left; assumption]. cbn [andb] in A.
    destruct (Z.eqb_spec e size_max); [right; assumption|]. discriminate. }
  clear A. destruct CK as [C1 C2]. unfold size_max in *. destruct it as [h t s]. unfold small_numbers in SM. unfold read_item, read_range in RI. unfold in_range, first_of, last_of. cbn [it_head it_to it_step] in *.
  assert (U : forall ds, numeral ds -> h = From ds \/ t = Some ds \/ s = Some ds -> u64 (number ds) = number ds /\ number ds < 2 ^ 64 - 1).
  { intros ds N K. pose proof (SM ds K). pose proof (number_nonneg ds N). split; [apply u64_id; lia|assumption]. }
  destruct h as [|d].
  - destruct t as [dt|]; [|left; lia]. destruct (U dt) as [U1 U2]; auto. rewrite U1 in RI. cbv zeta in RI. destruct (Z.ltb_spec (number dt) mn); destruct s; injection RI as <- <- <- <-; left; lia.
  - destruct (U d) as [U1 U2]; auto. rewrite U1 in RI. destruct t as [dt|].
    + destruct (U dt) as [U3 U4]; auto. rewrite U3 in RI. cbv zeta in RI. destruct (Z.ltb_spec (number dt) (number d)); destruct s; injection RI as <- <- <- <-; left; lia.
    + destruct s as [ds|]; injection RI as <- <- <- <-; [|left; lia]. destruct (Z_le_gt_dec (number d) mx); [left; lia|]. right. exists d, ds. split; [reflexivity|lia].
Qed.
Lemma run_accepted mn mx its : 0 <= mn <= mx -> mx < 2 ^ 63 -> Forall well_formed its -> forall m m', run_items m mn mx its = Ok (L_OK, m') ->
  Forall (fun it => small_numbers it -> in_range mn mx it \/ overshoots mx it) its.
Proof.
  intros MM MX F. induction F as [|it t W F IH]; intros m m' R; [constructor|]. cbn [run_items] in R. destruct (read_item mn mx it) as [[[b e] st] opp] eqn:RI.
  apply rbind_ok in R as ([r m1] & A & R). destruct (lok r) eqn:LK; [|injection R as -> _; discriminate]. apply lok_ok in LK. subst r.
  constructor; [intros SM; eapply accepted; eauto|]. eapply IH; eauto.
Qed.

(** C45: what is accepted is a list of well-formed items after blanks, and an item whose numbers are below 2^64 - 1 is
    within the range of the field, unless it is a single number above the range with a step. *)
Lemma C45_sound_l : forall m mn mx s m' rest,
  0 <= mn <= mx -> mx < 2 ^ 63 -> mx < 8 * Z.of_nat (length m) -> ~ has_item huge_range s -> parse_field m mn mx s = Ok (L_OK, m', rest) ->
  exists sp its, blanks sp /\ ends_field rest /\ its <> [] /\ s = sp ++ field_text its ++ rest
    /\ Forall (fun it => well_formed it /\ (small_numbers it -> in_range mn mx it \/ overshoots mx it)) its.
Proof.
  intros m mn mx s m' rest MM MX ML NH P. destruct (field_all m mn mx s MM MX ML) as [(r & m1 & rest1 & E & L & _ & OK)|[[E _]|H]]; [|congruence|contradiction].
  rewrite E in P. injection P as -> -> ->. destruct (OK eq_refl) as (sp & its & B & RE & NE & F & S & RUN). exists sp, its. repeat (split; [assumption|]).
  pose proof (run_accepted mn mx its MM MX F _ _ RUN) as A. clear -F A. induction F; [constructor|]. inversion A; subst. constructor; auto.
Qed.

(*EX
Example C45_sound_case : parse_field (repeat 0 4) 1 31 [49; 44; 49; 53; 45; 50; 48; 32; 42] = Ok (L_OK, [2; 128; 31; 0], [32; 42])
  /\ ~ has_item huge_range [49; 44; 49; 53; 45; 50; 48; 32; 42].
Proof.
  split; [vm_compute; reflexivity|]. intros (pre & it & post & E & W & (ds & dt & H & T & M) & _). unfold item_text in E. rewrite H, T in E.
  assert (L : (length ds <= 9)%nat) by (apply (f_equal (@length Z)) in E; rewrite !app_length in E; simpl in E; lia).
  destruct W as (W & _ & _). destruct (W ds H) as [_ F]. assert (B : forall l a, Forall digit l -> 0 <= a -> 0 <= fold_left (fun a c => 10 * a + (c - 48)) l a <= (a + 1) * 10 ^ Z.of_nat (length l) - 1).
  { intros l. induction l as [|c l IH]; intros a FL A; [simpl; lia|]. inversion FL; subst. cbn [fold_left length]. rewrite Nat2Z.inj_succ, Z.pow_succ_r by lia.
    unfold digit in *. specialize (IH (10 * a + (c - 48)) ltac:(assumption) ltac:(lia)). pose proof (Z.pow_pos_nonneg 10 (Z.of_nat (length l)) ltac:(lia) ltac:(lia)). nia. }
  specialize (B ds 0 F ltac:(lia)). fold (number ds) in B. assert (10 ^ Z.of_nat (length ds) <= 10 ^ 9) by (apply Z.pow_le_mono_r; lia). change (10 ^ 9) with 1000000000 in *.
  rewrite Z.mod_small in M by (change (2 ^ 64) with 18446744073709551616; lia). change (2 ^ 64 - 1) with 18446744073709551615 in M. lia.
Qed.
EX*)

(** C45: a list with an item outside the range, its numbers below 2^64 - 1 and not of the form n/step, is never accepted. *)
Lemma C45_rejects_l : forall m mn mx sp its rest it r m' rest',
  0 <= mn <= mx -> mx < 2 ^ 63 -> blanks sp -> ends_field rest -> Forall well_formed its -> In it its -> small_numbers it -> ~ in_range mn mx it -> ~ overshoots mx it ->
  parse_field m mn mx (sp ++ field_text its ++ rest) = Ok (r, m', rest') -> r <> L_OK.
Proof.
  intros m mn mx sp its rest it r m' rest' MM MX B RE F I SM NR NO P ->. rewrite field_run in P; auto; [|intros ->; destruct I].
  apply rbind_ok in P as ([r1 m1] & R & P). injection P as -> -> ->. pose proof (run_accepted mn mx its MM MX F _ _ R) as A. rewrite Forall_forall in A. destruct (A it I SM); auto.
Qed.

(*EX
(** Hours 5,24: the value 5 is already in the map when 24 is refused. *)
Example C45_rejects_case : let its := [mk_item (From [53]) None None; mk_item (From [50; 52]) None None] in
  Forall well_formed its /\ ~ in_range 0 23 (mk_item (From [50; 52]) None None) /\ ~ overshoots 23 (mk_item (From [50; 52]) None None)
  /\ parse_field (repeat 0 3) 0 23 (field_text its) = Ok (L_ERRTOKEN, [32; 0; 0], []).
Proof.
  cbv zeta. split; [constructor; [wf_item|constructor; [wf_item|constructor]]|].
  split; [intros ((_ & K) & _); vm_compute in K; congruence|]. split; [intros (ds & ss & K & _); discriminate|vm_compute; reflexivity].
Qed.
EX*)

Lemma has_item_suffix P u s : ends_field s -> has_item P s -> has_item P (u ++ s).
Proof.
  intros RE (pre & it & post & E & W & H & PR & PO). exists (u ++ pre), it, post. split; [rewrite E, app_assoc; reflexivity|]. split; [exact W|]. split; [exact H|]. split; [|exact PO].
  destruct PR as [->|(q & c & -> & C)]; [|right; exists (u ++ q), c; split; [apply app_assoc|exact C]]. exfalso. cbn [app] in E.
  pose proof (no_space it W) as NS. pose proof (item_text_ne it W) as NE. destruct (item_text it) as [|c l]; [contradiction|]. rewrite E in RE. simpl in RE. inversion NS; subst. contradiction.
Qed.

Lemma parse_outcome mp s : (exists r k, cron_parse mp s = Ok (r, k)) \/ (cron_parse mp s = NoFuel /\ has_item zero_step s) \/ has_item huge_range s.
Proof.
  unfold cron_parse. destruct s as [|ch tl] eqn:S; [left; eauto|]. rewrite <- S. clear S ch tl. cbv zeta.
  assert (P63 : 2 ^ 63 = 9223372036854775808) by reflexivity.
  assert (STEP : forall (m : list Z) mn mx (s : list Z) (k : lwdtcr -> list Z -> list Z -> res (lwdtcr * cronmap)),
    0 <= mn <= mx -> mx < 2 ^ 63 -> mx < 8 * Z.of_nat (length m) ->
    (forall r m' rest, r <> L_OK -> exists x, k r m' rest = Ok x) ->
    (forall m' rest, ends_field rest -> (exists x, k L_OK m' rest = Ok x) \/ (k L_OK m' rest = NoFuel /\ has_item zero_step rest) \/ has_item huge_range rest) ->
    let R := (let? x := parse_field m mn mx s in let '(r, m', rest) := x in k r m' rest) in
    (exists x, R = Ok x) \/ (R = NoFuel /\ has_item zero_step s) \/ has_item huge_range s).
  { intros m mn mx s0 k MM MX ML K1 K2. cbv zeta. destruct (field_all m mn mx s0 MM MX ML) as [(r & m' & rest & E & L & (u & EU) & OK)|[[E H]|H]]; [|rewrite E; right; left; split; [reflexivity|exact H]|auto].
    rewrite E. cbn [rbind]. destruct (lok r) eqn:LK.
    - apply lok_ok in LK. subst r. destruct (OK eq_refl) as (_ & _ & _ & RE & _). destruct (K2 m' rest RE) as [H|[[H Z]|H]]; [auto| |].
      + right; left. split; [exact H|]. rewrite EU. now apply has_item_suffix.
      + right; right. rewrite EU. now apply has_item_suffix.
    - left. apply K1. intros ->. discriminate. }
  assert (NL : forall r, r <> L_OK -> lok r = false) by (intros r N; destruct r; simpl; congruence).
  assert (FIN : forall R, (exists x, R = Ok x) \/ (R = NoFuel /\ has_item zero_step s) \/ has_item huge_range s -> (exists (r : lwdtcr) (k : cronmap), R = Ok (r, k)) \/ (R = NoFuel /\ has_item zero_step s) \/ has_item huge_range s).
  { intros R [([r k] & E)|H]; [left; eauto|right; exact H]. }
  apply FIN. clear FIN.
  do 6 (apply STEP; [cbn; lia|lia|cbn; lia|intros ? ? ? N; rewrite (NL _ N); cbn [negb]; eauto|intros ? ? _; cbn [lok negb]]).
  apply STEP; [cbn; lia|lia|cbn; lia|intros; eauto|intros; eauto].
Qed.

(** C45: parsing an expression ends with a result on every string that contains no step which is zero modulo 2^64 and no
    range whose first number is 2^64 - 1 modulo 2^64. *)
Lemma C45_total_l : forall mp s, ~ has_item zero_step s -> ~ has_item huge_range s -> exists r k, cron_parse mp s = Ok (r, k).
Proof. intros mp s Z H. destruct (parse_outcome mp s) as [E|[[_ E]|E]]; [exact E|contradiction|contradiction]. Qed.

(** C45: the same for one field, and the map keeps its length. *)
Lemma C45_field_total_l : forall m mn mx s,
  0 <= mn <= mx -> mx < 2 ^ 63 -> mx < 8 * Z.of_nat (length m) -> ~ has_item zero_step s -> ~ has_item huge_range s ->
  exists r m' u rest, parse_field m mn mx s = Ok (r, m', rest) /\ length m' = length m /\ s = u ++ rest.
Proof.
  intros m mn mx s MM MX ML Z H. destruct (field_all m mn mx s MM MX ML) as [(r & m' & rest & E & L & (u & EU) & _)|[[_ E]|E]]; [|contradiction|contradiction]. exists r, m', u, rest. auto.
Qed.

Lemma no_text_item (P : item -> Prop) c s : Forall (fun x => x <> c) s -> (forall it, P it -> In c (item_text it)) -> ~ has_item P s.
Proof.
  intros F H (pre & it & post & -> & _ & PI & _). apply Forall_app in F as [_ F]. apply Forall_app in F as [F _]. rewrite Forall_forall in F. apply (F c); auto.
Qed.
Lemma zero_step_slash it : zero_step it -> In 47 (item_text it).
Proof. intros (ds & E & _). unfold item_text. rewrite E. apply in_or_app. right. apply in_or_app. right. left. reflexivity. Qed.
Lemma huge_range_minus it : huge_range it -> In 45 (item_text it).
Proof. intros (ds & dt & _ & E & _). unfold item_text. rewrite E. apply in_or_app. right. apply in_or_app. left. left. reflexivity. Qed.

(** C45: in particular every string without slash and minus sign is parsed to a result, whatever else it contains. *)
Lemma C45_plain_total_l : forall mp s, Forall (fun c => c <> 47 /\ c <> 45) s -> exists r k, cron_parse mp s = Ok (r, k).
Proof.
  intros mp s F. apply C45_total_l.
  - apply (no_text_item _ 47); [eapply Forall_impl; [|exact F]; cbn; tauto|apply zero_step_slash].
  - apply (no_text_item _ 45); [eapply Forall_impl; [|exact F]; cbn; tauto|apply huge_range_minus].
Qed.

(*EX
Example C45_total_case : (forall s, s = [53; 44; 44; 32; 120] -> ~ has_item zero_step s /\ ~ has_item huge_range s) /\ cron_parse map0 [53; 44; 44; 32; 120] = Ok (L_ERRTOKEN, set_k_sec [32; 0; 0; 0; 0; 0; 0; 0] map0)
  /\ Forall (fun c => c <> 47 /\ c <> 45) [53; 44; 44; 32; 120].
Proof.
  split; [|split; [vm_compute; reflexivity|repeat constructor; lia]]. intros s ->. split.
  - apply (no_text_item _ 47); [repeat constructor; lia|apply zero_step_slash].
  - apply (no_text_item _ 45); [repeat constructor; lia|apply huge_range_minus].
Qed.
EX*)

(** C45, finding: with the step 0 the loop that sets the bits never ends: however many iterations are allowed, they are
    used up. *)
Lemma C45_step_zero_diverges_l : forall fuel m b last, 0 <= b <= last -> b < 2 ^ 64 -> last < 8 * Z.of_nat (length m) -> set_bits fuel m b last 0 = NoFuel.
Proof. exact set_bits_zero. Qed.

Lemma run_last mn mx its it : 0 <= mn <= mx -> mx < 2 ^ 63 -> forall m, mx < 8 * Z.of_nat (length m) ->
  Forall (fun it => well_formed it /\ in_range mn mx it /\ good_step mn mx it) its ->
  exists m', length m' = length m /\ run_items m mn mx (its ++ [it]) = run_items m' mn mx [it].
Proof.
  intros MM MX. induction its as [|i t IH]; intros m ML F; [exists m; auto|]. inversion F as [|? ? (W & R & G) F']; subst.
  pose proof (apply_ok m mn mx i MM MX ML W R G) as A. cbn [app run_items]. destruct (read_item mn mx i) as [[[b e] st] opp]. destruct A as (m1 & E & L1 & _). rewrite E. cbn [rbind lok].
  destruct (IH m1 ltac:(lia) F') as (m' & L' & EQ). exists m'. split; [lia|exact EQ].
Qed.

(** C45, finding: so every field of good items that ends with an item in the range whose step is zero modulo 2^64 hangs the
    parser. *)
Lemma C45_step_zero_hangs_l : forall m mn mx sp its it rest,
  0 <= mn <= mx -> mx < 2 ^ 63 -> mx < 8 * Z.of_nat (length m) -> blanks sp -> ends_field rest -> its = [] \/ good_field mn mx its ->
  well_formed it -> in_range mn mx it -> zero_step it ->
  parse_field m mn mx (sp ++ field_text (its ++ [it]) ++ rest) = NoFuel.
Proof.
  intros m mn mx sp its it rest MM MX ML B RE GF W IR Z. assert (F : Forall (fun it => well_formed it /\ in_range mn mx it /\ good_step mn mx it) its) by (destruct GF as [->|[_ F]]; [constructor|exact F]).
  rewrite field_run; auto; [|destruct its; discriminate|apply Forall_app; split; [eapply Forall_impl; [|exact F]; intros ? (K & _); exact K|auto]].
  destruct (run_last mn mx its it MM MX m ML F) as (m1 & L1 & ->). cbn [run_items].
  assert (P64 : 2 ^ 64 = 18446744073709551616) by reflexivity. assert (P63 : 2 ^ 63 = 9223372036854775808) by reflexivity.
  destruct Z as (ds & ES & Z0). destruct IR as [R1 R2]. destruct it as [h t s]. unfold read_item, read_range, first_of, last_of in *. cbn [it_head it_to it_step] in *. subst s.
  change (u64 (number ds)) with (number ds mod 2 ^ 64). rewrite Z0. destruct W as (W1 & W2 & _). cbn [it_head it_to it_step] in *.
  assert (EH : match h with Star => mn | From d => u64 (number d) end = match h with Star => mn | From d => number d end) by (destruct h; [reflexivity|apply u64_id; lia]).
  rewrite EH. set (f := match h with Star => mn | From d => number d end) in *.
  assert (ZR : forall b e opp, mn <= b -> b <= e -> (e <= mx \/ (e = size_max /\ opp = false /\ b <= mx)) -> apply_item m1 mn mx b e 0 opp = NoFuel).
  { intros b e opp B1 B2 B3. unfold apply_item. rewrite (proj2 (Z.ltb_ge b mn)) by lia. destruct B3 as [B3|(-> & -> & B3)].
    - rewrite (proj2 (Z.ltb_ge mx e)) by lia. cbn [andb]. destruct opp; rewrite set_bits_zero by lia; reflexivity.
    - rewrite Z.eqb_refl, andb_false_r. unfold size_max. rewrite (proj2 (Z.ltb_lt mx _)) by lia. rewrite set_bits_zero by lia. reflexivity. }
  destruct t as [dt|].
  - rewrite (u64_id (number dt)) by lia. cbv zeta. destruct (Z.ltb_spec (number dt) f); rewrite ZR by lia; reflexivity.
  - rewrite ZR; [reflexivity|lia|unfold size_max; lia|]. right. split; [reflexivity|split; [reflexivity|lia]].
Qed.

(*EX
(** The minutes field 7,*/0. *)
Example C45_step_zero_case : let its := [mk_item (From [55]) None None] in let it := mk_item Star None (Some [48]) in
  good_field 0 59 its /\ well_formed it /\ in_range 0 59 it /\ zero_step it /\ field_text (its ++ [it]) = [55; 44; 42; 47; 48].
Proof.
  cbv zeta. split; [split; [discriminate|constructor; [|constructor]]; split; [wf_item|split; [vm_compute; repeat split; congruence|split; [vm_compute; split; congruence|intros K; vm_compute in K; discriminate]]]|].
  split; [wf_item|].
  split; [vm_compute; repeat split; congruence|]. split; [exists [48]; split; reflexivity|reflexivity].
Qed.
EX*)

Lemma set_bits_over : forall fuel m b last, 0 <= b <= 8 * Z.of_nat (length m) -> 8 * Z.of_nat (length m) <= last -> last < 2 ^ 64 - 1 -> 8 * Z.of_nat (length m) - b < Z.of_nat fuel ->
  set_bits fuel m b last 1 = Bad UB_oob.
Proof.
  induction fuel; intros m b last B L LM F; [lia|]. cbn [set_bits]. rewrite (proj2 (Z.leb_le b last)) by lia. destruct (Z.eq_dec b (8 * Z.of_nat (length m))) as [->|NE].
  - unfold bit_set. rewrite Z.shiftr_div_pow2 by lia. change (2 ^ 3) with 8. rewrite (Z.mul_comm 8), Z.div_mul by lia. unfold lget, idx_ok.
    rewrite (proj2 (Z.ltb_ge _ _)) by lia. rewrite andb_false_r. reflexivity.
  - destruct (bit_set_total m b) as (m1 & E & L1); try lia. rewrite E. cbn [rbind]. assert (P64 : 2 ^ 64 = 18446744073709551616) by reflexivity. rewrite u64_id by lia. apply IHfuel; lia.
Qed.

(** C45, finding: a range from a number that is 2^64 - 1 modulo 2^64 to a number beyond the map writes outside the map. *)
Lemma C45_overflow_undefined_l : forall m mn mx sp ds dt rest,
  0 <= mn <= mx -> mx < 8 * Z.of_nat (length m) -> 8 * Z.of_nat (length m) < 2 ^ 63 -> blanks sp -> ends_field rest -> numeral ds -> numeral dt ->
  number ds mod 2 ^ 64 = 2 ^ 64 - 1 -> 8 * Z.of_nat (length m) <= number dt < 2 ^ 64 - 1 ->
  parse_field m mn mx (sp ++ field_text [mk_item (From ds) (Some dt) None] ++ rest) = Bad UB_oob.
Proof.
  intros m mn mx sp ds dt rest MM ML MB B RE N1 N2 D1 D2. assert (P64 : 2 ^ 64 = 18446744073709551616) by reflexivity. assert (P63 : 2 ^ 63 = 9223372036854775808) by reflexivity.
  rewrite field_run; auto; [|discriminate|constructor; [|constructor]; split; [|split]; cbn; intros ? K; try discriminate; injection K as <-; assumption].
  cbn [run_items read_item read_range it_head it_to it_step]. unfold read_item, read_range. cbn [it_head it_to it_step]. cbv zeta. rewrite (u64_id (number dt)) by lia. change (u64 (number ds)) with (number ds mod 2 ^ 64). rewrite D1.
  rewrite (proj2 (Z.ltb_lt (number dt) (2 ^ 64 - 1))) by lia. unfold apply_item. rewrite (proj2 (Z.ltb_ge (number dt) mn)) by lia.
  change (2 ^ 64 - 1 =? size_max) with true. cbn [negb]. rewrite andb_false_r. rewrite (proj2 (Z.ltb_lt mx (2 ^ 64 - 1))) by lia.
  destruct (set_bits_ok (bits_fuel m) m mx mx 1) as (m1 & bit & E & L1 & _ & _ & _); try lia. { unfold bits_fuel. lia. }
  rewrite E. cbn [rbind]. change (1 =? 0) with false. cbv iota. rewrite Z.mod_1_r, Z.add_0_l, u64_id by lia. rewrite set_bits_over; [reflexivity|lia|lia|lia|]. unfold bits_fuel. lia.
Qed.

(*EX
(** The expression 18446744073709551615-200 * * * * * *. *)
Example C45_overflow_case : let ds := [49; 56; 52; 52; 54; 55; 52; 52; 48; 55; 51; 55; 48; 57; 53; 53; 49; 54; 49; 53] in
  number ds mod 2 ^ 64 = 2 ^ 64 - 1
  /\ cron_parse map0 (ds ++ [45; 50; 48; 48; 32; 42; 32; 42; 32; 42; 32; 42; 32; 42; 32; 42]) = Bad UB_oob.
Proof. split; vm_compute; reflexivity. Qed.
EX*)

(** C45 is refuted as stated: the month field 11-2/2 denotes November and January, but the parser sets November and
    February. *)
Lemma C45_wrapped_step_refuted_l : exists its m', Forall (fun it => well_formed it /\ in_range 1 12 it /\ 1 <= step_of it <= 12) its
  /\ parse_field (repeat 0 2) 1 12 (field_text its) = Ok (L_OK, m', [])
  /\ field_has 1 12 its 1 /\ bit_on m' 1 = false /\ ~ field_has 1 12 its 2 /\ bit_on m' 2 = true.
Proof.
  exists [mk_item (From [49; 49]) (Some [50]) (Some [50])], [4; 8]. split.
  - constructor; [|constructor]. split; [wf_item|]. split; vm_compute; repeat split; congruence.
  - split; [vm_compute; reflexivity|]. split; [eexists; split; [left; reflexivity|vm_compute; repeat split; congruence]|]. split; [reflexivity|]. split; [|reflexivity].
    intros (it & [<-|[]] & (_ & K & _)). vm_compute in K. discriminate.
Qed.

(** C45 is refuted as stated: numbers outside the range can be accepted. The seconds fields 75/5 and 18446744073709551621
    are accepted, the first as the empty set, the second as 5. *)
Lemma C45_out_of_range_refuted_l : exists i1 i2 m1 m2, well_formed i1 /\ well_formed i2 /\ ~ in_range 0 59 i1 /\ ~ in_range 0 59 i2
  /\ parse_field (repeat 0 8) 0 59 (field_text [i1]) = Ok (L_OK, m1, []) /\ parse_field (repeat 0 8) 0 59 (field_text [i2]) = Ok (L_OK, m2, [])
  /\ (forall p, bit_on m1 p = false) /\ bit_on m2 5 = true.
Proof.
  exists (mk_item (From [55; 53]) None (Some [53])), (mk_item (From [49; 56; 52; 52; 54; 55; 52; 52; 48; 55; 51; 55; 48; 57; 53; 53; 49; 54; 50; 49]) None None), (repeat 0 8), [32; 0; 0; 0; 0; 0; 0; 0].
  split; [wf_item|].
  split; [wf_item|].
  split; [intros ((_ & K) & _); vm_compute in K; congruence|]. split; [intros ((_ & K) & _); vm_compute in K; congruence|].
  split; [vm_compute; reflexivity|]. split; [vm_compute; reflexivity|]. split; [apply zero_empty|reflexivity].
Qed.

