(** Rounding a whole number to a single. *)
From Verif Require Export Reader SpecReader.

Definition mant (a : Z) : Z :=
  let b := Z.log2 (rnd_int a) - 23 in if b <=? 0 then rnd_int a * 2 ^ (- b) else rnd_int a / 2 ^ b.
Lemma pow_split a b : 0 <= a -> 0 <= b -> 2 ^ (a + b) = 2 ^ a * 2 ^ b.
Proof. intros. apply Z.pow_add_r; lia. Qed.
Lemma low_exact a : 0 < a -> Z.log2 a <= 23 -> rnd_int a = a.
Proof. intros H1 H2. unfold rnd_int. replace (Z.log2 a - 23 <=? 0) with true by lia. reflexivity. Qed.

(** The rounded quotient. *)
Definition quo (a b : Z) : Z :=
  let q := a / 2 ^ b in let r := a mod 2 ^ b in
  if 2 * r <? 2 ^ b then q else if 2 ^ b <? 2 * r then q + 1 else if Z.even q then q else q + 1.
Lemma high_quo a : 23 < Z.log2 a -> rnd_int a = quo a (Z.log2 a - 23) * 2 ^ (Z.log2 a - 23).
Proof. intros H. unfold rnd_int. replace (Z.log2 a - 23 <=? 0) with false by lia. reflexivity. Qed.
Lemma quo_best a b j : 0 < b -> Z.abs (quo a b * 2 ^ b - a) < Z.abs (j * 2 ^ b - a)
  \/ (Z.abs (quo a b * 2 ^ b - a) = Z.abs (j * 2 ^ b - a) /\ (j = quo a b \/ Z.even (quo a b) = true)).
Proof.
  intros Hb. assert (HP : 0 < 2 ^ b) by (apply Z.pow_pos_nonneg; lia). unfold quo.
  pose proof (Z.div_mod a (2 ^ b) ltac:(lia)) as D. pose proof (Z.mod_pos_bound a (2 ^ b) HP) as R.
  set (q := a / 2 ^ b) in *. set (r := a mod 2 ^ b) in *. set (P := 2 ^ b) in *. clearbody q r P. subst a.
  assert (C : j <= q - 1 \/ j = q \/ j = q + 1 \/ q + 2 <= j) by lia.
  assert (X : (j - q) * P + q * P = j * P) by ring.
  assert (Y : (q + 1) * P = q * P + P) by ring.
  assert (Z1 : j <= q - 1 -> j * P <= q * P - P) by (intros; nia).
  assert (Z2 : q + 2 <= j -> q * P + 2 * P <= j * P) by (intros; nia).
  rewrite (Z.mul_comm P q).
  destruct (2 * r <? P) eqn:A; [|destruct (P <? 2 * r) eqn:B; [|destruct (Z.even q) eqn:F]].
  - destruct C as [C|[->|[->|C]]]; [left; specialize (Z1 C); lia|right; auto|left; lia|left; specialize (Z2 C); lia].
  - destruct C as [C|[->|[->|C]]]; [left; specialize (Z1 C); lia|left; lia|right; auto|left; specialize (Z2 C); lia].
  - destruct C as [C|[->|[->|C]]]; [left; specialize (Z1 C); lia|right; auto|right; split; [lia|auto]|left; specialize (Z2 C); lia].
  - assert (F1 : Z.even (q + 1) = true) by (rewrite Z.add_1_r, Z.even_succ, <- Z.negb_even, F; reflexivity).
    destruct C as [C|[->|[->|C]]]; [left; specialize (Z1 C); lia|right; split; [lia|auto]|right; auto|left; specialize (Z2 C); lia].
Qed.
Lemma quo_range a : 23 < Z.log2 a -> 2 ^ 23 <= quo a (Z.log2 a - 23) <= 2 ^ 24
  /\ 2 ^ 23 <= a / 2 ^ (Z.log2 a - 23) < 2 ^ 24.
Proof.
  intros H. assert (0 < a) by (destruct (Z.leb_spec a 0); [rewrite Z.log2_nonpos in H; lia|lia]).
  pose proof (Z.log2_spec a ltac:(lia)) as L. set (b := Z.log2 a - 23) in *.
  assert (0 < 2 ^ b) by (apply Z.pow_pos_nonneg; lia).
  assert (Q : 2 ^ 23 <= a / 2 ^ b < 2 ^ 24).
  { split.
    - apply Z.div_le_lower_bound; [lia|]. rewrite <- pow_split by lia. replace (b + 23) with (Z.log2 a) by lia. lia.
    - apply Z.div_lt_upper_bound; [lia|]. rewrite <- pow_split by lia. replace (b + 24) with (Z.succ (Z.log2 a)) by lia. lia. }
  split; auto. unfold quo. repeat (match goal with |- context [if ?x then _ else _] => destruct x end); lia.
Qed.

(** Mantissa and exponent of the rounded number. *)
Lemma rnd_shape a : 0 < a -> let e := Z.log2 (rnd_int a) - 23 in
  2 ^ 23 <= mant a < 2 ^ 24 /\ -23 <= e <= Z.log2 a - 22 /\ units (mant a) e = rnd_int a * 2 ^ 149
  /\ (23 < Z.log2 a -> Z.even (quo a (Z.log2 a - 23)) = true -> Z.even (mant a) = true).
Proof.
  intros Ha. cbv zeta. destruct (Z.le_gt_cases (Z.log2 a) 23) as [H|H].
  - unfold mant. rewrite (low_exact a Ha H). pose proof (Z.log2_nonneg a). pose proof (Z.log2_spec a Ha) as L.
    replace (Z.log2 a - 23 <=? 0) with true by lia. replace (- (Z.log2 a - 23)) with (23 - Z.log2 a) by lia.
    assert (0 < 2 ^ (23 - Z.log2 a)) by (apply Z.pow_pos_nonneg; lia).
    assert (E1 : 2 ^ Z.log2 a * 2 ^ (23 - Z.log2 a) = 2 ^ 23) by (rewrite <- pow_split by lia; f_equal; lia).
    assert (E2 : 2 ^ Z.succ (Z.log2 a) * 2 ^ (23 - Z.log2 a) = 2 ^ 24) by (rewrite <- pow_split by lia; f_equal; lia).
    split; [split; [rewrite <- E1|rewrite <- E2]; nia|]. split; [lia|]. split; [|lia].
    unfold units. rewrite <- Z.mul_assoc, <- pow_split by lia. do 2 f_equal. lia.
  - destruct (quo_range a H) as (Q & _). set (b := Z.log2 a - 23) in *. unfold mant. rewrite (high_quo a H). fold b.
    set (q := quo a b) in *. assert (0 < 2 ^ b) by (apply Z.pow_pos_nonneg; lia).
    destruct (Z.eq_dec q (2 ^ 24)) as [Eq|Nq].
    + rewrite Eq. rewrite <- pow_split by lia. rewrite Z.log2_pow2 by lia.
      replace (24 + b - 23 <=? 0) with false by lia.
      replace (2 ^ (24 + b) / 2 ^ (24 + b - 23)) with (2 ^ 23).
      2: { replace (24 + b) with (23 + (24 + b - 23)) at 1 by lia. rewrite pow_split by lia.
           rewrite Z.div_mul; [reflexivity|]. apply Z.pow_nonzero; lia. }
      split; [lia|]. split; [lia|]. split; [|reflexivity]. unfold units. rewrite <- !pow_split by lia. f_equal. lia.
    + assert (LQ : Z.log2 q = 23) by (apply Z.log2_unique; lia).
      assert (LG : Z.log2 (q * 2 ^ b) = 23 + b) by (rewrite Z.log2_mul_pow2 by lia; lia).
      rewrite LG. replace (23 + b - 23) with b by lia. replace (b <=? 0) with false by lia.
      rewrite Z.div_mul by lia. split; [lia|]. split; [lia|]. split; [|auto].
      unfold units. rewrite pow_split by lia. ring.
Qed.

Lemma mod_pat x m : 0 <= m < 2 ^ 23 -> (x * 2 ^ 23 + m) mod 2 ^ 23 = m.
Proof. intros. rewrite Z.add_comm, Z.mod_add by lia. apply Z.mod_small; lia. Qed.
Lemma pattern_denotes (neg : bool) m e : 2 ^ 23 <= m < 2 ^ 24 -> -149 <= e <= 104 ->
  let p := (if neg then 2 ^ 31 else 0) + (e + 150) * 2 ^ 23 + (m - 2 ^ 23) in
  0 <= p < 2 ^ 32 /\ f32_denotes p ((if neg then -1 else 1) * m) e.
Proof.
  intros Hm He p. assert (E1 : p = ((if neg then 2 ^ 8 else 0) + (e + 150)) * 2 ^ 23 + (m - 2 ^ 23)) by (subst p; destruct neg; lia).
  assert (B : 0 <= p < 2 ^ 32) by (subst p; destruct neg; lia). split; [exact B|].
  assert (D : p / 2 ^ 23 = (if neg then 2 ^ 8 else 0) + (e + 150)).
  { rewrite E1. rewrite Z.div_add_l by lia. rewrite (Z.div_small (m - 2 ^ 23)) by lia. lia. }
  assert (D2 : (p / 2 ^ 23) mod 2 ^ 8 = e + 150).
  { rewrite D. destruct neg; [|apply Z.mod_small; lia].
    replace (2 ^ 8 + (e + 150)) with (e + 150 + 1 * 2 ^ 8) by lia. rewrite Z.mod_add by lia. apply Z.mod_small; lia. }
  assert (D3 : p mod 2 ^ 23 = m - 2 ^ 23) by (rewrite E1; apply mod_pat; lia).
  unfold f32_denotes. rewrite D2, D3. split; [lia|]. replace (e + 150 =? 0) with false by lia.
  assert (S1 : (p <? 2 ^ 31) = negb neg) by (subst p; destruct neg; simpl negb; lia).
  rewrite S1. destruct neg; simpl negb; cbv iota; lia.
Qed.

(** Every single is a mantissa below 2^24 times a power of two not below 2^-149. *)
Lemma denotes_bounds p m e : f32_denotes p m e -> -149 <= e /\ Z.abs m < 2 ^ 24.
Proof.
  unfold f32_denotes. intros (H1 & H2).
  assert (0 <= (p / 2 ^ 23) mod 2 ^ 8 < 2 ^ 8) by (apply Z.mod_pos_bound; lia).
  assert (0 <= p mod 2 ^ 23 < 2 ^ 23) by (apply Z.mod_pos_bound; lia).
  destruct ((p / 2 ^ 23) mod 2 ^ 8 =? 0) eqn:E0; destruct H2 as (-> & ->); destruct (p <? 2 ^ 31); lia.
Qed.

(** Distances from a positive number to its rounding and to any other single. *)
Lemma rnd_near a m e : 0 < a -> -149 <= e -> Z.abs m < 2 ^ 24 ->
  let d := Z.abs (rnd_int a * 2 ^ 149 - a * 2 ^ 149) in
  let d' := Z.abs (units m e - a * 2 ^ 149) in
  d < d' \/ (d = d' /\ (units m e = rnd_int a * 2 ^ 149 \/ Z.even (mant a) = true)).
Proof.
  intros Ha He Hm. cbv zeta. destruct (Z.le_gt_cases (Z.log2 a) 23) as [H|H].
  { rewrite (low_exact a Ha H). lia. }
  destruct (quo_range a H) as (Q & Q0). destruct (rnd_shape a Ha) as (_ & _ & _ & EV). specialize (EV H).
  rewrite (high_quo a H). set (b := Z.log2 a - 23) in *. set (U := 2 ^ 149). assert (0 < U) by (unfold U; lia).
  assert (HP : 0 < 2 ^ b) by (apply Z.pow_pos_nonneg; lia).
  destruct (Z.le_gt_cases (2 ^ Z.log2 a * U) (units m e)) as [G|G].
  - assert (Hb : b <= e).
    { destruct (Z.le_gt_cases b e); auto. exfalso. unfold units in G.
      assert (2 ^ (e + 149) <= 2 ^ (b - 1 + 149)) by (apply Z.pow_le_mono_r; lia).
      assert (0 < 2 ^ (e + 149)) by (apply Z.pow_pos_nonneg; lia).
      assert (EQ : 2 ^ Z.log2 a * U = 2 ^ 24 * 2 ^ (b - 1 + 149)) by (unfold U; rewrite <- !pow_split by lia; f_equal; lia).
      rewrite EQ in G. nia. }
    assert (EU : units m e = m * 2 ^ (e - b) * 2 ^ b * U).
    { unfold units, U. rewrite <- !Z.mul_assoc. f_equal. rewrite <- !pow_split by lia. f_equal. lia. }
    rewrite EU. destruct (quo_best a b (m * 2 ^ (e - b)) ltac:(lia)) as [A|(A & B)].
    + left. rewrite <- !Z.mul_sub_distr_r, !Z.abs_mul. rewrite (Z.abs_eq U) by lia. nia.
    + right. rewrite <- !Z.mul_sub_distr_r, !Z.abs_mul, A. split; auto. destruct B as [B|B]; [left; rewrite B; auto|right; auto].
  - left. pose proof (Z.log2_spec a Ha) as L.
    assert (D : Z.abs (quo a b * 2 ^ b - a) <= a - 2 ^ Z.log2 a).
    { destruct (quo_best a b (2 ^ 23) ltac:(lia)) as [A|(A & _)];
        rewrite <- pow_split in A by lia; replace (23 + b) with (Z.log2 a) in A by lia; lia. }
    rewrite <- Z.mul_sub_distr_r, Z.abs_mul, (Z.abs_eq U) by lia. nia.
Qed.

Lemma units_opp m e : units (- m) e = - units m e.
Proof. unfold units. ring. Qed.
Lemma f32_of_int_shape z : z <> 0 -> f32_of_int z = (if z <? 0 then 2 ^ 31 else 0) + (Z.log2 (rnd_int (Z.abs z)) - 23 + 150) * 2 ^ 23 + (mant (Z.abs z) - 2 ^ 23).
Proof. intros H. unfold f32_of_int. replace (z =? 0) with false by lia. reflexivity. Qed.
Lemma log2_small a : 0 < a < 2 ^ 64 -> Z.log2 a < 64.
Proof. intros. apply Z.log2_lt_pow2; lia. Qed.

Lemma f32_of_int_nearest z : Z.abs z < 2 ^ 64 -> nearest z (f32_of_int z) /\ 0 <= f32_of_int z < 2 ^ 32.
Proof.
  intros Hz. destruct (Z.eq_dec z 0) as [->|N].
  - split; [|vm_compute; split; congruence]. exists 0, (-149). split; [vm_compute; repeat split; discriminate|].
    intros p m e _ _. cbv zeta. change (units 0 (-149)) with 0. change (units 0 0) with 0. rewrite Z.sub_0_r. simpl Z.abs at 1 2.
    destruct (Z.eq_dec (units m e) 0); lia.
  - set (a := Z.abs z) in *. assert (Ha : 0 < a) by lia. destruct (rnd_shape a Ha) as (M & B & UN & _).
    pose proof (log2_small a ltac:(lia)). rewrite (f32_of_int_shape z N). fold a.
    destruct (pattern_denotes (z <? 0) (mant a) (Z.log2 (rnd_int a) - 23) M ltac:(lia)) as (P1 & P2).
    split; [|exact P1]. do 2 eexists. split; [exact P2|]. intros p' m' e' _ D'. destruct (denotes_bounds _ _ _ D') as (A1 & A2).
    cbv zeta. assert (E0 : units z 0 = z * 2 ^ 149) by reflexivity. rewrite E0.
    destruct (z <? 0) eqn:HS.
    + replace (-1 * mant a) with (- mant a) by lia. rewrite units_opp, UN, Z.even_opp.
      destruct (rnd_near a (- m') e' Ha A1 ltac:(lia)) as [A|(A & A3)]; rewrite units_opp in *;
        assert (z = - a) by lia; clearbody a; subst z; [left; lia|right; split; [lia|destruct A3 as [A3|A3]; [left; lia|right; exact A3]]].
    + replace (1 * mant a) with (mant a) by lia. rewrite UN.
      destruct (rnd_near a m' e' Ha A1 A2) as [A|(A & A3)]; assert (z = a) by lia; clearbody a; subst z; [left; auto|right; auto].
Qed.
Lemma nearest_exact z p : Z.abs z <= 2 ^ 24 -> nearest z p -> exists m e, f32_denotes p m e /\ units m e = units z 0.
Proof.
  intros Hz (m & e & D & H). exists m, e. split; auto.
  assert (X : exists p' m' e', 0 <= p' < 2 ^ 32 /\ f32_denotes p' m' e' /\ units m' e' = units z 0).
  { destruct (Z.eq_dec z 0) as [->|N].
    { exists 0, 0, (-149). split; [lia|]. split; [vm_compute; repeat split; discriminate|reflexivity]. }
    set (a := Z.abs z) in *. assert (Ha : 0 < a) by lia. destruct (rnd_shape a Ha) as (M & B & UN & _).
    assert (L : Z.log2 a <= 24) by (apply Z.log2_le_mono in Hz; rewrite Z.log2_pow2 in Hz; lia).
    destruct (pattern_denotes (z <? 0) (mant a) (Z.log2 (rnd_int a) - 23) M ltac:(lia)) as (P1 & P2).
    do 3 eexists. split; [exact P1|]. split; [exact P2|].
    assert (R : rnd_int a = a).
    { destruct (Z.le_gt_cases (Z.log2 a) 23); [apply low_exact; auto|].
      pose proof (Z.log2_spec a Ha). assert (Z.log2 a = 24) as L24 by lia. rewrite L24 in *.
      assert (a = 2 ^ 24) as -> by lia. reflexivity. }
    rewrite R in UN. assert (E0 : units z 0 = z * 2 ^ 149) by reflexivity. rewrite R, E0. destruct (z <? 0) eqn:HS.
    - replace (-1 * mant a) with (- mant a) by lia. rewrite units_opp, UN. lia.
    - replace (1 * mant a) with (mant a) by lia. rewrite UN. lia. }
  destruct X as (p' & m' & e' & B & D' & E'). specialize (H p' m' e' B D'). cbv zeta in H. rewrite E' in H. lia.
Qed.
