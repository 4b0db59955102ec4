(** Facts about the figures of single cells. *)
From Coq Require Import String.
From Verif Require Export PrintFacts.
Open Scope list_scope.
Open Scope Z_scope.

(** ** Numbers *)

Lemma dec_figures z : 0 <= z < 10 ^ 10 -> figures (dec z) /\ figures_value (dec z) = z.
Proof.
  intros B. destruct (digits_of_spec 9 z []) as (ds & E & F & V); [lia|exact (proj2 B)|]. unfold dec. rewrite E, app_nil_r. auto.
Qed.
Lemma digits_len_le k : forall f z acc, 0 <= z < 10 ^ Z.of_nat (S k) -> (length (digits_of f z acc) <= S k + length acc)%nat.
Proof.
  induction k as [|k IH]; intros f z acc B; destruct f as [|f]; cbn [digits_of]; try lia.
  - change (10 ^ Z.of_nat 1) with 10 in B. rewrite (proj2 (Z.ltb_lt _ _)) by lia. simpl. lia.
  - destruct (Z.ltb_spec z 10); [simpl; lia|]. rewrite Nat2Z.inj_succ, Z.pow_succ_r in B by lia.
    specialize (IH f (z / 10) (48 + z mod 10 :: acc)). cbn [length] in IH. assert (0 <= z / 10 < 10 ^ Z.of_nat (S k)) by (split; [apply Z.div_pos; lia|apply Z.div_lt_upper_bound; lia]).
    specialize (IH ltac:(assumption)). lia.
Qed.
Lemma digits_len_ge k : forall f z acc, (k < f)%nat -> 10 ^ Z.of_nat k <= z -> (S k + length acc <= length (digits_of f z acc))%nat.
Proof.
  induction k as [|k IH]; intros f z acc F B; (destruct f as [|f]; [lia|]); cbn [digits_of].
  - destruct (z <? 10); [simpl; lia|]. clear B F. revert z acc. induction f as [|f IHf]; intros z acc; [simpl; lia|]. remember (48 + z mod 10 :: acc) as acc'. assert (L : length acc' = S (length acc)) by now subst. cbn [digits_of].
    destruct (z / 10 <? 10); [simpl; lia|]. specialize (IHf (z / 10) acc'). lia.
  - rewrite Nat2Z.inj_succ, Z.pow_succ_r in B by lia. destruct (Z.ltb_spec z 10) as [L|L].
    + assert (0 < 10 ^ Z.of_nat k) by (apply Z.pow_pos_nonneg; lia). lia.
    + specialize (IH f (z / 10) (48 + z mod 10 :: acc)). cbn [length] in IH. assert (10 ^ Z.of_nat k <= z / 10) by (apply Z.div_le_lower_bound; lia). specialize (IH ltac:(lia) ltac:(lia)). lia.
Qed.
Lemma dec_len_le k z : 0 <= z < 10 ^ Z.of_nat (S k) -> (length (dec z) <= S k)%nat.
Proof. intros B. unfold dec. pose proof (digits_len_le k 10 z [] B) as L. cbn [length] in L. lia. Qed.
Lemma dec_len_ge k z : (k < 10)%nat -> 10 ^ Z.of_nat k <= z -> (S k <= length (dec z))%nat.
Proof. intros K B. unfold dec. pose proof (digits_len_ge k 10 z [] K B) as L. cbn [length] in L. lia. Qed.
Lemma dec_len_pos z : (1 <= length (dec z))%nat.
Proof.
  assert (G : forall f z acc, (length acc <= length (digits_of f z acc))%nat).
  { clear. induction f as [|f IH]; intros z acc; cbn [digits_of]; auto. destruct (z <? 10); [simpl; lia|]. specialize (IH (z / 10) (48 + z mod 10 :: acc)). cbn [length] in IH. lia. }
  unfold dec. change (digits_of 10 z []) with (if z <? 10 then [48 + z mod 10] else digits_of 9 (z / 10) [48 + z mod 10]). destruct (z <? 10); [simpl; lia|]. specialize (G 9%nat (z / 10) [48 + z mod 10]). exact G.
Qed.
Lemma value_noughts k ds : figures_value (noughts k ++ ds) = figures_value ds.
Proof. unfold figures_value. rewrite fold_left_app. f_equal. induction k as [|k IH]; auto. Qed.
Lemma figures_noughts k ds : figures ds -> figures (noughts k ++ ds).
Proof.
  intros [A B]. split; [intros E; apply app_eq_nil in E; tauto|]. apply Forall_app. split; auto. apply Forall_forall. intros x X. apply repeat_spec in X. lia.
Qed.
Lemma sdec_decimal z : - 10 ^ 10 < z < 10 ^ 10 -> decimal (sdec z) z.
Proof.
  intros B. unfold decimal, sdec. destruct (Z.ltb_spec z 0).
  - right. split; auto. exists (dec (- z)). destruct (dec_figures (- z)) as [F V]; [lia|]. auto.
  - left. destruct (dec_figures z) as [F V]; [lia|]. auto.
Qed.
Lemma pad_decimal n z : - 10 ^ 10 < z < 10 ^ 10 -> decimal (pad n z) z /\ (n <= length (pad n z) <= Nat.max n 11)%nat.
Proof.
  intros B. unfold decimal, pad. destruct (dec_figures (Z.abs z)) as [F V]; [lia|]. pose proof (dec_len_pos (Z.abs z)) as P.
  pose proof (dec_len_le 9 (Z.abs z)) as L. change (10 ^ Z.of_nat 10) with (10 ^ 10) in L. specialize (L ltac:(lia)). destruct (Z.ltb_spec z 0).
  - split.
    + right. split; auto. eexists. split; [reflexivity|]. split; [now apply figures_noughts|]. rewrite value_noughts. lia.
    + cbn [length]. rewrite app_length. unfold noughts. rewrite repeat_length. lia.
  - split.
    + left. split; auto. split; [now apply figures_noughts|]. rewrite value_noughts. lia.
    + rewrite app_length. unfold noughts. rewrite repeat_length. lia.
Qed.
Lemma pad4_len z : -999 <= z <= 9999 -> length (pad 4 z) = 4%nat.
Proof.
  intros B. unfold pad. pose proof (dec_len_pos (Z.abs z)) as P. destruct (Z.ltb_spec z 0).
  - pose proof (dec_len_le 2 (Z.abs z)) as L. change (10 ^ Z.of_nat 3) with 1000 in L. specialize (L ltac:(lia)). cbn [length]. rewrite app_length. unfold noughts. rewrite repeat_length. lia.
  - pose proof (dec_len_le 3 (Z.abs z)) as L. change (10 ^ Z.of_nat 4) with 10000 in L. specialize (L ltac:(lia)). rewrite app_length. unfold noughts. rewrite repeat_length. lia.
Qed.
Lemma i32_small z : - 10 ^ 10 < i32 z < 10 ^ 10.
Proof. unfold i32. pose proof (Z.mod_pos_bound (z + 2 ^ 31) (2 ^ 32)). lia. Qed.
Lemma module_range v : 0 <= v_module v < 256.
Proof. unfold v_module. pose proof (Z.mod_pos_bound (u32 (v_raw v)) (2 ^ 8)). lia. Qed.
Lemma port_range v : 0 <= v_port v < 256.
Proof. unfold v_port. pose proof (Z.mod_pos_bound (u32 (v_raw v) / 2 ^ 8) (2 ^ 8)). lia. Qed.
Lemma ftos_ok z : u32 z mod 2 ^ 31 <= 2139095040 -> exists s, ftos z = Ok s /\ (length s <= 11)%nat.
Proof.
  intros B. unfold ftos. rewrite (proj2 (Z.ltb_ge _ _) B). destruct (1232348160 <? _); [eexists; split; [reflexivity|simpl; lia]|].
  destruct (_ <=? rnd24 _); eexists; (split; [reflexivity|]); rewrite firstn_length; apply Nat.le_min_l.
Qed.

(** ** Lines *)

Lemma stands_cut p k s : stands_at p k s -> (k + length s <= 31)%nat -> stands_at (cut p) k s.
Proof.
  intros (a & b & -> & <-) L. exists a, (firstn (31 - length a - length s) b). split; auto. unfold cut. rewrite firstn_app, firstn_app, !firstn_all2 by lia. reflexivity.
Qed.
Lemma length_cut p : length p = 19%nat -> length (cut p) = 19%nat.
Proof. intros L. unfold cut. rewrite firstn_all2; auto. lia. Qed.
Lemma cut_nonempty p : p <> [] -> cut p <> [].
Proof. destruct p; [congruence|discriminate]. Qed.
Lemma stands_nonempty p k s : stands_at p k s -> (0 < k)%nat -> p <> [].
Proof. intros (a & b & -> & <-) L E. destruct a; [simpl in L; lia|discriminate]. Qed.
Lemma stands_here a s b : stands_at (a ++ s ++ b) (length a) s.
Proof. now exists a, b. Qed.

(** A line with an operand. *)
Definition op_line (sh : list Z -> Prop) (nw : Prop) (p : list Z) : Prop :=
  exists s, sh s /\ stands_at p 5 s /\ (length s <= 26)%nat /\ (nw -> length p = 19%nat).
Lemma op_line_cut sh nw p : op_line sh nw p -> op_line sh nw (cut p).
Proof. intros (s & A & B & C & D). exists s. split; auto. split; [apply stands_cut; auto; lia|]. split; auto. intros N. apply length_cut. auto. Qed.
Lemma op_line_nonempty sh nw p : op_line sh nw p -> p <> [].
Proof. intros (s & _ & B & _). eapply stands_nonempty; eauto. lia. Qed.
Lemma type_graph_ok v : match v_type v with R_OTHER _ => False | _ => True end -> type_graph v = Ok (txt (type_name (v_type v))).
Proof. unfold type_graph. destruct (v_type v); intros H; try contradiction; reflexivity. Qed.
Lemma type_name_len t : match t with R_OTHER _ => False | _ => True end -> length (txt (type_name t)) = 2%nat.
Proof. destruct t; intros H; try contradiction; reflexivity. Qed.
(** How long operands are where there is room for [w] characters of an input or output. *)
Definition fits_room (ok : nat -> Prop) (v : value) : Prop :=
  match v_type v with
  | R_S => exists t, v_str v = Some t /\ (10 <= length t)%nat
  | R_R => False
  | R_I | R_Q => ok (length (sdec (v_module v)) + length (sdec (v_port v)))%nat
  | _ => -999 <= i32 (v_raw v) <= 9999
  end.
Lemma small_len v : (length (sdec (v_module v)) <= 3 /\ length (sdec (v_port v)) <= 3 /\ 1 <= length (sdec (v_module v)) /\ 1 <= length (sdec (v_port v)))%nat.
Proof.
  pose proof (module_range v) as M. pose proof (port_range v) as P. unfold sdec. rewrite (proj2 (Z.ltb_ge _ _) (proj1 M)), (proj2 (Z.ltb_ge _ _) (proj1 P)).
  pose proof (dec_len_le 2 (v_module v)) as A. pose proof (dec_len_le 2 (v_port v)) as B. change (10 ^ Z.of_nat 3) with 1000 in A, B. specialize (A ltac:(lia)). specialize (B ltac:(lia)).
  pose proof (dec_len_pos (v_module v)). pose proof (dec_len_pos (v_port v)). lia.
Qed.
(** The text of an operand without its frame. *)
Lemma small_shown v : match v_type v with R_I | R_Q | R_R => True | _ => False end -> writable v -> exists a, small_text v = Ok a /\ (length a <= 11)%nat /\ (v_type v <> R_R -> 3 <= length a)%nat
  /\ operand_shown v (txt (type_name (v_type v)) ++ gaps 1 ++ a) /\ (v_type v <> R_R -> length a = length (sdec (v_module v)) + length (sdec (v_port v)) + 1)%nat.
Proof.
  intros T W. pose proof (module_range v). pose proof (port_range v). pose proof (small_len v) as (A & B & C & D). unfold small_text, writable, operand_shown in *. destruct (v_type v) eqn:E; try contradiction.
  - exists (sdec (v_module v) ++ 46 :: sdec (v_port v)). rewrite app_length. cbn [length]. split; auto. split; [lia|]. split; [lia|]. split; [|lia]. exists (sdec (v_module v)), (sdec (v_port v)). repeat split; apply sdec_decimal; lia.
  - exists (sdec (v_module v) ++ 46 :: sdec (v_port v)). rewrite app_length. cbn [length]. split; auto. split; [lia|]. split; [lia|]. split; [|lia]. exists (sdec (v_module v)), (sdec (v_port v)). repeat split; apply sdec_decimal; lia.
  - destruct (ftos_ok _ W) as (s & F & L). exists s. split; auto. split; auto. split; [congruence|]. split; [|congruence]. exists s. auto.
Qed.
Lemma number_shown v t : match t with R_S | R_I | R_Q | R_R | R_OTHER _ => False | _ => True end -> v_type v = t -> operand_shown v (txt (type_name t) ++ gaps 1 ++ pad 4 (i32 (v_raw v))).
Proof.
  intros T E. pose proof (pad_decimal 4 (i32 (v_raw v)) (i32_small _)) as [D [D2 D3]]. unfold operand_shown. rewrite E. destruct t; try contradiction; exists (pad 4 (i32 (v_raw v))); auto.
Qed.
Lemma number_len v t : match t with R_OTHER _ => False | _ => True end ->
  (length (txt (type_name t) ++ gaps 1 ++ pad 4 (i32 (v_raw v))) <= 14)%nat /\ (-999 <= i32 (v_raw v) <= 9999 -> length (txt (type_name t) ++ gaps 1 ++ pad 4 (i32 (v_raw v))) = 7%nat).
Proof.
  intros T. pose proof (pad_decimal 4 (i32 (v_raw v)) (i32_small _)) as [D [D2 D3]]. change (Nat.max 4 11) with 11%nat in D3. rewrite !app_length, type_name_len by auto.
  change (length (gaps 1)) with 1%nat. split; [lia|]. intros F. rewrite (pad4_len _ F). reflexivity.
Qed.
Lemma cstr_ok v : v_type v = R_S -> writable v -> exists s, cstr_of v = Ok s /\ operand_shown v s /\ (length s <= 10)%nat /\ ((exists t, v_str v = Some t /\ (10 <= length t)%nat) -> length s = 10%nat).
Proof.
  unfold writable, operand_shown, cstr_of. intros -> W. destruct (v_str v) as [t|]; [|congruence]. exists (firstn 10 t). rewrite firstn_length. split; auto. split; [eauto|]. split; [lia|].
  intros (t' & E & L). injection E as <-. lia.
Qed.
Lemma framed left e s (sh : list Z -> Prop) (nw : Prop) : length left = 5%nat -> sh s -> (length s <= 26)%nat -> (nw -> length s + length e = 14)%nat -> op_line sh nw (left ++ s ++ e).
Proof. intros L A B C. exists s. split; auto. split; [rewrite <- L; apply stands_here|]. split; auto. intros D. apply C in D. rewrite !app_length, L. lia. Qed.
Lemma box_ok left right gap v : writable v -> length left = 3%nat -> length right = 2%nat -> exists p, box left right gap v = Ok p
  /\ op_line (operand_shown v) (fits_room (fun k => k + gap = 7)%nat v) p.
Proof.
  intros W L R. assert (L5 : length (left ++ txt "| ") = 5%nat) by (rewrite app_length, L; reflexivity). unfold box. destruct (v_type v) eqn:T.
  all: try (unfold writable in W; rewrite T in W; contradiction).
  all: try (match type of T with _ = ?t =>
    rewrite type_graph_ok by (rewrite T; exact I); rewrite T; cbn [rbind]; eexists; split; [reflexivity|];
    pose proof (framed (left ++ txt "| ") (gaps 4 ++ txt "|" ++ right) _ (operand_shown v) (fits_room (fun k => k + gap = 7)%nat v) L5 (number_shown v t I T)) as Q; rewrite <- !app_assoc in Q; apply Q;
    [pose proof (proj1 (number_len v t I)) as Q1; eapply Nat.le_trans; [exact Q1|lia]
    |unfold fits_room; rewrite T; intros F; rewrite (proj2 (number_len v t I) F), !app_length, R; reflexivity] end).
  all: try (destruct (small_shown v) as (a & E & A & B & C & D); [rewrite T; exact I|exact W|]; rewrite E, type_graph_ok by (rewrite T; exact I); rewrite T in *; cbn [rbind]; eexists; split; [reflexivity|];
    pose proof (framed (left ++ txt "| ") (gaps gap ++ txt "|" ++ right) _ (operand_shown v) (fits_room (fun k => k + gap = 7)%nat v) L5 C) as Q; rewrite <- !app_assoc in Q; apply Q;
    [rewrite !app_length; change (length (txt (type_name R_Q))) with 2%nat; change (length (txt (type_name R_I))) with 2%nat; change (length (txt (type_name R_R))) with 2%nat; change (length (gaps 1)) with 1%nat; lia
    |unfold fits_room; rewrite T; intros F; try contradiction; rewrite !app_length, R, D by discriminate;
      change (length (txt (type_name R_Q))) with 2%nat; change (length (txt (type_name R_I))) with 2%nat; change (length (gaps 1)) with 1%nat; change (length (txt "|")) with 1%nat; unfold gaps; rewrite repeat_length; lia]).
  destruct (cstr_ok v T W) as (s & E & A & B & C). rewrite E. cbn [rbind]. eexists; split; [reflexivity|].
  pose proof (framed (left ++ txt "| ") (txt " |" ++ right) _ (operand_shown v) (fits_room (fun k => k + gap = 7)%nat v) L5 A) as Q; rewrite <- !app_assoc in Q; apply Q; [lia|].
  unfold fits_room. rewrite T. intros F. rewrite (C F), app_length, R. reflexivity.
Qed.
Lemma timer_ok left right v : length left = 3%nat -> length right = 2%nat ->
  op_line (time_shown v) (-999 <= i32 (v_raw v) <= 9999 /\ basetime (v_type v) <> None) (timer_line left right v).
Proof.
  intros L R. assert (L5 : length (left ++ txt "| ") = 5%nat) by (rewrite app_length, L; reflexivity). pose proof (pad_decimal 4 (i32 (v_raw v)) (i32_small _)) as [D [D2 D3]]. change (Nat.max 4 11) with 11%nat in D3.
  set (t := reg_code (v_type v)). set (bt := if (0 <=? t) && (t <=? 4) then nth (Z.to_nat t) basetime_graph [] else txt "INV   ").
  assert (BT : exists e, bt = txt (base_name (v_type v)) ++ e /\ (length (txt (base_name (v_type v))) <= 5)%nat /\ (basetime (v_type v) <> None -> length bt = 5%nat)).
  { unfold bt, base_name, basetime. fold t. clearbody t. destruct (Z.leb_spec 0 t), (Z.leb_spec t 4); cbn [andb].
    - assert (C : t = 0 \/ t = 1 \/ t = 2 \/ t = 3 \/ t = 4) by lia. destruct C as [->|[->|[->|[->| ->]]]]; (eexists; split; [reflexivity|]; split; [vm_compute; lia|reflexivity]).
    - exists (gaps 3). destruct t as [|[[|[]|]|[|[]|]|]|]; try lia; (split; [reflexivity|]; split; [vm_compute; lia|congruence]).
    - exists (gaps 3). destruct t as [|t|t]; try lia. split; [reflexivity|]. split; [vm_compute; lia|congruence].
    - lia. }
  destruct BT as (e & E & LE & BL).
  pose proof (framed (left ++ txt "| ") (e ++ txt " |" ++ right) (pad 4 (i32 (v_raw v)) ++ 32 :: txt (base_name (v_type v))) (time_shown v) (-999 <= i32 (v_raw v) <= 9999 /\ basetime (v_type v) <> None) L5) as Q.
  unfold timer_line. fold t. fold bt. rewrite E. rewrite <- !app_assoc in *. apply Q.
  - exists (pad 4 (i32 (v_raw v))). auto.
  - rewrite app_length. cbn [length]. lia.
  - intros [F G]. apply BL in G. rewrite E, app_length in G. rewrite !app_length, (pad4_len _ F), R. cbn [length]. change (length (txt " |")) with 2%nat. lia.
Qed.
Lemma one_row_ok i dq data sb : length sb = 1%nat -> ((0 < dq)%nat -> exists v, elem data 0 = Some v /\ writable v) ->
  exists p, one_row_line i dq data sb = Ok p /\ p <> []
    /\ (i <> I_CONN -> forall v, (0 < dq)%nat -> elem data 0 = Some v -> op_line (operand_shown v) (fits_room (fun k => k <= 3)%nat v) p)
    /\ ((forall v, (0 < dq)%nat -> elem data 0 = Some v -> fits_room (fun k => k <= 3)%nat v) -> length p = 19%nat).
Proof.
  intros S1 H. unfold one_row_line. destruct (Nat.eqb_spec dq 0) as [->|N].
  { eexists. split; [reflexivity|]. split; [discriminate|]. split; [intros; lia|]. intros _. rewrite app_length, S1. reflexivity. }
  destruct (H ltac:(lia)) as (v & E & W). assert (P0 := pget_nth_elem data 0). change (Z.of_nat 0) with 0 in P0. rewrite P0, E. cbn [rbind]. clear P0.
  assert (G : forall t, t <> [] -> op_line (operand_shown v) (fits_room (fun k => k <= 3)%nat v) t -> 
    t <> [] /\ (i <> I_CONN -> forall v0, (0 < dq)%nat -> Some v = Some v0 -> op_line (operand_shown v0) (fits_room (fun k => k <= 3)%nat v0) t)
    /\ ((forall v0, (0 < dq)%nat -> Some v = Some v0 -> fits_room (fun k => k <= 3)%nat v0) -> length t = 19%nat)).
  { intros t T L. split; auto. split; [intros _ v0 _ [= <-]; auto|]. intros F. destruct L as (s & _ & _ & _ & L). apply L. apply F; auto; lia. }
  assert (NUM : forall t, match t with R_S | R_I | R_Q | R_R | R_OTHER _ => False | _ => True end -> v_type v = t ->
    op_line (operand_shown v) (fits_room (fun k => k <= 3)%nat v) (gaps 5 ++ txt (type_name t) ++ gaps 1 ++ pad 4 (i32 (v_raw v)) ++ gaps 6 ++ sb)).
  { intros t T0 T. assert (T1 : match t with R_OTHER _ => False | _ => True end) by (destruct t; tauto).
    pose proof (framed (gaps 5) (gaps 6 ++ sb) _ (operand_shown v) (fits_room (fun k => k <= 3)%nat v) eq_refl (number_shown v t T0 T)) as Q. rewrite <- !app_assoc in Q. apply Q.
    - pose proof (proj1 (number_len v t T1)). lia.
    - unfold fits_room. rewrite T. intros F. assert (F' : -999 <= i32 (v_raw v) <= 9999) by (destruct t; tauto). rewrite (proj2 (number_len v t T1) F'), app_length, S1. reflexivity. }
  destruct (v_type v) eqn:T.
  all: try (unfold writable in W; rewrite T in W; contradiction).
  all: try (match type of T with _ = ?t => specialize (NUM t I eq_refl) end; destruct i;
     try (rewrite type_graph_ok by (rewrite T; exact I); rewrite T; cbn [rbind]; eexists; split; [reflexivity|]; apply G; [discriminate|exact NUM]);
     (eexists; split; [reflexivity|]; split; [discriminate|]; split; [congruence|]; intros _; rewrite app_length, S1; reflexivity)).
  all: try (destruct (small_shown v) as (a & E1 & A & B & C & D); [rewrite T; exact I|exact W|]; rewrite E1, type_graph_ok by (rewrite T; exact I); rewrite T in *; cbn [rbind]; eexists; split; [reflexivity|]; apply G; [discriminate|];
    pose proof (framed (gaps 5) ((if (length a <? 4)%nat then gaps 1 else []) ++ gaps 6 ++ sb) _ (operand_shown v) (fits_room (fun k => k <= 3)%nat v) eq_refl C) as Q;
    assert (EQ : gaps 5 ++ txt (type_name (v_type v)) ++ gaps 1 ++ (if (length a <? 4)%nat then a ++ gaps 1 else a) ++ gaps 6 ++ sb = gaps 5 ++ (txt (type_name (v_type v)) ++ gaps 1 ++ a) ++ (if (length a <? 4)%nat then gaps 1 else []) ++ gaps 6 ++ sb)
     by (destruct (length a <? 4)%nat; rewrite <- !app_assoc; reflexivity); rewrite T in EQ; rewrite EQ; clear EQ; apply Q;
    [rewrite !app_length; change (length (txt (type_name R_Q))) with 2%nat; change (length (txt (type_name R_I))) with 2%nat; change (length (txt (type_name R_R))) with 2%nat; change (length (gaps 1)) with 1%nat; lia
    |unfold fits_room; rewrite T; intros F; try contradiction; specialize (B ltac:(discriminate)); specialize (D ltac:(discriminate)); rewrite !app_length, S1;
      change (length (txt (type_name R_Q))) with 2%nat; change (length (txt (type_name R_I))) with 2%nat; change (length (gaps 1)) with 1%nat; change (length (gaps 6)) with 6%nat;
      destruct (Nat.ltb_spec (length a) 4); [change (length (gaps 1)) with 1%nat; lia|simpl; lia]]).
  destruct (cstr_ok v T W) as (s & E1 & A & B & C). rewrite E1. cbn [rbind]. eexists; split; [reflexivity|]. apply G; [discriminate|].
  pose proof (framed (gaps 5) (gaps 3 ++ sb) _ (operand_shown v) (fits_room (fun k => k <= 3)%nat v) eq_refl A) as Q; apply Q; [lia|].
  unfold fits_room. rewrite T. intros F. rewrite (C F), app_length, S1. reflexivity.
  destruct (small_shown v) as (a & E1 & A & B & C & D); [rewrite T; exact I|exact W|]. rewrite E1, type_graph_ok by (rewrite T; exact I). rewrite T in *. cbn [rbind]. eexists; split; [reflexivity|]. apply G; [discriminate|].
  pose proof (framed (gaps 5) ((if (length a <? 4)%nat then gaps 1 else []) ++ gaps 6 ++ sb) _ (operand_shown v) (fits_room (fun k => k <= 3)%nat v) eq_refl C) as Q.
    assert (EQ : gaps 5 ++ txt (type_name (v_type v)) ++ gaps 1 ++ (if (length a <? 4)%nat then a ++ gaps 1 else a) ++ gaps 6 ++ sb = gaps 5 ++ (txt (type_name (v_type v)) ++ gaps 1 ++ a) ++ (if (length a <? 4)%nat then gaps 1 else []) ++ gaps 6 ++ sb)
     by (destruct (length a <? 4)%nat; rewrite <- !app_assoc; reflexivity). rewrite T in EQ. rewrite EQ. clear EQ. apply Q.
    rewrite !app_length; change (length (txt (type_name R_Q))) with 2%nat; change (length (txt (type_name R_I))) with 2%nat; change (length (txt (type_name R_R))) with 2%nat; change (length (gaps 1)) with 1%nat; lia.
    unfold fits_room; rewrite T; intros F; try contradiction.
Qed.

(** ** Bars *)

Definition barb (nt : network) (r col : nat) : bool :=
  if (r <? n_rows nt)%nat && (col <? n_cols nt)%nat then match ncell nt r col with Some x => c_bar x | None => false end else false.
Definition celled (nt : network) : Prop := forall r col, (r < n_rows nt)%nat -> (col < n_cols nt)%nat -> exists x, ncell nt r col = Some x.
Lemma vertical_bar_ok nt r col : celled nt -> vertical_bar nt r col = Ok (barb nt r col).
Proof.
  intros H. unfold vertical_bar, barb. destruct (Nat.ltb_spec r (n_rows nt)), (Nat.ltb_spec col (n_cols nt)); cbn [andb]; auto.
  destruct (H r col) as (x & E); auto. rewrite (cell_in_of _ _ _ _ E), E. reflexivity.
Qed.
Lemma bar_below_ok nt r col : celled nt -> (n_rows nt <= 32)%nat -> (r < n_rows nt)%nat -> bar_below nt r col = Ok (barb nt (S r) col).
Proof.
  intros H S1 R. unfold bar_below. destruct (Z.ltb_spec (u32 (Z.of_nat (n_rows nt) - 2)) (Z.of_nat r)) as [L|L]; [|now apply vertical_bar_ok].
  unfold barb. rewrite (proj2 (Nat.ltb_ge (S r) (n_rows nt))); auto. unfold u32 in L. destruct (Nat.eq_dec (n_rows nt) 1) as [E|E].
  - rewrite E in L. vm_compute in L. destruct (Z.of_nat r) eqn:Q; lia.
  - rewrite Z.mod_small in L; lia.
Qed.
Lemma pin_out_ok nt r col : celled nt -> (n_rows nt <= 32)%nat -> (r < n_rows nt)%nat -> pin_out nt r col = Ok (txt (if barb nt r col || barb nt (S r) col then "-+" else "--")).
Proof.
  intros H S1 R. unfold pin_out. rewrite vertical_bar_ok by auto. cbn [rbind]. destruct (barb nt r col); cbn [rbind orb]; auto. rewrite bar_below_ok by auto. reflexivity.
Qed.
Lemma space_bar_ok nt r col : celled nt -> (n_rows nt <= 32)%nat -> (r < n_rows nt)%nat -> exists sb, space_bar nt r col = Ok sb /\ length sb = 1%nat.
Proof. intros H S1 R. unfold space_bar. rewrite bar_below_ok by auto. cbn [rbind]. eexists. split; [reflexivity|]. destruct (barb nt (S r) col); reflexivity. Qed.

(** ** Figures *)

Definition op_shown (i : ins) (j : nat) (v : value) : list Z -> Prop := if timer_code i && (j =? 1)%nat then time_shown v else operand_shown v.
Lemma narrow_box v j i : (j < 2)%nat -> timer_code i && (j =? 1)%nat = false -> forall h, (h = 2 \/ h = 3)%nat -> narrow i h j v -> fits_room (fun k => k + 4 = 7)%nat v.
Proof.
  intros J T h H N. unfold narrow in N. rewrite T in N. unfold fits_room. destruct (v_type v); auto.
  all: pose proof (module_range v); pose proof (port_range v); unfold sdec; rewrite !(proj2 (Z.ltb_ge _ _)) by lia;
    pose proof (dec_len_pos (v_module v)); pose proof (dec_len_pos (v_port v));
    pose proof (dec_len_le 0 (v_module v)); pose proof (dec_len_le 0 (v_port v)); pose proof (dec_len_le 1 (v_module v)); pose proof (dec_len_le 1 (v_port v));
    pose proof (dec_len_ge 1 (v_module v)); pose proof (dec_len_ge 1 (v_port v)); change (10 ^ Z.of_nat 1) with 10 in *; change (10 ^ Z.of_nat 2) with 100 in *.
  all: destruct H as [-> | ->]; destruct N as [[_ [N|N]]|[N _]]; lia.
Qed.
Lemma narrow_third v i : timer_code i = false -> narrow i 3 2 v -> fits_room (fun k => k + 1 = 7)%nat v.
Proof.
  intros T N. unfold narrow in N. rewrite T in N. cbn [andb] in N. unfold fits_room. destruct (v_type v); auto.
  all: pose proof (module_range v); pose proof (port_range v); unfold sdec; rewrite !(proj2 (Z.ltb_ge _ _)) by lia;
    pose proof (dec_len_le 2 (v_module v)); pose proof (dec_len_le 2 (v_port v));
    pose proof (dec_len_ge 2 (v_module v)); pose proof (dec_len_ge 2 (v_port v)); change (10 ^ Z.of_nat 3) with 1000 in *; change (10 ^ Z.of_nat 2) with 100 in *.
  all: destruct N as [[N _]|N]; lia.
Qed.
Lemma narrow_one v i : timer_code i = false -> narrow i 1 0 v -> fits_room (fun k => k <= 3)%nat v.
Proof.
  intros T N. unfold narrow in N. rewrite T in N. cbn [andb] in N. unfold fits_room. destruct (v_type v); auto.
  all: pose proof (module_range v); pose proof (port_range v); unfold sdec; rewrite !(proj2 (Z.ltb_ge _ _)) by lia;
    pose proof (dec_len_le 0 (v_module v)); pose proof (dec_len_le 0 (v_port v)); pose proof (dec_len_le 1 (v_module v)); pose proof (dec_len_le 1 (v_port v));
    change (10 ^ Z.of_nat 1) with 10 in *; change (10 ^ Z.of_nat 2) with 100 in *.
  all: destruct N as [N|N]; lia.
Qed.
Lemma op_line_weaken sh (nw nw' : Prop) p : op_line sh nw p -> (nw' -> nw) -> op_line sh nw' p.
Proof. intros (s & A & B & C & D) H. exists s. split; [exact A|]. split; [exact B|]. split; [exact C|]. intros X. apply D. apply H. exact X. Qed.
(** What is known about the lines below the first, [h] rows. *)
Record low_lines (i : ins) (h : nat) (x : cell) (ls : list (list Z)) : Prop := {
  ll_len : length ls = (2 * h - 1)%nat;
  ll_full : forall k, (k < 2 * h - 1)%nat -> nth k ls [] <> [];
  ll_ops : i <> I_CONN -> forall j v, (j < h)%nat -> (j < c_dq x)%nat -> elem (c_data x) j = Some v -> op_line (op_shown i j v) (narrow i h j v) (nth j ls []);
  ll_width : (forall j v, (j < h)%nat -> elem (c_data x) j = Some v -> narrow i h j v) -> forall k, (k < 2 * h - 1)%nat -> length (nth k ls []) = 19%nat }.
Lemma edge_len b : length (edge_of b) = 3%nat.
Proof. destruct b; reflexivity. Qed.
Lemma pget_elem {A} (p : option (list A)) (i : nat) v : elem p i = Some v -> pget p (Z.of_nat i) = Ok v.
Proof. intros E. rewrite pget_nth_elem, E. reflexivity. Qed.
Lemma lower_ok i d nt r col x : celled nt -> (n_rows nt <= 32)%nat -> (r < n_rows nt)%nat -> (timer_code i = true -> d_cells d = 2%nat) ->
  ((0 < c_dq x)%nat -> (d_cells d <= 3)%nat -> forall j, (j < d_cells d)%nat -> exists v, elem (c_data x) j = Some v /\ (writable v \/ (j = 1)%nat /\ timer_code i = true)) ->
  exists ls, lower_lines i d nt r col x = Ok ls /\ ((1 <= d_cells d <= 3)%nat -> (r + d_cells d <= n_rows nt)%nat -> low_lines i (d_cells d) x ls).
Proof.
  intros H S1 R TM OP. pose proof (space_bar_ok nt r col H S1 R) as (sb & SB & SL). pose proof (pin_out_ok nt r col H S1 R) as PO.
  set (po := txt (if barb nt r col || barb nt (S r) col then "-+" else "--")) in PO. assert (PL : length po = 2%nat) by (unfold po; destruct (barb nt r col || barb nt (S r) col); reflexivity). clearbody po.
  unfold lower_lines. destruct (d_cells d) as [|[|[|[|h]]]] eqn:DC.
  - eexists. split; [reflexivity|]. lia.
  - rewrite SB. cbn [rbind]. assert (T : timer_code i = false) by (destruct (timer_code i); auto; specialize (TM eq_refl); lia).
    destruct (one_row_ok i (c_dq x) (c_data x) sb SL) as (p & E & N & O & W).
    { intros K. destruct (OP K ltac:(lia) 0%nat ltac:(lia)) as (v & E & [Q|[Q _]]); [eauto|lia]. }
    rewrite E. cbn [rbind]. eexists. split; [reflexivity|]. intros _ _. split; cbn [length].
    + reflexivity.
    + intros k K. assert (k = 0)%nat by lia. subst. exact N.
    + intros NC j v J D EV. assert (j = 0)%nat by lia. subst. cbn [nth]. unfold op_shown. rewrite T. cbn [andb]. eapply op_line_weaken; [apply O; auto|]. apply narrow_one; auto.
    + intros F k K. assert (k = 0)%nat by lia. subst. cbn [nth]. apply W. intros v _ EV. apply (narrow_one _ i T). apply F; auto.
  - destruct (_ <? _) eqn:Q.
    { eexists. split; [reflexivity|]. intros _ B. exfalso. apply Z.ltb_lt in Q. unfold u32 in Q. rewrite Z.mod_small in Q; lia. }
    clear Q. rewrite PO. assert (P2 : exists po', (if (d_out d =? 1)%nat then Ok (gaps 2) else Ok po) = Ok po' /\ length po' = 2%nat) by (destruct (d_out d =? 1)%nat; eexists; split; try reflexivity; auto).
    destruct P2 as (po' & -> & PL'). cbn [rbind]. rewrite SB. destruct (Nat.eqb_spec (c_dq x) 0) as [DZ|DZ].
    + cbn [rbind app]. eexists. split; [reflexivity|]. intros _ _. split.
      * reflexivity.
      * intros k K. destruct k as [|[|[|k]]]; try lia; discriminate.
      * intros _ j v _ D. lia.
      * intros _ k K. destruct k as [|[|[|k]]]; try lia; try reflexivity. cbn [nth]. rewrite app_length, SL. reflexivity.
    + destruct (OP ltac:(lia) ltac:(lia) 0%nat ltac:(lia)) as (v0 & E0 & [W0|[Q _]]); [|lia]. destruct (OP ltac:(lia) ltac:(lia) 1%nat ltac:(lia)) as (v1 & E1 & W1).
      change 0 with (Z.of_nat 0) at 1. rewrite (pget_elem _ _ _ E0). cbn [rbind]. destruct (box_ok (gaps 3) (gaps 2) 4 v0 W0 eq_refl eq_refl) as (p0 & -> & O0). cbn [rbind].
      change 1 with (Z.of_nat 1) at 1. rewrite (pget_elem _ _ _ E1). cbn [rbind].
      assert (P1 : exists p1, (if timer_ins i then Ok (timer_line (edge_of (d_in d =? 1)%nat) po' v1) else box (edge_of (d_in d =? 1)%nat) po' 4 v1) = Ok p1 /\ op_line (op_shown i 1 v1) (narrow i 2 1 v1) p1).
      { change (timer_ins i) with (timer_code i). unfold op_shown. destruct (timer_code i) eqn:T; cbn [andb Nat.eqb].
        - eexists. split; [reflexivity|]. unfold narrow. rewrite T. apply timer_ok; auto. apply edge_len.
        - destruct W1 as [W1|[_ Q]]; [|discriminate]. destruct (box_ok (edge_of (d_in d =? 1)%nat) po' 4 v1 W1 (edge_len _) PL') as (p1 & E & O1). exists p1. split; auto.
          eapply op_line_weaken; [exact O1|]. apply (narrow_box v1 1 i); auto; rewrite T; reflexivity. }
      destruct P1 as (p1 & -> & O1). cbn [rbind app]. apply (fun Q => op_line_weaken _ _ (narrow i 2 0 v0) _ Q (narrow_box v0 0 i ltac:(lia) (andb_false_r _) 2%nat (or_introl eq_refl))) in O0.
      eexists. split; [reflexivity|]. intros _ _. split.
      * reflexivity.
      * intros k K. destruct k as [|[|[|k]]]; try lia; cbn [nth]; [exact (op_line_nonempty _ _ _ O0)|exact (op_line_nonempty _ _ _ O1)|discriminate].
      * intros _ j v J D EV. destruct j as [|[|j]]; try lia; cbn [nth].
        -- replace v with v0 by congruence. unfold op_shown. rewrite andb_false_r. exact O0.
        -- replace v with v1 by congruence. exact O1.
      * intros F k K. destruct k as [|[|[|k]]]; try lia; cbn [nth].
        -- destruct O0 as (s & _ & _ & _ & L). apply L. apply F; auto with arith.
        -- destruct O1 as (s & _ & _ & _ & L). apply L. apply F; auto with arith.
        -- rewrite app_length, SL. reflexivity.
  - destruct (_ <? _) eqn:Q.
    { eexists. split; [reflexivity|]. intros _ B. exfalso. apply Z.ltb_lt in Q. unfold u32 in Q. rewrite Z.mod_small in Q; lia. }
    clear Q. rewrite PO. cbn [rbind]. rewrite SB. assert (T : timer_code i = false) by (destruct (timer_code i); auto; specialize (TM eq_refl); lia).
    assert (PX : forall b : bool, length (if b then gaps 2 else po) = 2%nat) by (intros []; auto).
    destruct (Nat.eqb_spec (c_dq x) 0) as [DZ|DZ].
    + cbn [rbind app]. eexists. split; [reflexivity|]. intros _ _. split.
      * reflexivity.
      * intros k K. destruct k as [|[|[|[|[|k]]]]]; try lia; try discriminate. cbn [nth]. destruct (edge_of (d_in d <? 3)%nat) eqn:E; [|discriminate]. pose proof (edge_len (d_in d <? 3)%nat) as L. rewrite E in L. discriminate.
      * intros _ j v _ D. lia.
      * intros _ k K. destruct k as [|[|[|[|[|k]]]]]; try lia; try reflexivity; cbn [nth]; rewrite !app_length; [rewrite edge_len, PX|rewrite SL]; reflexivity.
    + destruct (OP ltac:(lia) ltac:(lia) 0%nat ltac:(lia)) as (v0 & E0 & [W0|[_ Q]]); [|congruence]. destruct (OP ltac:(lia) ltac:(lia) 1%nat ltac:(lia)) as (v1 & E1 & [W1|[_ Q]]); [|congruence].
      destruct (OP ltac:(lia) ltac:(lia) 2%nat ltac:(lia)) as (v2 & E2 & [W2|[_ Q]]); [|congruence].
      change 0 with (Z.of_nat 0) at 1. rewrite (pget_elem _ _ _ E0). cbn [rbind]. destruct (box_ok (gaps 3) (gaps 2) 4 v0 W0 eq_refl eq_refl) as (p0 & -> & O0). cbn [rbind].
      change 1 with (Z.of_nat 1) at 1. rewrite (pget_elem _ _ _ E1). cbn [rbind].
      destruct (box_ok (edge_of (d_in d <? 2)%nat) (if (d_out d <? 2)%nat then gaps 2 else po) 4 v1 W1 (edge_len _) (PX _)) as (p1 & -> & O1). cbn [rbind].
      change 2 with (Z.of_nat 2) at 1. rewrite (pget_elem _ _ _ E2). cbn [rbind]. destruct (box_ok (gaps 3) (gaps 2) 1 v2 W2 eq_refl eq_refl) as (p2 & -> & O2). cbn [rbind app].
      apply (fun Q => op_line_weaken _ _ (narrow i 3 0 v0) _ Q (narrow_box v0 0 i ltac:(lia) (andb_false_r _) 3%nat (or_intror eq_refl))) in O0.
      assert (T1 : timer_code i && (1 =? 1)%nat = false) by now rewrite T.
      apply (fun Q => op_line_weaken _ _ (narrow i 3 1 v1) _ Q (narrow_box v1 1 i ltac:(lia) T1 3%nat (or_intror eq_refl))) in O1.
      apply (fun Q => op_line_weaken _ _ (narrow i 3 2 v2) _ Q (narrow_third v2 i T)) in O2.
      eexists. split; [reflexivity|]. intros _ _. split.
      * reflexivity.
      * intros k K. destruct k as [|[|[|[|[|k]]]]]; try lia; cbn [nth]; [exact (op_line_nonempty _ _ _ O0)|exact (op_line_nonempty _ _ _ O1)|exact (op_line_nonempty _ _ _ O2)| |discriminate].
        destruct (edge_of (d_in d <? 3)%nat) eqn:E; [|discriminate]. pose proof (edge_len (d_in d <? 3)%nat) as L. rewrite E in L. discriminate.
      * intros _ j v J D EV. unfold op_shown. rewrite T. cbn [andb]. destruct j as [|[|[|j]]]; try lia; cbn [nth].
        -- replace v with v0 by congruence. exact O0.
        -- replace v with v1 by congruence. exact O1.
        -- replace v with v2 by congruence. exact O2.
      * intros F k K. destruct k as [|[|[|[|[|k]]]]]; try lia; cbn [nth].
        -- destruct O0 as (s & _ & _ & _ & L). apply L. apply F; auto with arith.
        -- destruct O1 as (s & _ & _ & _ & L). apply L. apply F; auto with arith.
        -- destruct O2 as (s & _ & _ & _ & L). apply L. apply F; auto with arith.
        -- rewrite !app_length, edge_len, PX. reflexivity.
        -- rewrite app_length, SL. reflexivity.
  - eexists. split; [reflexivity|]. lia.
Qed.
Lemma one_row_end i dq data sb p : one_row_line i dq data sb = Ok p -> exists q, p = q ++ sb.
Proof.
  unfold one_row_line. intros H. destruct (dq =? 0)%nat; [injection H as <-; now exists (gaps 18)|]. apply rbind_inv in H as (v & _ & H).
  assert (N : forall g, type_graph v = Ok g -> Ok (gaps 5 ++ g ++ gaps 1 ++ pad 4 (i32 (v_raw v)) ++ gaps 6 ++ sb) = Ok p -> exists q, p = q ++ sb).
  { intros g _ E. injection E as <-. exists (gaps 5 ++ g ++ gaps 1 ++ pad 4 (i32 (v_raw v)) ++ gaps 6). rewrite <- !app_assoc. reflexivity. }
  assert (Q : match i with I_CONN => Ok (gaps 18 ++ sb) | _ => let? g := type_graph v in Ok (gaps 5 ++ g ++ gaps 1 ++ pad 4 (i32 (v_raw v)) ++ gaps 6 ++ sb) end = Ok p -> exists q, p = q ++ sb).
  { intros E. destruct i; try (apply rbind_inv in E as (g & G & E); exact (N g G E)). injection E as <-. now exists (gaps 18). }
  assert (W : (let? s := small_text v in let? g := type_graph v in Ok (gaps 5 ++ g ++ gaps 1 ++ (if (length s <? 4)%nat then s ++ gaps 1 else s) ++ gaps 6 ++ sb)) = Ok p -> exists q, p = q ++ sb).
  { intros E. apply rbind_inv in E as (s & _ & E). apply rbind_inv in E as (g & _ & E). injection E as <-. exists (gaps 5 ++ g ++ gaps 1 ++ (if (length s <? 4)%nat then s ++ gaps 1 else s) ++ gaps 6). rewrite <- !app_assoc. reflexivity. }
  destruct (v_type v); auto. apply rbind_inv in H as (s & _ & H). injection H as <-. exists (gaps 5 ++ s ++ gaps 3). rewrite <- !app_assoc. reflexivity.
Qed.
Lemma lower_bar i d nt r col x ls : celled nt -> (n_rows nt <= 32)%nat -> (r < n_rows nt)%nat -> lower_lines i d nt r col x = Ok ls -> d_cells d = 1%nat ->
  exists q, nth 0 ls [] = q ++ txt (if barb nt (S r) col then "|" else " ").
Proof.
  intros H S1 R E D. unfold lower_lines in E. rewrite D in E. unfold space_bar in E. rewrite bar_below_ok in E by auto. cbn [rbind] in E. apply rbind_inv in E as (l & L & E). injection E as <-. cbn [nth]. eapply one_row_end; eauto.
Qed.

(** A whole figure. *)
Record good_figure (nt : network) (r col : nat) (i : ins) (h : nat) (x : cell) (fig : list (list Z)) : Prop := {
  gf_len : length fig = (2 * h)%nat;
  gf_full : forall k, (k < 2 * h)%nat -> nth k fig [] <> [];
  gf_symbol : i <> I_FOREIGN -> stands_at (nth 0 fig []) (if (h =? 1)%nat then 8 else 5) (txt (symbol_of i));
  gf_mark : i <> I_NOP -> i <> I_FOREIGN -> barb nt r col || barb nt (S r) col = true <-> stands_at (nth 0 fig []) 18 (txt "+");
  gf_ops : i <> I_CONN -> i <> I_NOP -> forall j v, (j < h)%nat -> (j < c_dq x)%nat -> elem (c_data x) j = Some v ->
    exists s, op_shown i j v s /\ stands_at (nth (j + 1) fig []) 5 s;
  gf_bar : i <> I_NOP -> i <> I_FOREIGN -> h = 1%nat -> (forall v, elem (c_data x) 0 = Some v -> narrow i 1 0 v) ->
    barb nt (S r) col = true <-> stands_at (nth 1 fig []) 18 (txt "|");
  gf_width : i <> I_FOREIGN -> (forall j v, (j < h)%nat -> elem (c_data x) j = Some v -> narrow i h j v) -> forall k, (k < 2 * h)%nat -> length (nth k fig []) = 19%nat }.
Lemma stands_bar q (b : bool) : length q = 18%nat -> b = true <-> stands_at (q ++ txt (if b then "|" else " ")) 18 (txt "|").
Proof.
  intros L. destruct b; split; intros H; auto; try discriminate.
  - exists q, []. split; auto.
  - destruct H as (a' & b' & E & L'). exfalso. assert (N := f_equal (fun l => nth 18 l 0) E). cbv beta in N. rewrite app_nth2 in N by lia. rewrite L in N. rewrite app_nth2 in N by lia. rewrite L' in N. discriminate.
Qed.
Lemma nth_cut k ls : nth k (map cut ls) [] = cut (nth k ls []).
Proof. revert k. induction ls as [|a ls IH]; intros [|k]; simpl; auto. Qed.
Lemma good_of_lines nt r col i h x first ls : (1 <= h)%nat -> low_lines i h x ls -> first <> [] ->
  (i <> I_FOREIGN -> length first = 19%nat /\ stands_at first (if (h =? 1)%nat then 8 else 5) (txt (symbol_of i)) /\ (length (txt (symbol_of i)) = 3%nat)
     /\ (barb nt r col || barb nt (S r) col = true <-> stands_at first 18 (txt "+"))) ->
  (i <> I_FOREIGN -> h = 1%nat -> exists q, nth 0 ls [] = q ++ txt (if barb nt (S r) col then "|" else " ")) ->
  good_figure nt r col i h x (map cut (first :: ls)).
Proof.
  intros H1 [LL LF LO LW] F1 F2 F3. split.
  - rewrite map_length. cbn [length]. lia.
  - intros k K. rewrite nth_cut. apply cut_nonempty. destruct k as [|k]; auto. cbn [nth]. apply LF. lia.
  - intros NF. rewrite nth_cut. cbn [nth]. destruct (F2 NF) as (A & B & C & _). apply stands_cut; auto. destruct (h =? 1)%nat; rewrite C; lia.
  - intros _ NF. rewrite nth_cut. cbn [nth]. destruct (F2 NF) as (A & _ & _ & B). rewrite B. unfold cut. rewrite firstn_all2 by lia. reflexivity.
  - intros NC _ j v J D E. rewrite nth_cut. rewrite Nat.add_1_r. cbn [nth]. destruct (op_line_cut _ _ _ (LO NC j v J D E)) as (s & A & B & _). eauto.
  - intros _ NF -> NW. rewrite nth_cut. cbn [nth]. destruct (F3 NF eq_refl) as (q & Q). assert (L : length (nth 0 ls []) = 19%nat).
    { apply LW; [|lia]. intros j v J E. assert (j = 0)%nat by lia. subst j. auto. }
    unfold cut. rewrite firstn_all2 by lia. rewrite Q in L |- *. apply stands_bar. rewrite app_length in L. assert (length (txt (if barb nt (S r) col then "|" else " ")) = 1)%nat by (destruct (barb nt (S r) col); reflexivity). lia.
  - intros NF N k K. rewrite nth_cut. apply length_cut. destruct k as [|k]; cbn [nth]; [now destruct (F2 NF)|]. apply LW; auto. lia.
Qed.
Definition plain_figure (i : ins) (nt : network) (r col : nat) (x : cell) : res (bool * list (list Z)) :=
  let? d := fn_iocd i in
  let? sy := lget fn_symbol (ins_code i) in
  let? po := pin_out nt r col in
  let first := if (d_cells d =? 1)%nat then txt "--------" ++ sy ++ txt "------" ++ po else txt "---+-" ++ sy ++ txt "--------+" ++ po in
  let? ls := lower_lines i d nt r col x in Ok (false, map cut (first :: ls)).
Lemma plain_cell fname fo nt r col x : ncell nt r col = Some x -> match c_code x with I_NOP | I_MULTI | I_FOREIGN => False | _ => True end ->
  fn_to_str fname fo nt r col = plain_figure (c_code x) nt r col x.
Proof. intros E N. unfold fn_to_str. rewrite (cell_in_of _ _ _ _ E). cbn [rbind]. destruct (c_code x); try contradiction; reflexivity. Qed.
Lemma plain_desc i h k : documented i = Some (h, k) -> exists d, fn_iocd i = Ok d /\ d_cells d = h /\ lget fn_symbol (ins_code i) = Ok (txt (symbol_of i)) /\ length (txt (symbol_of i)) = 3%nat /\ (timer_code i = true -> h = 2%nat).
Proof. destruct i; intros [= <- <-]; (eexists; split; [reflexivity|]; split; [reflexivity|]; split; [reflexivity|]; split; [reflexivity|]; simpl; congruence). Qed.
Lemma stands_mark a (b : bool) : length a = 17%nat -> b = true <-> stands_at (a ++ txt (if b then "-+" else "--")) 18 (txt "+").
Proof.
  intros L. destruct b; split; intros H; auto; try discriminate.
  - exists (a ++ [45]), []. split; [rewrite <- app_assoc; reflexivity|]. rewrite app_length, L. reflexivity.
  - destruct H as (a' & b' & E & L'). exfalso. assert (N := f_equal (fun l => nth 18 l 0) E). cbv beta in N. rewrite app_nth2 in N by lia. rewrite L in N. rewrite app_nth2 in N by lia. rewrite L' in N. discriminate.
Qed.
Lemma plain_ok nt r col x h k : celled nt -> (n_rows nt <= 32)%nat -> (r < n_rows nt)%nat -> documented (c_code x) = Some (h, k) ->
  ((0 < c_dq x)%nat -> (h <= 3)%nat -> forall j, (j < h)%nat -> exists v, elem (c_data x) j = Some v /\ (writable v \/ (j = 1)%nat /\ timer_code (c_code x) = true)) ->
  exists fig, plain_figure (c_code x) nt r col x = Ok (false, fig) /\ ((1 <= h <= 3)%nat -> (r + h <= n_rows nt)%nat -> good_figure nt r col (c_code x) h x fig).
Proof.
  intros H S1 R D OP. destruct (plain_desc _ _ _ D) as (d & E1 & DC & E2 & E3 & TM). unfold plain_figure. rewrite E1. cbn [rbind]. rewrite E2. cbn [rbind]. rewrite pin_out_ok by auto. cbn [rbind].
  subst h. destruct (lower_ok (c_code x) d nt r col x H S1 R TM OP) as (ls & LE & L). rewrite LE. cbn [rbind]. eexists. split; [reflexivity|]. intros B1 B2. apply good_of_lines; [lia|auto| | |intros _ D1; eapply lower_bar; eauto].
  - destruct (d_cells d =? 1)%nat; discriminate.
  - intros _. set (po := txt (if barb nt r col || barb nt (S r) col then "-+" else "--")). assert (PL : length po = 2%nat) by (unfold po; destruct (_ || _); reflexivity).
    destruct (d_cells d =? 1)%nat.
    + split; [rewrite !app_length, E3, PL; reflexivity|]. split; [apply (stands_here (txt "--------"))|]. split; auto. unfold po.
      rewrite (app_assoc (txt (symbol_of _))), app_assoc. apply stands_mark. rewrite !app_length, E3. reflexivity.
    + split; [rewrite !app_length, E3, PL; reflexivity|]. split; [apply (stands_here (txt "---+-"))|]. split; auto. unfold po.
      rewrite (app_assoc (txt (symbol_of _))), app_assoc. apply stands_mark. rewrite !app_length, E3. reflexivity.
Qed.
Lemma figure_ok fname c n nt r col x : net_at n c = Ok nt -> celled nt -> (n_rows nt <= 32)%nat -> (r < n_rows nt)%nat -> ncell nt r col = Some x -> drawable c n r col ->
  exists m fig, fn_to_str fname (x_for c) nt r col = Ok (m, fig)
    /\ (forall h, takes c n r col h -> (1 <= h <= 3)%nat -> (r + h <= n_rows nt)%nat -> m = false /\ good_figure nt r col (c_code x) h x fig).
Proof.
  intros HN HC S1 R X (bar & i & dq & h0 & P & FR & FO & OP).
  assert (CX : cell_of c n r col = Some x) by (apply (cell_in_at c n nt); auto; now apply cell_in_of).
  assert (EI : i = c_code x /\ dq = c_dq x) by (cbn [peek] in P; rewrite CX in P; injection P as <- <- <-; auto). destruct EI as [-> ->].
  assert (OP' : c_code x <> I_NOP -> c_code x <> I_MULTI -> (0 < c_dq x)%nat -> (h0 <= 3)%nat -> forall j, (j < h0)%nat -> exists v, elem (c_data x) j = Some v /\ (writable v \/ (j = 1)%nat /\ timer_code (c_code x) = true)).
  { intros A B C D j J. destruct (OP A B C D j J) as (v & E & W). exists v. split; auto. cbn [peek] in E. rewrite CX in E. cbn [obind] in E. destruct (elem (c_data x) j); [|discriminate]. simpl in E. congruence. }
  unfold figure_rows in FR. rewrite (code_of _ _ _ _ _ CX) in FR.
  assert (TK : forall h, takes c n r col h <-> hgt c x h) by (intros h; apply takes_hgt; auto).
  destruct (match c_code x with I_NOP => 1 | I_MULTI => 2 | I_FOREIGN => 3 | _ => 0 end)%nat as [|[|[|k]]] eqn:K.
  - assert (N : match c_code x with I_NOP | I_MULTI | I_FOREIGN => False | _ => True end) by (destruct (c_code x); try discriminate; auto).
    assert (FR' : option_map fst (documented (c_code x)) = Some h0) by (destruct (c_code x); try contradiction; auto). clear FR. rewrite (plain_cell fname (x_for c) nt r col x X N).
    destruct (documented (c_code x)) as [[h1 k1]|] eqn:D; [|discriminate]. injection FR' as ->. destruct (plain_ok nt r col x h0 k1 HC S1 R D) as (fig & E & G).
    { apply OP'; intros E; rewrite E in N; auto. }
    exists false, fig. split; auto. intros h T. apply TK in T. assert (h = h0).
    { unfold hgt in T. destruct (c_code x); try contradiction; try discriminate; destruct T as [k T]; congruence. } subst h. auto.
  - assert (EC : c_code x = I_NOP) by (destruct (c_code x); try discriminate; auto). unfold fn_to_str. rewrite (cell_in_of _ _ _ _ X). cbn [rbind]. rewrite EC, vertical_bar_ok by auto. cbn [rbind].
    eexists _, _. split; [reflexivity|]. intros h T _ _. apply TK in T. unfold hgt in T. rewrite EC in T. destruct T as [k [= <- <-]]. split; auto. split; try congruence.
    + reflexivity.
    + intros [|[|k]] B; try lia; discriminate.
    + intros _. cbn [nth]. exists (gaps 8), (gaps 7 ++ txt (if barb nt r col then "+" else " ")). split; reflexivity.
    + intros _ _ [|[|k]] B; try lia; cbn [nth]; auto. destruct (barb nt r col); reflexivity.
  - assert (EC : c_code x = I_MULTI) by (destruct (c_code x); try discriminate; auto). unfold fn_to_str. rewrite (cell_in_of _ _ _ _ X). cbn [rbind]. rewrite EC.
    eexists _, _. split; [reflexivity|]. intros h T. apply TK in T. unfold hgt in T. rewrite EC in T. contradiction.
  - assert (EC : c_code x = I_FOREIGN) by (destruct (c_code x); try discriminate; auto). clear K k. rewrite EC in FR. destruct (FO EC) as (v & V). assert (V' : elem (c_data x) 0 = Some v).
    { cbn [peek] in V. rewrite CX in V. cbn [obind] in V. destruct (elem (c_data x) 0); [|discriminate]. simpl in V. congruence. }
    assert (AV : arg c n r col 0 = v) by (unfold arg; now rewrite V). rewrite AV in FR. destruct (elem (fo_fn (x_for c)) (ix (u32 (v_raw v)))) as [d|] eqn:ED; [|discriminate]. injection FR as <-.
    unfold fn_to_str. rewrite (cell_in_of _ _ _ _ X). cbn [rbind]. rewrite EC. change 0 with (Z.of_nat 0) at 1. rewrite (pget_elem _ _ _ V'). cbn [rbind].
    assert (U : 0 <= u32 (v_raw v)) by (unfold u32; apply Z.mod_pos_bound; lia). assert (PG := pget_elem _ _ _ ED). replace (Z.of_nat (ix (u32 (v_raw v)))) with (u32 (v_raw v)) in PG by (unfold ix; lia).
    rewrite PG. cbn [rbind]. rewrite pin_out_ok by auto. cbn [rbind]. destruct (Z.leb_spec (Z.of_nat (fo_qty (x_for c))) (u32 (v_raw v))) as [Y|Y].
    + eexists _, _. split; [reflexivity|]. intros h T. apply TK in T. unfold hgt in T. rewrite EC in T. destruct T as (v' & k & A & _ & [B|(_ & fo & l & d' & B1 & _ & B3 & _)]); [discriminate|].
      exfalso. replace v' with v in * by congruence. cbn [peek] in B1. injection B1 as <-. unfold ix in B3. lia.
    + rewrite EC in OP'. destruct (lower_ok I_FOREIGN (f_iocd d) nt r col x HC S1 R) as (ls & -> & L); [discriminate|apply OP'; discriminate|]. cbn [rbind]. eexists _, _. split; [reflexivity|].
      intros h T B1 B2. apply TK in T. unfold hgt in T. rewrite EC in T. destruct T as (v' & k & A & _ & [B|(_ & fo & l & d' & C1 & C2 & C3 & C4 & C5 & _)]); [discriminate|].
      replace v' with v in * by congruence. cbn [peek] in C1. injection C1 as <-. unfold elem in ED. rewrite C2 in ED. change (nth_error l (ix (u32 (v_raw v))) = Some d) in ED. assert (d' = d) by congruence. subst d'. subst h.
      split; auto. apply good_of_lines; [lia|auto|discriminate|congruence|congruence].
Qed.
