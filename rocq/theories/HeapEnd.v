(** Releasing everything. *)
From Coq Require Import Permutation.
From Verif Require Export HeapMach.
From Coq Require Import Lia List.
Import ListNotations.
Open Scope nat_scope.

Definition with_reg (l : list ptr) (g : hctx) : hctx :=
  mk_hctx (g_nets g) (g_m g) (g_c g) (g_t g) (g_net g) l (g_fq g) (g_fn g)
    (g_rq g) (g_rd g) (g_ird g) (g_in g) (g_wq g) (g_wr g) (g_iwr g) (g_out g) (g_cron g).
Notation treg := (option (nat * nat)).
Definition own_regs (l : list treg) : list (nat * block) := flat_map (ob B_raw) l.
Lemma nth_put A (l : list A) i x : i < length l -> exists d y t, l = d ++ y :: t /\ length d = i /\ put l i x = d ++ x :: t.
Proof.
  intro I. destruct (nth_error l i) as [y|] eqn:E; [|apply nth_error_None in E; lia].
  apply nth_error_split in E as (d & t & -> & L). exists d, y, t. split; auto. split; auto. subst i. apply put_mid.
Qed.
Lemma wp_drop i regs g R (Q : unit -> hst -> Prop) B s : s_g s = with_reg (map op regs) g -> i < length regs -> good s (own_regs regs ++ R) ->
  (forall s', s_g s' = with_reg (map op (put regs i None)) g -> good s' (own_regs (put regs i None) ++ R) -> Q tt s') ->
  wp (h_drop i) Q B s.
Proof.
  intros E I K Z. unfold h_drop. apply wp_bind, wp_getg. rewrite E. simpl.
  destruct (nth_put _ regs i None I) as (d & y & t & -> & L & EP). subst i. rewrite EP in Z.
  apply wp_bind. eapply wp_nth; [apply nth_map_mid|]. apply wp_bind.
  eapply wp_free_ob with (f := B_raw) (o := y) (L := own_regs (d ++ None :: t) ++ R).
  { eapply good_perm; [exact K|]. unfold own_regs. perm. }
  intros s1 E1 _ K1. apply wp_modg. apply Z.
  - simpl. rewrite E1, E. unfold with_reg. simpl. rewrite put_map_mid, map_app. reflexivity.
  - apply good_g. destruct s1; exact K1.
Qed.
Lemma wp_wipe i q p n L (Q : unit -> hst -> Prop) B s : nth_error (g_reg (s_g s)) i = Some (Some p) -> good s L -> In (p, B_raw n) L -> q <= n ->
  Q tt s -> wp (h_wipe i q) Q B s.
Proof.
  intros E K I LQ Z. unfold h_wipe. apply wp_bind, wp_getg. apply wp_bind. eapply wp_nth; [exact E|]. apply wp_bind. eapply wp_load; [exact K|exact I|].
  cbv iota beta. apply Nat.leb_le in LQ. rewrite LQ. apply wp_ret. exact Z.
Qed.
Definition sized (regs : list treg) (i q : nat) : Prop := exists p n, nth_error regs i = Some (Some (p, n)) /\ q <= n.
Definition all_sized (regs : list treg) (m c t : nat) : Prop :=
  (0 < m -> sized regs 0 m /\ sized regs 1 m)
  /\ (0 < c -> sized regs 4 c /\ sized regs 5 c /\ sized regs 2 c /\ sized regs 3 c)
  /\ (0 < t -> sized regs 8 t /\ sized regs 9 t /\ sized regs 6 t /\ sized regs 7 t).
Lemma wp_wipe2 i q regs R L (Q : unit -> hst -> Prop) B s : g_reg (s_g s) = map op regs -> sized regs i q -> good s L -> Permutation L (own_regs regs ++ R) ->
  Q tt s -> wp (h_wipe i q) Q B s.
Proof.
  intros E (p & n & N & LQ) K P Z. eapply wp_wipe with (p := p) (n := n); [|exact K| |auto|auto].
  - rewrite E. rewrite nth_error_map, N. reflexivity.
  - eapply Permutation_in; [apply Permutation_sym; exact P|]. apply in_or_app. left. apply in_flat_map. exists (Some (p, n)). split; [eapply nth_error_In; eauto|]. left. reflexivity.
Qed.
Lemma clear_memory_ok regs R (Q : unit -> hst -> Prop) B s : g_reg (s_g s) = map op regs -> all_sized regs (g_m (s_g s)) (g_c (s_g s)) (g_t (s_g s)) ->
  good s (own_regs regs ++ R) -> Q tt s -> wp h_clear_memory Q B s.
Proof.
  intros E (S1 & S2 & S3) K Z. unfold h_clear_memory. apply wp_bind, wp_getg. apply wp_bind.
  eapply wp_mono with (Q := fun _ s' => s' = s) (B := B); [| |auto].
  { destruct (0 <? g_m (s_g s)) eqn:LM; [|apply wp_ret; auto]. apply Nat.ltb_lt in LM. destruct (S1 LM) as [A1 A2].
    apply wp_bind. eapply wp_wipe2; eauto. eapply wp_wipe2; eauto. }
  intros ? ? ->. apply wp_bind. eapply wp_mono with (Q := fun _ s' => s' = s) (B := B); [| |auto].
  { destruct (0 <? g_c (s_g s)) eqn:LM; [|apply wp_ret; auto]. apply Nat.ltb_lt in LM. destruct (S2 LM) as (A1 & A2 & A3 & A4).
    apply wp_bind. eapply wp_wipe2; eauto. apply wp_bind. eapply wp_wipe2; eauto. apply wp_bind. eapply wp_wipe2; eauto. eapply wp_wipe2; eauto. }
  intros ? ? ->.
  { destruct (0 <? g_t (s_g s)) eqn:LM; [|apply wp_ret; auto]. apply Nat.ltb_lt in LM. destruct (S3 LM) as (A1 & A2 & A3 & A4).
    apply wp_bind. eapply wp_wipe2; eauto. apply wp_bind. eapply wp_wipe2; eauto. apply wp_bind. eapply wp_wipe2; eauto. eapply wp_wipe2; eauto. }
Qed.

(** The parts of a machine other than its networks. *)
Record mach : Type := mk_mach { v_reg : list treg; v_for : option (nat * list ptr); v_rd : io; v_wr : io; v_cr : option (nat * ptr) }.
Definition rep (m : mach) (g : hctx) : Prop :=
  length (v_reg m) = 14 /\ g_reg g = map op (v_reg m)
  /\ g_fn g = op (v_for m) /\ g_fq g = length (ol (v_for m))
  /\ g_rd g = op (e_fn (v_rd m)) /\ g_ird g = op (e_ini (v_rd m)) /\ g_in g = op (e_mod (v_rd m)) /\ io_ok (g_rq g) (v_rd m)
  /\ g_wr g = op (e_fn (v_wr m)) /\ g_iwr g = op (e_ini (v_wr m)) /\ g_out g = op (e_mod (v_wr m)) /\ io_ok (g_wq g) (v_wr m)
  /\ g_cron g = op (v_cr m).
Definition own_cr (o : option (nat * ptr)) : list (nat * block) := match o with Some (a, j) => (a, B_cron j) :: optr j | None => [] end.
Definition own_for (o : option (nat * list ptr)) : list (nat * block) := ob B_fors o ++ flat_map optr (ol o).
Definition own (m : mach) : list (nat * block) := own_regs (v_reg m) ++ own_for (v_for m) ++ own_io (v_rd m) ++ own_io (v_wr m) ++ own_cr (v_cr m).

(** foreign functions *)
Lemma free_foreign_ok o R (Q : unit -> hst -> Prop) B s : g_fn (s_g s) = op o -> g_fq (s_g s) = length (ol o) -> good s (own_for o ++ R) ->
  (forall s', s_g s' = set_gfor (g_fq (s_g s)) None (s_g s) -> good s' R -> Q tt s') -> wp h_free_foreign Q B s.
Proof.
  intros E1 E2 K Z. unfold h_free_foreign. apply wp_bind, wp_getg. apply wp_bind. rewrite E2.
  eapply wp_mono; [apply wp_for with (l := ol o) (i := 0) (Inv := fun d t s' => s_g s' = s_g s /\ good s' (ob B_fors o ++ flat_map optr t ++ R))| |intros u Y; exact Y].
  - intros d x t s1 EL (G1 & K1). rewrite E1. destruct o as [[a l]|]; [|destruct d; discriminate]. simpl in *. apply wp_bind.
    eapply wp_load; [exact K1|left; reflexivity|]. apply wp_bind, wp_ret. apply wp_bind. eapply wp_nth; [rewrite <- EL; apply nth_mid|].
    eapply wp_free_opt with (L := (a, B_fors l) :: flat_map optr t ++ R); [eapply good_perm; [exact K1|]; perm|].
    intros s2 G2 _ K2. split; [congruence|exact K2].
  - split; auto. eapply good_perm; [exact K|]. unfold own_for. perm.
  - intros u s1 (G1 & K1). apply wp_bind. rewrite E1. eapply wp_free_ob with (f := B_fors); [exact K1|]. intros s2 G2 _ K2. apply wp_modg. apply Z.
    + simpl. rewrite G2, G1. reflexivity.
    + apply good_g. destruct s2; exact K2.
Qed.

(** modules *)
Lemma mods_off_ok q i R (Q : unit -> hst -> Prop) B s : io_ok q i -> good s (own_io i ++ R) ->
  (forall s' o, s_g s' = s_g s -> op o = op (e_mod i) -> good s' (ob B_fns (e_fn i) ++ ob B_fns (e_ini i) ++ ob B_mods o ++ R) -> Q tt s') ->
  wp (h_mods_off q (op (e_ini i)) (op (e_mod i))) Q B s.
Proof.
  intros (_ & L2 & L3 & F) K Z. unfold h_mods_off. rewrite <- L3 at 1.
  set (W := ob B_fns (e_fn i) ++ ob B_fns (e_ini i)).
  set (md := fun n t => option_map (fun e : nat * list hmod => (fst e, repeat nomod n ++ t)) (e_mod i)).
  eapply wp_mono; [apply wp_for with (l := ol (e_mod i)) (i := 0) (Inv := fun d t s' => s_g s' = s_g s /\ good s' (ob B_mods (md (length d) t) ++ flat_map own_mod t ++ W ++ R))| |intros u Y; exact Y].
  - intros d x t s1 EL (G1 & K1). simpl. destruct (e_mod i) as [[c lm]|] eqn:EM; [|destruct d; discriminate].
    assert (ND : length d < length (ol (e_ini i))) by (rewrite L2, <- L3, <- EL, app_length; simpl; lia).
    destruct (e_ini i) as [[bi li]|] eqn:EI; [|simpl in ND; lia]. simpl in ND, EL, F. apply wp_bind.
    eapply wp_load with (b := B_fns li); [exact K1| |]. { unfold W. rewrite !in_app_iff. right. right. left. right. left. reflexivity. }
    apply wp_bind, wp_ret. destruct (nth_error li (length d)) as [f|] eqn:NF; [|apply nth_error_None in NF; lia].
    apply wp_bind. eapply wp_nth; [exact NF|].
    assert (MF : f = false -> x = nomod).
    { clear - F NF EL. subst lm. revert d F NF. induction li as [|b li IH]; intros d F NF; [destruct d; discriminate|]. destruct d as [|y d].
      - inversion F; subst. simpl in NF. injection NF as <-. auto.
      - inversion F; subst. apply (IH d); auto. }
    rewrite app_length, Nat.add_1_r. unfold md in K1 |- *. rewrite ?EM in K1. rewrite ?EM. simpl in K1 |- *.
    assert (RR : forall n (z : list hmod), nomod :: repeat nomod n ++ z = repeat nomod n ++ nomod :: z).
    { clear. intros n z. induction n; simpl; auto. f_equal. exact IHn. }
    destruct f.
    + rewrite <- (repeat_length nomod (length d)) at 1. eapply wp_mod_off with (m := x) (l2 := t) (L := flat_map own_mod t ++ W ++ R).
      * eapply good_perm; [exact K1|]. perm.
      * intros s2 G2 K2. split; [congruence|]. rewrite RR. exact K2.
    + apply wp_ret. split; auto. rewrite RR. rewrite (MF eq_refl) in K1. exact K1.
  - split; auto. eapply good_perm; [exact K|]. unfold own_io, W, md. simpl. destruct (e_mod i) as [[c lm]|]; simpl; perm.
  - intros [] s1 (G1 & K1). apply (Z s1 (md (length (ol (e_mod i))) [])); auto.
    + unfold md. destruct (e_mod i) as [[c lm]|]; reflexivity.
    + eapply good_perm; [exact K1|]. unfold W. perm.
Qed.

(** The end of ladder_ctx_deinit, after the networks. *)
Definition deinit_tail : H unit :=
  run! h_drop 1; run! h_drop 3; run! h_drop 5; run! h_drop 7; run! h_drop 9;
  run! h_drop 0; run! h_drop 2; run! h_drop 4; run! h_drop 6; run! h_drop 8;
  run! h_drop 10; run! h_drop 12; run! h_drop 13; run! h_drop 11;
  run! h_free_foreign;
  do! g <- getg;
  run! h_mods_off (g_rq g) (g_ird g) (g_in g);
  run! h_mods_off (g_wq g) (g_iwr g) (g_out g);
  run! h_free (g_rd g); run! h_free (g_wr g); run! h_free (g_ird g); run! h_free (g_iwr g); run! h_free (g_in g); run! h_free (g_out g);
  run! h_free_cron;
  modg (fun g => mk_hctx (g_nets g) (g_m g) (g_c g) (g_t g) (g_net g) (g_reg g) (g_fq g) (g_fn g)
                  (g_rq g) None None None (g_wq g) None None None None).
Lemma deinit_parts : h_deinit = (run! h_clear_memory; run! h_clear_program; run! h_free_networks; deinit_tail).
Proof. reflexivity. Qed.
Lemma put_length A (l : list A) i x : length (put l i x) = length l.
Proof. revert i. induction l as [|y l IH]; intros [|i]; simpl; auto. Qed.
Definition ended (g : hctx) : hctx :=
  mk_hctx (g_nets g) (g_m g) (g_c g) (g_t g) (g_net g) (repeat None 14) (g_fq g) None
    (g_rq g) None None None (g_wq g) None None None None.
Lemma tail_ok m R (Q : unit -> hst -> Prop) B s : rep m (s_g s) -> good s (own m ++ R) ->
  (forall s', s_g s' = ended (s_g s) -> good s' R -> Q tt s') -> wp deinit_tail Q B s.
Proof.
  intros (LR & ER & EF & EFQ & A1 & A2 & A3 & IA & B1 & B2 & B3 & IB & EC) K Z. unfold deinit_tail. unfold own in K. rewrite <- app_assoc in K.
  assert (E0 : s_g s = with_reg (map op (v_reg m)) (s_g s)) by (rewrite <- ER; destruct (s_g s); reflexivity).
  assert (BASE : forall k, k < 14 -> k < length (v_reg m)) by (intros; lia).
  remember (s_g s) as g eqn:EGS. rewrite EGS in E0 at 1. set (R1 := (own_for (v_for m) ++ own_io (v_rd m) ++ own_io (v_wr m) ++ own_cr (v_cr m)) ++ R) in *.
  do 14 (apply wp_bind; eapply wp_drop with (g := g) (R := R1); [eassumption|rewrite ?put_length, LR; lia|eassumption|]; clear E0 K; let z := fresh "z" in intros z E0 K).
  assert (CL : forall l : list treg, length l = 14 ->
     put (put (put (put (put (put (put (put (put (put (put (put (put (put l 1 None) 3 None) 5 None) 7 None) 9 None) 0 None) 2 None) 4 None) 6 None) 8 None) 10 None) 12 None) 13 None) 11 None = repeat None 14).
  { clear. intros l L. do 14 (destruct l as [|? l]; [discriminate|]). destruct l; [|discriminate]. reflexivity. }
  rewrite CL in E0, K by exact LR. clear CL. change (own_regs (repeat None 14)) with (@nil (nat * block)) in K. change (map op (repeat (@None (nat * nat)) 14)) with (repeat (@None nat) 14) in E0. cbn [app] in K.
  apply wp_bind. eapply free_foreign_ok with (o := v_for m) (R := own_io (v_rd m) ++ own_io (v_wr m) ++ own_cr (v_cr m) ++ R).
  { rewrite E0. exact EF. } { rewrite E0. exact EFQ. } { eapply good_perm; [exact K|]. unfold R1. perm. }
  intros s1 E1 K1. rewrite E0 in E1. apply wp_bind, wp_getg. rewrite E1. cbn [set_gfor with_reg g_rq g_rd g_ird g_in g_wq g_wr g_iwr g_out g_fq].
  rewrite A1, A2, A3, B1, B2, B3. clear E0 K. apply wp_bind.
  eapply mods_off_ok; [exact IA|exact K1|]. intros s2 o2 E2 O2 K2. apply wp_bind.
  eapply mods_off_ok with (R := ob B_fns (e_fn (v_rd m)) ++ ob B_fns (e_ini (v_rd m)) ++ ob B_mods o2 ++ own_cr (v_cr m) ++ R); [exact IB|eapply good_perm; [exact K2|]; perm|].
  intros s3 o3 E3 O3 K3. rewrite <- O2, <- O3. apply wp_bind.
  eapply wp_free_ob with (f := B_fns) (L := ob B_fns (e_fn (v_wr m)) ++ ob B_fns (e_ini (v_rd m)) ++ ob B_fns (e_ini (v_wr m)) ++ ob B_mods o2 ++ ob B_mods o3 ++ own_cr (v_cr m) ++ R).
  { eapply good_perm; [exact K3|]. perm. }
  intros s4 E4 _ K4. apply wp_bind. eapply wp_free_ob; [exact K4|]. intros s5 E5 _ K5. apply wp_bind. eapply wp_free_ob; [exact K5|].
  intros s6 E6 _ K6. apply wp_bind. eapply wp_free_ob; [exact K6|]. intros s7 E7 _ K7. apply wp_bind. eapply wp_free_ob; [exact K7|].
  intros s8 E8 _ K8. apply wp_bind. eapply wp_free_ob; [exact K8|]. intros s9 E9 _ K9. apply wp_bind.
  assert (EE : s_g s9 = set_gfor (g_fq g) None (with_reg (repeat None 14) g)) by (rewrite E9, E8, E7, E6, E5, E4, E3, E2, E1; reflexivity).
  unfold h_free_cron. apply wp_bind, wp_getg. rewrite EE. cbn [set_gfor with_reg g_cron]. rewrite EC.
  eapply wp_mono with (Q := fun _ s' => s_g s' = s_g s9 /\ good s' R) (B := B); [| |auto].
  - destruct (v_cr m) as [[cr j]|] eqn:EV; simpl.
    + apply wp_bind, wp_bind. eapply wp_load; [exact K9|left; reflexivity|]. apply wp_bind, wp_ret.
      eapply wp_free_opt with (L := (cr, B_cron j) :: R). { eapply good_perm; [exact K9|]. simpl. perm. }
      intros s10 E10 _ K10. eapply wp_free; [exact K10|]. intros s11 E11 _ K11. split; [congruence|exact K11].
    + apply wp_bind, wp_ret. apply wp_free_null. split; auto.
  - intros u s10 (E10 & K10). apply wp_modg. apply Z.
    + simpl. rewrite E10, EE. reflexivity.
    + apply good_g. destruct s10; exact K10.
Qed.

(** The whole of it: networks [l] at [a]. *)
Lemma deinit_ok a l m R s : g_net (s_g s) = Some a -> g_nets (s_g s) = length l -> Forall net_ok l -> rep m (s_g s) ->
  all_sized (v_reg m) (g_m (s_g s)) (g_c (s_g s)) (g_t (s_g s)) -> good s (nets a l ++ own m ++ R) ->
  wp h_deinit (fun _ s' => s_g s' = ended (s_g s) /\ good s' R /\ ~ Exists hollow_t l) (hollow_bad l) s.
Proof.
  intros EG EN OK RP SZ K. rewrite deinit_parts. apply wp_bind.
  eapply clear_memory_ok with (regs := v_reg m); [apply RP|exact SZ|eapply good_perm; [exact K|]; unfold own; rewrite <- !app_assoc; rewrite (Permutation_app_comm (nets a l)), <- !app_assoc; reflexivity|].
  apply wp_bind. eapply wp_mono; [eapply clear_ok; eauto| |intros u Z; exact Z]. intros u s1 (E1 & K1).
  assert (HH : Exists hollow_t (map clr_net l) -> Exists hollow_t l).
  { intro Z. apply Exists_exists in Z as (x & I & Hx). apply in_map_iff in I as (y & <- & I). apply (proj1 (hollow_clr y)) in Hx. apply Exists_exists. exists y. auto. }
  assert (HH2 : Exists hollow_t l -> Exists hollow_t (map clr_net l)).
  { intro Z. apply Exists_exists in Z as (x & I & Hx). apply Exists_exists. exists (clr_net x). split; [apply in_map; auto|]. apply hollow_clr. auto. }
  apply wp_bind. eapply wp_mono; [eapply free_networks_ok with (l := map clr_net l)| |].
  - rewrite E1. exact EG.
  - rewrite E1, map_length. exact EN.
  - apply Forall_forall. intros x I. apply in_map_iff in I as (y & <- & I). rewrite Forall_forall in OK. apply net_ok_clr. auto.
  - exact K1.
  - intros u2 s2 (E2 & K2 & NH). eapply tail_ok; [rewrite E2, E1; exact RP|exact K2|]. intros s3 E3 K3. split; [congruence|]. split; auto.
  - intros u2 [Z1 Z2]. split; auto.
Qed.
