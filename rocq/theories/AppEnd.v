(** The example application: releasing the machine, and running a program that was loaded. *)
From Coq Require Import String.
From Verif Require Export AppFacts P_Init P_Flow P_Calm P_Save P_Schema P_Load P_Print P_Check P_Files.
Open Scope list_scope.
Open Scope Z_scope.

(** ** Releasing *)

Definition app_io : hwio := mk_hwio 1 1 (Some [true]) (Some [true]) (Some [true]) (Some [true]).
Definition app_for : foreign := mk_foreign 1 (Some [mk_fdesc 0 (mk_iocd 3 3 3 3) true]).
(** A machine the application can release. *)
Record endable (c : ctx) : Prop := {
  en_sized : sized c;
  en_rel : releasable c;
  en_io : x_io c = app_io;
  en_for : x_for c = app_for;
  en_in : elem (x_in c) 0 <> None;
  en_out : elem (x_out c) 0 <> None }.

Lemma sized_arr c b : sized c -> arr_ok (bank_arr b c) (bank_qty b (x_q c)).
Proof.
  intros [S1 _]. destruct (S1 b) as (k & K & LE). cbn [peek] in K. unfold size in K. destruct (bank_arr b c) as [l|]; [|discriminate]. injection K as <-. exists l. auto.
Qed.
Lemma clear_memory_app c : sized c -> exists p m, clear_memory c = Ok (set_x_prev p (set_x_mem m c)).
Proof.
  intros S1. pose proof (fun b => memset_ok _ _ (sized_arr c b S1)) as H. unfold clear_memory.
  destruct (H B_Mh) as (a1 & E1 & _). destruct (H B_M) as (a2 & E2 & _). destruct (H B_Cdh) as (a3 & E3 & _). destruct (H B_Cd) as (a4 & E4 & _). destruct (H B_Crh) as (a5 & E5 & _).
  destruct (H B_Cr) as (a6 & E6 & _). destruct (H B_Tdh) as (a7 & E7 & _). destruct (H B_Td) as (a8 & E8 & _). destruct (H B_Trh) as (a9 & E9 & _). destruct (H B_Tr) as (a10 & E10 & _).
  cbn [bank_arr bank_qty] in *. rewrite E1, E2, E3, E4, E5, E6, E7, E8, E9, E10. cbn [rbind]. eauto.
Qed.
Lemma clear_cell_total x : data_there x = true -> exists y, clear_cell x = Ok y.
Proof. unfold data_there, clear_cell. destruct (c_data x); [|eauto]. intros H. rewrite H. eauto. Qed.
Lemma free_net_ok nt : net_ok nt -> exists nt', free_net nt = Ok nt'.
Proof.
  intros [A B]. unfold free_net. destruct (pmap_first_ok (n_rows nt) (map_first (n_cols nt) clear_cell) (n_cells nt)) as [p P].
  - intros r R. destruct (elem (n_cells nt) r) as [row|] eqn:RW; [|now apply A in RW].
    destruct (map_first_ok' (n_cols nt) clear_cell row) as [row' M].
    + intros col C. destruct (B r col R C) as (x & X & D). unfold ncell in X. rewrite RW in X. cbn [obind] in X. destruct (clear_cell_total x D) as [y Y]. eauto.
    + eauto.
  - rewrite P. cbn [rbind]. eauto.
Qed.
Lemma free_networks_ok c : nets_ok c -> exists p, free_networks c = Ok (set_x_net p c).
Proof.
  intros H. unfold free_networks. destruct (x_net c) as [l|] eqn:X.
  - destruct (map_first_ok' (q_nets (x_q c)) free_net l) as [l' M].
    + intros n N. destruct (H n N) as (nt & O1 & K). destruct (free_net_ok nt K) as [nt' F]. unfold net_of in O1. rewrite X in O1. cbn [elem obind] in O1. eauto.
    + rewrite M. cbn [rbind]. eauto.
  - exists None. destruct c; simpl in *. now subst.
Qed.
Lemma updc_ok (f : ctx -> res ctx) s c : f (s_ctx s) = Ok c -> updc f s = Ok (tt, mk_st c (s_tr s)).
Proof. intros H. unfold updc. now rewrite H. Qed.

Section Port.
Variables (keys : nat -> list Z) (al : nat -> nat -> bool) (tv : nat -> Z * Z) (now : nat -> tm) (E : env).
Hypothesis F : follows true keys al tv now E.

Lemma end_read s : elem (x_in (s_ctx s)) 0 <> None -> exists p, emit E (EvInitRead 0 false) s = Ok (tt, mk_st (set_x_in p (s_ctx s)) (EvInitRead 0 false :: s_tr s)).
Proof.
  intros I1. destruct s as [c tr]. cbn [s_ctx s_tr] in *. destruct (elem (x_in c) 0) as [im|] eqn:IM; [|congruence].
  destruct (init_read_ok (al (List.length tr)) 0 false c im IM) as [r R]. destruct (init_read_inv _ _ _ _ _ R) as (im2 & _ & _ & SR).
  unfold emit. cbn [s_ctx s_tr]. rewrite (fo_act _ _ _ _ _ _ F _ (EvInitRead 0 false) c (snd r)) by (cbn [port_call]; rewrite R; reflexivity). rewrite SR. eauto.
Qed.
Lemma end_write s : elem (x_out (s_ctx s)) 0 <> None -> exists p, emit E (EvInitWrite 0 false) s = Ok (tt, mk_st (set_x_out p (s_ctx s)) (EvInitWrite 0 false :: s_tr s)).
Proof.
  intros I1. destruct s as [c tr]. cbn [s_ctx s_tr] in *. destruct (elem (x_out c) 0) as [im|] eqn:IM; [|congruence].
  destruct (init_write_ok (al (List.length tr)) 0 false c im IM) as [r R]. destruct (init_write_inv _ _ _ _ _ R) as (im2 & _ & _ & SR).
  unfold emit. cbn [s_ctx s_tr]. rewrite (fo_act _ _ _ _ _ _ F _ (EvInitWrite 0 false) c (snd r)) by (cbn [port_call]; rewrite R; reflexivity). rewrite SR. eauto.
Qed.
Lemma end_foreign c tr : x_for c = app_for -> deinit_foreign E 1 0 (mk_st c tr) = Ok (tt, mk_st c (EvForeignDeinit 0 :: tr)).
Proof.
  intros X. unfold deinit_foreign. rewrite bind_getc. cbn [s_ctx]. rewrite X. change ((0 <? fo_qty app_for)%nat) with true. cbv iota.
  change (pget (fo_fn app_for) (Z.of_nat 0)) with (Ok (mk_fdesc 0 (mk_iocd 3 3 3 3) true)). unfold bind at 1, lift at 1. cbn [f_deinit f_id].
  assert (P : emit E (EvForeignDeinit 0) (mk_st c tr) = Ok (tt, mk_st c (EvForeignDeinit 0 :: tr)))
    by (unfold emit; cbn [s_ctx s_tr]; now rewrite (fo_act _ _ _ _ _ _ F _ (EvForeignDeinit 0) c c)).
  rewrite (bind_ok _ _ _ _ _ P). rewrite bind_getc. cbn [s_ctx]. rewrite X. reflexivity.
Qed.
Lemma end_io_read c tr : x_io c = app_io -> elem (x_in c) 0 <> None -> exists p, deinit_io E true 1 0 (mk_st c tr) = Ok (tt, mk_st (set_x_in p c) (EvInitRead 0 false :: tr)).
Proof.
  intros X I1. destruct (end_read (mk_st c tr) I1) as [p P]. exists p. unfold deinit_io. rewrite bind_getc. cbn [s_ctx]. rewrite X. cbn [io_rq app_io Nat.ltb Nat.leb io_ird].
  change (lift (pget (Some [true]) (Z.of_nat 0))) with (lift (Ok true)). unfold bind at 1, lift at 1. rewrite (bind_ok _ _ _ _ _ P). rewrite bind_getc. cbn [s_ctx].
  change (x_io (set_x_in p c)) with (x_io c). rewrite X. reflexivity.
Qed.
Lemma end_io_write c tr : x_io c = app_io -> elem (x_out c) 0 <> None -> exists p, deinit_io E false 1 0 (mk_st c tr) = Ok (tt, mk_st (set_x_out p c) (EvInitWrite 0 false :: tr)).
Proof.
  intros X I1. destruct (end_write (mk_st c tr) I1) as [p P]. exists p. unfold deinit_io. rewrite bind_getc. cbn [s_ctx]. rewrite X. cbn [io_wq app_io Nat.ltb Nat.leb io_iwr].
  change (lift (pget (Some [true]) (Z.of_nat 0))) with (lift (Ok true)). unfold bind at 1, lift at 1. rewrite (bind_ok _ _ _ _ _ P). rewrite bind_getc. cbn [s_ctx].
  change (x_io (set_x_out p c)) with (x_io c). rewrite X. reflexivity.
Qed.
Lemma deinit_app s : endable (s_ctx s) ->
  exists s', ctx_deinit E s = Ok (tt, s') /\ given_back (s_ctx s') /\ s_tr s' = EvInitWrite 0 false :: EvInitRead 0 false :: EvForeignDeinit 0 :: s_tr s.
Proof.
  intros [S1 R1 IO FO IN OU]. destruct s as [c tr]. cbn [s_ctx s_tr] in *. destruct (clear_memory_app c S1) as (pv & mm & M1).
  set (c1 := set_x_prev pv (set_x_mem mm c)) in *. assert (N1 : nets_ok c1) by (apply releasable_nets in R1; exact R1).
  destruct (clearing_ok c1 N1) as (c2 & M2 & N2). destruct (clear_q _ _ M2) as (Q2 & F2 & _). assert (E2 : c2 = set_x_net (x_net c2) c1) by now apply same_machine.
  destruct (free_networks_ok c2 N2) as (p3 & M3). set (c3 := set_x_net p3 c2) in *.
  assert (I3 : x_io c3 = app_io) by (unfold c3; rewrite E2; exact IO). assert (O3 : x_for c3 = app_for) by (unfold c3; rewrite E2; exact FO).
  assert (A3 : x_in c3 = x_in c) by (unfold c3; rewrite E2; reflexivity). assert (B3 : x_out c3 = x_out c) by (unfold c3; rewrite E2; reflexivity). clearbody c3. clear E2 Q2 F2 N2 N1.
  unfold ctx_deinit. rewrite (bind_ok _ _ _ _ _ (updc_ok clear_memory (mk_st c tr) c1 M1)). rewrite (bind_ok _ _ _ _ _ (updc_ok clear_program (mk_st c1 tr) c2 M2)).
  cbn [s_ctx s_tr]. rewrite (bind_ok _ _ _ _ _ (updc_ok free_networks (mk_st c2 tr) c3 M3)). cbn [s_ctx s_tr].
  unfold bind at 1, modc at 1. cbn [s_ctx s_tr]. rewrite bind_getc. cbn [s_ctx].
  match goal with |- context [mk_st ?x tr] => set (c4 := x) end. change (x_for c4) with (x_for c3). rewrite O3. change (fo_qty app_for) with 1%nat.
  rewrite (bind_ok _ _ _ _ _ (end_foreign c4 tr O3)). unfold bind at 1, modc at 1. cbn [s_ctx s_tr]. rewrite bind_getc. cbn [s_ctx].
  match goal with |- context [mk_st ?x (_ :: tr)] => set (c5 := x) end. change (x_io c5) with (x_io c3). rewrite I3. change (io_rq app_io) with 1%nat.
  destruct (end_io_read c5 (EvForeignDeinit 0 :: tr) I3) as (p6 & M6); [change (x_in c5) with (x_in c3); now rewrite A3|]. rewrite (bind_ok _ _ _ _ _ M6). rewrite bind_getc. cbn [s_ctx].
  set (c6 := set_x_in p6 c5). change (x_io c6) with (x_io c3). rewrite I3. change (io_wq app_io) with 1%nat.
  destruct (end_io_write c6 (EvInitRead 0 false :: EvForeignDeinit 0 :: tr) I3) as (p7 & M7); [change (x_out c6) with (x_out c3); now rewrite B3|]. rewrite (bind_ok _ _ _ _ _ M7).
  eexists. split; [unfold bind, modc; cbn [s_ctx s_tr]; reflexivity|]. cbn [s_ctx s_tr]. split; [|reflexivity].
  constructor; try reflexivity; [intros b; destruct b; reflexivity|auto|repeat split].
Qed.
End Port.

(** ** Loading *)

Lemma load_machine L al f c e c' : releasable c -> json_to_program L al f c = Ok (e, c') -> set_x_net None c' = set_x_net None c /\ size (x_net c') = size (x_net c).
Proof.
  intros R H. unfold json_to_program in H. destruct f as [| |j]; [injection H as <- <-; auto|injection H as <- <-; auto|].
  destruct j; try (injection H as <- <-; auto; fail).
  apply rbind_inv in H as (c1 & C1 & H). destruct (clear_q _ _ C1) as (_ & F1 & Z1). apply rbind_inv in H as ([c2 ok] & C2 & H). destruct (load_frame _ _ _ _ _ _ _ C2) as (_ & F2 & Z2 & _).
  destruct ok; [injection H as <- <-; split; congruence|]. apply rbind_inv in H as (c3 & C3 & H). injection H as <- <-. destruct (clear_q _ _ C3) as (_ & F3 & Z3). split; congruence.
Qed.
