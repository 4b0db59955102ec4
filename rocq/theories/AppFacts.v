(** The machine the example application sets up. *)
From Coq Require Import String.
From Verif Require Export SpecApp PortFacts DemoCheck DemoJson DemoCalm.
Open Scope list_scope.
Open Scope Z_scope.

(** ** The stages *)

Definition stage0 : ctx := snd (ctx_init (fun _ => true) app_args garbage).
Definition grown_in : ctx := set_x_in (Some [inmod0]) (set_x_io (set_io_rd (Some [true]) (set_io_ird (Some [true]) (x_io stage0))) stage0).
Definition stage1 : ctx := set_x_io (mk_hwio 1 0 (Some [true]) None (Some [true]) None) (set_x_in (Some [mk_inmod 0 8 8 zeros8 zeros8 zeros8 None]) stage0).
Definition stage2 : ctx := set_x_io (mk_hwio 1 1 (Some [true]) (Some [true]) (Some [true]) (Some [true])) (set_x_out (Some [mk_outmod 0 8 8 zeros8 zeros8 zeros8 None]) stage1).
Definition stage3 : ctx := set_x_cron (Some (mk_cron (Some (repeat job0 3)) 3 0)) (set_x_h app_hooks stage2).
Definition after_add (en fl : Z) (s : string) (c : ctx) : ctx := match cron_add false en fl (txt s) c with Ok (_, c') => c' | _ => c end.
Definition stage4 : ctx := after_add 10 11 "*/2 * * * * * *" stage3.
Definition stage5 : ctx := after_add 12 13 "*/10 * * * * * *" stage4.
Definition stage6 : ctx := after_add 14 15 "0 58 22 * * * *" stage5.
Lemma added1 : cron_add false 10 11 (txt "*/2 * * * * * *") stage3 = Ok (E_OK, stage4). Proof. vm_compute. reflexivity. Qed.
Lemma added2 : cron_add false 12 13 (txt "*/10 * * * * * *") stage4 = Ok (E_OK, stage5). Proof. vm_compute. reflexivity. Qed.
Lemma added3 : cron_add false 14 15 (txt "0 58 22 * * * *") stage5 = Ok (E_OK, stage6). Proof. vm_compute. reflexivity. Qed.
Definition app_ctx : ctx := set_x_for (mk_foreign 1 (Some [mk_fdesc 0 (mk_iocd 3 3 3 3) true])) (set_x_state S_RUNNING stage6).

Lemma cron_made : cron_init true 3 (set_x_h app_hooks stage2) = Ok (E_OK, stage3). Proof. vm_compute. reflexivity. Qed.
Lemma cron_refused : cron_init false 3 (set_x_h app_hooks stage2) = Bad UB_null. Proof. vm_compute. reflexivity. Qed.
Lemma no_foreign6 : x_for (set_x_state S_RUNNING stage6) = mk_foreign 0 None. Proof. vm_compute. reflexivity. Qed.

Lemma init_app al c : exists c', ctx_init al app_args c = (forallb al (seq 0 (init_allocs 7 3 true)), c') /\ (forallb al (seq 0 (init_allocs 7 3 true)) = true -> c' = stage0).
Proof.
  unfold ctx_init. replace (args_ok app_args) with true by reflexivity. cbv zeta. change (init_allocs (a_rows app_args) (a_nets app_args) (a_init app_args)) with (init_allocs 7 3 true).
  destruct (forallb al _) eqn:A; [eexists; split; [reflexivity|intros _; reflexivity]|eexists; split; [reflexivity|discriminate]].
Qed.

Lemma chain_init E H s s0 : call_with (fun c => Ok (ctx_init (ho_init H) app_args c)) s = Ok (false, s0) -> app_setup E H s = Ok (false, s0).
Proof. intros A. unfold app_setup. now rewrite (bind_ok _ _ _ _ _ A). Qed.
Lemma chain_read E H s s0 s1 : call_with (fun c => Ok (ctx_init (ho_init H) app_args c)) s = Ok (true, s0) -> add_read_fn E (ho_read H) true true s0 = Ok (false, s1) ->
  app_setup E H s = Ok (false, s1).
Proof. intros A B. unfold app_setup. rewrite (bind_ok _ _ _ _ _ A). cbn [negb]. now rewrite (bind_ok _ _ _ _ _ B). Qed.
Lemma chain_write E H s s0 s1 s2 : call_with (fun c => Ok (ctx_init (ho_init H) app_args c)) s = Ok (true, s0) -> add_read_fn E (ho_read H) true true s0 = Ok (true, s1) ->
  add_write_fn E (ho_write H) true true s1 = Ok (false, s2) -> app_setup E H s = Ok (false, s2).
Proof. intros A B C. unfold app_setup. rewrite (bind_ok _ _ _ _ _ A). cbn [negb]. rewrite (bind_ok _ _ _ _ _ B). cbn [negb]. now rewrite (bind_ok _ _ _ _ _ C). Qed.
Lemma chain_cron E H s s0 s1 c2 t : call_with (fun c => Ok (ctx_init (ho_init H) app_args c)) s = Ok (true, s0) -> add_read_fn E (ho_read H) true true s0 = Ok (true, s1) ->
  add_write_fn E (ho_write H) true true s1 = Ok (true, mk_st c2 t) -> cron_init (ho_cron H) 3 (set_x_h app_hooks c2) = Bad UB_null -> app_setup E H s = Bad UB_null.
Proof.
  intros A B C D. unfold app_setup. rewrite (bind_ok _ _ _ _ _ A). cbn [negb]. rewrite (bind_ok _ _ _ _ _ B). cbn [negb]. rewrite (bind_ok _ _ _ _ _ C). cbn [negb].
  unfold bind at 1, modc at 1. cbn [s_ctx s_tr]. unfold bind at 1, call_with at 1. cbn [s_ctx]. now rewrite D.
Qed.
Lemma job_app en fl s c c' tr : cron_add false en fl (txt s) c = Ok (E_OK, c') -> app_job en fl s (mk_st c tr) = Ok (true, mk_st c' tr).
Proof. intros H. unfold app_job, bind, call_with. cbn [s_ctx]. rewrite H. reflexivity. Qed.
Lemma chain_all E H s s0 s1 c2 c3 c4 c5 c6 t b s7 : call_with (fun c => Ok (ctx_init (ho_init H) app_args c)) s = Ok (true, s0) ->
  add_read_fn E (ho_read H) true true s0 = Ok (true, s1) -> add_write_fn E (ho_write H) true true s1 = Ok (true, mk_st c2 t) ->
  cron_init (ho_cron H) 3 (set_x_h app_hooks c2) = Ok (E_OK, c3) -> cron_add false 10 11 (txt "*/2 * * * * * *") c3 = Ok (E_OK, c4) ->
  cron_add false 12 13 (txt "*/10 * * * * * *") c4 = Ok (E_OK, c5) -> cron_add false 14 15 (txt "0 58 22 * * * *") c5 = Ok (E_OK, c6) ->
  add_foreign E (ho_foreign H) true 5 (mk_st (set_x_state S_RUNNING c6) t) = Ok (b, s7) -> app_setup E H s = Ok (b, s7).
Proof.
  intros A B C D J1 J2 J3 F. unfold app_setup. rewrite (bind_ok _ _ _ _ _ A). cbn [negb]. rewrite (bind_ok _ _ _ _ _ B). cbn [negb]. rewrite (bind_ok _ _ _ _ _ C). cbn [negb].
  unfold bind at 1, modc at 1. cbn [s_ctx s_tr]. unfold bind at 1, call_with at 1. cbn [s_ctx]. rewrite D. cbn [rbind fst snd s_tr succeeds negb].
  rewrite (bind_ok _ _ _ _ _ (job_app _ _ _ _ _ _ J1)). cbn [negb]. rewrite (bind_ok _ _ _ _ _ (job_app _ _ _ _ _ _ J2)). cbn [negb].
  rewrite (bind_ok _ _ _ _ _ (job_app _ _ _ _ _ _ J3)). cbn [negb]. unfold bind at 1, set_state at 1, modc at 1. cbn [s_ctx s_tr]. now rewrite (bind_ok _ _ _ _ _ F).
Qed.
Section Setup.
Context (keys : nat -> list Z) (al : nat -> nat -> bool) (tv : nat -> Z * Z) (now : nat -> tm) (E : env) (P : app_port keys al tv now E).

Definition good_at (k : nat) : bool := al k 0%nat && al k 1%nat && al k 2%nat.

Lemma read_app a tr : exists b s', add_read_fn E a true true (mk_st stage0 tr) = Ok (b, s')
  /\ b = a 0%nat && a 1%nat && a 2%nat && good_at (List.length tr) /\ (b = true -> s' = mk_st stage1 (EvInitRead 0 true :: tr)).
Proof.
  unfold add_read_fn. cbn [negb]. rewrite bind_getc. cbn [s_ctx]. change (io_rq (x_io stage0)) with 0%nat. cbn [Nat.leb].
  destruct (a 0%nat); cbn [negb andb]; [|eexists _, _; split; [reflexivity|split; [reflexivity|discriminate]]].
  destruct (a 1%nat); cbn [negb andb]; [|eexists _, _; split; [reflexivity|split; [reflexivity|discriminate]]].
  destruct (a 2%nat); cbn [negb andb]; [|eexists _, _; split; [reflexivity|split; [reflexivity|discriminate]]].
  unfold bind at 1, modc at 1. cbn [s_ctx s_tr]. unfold bind at 1, call_init. cbn [s_tr]. rewrite (ap_init _ _ _ _ _ P). fold (good_at (List.length tr)).
  unfold bind at 1, emit at 1. cbn [s_ctx s_tr]. unfold ret at 1. match goal with |- context [act E _ (EvInitRead 0 true) ?x] => change x with grown_in end.
  destruct (good_at (List.length tr)) eqn:G; [|eexists _, _; split; [reflexivity|split; [reflexivity|discriminate]]].
  rewrite (fo_act _ _ _ _ _ _ (ap_follows _ _ _ _ _ P) (List.length tr) (EvInitRead 0 true) grown_in (set_x_in (Some [mk_inmod 0 8 8 zeros8 zeros8 zeros8 None]) grown_in)).
  - eexists _, _. split; [reflexivity|]. split; reflexivity.
  - cbn [port_call]. unfold dummy_init_read. fold (good_at (List.length tr)). rewrite G. reflexivity.
Qed.
Definition grown_out : ctx := set_x_out (Some [outmod0]) (set_x_io (set_io_wr (Some [true]) (set_io_iwr (Some [true]) (x_io stage1))) stage1).
Lemma write_app a tr : exists b s', add_write_fn E a true true (mk_st stage1 tr) = Ok (b, s')
  /\ b = a 0%nat && a 1%nat && a 2%nat && good_at (List.length tr) /\ (b = true -> s' = mk_st stage2 (EvInitWrite 0 true :: tr)).
Proof.
  unfold add_write_fn. cbn [negb]. rewrite bind_getc. cbn [s_ctx]. change (io_wq (x_io stage1)) with 0%nat. cbn [Nat.leb].
  destruct (a 0%nat); cbn [negb andb]; [|eexists _, _; split; [reflexivity|split; [reflexivity|discriminate]]].
  destruct (a 1%nat); cbn [negb andb]; [|eexists _, _; split; [reflexivity|split; [reflexivity|discriminate]]].
  destruct (a 2%nat); cbn [negb andb]; [|eexists _, _; split; [reflexivity|split; [reflexivity|discriminate]]].
  unfold bind at 1, modc at 1. cbn [s_ctx s_tr]. unfold bind at 1, call_init. cbn [s_tr]. rewrite (ap_init _ _ _ _ _ P). fold (good_at (List.length tr)).
  unfold bind at 1, emit at 1. cbn [s_ctx s_tr]. unfold ret at 1. match goal with |- context [act E _ (EvInitWrite 0 true) ?x] => change x with grown_out end.
  destruct (good_at (List.length tr)) eqn:G; [|eexists _, _; split; [reflexivity|split; [reflexivity|discriminate]]].
  rewrite (fo_act _ _ _ _ _ _ (ap_follows _ _ _ _ _ P) (List.length tr) (EvInitWrite 0 true) grown_out (set_x_out (Some [mk_outmod 0 8 8 zeros8 zeros8 zeros8 None]) grown_out)).
  - eexists _, _. split; [reflexivity|]. split; reflexivity.
  - cbn [port_call]. unfold dummy_init_write. fold (good_at (List.length tr)). rewrite G. reflexivity.
Qed.
Lemma foreign_app a c tr : x_for c = mk_foreign 0 None ->
  if a : bool then add_foreign E a true 5 (mk_st c tr) = Ok (true, mk_st (set_x_for (mk_foreign 1 (Some [mk_fdesc 0 (mk_iocd 3 3 3 3) true])) c) (EvForeignInit 5 :: tr))
  else exists s', add_foreign E a true 5 (mk_st c tr) = Ok (false, s').
Proof.
  intros F0. assert (ST : forall a : bool, add_foreign E a true 5 (mk_st c tr)
    = (let (good, d) := dummy_init (mk_fdesc 0 (mk_iocd 0 0 0 0) false) in
       if good && a then modc (fun c => set_x_for (mk_foreign (S (fo_qty (x_for c))) (grow (fo_qty (x_for c)) (fo_fn (x_for c)) d)) c) ;;; ret true
       else (if f_deinit d then emit E (EvForeignDeinit (f_id d)) else ret tt) ;;; ret false) (mk_st c (EvForeignInit 5 :: tr))).
  { intros a0. unfold add_foreign. cbn [negb]. rewrite bind_getc. cbn [s_ctx]. rewrite F0. cbn [fo_qty]. change ((5 =? 0) || (100 <? u32 (Z.of_nat 0 + 5))) with false. cbv iota.
    unfold bind at 1. cbn [s_tr]. rewrite (ap_foreign _ _ _ _ _ P). unfold bind at 1, emit at 1. cbn [s_ctx s_tr]. unfold ret at 1.
    rewrite (fo_act _ _ _ _ _ _ (ap_follows _ _ _ _ _ P) _ (EvForeignInit 5) c c) by reflexivity. reflexivity. }
  destruct a; rewrite ST; cbn [dummy_init andb].
  - unfold bind, modc, ret. cbn [s_ctx s_tr]. rewrite F0. reflexivity.
  - unfold bind, emit, ret. cbn [f_deinit s_ctx s_tr]. eexists. reflexivity.
Qed.

(** Whether there is memory for the parts: the machine and its modules, and the foreign function. *)
Definition parts_there (H : host) (k : nat) : bool :=
  forallb (ho_init H) (seq 0 (init_allocs 7 3 true)) && (ho_read H 0%nat && ho_read H 1%nat && ho_read H 2%nat && good_at k)
  && (ho_write H 0%nat && ho_write H 1%nat && ho_write H 2%nat && good_at (S k)).
Lemma setup_app H c tr :
  if parts_there H (List.length tr) then
    if ho_cron H then
      if ho_foreign H then app_setup E H (mk_st c tr) = Ok (true, mk_st app_ctx (EvForeignInit 5 :: EvInitWrite 0 true :: EvInitRead 0 true :: tr))
      else exists s', app_setup E H (mk_st c tr) = Ok (false, s')
    else app_setup E H (mk_st c tr) = Bad UB_null
  else exists s', app_setup E H (mk_st c tr) = Ok (false, s').
Proof.
  unfold parts_there. destruct (init_app (ho_init H) c) as (c0 & I0 & I1).
  assert (X0 : call_with (fun c => Ok (ctx_init (ho_init H) app_args c)) (mk_st c tr) = Ok (forallb (ho_init H) (seq 0 (init_allocs 7 3 true)), mk_st c0 tr))
    by (unfold call_with; cbn [s_ctx s_tr]; rewrite I0; reflexivity).
  clear I0. destruct (forallb (ho_init H) _); cbn [andb]; [|exists (mk_st c0 tr); exact (chain_init E H _ _ X0)]. rewrite (I1 eq_refl) in X0. clear I1 c0.
  destruct (read_app (ho_read H) tr) as (b1 & s1 & R1 & B1 & R1'). rewrite <- B1.
  destruct b1; cbn [andb]; [|exists s1; exact (chain_read E H _ _ _ X0 R1)]. rewrite (R1' eq_refl) in R1. clear B1 R1' s1.
  destruct (write_app (ho_write H) (EvInitRead 0 true :: tr)) as (b2 & s2 & R2 & B2 & R2'). cbn [List.length] in B2. rewrite <- B2.
  destruct b2; [|exists s2; exact (chain_write E H _ _ _ _ X0 R1 R2)]. rewrite (R2' eq_refl) in R2. clear B2 R2' s2.
  destruct (ho_cron H) eqn:HC.
  2: { apply (chain_cron E H _ _ _ _ _ X0 R1 R2). rewrite HC. exact cron_refused. }
  assert (F := foreign_app (ho_foreign H) (set_x_state S_RUNNING stage6) (EvInitWrite 0 true :: EvInitRead 0 true :: tr) no_foreign6).
  assert (D : cron_init (ho_cron H) 3 (set_x_h app_hooks stage2) = Ok (E_OK, stage3)) by (rewrite HC; exact cron_made). destruct (ho_foreign H) eqn:HF.
  - assert (F' : add_foreign E (ho_foreign H) true 5 (mk_st (set_x_state S_RUNNING stage6) (EvInitWrite 0 true :: EvInitRead 0 true :: tr)) = Ok (true, mk_st app_ctx (EvForeignInit 5 :: EvInitWrite 0 true :: EvInitRead 0 true :: tr)))
      by (rewrite HF; exact F).
    exact (chain_all E H _ _ _ _ _ _ _ _ _ _ _ X0 R1 R2 D added1 added2 added3 F').
  - destruct F as [s7 F]. rewrite <- HF in F at 1. exists s7. exact (chain_all E H _ _ _ _ _ _ _ _ _ _ _ X0 R1 R2 D added1 added2 added3 F).
Qed.
End Setup.

(** ** The machine *)

Definition app_jobs : cron := match x_cron app_ctx with Some k => k | None => mk_cron None 0 0 end.
Definition full_mapb (k : cronmap) : bool :=
  ((List.length (k_sec k) =? 8) && (List.length (k_min k) =? 8) && (List.length (k_hour k) =? 3) && (List.length (k_mday k) =? 4) && (List.length (k_mon k) =? 2) && (List.length (k_wday k) =? 1) && (List.length (k_year k) =? 13))%nat.
Lemma full_mapb_ok k : full_mapb k = true -> full_map k.
Proof. unfold full_mapb, full_map. rewrite !andb_true_iff, !Nat.eqb_eq. tauto. Qed.
Definition jobb (n : nat) (j : job) : bool := full_mapb (j_map j) && (0 <=? j_enreg j) && (j_enreg j <? Z.of_nat n) && (0 <=? j_flag j) && (j_flag j <? Z.of_nat n).
Lemma app_table : table_ok 18 app_jobs.
Proof.
  assert (A : listb (jobb 18) (cr_jobs app_jobs) = true) by (vm_compute; reflexivity).
  assert (B : forall i j, slot app_jobs i = Some j -> full_map (j_map j) /\ inside_m 18 j).
  { intros i j S1. assert (K := listb_ok (jobb 18) _ i j A). unfold elem in K. unfold slot in S1. destruct (cr_jobs app_jobs) as [js|]; [|discriminate]. specialize (K S1).
    unfold jobb in K. rewrite !andb_true_iff, !Z.leb_le, !Z.ltb_lt in K. destruct K as ((((K1 & K2) & K3) & K4) & K5). split; [now apply full_mapb_ok|split; split; auto]. }
  constructor.
  - vm_compute. reflexivity.
  - vm_compute. auto.
  - intros i j K. exact (proj1 (B i j K)).
  - intros i j _ K. exact (proj2 (B i j K)).
Qed.
Lemma app_extras : extras_ok app_ctx.
Proof.
  split.
  - intros k K. cbn [peek] in K. assert (K1 : x_cron app_ctx = Some k) by congruence. assert (k = app_jobs) by (unfold app_jobs; now rewrite K1). subst. exact app_table.
  - intros f F i I1. cbn [peek] in F. injection F as <-. change (x_for app_ctx) with (mk_foreign 1 (Some [mk_fdesc 0 (mk_iocd 3 3 3 3) true])) in *. cbn [fo_qty fo_fn] in *.
    assert (i = 0%nat) by lia. subst. discriminate.
Qed.
Lemma app_laid_out : laid_out app_ctx.
Proof.
  constructor.
  - apply bank_sizesb_ok. vm_compute. reflexivity.
  - apply modulesb_ok. vm_compute. reflexivity.
  - exact app_extras.
  - apply typedb_ok. vm_compute. reflexivity.
  - split; [vm_compute; discriminate|]. intros k K. assert (k = 3%nat) by (vm_compute in K; congruence). subst. lia.
  - intros n rows cols [N K]. exfalso. change (q_nets (x_q app_ctx)) with 3%nat in N. destruct n as [|[|[|n]]]; try (vm_compute in K; discriminate). lia.
  - apply checkableb_ok. vm_compute. reflexivity.
Qed.
Lemma app_releasable : releasable app_ctx. Proof. apply releasableb_ok. vm_compute. reflexivity. Qed.
Lemma app_equipped : equipped app_ctx. Proof. apply equippedb_ok. vm_compute. reflexivity. Qed.
Lemma app_tables : tables_ok app_ctx. Proof. apply tablesb_ok. vm_compute. reflexivity. Qed.
Lemma app_fits : port_fits true app_ctx.
Proof.
  constructor; try (vm_compute; lia); try reflexivity; intros [|m] M; try (vm_compute in M; lia); exists 0, 8%nat, 8%nat; split; try reflexivity; try lia.
Qed.

Definition rangeb (lo : Z) (n : nat) (f : Z -> bool) : bool := forallb (fun i => f (lo + Z.of_nat i)) (seq 0 n).
Lemma rangeb_ok lo n f z : rangeb lo n f = true -> lo <= z < lo + Z.of_nat n -> f z = true.
Proof. intros H Z0. unfold rangeb in H. rewrite forallb_forall in H. specialize (H (Z.to_nat (z - lo))). rewrite <- H; [f_equal; lia|apply in_seq; lia]. Qed.
Definition app_maps : list cronmap := match x_cron app_ctx with Some k => match cr_jobs k with Some js => map j_map js | None => [] end | None => [] end.
Definition app_map (i : nat) : cronmap := nth i app_maps map0.
(** The map of a job by what its fields contain. *)
Definition map_is (k : cronmap) (fs fm fh : Z -> bool) : bool :=
  rangeb 0 61 (fun z => Bool.eqb (bit_on (k_sec k) z) (fs z)) && rangeb 0 60 (fun z => Bool.eqb (bit_on (k_min k) z) (fm z)) && rangeb 0 24 (fun z => Bool.eqb (bit_on (k_hour k) z) (fh z))
  && rangeb 1 31 (bit_on (k_mday k)) && rangeb 1 12 (bit_on (k_mon k)) && rangeb 0 7 (bit_on (k_wday k)) && rangeb 0 101 (bit_on (k_year k)).
Lemma map_is_ok k fs fm fh t : map_is k fs fm fh = true -> calendar t -> matches t k = fs (tm_sec t) && fm (tm_min t) && fh (tm_hour t).
Proof.
  unfold map_is. rewrite !andb_true_iff. intros ((((((A & B) & C) & D) & F) & G) & Y) (T1 & T2 & T3 & T4 & T5 & T6 & T7). unfold matches.
  rewrite (rangeb_ok _ _ _ _ D), (rangeb_ok _ _ _ _ F), (rangeb_ok _ _ _ _ G), (rangeb_ok _ _ _ _ Y) by lia. rewrite !andb_true_r.
  apply (rangeb_ok _ _ _ (tm_sec t)) in A; [|lia]. apply (rangeb_ok _ _ _ (tm_min t)) in B; [|lia]. apply (rangeb_ok _ _ _ (tm_hour t)) in C; [|lia].
  apply Bool.eqb_prop in A, B, C. now rewrite A, B, C.
Qed.
Definition blankb (c : ctx) (n r col : nat) : bool :=
  match cell_of c n r col with Some x => negb (c_state x) && negb (c_bar x) && (match c_code x with I_NOP => true | _ => false end) && is_null (c_data x) | None => false end.
Lemma blankb_ok c n r col : blankb c n r col = true -> blank c n r col.
Proof.
  unfold blankb, blank, powered. cbn [peek]. destruct (cell_of c n r col) as [x|]; [|discriminate]. rewrite !andb_true_iff, !negb_true_iff. intros (((A & B) & C) & D).
  cbn. rewrite A, B. destruct (c_code x); try discriminate. destruct (c_data x); [discriminate|]. repeat split. eexists. reflexivity.
Qed.
Definition zero_all (c : ctx) : bool := forallb (fun b => forallb (fun i => match elem (bank_arr b c) i with Some 0 => true | _ => false end) (seq 0 (bank_qty b (x_q c)))) banks.
Lemma zero_all_ok c : zero_all c = true -> forall b i, (i < bank_qty b (x_q c))%nat -> holds c (LReg b i) 0.
Proof.
  unfold zero_all. rewrite forallb_forall. intros H b i I1. specialize (H b ltac:(destruct b; simpl; auto 20)). assert (K := forallb_seq _ _ H i I1). cbv beta in K.
  unfold holds. cbn [peek]. destruct (elem _ i) as [z|]; [|discriminate]. destruct z; try discriminate. reflexivity.
Qed.
Lemma app_is_machine : app_machine app_ctx.
Proof.
  constructor; try reflexivity.
  - repeat split; reflexivity.
  - apply zero_all_ok. vm_compute. reflexivity.
  - intros i I1. do 8 (destruct i as [|i]; [split; vm_compute; reflexivity|]). lia.
  - eexists. split; vm_compute; reflexivity.
  - split; [reflexivity|]. split; [reflexivity|]. split; [vm_compute; reflexivity|]. eexists. split; [vm_compute; reflexivity|]. repeat split.
  - eexists. split; [vm_compute; reflexivity|]. repeat split.
  - intros n N. assert (A : forallb (fun n => forallb (fun r => forallb (fun col => blankb app_ctx n r col) (seq 0 6)) (seq 0 7)) (seq 0 3) = true) by (vm_compute; reflexivity).
    split; [destruct n as [|[|[|n]]]; try reflexivity; lia|]. intros r col R C. assert (K := forallb_seq _ _ A n N). cbv beta in K. assert (K1 := forallb_seq _ _ K r R). cbv beta in K1.
    apply blankb_ok. exact (forallb_seq _ _ K1 col C).
  - repeat split; reflexivity.
  - exists (mk_cron (Some [mk_job true false 10 11 (app_map 0); mk_job true false 12 13 (app_map 1); mk_job true false 14 15 (app_map 2)]) 3 3), (app_map 0), (app_map 1), (app_map 2).
    split; [vm_compute; reflexivity|]. split; [reflexivity|]. split; [reflexivity|]. intros t T.
    rewrite (map_is_ok (app_map 0) (fun z => (z <? 60) && (z mod 2 =? 0)) (fun _ => true) (fun _ => true) t ltac:(vm_compute; reflexivity) T).
    rewrite (map_is_ok (app_map 1) (fun z => (z <? 60) && (z mod 10 =? 0)) (fun _ => true) (fun _ => true) t ltac:(vm_compute; reflexivity) T).
    rewrite (map_is_ok (app_map 2) (fun z => z =? 0) (fun z => z =? 58) (fun z => z =? 22) t ltac:(vm_compute; reflexivity) T).
    cbv beta. rewrite !andb_true_r, !andb_true_iff, !Z.ltb_lt, !Z.eqb_eq. tauto.
  - exists (mk_foreign 1 (Some [mk_fdesc 0 (mk_iocd 3 3 3 3) true])), (mk_fdesc 0 (mk_iocd 3 3 3 3) true). repeat split; vm_compute; reflexivity.
Qed.
