(** The example application: running. *)
From Coq Require Import String.
From Verif Require Export AppEnd P_Sure.
Open Scope list_scope.
Open Scope Z_scope.

Lemma app_endable : endable app_ctx.
Proof. constructor; [exact (lo_sized _ app_laid_out)|exact app_releasable|vm_compute; reflexivity|vm_compute; reflexivity|vm_compute; discriminate|vm_compute; discriminate]. Qed.
(** What loading leaves alone. *)
Lemma loaded_endable c c' : endable c -> c' = set_x_net (x_net c') c -> releasable c' -> endable c'.
Proof.
  intros [S1 R1 IO FO IN OU] K R. rewrite K in *. set (p := x_net c') in *. clearbody p. constructor; auto; try assumption.
Qed.
Lemma task_endable c c' : endable c -> sized c' -> SpecTask.same_program c c' -> endable c'.
Proof.
  intros [S1 R1 IO FO IN OU] S2 SP.
  assert (EQ : forall l, is_layout l -> l <> LExec -> (forall n r col i, l <> LData n r col i) -> peek c' l = peek c l).
  { intros l A B C. apply SP; auto. intros n r col i rows cols X. now apply C in X. }
  assert (Q : x_q c' = x_q c) by (assert (K := EQ LQty I ltac:(discriminate) ltac:(discriminate)); cbn [peek] in K; congruence).
  constructor; auto.
  - destruct R1 as [R1 R2]. split.
    + intros n N. rewrite Q in N. destruct (R1 n N) as (en & rows & cols & K & CE). exists en, rows, cols. rewrite EQ by (discriminate || exact I). split; auto.
      intros r col R C. destruct (CE r col R C) as (bar & i & dq & A & B). exists bar, i, dq. rewrite !EQ by (discriminate || exact I). auto.
    + intros n en rows cols r N. rewrite Q in N. rewrite !EQ by (discriminate || exact I). eauto.
  - assert (K := EQ LIo I ltac:(discriminate) ltac:(discriminate)). cbn [peek] in K. congruence.
  - assert (K := EQ LForeign I ltac:(discriminate) ltac:(discriminate)). cbn [peek] in K. congruence.
  - assert (K := EQ (LInMeta 0) I ltac:(discriminate) ltac:(discriminate)). cbn [peek] in K. destruct (elem (x_in c) 0); [|congruence]. destruct (elem (x_in c') 0); discriminate.
  - assert (K := EQ (LOutMeta 0) I ltac:(discriminate) ltac:(discriminate)). cbn [peek] in K. destruct (elem (x_out c) 0); [|congruence]. destruct (elem (x_out c') 0); discriminate.
Qed.
Lemma loaded_equipped c p : equipped c -> size p = size (x_net c) -> size (x_net c) = Some (VN (q_nets (x_q c))) ->
  (forall n, (n < q_nets (x_q c))%nat -> peek (set_x_net p c) (LRows n) <> None) -> equipped (set_x_net p c).
Proof.
  intros [A B C D I O T W] S1 S2 R. rewrite S2 in S1. unfold size in S1. destruct p as [l|]; [|discriminate]. injection S1 as S1.
  constructor; auto; [discriminate|]. intros n nt K. change (elem (Some l) n = Some nt) in K. cbn [elem obind] in K.
  assert (N : (n < q_nets (x_q c))%nat) by (rewrite <- S1; apply nth_error_Some; congruence). specialize (R n N). cbn [peek] in R. change (net_of (set_x_net (Some l) c) n) with (nth_error l n) in R.
  rewrite K in R. cbn [obind] in R. unfold size in R. intros X; rewrite X in R; apply R; reflexivity.
Qed.
Lemma loaded_fits c p : port_fits true c -> port_fits true (set_x_net p c).
Proof. intros [A B C D F G]. constructor; auto. Qed.
Lemma loaded_tables c p : tables_ok c -> tables_ok (set_x_net p c).
Proof. auto. Qed.
Lemma loaded_operands L al f c c' : checkable c -> releasable c -> json_to_program L al f c = Ok (J_OK, c') -> has_operands c'.
Proof.
  intros K R H n r col bar i dq d (N & en & rows & cols & P & R1 & C1) CE D. destruct (loaded_cells L al f c c' K R H n N) as (nt & O1 & LC). rewrite (net_peek _ _ _ O1) in P. injection P as _ E1 E2.
  destruct (LC r col) as (x & X & _ & _ & DL & _); [lia|lia|]. cbn [peek] in *. rewrite X in *. injection CE as _ _ E3. cbn [obind]. destruct DL as [DL|(vs & V1 & V2)]; [lia|]. rewrite V1. cbn [elem obind].
  destruct (nth_error vs d) as [v|] eqn:V3; [discriminate|]. apply nth_error_None in V3. lia.
Qed.
Lemma loaded_named L al f c c' n r col : checkable c -> releasable c -> json_to_program L al f c = Ok (J_OK, c') -> program_cell c' n r col -> name_of_code (code_at c' n r col) = Ok tt.
Proof.
  intros K R H (N & en & rows & cols & P & R1 & C1). destruct (loaded_cells L al f c c' K R H n N) as (nt & O1 & LC). rewrite (net_peek _ _ _ O1) in P. injection P as _ E1 E2.
  destruct (LC r col) as (x & X & KN & _); [lia|lia|]. rewrite (code_of _ _ _ _ _ X). destruct KN as [KN|KN]; [destruct (c_code x); try contradiction; reflexivity|now rewrite KN].
Qed.
Lemma call_with_ok {A} (f : ctx -> res (A * ctx)) s a c : f (s_ctx s) = Ok (a, c) -> call_with f s = Ok (a, mk_st c (s_tr s)).
Proof. intros H. unfold call_with. rewrite H. reflexivity. Qed.
Lemma lift_ok {A} (r : res A) a s : r = Ok a -> lift r s = Ok (a, s).
Proof. intros ->. reflexivity. Qed.

Section Run.
Variables (keys : nat -> list Z) (al : nat -> nat -> bool) (tv : nat -> Z * Z) (now : nat -> tm) (E : env) (H : host) (d : disk) (n : nat).
Hypothesis P : follows true keys al tv now E.
Hypothesis RT : forall k, real_time (tv k).
Hypothesis CA : forall k, calendar (now k).
Hypothesis SN : forall j, file_of (ho_codec H) (ho_world H 0) d prg_load = F_doc j -> small_numbers j.
(** The machine that was set up. *)
Variable c0 : ctx.
Hypothesis C0 : endable c0.
Hypothesis LO : SpecCheck.laid_out c0.
Hypothesis EQ : equipped c0.
Hypothesis TO : tables_ok c0.
Hypothesis PF : port_fits true c0.
Hypothesis ST : x_state c0 = S_RUNNING.
Hypothesis NZ : size (x_net c0) = Some (VN (q_nets (x_q c0))).
Hypothesis SU : forall js, file_of (ho_codec H) (ho_world H 1) d prg_load = F_doc (JArr js) -> suitable (ho_out H) (ho_load H) js c0.

Lemma save_total c : releasable c -> has_operands c -> no_strings c -> exists x, save_path (ho_codec H) (ho_world H 2) d (ho_out H) (ho_save H) prg_save c = Ok x.
Proof.
  intros R O1 NS. destruct (C54_saves_l (ho_out H) c R O1) as [A _]. destruct (A NS) as [j Q]. unfold save_path. destruct (w_write _ _); [|eauto]. destruct (ho_save H); [eauto|]. rewrite Q. cbn [rbind].
  destruct (k_pretty _ _); eauto.
Qed.
Lemma load_app : exists e c', load_path (ho_codec H) (ho_world H 1) d (ho_out H) (ho_load H) prg_load c0 = Ok (e, c') /\ endable c'
  /\ (e = J_OK -> exists js, file_of (ho_codec H) (ho_world H 1) d prg_load = F_doc (JArr js) /\ c' = set_x_net (x_net c') c0 /\ size (x_net c') = size (x_net c0)).
Proof.
  unfold load_path. destruct (file_of (ho_codec H) (ho_world H 1) d prg_load) as [| |j] eqn:FO.
  - exists J_OPENFILE, c0. split; [reflexivity|]. split; auto. discriminate.
  - exists J_PARSE, c0. split; [reflexivity|]. split; auto. discriminate.
  - destruct j as [|b|dd|t|js|o]; try (exists J_TYPE_INV, c0; split; [reflexivity|]; split; auto; discriminate).
    destruct (SU js eq_refl) as [T1 T2 T3 T4]. destruct (C53_safe_l (ho_out H) (ho_load H) js c0 (en_rel _ C0) T1 T2) as (e & c' & K & _ & R).
    exists e, c'. split; auto. destruct (load_machine _ _ _ _ _ _ (en_rel _ C0) K) as [F1 Z1]. assert (F2 := same_machine _ _ F1). split; [now apply (loaded_endable c0)|]. intros _. exists js. auto.
Qed.
Lemma run_app tr :
  (exists e d' s' l, app_run E H d n (mk_st c0 tr) = Ok ((e, d'), s') /\ endable (s_ctx s') /\ s_tr s' = l ++ tr /\ ~ In EvPanic l)
  \/ exists u, app_run E H d n (mk_st c0 tr) = Bad u /\ arithmetic u.
Proof.
  unfold app_run. destruct (C55_answers_l (ho_cmp H) (file_of (ho_codec H) (ho_world H 0) d prg_load) (file_of (ho_codec H) (ho_world H 0) d prg_schema)) as [_ V].
  destruct V as [v V]. { intros j x F0 X. exact (SN j F0 x X). }
  rewrite (bind_ok _ _ _ _ _ (lift_ok _ v _ V)). destruct v; cbn [negb]; [|left; exists A_schema, d, (mk_st c0 tr), []; auto].
  destruct load_app as (e & c' & K & CE & LD). rewrite (bind_ok _ _ _ _ _ (call_with_ok _ (mk_st c0 tr) e c' K)). cbn [s_tr].
  destruct (is_joked e) eqn:JK; cbn [negb]; [|left; exists (A_load e), d, (mk_st c' tr), []; auto]. assert (e = J_OK) as -> by (destruct e; discriminate || reflexivity).
  destruct (LD eq_refl) as (js & FO & F1 & Z1). clear LD. unfold load_path in K. rewrite FO in K. destruct (SU js FO) as [T1 T2 T3 T4]. specialize (T4 c' K). destruct T4 as [H1 H2 H3 H4 H5 H6 H7 H8].
  rewrite bind_getc. cbn [s_ctx]. assert (CK := lo_checkable _ LO). assert (R0 := en_rel _ C0). assert (OP := loaded_operands _ _ _ _ _ CK R0 K).
  destruct (save_total c' (en_rel _ CE) OP H3) as ([st d1] & SV). rewrite (bind_ok _ _ _ _ _ (lift_ok _ _ _ SV)).
  destruct st; try (left; eexists _, d1, (mk_st c' tr), []; split; [reflexivity|]; auto; fail).
  destruct (compact_path (ho_codec H) (ho_world H 3) d1 prg_save prg_compact) as [st d2] eqn:CP.
  destruct st; try (left; eexists _, d2, (mk_st c' tr), []; split; [reflexivity|]; auto; fail).
  assert (LO' : SpecCheck.laid_out c') by (eapply C57_laid_out_l; eauto). destruct (C40_finishes_l c' (lo_checkable _ LO') H4) as (p & PC & PN & PI). rewrite (bind_ok _ _ _ _ _ (lift_ok _ _ _ PC)).
  destruct p as [p|]; [|exfalso; now apply PN in H6]. destruct (PI p eq_refl) as [PI1 PI2].
  destruct (is_pok (ps_err p)) eqn:PE.
  2: { rewrite PI2. rewrite (bind_ok _ _ _ _ _ (lift_ok _ _ _ (loaded_named _ _ _ _ _ _ _ _ CK R0 K PI1))). left. eexists _, d2, (mk_st c' tr), []. split; [reflexivity|]. auto. }
  destruct (C58_loaded_partial_l _ _ _ _ _ (ho_name H) (ho_print H) CK R0 K H1 H2) as [t PR]. rewrite (bind_ok _ _ _ _ _ (lift_ok _ _ _ PR)).
  assert (AC : accepts c') by (exists p; split; auto; destruct (ps_err p); discriminate || reflexivity).
  assert (CM : complete c') by (eapply loaded_complete; eauto). assert (WF := accepted_wf c' LO' AC CM).
  assert (EQ' : equipped c') by (rewrite F1; apply loaded_equipped; auto; rewrite <- F1; assert (Q : x_q c' = x_q c0) by (rewrite F1; reflexivity); now rewrite <- Q).
  assert (TO' : tables_ok c') by (rewrite F1; exact TO). assert (PF' : port_fits true c') by (rewrite F1; now apply loaded_fits).
  assert (GO : going c') by (left; rewrite F1; exact ST).
  destruct (C64_port_l true keys al tv now E n (mk_st c' tr) P RT CA WF TO' PF' EQ' H8 GO) as [(r & s' & l & TK & W' & SP & TR & NP)|(u & TK & AR)].
  - left. rewrite (bind_ok _ _ _ _ _ TK). exists (A_ran r), d2, s', l. split; [reflexivity|]. split; [|auto]. apply (task_endable c'); auto. apply W'.
  - right. exists u. unfold bind at 1. rewrite TK. auto.
Qed.
End Run.
