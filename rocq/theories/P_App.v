(** the example application (C69). *)
From Coq Require Import String.
From Verif Require Export SpecApp AppShip P_Files Shipped DemoApp.
Open Scope list_scope.
Open Scope Z_scope.

Lemma call_inv {A} (f : ctx -> res (A * ctx)) s a s' : call_with f s = Ok (a, s') -> f (s_ctx s) = Ok (a, s_ctx s') /\ s_tr s' = s_tr s.
Proof. unfold call_with. destruct (f (s_ctx s)) as [[x c]| |]; cbn; try discriminate. intros K. injection K as <- <-. auto. Qed.
Lemma lift_inv {A} (r : res A) s a s' : lift r s = Ok (a, s') -> r = Ok a /\ s' = s.
Proof. unfold lift. destruct r; try discriminate. intros K. injection K as <- <-. auto. Qed.
(** What the application has done when it ends in each of the ways. *)
Lemma run_inv E H d n s e d' s' : app_run E H d n s = Ok ((e, d'), s') ->
  exists v, validate_path (ho_codec H) (ho_world H 0) d (ho_cmp H) prg_load prg_schema = Ok v /\
  if negb v then e = A_schema /\ d' = d /\ s' = s else
  exists je c, load_path (ho_codec H) (ho_world H 1) d (ho_out H) (ho_load H) prg_load (s_ctx s) = Ok (je, c) /\
  if negb (is_joked je) then e = A_load je /\ d' = d /\ s' = mk_st c (s_tr s) else
  exists st d1, save_path (ho_codec H) (ho_world H 2) d (ho_out H) (ho_save H) prg_save c = Ok (st, d1) /\
  (if match st with ST_ok => true | _ => false end then
     exists st2, compact_path (ho_codec H) (ho_world H 3) d1 prg_save prg_compact = (st2, d') /\
     if match st2 with ST_ok => true | _ => false end then
       exists p, program_check c = Ok (Some p) /\
       if is_pok (ps_err p) then exists r, e = A_ran r /\ (exists t, ladder_print (ho_name H) (ho_print H) c = Ok t) /\ ladder_task E n (mk_st c (s_tr s)) = Ok (r, s')
       else e = A_check p /\ s' = mk_st c (s_tr s)
     else e = A_compact st2 /\ s' = mk_st c (s_tr s)
   else e = A_save st /\ d' = d1 /\ s' = mk_st c (s_tr s)).
Proof.
  intros K. unfold app_run in K. apply Lib.bind_inv in K as (v & s1 & K1 & K). apply lift_inv in K1 as [K1 ->]. exists v. split; [exact K1|]. destruct v; cbn [negb] in *; [|injection K as <- <- <-; auto].
  apply Lib.bind_inv in K as (je & s2 & K2 & K). apply call_inv in K2 as [K2 T2]. exists je, (s_ctx s2). split; [exact K2|].
  assert (S2 : s2 = mk_st (s_ctx s2) (s_tr s)) by (destruct s2 as [c2 t2]; cbn in T2; now rewrite T2).
  destruct (is_joked je); cbn [negb] in *; [|injection K as <- <- <-; auto].
  rewrite bind_getc in K. apply Lib.bind_inv in K as ([st d1] & s3 & K3 & K). apply lift_inv in K3 as [K3 ->]. exists st, d1. split; [exact K3|].
  destruct st; try (injection K as <- <- <-; auto). destruct (compact_path (ho_codec H) (ho_world H 3) d1 prg_save prg_compact) as [st2 d2] eqn:CP.
  exists st2. destruct st2; try (injection K as <- <- <-; split; auto). 
  apply Lib.bind_inv in K as (p & s4 & K4 & K). apply lift_inv in K4 as [K4 ->]. destruct p as [p|]; [|discriminate].
  destruct (is_pok (ps_err p)) eqn:PE.
  - apply Lib.bind_inv in K as (t & s5 & K5 & K). apply lift_inv in K5 as [K5 ->]. apply Lib.bind_inv in K as (r & s6 & K6 & K). injection K as <- <- <-. split; auto. exists p. split; auto. rewrite PE.
    exists r. rewrite S2 in K6. eauto.
  - apply Lib.bind_inv in K as (t & s5 & K5 & K). apply lift_inv in K5 as [K5 ->]. injection K as <- <- <-. split; auto. exists p. split; auto. rewrite PE. auto.
Qed.
Lemma run_not_failed E H d n s e d' s' : app_run E H d n s = Ok ((e, d'), s') -> e <> A_failed.
Proof.
  intros K. apply run_inv in K as (v & _ & K). destruct v; cbn [negb] in K; [|destruct K as [-> _]; discriminate]. destruct K as (je & c & _ & K).
  destruct (is_joked je); cbn [negb] in K; [|destruct K as [-> _]; discriminate]. destruct K as (st & d1 & _ & K). destruct st; cbv iota in K; try (destruct K as [-> _]; discriminate).
  destruct K as (st2 & _ & K). destruct st2; cbv iota in K; try (destruct K as [-> _]; discriminate). destruct K as (p & _ & K). destruct (is_pok (ps_err p)); [destruct K as (r & -> & _)|destruct K as [-> _]]; discriminate.
Qed.
Lemma main_inv E H d n s e d' s' : app_main E H d n s = Ok ((e, d'), s') ->
  (app_setup E H s = Ok (false, s') /\ e = A_failed /\ d' = d)
  \/ exists s1 s2, app_setup E H s = Ok (true, s1) /\ app_run E H d n s1 = Ok ((e, d'), s2) /\ e <> A_failed
       /\ ((e = A_ran Running /\ s' = s2) \/ (e <> A_ran Running /\ ctx_deinit E s2 = Ok (tt, s'))).
Proof.
  intros K. unfold app_main in K. apply Lib.bind_inv in K as (b & s1 & K1 & K). destruct b; cbn [negb] in K.
  2: { injection K as <- <- <-. left. auto. }
  right. apply Lib.bind_inv in K as ([e1 d1] & s2 & K2 & K). cbn [fst] in K. exists s1, s2. split; auto.
  assert (NF : e1 <> A_failed) by exact (run_not_failed _ _ _ _ _ _ _ _ K2).
  destruct e1 as [| | | | | |r]; [congruence|..]; try (apply Lib.bind_inv in K as ([] & s3 & K3 & K); injection K as <- <- <-; split; auto; split; [discriminate|right; split; [discriminate|auto]]).
  destruct r; try (apply Lib.bind_inv in K as ([] & s3 & K3 & K); injection K as <- <- <-; split; auto; split; [discriminate|right; split; [discriminate|auto]]).
  injection K as <- <- <-. auto 6.
Qed.

Lemma in_service ev l : Forall service_event l -> In ev l -> service_event ev. Proof. intros F. rewrite Forall_forall in F. apply F. Qed.
Lemma made : Forall service_event [EvForeignInit 5; EvInitWrite 0 true; EvInitRead 0 true]. Proof. repeat constructor. Qed.
Lemma unmade : Forall service_event [EvInitWrite 0 false; EvInitRead 0 false; EvForeignDeinit 0]. Proof. repeat constructor. Qed.

Lemma setup_ctx keys al tv now E H s s' : app_port keys al tv now E -> app_setup E H s = Ok (true, s') -> s' = mk_st app_ctx (EvForeignInit 5 :: EvInitWrite 0 true :: EvInitRead 0 true :: s_tr s).
Proof.
  intros P K. destruct s as [c tr]. assert (X := setup_app keys al tv now E P H c tr).
  destruct (parts_there al H (List.length tr)); [destruct (ho_cron H); [destruct (ho_foreign H)|]|]; try (let s2 := fresh in destruct X as [s2 X]; rewrite K in X; discriminate X); rewrite K in X; try discriminate X. exact (f_equal (fun r => match r with Ok (_, s) => s | _ => s' end) X).
Qed.
Lemma run_steps E H d n c tr c' d1 d2 p t r s2 :
  validate_path (ho_codec H) (ho_world H 0) d (ho_cmp H) prg_load prg_schema = Ok true ->
  load_path (ho_codec H) (ho_world H 1) d (ho_out H) (ho_load H) prg_load c = Ok (J_OK, c') ->
  save_path (ho_codec H) (ho_world H 2) d (ho_out H) (ho_save H) prg_save c' = Ok (ST_ok, d1) ->
  compact_path (ho_codec H) (ho_world H 3) d1 prg_save prg_compact = (ST_ok, d2) ->
  program_check c' = Ok (Some p) -> ps_err p = P_OK -> ladder_print (ho_name H) (ho_print H) c' = Ok t ->
  ladder_task E n (mk_st c' tr) = Ok (r, s2) -> app_run E H d n (mk_st c tr) = Ok ((A_ran r, d2), s2).
Proof.
  intros A1 A2 A3 A4 A5 A6 A7 A8. unfold app_run. rewrite (bind_ok _ _ _ _ _ (lift_ok _ _ _ A1)). cbn [negb]. rewrite (bind_ok _ _ _ _ _ (call_with_ok _ (mk_st c tr) _ _ A2)). cbn [is_joked negb s_tr].
  rewrite bind_getc. cbn [s_ctx]. rewrite (bind_ok _ _ _ _ _ (lift_ok _ _ _ A3)), A4. rewrite (bind_ok _ _ _ _ _ (lift_ok _ _ _ A5)), A6. cbn [is_pok]. rewrite (bind_ok _ _ _ _ _ (lift_ok _ _ _ A7)), (bind_ok _ _ _ _ _ A8). reflexivity.
Qed.

(** ** C69 *)
(** C69: if the setup succeeds, the machine is the one intended: three jobs, for every second second, every tenth second and 22:58:00, one
    module of each kind, empty networks, registers of 0, every hook and limit as the source gives them. It is laid out as the checker, the loader and the task need. *)
Lemma C69_setup_l : forall keys al tv now E H s s', app_port keys al tv now E -> app_setup E H s = Ok (true, s') ->
  app_machine (s_ctx s') /\ SpecCheck.laid_out (s_ctx s') /\ releasable (s_ctx s') /\ equipped (s_ctx s')
  /\ s_tr s' = EvForeignInit 5 :: EvInitWrite 0 true :: EvInitRead 0 true :: s_tr s.
Proof.
  intros keys al tv now E H s s' P K. assert (X := setup_ctx _ _ _ _ _ _ _ _ P K).
  clear K. subst s'. split; [exact app_is_machine|]. split; [exact app_laid_out|]. split; [exact app_releasable|]. split; [exact app_equipped|reflexivity].
Qed.
(*EX
Example C69_example_setup : exists s', app_port (fun _ => []) ap_al ap_clock ap_now (ap_env (fun _ => []))
  /\ app_setup (ap_env (fun _ => [])) (ap_host demo_json shipped ap_outside true) (mk_st garbage []) = Ok (true, s') /\ app_machine (s_ctx s').
Proof.
  destruct (C69_memory_l _ _ _ _ _ (ap_host demo_json shipped ap_outside true) (mk_st garbage []) (ap_port (fun _ => [])) (ap_memory _ _ _ _)) as [s' K].
  exists s'. split; [apply ap_port|]. split; [exact K|]. exact (proj1 (C69_setup _ _ _ _ _ _ _ _ (ap_port _) K)).
Qed.
EX*)
(** C69: with memory for everything the setup succeeds. *)
Lemma C69_memory_l : forall keys al tv now E H s, app_port keys al tv now E -> memory_for_setup H al (List.length (s_tr s)) ->
  exists s', app_setup E H s = Ok (true, s').
Proof.
  intros keys al tv now E H [c tr] P (M1 & M2 & M3 & M4 & M5 & M6). assert (X := setup_app keys al tv now E P H c tr). cbn [s_tr] in M6.
  assert (Y : parts_there al H (List.length tr) = true).
  { unfold parts_there, good_at. rewrite !M2, !M3, !(proj1 (M6 _)), !(proj2 (M6 _)). assert (Z1 : forallb (ho_init H) (seq 0 (init_allocs 7 3 true)) = true) by (apply forallb_forall; auto). now rewrite Z1. }
  rewrite Y, M4, M5 in X. eexists. exact X.
Qed.
(*EX
(** One refused allocation makes the setup fail. *)
Example C69_example_memory : memory_for_setup (ap_host demo_json shipped ap_outside true) ap_al 0
  /\ forall L, exists s', app_setup (ap_env (fun _ => [])) (mk_host (fun _ => true) (fun i => negb (Nat.eqb i 1)) (fun _ => true) true true (fun _ => true) None (fun _ => true) (fun _ => ap_world) (ap_codec demo_json shipped) cmp_text L (fun _ => [])) ap_start = Ok (false, s').
Proof. split; [apply ap_memory|]. intros L. eexists. vm_compute. reflexivity. Qed.
EX*)
(** C69, finding: if only the memory for the table of jobs is refused, the setup does not fail but follows a null pointer. *)
Lemma C69_cron_actual_l : forall keys al tv now E H s, app_port keys al tv now E ->
  memory_for_setup (mk_host (ho_init H) (ho_read H) (ho_write H) true true (ho_load H) (ho_save H) (ho_print H) (ho_world H) (ho_codec H) (ho_cmp H) (ho_out H) (ho_name H)) al (List.length (s_tr s)) ->
  ho_cron H = false -> app_setup E H s = Bad UB_null.
Proof.
  intros keys al tv now E H [c tr] P (M1 & M2 & M3 & _ & _ & M6) HC. assert (X := setup_app keys al tv now E P H c tr). cbn [s_tr ho_init ho_read ho_write] in *.
  assert (Y : parts_there al H (List.length tr) = true).
  { unfold parts_there, good_at. rewrite !M2, !M3, !(proj1 (M6 _)), !(proj2 (M6 _)). assert (Z1 : forallb (ho_init H) (seq 0 (init_allocs 7 3 true)) = true) by (apply forallb_forall; auto). now rewrite Z1. }
  rewrite Y, HC in X. exact X.
Qed.
(*EX
Example C69_example_cron : ho_cron (ap_host demo_json shipped ap_outside false) = false
  /\ app_setup (ap_env (fun _ => [])) (ap_host demo_json shipped ap_outside false) ap_start = Bad UB_null.
Proof.
  split; [reflexivity|]. exact (C69_cron_actual _ _ _ _ _ (ap_host demo_json shipped ap_outside false) ap_start (ap_port _) (ap_memory _ _ _ _) eq_refl).
Qed.
EX*)
(** C69: what each ending means. Whatever the modules, clocks, files and the library do: a program is run only if the document
    was valid by the schema, was loaded, was saved, was compacted, and passes the checker; and every error reported is the
    one that the step before it returned. *)
Lemma C69_endings_l : forall E H d n s e d' s', app_main E H d n s = Ok ((e, d'), s') ->
  let f i p := file_of (ho_codec H) (ho_world H i) d p in
  match e with
  | A_failed => app_setup E H s = Ok (false, s')
  | A_schema => validate_file (ho_cmp H) (f 0%nat prg_load) (f 0%nat prg_schema) = Ok false
  | _ =>
      validate_file (ho_cmp H) (f 0%nat prg_load) (f 0%nat prg_schema) = Ok true
      /\ exists s1 c je, app_setup E H s = Ok (true, s1) /\ json_to_program (ho_out H) (ho_load H) (f 1%nat prg_load) (s_ctx s1) = Ok (je, c)
         /\ match e with
            | A_load x => je = x /\ x <> J_OK
            | A_save x => je = J_OK /\ x <> ST_ok /\ save_path (ho_codec H) (ho_world H 2) d (ho_out H) (ho_save H) prg_save c = Ok (x, d')
            | _ => je = J_OK /\ exists d1, save_path (ho_codec H) (ho_world H 2) d (ho_out H) (ho_save H) prg_save c = Ok (ST_ok, d1)
                   /\ match e with
                      | A_compact x => x <> ST_ok /\ compact_path (ho_codec H) (ho_world H 3) d1 prg_save prg_compact = (x, d')
                      | A_check p => ~ accepts c /\ ps_err p <> P_OK /\ program_check c = Ok (Some p)
                      | A_ran r => accepts c /\ exists s2, ladder_task E n (mk_st c (s_tr s1)) = Ok (r, s2)
                      | _ => True
                      end
            end
  end.
Proof.
  intros E H d n s e d' s' K f. apply main_inv in K as [(A & -> & _)|(s1 & s2 & A & K & NF & _)]; [exact A|].
  apply run_inv in K as (v & V & K). destruct v; cbn [negb] in K; [|destruct K as (-> & _); exact V].
  destruct K as (je & c & LD & K). unfold load_path in LD. destruct (is_joked je) eqn:JE; cbn [negb] in K.
  2: { destruct K as (-> & _). split; [exact V|]. exists s1, c, je. split; auto. split; auto. split; auto. intros ->. discriminate. }
  assert (je = J_OK) as -> by (destruct je; discriminate || reflexivity). destruct K as (st & d1 & SV & K).
  destruct st; cbv iota in K; try (destruct K as (-> & -> & _); split; [exact V|]; exists s1, c, J_OK; split; auto; split; auto; split; auto; split; [discriminate|exact SV]).
  destruct K as (st2 & CP & K).
  destruct st2; cbv iota in K; try (destruct K as (-> & _); split; [exact V|]; exists s1, c, J_OK; split; auto; split; auto; split; auto; exists d1; split; auto; split; [discriminate|exact CP]).
  destruct K as (p & PC & K). destruct (is_pok (ps_err p)) eqn:PE.
  - destruct K as (r & -> & _ & TK). split; [exact V|]. exists s1, c, J_OK. split; auto. split; auto. split; auto. exists d1. split; auto. split; [|eauto].
    exists p. split; auto. destruct (ps_err p); discriminate || reflexivity.
  - destruct K as (-> & _). split; [exact V|]. exists s1, c, J_OK. split; auto. split; auto. split; auto. exists d1. split; auto. assert (NP : ps_err p <> P_OK) by (intros X; now rewrite X in PE).
    split; [|auto]. intros (p' & P1 & P2). congruence.
Qed.
(*EX
(** The shipped program runs, and ends when q is pressed; documents that are not programs, and a cell without its operand, are refused. *)
Example C69_example_endings :
  ap_end (ap_env (fun _ => [])) (ap_host demo_json shipped ap_outside true) ap_disk 2 = Some (A_ran Running)
  /\ ap_end (ap_env (fun _ => [113])) (ap_host demo_json shipped ap_outside true) ap_disk 2 = Some (A_ran Ended)
  /\ ap_end (ap_env (fun _ => [])) (ap_host (JArr [JObj []]) shipped ap_outside true) ap_disk 2 = Some A_schema
  /\ ap_end (ap_env (fun _ => [])) (ap_host (JObj []) ap_any ap_outside true) ap_disk 2 = Some (A_load J_TYPE_INV)
  /\ ap_end (ap_env (fun _ => [])) (ap_host (JArr [net_j 0 1 [[cell_j "NO" false []]]]%string) ap_any ap_outside true) ap_disk 2 = Some (A_load J_FAIL).
Proof. vm_compute. auto 10. Qed.
EX*)
(** C69: before the task nothing outside is touched. If the application does not come to run the program, no input is
    read, no output is written, no time passes: only the modules and foreign functions are set up and released. *)
Lemma C69_before_l : forall E H d n s e d' s', app_main E H d n s = Ok ((e, d'), s') -> (forall r, e <> A_ran r) ->
  exists l, s_tr s' = l ++ s_tr s /\ Forall service_event l.
Proof.
  intros E H d n s e d' s' K NR. apply main_inv in K as [(A & _)|(s1 & s2 & A & K & _ & Q)]; [exact (only_setup E H _ _ _ A)|].
  destruct (only_setup E H _ _ _ A) as (l1 & T1 & F1). destruct Q as [(Q & _)|(_ & Q)]; [now apply NR in Q|]. destruct (only_deinit E _ _ _ Q) as (l3 & T3 & F3).
  assert (T2 : s_tr s2 = s_tr s1).
  { apply run_inv in K as (v & _ & K). destruct v; cbn [negb] in K; [|destruct K as (_ & _ & ->); reflexivity]. destruct K as (je & c & _ & K).
    destruct (is_joked je); cbn [negb] in K; [|destruct K as (_ & _ & ->); reflexivity]. destruct K as (st & d1 & _ & K). destruct st; cbv iota in K; try (destruct K as (_ & _ & ->); reflexivity).
    destruct K as (st2 & _ & K). destruct st2; cbv iota in K; try (destruct K as (_ & ->); reflexivity). destruct K as (p & _ & K).
    destruct (is_pok (ps_err p)); [destruct K as (r & K & _); now apply NR in K|destruct K as (_ & ->); reflexivity]. }
  exists (l3 ++ l1). rewrite T3, T2, T1, app_assoc. split; auto. apply Forall_app. auto.
Qed.
(*EX
Example C69_example_before : exists d' s', app_main (ap_env (fun _ => [])) (ap_host (JArr [net_j 0 1 [[cell_j "NO" false []]]]%string) ap_any ap_outside true) ap_disk 9 ap_start = Ok ((A_load J_FAIL, d'), s')
  /\ s_tr s' = [EvInitWrite 0 false; EvInitRead 0 false; EvForeignDeinit 0; EvForeignInit 5; EvInitWrite 0 true; EvInitRead 0 true].
Proof. eexists _, _. split; [vm_compute; reflexivity|reflexivity]. Qed.
EX*)
(** C69: the application writes two files only, and none before the program is loaded. *)
Lemma C69_files_l : forall E H d n s e d' s', app_main E H d n s = Ok ((e, d'), s') ->
  (forall p, p <> prg_save -> p <> prg_compact -> d' p = d p)
  /\ match e with A_failed | A_schema | A_load _ => d' = d | A_save _ => same_but prg_save d d' | _ => True end.
Proof.
  intros E H d n s e d' s' K. apply main_inv in K as [(_ & -> & ->)|(s1 & s2 & _ & K & NF & _)]; [auto|].
  apply run_inv in K as (v & _ & K). destruct v; cbn [negb] in K; [|destruct K as (-> & -> & _); auto]. destruct K as (je & c & _ & K).
  destruct (is_joked je); cbn [negb] in K; [|destruct K as (-> & -> & _); auto]. destruct K as (st & d1 & SV & K).
  assert (B1 : same_but prg_save d d1).
  { unfold save_path in SV. destruct (w_write (ho_world H 2) prg_save); [|injection SV as _ <-; intros p _; reflexivity]. destruct (ho_save H); [injection SV as _ <-; apply put_other|].
    destruct (program_to_json (ho_out H) c) as [j| |]; cbn [rbind] in SV; try discriminate. destruct (k_pretty (ho_codec H) j); injection SV as _ <-; apply put_other. }
  destruct st; cbv iota in K; try (destruct K as (-> & -> & _); split; auto).
  destruct K as (st2 & CP & K). assert (B2 : same_but prg_compact d1 d').
  { unfold compact_path in CP. destruct (read_file (ho_world H 3) d1 prg_save) as [t|]; [|injection CP as _ <-; intros p _; reflexivity]. destruct (k_parse (ho_codec H) t) as [j|]; [|injection CP as _ <-; intros p _; reflexivity].
    destruct (k_compact (ho_codec H) j) as [u|]; [|injection CP as _ <-; intros p _; reflexivity]. unfold write_file in CP. destruct (w_write (ho_world H 3) prg_compact); injection CP as _ <-; [apply put_other|intros p _; reflexivity]. }
  split; [intros p N1 N2; rewrite B2, B1; auto|]. destruct st2; cbv iota in K; try (destruct K as (-> & _); exact I).
  destruct K as (p & _ & K). destruct (is_pok (ps_err p)); [destruct K as (r & -> & _)|destruct K as (-> & _)]; exact I.
Qed.
(*EX
(** The shipped program is saved in two forms. *)
Example C69_example_files : exists d' s', app_main (ap_env (fun _ => [])) (ap_host demo_json shipped ap_outside true) ap_disk 0 ap_start = Ok ((A_ran Running, d'), s')
  /\ d' prg_save = Some (txt "long") /\ d' prg_compact = Some (txt "short") /\ d' prg_load = Some (txt "program").
Proof. eexists _, _. split; [vm_compute; reflexivity|]. vm_compute. auto. Qed.
EX*)
(** C69: the program that is run is the one in the two files, when the library prints and reads it correctly and everything reaches
    the disk. *)
Lemma C69_copies_l : forall E H d n s r d' s' W, app_main E H d n s = Ok ((A_ran r, d'), s') -> delivers (ho_world H 2) -> delivers (ho_world H 3) ->
  (forall s1 c j, app_setup E H s = Ok (true, s1) -> json_to_program (ho_out H) (ho_load H) (file_of (ho_codec H) (ho_world H 1) d prg_load) (s_ctx s1) = Ok (J_OK, c) ->
     program_to_json (ho_out H) c = Ok j -> passes_through (ho_codec H) j) ->
  can_read W prg_save -> can_read W prg_compact ->
  exists s1 c j, app_setup E H s = Ok (true, s1) /\ json_to_program (ho_out H) (ho_load H) (file_of (ho_codec H) (ho_world H 1) d prg_load) (s_ctx s1) = Ok (J_OK, c)
    /\ program_to_json (ho_out H) c = Ok j /\ file_of (ho_codec H) W d' prg_save = F_doc j /\ file_of (ho_codec H) W d' prg_compact = F_doc j
    /\ exists s2, ladder_task E n (mk_st c (s_tr s1)) = Ok (r, s2).
Proof.
  intros E H d n s r d' s' W K D2 D3 PT R1 R2. apply main_inv in K as [(_ & K & _)|(s1 & s2 & A & K & _)]; [discriminate|].
  apply run_inv in K as (v & _ & K). destruct v; cbn [negb] in K; [|destruct K as (K & _); discriminate]. destruct K as (je & c & LD & K). unfold load_path in LD.
  destruct (is_joked je) eqn:JE; cbn [negb] in K; [|destruct K as (K & _); discriminate]. assert (je = J_OK) as -> by (destruct je; discriminate || reflexivity).
  destruct K as (st & d1 & SV & K). destruct st; cbv iota in K; try (destruct K as (K & _); discriminate). destruct K as (st2 & CP & K).
  destruct st2; cbv iota in K; try (destruct K as (K & _); discriminate). destruct K as (p & _ & K). destruct (is_pok (ps_err p)); [|destruct K as (K & _); discriminate].
  destruct K as (r' & K & _ & TK). injection K as <-. unfold save_path in SV. destruct (w_write (ho_world H 2) prg_save); [|discriminate]. destruct (ho_save H); [discriminate|].
  destruct (program_to_json (ho_out H) c) as [j| |] eqn:PJ; cbn [rbind] in SV; try discriminate. destruct (PT s1 c j A LD PJ) as [(t & T1 & T2) (u & U1 & U2)]. rewrite T1 in SV. injection SV as <-.
  destruct (compact_ok _ _ _ _ _ _ CP) as (t' & j' & u' & B1 & B2 & B3 & ->). unfold read_file in B1. rewrite put_same in B1. destruct (w_read (ho_world H 3) prg_save && w_mem (ho_world H 3) prg_save); [|discriminate].
  injection B1 as <-. rewrite D2, (cstr_id t (proj1 T2)), (cstr_id t (proj1 T2)), (proj2 T2) in B2. injection B2 as <-. rewrite U1 in B3. injection B3 as <-.
  exists s1, c, j. split; auto. split; auto. split; auto. split; [|split; [exact (file_written _ _ _ _ _ _ _ U2 D3 R2)|eauto]].
  assert (N : prg_save <> prg_compact) by (vm_compute; discriminate). assert (G := file_written _ _ W d prg_save j t T2 D2 R1). unfold file_of, read_file in *. rewrite (put_other prg_compact _ _ prg_save N). exact G.
Qed.
(*EX
Example C69_example_copies : exists d' s' s1 c j, app_main (ap_env (fun _ => [])) (ap_host demo_json shipped ap_outside true) ap_disk 5 ap_start = Ok ((A_ran Running, d'), s')
  /\ app_setup (ap_env (fun _ => [])) (ap_host demo_json shipped ap_outside true) ap_start = Ok (true, s1)
  /\ json_to_program ap_outside (fun _ => true) (F_doc demo_json) (s_ctx s1) = Ok (J_OK, c) /\ program_to_json ap_outside c = Ok j
  /\ passes_through (ap_codec demo_json shipped) j.
Proof.
  eexists _, _, (mk_st app_ctx [EvForeignInit 5; EvInitWrite 0 true; EvInitRead 0 true]), demo_ctx, ap_saved. split; [vm_compute; reflexivity|]. split; [vm_compute; reflexivity|].
  split; [vm_compute; reflexivity|]. split; [vm_compute; reflexivity|]. exact ap_passes.
Qed.
EX*)
(** C69: with the port of the project, times that can be told in 32 bits and memory for the table of jobs: if the document is one
    the loader can handle without leaving its arrays, and is loaded into a program with what the checker does not look at,
    the application runs without undefined behaviour other than that of arithmetic in the program. It never panics, and
    when it ends it has given back all it owned. Missing: documents that are not such; see the findings. *)
Lemma C69_safe_partial_l : forall keys al tv now E H d n s, app_port keys al tv now E -> (forall k, real_time (tv k)) -> (forall k, calendar (now k)) -> ho_cron H = true ->
  (forall j, file_of (ho_codec H) (ho_world H 0) d prg_load = F_doc j -> small_numbers j) ->
  (forall s1 js, app_setup E H s = Ok (true, s1) -> file_of (ho_codec H) (ho_world H 1) d prg_load = F_doc (JArr js) -> suitable (ho_out H) (ho_load H) js (s_ctx s1)) ->
  (exists e d' s' l, app_main E H d n s = Ok ((e, d'), s') /\ s_tr s' = l ++ s_tr s /\ ~ In EvPanic l /\ (e = A_failed \/ e = A_ran Running \/ given_back (s_ctx s')))
  \/ exists u, app_main E H d n s = Bad u /\ arithmetic u.
Proof.
  intros keys al tv now E H d n [c tr] P RT CA HC SN SU. assert (X := setup_app keys al tv now E P H c tr). rewrite HC in X.
  assert (FL : (exists s', app_setup E H (mk_st c tr) = Ok (false, s')) -> exists e d' s' l, app_main E H d n (mk_st c tr) = Ok ((e, d'), s') /\ s_tr s' = l ++ tr /\ ~ In EvPanic l /\ (e = A_failed \/ e = A_ran Running \/ given_back (s_ctx s'))).
  { intros [s' K]. destruct (only_setup E H _ _ _ K) as (l & T & F). exists A_failed, d, s', l. split; [unfold app_main; now rewrite (bind_ok _ _ _ _ _ K)|]. split; auto. split; auto.
    intros I1. rewrite Forall_forall in F. exact (F _ I1). }
  destruct (parts_there al H (List.length tr)); [destruct (ho_foreign H)|]; [|left; exact (FL X)|left; exact (FL X)]. clear FL.
  set (tr1 := EvForeignInit 5 :: EvInitWrite 0 true :: EvInitRead 0 true :: tr) in *.
  assert (SU' : forall js, file_of (ho_codec H) (ho_world H 1) d prg_load = F_doc (JArr js) -> suitable (ho_out H) (ho_load H) js app_ctx) by (intros js F; exact (SU _ js X F)).
  assert (NZ : size (x_net app_ctx) = Some (VN (q_nets (x_q app_ctx)))) by (vm_compute; reflexivity).
  assert (RA := run_app keys al tv now E H d n (ap_follows _ _ _ _ _ P) RT CA SN app_ctx app_endable app_laid_out app_equipped app_tables app_fits eq_refl NZ SU' tr1).
  destruct RA as [(e & d' & s2 & l & K & EN & T2 & NP)|(u & K & AR)].
  2: { right. exists u. split; auto. unfold app_main. rewrite (bind_ok _ _ _ _ _ X). cbn [negb]. unfold bind at 1. now rewrite K. }
  left. destruct (deinit_app keys al tv now E (ap_follows _ _ _ _ _ P) s2 EN) as (s3 & K3 & GB & T3).
  assert (NP1 : ~ In EvPanic (l ++ [EvForeignInit 5; EvInitWrite 0 true; EvInitRead 0 true])) by (intros I1; apply in_app_or in I1 as [I1|I1]; [exact (NP I1)|exact (in_service _ _ made I1)]).
  assert (TT : s_tr s2 = (l ++ [EvForeignInit 5; EvInitWrite 0 true; EvInitRead 0 true]) ++ tr) by (rewrite T2, <- app_assoc; reflexivity).
  assert (MM : forall x : ending * disk, match e with A_ran Running => True | _ => False end \/ (e <> A_ran Running /\ match e with A_ran Running => ret x | _ => ctx_deinit E ;;; ret x end = (ctx_deinit E ;;; ret x))).
  { intros x. destruct e as [| | | | | |[]]; (left; exact I) || (right; split; [discriminate|reflexivity]). }
  destruct (MM (e, d')) as [Y|[Y1 Y2]].
  - exists e, d', s2. eexists. split; [|split; [exact TT|split; [exact NP1|right; left; destruct e as [| | | | | |[]]; contradiction || reflexivity]]].
    unfold app_main. rewrite (bind_ok _ _ _ _ _ X). cbn [negb]. rewrite (bind_ok _ _ _ _ _ K). cbn [fst]. destruct e as [| | | | | |[]]; contradiction || reflexivity.
  - exists e, d', s3, ([EvInitWrite 0 false; EvInitRead 0 false; EvForeignDeinit 0] ++ (l ++ [EvForeignInit 5; EvInitWrite 0 true; EvInitRead 0 true])). split; [|split; [|split; [|right; right; exact GB]]].
    + unfold app_main. rewrite (bind_ok _ _ _ _ _ X). cbn [negb]. rewrite (bind_ok _ _ _ _ _ K). cbn [fst]. rewrite Y2, (bind_ok _ _ _ _ _ K3). reflexivity.
    + rewrite T3, TT. reflexivity.
    + intros I1. apply in_app_or in I1 as [I1|I1]; [exact (in_service _ _ unmade I1)|exact (NP1 I1)].
Qed.
(*EX
(** The shipped document meets the conditions. *)
Example C69_example_safe : let H := ap_host demo_json shipped ap_outside true in
  (forall j, file_of (ho_codec H) (ho_world H 0) ap_disk prg_load = F_doc j -> small_numbers j)
  /\ forall s1 js, app_setup (ap_env (fun _ => [113])) H ap_start = Ok (true, s1) -> file_of (ho_codec H) (ho_world H 1) ap_disk prg_load = F_doc (JArr js) -> suitable (ho_out H) (ho_load H) js (s_ctx s1).
Proof.
  intros H. assert (F : forall i, file_of (ho_codec H) (ho_world H i) ap_disk prg_load = F_doc demo_json) by reflexivity. split.
  - intros j K. rewrite F in K. assert (j = demo_json) as -> by exact (f_equal (fun f => match f with F_doc j => j | _ => demo_json end) (eq_sym K)). exact (proj1 demo_testable).
  - intros s1 js ST K. rewrite F in K. assert (js = demo_list) as -> by exact (f_equal (fun f => match f with F_doc (JArr l) => l | _ => demo_list end) (eq_sym K)).
    rewrite (setup_ctx _ _ _ _ _ _ _ _ (ap_port _) ST). exact (demo_suitable ap_outside (fun _ => true) eq_refl (fun _ => eq_refl)).
Qed.
EX*)
(** C69: the program that comes with the project is run for as long as nobody presses q, if nothing outside goes wrong and the number
    that the loader reads behind the table of instructions is 0; see the finding. *)
Lemma C69_shipped_partial_l : forall keys al tv now E H d n s, app_port keys al tv now E -> (forall k, real_time (tv k)) -> (forall k, calendar (now k)) ->
  (forall k, dummy_key (keys k) <> 81 /\ dummy_key (keys k) <> 113) -> Z.of_nat n < 2 ^ 32 -> memory_for_setup H al (List.length (s_tr s)) -> undisturbed H d demo_json shipped ->
  (forall s1 c j, app_setup E H s = Ok (true, s1) -> json_to_program (ho_out H) (ho_load H) (F_doc demo_json) (s_ctx s1) = Ok (J_OK, c) -> program_to_json (ho_out H) c = Ok j -> passes_through (ho_codec H) j) ->
  Json.beyond (ho_out H) = Ok 0%nat ->
  exists d' s', app_main E H d n s = Ok ((A_ran Running, d'), s') /\ peek (s_ctx s') LState = Some (VState S_RUNNING).
Proof.
  intros keys al tv now E H d n s P RT CA NQ N M U PT BY. destruct (C69_memory_l _ _ _ _ _ _ _ P M) as [s1 ST]. assert (C1 := setup_ctx _ _ _ _ _ _ _ _ P ST).
  destruct U as [U1 U2 U3 [U4 U5] U6 [U7 U8] [R1 R2] [V1 V2]].
  assert (LD := demo_loads (ho_out H) (ho_load H) BY U1). rewrite <- demo_is_list in LD.
  assert (VD : validate_path (ho_codec H) (ho_world H 0) d (ho_cmp H) prg_load prg_schema = Ok true) by (unfold validate_path; rewrite U4, U6; exact (demo_valid _ U3)).
  assert (TK := demo_runs keys al tv now E n (s_tr s1) (ap_follows _ _ _ _ _ P) RT CA NQ N). destruct TK as (s2 & TK & ST2 & _). destruct demo_accepted as (p & PC & PE).
  destruct (demo_saves (ho_out H)) as [j PJ]. destruct (demo_prints (ho_name H) (ho_print H)) as [tx PR].
  assert (CC : s_ctx s1 = app_ctx) by now rewrite C1. clear C1. generalize dependent app_ctx. generalize dependent demo_ctx. intros c' TK PC PJ PR c LD CC. subst c. destruct s1 as [c tr]. cbn [s_ctx s_tr] in *.
  destruct (PT _ c' j ST LD PJ) as [(t & P1 & P2) (u & Q1 & Q2)].
  assert (SV : save_path (ho_codec H) (ho_world H 2) d (ho_out H) (ho_save H) prg_save c' = Ok (ST_ok, put_file prg_save t d)) by (unfold save_path; rewrite U7, U2, PJ; cbn [rbind]; rewrite P1, V1, (cstr_id t (proj1 P2)); reflexivity).
  assert (CP : compact_path (ho_codec H) (ho_world H 3) (put_file prg_save t d) prg_save prg_compact = (ST_ok, put_file prg_compact (w_sent (ho_world H 3) (cstr u)) (put_file prg_save t d))).
  { unfold compact_path, read_file. rewrite put_same, R1, R2. cbn [andb]. rewrite (cstr_id t (proj1 P2)), (proj2 P2), Q1. unfold write_file. rewrite U8. reflexivity. }
  assert (LD' : load_path (ho_codec H) (ho_world H 1) d (ho_out H) (ho_load H) prg_load c = Ok (J_OK, c')) by (unfold load_path; rewrite U5; exact LD).
  assert (RN := run_steps E H d n c tr c' _ _ p tx Running s2 VD LD' SV CP PC PE PR TK).
  eexists _, s2. split; [|exact ST2]. unfold app_main. rewrite (bind_ok _ _ _ _ _ ST). cbn [negb]. rewrite (bind_ok _ _ _ _ _ RN). reflexivity.
Qed.
(*EX
(** For every number of cycles. *)
Example C69_example_shipped : forall n, Z.of_nat n < 2 ^ 32 ->
  exists d' s', app_main (ap_env (fun k => [48 + Z.of_nat (k mod 8)])) (ap_host demo_json shipped ap_outside true) ap_disk n ap_start = Ok ((A_ran Running, d'), s').
Proof.
  intros n N. assert (NQ : forall k, dummy_key [48 + Z.of_nat (k mod 8)] <> 81 /\ dummy_key [48 + Z.of_nat (k mod 8)] <> 113).
  { intros k. assert (B := Nat.mod_upper_bound k 8 ltac:(discriminate)). set (m := (k mod 8)%nat) in *. clearbody m. do 8 (destruct m as [|m]; [vm_compute; split; discriminate|]). lia. }
  destruct (C69_shipped_partial (fun k => [48 + Z.of_nat (k mod 8)]) ap_al ap_clock ap_now _ (ap_host demo_json shipped ap_outside true) ap_disk n ap_start (ap_port _) (proj1 ap_times) (proj2 ap_times) NQ N (ap_memory _ _ _ _) (ap_undisturbed _ _ _)) as (d' & s' & K & _); [|reflexivity|eauto].
  intros s1 c j ST LD PJ. rewrite (setup_ctx _ _ _ _ _ _ _ _ (ap_port _) ST) in LD. assert (Q := eq_trans (eq_sym (demo_loads ap_outside (fun _ => true) eq_refl (fun _ => eq_refl))) LD).
  assert (Q1 : demo_ctx = c) by exact (f_equal (fun x => match x with Ok (_, c) => c | _ => demo_ctx end) Q). clear Q LD. subst c.
  assert (j = ap_saved) as -> by (unfold ap_saved; change (ho_out _) with ap_outside in PJ; now rewrite PJ). exact ap_passes.
Qed.
EX*)
(** C69, finding: the loader reads the number of operands of the cells of the shipped program that another cell covers from behind the table
    of instructions. If that read is undefined the application has undefined behaviour with its own program. *)
Lemma C69_shipped_actual_l : forall keys al tv now E H d n s u, app_port keys al tv now E -> memory_for_setup H al (List.length (s_tr s)) -> undisturbed H d demo_json shipped ->
  Json.beyond (ho_out H) = Bad u -> app_main E H d n s = Bad u.
Proof.
  intros keys al tv now E H d n s u P M U BY. destruct (C69_memory_l _ _ _ _ _ _ _ P M) as [s1 ST]. assert (C1 := setup_ctx _ _ _ _ _ _ _ _ P ST).
  destruct U as [U1 U2 U3 [U4 U5] U6 _ _ _]. assert (LD := demo_fails (ho_out H) (ho_load H) u BY U1). rewrite <- demo_is_list in LD.
  assert (VD : validate_path (ho_codec H) (ho_world H 0) d (ho_cmp H) prg_load prg_schema = Ok true) by (unfold validate_path; rewrite U4, U6; exact (demo_valid _ U3)).
  assert (CC : s_ctx s1 = app_ctx) by now rewrite C1. clear C1. generalize dependent app_ctx. intros c LD CC. subst c. destruct s1 as [c tr]. cbn [s_ctx s_tr] in *.
  unfold app_main. rewrite (bind_ok _ _ _ _ _ ST). cbn [negb]. unfold bind at 1, app_run. rewrite (bind_ok _ _ _ _ _ (lift_ok _ _ _ VD)). cbn [negb]. unfold bind at 1, call_with, load_path. cbn [s_ctx]. rewrite U5, LD. reflexivity.
Qed.
(*EX
Example C69_example_beyond : undisturbed (ap_host demo_json shipped (mk_outside (fun _ => []) (fun _ => 0) (Bad UB_oob)) true) ap_disk demo_json shipped
  /\ app_main (ap_env (fun _ => [])) (ap_host demo_json shipped (mk_outside (fun _ => []) (fun _ => 0) (Bad UB_oob)) true) ap_disk 1 ap_start = Bad UB_oob.
Proof. split; [apply ap_undisturbed|vm_compute; reflexivity]. Qed.
EX*)
(** C69, finding: a document that the loader refuses can make the application follow a null pointer at its end. The schema decides whether
    such a document comes that far; with one that admits everything it does. *)
Lemma C69_bare_refuted_l : exists keys al tv now E H d n s, app_port keys al tv now E /\ (forall k, real_time (tv k)) /\ (forall k, calendar (now k))
  /\ memory_for_setup H al (List.length (s_tr s)) /\ undisturbed H d ap_bare ap_any /\ small_numbers ap_bare /\ app_main E H d n s = Bad UB_null.
Proof.
  exists (fun _ => []), ap_al, ap_clock, ap_now, (ap_env (fun _ => [])), (ap_host ap_bare ap_any ap_outside true), ap_disk, 1%nat, ap_start.
  split; [apply ap_port|]. split; [apply ap_times|]. split; [apply ap_times|]. split; [apply ap_memory|]. split; [apply ap_undisturbed|]. split; [|vm_compute; reflexivity].
  exact (proj1 (testableb_ok ap_any ap_bare eq_refl)).
Qed.
