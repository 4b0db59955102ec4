(** Property theorems: the example application (C69). *)
From Coq Require Import String.
From Verif Require Import P_App Demo.
Open Scope list_scope.
Open Scope Z_scope.

(** ** C69 *)

(** C69: if the setup succeeds, the machine is the one intended: three jobs, for every second second, every tenth second and 22:58:00, one
    module of each kind, empty networks, registers of 0, every hook and limit as the source gives them. It is laid out as the checker, the loader and the task need. *)
Theorem C69_setup : forall keys al tv now E H s s', app_port keys al tv now E -> app_setup E H s = Ok (true, s') ->
  app_machine (s_ctx s') /\ SpecCheck.laid_out (s_ctx s') /\ releasable (s_ctx s') /\ equipped (s_ctx s')
  /\ s_tr s' = EvForeignInit 5 :: EvInitWrite 0 true :: EvInitRead 0 true :: s_tr s.
Proof. exact C69_setup_l. Qed.
Print Assumptions C69_setup.
Example C69_example_setup : exists s', app_port (fun _ => []) ap_al ap_clock ap_now (ap_env (fun _ => []))
  /\ app_setup (ap_env (fun _ => [])) (ap_host demo_json shipped ap_outside true) (mk_st garbage []) = Ok (true, s') /\ app_machine (s_ctx s').
Proof.
  destruct (C69_memory_l _ _ _ _ _ (ap_host demo_json shipped ap_outside true) (mk_st garbage []) (ap_port (fun _ => [])) (ap_memory _ _ _ _)) as [s' K].
  exists s'. split; [apply ap_port|]. split; [exact K|]. exact (proj1 (C69_setup _ _ _ _ _ _ _ _ (ap_port _) K)).
Qed.

(** C69: with memory for everything the setup succeeds. *)
Theorem C69_memory : forall keys al tv now E H s, app_port keys al tv now E -> memory_for_setup H al (List.length (s_tr s)) ->
  exists s', app_setup E H s = Ok (true, s').
Proof. exact C69_memory_l. Qed.
Print Assumptions C69_memory.
(** One refused allocation makes the setup fail. *)
Example C69_example_memory : memory_for_setup (ap_host demo_json shipped ap_outside true) ap_al 0
  /\ forall L, exists s', app_setup (ap_env (fun _ => [])) (mk_host (fun _ => true) (fun i => negb (Nat.eqb i 1)) (fun _ => true) true true (fun _ => true) None (fun _ => true) (fun _ => ap_world) (ap_codec demo_json shipped) cmp_text L (fun _ => [])) ap_start = Ok (false, s').
Proof. split; [apply ap_memory|]. intros L. eexists. vm_compute. reflexivity. Qed.

(** C69, finding: if only the memory for the table of jobs is refused, the setup does not fail but follows a null pointer. *)
Theorem C69_cron_actual : forall keys al tv now E H s, app_port keys al tv now E ->
  memory_for_setup (mk_host (ho_init H) (ho_read H) (ho_write H) true true (ho_load H) (ho_save H) (ho_print H) (ho_world H) (ho_codec H) (ho_cmp H) (ho_out H) (ho_name H)) al (List.length (s_tr s)) ->
  ho_cron H = false -> app_setup E H s = Bad UB_null.
Proof. exact C69_cron_actual_l. Qed.
Print Assumptions C69_cron_actual.
Example C69_example_cron : ho_cron (ap_host demo_json shipped ap_outside false) = false
  /\ app_setup (ap_env (fun _ => [])) (ap_host demo_json shipped ap_outside false) ap_start = Bad UB_null.
Proof.
  split; [reflexivity|]. exact (C69_cron_actual _ _ _ _ _ (ap_host demo_json shipped ap_outside false) ap_start (ap_port _) (ap_memory _ _ _ _) eq_refl).
Qed.

(** C69: what each ending means. Whatever the modules, clocks, files and the library do: a program is run only if the document
    was valid by the schema, was loaded, was saved, was compacted, and passes the checker; and every error reported is the
    one that the step before it returned. *)
Theorem C69_endings : forall E H d n s e d' s', app_main E H d n s = Ok ((e, d'), s') ->
  let f i p := file_of (ho_codec H) (ho_world H i) d p in
  match e with
  | A_failed => app_setup E H s = Ok (false, s')
  | A_schema => validate_file (ho_cmp H) (f 0%nat prg_load) (f 0%nat prg_schema) = Ok false
  | _ =>
      validate_file (ho_cmp H) (f 0%nat prg_load) (f 0%nat prg_schema) = Ok true
      /\ exists s1 c je, app_setup E H s = Ok (true, s1) /\ json_to_program (ho_out H) (ho_load H) (f 1%nat prg_load) (s_ctx s1) = Ok (je, c)
         /\ match e with
            | A_load x => je = x /\ x <> J_OK
            | A_save x => je = J_OK /\ x <> ST_ok /\ save_path (ho_codec H) (ho_world H 2) d (ho_out H) (ho_save H) prg_save c = Ok (x, d')
            | _ => je = J_OK /\ exists d1, save_path (ho_codec H) (ho_world H 2) d (ho_out H) (ho_save H) prg_save c = Ok (ST_ok, d1)
                   /\ match e with
                      | A_compact x => x <> ST_ok /\ compact_path (ho_codec H) (ho_world H 3) d1 prg_save prg_compact = (x, d')
                      | A_check p => ~ accepts c /\ ps_err p <> P_OK /\ program_check c = Ok (Some p)
                      | A_ran r => accepts c /\ exists s2, ladder_task E n (mk_st c (s_tr s1)) = Ok (r, s2)
                      | _ => True
                      end
            end
  end.
Proof. exact C69_endings_l. Qed.
Print Assumptions C69_endings.
(** The shipped program runs, and ends when q is pressed; documents that are not programs, and a cell without its operand, are refused. *)
Example C69_example_endings :
  ap_end (ap_env (fun _ => [])) (ap_host demo_json shipped ap_outside true) ap_disk 2 = Some (A_ran Running)
  /\ ap_end (ap_env (fun _ => [113])) (ap_host demo_json shipped ap_outside true) ap_disk 2 = Some (A_ran Ended)
  /\ ap_end (ap_env (fun _ => [])) (ap_host (JArr [JObj []]) shipped ap_outside true) ap_disk 2 = Some A_schema
  /\ ap_end (ap_env (fun _ => [])) (ap_host (JObj []) ap_any ap_outside true) ap_disk 2 = Some (A_load J_TYPE_INV)
  /\ ap_end (ap_env (fun _ => [])) (ap_host (JArr [net_j 0 1 [[cell_j "NO" false []]]]%string) ap_any ap_outside true) ap_disk 2 = Some (A_load J_FAIL).
Proof. vm_compute. auto 10. Qed.

(** C69: before the task nothing outside is touched. If the application does not come to run the program, no input is
    read, no output is written, no time passes: only the modules and foreign functions are set up and released. *)
Theorem C69_before : forall E H d n s e d' s', app_main E H d n s = Ok ((e, d'), s') -> (forall r, e <> A_ran r) ->
  exists l, s_tr s' = l ++ s_tr s /\ Forall service_event l.
Proof. exact C69_before_l. Qed.
Print Assumptions C69_before.
Example C69_example_before : exists d' s', app_main (ap_env (fun _ => [])) (ap_host (JArr [net_j 0 1 [[cell_j "NO" false []]]]%string) ap_any ap_outside true) ap_disk 9 ap_start = Ok ((A_load J_FAIL, d'), s')
  /\ s_tr s' = [EvInitWrite 0 false; EvInitRead 0 false; EvForeignDeinit 0; EvForeignInit 5; EvInitWrite 0 true; EvInitRead 0 true].
Proof. eexists _, _. split; [vm_compute; reflexivity|reflexivity]. Qed.

(** C69: the application writes two files only, and none before the program is loaded. *)
Theorem C69_files : forall E H d n s e d' s', app_main E H d n s = Ok ((e, d'), s') ->
  (forall p, p <> prg_save -> p <> prg_compact -> d' p = d p)
  /\ match e with A_failed | A_schema | A_load _ => d' = d | A_save _ => same_but prg_save d d' | _ => True end.
Proof. exact C69_files_l. Qed.
Print Assumptions C69_files.
(** The shipped program is saved in two forms. *)
Example C69_example_files : exists d' s', app_main (ap_env (fun _ => [])) (ap_host demo_json shipped ap_outside true) ap_disk 0 ap_start = Ok ((A_ran Running, d'), s')
  /\ d' prg_save = Some (txt "long") /\ d' prg_compact = Some (txt "short") /\ d' prg_load = Some (txt "program").
Proof. eexists _, _. split; [vm_compute; reflexivity|]. vm_compute. auto. Qed.

(** C69: the program that is run is the one in the two files, when the library prints and reads it correctly and everything reaches
    the disk. *)
Theorem C69_copies : forall E H d n s r d' s' W, app_main E H d n s = Ok ((A_ran r, d'), s') -> delivers (ho_world H 2) -> delivers (ho_world H 3) ->
  (forall s1 c j, app_setup E H s = Ok (true, s1) -> json_to_program (ho_out H) (ho_load H) (file_of (ho_codec H) (ho_world H 1) d prg_load) (s_ctx s1) = Ok (J_OK, c) ->
     program_to_json (ho_out H) c = Ok j -> passes_through (ho_codec H) j) ->
  can_read W prg_save -> can_read W prg_compact ->
  exists s1 c j, app_setup E H s = Ok (true, s1) /\ json_to_program (ho_out H) (ho_load H) (file_of (ho_codec H) (ho_world H 1) d prg_load) (s_ctx s1) = Ok (J_OK, c)
    /\ program_to_json (ho_out H) c = Ok j /\ file_of (ho_codec H) W d' prg_save = F_doc j /\ file_of (ho_codec H) W d' prg_compact = F_doc j
    /\ exists s2, ladder_task E n (mk_st c (s_tr s1)) = Ok (r, s2).
Proof. exact C69_copies_l. Qed.
Print Assumptions C69_copies.
Example C69_example_copies : exists d' s' s1 c j, app_main (ap_env (fun _ => [])) (ap_host demo_json shipped ap_outside true) ap_disk 5 ap_start = Ok ((A_ran Running, d'), s')
  /\ app_setup (ap_env (fun _ => [])) (ap_host demo_json shipped ap_outside true) ap_start = Ok (true, s1)
  /\ json_to_program ap_outside (fun _ => true) (F_doc demo_json) (s_ctx s1) = Ok (J_OK, c) /\ program_to_json ap_outside c = Ok j
  /\ passes_through (ap_codec demo_json shipped) j.
Proof.
  eexists _, _, (mk_st app_ctx [EvForeignInit 5; EvInitWrite 0 true; EvInitRead 0 true]), demo_ctx, ap_saved. split; [vm_compute; reflexivity|]. split; [vm_compute; reflexivity|].
  split; [vm_compute; reflexivity|]. split; [vm_compute; reflexivity|]. exact ap_passes.
Qed.

(** C69: with the port of the project, times that can be told in 32 bits and memory for the table of jobs: if the document is one
    the loader can handle without leaving its arrays, and is loaded into a program with what the checker does not look at,
    the application runs without undefined behaviour other than that of arithmetic in the program. It never panics, and
    when it ends it has given back all it owned. Missing: documents that are not such; see the findings. *)
Theorem C69_safe_partial : forall keys al tv now E H d n s, app_port keys al tv now E -> (forall k, real_time (tv k)) -> (forall k, calendar (now k)) -> ho_cron H = true ->
  (forall j, file_of (ho_codec H) (ho_world H 0) d prg_load = F_doc j -> small_numbers j) ->
  (forall s1 js, app_setup E H s = Ok (true, s1) -> file_of (ho_codec H) (ho_world H 1) d prg_load = F_doc (JArr js) -> suitable (ho_out H) (ho_load H) js (s_ctx s1)) ->
  (exists e d' s' l, app_main E H d n s = Ok ((e, d'), s') /\ s_tr s' = l ++ s_tr s /\ ~ In EvPanic l /\ (e = A_failed \/ e = A_ran Running \/ given_back (s_ctx s')))
  \/ exists u, app_main E H d n s = Bad u /\ arithmetic u.
Proof. exact C69_safe_partial_l. Qed.
Print Assumptions C69_safe_partial.
(** The shipped document meets the conditions. *)
Example C69_example_safe : let H := ap_host demo_json shipped ap_outside true in
  (forall j, file_of (ho_codec H) (ho_world H 0) ap_disk prg_load = F_doc j -> small_numbers j)
  /\ forall s1 js, app_setup (ap_env (fun _ => [113])) H ap_start = Ok (true, s1) -> file_of (ho_codec H) (ho_world H 1) ap_disk prg_load = F_doc (JArr js) -> suitable (ho_out H) (ho_load H) js (s_ctx s1).
Proof.
  intros H. assert (F : forall i, file_of (ho_codec H) (ho_world H i) ap_disk prg_load = F_doc demo_json) by reflexivity. split.
  - intros j K. rewrite F in K. assert (j = demo_json) as -> by exact (f_equal (fun f => match f with F_doc j => j | _ => demo_json end) (eq_sym K)). exact (proj1 demo_testable).
  - intros s1 js ST K. rewrite F in K. assert (js = demo_list) as -> by exact (f_equal (fun f => match f with F_doc (JArr l) => l | _ => demo_list end) (eq_sym K)).
    rewrite (setup_ctx _ _ _ _ _ _ _ _ (ap_port _) ST). exact (demo_suitable ap_outside (fun _ => true) eq_refl (fun _ => eq_refl)).
Qed.

(** C69: the program that comes with the project is run for as long as nobody presses q, if nothing outside goes wrong and the number
    that the loader reads behind the table of instructions is 0; see the finding. *)
Theorem C69_shipped_partial : forall keys al tv now E H d n s, app_port keys al tv now E -> (forall k, real_time (tv k)) -> (forall k, calendar (now k)) ->
  (forall k, dummy_key (keys k) <> 81 /\ dummy_key (keys k) <> 113) -> Z.of_nat n < 2 ^ 32 -> memory_for_setup H al (List.length (s_tr s)) -> undisturbed H d demo_json shipped ->
  (forall s1 c j, app_setup E H s = Ok (true, s1) -> json_to_program (ho_out H) (ho_load H) (F_doc demo_json) (s_ctx s1) = Ok (J_OK, c) -> program_to_json (ho_out H) c = Ok j -> passes_through (ho_codec H) j) ->
  Json.beyond (ho_out H) = Ok 0%nat ->
  exists d' s', app_main E H d n s = Ok ((A_ran Running, d'), s') /\ peek (s_ctx s') LState = Some (VState S_RUNNING).
Proof. exact C69_shipped_partial_l. Qed.
Print Assumptions C69_shipped_partial.
(** For every number of cycles. *)
Example C69_example_shipped : forall n, Z.of_nat n < 2 ^ 32 ->
  exists d' s', app_main (ap_env (fun k => [48 + Z.of_nat (k mod 8)])) (ap_host demo_json shipped ap_outside true) ap_disk n ap_start = Ok ((A_ran Running, d'), s').
Proof.
  intros n N. assert (NQ : forall k, dummy_key [48 + Z.of_nat (k mod 8)] <> 81 /\ dummy_key [48 + Z.of_nat (k mod 8)] <> 113).
  { intros k. assert (B := Nat.mod_upper_bound k 8 ltac:(discriminate)). set (m := (k mod 8)%nat) in *. clearbody m. do 8 (destruct m as [|m]; [vm_compute; split; discriminate|]). lia. }
  destruct (C69_shipped_partial (fun k => [48 + Z.of_nat (k mod 8)]) ap_al ap_clock ap_now _ (ap_host demo_json shipped ap_outside true) ap_disk n ap_start (ap_port _) (proj1 ap_times) (proj2 ap_times) NQ N (ap_memory _ _ _ _) (ap_undisturbed _ _ _)) as (d' & s' & K & _); [|reflexivity|eauto].
  intros s1 c j ST LD PJ. rewrite (setup_ctx _ _ _ _ _ _ _ _ (ap_port _) ST) in LD. assert (Q := eq_trans (eq_sym (demo_loads ap_outside (fun _ => true) eq_refl (fun _ => eq_refl))) LD).
  assert (Q1 : demo_ctx = c) by exact (f_equal (fun x => match x with Ok (_, c) => c | _ => demo_ctx end) Q). clear Q LD. subst c.
  assert (j = ap_saved) as -> by (unfold ap_saved; change (ho_out _) with ap_outside in PJ; now rewrite PJ). exact ap_passes.
Qed.

(** C69, finding: the loader reads the number of operands of the cells of the shipped program that another cell covers from behind the table
    of instructions. If that read is undefined the application has undefined behaviour with its own program. *)
Theorem C69_shipped_actual : forall keys al tv now E H d n s u, app_port keys al tv now E -> memory_for_setup H al (List.length (s_tr s)) -> undisturbed H d demo_json shipped ->
  Json.beyond (ho_out H) = Bad u -> app_main E H d n s = Bad u.
Proof. exact C69_shipped_actual_l. Qed.
Print Assumptions C69_shipped_actual.
Example C69_example_beyond : undisturbed (ap_host demo_json shipped (mk_outside (fun _ => []) (fun _ => 0) (Bad UB_oob)) true) ap_disk demo_json shipped
  /\ app_main (ap_env (fun _ => [])) (ap_host demo_json shipped (mk_outside (fun _ => []) (fun _ => 0) (Bad UB_oob)) true) ap_disk 1 ap_start = Bad UB_oob.
Proof. split; [apply ap_undisturbed|vm_compute; reflexivity]. Qed.

(** C69, finding: a document that the loader refuses can make the application follow a null pointer at its end. The schema decides whether
    such a document comes that far; with one that admits everything it does. *)
Theorem C69_bare_refuted : exists keys al tv now E H d n s, app_port keys al tv now E /\ (forall k, real_time (tv k)) /\ (forall k, calendar (now k))
  /\ memory_for_setup H al (List.length (s_tr s)) /\ undisturbed H d ap_bare ap_any /\ small_numbers ap_bare /\ app_main E H d n s = Bad UB_null.
Proof. exact C69_bare_refuted_l. Qed.
Print Assumptions C69_bare_refuted.
