(** The scan task: source/ladder_task.c:42-307. *)
From Verif Require Export General.

(** ladder_task.c:48-59: true when a required pointer is NULL. A read of fn[0] needs the element to exist. *)
Definition slot0_null (p : option (list bool)) : res bool :=
  match p with None => Ok true | Some _ => let? b := pget p 0 in Ok (negb b) end.
Definition io_null {A} (n : nat) (fns : option (list bool)) (mods : option A) : res bool :=
  match n with
  | O => Ok false
  | _ => if is_null fns || is_null mods then Ok true else slot0_null fns
  end.
Definition banks_null (n : nat) (l : list bool) : bool := (0 <? n)%nat && existsb (fun b => b) l.
Definition task_guard (c : ctx) : res bool :=
  let q := x_q c in let m := x_mem c in let p := x_prev c in let r := x_regs c in
  if negb (h_millis (x_h c)) || negb (h_delay (x_h c)) then Ok true else
  let? a := io_null (io_rq (x_io c)) (io_rd (x_io c)) (x_in c) in
  if a then Ok true else
  let? b := io_null (io_wq (x_io c)) (io_wr (x_io c)) (x_out c) in
  if b then Ok true else
  Ok (banks_null (q_m q) [is_null (m_M m); is_null (p_M p)]
      || banks_null (q_c q) [is_null (m_Cd m); is_null (m_Cr m); is_null (p_Cd p); is_null (p_Cr p); is_null (r_C r)]
      || banks_null (q_t q) [is_null (m_Td m); is_null (m_Tr m); is_null (p_Td p); is_null (p_Tr p); is_null (x_tm c)]
      || banks_null (q_d q) [is_null (r_D r)] || banks_null (q_r q) [is_null (r_R r)]
      || banks_null (q_nets q) [is_null (x_net c)]).

(** ladder_task.c:73-82 *)
Definition wait_delay (E : env) : M unit :=
  c <- getc ;;
  if h_delay (x_h c) then emit E (EvDelay (q_delay (x_q c))) else set_state S_ERROR ;;; panic E.
(** ladder_task.c:69-84: [n] is MAX_WAIT_CYCLES minus wait_count. [None] is the return statement; otherwise
    whether the wait timed out. *)
Fixpoint wait (E : env) (n : nat) : M (option bool) :=
  c <- getc ;;
  match n with
  | O => ret (Some true)
  | S k =>
      if lstate_eqb (x_state c) S_RUNNING then ret (Some false)
      else if lstate_eqb (x_state c) S_EXIT_TSK then ret None
      else wait_delay E ;;; wait E k
  end.
Definition max_wait_cycles : nat := 1000.

(** Module loops of the task; [qty == 0 || pointer NULL] skips the rest of the module's iteration. *)
(** ladder_task.c:128-141 *)
Definition in_hist (m : inmod) : res inmod :=
  if (i_iq m =? 0)%nat || is_null (i_I m) || is_null (i_Ih m) then Ok m else
  let? h := pmemcpy (i_Ih m) (i_I m) (i_iq m) in
  let m1 := set_i_Ih h m in
  if (i_iwq m1 =? 0)%nat || is_null (i_IW m1) || is_null (i_IWh m1) then Ok m1 else
  let? hw := pmemcpy (i_IWh m1) (i_IW m1) (i_iwq m1) in
  Ok (set_i_IWh hw m1).
(** ladder_task.c:170-181 *)
Definition out_hist (m : outmod) : res outmod :=
  if (o_qq m =? 0)%nat || is_null (o_Q m) || is_null (o_Qh m) then Ok m else
  let? h := pmemcpy (o_Qh m) (o_Q m) (o_qq m) in
  let m1 := set_o_Qh h m in
  if (o_qwq m1 =? 0)%nat || is_null (o_QW m1) || is_null (o_QWh m1) then Ok m1 else
  let? hw := pmemcpy (o_QWh m1) (o_QW m1) (o_qwq m1) in
  Ok (set_o_QWh hw m1).
(** ladder_task.c:191-201 *)
Definition out_revert (m : outmod) : res outmod :=
  if (o_qq m =? 0)%nat || is_null (o_Q m) || is_null (o_Qh m) then Ok m else
  let? q := pmemcpy (o_Q m) (o_Qh m) (o_qq m) in
  let m1 := set_o_Q q m in
  if (o_qwq m1 =? 0)%nat || is_null (o_QW m1) || is_null (o_QWh m1) then Ok m1 else
  let? w := pmemcpy (o_QW m1) (o_QWh m1) (o_qwq m1) in
  Ok (set_o_QW w m1).
(** ladder_task.c:230-246 *)
Definition out_clear (m : outmod) : res outmod :=
  if (o_qq m =? 0)%nat || is_null (o_Q m) then Ok m else
  let? q := pmemset0 (o_Q m) (o_qq m) in
  let m1 := set_o_Q q m in
  if (o_qwq m1 =? 0)%nat || is_null (o_QW m1) then Ok m1 else
  let? w := pmemset0 (o_QW m1) (o_qwq m1) in
  let m2 := set_o_QW w m1 in
  let? qh := copy_if (o_Qh m2) (o_Q m2) (o_qq m2) in
  let? wh := copy_if (o_QWh m2) (o_QW m2) (o_qwq m2) in
  Ok (set_o_QWh wh (set_o_Qh qh m2)).

Definition upd_in (f : inmod -> res inmod) (c : ctx) : res ctx :=
  if is_null (x_in c) then Ok c else let? l := pmap_first (io_rq (x_io c)) f (x_in c) in Ok (set_x_in l c).
Definition upd_out (f : outmod -> res outmod) (c : ctx) : res ctx :=
  if is_null (x_out c) then Ok c else let? l := pmap_first (io_wq (x_io c)) f (x_out c) in Ok (set_x_out l c).

(** ladder_task.c:145-157: the bound is re-read every time; a NULL slot ends the loop. *)
Fixpoint read_loop (E : env) (fuel n : nat) : M unit :=
  c <- getc ;;
  if (n <? io_rq (x_io c))%nat then
    match fuel with
    | O => nofuel
    | S f =>
        b <- lift (pget (io_rd (x_io c)) (Z.of_nat n)) ;;
        if b : bool then emit E (EvRead n) ;;; read_loop E f (S n)
        else set_state S_ERROR ;;; panic E
    end
  else ret tt.
Definition read_inputs (E : env) : M unit :=
  c <- getc ;; if is_null (io_rd (x_io c)) then ret tt else read_loop E (io_rq (x_io c)) 0.
(** The arrays the n-th write callback finds in the context. *)
Definition handed (n : nat) (c : ctx) : arr * arr :=
  match x_out c with
  | Some l => match nth_error l n with Some m => (o_Q m, o_QW m) | None => (None, None) end
  | None => (None, None)
  end.
(** ladder_task.c:251-263 = 277-288 *)
Fixpoint write_loop (E : env) (fuel n : nat) : M unit :=
  c <- getc ;;
  if (n <? io_wq (x_io c))%nat then
    match fuel with
    | O => nofuel
    | S f =>
        b <- lift (pget (io_wr (x_io c)) (Z.of_nat n)) ;;
        if b : bool then
          emit E (EvWrite n (fst (handed n c)) (snd (handed n c))) ;;; write_loop E f (S n)
        else set_state S_ERROR ;;; panic E
    end
  else ret tt.
Definition write_outputs (E : env) : M unit :=
  c <- getc ;; if is_null (io_wr (x_io c)) then ret tt else write_loop E (io_wq (x_io c)) 0.

(** ladder_task.c:204-208: unconditional memcpy from the histories. *)
Definition revert_memory (c : ctx) : res ctx :=
  let m := x_mem c in let p := x_prev c in let q := x_q c in
  let? a := pmemcpy (m_M m) (p_M p) (q_m q) in
  let? cd := pmemcpy (m_Cd m) (p_Cd p) (q_c q) in
  let? cr := pmemcpy (m_Cr m) (p_Cr p) (q_c q) in
  let? td := pmemcpy (m_Td m) (p_Td p) (q_t q) in
  let? tr := pmemcpy (m_Tr m) (p_Tr p) (q_t q) in
  Ok (set_x_mem (mk_mem a cr cd tr td) c).
(** ladder_task.c:210-223 *)
Definition reset_registers (c : ctx) : res ctx :=
  let r := x_regs c in let q := x_q c in
  let? cc := zero_if (r_C r) (q_c q) in
  let? tm := (if is_null (x_tm c) then Ok (x_tm c)
              else pmap_first (q_t q) (fun t => Ok (set_t_acc 0 t)) (x_tm c)) in
  let? d := zero_if (r_D r) (q_d q) in
  let? rr := zero_if (r_R r) (q_r q) in
  Ok (set_x_regs (mk_regs cc d rr) (set_x_tm tm c)).

Definition hook (E : env) (present : hooks -> bool) (ev : event) : M unit :=
  c <- getc ;; if present (x_h c) then emit E ev else ret tt.

(** ladder_task.c:187-269: the fault path. *)
Definition fault_path (E : env) : M unit :=
  set_state S_EXIT_TSK ;;;
  updc (upd_out out_revert) ;;;
  updc revert_memory ;;;
  updc reset_registers ;;;
  updc save_previous ;;;
  c <- getc ;;
  (if x_wof c then ret tt else updc (upd_out out_clear)) ;;;
  write_outputs E ;;;
  scan_time E ;;;
  hook E h_after EvAfter.
(** ladder_task.c:292-297: target_scan_ms is positive, so the uint64_t conversions keep it. *)
Definition padding (E : env) : M unit :=
  c <- getc ;;
  let si := x_si c in
  if (0 <? si_target si) && (si_actual si <? si_target si) && h_delay (x_h c)
  then emit E (EvDelay (si_target si - si_actual si)) else ret tt.
(** ladder_task.c:274-301 *)
Definition normal_path (E : env) : M unit :=
  updc save_previous ;;;
  write_outputs E ;;;
  scan_time E ;;;
  padding E ;;;
  hook E h_after EvAfter.

(** How the iteration of the main loop ends: continue, or goto exit. *)
Inductive tnext : Type := T_continue | T_exit.
(** ladder_task.c:100-301: one cycle in state RUNNING. *)
Definition null_guard (E : env) (n : nat) (isnull : bool) : M bool :=
  if (0 <? n)%nat && isnull then set_state S_ERROR ;;; panic E ;;; ret true else ret false.
Definition cycle (E : env) : M tnext :=
  c <- getc ;;
  (if h_millis (x_h c) then t <- millis E ;; modc (fun c => set_x_si (set_si_start t (x_si c)) c)
   else modc (fun c => set_x_si (set_si_start 0 (x_si c)) c) ;;; set_state S_ERROR ;;; panic E) ;;;
  hook E h_before EvBefore ;;;
  c1 <- getc ;;
  g <- null_guard E (io_rq (x_io c1)) (is_null (x_in c1)) ;;
  if g : bool then ret T_continue else
  updc (upd_in in_hist) ;;;
  read_inputs E ;;;
  c2 <- getc ;;
  g2 <- null_guard E (io_wq (x_io c2)) (is_null (x_out c2)) ;;
  if g2 : bool then ret T_continue else
  updc (upd_out out_hist) ;;;
  ladder_scan E ;;;
  c3 <- getc ;;
  if lstate_eqb (x_state c3) S_INV then fault_path E ;;; ret T_exit
  else normal_path E ;;; ret T_continue.

(** ladder_task.c:66-302: the main loop. [Running]: the given number of iterations was used up; [Returned]: the
    return statement in the wait loop; [Ended]: label exit. *)
Inductive tend : Type := Running | Returned | Ended.
Definition wait_timeout (E : env) (timeout : bool) : M unit :=
  if timeout then set_state S_ERROR ;;; panic E ;;; set_state S_EXIT_TSK else ret tt.
Fixpoint task_loop (E : env) (fuel : nat) : M tend :=
  c <- getc ;;
  if lstate_eqb (x_state c) S_EXIT_TSK then ret Ended
  else
    match fuel with
    | O => ret Running
    | S f =>
        w <- wait E max_wait_cycles ;;
        match w with
        | None => ret Returned
        | Some timeout =>
            wait_timeout E timeout ;;;
            c1 <- getc ;;
            if lstate_eqb (x_state c1) S_RUNNING then
              n <- cycle E ;;
              match n with T_exit => ret Ended | T_continue => task_loop E f end
            else task_loop E f
        end
    end.
Definition ladder_task (E : env) (fuel : nat) : M tend :=
  c <- getc ;;
  g <- lift (task_guard c) ;;
  if g : bool then set_state S_NULLFN ;;; ret Returned
  else
    r <- task_loop E fuel ;;
    match r with
    | Ended => hook E h_end EvEnd ;;; ret Ended
    | _ => ret r
    end.
