(** The cron add-on: optional/cron/ladderlib_cron.c. *)
From Verif Require Export Lwdtc Commons.

(** The cron structure reached through ladder_ctx->cron; NULL is dereferenced without a check. *)
Definition cron_of (c : ctx) : res cron := match x_cron c with None => Bad UB_null | Some k => Ok k end.

Definition job0 : job := mk_job false false 0 0 map0.

(** ladderlib_cron.c:42-54; [alloc] is the result of calloc. A failed calloc is dereferenced when qty > 0. *)
Definition cron_init (alloc : bool) (n : nat) (c : ctx) : res (err * ctx) :=
  let? k := cron_of c in
  if negb (is_null (cr_jobs k)) then Ok (E_FAIL, c) else
  if alloc then Ok (E_OK, set_x_cron (Some (mk_cron (Some (repeat job0 n)) n 0)) c)
  else match n with
       | O => Ok (E_OK, set_x_cron (Some (mk_cron None 0 0)) c)
       | _ => Bad UB_null
       end.

(** ladderlib_cron.c:63-77; the registers are uint32_t, and quantity.m - 1 wraps when there are no flags. The
    parsed map is stored in the next free slot before the slot is put in use. *)
Definition cron_add (auto : bool) (enreg flag : Z) (s : list Z) (c : ctx) : res (err * ctx) :=
  let? k := cron_of c in
  if is_null (cr_jobs k) || (cr_used k =? cr_qty k)%nat
     || (u32 (Z.of_nat (q_m (x_q c)) - 1) <? enreg) || (u32 (Z.of_nat (q_m (x_q c)) - 1) <? flag)
  then Ok (E_FAIL, c) else
  let? j := pget (cr_jobs k) (Z.of_nat (cr_used k)) in
  let? x := cron_parse (j_map j) s in
  let (r, map) := x in
  if lok r then
    let? js := pset (cr_jobs k) (Z.of_nat (cr_used k)) (mk_job true auto enreg flag map) in
    Ok (E_OK, set_x_cron (Some (mk_cron js (cr_qty k) (S (cr_used k)))) c)
  else
    let? js := pset (cr_jobs k) (Z.of_nat (cr_used k)) (set_j_map map j) in
    Ok (E_FAIL, set_x_cron (Some (mk_cron js (cr_qty k) (cr_used k))) c).

(** ladderlib_cron.c:88-94: jobs [n], [n+1], ... of the [fuel] remaining used ones. *)
Fixpoint cron_jobs_eval (fuel n : nat) (t : tm) (js : option (list job)) (c : ctx) : res ctx :=
  match fuel with
  | O => Ok c
  | S f =>
      let? j := pget js (Z.of_nat n) in
      let? c' :=
        (if j_en j then
           let? v := cron_valid t (j_map j) in
           if v then let? b := bk_get B_M (j_enreg j) c in bk_put B_M (j_flag j) b c else Ok c
         else Ok c) in
      cron_jobs_eval f (S n) t js c'
  end.
(** time() and localtime(): one external call, which does not touch the context. *)
Definition localtime (E : env) : M tm :=
  fun s => Ok (wall E (length (s_tr s)), mk_st (s_ctx s) (EvTime :: s_tr s)).
(** ladderlib_cron.c:79-97 *)
Definition cron_eval (E : env) : M err :=
  c <- getc ;;
  k <- lift (cron_of c) ;;
  if is_null (cr_jobs k) || (cr_used k =? 0)%nat then ret E_FAIL
  else
    t <- localtime E ;;
    updc (cron_jobs_eval (cr_used k) 0 t (cr_jobs k)) ;;;
    ret E_OK.

(** ladder_scan.c:133-135: clear the flags of the enabled auto-reset jobs. *)
Fixpoint cron_clear (fuel n : nat) (js : option (list job)) (c : ctx) : res ctx :=
  match fuel with
  | O => Ok c
  | S f =>
      let? j := pget js (Z.of_nat n) in
      let? c' := (if j_en j && j_auto j then bk_put B_M (j_flag j) 0 c else Ok c) in
      cron_clear f (S n) js c'
  end.
