(** Next time of a cron expression and several expressions: optional/cron/lwdtc/lwdtc.c:377-402 and 441-535. Pointers
    are assumed non-NULL (the functions return lwdtcERRPAR for NULL). *)
From Verif Require Export Lwdtc.

(** time_t is a signed 64-bit integer. *)
Definition time_add (t d : Z) : res Z := if t + d <? 2 ^ 63 then Ok (t + d) else Bad UB_overflow.
(** lwdtc.c:468-469: !day || !wday || !hour is the negation of this conjunction. *)
Definition day_hour (b : tm) (k : cronmap) : res bool :=
  and_bit (bit_is_set (k_mday k) (u32 (tm_mday b)))
  (and_bit (bit_is_set (k_wday k) (u32 (tm_wday b))) (bit_is_set (k_hour k) (u32 (tm_hour b)))).
(** lwdtc.c:462-484: the loop. [lt] is the local time of a time_t value, [b] the broken-down time in hand. The remainders
    are those of C (signed, towards zero); 1800U and 60U are converted to time_t. *)
Fixpoint next_loop (fuel : nat) (lt : Z -> tm) (k : cronmap) (t : Z) (b : tm) : res Z :=
  match fuel with
  | O => NoFuel
  | S f =>
      let? v := cron_valid b k in
      if v then Ok t else
      let? d := day_hour b k in
      if d then
        let? m := bit_is_set (k_min k) (u32 (tm_min b)) in
        if m then
          let? t' := time_add t 1 in
          let b' := mk_tm (tm_sec b + 1) (tm_min b) (tm_hour b) (tm_mday b) (tm_mon b) (tm_wday b) (tm_year b) in
          next_loop f lt k t' (if tm_sec b' <=? 59 then b' else lt t')
        else
          let? t' := time_add t (60 - Z.rem t 60) in next_loop f lt k t' (lt t')
      else
        let? t' := time_add t (1800 - Z.rem t 1800) in next_loop f lt k t' (lt t')
  end.
(** lwdtc.c:453-487 (lwdtc_cron_next) *)
Definition cron_next (fuel : nat) (lt : Z -> tm) (k : cronmap) (now : Z) : res Z :=
  let? t := time_add now 1 in next_loop fuel lt k t (lt t).

(** lwdtc.c:388-403 (lwdtc_cron_parse_multi): the maps of the expressions, and the value stored in fail_index if any. *)
Fixpoint parse_all (i : nat) (ks : list cronmap) (ss : list (list Z)) : res (lwdtcr * option nat * list cronmap) :=
  match ks, ss with
  | k :: ks, s :: ss =>
      let? x := cron_parse k s in
      let (r, k') := x in
      if lok r then
        match ss with
        | [] => Ok (L_OK, None, k' :: ks)
        | _ => let? y := parse_all (S i) ks ss in let '(r, f, ks') := y in Ok (r, f, k' :: ks')
        end
      else Ok (r, Some i, k' :: ks)
  | ks, [] => Ok (L_ERRPAR, None, ks)
  | [], _ :: _ => Bad UB_oob
  end.
Definition parse_multi (ks : list cronmap) (ss : list (list Z)) : res (lwdtcr * option nat * list cronmap) := parse_all 0 ks ss.

(** lwdtc.c:498-511 (lwdtc_cron_is_valid_for_time_multi_or) and 522-535 (.._multi_and); an empty array is lwdtcERRPAR. *)
Fixpoint valid_or (t : tm) (ks : list cronmap) : res lwdtcr :=
  match ks with
  | [] => Ok L_ERR
  | k :: ks => let? b := cron_valid t k in if b then Ok L_OK else valid_or t ks
  end.
Fixpoint valid_and (t : tm) (ks : list cronmap) : res lwdtcr :=
  match ks with
  | [] => Ok L_OK
  | k :: ks => let? b := cron_valid t k in if b then valid_and t ks else Ok L_ERR
  end.
Definition multi_or (t : tm) (ks : list cronmap) : res lwdtcr := match ks with [] => Ok L_ERRPAR | _ => valid_or t ks end.
Definition multi_and (t : tm) (ks : list cronmap) : res lwdtcr := match ks with [] => Ok L_ERRPAR | _ => valid_and t ks end.
