(** Documents for the examples about JSON (used by the examples only). *)
From Coq Require Import String.
From Verif Require Export SaveFacts DemoScan.
Open Scope list_scope.
Open Scope Z_scope.

Definition net_okb (nt : network) : bool :=
  forallb (fun r => negb (is_null (elem (n_cells nt) r))) (seq 0 (n_rows nt))
  && forallb (fun r => forallb (fun col => match ncell nt r col with Some x => data_there x | None => false end) (seq 0 (n_cols nt))) (seq 0 (n_rows nt)).
Definition releasableb (c : ctx) : bool := forallb (fun n => match net_of c n with Some nt => net_okb nt | None => false end) (seq 0 (q_nets (x_q c))).
Lemma forallb_seq (f : nat -> bool) k : forallb f (seq 0 k) = true -> forall n, (n < k)%nat -> f n = true.
Proof. intros H n N. rewrite forallb_forall in H. apply H. apply in_seq. lia. Qed.
Lemma releasableb_ok c : releasableb c = true -> releasable c.
Proof.
  intros H. apply releasable_nets. intros n N. assert (K := forallb_seq _ _ H n N). cbv beta in K. destruct (net_of c n) as [nt|]; [|discriminate].
  exists nt. split; auto. apply andb_prop in K as [K1 K2]. split.
  - intros r R. assert (K := forallb_seq _ _ K1 r R). cbv beta in K. destruct (elem (n_cells nt) r); [discriminate|discriminate].
  - intros r col R C. assert (K := forallb_seq _ _ K2 r R). cbv beta in K. assert (K' := forallb_seq _ _ K col C). cbv beta in K'.
    destruct (ncell nt r col) as [x|]; [|discriminate]. eauto.
Qed.

Definition str (s : string) : json := JStr (txt s).
Definition obj (l : list (string * json)) : json := JObj (map (fun p => (txt (fst p), snd p)) l).
Definition op_j (n t v : string) : json := obj [("name", str n); ("type", str t); ("value", str v)]%string.
Definition cell_j (s : string) (b : bool) (ds : list json) : json := obj [("symbol", str s); ("bar", JBool b); ("data", JArr ds)]%string.
Definition net_j (id : Z) (cols : Z) (rs : list (list json)) : json :=
  obj [("id", int_num id); ("rows", int_num (Z.of_nat (length rs))); ("cols", int_num cols); ("networkData", JArr (map JArr rs))]%string.
(** Reals are not used in these documents. *)
Definition strict : outside := mk_outside (fun _ => []) (fun _ => 0) (Bad UB_oob).
Definition plenty (s : site) : bool := true.
(** Two networks of two rows, the second with operands. *)
Definition old_program : ctx :=
  demo_nets [net_on true [[cellv I_NO [V R_M 0]; cellv I_COIL [V R_M 1]]; [cellv I_NOP []; on (cellv I_CONN [])]];
             net_on false [[bar (cellv I_ADD [V R_D 0; V R_D 1; V R_D 2])]]].
Definition net_doc : json :=
  net_j 1 2 [[cell_j "NC" false [op_j "value" "I" "1.3"]; cell_j "TON" true [op_j "timer" "T" "2"; op_j "base" "SEC" " 15"]];
             [cell_j "CONN" false []; cell_j "MOV" false [op_j "a" "D" ""; op_j "b" "QW" "-1"]]]%string.
Definition loaded (L : outside) (al : site -> bool) (js : list json) (c : ctx) : ctx :=
  match json_to_program L al (F_doc (JArr js)) c with Ok (_, c') => c' | _ => c end.
Definition verdict (L : outside) (al : site -> bool) (f : file) (c : ctx) : option jerr :=
  match json_to_program L al f c with Ok (e, _) => Some e | _ => None end.

(** Deciding the hypotheses about saved programs. *)
Definition all_cells (c : ctx) (f : cell -> bool) : bool :=
  forallb (fun n => match net_of c n with Some nt => forallb (fun r => forallb (fun col => match ncell nt r col with Some x => f x | None => false end) (seq 0 (n_cols nt))) (seq 0 (n_rows nt)) | None => false end)
    (seq 0 (q_nets (x_q c))).
Lemma all_cells_ok c f n r col : all_cells c f = true -> program_cell c n r col -> exists x, cell_of c n r col = Some x /\ f x = true.
Proof.
  intros H (NQ & en & rows & cols & P & R & C). assert (K := forallb_seq _ _ H n NQ). cbv beta in K. simpl in P. destruct (net_of c n) as [nt|] eqn:N; [|discriminate]. injection P as <- <- <-.
  assert (K1 := forallb_seq _ _ K r R). cbv beta in K1. assert (K2 := forallb_seq _ _ K1 col C). cbv beta in K2. rewrite (cell_of_net _ _ _ r col N). destruct (ncell nt r col) as [x|]; [|discriminate]. eauto.
Qed.
Definition ops_thereb (x : cell) : bool := forallb (fun d => negb (is_null (elem (c_data x) d))) (seq 0 (c_dq x)).
Lemma has_operandsb c : all_cells c ops_thereb = true -> has_operands c.
Proof.
  intros H n r col bar i dq d P E D. destruct (all_cells_ok _ _ _ _ _ H P) as (x & X & K). simpl in *. rewrite X in *. injection E as <- <- <-. assert (Q := forallb_seq _ _ K d D). cbv beta in Q. simpl. destruct (elem (c_data x) d); discriminate.
Qed.
Definition storable_cellb (L : outside) (x : cell) : bool :=
  match c_code x with I_INV => false | _ => match data_qty L (c_code x) with Ok q => (q =? c_dq x)%nat | _ => false end end
  && forallb (fun d => match elem (c_data x) d with Some v => nameableb (c_code x) d (v_type v) | None => true end) (seq 0 (c_dq x)).
Lemma storableb L c : all_cells c (storable_cellb L) = true -> storable L c.
Proof.
  intros H n r col bar i dq P E. destruct (all_cells_ok _ _ _ _ _ H P) as (x & X & K). simpl in E. rewrite X in E. injection E as <- <- <-. apply andb_prop in K as [K1 K2]. split.
  - rewrite if_inv in K1. destruct (ins_inv_dec (c_code x)) as [I|I]; [discriminate|]. destruct (data_qty L (c_code x)) as [q| |] eqn:DQ; try discriminate. apply Nat.eqb_eq in K1. subst q. now apply data_qty_iff.
  - intros d v (V & b & i & dq & E & D). simpl in E, V. rewrite X in E, V. injection E as <- <- <-. simpl in V. destruct (elem (c_data x) d) as [w|] eqn:W; [|discriminate]. injection V as ->.
    assert (Q := forallb_seq _ _ K2 d D). cbv beta in Q. rewrite W in Q. now apply nameable_iff.
Qed.
Definition moderateb (c : ctx) : bool :=
  (Z.of_nat (q_nets (x_q c)) <? 2 ^ 31)
  && forallb (fun n => match net_of c n with Some nt => (Z.of_nat (n_rows nt) <? 2 ^ 31) && (Z.of_nat (n_cols nt) <? 2 ^ 31) | None => true end) (seq 0 (q_nets (x_q c))).
Lemma moderateb_ok c : moderateb c = true -> moderate c.
Proof.
  intros H. apply andb_prop in H as [H1 H2]. split; [now apply Z.ltb_lt|]. intros n en rows cols NQ P. assert (K := forallb_seq _ _ H2 n NQ). cbv beta in K. simpl in P. destruct (net_of c n) as [nt|]; [|discriminate].
  injection P as <- <- <-. apply andb_prop in K as [K1 K2]. split; now apply Z.ltb_lt.
Qed.
(** A program with ports, a counter, a timer in seconds and a disabled network. *)
Definition stored_program : ctx :=
  demo_nets [net_on true [[cellv I_NO [V R_I (1 + 256 * 3)]; on (bar (cellv I_COIL [V R_Q 513]))]; [cellv I_CTU [V R_C 1; V R_NONE 10]; cellv I_CONN []]];
             net_on false [[cellv I_TON [V R_T 1; V R_I (-2)]; cellv I_MOVE [V R_IW 7; V R_D 2]]]].
Definition saved (L : outside) (c : ctx) : json := match program_to_json L c with Ok j => j | _ => JNull end.
