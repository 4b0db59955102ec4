(** Deciding the requirements of SpecCalm for given machines. *)
From Verif Require Export SpecCalm.
From Verif Require Import Lib.
Local Open Scope nat_scope.
Local Open Scope bool_scope.
Definition there {A} (p : option A) : bool := match p with Some _ => true | None => false end.
Lemma there_ok {A} (p : option A) : there p = true -> p <> None.
Proof. destruct p; discriminate. Qed.
Definition slots {A} (n : nat) (mods : option A) (fns : option (list bool)) : bool :=
  forallb (fun k => there mods && match elem fns k with Some b => b | None => false end) (seq 0 n).
Lemma slots_ok {A} n (mods : option A) fns : slots n mods fns = true -> forall k, k < n -> mods <> None /\ elem fns k = Some true.
Proof.
  intros H k K. unfold slots in H. rewrite forallb_forall in H. assert (IN : In k (seq 0 n)) by (apply in_seq; lia). apply H in IN. apply andb_true_iff in IN. destruct IN as [A1 A2].
  split; [now apply there_ok|]. destruct (elem fns k) as [[]|]; congruence.
Qed.
Definition each_net (p : network -> bool) (c : ctx) : bool := match x_net c with Some l => forallb p l | None => true end.
Lemma each_net_ok p c : each_net p c = true -> forall n nt, elem (x_net c) n = Some nt -> p nt = true.
Proof.
  unfold each_net, elem. destruct (x_net c) as [l|]; [|discriminate]. cbn [obind]. rewrite forallb_forall. intros H n nt K. apply H. now apply nth_error_In in K.
Qed.
Definition equippedb (c : ctx) : bool :=
  there (m_M (x_mem c)) && there (m_Cr (x_mem c)) && there (m_Cd (x_mem c)) && there (m_Tr (x_mem c)) && there (m_Td (x_mem c))
  && (there (r_C (x_regs c)) && there (r_D (x_regs c)) && there (r_R (x_regs c)) && there (x_tm c)) && there (x_net c) && each_net (fun nt => there (n_cells nt)) c
  && slots (io_rq (x_io c)) (x_in c) (io_rd (x_io c)) && slots (io_wq (x_io c)) (x_out c) (io_wr (x_io c)) && (h_millis (x_h c) && h_delay (x_h c)) && (q_wdg (x_q c) =? 0)%Z.
Lemma equippedb_ok c : equippedb c = true -> equipped c.
Proof.
  unfold equippedb. rewrite !andb_true_iff. intros (((((((((((B1 & B2) & B3) & B4) & B5) & (((R1 & R2) & R3) & R4)) & N) & K) & I) & O) & (T1 & T2)) & W).
  constructor; auto using there_ok.
  - repeat split; now apply there_ok.
  - repeat split; now apply there_ok.
  - intros n nt H. apply there_ok. exact (each_net_ok _ _ K n nt H).
  - now apply slots_ok.
  - now apply slots_ok.
  - now apply Z.eqb_eq.
Qed.
Definition roomyb (R C : nat) (c : ctx) : bool :=
  each_net (fun nt => (n_rows nt <=? R) && (n_cols nt <=? C)) c && (5 * (Z.of_nat R * (1 + Z.of_nat C * Z.of_nat R)) <=? 4 * si_maxcyc (x_si c))%Z.
Lemma roomyb_ok R C c : roomyb R C c = true -> roomy c.
Proof.
  unfold roomyb. rewrite andb_true_iff. intros [H K]. exists R, C. split; [|now apply Z.leb_le]. intros n nt E. apply (each_net_ok _ _ H) in E. apply andb_true_iff in E. destruct E as [E1 E2].
  split; now apply Nat.leb_le.
Qed.
Definition sureb (c : ctx) : bool :=
  each_net (fun nt => match n_cells nt with Some rows => forallb (forallb (fun x => cannot_fail (c_code x) || is_multi (c_code x))) rows | None => true end) c.
Lemma sureb_ok c : sureb c = true -> sure c.
Proof.
  intros H n r col b i dq K. cbn [peek] in K. unfold cell_of, row_of, net_of in K. destruct (elem (x_net c) n) as [nt|] eqn:N; [|discriminate]. apply (each_net_ok _ _ H) in N. cbn [obind] in K.
  unfold elem in K. destruct (n_cells nt) as [rows|]; [|discriminate]. cbn [obind] in K. destruct (nth_error rows r) as [rw|] eqn:RW; [|discriminate]. cbn [obind] in K. destruct (nth_error rw col) as [x|] eqn:X; [|discriminate].
  cbn in K. injection K as _ <- _. rewrite forallb_forall in N. apply nth_error_In in RW, X. apply N in RW. rewrite forallb_forall in RW. apply RW in X. apply orb_true_iff in X. destruct X as [X|X]; auto. right. destruct (c_code x); discriminate || reflexivity.
Qed.
