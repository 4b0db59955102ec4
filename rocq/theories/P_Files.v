(** program files (C68). *)
From Coq Require Import String.
From Verif Require Export SpecFiles P_Save.
Open Scope list_scope.
Open Scope Z_scope.

Lemma put_same p t d : put_file p t d p = Some t.
Proof. unfold put_file. now rewrite same_text_refl. Qed.
Lemma put_other p t d : same_but p d (put_file p t d).
Proof. intros q H. unfold put_file. apply same_text_neq in H. now rewrite H. Qed.
Lemma cstr_id t : ~ In 0 t -> cstr t = t.
Proof.
  induction t as [|x t IH]; simpl; intros H; auto. destruct (x =? 0) eqn:E; [exfalso; apply H; left; lia|].
  rewrite IH; auto.
Qed.
Lemma file_written K W W' d p j t : prints K j t -> delivers W -> can_read W' p ->
  file_of K W' (put_file p (w_sent W (cstr t)) d) p = F_doc j.
Proof.
  intros (N & P) D (R & M). unfold file_of, read_file. rewrite put_same, R, M, D, (cstr_id t N). simpl. rewrite (cstr_id t N), P. reflexivity.
Qed.
Lemma compact_ok K W d p q d' : compact_path K W d p q = (ST_ok, d') ->
  exists t j u, read_file W d p = Some t /\ k_parse K t = Some j /\ k_compact K j = Some u /\ d' = put_file q (w_sent W (cstr u)) d.
Proof.
  unfold compact_path, write_file. intros H. destruct (read_file W d p) as [t|]; [|discriminate].
  destruct (k_parse K t) as [j|] eqn:J0; [|discriminate]. destruct (k_compact K j) as [u|] eqn:U; [|discriminate].
  destruct (w_write W q); [|discriminate]. injection H as <-. exists t, j, u. auto.
Qed.

(** ** C68 *)
(** C68: a compacted file stands for the same document as the original. So, wherever the two are readable, they load the same
    program into the same machine with the same verdict, they are valid by the same schemas, and as schemas they admit the
    same documents. No other file changes. Input and output may be the same path. *)
Lemma C68_compact_l : forall K W W1 W' d p q d', (forall j t, file_of K W d p = F_doc j -> k_compact K j = Some t -> prints K j t) -> delivers W ->
  compact_path K W d p q = (ST_ok, d') -> can_read W1 p -> can_read W' q ->
  (forall L al c, load_path K W' d' L al q c = load_path K W1 d L al p c)
  /\ (forall cmp f, validate_file cmp (file_of K W' d' q) f = validate_file cmp (file_of K W1 d p) f
                 /\ validate_file cmp f (file_of K W' d' q) = validate_file cmp f (file_of K W1 d p))
  /\ same_but q d d' /\ exists j, file_of K W1 d p = F_doc j.
Proof.
  intros K W W1 W' d p q d' P D H (R1 & M1) R. destruct (compact_ok _ _ _ _ _ _ H) as (t & j & u & A & B & C & ->).
  assert (F0 : file_of K W d p = F_doc j) by (unfold file_of; now rewrite A, B).
  assert (F1 : file_of K W1 d p = F_doc j).
  { unfold file_of. unfold read_file in *. destruct (d p) as [t0|]; [|discriminate]. rewrite R1, M1. simpl.
    destruct (w_read W p && w_mem W p); [|discriminate]. injection A as ->. now rewrite B. }
  pose proof (file_written K W W' d q j u (P _ _ F0 C) D R) as F2. unfold load_path. rewrite F1, F2.
  split; [reflexivity|]. split; [auto|]. split; [apply put_other|eauto].
Qed.
(** C68: compacting a compacted file writes the same bytes again. *)
Lemma C68_compact_twice_l : forall K W W' d p q q2 d' d2, (forall j t, file_of K W d p = F_doc j -> k_compact K j = Some t -> prints K j t) -> delivers W -> delivers W' ->
  compact_path K W d p q = (ST_ok, d') -> compact_path K W' d' q q2 = (ST_ok, d2) -> d2 q2 = d' q.
Proof.
  intros K W W' d p q q2 d' d2 P D D' H H2. destruct (compact_ok _ _ _ _ _ _ H) as (t & j & u & A & B & C & ->).
  destruct (compact_ok _ _ _ _ _ _ H2) as (t2 & j2 & u2 & A2 & B2 & C2 & ->). assert (F0 : file_of K W d p = F_doc j) by (unfold file_of; now rewrite A, B).
  destruct (P _ _ F0 C) as (N & Q).
  unfold read_file in A2. rewrite put_same, D, (cstr_id u N) in A2. destruct (w_read W' q && w_mem W' q); [|discriminate].
  injection A2 as <-. rewrite (cstr_id u N), Q in B2. injection B2 as <-. rewrite C in C2. injection C2 as <-.
  rewrite !put_same, D, D'. reflexivity.
Qed.
(** C68: a compaction that reports an error changes no file, and the error tells what went wrong. *)
Lemma C68_compact_fails_l : forall K W d p q st d', compact_path K W d p q = (st, d') -> st <> ST_ok -> (forall r, d' r = d r)
  /\ (st = ST_openfile /\ file_of K W d p = F_missing
      \/ st = ST_parse /\ file_of K W d p = F_garbage
      \/ st = ST_compact /\ (exists j, file_of K W d p = F_doc j /\ k_compact K j = None)
      \/ st = ST_write /\ (exists j, file_of K W d p = F_doc j) /\ w_write W q = false).
Proof.
  intros K W d p q st d' H N. unfold compact_path, write_file, file_of in *. destruct (read_file W d p) as [t|].
  2: { injection H as <- <-. auto. }
  destruct (k_parse K t) as [j|]; [|injection H as <- <-; auto].
  destruct (k_compact K j) as [u|] eqn:C; [|injection H as <- <-; split; auto; right; right; left; eauto].
  destruct (w_write W q) eqn:X; injection H as <- <-; [congruence|]. split; auto. do 3 right. eauto.
Qed.
(** C68: a compaction succeeds exactly when the input is a readable document that can be printed and the output can be opened. *)
Lemma C68_compact_ok_l : forall K W d p q, (exists d', compact_path K W d p q = (ST_ok, d'))
  <-> exists j t, file_of K W d p = F_doc j /\ k_compact K j = Some t /\ w_write W q = true.
Proof.
  intros K W d p q. unfold compact_path, write_file, file_of. destruct (read_file W d p) as [t|].
  2: { split; [intros (? & ?)|intros (? & ? & ? & ?)]; discriminate. }
  destruct (k_parse K t) as [j|].
  2: { split; [intros (? & ?)|intros (? & ? & ? & ?)]; discriminate. }
  destruct (k_compact K j) as [u|] eqn:C.
  2: { split; [intros (? & ?); discriminate|]. intros (j' & t' & A & B & _). injection A as <-. congruence. }
  destruct (w_write W q).
  - split; [intros _; exists j, u; auto|intros _; eexists; reflexivity].
  - split; [intros (? & ?); discriminate|intros (? & ? & _ & _ & ?); discriminate].
Qed.
(** C68: what is saved is loaded again. A program saved with success, when everything reaches the disk, is read back by a machine
    with as many networks; it is the same program exactly when the texts of its reals stand for them. Saving touches no other
    file. *)
Lemma C68_save_load_l : forall K W W' d d' L al r p c c0 c', (forall j t, program_to_json L c = Ok j -> k_pretty K j = Some t -> prints K j t) -> delivers W ->
  releasable c -> has_operands c -> releasable c0 -> q_nets (x_q c0) = q_nets (x_q c) ->
  save_path K W d L r p c = Ok (ST_ok, d') -> can_read W' p -> load_path K W' d' L al p c0 = Ok (J_OK, c') ->
  (same_program c c' <-> reals_kept L c) /\ same_but p d d'.
Proof.
  intros K W W' d d' L al r p c c0 c' P D R1 O1 R0 Q H R LD. unfold save_path in H. destruct (w_write W p); [|discriminate].
  destruct r as [k|]; [discriminate|]. destruct (program_to_json L c) as [j| |] eqn:J0; simpl in H; try discriminate.
  destruct (k_pretty K j) as [t|] eqn:T; [|discriminate]. injection H as <-. split; [|apply put_other].
  unfold load_path in LD. rewrite (file_written K W W' d p j t (P _ _ eq_refl T) D R) in LD.
  destruct (C54_restored_l L al c j c0 c' R1 O1 J0 R0 Q LD) as (X & _). exact X.
Qed.
(** C68: and it is read back exactly if the program is one that can be stored (known instructions with their operands, no
    constants except presets of counters, no strings, no times in milliseconds), provided memory does not run out. *)
Lemma C68_save_accepted_l : forall K W W' d d' L al r p c c0, (forall j t, program_to_json L c = Ok j -> k_pretty K j = Some t -> prints K j t) -> delivers W ->
  releasable c -> moderate c -> releasable c0 -> q_nets (x_q c0) = q_nets (x_q c) -> (forall s, al s = true) ->
  save_path K W d L r p c = Ok (ST_ok, d') -> can_read W' p ->
  ((exists c', load_path K W' d' L al p c0 = Ok (J_OK, c')) <-> storable L c).
Proof.
  intros K W W' d d' L al r p c c0 P D R1 O1 R0 Q A H R. unfold save_path in H. destruct (w_write W p); [|discriminate].
  destruct r as [k|]; [discriminate|]. destruct (program_to_json L c) as [j| |] eqn:J0; simpl in H; try discriminate.
  destruct (k_pretty K j) as [t|] eqn:T; [|discriminate]. injection H as <-.
  unfold load_path. rewrite (file_written K W W' d p j t (P _ _ eq_refl T) D R). exact (C54_accepted_l L al c j c0 R1 O1 J0 R0 Q A).
Qed.
(** C68: a save of a complete program succeeds exactly when the file can be opened, no node of the tree is refused, the program
    holds no string, and the tree can be printed; with a string it reads a value that was never written. *)
Lemma C68_save_ok_l : forall K W d L r p c, releasable c -> has_operands c ->
  ((exists d', save_path K W d L r p c = Ok (ST_ok, d'))
   <-> w_write W p = true /\ r = None /\ no_strings c /\ forall j, program_to_json L c = Ok j -> k_pretty K j <> None)
  /\ ((exists u, save_path K W d L r p c = Bad u) <-> w_write W p = true /\ r = None /\ ~ no_strings c).
Proof.
  intros K W d L r p c R O. destruct (C54_saves_l L c R O) as [S1 S2]. unfold save_path.
  destruct (w_write W p).
  2: { split; split; [intros (d' & X); discriminate|intros (X & _); discriminate|intros (u & X); discriminate|intros (X & _); discriminate]. }
  destruct r as [k|].
  { split; split; [intros (d' & X); discriminate|intros (_ & X & _); discriminate|intros (u & X); discriminate|intros (_ & X & _); discriminate]. }
  destruct (program_to_json L c) as [j|u|] eqn:J0; cbn [rbind].
  - split; split.
    + intros (d' & X). destruct (k_pretty K j) as [t|] eqn:T; [|discriminate]. split; [auto|]. split; [auto|]. split.
      * intros n r0 col b i dq e v X1 X2 X3 X4 X5. discriminate S2. intros N. exact (N n r0 col b i dq e v X1 X2 X3 X4 X5).
      * intros j' Q. injection Q as <-. congruence.
    + intros (_ & _ & _ & X). specialize (X j eq_refl). destruct (k_pretty K j) as [t|]; [eauto|congruence].
    + intros (u & X). destruct (k_pretty K j); discriminate.
    + intros (_ & _ & X). specialize (S2 X). discriminate.
  - split; split.
    + intros (d' & X). discriminate.
    + intros (_ & _ & X & _). destruct (S1 X) as (j & Y). discriminate.
    + intros _. split; [auto|]. split; [auto|]. intros X. destruct (S1 X) as (j & Y). discriminate.
    + eauto.
  - split; split.
    + intros (d' & X). discriminate.
    + intros (_ & _ & X & _). destruct (S1 X) as (j & Y). discriminate.
    + intros (u & X). discriminate.
    + intros (_ & _ & X). specialize (S2 X). discriminate.
Qed.
(** C68, finding: a failed save destroys the old file. Every error but "cannot open" leaves an empty file, which is no longer
    a program. *)
Lemma C68_save_fails_actual_l : forall K W d L r p c st d', save_path K W d L r p c = Ok (st, d') -> st <> ST_ok ->
  (st = ST_openfile /\ (forall q, d' q = d q)) \/ (st <> ST_openfile /\ d' p = Some [] /\ same_but p d d').
Proof.
  intros K W d L r p c st d' H N. unfold save_path in H. destruct (w_write W p); [|injection H as <- <-; auto].
  right. assert (X : d' = put_file p [] d /\ st <> ST_openfile).
  { destruct r as [k|]; [injection H as <- <-; split; [reflexivity|discriminate]|].
    destruct (program_to_json L c) as [j| |]; simpl in H; try discriminate.
    destruct (k_pretty K j); injection H as <- <-; [congruence|split; [reflexivity|discriminate]]. }
  destruct X as (-> & X). split; auto. split; [apply put_same|apply put_other].
Qed.
(** C68, finding: success does not depend on what reaches the disk. If a save or a compaction succeeds, the same one on a full
    disk, where no byte arrives, succeeds as well and leaves an empty file. *)
Lemma C68_full_disk_actual_l : forall K W d d',
  let F := mk_world (w_read W) (w_write W) (w_mem W) (fun _ => []) in
  (forall L r p c, save_path K W d L r p c = Ok (ST_ok, d') -> exists d2, save_path K F d L r p c = Ok (ST_ok, d2) /\ d2 p = Some [])
  /\ (forall p q, compact_path K W d p q = (ST_ok, d') -> exists d2, compact_path K F d p q = (ST_ok, d2) /\ d2 q = Some []).
Proof.
  intros K W d d' F. split.
  - intros L r p c H. unfold save_path in *. cbn [w_write w_sent F]. destruct (w_write W p); [|discriminate].
    destruct r as [k|]; [discriminate|]. destruct (program_to_json L c) as [j| |]; simpl in *; try discriminate.
    destruct (k_pretty K j) as [t|]; [|discriminate]. eexists. split; [reflexivity|apply put_same].
  - intros p q H. destruct (compact_ok _ _ _ _ _ _ H) as (t & j & u & A & B & C & E).
    unfold compact_path, write_file, read_file in *. cbn [w_write w_sent w_read w_mem F]. rewrite A, B, C in *.
    destruct (w_write W q); [|discriminate]. eexists. split; [reflexivity|apply put_same].
Qed.
(** C68: nothing behind a NUL byte is seen. Two files that agree up to their first NUL are the same document. *)
Lemma C68_nul_l : forall K W d p q a x y, ~ In 0 a -> can_read W p -> can_read W q ->
  d p = Some (a ++ x) -> d q = Some (a ++ y) -> (x = [] \/ exists x', x = 0 :: x') -> (y = [] \/ exists y', y = 0 :: y') ->
  file_of K W d p = file_of K W d q.
Proof.
  intros K W d p q a x y N (R1 & M1) (R2 & M2) A B X Y.
  assert (C : forall a z, ~ In 0 a -> (z = [] \/ exists z', z = 0 :: z') -> cstr (a ++ z) = a).
  { induction a0 as [|u a0 IH]; intros z NI Z0; simpl.
    - destruct Z0 as [->|(z' & ->)]; reflexivity.
    - simpl in NI. destruct (u =? 0) eqn:E; [exfalso; apply NI; left; lia|]. rewrite IH; auto. }
  unfold file_of, read_file. rewrite A, B, R1, R2, M1, M2. simpl. rewrite !C by auto. reflexivity.
Qed.

(*EX
(* A disk with a program printed at length and, at another path, a text that is no document; a library that knows the two texts of
   this program. *)
Definition fl_doc : json := saved strict stored_program.
Definition fl_long : list Z := txt "the program, at length".
Definition fl_short : list Z := txt "the program".
Definition fl_codec : codec :=
  mk_codec (fun t => if same_text t fl_long || same_text t fl_short then Some fl_doc else None) (fun _ => Some fl_long) (fun _ => Some fl_short).
Definition fl_world : world := mk_world (fun _ => true) (fun p => negb (same_text p (txt "locked"))) (fun _ => true) (fun t => t).
Definition fl_disk : disk := put_file (txt "a") fl_long (put_file (txt "b") (txt "other") (fun _ => None)).
Definition fl_compacted : disk := snd (compact_path fl_codec fl_world fl_disk (txt "a") (txt "c")).
Example C68_compact_case :
  (forall j t, file_of fl_codec fl_world fl_disk (txt "a") = F_doc j -> k_compact fl_codec j = Some t -> prints fl_codec j t)
  /\ delivers fl_world /\ can_read fl_world (txt "a") /\ can_read fl_world (txt "c")
  /\ compact_path fl_codec fl_world fl_disk (txt "a") (txt "c") = (ST_ok, fl_compacted)
  /\ fl_compacted (txt "c") = Some fl_short /\ fl_compacted (txt "b") = Some (txt "other") /\ fl_compacted (txt "d") = None
  /\ fst (compact_path fl_codec fl_world fl_compacted (txt "c") (txt "e")) = ST_ok
  /\ snd (compact_path fl_codec fl_world fl_compacted (txt "c") (txt "e")) (txt "e") = Some fl_short.
Proof.
  split.
  { intros j t H C. assert (J0 : F_doc fl_doc = F_doc j) by (rewrite <- H; reflexivity). injection J0 as <-. injection C as <-.
    split; [vm_compute; intuition discriminate|reflexivity]. }
  split; [intros t; reflexivity|]. repeat split.
Qed.
Example C68_compact_fails_case :
  fst (compact_path fl_codec fl_world fl_disk (txt "x") (txt "c")) = ST_openfile
  /\ fst (compact_path fl_codec fl_world fl_disk (txt "b") (txt "c")) = ST_parse
  /\ fst (compact_path fl_codec fl_world fl_disk (txt "a") (txt "locked")) = ST_write.
Proof. repeat split. Qed.
(* Saving the program and loading it into another machine; with a refused node the old file is gone. *)
Example C68_save_load_case :
  exists d', save_path fl_codec fl_world fl_disk strict None (txt "b") stored_program = Ok (ST_ok, d') /\ d' (txt "b") = Some fl_long
  /\ (forall j t, program_to_json strict stored_program = Ok j -> k_pretty fl_codec j = Some t -> prints fl_codec j t)
  /\ releasable stored_program /\ has_operands stored_program
  /\ exists c', load_path fl_codec fl_world d' strict plenty (txt "b") stored_program = Ok (J_OK, c').
Proof.
  eexists. split; [vm_compute; reflexivity|]. split; [vm_compute; reflexivity|]. split.
  { intros j t H C. assert (J0 : @Ok json fl_doc = Ok j) by (rewrite <- H; vm_compute; reflexivity). injection J0 as <-. injection C as <-.
    split; [vm_compute; intuition discriminate|vm_compute; reflexivity]. }
  split; [apply releasableb_ok; vm_compute; reflexivity|]. split; [apply has_operandsb; vm_compute; reflexivity|].
  eexists. vm_compute. reflexivity.
Qed.
(* It can be stored; with a string operand the save is undefined. *)
Example C68_save_accepted_case : moderate stored_program /\ storable strict stored_program
  /\ (forall j, program_to_json strict stored_program = Ok j -> k_pretty fl_codec j <> None)
  /\ save_path fl_codec fl_world fl_disk strict None (txt "b") (demo_nets [net_on true [[cellv I_MOVE [mk_value R_S 0 (Some (txt "a")); V R_D 2]]]]) = Bad UB_indet.
Proof.
  split; [apply moderateb_ok; vm_compute; reflexivity|]. split; [apply storableb; vm_compute; reflexivity|]. split; [intros j _; discriminate|vm_compute; reflexivity].
Qed.
Example C68_save_fails_case :
  exists d', save_path fl_codec fl_world fl_disk strict (Some 3%nat) (txt "a") stored_program = Ok (ST_create 3, d')
  /\ fl_disk (txt "a") = Some fl_long /\ d' (txt "a") = Some [] /\ file_of fl_codec fl_world d' (txt "a") = F_garbage.
Proof. eexists. repeat split. Qed.
Example C68_nul_case : let d := put_file (txt "n") (fl_short ++ 0 :: txt "rest") fl_compacted in
  file_of fl_codec fl_world d (txt "n") = F_doc fl_doc /\ d (txt "c") = Some (fl_short ++ []).
Proof. split; vm_compute; reflexivity. Qed.
EX*)
