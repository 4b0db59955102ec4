(** A host for the examples of the application. *)
From Coq Require Import String.
From Verif Require Export SpecApp AppShip P_Files Shipped.
Open Scope list_scope.
Open Scope Z_scope.

Definition ap_clock (k : nat) : Z * Z := (Z.of_nat k mod 1000, 250000).
Definition ap_now (_ : nat) : tm := mk_tm 0 0 0 1 0 0 120.
Definition ap_al (_ _ : nat) : bool := true.
Definition ap_env (keys : nat -> list Z) : env := port_env true keys ap_al ap_clock ap_now.
Definition ap_outside : outside := mk_outside (fun _ => []) (fun _ => 0) (Ok 0%nat).
Definition ap_saved : json := match program_to_json ap_outside demo_ctx with Ok j => j | _ => JNull end.
(* A library that knows the texts of a program, of a schema, and of the program saved. *)
Definition ap_codec (program schema : json) : codec :=
  mk_codec (fun t => if same_text t (txt "program") then Some program else if same_text t (txt "schema") then Some schema
                     else if same_text t (txt "long") || same_text t (txt "short") then Some ap_saved else None)
           (fun _ => Some (txt "long")) (fun _ => Some (txt "short")).
Definition ap_world : world := mk_world (fun _ => true) (fun _ => true) (fun _ => true) (fun t => t).
Definition ap_host (program schema : json) (L : outside) (cron : bool) : host :=
  mk_host (fun _ => true) (fun _ => true) (fun _ => true) cron true (fun _ => true) None (fun _ => true) (fun _ => ap_world) (ap_codec program schema) cmp_text L (fun _ => []).
Definition ap_disk : disk := put_file prg_load (txt "program") (put_file prg_schema (txt "schema") (fun _ => None)).
Definition ap_start : st := mk_st app_ctx [].

Lemma ap_port keys : app_port keys ap_al ap_clock ap_now (ap_env keys).
Proof.
  constructor; [|reflexivity|reflexivity]. constructor.
  - intros k t H. cbn [clk ap_env port_env]. unfold port_clock. now rewrite H.
  - reflexivity.
  - intros k ev c c' H. cbn [act ap_env port_env]. now rewrite H.
  - intros k id col row c r H. cbn [fexec ap_env port_env]. now rewrite H.
Qed.
Lemma ap_times : (forall k, real_time (ap_clock k)) /\ (forall k, calendar (ap_now k)).
Proof. split; intros k; [unfold real_time, ap_clock; cbn [fst snd]; pose proof (Z.mod_pos_bound (Z.of_nat k) 1000 ltac:(lia)); lia|unfold calendar; cbn; lia]. Qed.
Lemma ap_memory a b L k : memory_for_setup (ap_host a b L true) ap_al k.
Proof. repeat split. Qed.
Lemma ap_undisturbed a b L : undisturbed (ap_host a b L true) ap_disk a b.
Proof. constructor; try (split; reflexivity); try reflexivity; try (intros t; reflexivity); [exact cmp_text_ok|split; intros t; reflexivity]. Qed.
Lemma ap_passes : passes_through (ap_codec demo_json shipped) ap_saved.
Proof. split; eexists; (split; [reflexivity|]); (split; [vm_compute; intuition discriminate|reflexivity]). Qed.
(* A network without columns and rows of cells, and a schema that admits everything. *)
Definition ap_bare : json := JArr [JObj [(txt "id", int_num 0); (txt "rows", int_num 7)]].
Definition ap_any : json := JObj [].
Definition ap_end (E : env) (H : host) (d : disk) (n : nat) : option ending := match app_main E H d n ap_start with Ok ((e, _), _) => Some e | _ => None end.
