(** Vocabulary for statements about the example port and the example foreign function. *)
From Coq Require Import String.
From Verif Require Export Port SpecSafe SpecCall.
Open Scope list_scope.
Open Scope Z_scope.

(** ** What the port needs *)

(** The machine is large enough for what the port shows: eight memory bits (eighteen with cron jobs), seven timers and counters,
    modules of at least eight digital ports; the delay function is set. *)
Record port_fits (cron : bool) (c : ctx) : Prop := {
  pf_bits : ((if cron then 18 else 8) <= q_m (x_q c))%nat;
  pf_timers : (7 <= q_t (x_q c))%nat;
  pf_counters : (7 <= q_c (x_q c))%nat;
  pf_in : forall m, (m < io_rq (x_io c))%nat -> exists id qd qa, peek c (LInMeta m) = Some (VMeta id qd qa) /\ (8 <= qd)%nat;
  pf_out : forall m, (m < io_wq (x_io c))%nat -> exists id qd qa, peek c (LOutMeta m) = Some (VMeta id qd qa) /\ (8 <= qd)%nat;
  pf_delay : h_delay (x_h c) = true }.
(** The time of day is that of a clock. *)
Definition real_time (tv : Z * Z) : Prop := 0 <= fst tv < 2 ^ 40 /\ 0 <= snd tv < 1000000.
(** The environment does what the port does wherever that is defined in C, and anything where it is not. All foreign functions
    are the example function. *)
Record follows (cron : bool) (typed : nat -> list Z) (al : nat -> nat -> bool) (tv : nat -> Z * Z) (now : nat -> tm) (E : env) : Prop := {
  fo_clock : forall k t, dummy_millis (fst (tv k)) (snd (tv k)) = Ok t -> clk E k = t;
  fo_now : forall k, wall E k = now k;
  fo_act : forall k ev c c', port_call cron typed al k ev c = Ok c' -> act E k ev c = c';
  fo_exec : forall k id col row c r, dummy_exec col row c = Ok r -> fexec E k id col row c = r }.

(** The keys: Q and q end the task, the digits 0 to 7 switch the input of that number. *)
Definition quits (key : Z) : Prop := key = 81 \/ key = 113.
Definition toggles (key : Z) (i : nat) : Prop := (i < 8)%nat /\ key = 48 + Z.of_nat i.
(** The last of the characters waiting. *)
Definition pressed (typed : list Z) (key : Z) : Prop := exists before, typed = before ++ [key].

(** ** The report of a panic *)

Definition state_name (s : lstate) : string :=
  match s with S_STOPPED => "STOPPED" | S_RUNNING => "RUNNING" | S_ERROR => "ERROR" | S_EXIT_TSK => "EXIT_TSK" | S_NULLFN => "NULLFN" | S_INV => "INVALID" end.
Definition error_name (e : err) : string :=
  match e with
  | E_OK => "OK" | E_GETPREVVAL => "GETPREVVAL" | E_GETDATAVAL => "GETDATAVAL" | E_SETDATAVAL => "SETDATAVAL" | E_NOFOREIGN => "NOFOREIGN" | E_NOTABLE => "NOTABLE"
  | E_OUTOFRANGE => "OUTOFRANGE" | E_DIVBYZERO => "DIVBYZERO" | E_TYPEMISMATCH => "TYPEMISMATCH" | E_OVERFLOW => "OVERFLOW" | E_NULL => "NULL" | E_FAIL => "FAIL"
  end.
(** Names of the instructions; the others have none. *)
Definition instr_name (i : ins) : option string :=
  match i with
  | I_NOP => Some "NOP" | I_CONN => Some "CONN" | I_NEG => Some "NEG" | I_NO => Some "NO" | I_NC => Some "NC" | I_RE => Some "RE" | I_FE => Some "FE"
  | I_COIL => Some "COIL" | I_COILL => Some "COILL" | I_COILU => Some "COILU" | I_TON => Some "TON" | I_TOF => Some "TOF" | I_TP => Some "TP"
  | I_CTU => Some "CTU" | I_CTD => Some "CTD" | I_MOVE => Some "MOVE" | I_SUB => Some "SUB" | I_ADD => Some "ADD" | I_MUL => Some "MUL" | I_DIV => Some "DIV"
  | I_MOD => Some "MOD" | I_SHL => Some "SHL" | I_SHR => Some "SHR" | I_ROL => Some "ROL" | I_ROR => Some "ROR" | I_AND => Some "AND" | I_OR => Some "OR"
  | I_XOR => Some "XOR" | I_NOT => Some "NOT" | I_EQ => Some "EQ" | I_GT => Some "GT" | I_GE => Some "GE" | I_LT => Some "LT" | I_LE => Some "LE" | I_NE => Some "NE"
  | I_FOREIGN => Some "FOREIGN" | I_TMOVE => Some "TMOVE" | _ => None
  end%string.
