(** Which documents of the shipped schema can be loaded, and which programs are saved as such documents. *)
From Coq Require Import String.
From Verif Require Export ShippedFacts P_Save P_Load.
Open Scope string_scope.
Open Scope list_scope.
Open Scope Z_scope.

(** ** Loading *)

Definition sym (s : string) : option ins := option_map (@snd _ _) (find (fun p : string * ins => String.eqb s (fst p)) symbols).
Lemma sym_iff s i : In (s, i) symbols <-> sym s = Some i.
Proof.
  unfold sym. assert (ND : distinctb (map fst symbols) = true) by (vm_compute; reflexivity). revert ND. generalize symbols. induction l as [|[k x] l IH]; intros ND; [split; [intros []|discriminate]|].
  cbn [map fst distinctb] in ND. apply andb_true_iff in ND as [A B]. cbn [find fst]. destruct (String.eqb_spec s k) as [->|N].
  - split; [|intros [= <-]; simpl; auto]. intros [K|K]; [injection K as <-; reflexivity|]. exfalso. apply negb_true_iff in A.
    assert (T : existsb (String.eqb k) (map fst l) = true) by (apply existsb_exists; exists k; split; [apply (in_map fst) in K; exact K|apply String.eqb_refl]). congruence.
  - rewrite <- (IH B). split; [intros [K|K]; [congruence|exact K]|intros K; right; exact K].
Qed.
(** The type of an operand, by its name. *)
Definition ty_of (base : bool) (ty : string) : option reg := option_map (@snd _ _) (find (fun p : string * reg => String.eqb ty (fst p)) (if base then bases else (types ++ bases)%list)).
Lemma ty_iff (bs : bool) ty t : In (ty, t) (if bs then bases else (types ++ bases)%list) <-> ty_of bs ty = Some t.
Proof.
  unfold ty_of. assert (ND : distinctb (map fst (if bs then bases else (types ++ bases)%list)) = true) by (destruct bs; vm_compute; reflexivity). revert ND. generalize (if bs then bases else (types ++ bases)%list).
  induction l as [|[k x] l IH]; intros ND; [split; [intros []|discriminate]|].
  cbn [map fst distinctb] in ND. apply andb_true_iff in ND as [A B]. cbn [find fst]. destruct (String.eqb_spec ty k) as [->|N].
  - split; [|intros [= <-]; simpl; auto]. intros [K|K]; [injection K as <-; reflexivity|]. exfalso. apply negb_true_iff in A.
    assert (T : existsb (String.eqb k) (map fst l) = true) by (apply existsb_exists; exists k; split; [apply (in_map fst) in K; exact K|apply String.eqb_refl]). congruence.
  - rewrite <- (IH B). split; [intros [K|K]; [congruence|exact K]|intros K; right; exact K].
Qed.
(** For every symbol of the schema: refused, or an instruction with as many operands, of types that are read. *)
Definition refused (s : string) : bool := existsb (String.eqb s) refused_symbols.
Definition porty (ty : string) : bool := existsb (String.eqb ty) ["I"; "Q"].
Definition count_of (i : ins) : option nat :=
  match i with
  | I_NOP | I_CONN | I_FOREIGN => Some 0%nat
  | I_NEG | I_NO | I_NC | I_RE | I_FE | I_COIL | I_COILL | I_COILU => Some 1%nat
  | I_TON | I_TOF | I_TP | I_CTU | I_CTD | I_MOVE | I_SHL | I_SHR | I_ROL | I_ROR | I_NOT | I_EQ | I_GT | I_GE | I_LT | I_LE | I_NE => Some 2%nat
  | I_SUB | I_ADD | I_MUL | I_DIV | I_MOD | I_AND | I_OR | I_XOR => Some 3%nat
  | I_TMOVE => Some 5%nat
  | I_MULTI | I_INV | I_OTHER _ => None
  end.
Lemma count_iff L i q : i <> I_MULTI -> (operands_of L i q <-> count_of i = Some q).
Proof. intros N. destruct i; simpl; split; try tauto; try congruence; intros H; try (subst; reflexivity); injection H as <-; reflexivity. Qed.
Definition plain_type (t : reg) : bool := match t with R_S | R_R | R_I | R_Q | R_INV | R_OTHER _ => false | _ => true end.
Definition type_fine (i : ins) (d : nat) (ty : string) : bool :=
  match ty_of (timer_base i d) ty with
  | Some t => if timer_base i d then negb (porty ty) else match t with R_I | R_Q => porty ty || existsb (String.eqb ty) ["100MS"; "SEC"] | _ => plain_type t end && eqb (porty ty) (match t with R_I | R_Q => true | _ => false end)
  | None => false
  end.
Fixpoint all_at {A} (f : nat -> A -> bool) (d : nat) (l : list A) : bool := match l with [] => true | x :: l => f d x && all_at f (Datatypes.S d) l end.
Definition form_fine (f : list string * list (string * list string)) : bool :=
  forallb (fun s => match sym s with
    | Some I_MULTI => String.eqb s "occupied" && match snd f with [] => true | _ => false end
    | Some i => negb (String.eqb s "occupied") && match count_of i with Some q => Bool.eqb (Nat.eqb q (length (snd f))) (negb (refused s)) && (refused s || all_at (fun d o => forallb (type_fine i d) (snd o)) 0 (snd f)) | None => false end
    | None => refused s
    end) (fst f).
Lemma all_at_ok {A} (f : nat -> A -> bool) : forall l d0, all_at f d0 l = true -> forall d x, nth_error l d = Some x -> f (d0 + d)%nat x = true.
Proof.
  induction l as [|y l IH]; intros d0 H d x X; [destruct d; discriminate|]. cbn [all_at] in H. apply andb_true_iff in H as [H1 H2]. destruct d as [|d]; simpl in X.
  - injection X as <-. now rewrite Nat.add_0_r.
  - rewrite <- Nat.add_succ_comm. eauto.
Qed.
Lemma forms_fine : forallb form_fine forms = true.
Proof. vm_compute. reflexivity. Qed.
Lemma refused_iff s : refused s = true <-> In s refused_symbols.
Proof. unfold refused. rewrite existsb_exists. split; [intros (x & X & Y); apply String.eqb_eq in Y; now subst|intros H; exists s; split; [exact H|apply String.eqb_refl]]. Qed.
Lemma porty_iff s : porty s = true <-> In s ["I"; "Q"].
Proof. unfold porty. rewrite existsb_exists. split; [intros (x & X & Y); apply String.eqb_eq in Y; now subst|intros H; exists s; split; [exact H|apply String.eqb_refl]]. Qed.
Lemma ins_eq_dec_multi (i : ins) : {i = I_MULTI} + {i <> I_MULTI}.
Proof. destruct i; try (right; discriminate); left; reflexivity. Defined.
Lemma string_fun j k s s' : string_is j k s -> string_is j k s' -> s = s'.
Proof. intros A B. assert (K := member_fun _ _ _ _ A B). congruence. Qed.
Lemma operand_loads L i d o f : operand_form f o -> forallb (type_fine i d) (snd f) = true ->
  ((exists v, operand_text L i d o v) <-> forall ty s, string_is o "type" (txt ty) -> string_is o "value" s -> legible ty s).
Proof.
  intros (_ & N & (ty & TY & T) & (s & W)) F. rewrite forallb_forall in F. specialize (F ty TY). unfold type_fine in F.
  destruct (ty_of (timer_base i d) ty) as [t|] eqn:OF; [|discriminate]. assert (IN := proj2 (ty_iff _ _ _) OF). split.
  - intros (v & nm & ty0 & t0 & s0 & N0 & T0 & W0 & C) ty1 s1 T1 W1.
    rewrite (string_fun _ _ _ _ W1 W0). assert (Q1 := string_fun _ _ _ _ T1 T). apply txt_inj in Q1. subst ty1. assert (Q0 := string_fun _ _ _ _ T0 T). apply txt_inj in Q0. subst ty0. clear T1 W1 T0.
    unfold legible. rewrite <- porty_iff. destruct C as [(BP & I & z & WT & _)|(BP & I & SF)].
    + apply timer_base_iff in BP. rewrite BP in F. apply negb_true_iff in F. rewrite F. split; [discriminate|eauto].
    + apply timer_base_not in BP. rewrite BP in *. apply ty_iff with (bs := false) in I. rewrite OF in I. injection I as ->. apply andb_true_iff in F as [F1 F2]. apply eqb_prop in F2.
      destruct t0; inversion SF; subst; try discriminate F1; rewrite F2; (split; [intros K; try discriminate K; eauto|intros K; try (exfalso; apply K; reflexivity); eauto]).
      all: match goal with H : _ \/ _ |- _ => destruct H; discriminate | H : ~ In _ _ |- _ => exfalso; apply H; simpl; tauto end.
  - intros H. specialize (H ty s T W). unfold legible in H. rewrite <- porty_iff in H. destruct H as [HP HW].
    destruct (timer_base i d) eqn:TB.
    + apply negb_true_iff in F. rewrite F in HW. destruct HW as (z & WT); [discriminate|]. exists (mk_value t (i32 z) None), (txt (fst f)), ty, t, s. split; [exact N|]. split; [exact T|]. split; [exact W|].
      left. split; [now apply timer_base_iff|]. split; [exact IN|]. eauto.
    + apply andb_true_iff in F as [F1 F2]. apply eqb_prop in F2.
      assert (SF : exists v, stands_for L t s v).
      { destruct (porty ty) eqn:PT.
        - destruct HP as (m & p & PT'); [reflexivity|]. exists (mk_value t (m + 256 * p) None). constructor; [|exact PT']. destruct t; try discriminate F2; auto.
        - destruct HW as (z & WT); [discriminate|]. exists (mk_value t (i32 z) None). apply sf_word; [|exact WT]. intros K. simpl in K. destruct t; try discriminate F2; try discriminate F1; decompose [or] K; try discriminate; auto. }
      destruct SF as (v & SF). exists v, (txt (fst f)), ty, t, s. split; [exact N|]. split; [exact T|]. split; [exact W|]. right. split; [now apply timer_base_not|]. split; [exact IN|exact SF].
Qed.
Lemma cell_loads L j : cell_form j -> ((exists x, cell_text L j x) <-> loadable L j).
Proof.
  intros (_ & (b & B) & ss & os & s & ds & F & S0 & S1 & M & H).
  assert (FF := forms_fine). rewrite forallb_forall in FF. specialize (FF _ F). unfold form_fine in FF. cbn [fst snd] in FF. rewrite forallb_forall in FF. specialize (FF s S0).
  assert (LN := forall2_len _ _ _ H). unfold loadable.
  assert (SY : forall s', string_is j "symbol" (txt s') -> s' = s) by (intros s' K; apply txt_inj; eapply string_fun; eauto).
  assert (DS : forall ds', member_is j "data" (JArr ds') -> ds' = ds) by (intros ds' K; assert (Q := member_fun _ _ _ _ K M); congruence).
  destruct (sym s) as [i|] eqn:SI.
  - destruct (ins_eq_dec_multi i) as [->|NM].
    + apply andb_true_iff in FF as [FF1 FF2]. apply String.eqb_eq in FF1. subst s. destruct os as [|o os]; [|discriminate]. inversion H; subst. split.
      * intros (x & s' & i & b' & ds' & vs & A1 & A2 & A3 & A4 & A5 & _). apply SY in A1. subst s'. apply DS in A4. subst ds'. apply sym_iff in A2. rewrite SI in A2. injection A2 as <-. split.
        -- intros s' K. apply SY in K. subst s'. split; [|intros _; exact A5]. intros K. apply refused_iff in K. discriminate K.
        -- intros ds' o ty t K O0. apply DS in K. subst ds'. destruct O0.
      * intros (A & _). destruct (A _ S1) as [_ A']. exists (mk_cell false b I_MULTI 0 None), "occupied", I_MULTI, b, [], [].
        split; [exact S1|]. split; [apply sym_iff; exact SI|]. split; [exact B|]. split; [exact M|]. split; [exact (A' eq_refl)|]. split; [reflexivity|]. split; [|reflexivity]. intros d o v K. destruct d; discriminate.
    + assert (FF' : negb (String.eqb s "occupied") && match count_of i with Some q => Bool.eqb (Nat.eqb q (length os)) (negb (refused s)) && (refused s || all_at (fun d o => forallb (type_fine i d) (snd o)) 0 os) | None => false end = true) by (destruct i; try exact FF; congruence).
      clear FF. apply andb_true_iff in FF' as [NO FF]. apply negb_true_iff, String.eqb_neq in NO. destruct (count_of i) as [q|] eqn:CO; [|discriminate]. apply andb_true_iff in FF as [F1 F2]. apply eqb_prop in F1.
      split.
      * intros (x & s' & i' & b' & ds' & vs & A1 & A2 & A3 & A4 & A5 & A6 & A7 & A8). apply SY in A1. subst s'. apply DS in A4. subst ds'. apply sym_iff in A2. rewrite SI in A2. injection A2 as <-.
        apply count_iff in A5; [|exact NM]. rewrite CO in A5. injection A5 as ->. rewrite <- LN, Nat.eqb_refl in F1. symmetry in F1. apply negb_true_iff in F1. rewrite F1 in F2. cbn [orb] in F2.
        split; [intros s' K; apply SY in K; subst s'; split; [intros K; apply refused_iff in K; congruence|congruence]|].
        intros ds' o ty t K O0. apply DS in K. subst ds'. apply In_nth_error in O0 as (d & O0). destruct (nth_error_forall2 _ _ _ _ _ H O0) as (f & F0 & OF).
        assert (TF := all_at_ok _ _ _ F2 d f F0). cbn beta in TF. destruct (nth_error vs d) as [v|] eqn:V; [|apply nth_error_None in V; assert (d < length ds)%nat by (apply nth_error_Some; congruence); lia].
        apply (proj1 (operand_loads L i d o f OF TF) (ex_intro _ v (A7 d o v O0 V))).
      * intros (A & A'). destruct (A _ S1) as [RF _]. destruct (refused s) eqn:RS; [apply refused_iff in RS; tauto|]. cbn [orb negb] in F1, F2. apply Nat.eqb_eq in F1. subst q.
        destruct (list_choice (fun d o v => operand_text L i d o v) ds 0) as (vs & LV & P).
        { intros d o O0. destruct (nth_error_forall2 _ _ _ _ _ H O0) as (f & F0 & OF). assert (TF := all_at_ok _ _ _ F2 d f F0). cbn beta in TF. apply (operand_loads L i d o f OF TF). intros ty t. apply (A' ds o ty t M). apply nth_error_In in O0. exact O0. }
        exists (mk_cell false b i (length ds) (match ds with [] => None | _ => Some vs end)), s, i, b, ds, vs.
        split; [exact S1|]. split; [apply sym_iff; exact SI|]. split; [exact B|]. split; [exact M|]. split; [apply count_iff; [exact NM|]; congruence|]. split; [exact LV|]. split; [|reflexivity].
        intros d o v O0 V. exact (P d o v O0 V).
  - split.
    + intros (x & s' & i & b' & ds' & vs & A1 & A2 & _). apply SY in A1. subst s'. apply sym_iff in A2. congruence.
    + intros (A & _). destruct (A _ S1) as [K _]. destruct K. now apply refused_iff.
Qed.
Lemma forall2_ex {A B} (P : A -> B -> Prop) l : (exists l', Forall2 P l l') <-> Forall (fun x => exists y, P x y) l.
Proof.
  split.
  - intros (l' & H). induction H; constructor; eauto.
  - intros H. induction H as [|x l (y & Y) _ (l' & IH)]; [exists []; constructor|exists (y :: l'); constructor; auto].
Qed.
Lemma forall_iff {A} (P Q : A -> Prop) l : Forall (fun x => P x <-> Q x) l -> (Forall P l <-> Forall Q l).
Proof. intros H. induction H as [|x l X _ IH]; [split; constructor|]. rewrite !Forall_cons_iff, X, IH. reflexivity. Qed.
Lemma network_loads L nets j : network_form j ->
  ((exists p : nat * network, natural_is j "id" (fst p) /\ (fst p < nets)%nat /\ network_text L j (snd p)) <-> placeable L nets j).
Proof.
  intros (_ & _ & _ & _ & rs & M & FR). unfold placeable, network_text. split.
  - intros ([n nt] & I & N & rows & cols & rs' & cells & R & C & M' & LN & B & F & _). cbn [fst snd] in *. assert (Q := member_fun _ _ _ _ M' M). injection Q as ->.
    exists n, rows, cols, rs. do 7 (split; [assumption|]). assert (F' := proj1 (forall2_ex _ _) (ex_intro _ cells F)). rewrite Forall_forall in *. intros r R0. destruct (F' r R0) as (xs & cs & -> & LC & CB & FC).
    exists cs. split; [reflexivity|]. split; [exact LC|]. split; [exact CB|]. destruct (FR _ R0) as (cs' & Q & FC'). injection Q as <-.
    apply (proj1 (forall_iff _ _ cs (Forall_impl _ (fun x H => cell_loads L x H) FC'))). apply forall2_ex. eauto.
  - intros (n & rows & cols & rs' & I & N & R & C & M' & LN & B & F). assert (Q := member_fun _ _ _ _ M' M). injection Q as ->.
    assert (E : exists cells, Forall2 (row_text L cols) rs cells).
    { apply forall2_ex. rewrite Forall_forall in *. intros r R0. destruct (F r R0) as (cs & -> & LC & CB & FC). destruct (FR _ R0) as (cs' & Q & FC'). injection Q as <-.
      apply (proj2 (forall_iff _ _ cs (Forall_impl _ (fun x H => cell_loads L x H) FC'))) in FC. apply forall2_ex in FC as (xs & FC). exists xs, cs. auto. }
    destruct E as (cells & E). exists (n, mk_network true rows cols (Some cells)). cbn [fst snd]. split; [exact I|]. split; [exact N|]. exists rows, cols, rs, cells. auto 10.
Qed.
Lemma document_loads L nets js : Forall network_form js -> ((exists ps, describes_networks L nets js ps) <-> Forall (placeable L nets) js).
Proof.
  intros F. unfold describes_networks. rewrite forall2_ex. apply forall_iff. exact (Forall_impl _ (fun x H => network_loads L nets x H) F).
Qed.

(** ** Saving *)

Definition op_ok (i : ins) (d : nat) (t : reg) (f : string * list string) : bool :=
  same_text (get_data_name i d) (txt (fst f)) && existsb (fun ty => same_text (type_text i d t) (txt ty)) (snd f).
Definition form_for (i : ins) : option (list (string * list string)) :=
  option_map (@snd _ _) (find (fun f : list string * list (string * list string) => existsb (fun s => same_text (symbol_text i) (txt s)) (fst f)) forms).
Definition is_ins (i k : ins) : bool := match i, k with I_OTHER _, _ | _, I_OTHER _ => false | _, _ => (ins_code i =? ins_code k)%Z end.
Definition saved_for (i : ins) : option (list (list reg)) :=
  option_map (@snd _ _) (find (fun f : list ins * list (list reg) => existsb (is_ins i) (fst f)) saved_forms).
Lemma operand_saved L i d v o f : save_operand L i d v = Ok o -> (operand_form f o <-> op_ok i d (v_type v) f = true).
Proof.
  intros H. assert (E : exists s l, o = JObj ((txt "name", JStr (get_data_name i d)) :: (txt "type", JStr (type_text i d (v_type v))) :: (txt "value", JStr s) :: l) /\ Forall (fun p => fst p = txt "value") l).
  { unfold save_operand in H. cbn [app] in H. destruct (timer_base i d); [apply ok_inj in H; subst o; eexists _, []; split; [reflexivity|constructor]|].
    destruct (v_type v); try discriminate H; apply ok_inj in H; subst o; eexists _, [_]; (split; [reflexivity|repeat constructor]). }
  clear H. destruct E as (s & l & -> & FL). destruct (name3 (JStr (get_data_name i d)) (JStr (type_text i d (v_type v))) (JStr s) l) as (A & B & C). apply member_iff in A, B, C.
  unfold op_ok. rewrite andb_true_iff, same_text_eq, existsb_exists. split.
  - intros (_ & N & (ty & TY & T) & _). split; [exact (string_fun _ _ _ _ A N)|]. exists ty. split; [exact TY|]. apply same_text_eq. exact (string_fun _ _ _ _ B T).
  - intros (N & ty & TY & T). apply same_text_eq in T. split; [|split; [|split]].
    + eexists. split; [reflexivity|]. intros k K. cbn [map fst] in K. destruct K as [K|[K|[K|K]]]; [exists "name"|exists "type"|exists "value"|exists "value"]; (split; [simpl; auto|]); try congruence.
      apply in_map_iff in K as (p & <- & P). rewrite Forall_forall in FL. now apply FL.
    + red. rewrite <- N. exact A.
    + exists ty. split; [exact TY|]. red. rewrite <- T. exact B.
    + exists s. exact C.
Qed.
Lemma form_for_iff i os : (exists ss s, In (ss, os) forms /\ In s ss /\ symbol_text i = txt s) <-> form_for i = Some os.
Proof.
  unfold form_for. split.
  - intros (ss & s & F & S0 & E). destruct (find _ forms) as [[ss' os']|] eqn:X.
    + apply find_some in X as [F' X]. apply existsb_exists in X as (s' & S' & X). apply same_text_eq in X. rewrite E in X. apply txt_inj in X. subst s'.
      assert (Q := one_form s _ _ F F' S0 S'). injection Q as <- <-. reflexivity.
    + exfalso. assert (Y := find_none _ _ X _ F). cbn [fst] in Y. assert (T : existsb (fun s => same_text (symbol_text i) (txt s)) ss = true) by (apply existsb_exists; exists s; split; [exact S0|now apply same_text_eq]). congruence.
  - destruct (find _ forms) as [[ss' os']|] eqn:X; [|discriminate]. intros Q. injection Q as <-. apply find_some in X as [F' X]. apply existsb_exists in X as (s' & S' & X). apply same_text_eq in X. eauto.
Qed.
Lemma saved_for_iff i os : (exists is, In (is, os) saved_forms /\ In i is) <-> saved_for i = Some os.
Proof.
  split.
  - intros (is & F & I). simpl in F. repeat match goal with H : _ \/ _ |- _ => destruct H as [H|H] end; try contradiction; injection F as <- <-; simpl in I;
      repeat match goal with H : _ \/ _ |- _ => destruct H as [H|H] end; try contradiction; subst i; vm_compute; reflexivity.
  - destruct i; intros H; vm_compute in H; try discriminate H; injection H as <-;
      match goal with |- exists is, In (is, ?os) _ /\ In ?i is =>
        match eval vm_compute in (find (fun f : list ins * list (list reg) => existsb (is_ins i) (fst f)) saved_forms) with Some (?is, _) => exists is end end; (split; simpl; auto 15).
Qed.
Definition all_ins : list ins :=
  [I_NOP; I_CONN; I_NEG; I_NO; I_NC; I_RE; I_FE; I_COIL; I_COILL; I_COILU; I_TON; I_TOF; I_TP; I_CTU; I_CTD; I_MOVE; I_SUB; I_ADD; I_MUL; I_DIV; I_MOD; I_SHL; I_SHR; I_ROL; I_ROR;
   I_AND; I_OR; I_XOR; I_NOT; I_EQ; I_GT; I_GE; I_LT; I_LE; I_NE; I_FOREIGN; I_TMOVE; I_INV; I_MULTI].
Definition known_regs : list reg := [R_NONE; R_M; R_Q; R_I; R_Cd; R_Cr; R_Td; R_Tr; R_IW; R_QW; R_C; R_T; R_D; R_S; R_R; R_INV; R_OTHER 0].
Definition is_reg (t u : reg) : bool := match t, u with R_OTHER _, _ | _, R_OTHER _ => false | _, _ => (reg_code t =? reg_code u)%Z end.
Fixpoint table_at (i : ins) (d : nat) (os : list (string * list string)) (ts : list (list reg)) : bool :=
  match os, ts with
  | [], [] => true
  | f :: os, tl :: ts => forallb (fun t => eqb (op_ok i d t f) (existsb (is_reg t) tl)) known_regs && table_at i (S d) os ts
  | _, _ => false
  end.
Fixpoint never_at (i : ins) (d : nat) (os : list (string * list string)) : bool :=
  match os with [] => false | f :: os => forallb (fun t => negb (op_ok i d t f)) known_regs || never_at i (S d) os end.
Definition table_fine (i : ins) : bool :=
  match form_for i, saved_for i with
  | Some os, Some ts => table_at i 0 os ts
  | Some os, None => never_at i 0 os
  | None, Some _ => false
  | None, None => true
  end.
Lemma tables_fine : forallb table_fine (I_OTHER 0 :: all_ins) = true.
Proof. vm_compute. reflexivity. Qed.
Lemma table_ok i : table_fine i = true.
Proof. assert (H := tables_fine). rewrite forallb_forall in H. destruct i; try (apply H; unfold all_ins; simpl; tauto). change (table_fine (I_OTHER z)) with (table_fine (I_OTHER 0)). apply H. left. reflexivity. Qed.
Lemma known_all (P : reg -> bool) : (forall z, P (R_OTHER z) = P (R_OTHER 0)) -> forallb P known_regs = true -> forall t, P t = true.
Proof. intros O H t. rewrite forallb_forall in H. destruct t; try (apply H; unfold known_regs; simpl; tauto). rewrite O. apply H. unfold known_regs. simpl. tauto. Qed.
Lemma is_reg_iff t tl : existsb (is_reg t) tl = true -> In t tl.
Proof. rewrite existsb_exists. intros (u & U & E). destruct t, u; try discriminate E; exact U. Qed.
Definition no_other (tl : list reg) : bool := forallb (fun t => match t with R_OTHER _ => false | _ => true end) tl.
Lemma is_reg_in t tl : no_other tl = true -> In t tl -> existsb (is_reg t) tl = true.
Proof. unfold no_other. rewrite forallb_forall, existsb_exists. intros N I. exists t. split; [exact I|]. apply N in I. destruct t; try discriminate I; reflexivity. Qed.
Lemma no_others i ts d tl : saved_for i = Some ts -> nth_error ts d = Some tl -> no_other tl = true.
Proof.
  intros H N. apply saved_for_iff in H as (is & F & _). assert (T : forallb (fun f : list ins * list (list reg) => forallb no_other (snd f)) saved_forms = true) by (vm_compute; reflexivity).
  rewrite forallb_forall in T. specialize (T _ F). cbn [snd] in T. rewrite forallb_forall in T. apply T. eapply nth_error_In; eauto.
Qed.
Lemma table_at_ok i : forall os ts d, table_at i d os ts = true -> length os = length ts /\ forall e f tl, nth_error os e = Some f -> nth_error ts e = Some tl -> forall t, op_ok i (d + e) t f = existsb (is_reg t) tl.
Proof.
  induction os as [|f os IH]; intros [|tl ts] d H; try discriminate H.
  - split; [reflexivity|]. intros [|e] f tl E; discriminate.
  - cbn [table_at] in H. apply andb_true_iff in H as [H1 H2]. destruct (IH _ _ H2) as [LN K]. split; [simpl; congruence|]. intros [|e] f' tl' E1 E2 t; simpl in E1, E2.
    + injection E1 as <-. injection E2 as <-. rewrite Nat.add_0_r. apply eqb_prop. exact (known_all (fun t => eqb (op_ok i d t f) (existsb (is_reg t) tl)) (fun z => eq_refl) H1 t).
    + rewrite <- Nat.add_succ_comm. eauto.
Qed.
Lemma never_at_ok i : forall os d, never_at i d os = true -> exists e f, nth_error os e = Some f /\ forall t, op_ok i (d + e) t f = false.
Proof.
  induction os as [|f os IH]; intros d H; [discriminate|]. cbn [never_at] in H. apply orb_true_iff in H as [H|H].
  - exists 0%nat, f. split; [reflexivity|]. intros t. rewrite Nat.add_0_r. apply negb_true_iff. exact (known_all (fun t => negb (op_ok i d t f)) (fun z => eq_refl) H t).
  - destruct (IH _ H) as (e & f' & E & K). exists (S e), f'. split; [exact E|]. intros t. rewrite <- Nat.add_succ_comm. apply K.
Qed.
Definition cell_conforms (x : cell) : Prop :=
  exists is os, In (is, os) saved_forms /\ In (c_code x) is /\ length os = c_dq x /\ forall d ts v, nth_error os d = Some ts -> elem (c_data x) d = Some v -> In (v_type v) ts.
Lemma forall2_at {A B} (P : A -> B -> Prop) l l' : Forall2 P l l' <-> length l = length l' /\ forall i x y, nth_error l i = Some x -> nth_error l' i = Some y -> P x y.
Proof.
  split.
  - intros H. split; [eapply forall2_len; eauto|]. induction H as [|a b l l' H _ IH]; intros [|i] x y X Y; try discriminate; simpl in *; [congruence|eauto].
  - revert l'. induction l as [|a l IH]; intros [|b l'] [LN H]; try discriminate; constructor.
    + exact (H 0%nat a b eq_refl eq_refl).
    + apply IH. split; [simpl in LN; congruence|]. intros i. apply (H (S i)).
Qed.
Lemma cell_conforming L x j : save_cell L x = Ok j -> (cell_form j <-> cell_conforms x).
Proof.
  unfold save_cell. intros H. apply rbind_inv in H as (ds & O & H). apply ok_inj in H. subst j. destruct (save_operands_spec _ _ _ _ _ O) as [LN F]. clear O. simpl Nat.add in F.
  destruct (cell3 (JStr (symbol_text (c_code x))) (JBool (c_bar x)) (JArr ds)) as (M1 & M2 & M3). apply member_iff in M1, M2, M3.
  assert (EX : forall d, (d < c_dq x)%nat -> exists o v, nth_error ds d = Some o /\ elem (c_data x) d = Some v /\ save_operand L (c_code x) d v = Ok o).
  { intros d D. destruct (nth_error ds d) as [o|] eqn:E; [|apply nth_error_None in E; lia]. destruct (F d o E) as (v & V & S0). eauto. }
  assert (CF : cell_form (JObj [(txt "symbol", JStr (symbol_text (c_code x))); (txt "bar", JBool (c_bar x)); (txt "data", JArr ds)])
    <-> exists os, form_for (c_code x) = Some os /\ length os = c_dq x /\ forall d f v, nth_error os d = Some f -> elem (c_data x) d = Some v -> op_ok (c_code x) d (v_type v) f = true).
  { split.
    - intros (_ & _ & ss & os & s & ds' & FI & S0 & S1 & M & FO). assert (Q := member_fun _ _ _ _ M M3). injection Q as ->. exists os. apply forall2_at in FO as [LO FO].
      split; [apply form_for_iff; exists ss, s; split; [exact FI|]; split; [exact S0|]; exact (string_fun _ _ _ _ M1 S1)|]. split; [congruence|].
      intros d f v E V. destruct (EX d) as (o & v' & O & V' & SO); [assert (d < length os)%nat by (apply nth_error_Some; congruence); lia|]. rewrite V in V'. injection V' as <-. apply (operand_saved _ _ _ _ _ f SO). eauto.
    - intros (os & FF & LO & OK). apply form_for_iff in FF as (ss & s & FI & S0 & E). split; [|split; [exists (c_bar x); exact M2|]].
      + eexists. split; [reflexivity|]. intros k K. cbn [map fst] in K. destruct K as [K|[K|[K|K]]]; [exists "symbol"|exists "bar"|exists "data"|destruct K]; (split; [simpl; auto|congruence]).
      + exists ss, os, s, ds. split; [exact FI|]. split; [exact S0|]. split; [red; rewrite <- E; exact M1|]. split; [exact M3|]. apply forall2_at. split; [congruence|].
        intros d f o E1 E2. destruct (F d o E2) as (v & V & SO). apply (operand_saved _ _ _ _ _ f SO). eauto. }
  rewrite CF. clear CF. assert (T := table_ok (c_code x)). unfold table_fine in T. unfold cell_conforms. split.
  - intros (os & FF & LO & OK). rewrite FF in T. destruct (saved_for (c_code x)) as [ts|] eqn:SF.
    + apply table_at_ok in T as [LT T]. apply saved_for_iff in SF as (is & I1 & I2). exists is, ts. split; [exact I1|]. split; [exact I2|]. split; [congruence|].
      intros d tl v E V. destruct (nth_error os d) as [f|] eqn:EF; [|apply nth_error_None in EF; assert (d < length ts)%nat by (apply nth_error_Some; congruence); lia].
      apply is_reg_iff. rewrite <- (T d f tl EF E). eauto.
    + exfalso. apply never_at_ok in T as (d & f & E & T). destruct (EX d) as (o & v & _ & V & _); [assert (d < length os)%nat by (apply nth_error_Some; congruence); lia|].
      assert (K := OK d f v E V). simpl Nat.add in T. rewrite T in K. discriminate.
  - intros (is & ts & I1 & I2 & LT & OK). assert (SF : saved_for (c_code x) = Some ts) by (apply saved_for_iff; eauto). rewrite SF in T. destruct (form_for (c_code x)) as [os|]; [|discriminate]. apply table_at_ok in T as [LO T].
    exists os. split; [reflexivity|]. split; [congruence|]. intros d f v E V. destruct (nth_error ts d) as [tl|] eqn:ET; [|apply nth_error_None in ET; assert (d < length os)%nat by (apply nth_error_Some; congruence); lia].
    assert (Q := T d f tl E ET (v_type v)). simpl Nat.add in Q. rewrite Q. apply is_reg_in; [eapply no_others; eauto|eauto].
Qed.
Definition net_conforms (nt : network) : Prop := forall r col x, (r < n_rows nt)%nat -> (col < n_cols nt)%nat -> ncell nt r col = Some x -> cell_conforms x.
Lemma conforming_nets c : nets_ok c -> (conforming c <-> forall n nt, (n < q_nets (x_q c))%nat -> net_of c n = Some nt -> net_conforms nt).
Proof.
  intros OK. split.
  - intros H n nt NQ N r col x R C X. assert (P : program_cell c n r col) by (apply (program_cell_net _ _ _ _ _ N); auto).
    assert (E : peek c (LCell n r col) = Some (VCell (c_bar x) (c_code x) (c_dq x))) by (simpl; now rewrite (cell_of_net _ _ _ r col N), X).
    destruct (H _ _ _ _ _ _ P E) as (is & os & A & B & D & F). exists is, os. do 3 (split; [assumption|]). intros d ts v T V. apply (F d ts v T). apply (operand_at_net _ _ _ _ _ _ _ _ N X). split; [exact V|].
    assert (d < length os)%nat by (apply nth_error_Some; congruence). lia.
  - intros H n r col bar i dq P E. assert (P' := P). destruct P' as (NQ & en & rows & cols & EN & _). simpl in EN. destruct (net_of c n) as [nt|] eqn:N; [|discriminate]. clear EN.
    apply (program_cell_net _ _ _ _ _ N) in P as (_ & R & C). simpl in E. rewrite (cell_of_net _ _ _ r col N) in E. destruct (ncell nt r col) as [x|] eqn:X; [|discriminate]. simpl in E. injection E as <- <- <-.
    destruct (H n nt NQ N r col x R C X) as (is & os & A & B & D & F). exists is, os. do 3 (split; [assumption|]). intros d ts v T V. apply (F d ts v T). apply (operand_at_net _ _ _ _ _ _ _ _ N X) in V. tauto.
Qed.
Lemma int_whole j k z : member (txt k) j = Some (int_num z) -> whole_member j k.
Proof. intros M. apply member_iff in M. exists (Fin z 0), z. split; [exact M|]. simpl. lia. Qed.
Lemma row_conforming L nt r j : save_row L nt r = Ok j -> ((exists cs, j = JArr cs /\ Forall cell_form cs) <-> forall col x, (col < n_cols nt)%nat -> ncell nt r col = Some x -> cell_conforms x).
Proof.
  intros H. apply row_saved in H as (cs & -> & LN & F). split.
  - intros (cs' & Q & FC) col x C X. injection Q as <-. destruct (nth_error cs col) as [jc|] eqn:E; [|apply nth_error_None in E; lia]. destruct (F col jc E) as (x' & X' & S0). rewrite X in X'. injection X' as <-.
    apply (cell_conforming _ _ _ S0). rewrite Forall_forall in FC. apply FC. eapply nth_error_In; eauto.
  - intros H. exists cs. split; [reflexivity|]. apply Forall_forall. intros jc J. apply In_nth_error in J as (col & E). destruct (F col jc E) as (x & X & S0). apply (cell_conforming _ _ _ S0).
    apply (H col x); [|exact X]. rewrite <- LN. apply nth_error_Some. congruence.
Qed.
Lemma network_conforming L c n j nt : save_network L c n = Ok j -> net_of c n = Some nt -> (network_form j <-> net_conforms nt).
Proof.
  intros H N. assert (ON : only j ["id"; "rows"; "cols"; "networkData"]).
  { unfold save_network in H. apply rbind_inv in H as (nt' & _ & H). apply rbind_inv in H as (rs & _ & H). apply ok_inj in H. subst j. eexists. split; [reflexivity|]. intros k K. cbn [map fst] in K.
    destruct K as [K|[K|[K|[K|K]]]]; [exists "id"|exists "rows"|exists "cols"|exists "networkData"|destruct K]; (split; [simpl; auto|congruence]). }
  apply network_saved in H as (nt' & rs & N' & LN & F & M1 & M2 & M3 & M4). rewrite N in N'. injection N' as <-. apply int_whole in M1, M2, M3. apply member_iff in M4. split.
  - intros (_ & _ & _ & _ & rs' & M & FR) r col x R. assert (Q := member_fun _ _ _ _ M M4). injection Q as ->. destruct (nth_error rs r) as [jr|] eqn:E; [|apply nth_error_None in E; lia]. intros C X.
    rewrite Forall_forall in FR. apply (proj1 (row_conforming _ _ _ _ (F r jr E)) (FR jr (nth_error_In _ _ E)) col x C X).
  - intros H. do 4 (split; [assumption|]). exists rs. split; [exact M4|]. apply Forall_forall. intros jr J. apply In_nth_error in J as (r & E). apply (row_conforming _ _ _ _ (F r jr E)). intros col x C X.
    apply (H r col x); [|exact C|exact X]. rewrite <- LN. apply nth_error_Some. congruence.
Qed.
Lemma program_conforming L c j : nets_ok c -> program_to_json L c = Ok j -> (document_form j <-> conforming c).
Proof.
  intros OK H. rewrite (conforming_nets c OK). apply program_saved in H as (js & -> & LN & F). split.
  - intros (js' & Q & FJ) n nt NQ N. injection Q as <-. destruct (nth_error js n) as [jn|] eqn:E; [|apply nth_error_None in E; lia]. rewrite Forall_forall in FJ.
    apply (network_conforming _ _ _ _ _ (F n jn E) N). apply FJ. eapply nth_error_In; eauto.
  - intros H. exists js. split; [reflexivity|]. apply Forall_forall. intros jn J. apply In_nth_error in J as (n & E). assert (K := F n jn E). destruct (network_saved _ _ _ _ K) as (nt & _ & N & _).
    apply (network_conforming _ _ _ _ _ K N). apply (H n nt); [|exact N]. rewrite <- LN. apply nth_error_Some. congruence.
Qed.

(** Saved documents can be checked by the library's validator. *)
Definition saved_names : list string := ["id"; "rows"; "cols"; "networkData"; "symbol"; "bar"; "data"; "name"; "type"; "value"].
Definition tidy_value (x : json) : Prop :=
  match x with JNum d => exists z, d = Fin z 0 /\ 0 <= z < 2 ^ 31 | JObj l => forall k, In k (map fst l) -> exists s, In s saved_names /\ k = txt s | _ => True end.
Definition tidy (j : json) : Prop := forall x, contains j x -> tidy_value x.
Lemma tidy_arr l : (forall y, In y l -> tidy y) -> tidy (JArr l).
Proof. intros H x C. inversion C; subst; [exact I|]. eapply H; eauto. Qed.
Lemma tidy_obj l : (forall k y, In (k, y) l -> (exists s, In s saved_names /\ k = txt s) /\ tidy y) -> tidy (JObj l).
Proof.
  intros H x C. inversion C; subst.
  - cbn [tidy_value]. intros k K. apply in_map_iff in K as ([k' y] & <- & K). apply H in K. tauto.
  - destruct (H _ _ H1) as [_ T]. apply T. assumption.
Qed.
Lemma tidy_str s : tidy (JStr s). Proof. intros x C. inversion C; subst. exact I. Qed.
Lemma tidy_bool b : tidy (JBool b). Proof. intros x C. inversion C; subst. exact I. Qed.
Lemma tidy_num z : 0 <= z < 2 ^ 31 -> tidy (int_num z). Proof. intros B x C. unfold int_num in C. inversion C; subst. exists z. auto. Qed.
Ltac known_name := match goal with |- exists s, In s saved_names /\ txt ?k = txt s => exists k; split; [unfold saved_names; simpl; tauto|reflexivity] end.
Lemma tidy_operand L i d v o : save_operand L i d v = Ok o -> tidy o.
Proof.
  unfold save_operand. cbn [app]. intros H. destruct (timer_base i d); [|destruct (v_type v); try discriminate H].
  all: apply ok_inj in H; subst o; apply tidy_obj; intros k y K; cbn [In] in K; repeat destruct K as [K|K]; try contradiction; injection K as <- <-; (split; [known_name|apply tidy_str]).
Qed.
Lemma tidy_cell L x j : save_cell L x = Ok j -> tidy j.
Proof.
  unfold save_cell. intros H. apply rbind_inv in H as (ds & O & H). apply ok_inj in H. subst j. destruct (save_operands_spec _ _ _ _ _ O) as [_ F].
  apply tidy_obj; intros k y K; cbn [In] in K; repeat destruct K as [K|K]; try contradiction; injection K as <- <-; (split; [known_name|]); [apply tidy_str|apply tidy_bool|].
  apply tidy_arr. intros o O'. apply In_nth_error in O' as (e & E). destruct (F e o E) as (v & _ & S0). eapply tidy_operand; eauto.
Qed.
Lemma tidy_row L nt r j : save_row L nt r = Ok j -> tidy j.
Proof. intros H. apply row_saved in H as (cs & -> & _ & F). apply tidy_arr. intros jc J. apply In_nth_error in J as (e & E). destruct (F e jc E) as (x & _ & S0). eapply tidy_cell; eauto. Qed.
Lemma tidy_network L c n j : Z.of_nat n < 2 ^ 31 -> (forall nt, net_of c n = Some nt -> Z.of_nat (n_rows nt) < 2 ^ 31 /\ Z.of_nat (n_cols nt) < 2 ^ 31) -> save_network L c n = Ok j -> tidy j.
Proof.
  intros NB B H. unfold save_network in H. apply rbind_inv in H as (nt & N & H). apply rbind_inv in H as (rs & O & H). apply ok_inj in H. subst j. apply net_at_inv in N. destruct (B nt N) as [B1 B2].
  apply tidy_obj; intros k y K; cbn [In] in K; repeat destruct K as [K|K]; try contradiction; injection K as <- <-; (split; [known_name|]); try (apply tidy_num; lia).
  apply save_list_spec in O as [_ F]. apply tidy_arr. intros jr J. apply In_nth_error in J as (e & E). destruct (F e jr E) as (x & _ & S0). eapply tidy_row; eauto.
Qed.
Lemma tidy_program L c j : moderate c -> program_to_json L c = Ok j -> tidy j.
Proof.
  intros [M1 M2] H. apply program_saved in H as (js & -> & LN & F). apply tidy_arr. intros jn J. apply In_nth_error in J as (n & E). assert (NQ : (n < q_nets (x_q c))%nat) by (rewrite <- LN; apply nth_error_Some; congruence).
  apply (tidy_network L c n jn); [lia| |exact (F n jn E)]. intros nt N. apply (M2 n (n_en nt) (n_rows nt) (n_cols nt) NQ). simpl. now rewrite N.
Qed.
Definition listed_names : list (list Z) := flat_map (fun x => match look "properties" x with Some (JObj l) => map fst l | _ => [] end) (parts (depth shipped) shipped).
Lemma listed_tidy : forallb (fun s => forallb (fun k' => negb (same_text (map lower (txt s)) (map lower k')) || same_text (txt s) k') listed_names) saved_names = true.
Proof. vm_compute. reflexivity. Qed.
Lemma tidy_testable j : tidy j -> testable shipped j.
Proof.
  intros T. split.
  - intros d D. destruct (T _ D) as (z & -> & B). exists z. split; [|lia]. exists 0. simpl. lia.
  - intros x ps l k k' X M C K K' BC. destruct (T _ C k K) as (s & S0 & ->). assert (H := listed_tidy). rewrite forallb_forall in H. specialize (H s S0). rewrite forallb_forall in H. specialize (H k').
    apply lower_text in BC. apply same_text_eq in BC. rewrite BC in H. apply same_text_eq. apply H. apply in_flat_map. exists x. split; [now apply parts_all|]. apply member_iff in M. unfold look. rewrite M. exact K'.
Qed.
