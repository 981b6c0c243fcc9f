(** C26-C28, C62, C63: log files. *)
From Coq Require Import String Ascii List Bool Arith Lia QArith ZArith Sorting.Sorted.
From Verif Require Import PyStr StepsModel StepsSpec LogModel LogSpec LogProofs.
Import ListNotations.
Local Open Scope string_scope.
Local Open Scope nat_scope.
Local Open Scope list_scope.

(** * C26.  Selecting steps. *)
Theorem C26_steps_with_conditions : forall (V : Type) (veqb : V -> V -> bool) (conv : V -> V) (d : logdata V) conds,
  conds <> [] -> (forall pv, In pv conds -> column_of d (fst pv) <> None) ->
  exists s, steps_with_conditions veqb conv d conds = Some (Some s) /\ StronglySorted lt s /\
  forall i, In i s <-> forall pv, In pv conds -> step_holds veqb conv d i pv.
Proof. intros V veqb conv. exact (conditions_spec veqb conv). Qed.
Print Assumptions C26_steps_with_conditions.

Theorem C26_unknown_name : forall (V : Type) (veqb : V -> V -> bool) (conv : V -> V) (d : logdata V) conds,
  (exists pv, In pv conds /\ column_of d (fst pv) = None) -> steps_with_conditions veqb conv d conds = None.
Proof. intros V veqb conv. exact (conditions_unknown veqb conv). Qed.
Print Assumptions C26_unknown_name.

Lemma measured_find : forall V m (d : logdata V) col, find_name m (dataset d) = Some col <-> measured m d col.
Proof.
  intros V m d col. unfold find_name, measured. split.
  - induction (dataset d) as [|[k v] l IH]; [discriminate|]. cbn [find fst]. destruct (str_eqb (lower k) (lower m)) eqn:E.
    + intros H. injection H as <-. exists [], k, l. split; [reflexivity|]. split; [apply str_eqb_eq; exact E|intros e []].
    + intros H. destruct (IH H) as (a & k' & b & -> & K & N). exists ((k, v) :: a), k', b. split; [reflexivity|]. split; [exact K|]. intros e [<-|He]; [|apply N; exact He].
      cbn [fst]. intros G. apply str_eqb_eq in G. congruence.
  - intros (a & k & b & -> & K & N). induction a as [|e a IH]; cbn [app find fst].
    + rewrite K, (proj2 (str_eqb_eq _ _) eq_refl). reflexivity.
    + destruct (str_eqb (lower (fst e)) (lower m)) eqn:E; [|apply IH; intros x Hx; apply N; right; exact Hx]. exfalso. apply (N e (or_introl eq_refl)). apply str_eqb_eq. exact E.
Qed.
(** A measurement looked up under conditions is the one of the only step that meets them. *)
Theorem C26_measure_found : forall (V : Type) (veqb : V -> V -> bool) (conv : V -> V) (d : logdata V) m conds col i x,
  conds <> [] -> measured m d col ->
  (forall pv, In pv conds -> column_of d (fst pv) <> None) ->
  (forall j, (forall pv, In pv conds -> step_holds veqb conv d j pv) <-> j = i) ->
  nth_error col i = Some x -> get_measure_value_where veqb conv d m conds = Some x.
Proof. intros V veqb conv d m conds col i x H1 H2. apply measured_find in H2. exact (measure_where veqb conv d m conds col i x H1 H2). Qed.
Print Assumptions C26_measure_found.

Theorem C26_measure_only_if_unique : forall (V : Type) (veqb : V -> V -> bool) (conv : V -> V) (d : logdata V) m conds x,
  conds <> [] -> (forall pv, In pv conds -> column_of d (fst pv) <> None) ->
  get_measure_value_where veqb conv d m conds = Some x ->
  exists col i, measured m d col /\ nth_error col i = Some x /\
    forall j, (forall pv, In pv conds -> step_holds veqb conv d j pv) <-> j = i.
Proof. intros V veqb conv d m conds x H1 H2 H3. destruct (measure_ambiguous veqb conv d m conds x H1 H2 H3) as (col & i & A & B). exists col, i. split; [apply measured_find; exact A|exact B]. Qed.

Print Assumptions C26_measure_only_if_unique.

Definition ex_log : logdata nat :=
  LogData [(s2l "r1", [1; 2; 1; 2]); (s2l "temp", [25; 25; 50; 50])] [(s2l "Gain", [100; 101; 102; 103])].
Example C26_nonvacuous : steps_with_conditions Nat.eqb id ex_log [(s2l "R1", 2); (s2l "TEMP", 50)] = Some (Some [3]) /\
  get_measure_value_where Nat.eqb id ex_log (s2l "gain") [(s2l "R1", 2); (s2l "TEMP", 50)] = Some 103 /\
  steps_with_conditions Nat.eqb id ex_log [(s2l "R1", 2)] = Some (Some [1; 3]).
Proof. repeat split. Qed.

(** Without conditions the answer is None, not all the steps. *)
Theorem C134_no_conditions_refuted : forall (V : Type) (veqb : V -> V -> bool) (conv : V -> V) (d : logdata V),
  steps_with_conditions veqb conv d [] = Some None.
Proof. reflexivity. Qed.
Print Assumptions C134_no_conditions_refuted.

(** * C27.  Statistics. *)
(** A single step number as argument: C135. *)
Theorem C27_statistics : forall (d : logdata Q) m col s l,
  dget (lower m) (dataset d) = Some col -> (forall i, s <> OneStep i) -> selected col s l -> l <> [] ->
  (exists q, max_value d m s = Some q /\ is_max q l) /\
  (exists q, min_value d m s = Some q /\ is_min q l) /\
  (exists q, avg_value d m s = Some q /\ (q * inject_Z (Z.of_nat (length l)) == qsum l)%Q).
Proof.
  intros d m col s l Hc Ho Hs Hl. apply (stats d m col s l Hc); [|exact Hl].
  destruct s; simpl in *; [exact Hs|exfalso; eapply Ho; reflexivity|exact Hs].
Qed.
Print Assumptions C27_statistics.

Local Open Scope Q_scope.
Example C27_nonvacuous :
  let d := LogData [] [(s2l "gain", [3; 1; 4; 1 # 2])] in
  selected [3; 1; 4; 1 # 2] (Steps [0; 3]%nat) [3; 1 # 2] /\
  match max_value d (s2l "GAIN") (Steps [0; 3]%nat), avg_value d (s2l "Gain") (Steps [0; 3]%nat) with
  | Some a, Some b => a == 3 /\ b == 7 # 4 | _, _ => False end.
Proof. split; [repeat constructor|]. vm_compute. split; reflexivity. Qed.
Local Close Scope Q_scope.

(** A step number is accepted according to the documentation, but always raises TypeError. *)
Theorem C135_single_step_refuted : forall (d : logdata Q) m i,
  max_value d m (OneStep i) = None /\ min_value d m (OneStep i) = None /\ avg_value d m (OneStep i) = None.
Proof.
  intros d m i. unfold max_value, min_value, avg_value, values_at.
  destruct (dget (lower m) (dataset d)) as [col|]; [|auto]. destruct (nth_error col i); auto.
Qed.
Print Assumptions C135_single_step_refuted.

(** A measurement whose name has capitals is found by get_measure_value but not by the statistics. *)
Theorem C135_capitals_refuted : exists (d : logdata Q) m,
  get_measure_value_at d m 0 = Some 1%Q /\ max_value d m AllSteps = None.
Proof. exists (LogData [] [(s2l "Gain", [1%Q])]), (s2l "Gain"). split; reflexivity. Qed.
Print Assumptions C135_capitals_refuted.

(** * C28.  Splitting a line. *)
(** Brackets that come right after a word, and closing brackets without opening one: C136. *)
Theorem C28_split : forall (V : Type) (conv : str -> V) l, line_ok l ->
  split_line conv (line_text l) = Some (line_values conv l).
Proof. intros V conv. exact (split_line_ok conv). Qed.
Print Assumptions C28_split.

Theorem C28_unclosed_rejected : forall (V : Type) (conv : str -> V) l b g, Forall piece_ok l -> Forall piece_ok g ->
  split_line conv (line_text l ++ open_c b :: line_text g) = None.
Proof. intros V conv. exact (unclosed_rejected conv). Qed.
Print Assumptions C28_unclosed_rejected.

Definition ex_line : list piece :=
  [Word (s2l "1.5"); Blank " "; Group Round [Word (s2l "2dB"); Comma ","; Group Square [Word (s2l "x")]; Word (s2l "y")]; Blank "009";
   Comma ";"; Word (s2l "z")].
Example C28_nonvacuous : line_ok ex_line /\ l2s (line_text ex_line) = "1.5 (2dB,[x]y)	;z" /\
  line_values l2s ex_line = [VText "1.5"; VList [VText "2dB"; VList [VText "x"]; VText "y"]; VNone; VText "z"].
Proof.
  split; [|split; reflexivity]. split; [simpl; tauto|].
  assert (forall s, s <> [] -> forallb (fun c => negb (is_blank c) && negb (is_comma c) && negb (bracket_char c)) s = true -> piece_ok (Word s)) as W.
  { intros s Hn H. split; [exact Hn|]. apply Forall_forall. intros c Hc. rewrite forallb_forall in H. specialize (H c Hc).
    apply andb_true_iff in H. destruct H as [H H3]. apply andb_true_iff in H. destruct H as [H1 H2].
    apply negb_true_iff in H1, H2, H3. repeat split; assumption. }
  unfold ex_line. repeat apply Forall_cons; try apply Forall_nil; try reflexivity; try (apply W; [discriminate|reflexivity]).
  apply group_ok. split; [simpl; tauto|]. repeat apply Forall_cons; try apply Forall_nil; try reflexivity; try (apply W; [discriminate|reflexivity]).
  apply group_ok. split; [simpl; tauto|]. repeat apply Forall_cons; try apply Forall_nil; apply W; [discriminate|reflexivity].
Qed.

(** A closing bracket without an opening one is taken as text; a bracket right after a word makes the line
    invalid although it is balanced. *)
Theorem C136_stray_brackets_refuted :
  split_line l2s (s2l "1 ) 2") = Some [VText "1"; VText ")"; VText "2"] /\
  split_line l2s (s2l "V(out) 3") = None.
Proof. split; reflexivity. Qed.
Print Assumptions C136_stray_brackets_refuted.

(** * C62.  Reading a log with steps and measurement tables. *)
Theorem C62_log_tables : forall (V : Type) (conv : str -> V) (is_int : str -> bool) log ts,
  Forall step_section_ok log -> Forall (table_ok is_int) ts -> NoDup (titles_of ts) ->
  exists d, read_log conv is_int (map log_text log ++ concat (map table_lines ts)) = Some d /\
  (forall k, dget (lower k) (stepset d) = match step_values k log with [] => None | vs => Some (map conv vs) end) /\
  Forall (holds_table conv (dataset d)) ts /\
  (forall key, ~ In key (titles_of ts) -> dget key (dataset d) = None).
Proof.
  intros V conv is_int log ts Hl Ht N. destruct (read_log_ok conv is_int log ts Hl Ht N) as (d & E & Hs & Hh & Hk).
  exists d. split; [exact E|]. split; [exact Hs|]. split; [|exact Hk].
  eapply Forall_impl; [|exact Hh]. intros t H j h Hj. destruct (H j h Hj) as (col & Hd & Hi). exists col. split; [exact Hd|].
  clear - Hi. unfold is_col, conv_rows in Hi. revert col Hi. induction (tb_rows t) as [|r rs IH]; intros col Hi; inversion Hi; subst; constructor.
  - rewrite nth_error_map in H1. destruct (nth_error (snd r) j) as [s|]; [|discriminate]. injection H1 as <-. eauto.
  - apply IH. assumption.
Qed.
Print Assumptions C62_log_tables.

Definition ex_int (s : str) : bool := match undec (strip s) with Some _ => true | None => false end.
Example C62_nonvacuous :
  let log := [OtherLine (s2l "Circuit: x"); StepLine [(s2l "R1", s2l "1")]; StepLine [(s2l "R1", s2l "2")]] in
  let ts := [Table (s2l "Gain") (s2l "  step", s2l "RMS(v(out))") [s2l "FROM"; s2l "TO"]
               [(s2l "     1", [s2l "10"; s2l "0"; s2l "1m"]); (s2l "     2", [s2l "11"; s2l "0"; s2l "1m"])];
             Table (s2l "vx") (s2l "  step", s2l "v(x)") [] [(s2l "     1", [s2l "5"]); (s2l "     2", [s2l "6"])]] in
  Forall step_section_ok log /\ Forall (table_ok ex_int) ts /\ NoDup (titles_of ts) /\
  read_log l2s ex_int (map log_text log ++ concat (map table_lines ts)) =
   Some (LogData [(s2l "r1", ["1"; "2"])]
          [(s2l "gain", ["10"; "11"]); (s2l "gain_from", ["0"; "0"]); (s2l "gain_to", ["1m"; "1m"]); (s2l "vx", ["5"; "6"])]).
Proof.
  assert (forall s, forallb (fun c => negb (aeqb c " ") && negb (aeqb c "=")) s = true -> plain s) as P.
  { intros s Hs c Hc. rewrite forallb_forall in Hs. specialize (Hs c Hc). apply andb_true_iff in Hs.
    destruct Hs as [A B]. apply negb_true_iff in A, B. apply aeqb_neq in A, B. split; assumption. }
  assert (forall s, mem_c TABC s = false -> mem_c NLC s = false -> mem_c "013" s = false -> cell s) as C.
  { intros s A B D. apply mem_c_not_In in A, B, D. repeat split; assumption. }
  split; [|split; [|split]].
  - apply Forall_cons; [split; reflexivity|].
    assert (forall v, plain v -> cell v -> step_section_ok (StepLine [(s2l "R1", v)])) as S.
    { intros v Pv Cv. apply Forall_cons; [|apply Forall_nil].
      split; [apply P; reflexivity|]. split; [exact Pv|]. split; [apply C; reflexivity|exact Cv]. }
    apply Forall_cons; [apply S; [apply P|apply C]; reflexivity|].
    apply Forall_cons; [apply S; [apply P|apply C]; reflexivity|]. apply Forall_nil.
  - repeat apply Forall_cons; try apply Forall_nil; unfold table_ok; simpl tb_name; simpl tb_title; simpl tb_cols; simpl tb_rows;
      (split; [discriminate|]); (split; [apply C; reflexivity|]); (split; [apply C; reflexivity|]); (split; [apply C; reflexivity|]);
      (split; [repeat (apply Forall_cons; [apply C; reflexivity|]); apply Forall_nil|]);
      (split; [reflexivity|]); (split; [reflexivity|]); (split; [discriminate|]);
      repeat (apply Forall_cons; [split; [reflexivity|]; split; [apply C; reflexivity|];
        split; [repeat (apply Forall_cons; [apply C; reflexivity|]); apply Forall_nil|]; split; reflexivity|]); apply Forall_nil.
  - vm_compute. repeat constructor; simpl; intuition discriminate.
  - vm_compute. reflexivity.
Qed.

(** * C63.  Data exported as text. *)
(** A file exported from a simulation without steps is never read: KeyError at the first line of data. *)
Theorem C63_unstepped_export_refuted : forall (V : Type) (conv : str -> V) h l ls,
  Forall (fun x => startswith (s2l "Step Information:") x = false) (h :: l :: ls) ->
  read_export_unstepped conv (h :: l :: ls) = None.
Proof.
  intros V conv h l ls _. simpl.
  assert (forall s, exists a r, split_on "009" s = a :: r) as E.
  { intros s. induction s as [|c s (a & r & IH)]; simpl; [eauto|]. destruct (aeqb c "009"); [eauto|]. rewrite IH. eauto. }
  destruct (E h) as (a & r & ->). destruct (E l) as (b & q & ->). reflexivity.
Qed.
Print Assumptions C63_unstepped_export_refuted.
