(** C22, C23, C25, C58-C61: stepped data. *)
From Coq Require Import String Ascii List Bool Arith Lia QArith ZArith Lqa.
From Verif Require Import PyStr StepsModel StepsSpec StepsProofs.
Import ListNotations.
Local Open Scope string_scope.
Local Open Scope nat_scope.
Local Open Scope list_scope.

(** * C22.  The waves of the steps. *)
Theorem C22_waves_partition : forall (V : Type) (veqb : V -> V -> bool) (data : list V) n o,
  data <> [] -> set_steps veqb data n = Offsets o ->
  n = n_steps veqb data /\
  cut_at_first_value veqb data (map (trace_wave (Some o) (length data) data) (seq 0 n)) /\
  (forall (A : Type) (tr : list A), length tr = length data ->
     concat (map (trace_wave (Some o) (length data) tr) (seq 0 n)) = tr /\
     forall k, k < n -> length (trace_wave (Some o) (length data) tr k) = length (trace_wave (Some o) (length data) data k)) /\
  (forall k, k < n -> axis_len (Some o) data k = Some (length (trace_wave (Some o) (length data) data k))).
Proof. intros V veqb. exact (waves veqb). Qed.
Print Assumptions C22_waves_partition.

(** The axis itself: its waves are those pieces, in absolute value if it is called 'time'. *)
Theorem C22_axis_waves : forall (V : Type) (veqb : V -> V -> bool) (vabs : V -> V) is_time (data : list V) n o,
  data <> [] -> set_steps veqb data n = Offsets o ->
  concat (map (axis_wave vabs is_time (Some o) data) (seq 0 n)) = if is_time : bool then map vabs data else data.
Proof.
  intros V veqb vabs is_time data n o Hne H. destruct (waves veqb data n o Hne H) as (_ & _ & W & _).
  destruct (W V data eq_refl) as [E _]. destruct is_time.
  - rewrite <- E at 2. rewrite concat_map, map_map. reflexivity.
  - exact E.
Qed.
Print Assumptions C22_axis_waves.

(** The step information is accepted exactly when it has as many steps as the data. *)
Theorem C22_step_count : forall (V : Type) (veqb : V -> V -> bool) (data : list V) n, data <> [] ->
  ((exists o, set_steps veqb data n = Offsets o) <-> n = n_steps veqb data) /\
  (n_steps veqb data < n -> set_steps veqb data n = ErrCount) /\
  (n < n_steps veqb data -> set_steps veqb data n = ErrIndex).
Proof. intros V veqb. exact (set_steps_outcome veqb). Qed.
Print Assumptions C22_step_count.

(** Data without steps: step 0 is all of it, and no other step has points. *)
Theorem C22_unstepped : forall (V A : Type) (vabs : V -> V) is_time (data : list V) (tr : list A), length tr = length data ->
  trace_wave None (length data) tr 0 = tr /\ (forall k, 0 < k -> trace_wave None (length data) tr k = []) /\
  axis_wave vabs is_time None data 0 = (if is_time : bool then map vabs data else data) /\
  axis_len None data 0 = Some (length data) /\ trace_len None (length data) 0 = Some (length data).
Proof.
  intros V A vabs is_time data tr H. assert (forall (B : Type) (l : list B), length l = length data -> trace_wave None (length data) l 0 = l) as W.
  { intros B l E. unfold trace_wave, step_offset, pslice. cbn. rewrite <- E, Nat.sub_0_r. apply firstn_all. }
  split; [apply W; exact H|]. split; [|split; [|split]].
  - intros [|k] Hk; [lia|]. unfold trace_wave, step_offset, pslice. cbn. rewrite Nat.sub_diag. reflexivity.
  - unfold axis_wave. rewrite W by reflexivity. reflexivity.
  - unfold axis_len, step_offset. cbn. rewrite Nat.sub_0_r. reflexivity.
  - reflexivity.
Qed.
Print Assumptions C22_unstepped.

Example C22_nonvacuous : set_steps Nat.eqb [0; 3; 5; 0; 4; 0; 1; 2] 3 = Offsets [Some 0; Some 3; Some 5] /\
  map (trace_wave (Some [Some 0; Some 3; Some 5]) 8 [10; 11; 12; 13; 14; 15; 16; 17]) (seq 0 3)
    = [[10; 11; 12]; [13; 14]; [15; 16; 17]].
Proof. split; reflexivity. Qed.

(** get_len() of a trace (not of the axis) is wrong from the second step on. *)
Theorem C132_trace_get_len_refuted : exists (data : list nat) n o k,
  set_steps Nat.eqb data n = Offsets o /\ k < n /\
  trace_len (Some o) (length data) k <> Some (length (trace_wave (Some o) (length data) data k)).
Proof.
  exists [0; 3; 5; 0; 4; 0; 1; 2], 3, [Some 0; Some 3; Some 5], 1.
  split; [reflexivity|]. split; [lia|]. vm_compute. discriminate.
Qed.
Print Assumptions C132_trace_get_len_refuted.

Theorem C132_first_step_partial : forall (V : Type) (veqb : V -> V -> bool) (data : list V) n o,
  data <> [] -> set_steps veqb data n = Offsets o ->
  trace_len (Some o) (length data) 0 = Some (length (trace_wave (Some o) (length data) data 0)).
Proof.
  intros V veqb data n o Hne H. destruct (waves veqb data n o Hne H) as (Hn & _ & _ & L).
  assert (0 < n) as P by (rewrite Hn; destruct data; [contradiction|simpl; lia]).
  specialize (L 0 P). unfold axis_len, trace_len in *. rewrite <- L.
  destruct (set_ok veqb data n o Hne H) as (_ & ws & _ & _ & -> & Hd). rewrite Hd.
  rewrite !step_offset_starts, offs_0, Nat.sub_0_r. reflexivity.
Qed.
Print Assumptions C132_first_step_partial.

(** * C23.  Look-up of a point. *)
Theorem C23_get_position : forall is_time steps (axis : list Q) step t x0,
  hd_error (axis_wave qabs is_time steps axis step) = Some x0 -> (x0 <= t)%Q ->
  (exists x, In x (axis_wave qabs is_time steps axis step) /\ (t <= x)%Q) ->
  at_or_between t (axis_wave qabs is_time steps axis step) (get_position is_time steps axis t step).
Proof. exact position_between. Qed.
Print Assumptions C23_get_position.

Theorem C23_outside_the_range : forall is_time steps (axis : list Q) step t,
  (forall x, hd_error (axis_wave qabs is_time steps axis step) = Some x -> (t < x)%Q ->
     get_position is_time steps axis t step = BelowFirst) /\
  ((forall x, In x (axis_wave qabs is_time steps axis step) -> (x < t)%Q) -> get_position is_time steps axis t step = NotFound).
Proof. exact position_outside. Qed.
Print Assumptions C23_outside_the_range.

Theorem C23_get_point_at : forall is_time (axis : list Q) n o k t (tr : list Q) x0,
  axis <> [] -> set_steps Qeq_bool axis n = Offsets o -> length tr = length axis -> k < n ->
  hd_error (axis_wave qabs is_time (Some o) axis k) = Some x0 -> (x0 <= t)%Q ->
  (exists x, In x (axis_wave qabs is_time (Some o) axis k) /\ (t <= x)%Q) ->
  exists y, get_point_at is_time (Some o) axis tr t k = Some y /\
    interpolates t y (axis_wave qabs is_time (Some o) axis k) (trace_wave (Some o) (length axis) tr k).
Proof. exact point_at. Qed.
Print Assumptions C23_get_point_at.

(** On a strictly increasing axis, the stored sample when [t] is a stored abscissa. *)
Theorem C23_stored_abscissa : forall is_time (axis : list Q) n o k t (tr : list Q) i x y,
  axis <> [] -> set_steps Qeq_bool axis n = Offsets o -> length tr = length axis -> k < n ->
  (forall a b u v, a < b -> nth_error (axis_wave qabs is_time (Some o) axis k) a = Some u ->
                   nth_error (axis_wave qabs is_time (Some o) axis k) b = Some v -> (u < v)%Q) ->
  nth_error (axis_wave qabs is_time (Some o) axis k) i = Some x -> (x == t)%Q ->
  nth_error (trace_wave (Some o) (length axis) tr k) i = Some y ->
  exists y', get_point_at is_time (Some o) axis tr t k = Some y' /\ (y' == y)%Q.
Proof.
  intros is_time axis n o k t tr i x y Hne H Htr Hk Hs Hx Ex Hy.
  assert (exists x0, hd_error (axis_wave qabs is_time (Some o) axis k) = Some x0 /\ (x0 <= t)%Q) as (x0 & Hh & Hl).
  { destruct (axis_wave qabs is_time (Some o) axis k) as [|x0 r] eqn:E; [destruct i; discriminate|].
    exists x0. split; [reflexivity|]. destruct i; [simpl in Hx; injection Hx as ->; lra|].
    specialize (Hs 0 (S i) x0 x (Nat.lt_0_succ i) eq_refl Hx). lra. }
  destruct (point_at is_time axis n o k t tr x0 Hne H Htr Hk Hh Hl) as (y' & E & I).
  { exists x. split; [apply nth_error_In in Hx; exact Hx|lra]. }
  exists y'. split; [exact E|]. destruct I as [(j & xj & yj & Hj & Exj & Hyj & Ey)|(j & a & b & ya & yb & Ha & Hb & _ & _ & L1 & L2 & _)].
  - destruct (lt_eq_lt_dec i j) as [[L|L]|L].
    + specialize (Hs i j x xj L Hx Hj). lra.
    + subst j. rewrite Hy in Hyj. injection Hyj as <-. exact Ey.
    + specialize (Hs j i xj x L Hj Hx). lra.
  - destruct (le_lt_dec i j) as [L|L].
    + destruct (Nat.eq_dec i j) as [->|Hd].
      * rewrite Ha in Hx. injection Hx as ->. lra.
      * specialize (Hs i j x a ltac:(lia) Hx Ha). lra.
    + destruct (Nat.eq_dec i (S j)) as [->|Hd].
      * rewrite Hb in Hx. injection Hx as ->. lra.
      * specialize (Hs (S j) i b x ltac:(lia) Hb Hx). lra.
Qed.
Print Assumptions C23_stored_abscissa.

Local Open Scope Q_scope.
Example C23_nonvacuous :
  set_steps Qeq_bool [0; 1; 3; 0; 2; 4] 2 = Offsets [Some 0; Some 3]%nat /\
  match get_point_at true (Some [Some 0; Some 3]%nat) [0; 1; 3; 0; 2; 4] [0; 10; 30; 0; 2; 8] 3 1 with
  | Some y => y == 5 | None => False end /\
  match get_position false (Some [Some 0; Some 3]%nat) [0; 1; 3; 0; 2; 4] 2 0 with
  | Between p => p == 3 # 2 | _ => False end.
Proof. split; [reflexivity|]. split; vm_compute; reflexivity. Qed.
Local Close Scope Q_scope.

(** * C25.  Selection of steps. *)
Theorem C25_get_steps : forall (V : Type) (veqb : V -> V -> bool) (steps : list (list (str * V))) conds,
  (forall j, In j (get_steps veqb (Some steps) conds) <-> exists d, nth_error steps j = Some d /\ meets veqb d conds) /\
  (forall i j x y, nth_error (get_steps veqb (Some steps) conds) i = Some x ->
     nth_error (get_steps veqb (Some steps) conds) j = Some y -> i < j -> x < y).
Proof. intros V veqb. exact (get_steps_spec veqb). Qed.
Print Assumptions C25_get_steps.

(** Data without steps have the single step 0, whatever the conditions. *)
Theorem C25_no_steps : forall (V : Type) (veqb : V -> V -> bool) conds, get_steps veqb None conds = [0].
Proof. reflexivity. Qed.
Print Assumptions C25_no_steps.

Example C25_nonvacuous :
  get_steps Nat.eqb (Some [[(s2l "v", 1); (s2l "t", 25)]; [(s2l "v", 2); (s2l "t", 25)]; [(s2l "v", 1); (s2l "t", 50)];
                           [(s2l "t", 25); (s2l "v", 1)]]) [(s2l "v", 1); (s2l "t", 25)] = [0; 3].
Proof. reflexivity. Qed.

(** * C58.  Stepped files without usable log, and in text format. *)
(** With the log file, a binary stepped file is loaded whenever the numbers of steps agree. *)
Theorem C58_binary_with_log : forall (V : Type) (veqb : V -> V -> bool) (data : list V) n, data <> [] ->
  n = n_steps veqb data -> exists o, load_binary_axis veqb data (Some n) = Offsets o.
Proof. intros V veqb data n Hne Hn. apply (proj1 (set_steps_outcome veqb data n Hne)). exact Hn. Qed.
Print Assumptions C58_binary_with_log.

(** Without it, loading any trace always raises IndexError: the fallback counts the steps on an axis that
    is not loaded yet. *)
Theorem C141_without_log_refuted : forall (V : Type) (veqb : V -> V -> bool) (data : list V),
  load_binary_axis veqb data None = ErrIndex.
Proof. reflexivity. Qed.
Print Assumptions C141_without_log_refuted.

(** A stepped file in text ("Values:") format is never loaded, unless each step has a single point: the
    steps are searched before the values have been read. *)
Theorem C141_text_format_refuted : forall (V : Type) (veqb : V -> V -> bool) zero (data : list V) n,
  veqb zero zero = true -> data <> [] -> n < length data ->
  forall o, load_ascii_axis veqb zero data (Some n) <> Offsets o.
Proof.
  intros V veqb zero data n Hz Hne Hn o H. unfold load_ascii_axis in H.
  assert (repeat zero (length data) <> []) as Hr by (destruct data; [contradiction|discriminate]).
  assert (n_steps veqb (repeat zero (length data)) = length data) as E.
  { destruct data as [|d r]; [contradiction|]. simpl. f_equal.
    assert (forall m, length (filter (fun v => veqb v zero) (repeat zero m)) = m) as F.
    { induction m; simpl; [reflexivity|]. rewrite Hz. simpl. rewrite IHm. reflexivity. }
    apply F. }
  assert (n = n_steps veqb (repeat zero (length data))) by (apply (proj1 (set_steps_outcome veqb _ n Hr)); eauto). lia.
Qed.
Print Assumptions C141_text_format_refuted.

Example C58_nonvacuous : load_binary_axis Nat.eqb [5; 6; 7; 5; 6; 7] (Some 2) = Offsets [Some 0; Some 3] /\
  load_ascii_axis Nat.eqb 0 [5; 6; 7; 5; 6; 7] (Some 2) = ErrIndex.
Proof. split; reflexivity. Qed.

(** * C59.  Export. *)
(** Exporting everything gives each column its whole data; exporting a selection, the waves of the
    selected steps one after the other. *)
Theorem C59_export_all : forall (V W A : Type) (veqb : V -> V -> bool) (weqb : W -> W -> bool) (data : list V) (steps : list (list (str * W))) o (tr : list A),
  data <> [] -> set_steps veqb data (length steps) = Offsets o -> length tr = length data ->
  export_column (trace_wave (Some o) (length data) tr) (get_steps weqb (Some steps) []) None = Some tr.
Proof.
  intros V W A veqb weqb data steps o tr Hne H Htr.
  destruct (waves veqb data _ o Hne H) as (Hn & _ & Hw & _). destruct (Hw A tr Htr) as [E _].
  rewrite export_spec; [simpl get_steps; rewrite E; reflexivity|].
  simpl. destruct data as [|d r]; [contradiction|]. simpl in Hn. destruct steps; [discriminate|discriminate].
Qed.
Print Assumptions C59_export_all.

Theorem C59_export_selection : forall (A : Type) (wave : nat -> list A) steps, steps <> [] ->
  export_column wave steps None = Some (concat (map wave steps)).
Proof. exact @export_spec. Qed.
Print Assumptions C59_export_selection.

(** All the columns have the same length, so that row i of one column belongs to row i of the others. *)
Theorem C59_columns_aligned : forall (V A B : Type) (veqb : V -> V -> bool) (data : list V) n o (ta : list A) (tb : list B) sel ca cb,
  data <> [] -> set_steps veqb data n = Offsets o -> length ta = length data -> length tb = length data ->
  Forall (fun k => k < n) sel ->
  export_column (trace_wave (Some o) (length data) ta) sel None = Some ca ->
  export_column (trace_wave (Some o) (length data) tb) sel None = Some cb -> length ca = length cb.
Proof.
  intros V A B veqb data n o ta tb sel ca cb Hne H Ha Hb Hs Hca Hcb.
  destruct (waves veqb data _ o Hne H) as (_ & _ & Hw & _). destruct (Hw A ta Ha) as [_ La]. destruct (Hw B tb Hb) as [_ Lb].
  assert (forall l, Forall (fun k => k < n) l ->
    length (concat (map (trace_wave (Some o) (length data) ta) l)) = length (concat (map (trace_wave (Some o) (length data) tb) l))) as G.
  { intros l F. induction F as [|k l Hk F IH]; [reflexivity|].
    simpl. rewrite !app_length, IH, (La k Hk), (Lb k Hk). reflexivity. }
  specialize (G sel Hs). destruct sel as [|s sel]; [discriminate|]. rewrite export_spec in Hca, Hcb by discriminate.
  assert (forall (X : Type) (x y : X), Some x = Some y -> x = y) as Si by (intros X x y E; congruence).
  apply Si in Hca. apply Si in Hcb. rewrite <- Hca, <- Hcb. exact G.
Qed.
Print Assumptions C59_columns_aligned.

Example C59_nonvacuous : set_steps Nat.eqb [5; 6; 7; 5; 6] 2 = Offsets [Some 0; Some 3] /\
  export_column (trace_wave (Some [Some 0; Some 3]) 5 [1; 2; 3; 4; 9]) [1; 0] None = Some [4; 9; 1; 2; 3].
Proof. split; reflexivity. Qed.

(** * C60.  Points by index. *)
(** An index beyond the end of its step: C142. *)
Theorem C60_point_of_step : forall (V A : Type) (veqb : V -> V -> bool) (data : list V) n o (tr : list A),
  data <> [] -> set_steps veqb data n = Offsets o -> length tr = length data ->
  forall k i, k < n -> i < length (trace_wave (Some o) (length data) tr k) ->
  get_point (Some o) (length data) tr i k = nth_error (trace_wave (Some o) (length data) tr k) i.
Proof. intros V A veqb. exact (point_in_step veqb A). Qed.
Print Assumptions C60_point_of_step.

(** An index past the end of the step is not refused: it gives a point of the next step. *)
Theorem C142_past_the_end_refuted : exists (data : list nat) n o k i,
  set_steps Nat.eqb data n = Offsets o /\ k < n /\ length (trace_wave (Some o) (length data) data k) <= i /\
  get_point (Some o) (length data) data i k = Some 4.
Proof.
  exists [0; 3; 5; 0; 4], 2, [Some 0; Some 3], 0, 4. split; [reflexivity|]. split; [lia|]. split; [simpl; lia|reflexivity].
Qed.
Print Assumptions C142_past_the_end_refuted.

Example C60_nonvacuous : set_steps Nat.eqb [0; 3; 5; 0; 4] 2 = Offsets [Some 0; Some 3] /\
  get_point (Some [Some 0; Some 3]) 5 [0; 3; 5; 0; 4] 1 1 = Some 4.
Proof. split; reflexivity. Qed.

(** * C61.  The table of steps of a log file. *)
Theorem C61_step_table : forall (V : Type) (conv : str -> V) (log : list log_line), Forall log_line_ok log ->
  exists steps, log_steps conv (map log_text log) = Some steps /\
  Forall2 (fun l (d : list (str * V)) => forall k, dget k d = option_map conv (last_value k l)) (step_table log) steps.
Proof. intros V. exact log_steps_text. Qed.
Print Assumptions C61_step_table.

Example C61_nonvacuous :
  let log := [OtherLine (s2l "Circuit: x"); StepLine [(s2l "v1", s2l "1"); (s2l "temp", s2l "25")]; OtherLine [];
              StepLine [(s2l "v1", s2l "2"); (s2l "temp", s2l "-5")]] in
  Forall log_line_ok log /\
  map l2s (map log_text log) = ["Circuit: x"; ".step v1=1 temp=25
"; ""; ".step v1=2 temp=-5
"] /\
  log_steps l2s (map log_text log) =
    Some [[(s2l "v1", "1"); (s2l "temp", "25")]; [(s2l "v1", "2"); (s2l "temp", "-5")]].
Proof.
  split; [|split; reflexivity].
  assert (forall s, forallb (fun c => negb (aeqb c " ") && negb (aeqb c "=")) s = true -> plain s) as P.
  { intros s Hs c Hc. rewrite forallb_forall in Hs. specialize (Hs c Hc). apply andb_true_iff in Hs.
    destruct Hs as [A B]. apply negb_true_iff in A, B. apply aeqb_neq in A, B. split; assumption. }
  repeat (constructor; [simpl; repeat (constructor; [split; apply P; reflexivity|]); (reflexivity || constructor)|]).
  constructor.
Qed.

(** The last character is cut off the last line when the log does not end with a newline. *)
Theorem C143_last_line_refuted : exists l, l = s2l ".step v1=10" /\
  log_steps l2s [l] = Some [[(s2l "v1", "1")]].
Proof. eexists. split; reflexivity. Qed.
Print Assumptions C143_last_line_refuted.
