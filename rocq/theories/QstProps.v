(** C255-C259: the test bench of the quick sensitivity analysis, and the extremes of a worst case analysis. *)
From Coq Require Import String Ascii List Bool Arith ZArith QArith Qabs Lia Lqa.
From Verif Require Import PyStr StepsModel EngModel EngSpec TolModel TolSpec TolBatch TolCorner TolCollect TolRuns McModel McSpec QstModel QstSpec QstProofs.
From Verif Require ColModel ColSpec ColProofs ColProps.
Import ListNotations.
Local Open Scope string_scope. Local Open Scope nat_scope. Local Open Scope list_scope.

Definition q_net : ed := Ed [("V1", VNum 10); ("R1", VNum 1000); ("R2", VNum 2000); ("XU1", VText "opamp")] [("gain", VNum 7)] [".op"].
Definition q_ana : ana :=
  set_parameter_deviation "gain" 5 9 "uniform" (set_deviation "R2" 1900 2200 "uniform" (set_tolerance "R" (1 # 20) "normal" (new_analysis q_net))).
Lemma q_setup : setup q_net q_ana.
Proof. unfold q_ana. apply S_parameter; [|left; reflexivity]. apply S_deviation; [|cbn; tauto|reflexivity]. apply S_tolerance; [|left; cbn; tauto]. apply S_new. Qed.

(** C255: every element takes its extreme in its run, one at a time. *)
Theorem C255_one_at_a_time : forall (use_min : bool) e a limit, setup e a -> NoDup (map fst (comps e)) -> instrs a = [] -> (1 <= limit)%Z ->
  (forall lo hi, ~ In (step_dir lo hi) (dirs e)) -> ~ In plus_tol (dirs e) -> ~ In minus_tol (dirs e) ->
  exists a1 nets bs, qst_prepare use_min a = Some a1 /\ qst_testbench limit a1 = Some nets /\
    flat_map batch_runs bs = all_runs (Z.of_nat (length (elements a1)) - 1) /\
    NoDup (elements a1) /\ (forall r, In r (elements a1) <-> exists q d, comp_has a e r q d) /\
    Forall2 (fun b s => one_at_a_time use_min a (elements a1) e (fst b) (snd b) s) bs nets.
Proof. intros um e a limit H1 H2 H3 H4 H5 H6 H7. apply qst_runs; try assumption. intros [|]; assumption. Qed.
Print Assumptions C255_one_at_a_time.
Example C255_nonvacuous : setup q_net q_ana /\ exists a1 nets, qst_prepare false q_ana = Some a1 /\ elements a1 = ["R1"; "R2"] /\ qst_testbench 2 a1 = Some nets /\
  map (fun s => (aget "R1" (comps s), aget "R2" (comps s))) nets = [(Some (VText "{satol(1k,0.05,0)}"), Some (VText "{sammx(2k,2200,1)}"))] /\
  map dirs nets = [[".op"; plus_tol; min_max; ".step param run -1 1 1"]] /\ comp_has q_ana q_net "R1" 1000 (from_tolerance (1 # 20) "normal") /\ six false 1000 (from_tolerance (1 # 20) "normal").
Proof.
  split; [exact q_setup|]. eexists. eexists. split; [vm_compute; reflexivity|]. split; [vm_compute; reflexivity|]. split; [vm_compute; reflexivity|]. split; [vm_compute; reflexivity|]. split; [vm_compute; reflexivity|].
  split; [split; [reflexivity|split; [discriminate|split; [reflexivity|right; split; reflexivity]]]|]. split; [exists 1%Z, 3%Z; split; reflexivity|]. split; [intros _; exists 5%Z, (-2)%Z; split; reflexivity|discriminate].
Qed.

(** C256: the deviations of parameters are analysed too.  They are not: every parameter keeps its value in every run. *)
Theorem C256_parameters_refuted : forall (use_min : bool) e a limit, setup e a -> NoDup (map fst (comps e)) -> instrs a = [] -> (1 <= limit)%Z ->
  (forall lo hi, ~ In (step_dir lo hi) (dirs e)) -> ~ In plus_tol (dirs e) -> ~ In minus_tol (dirs e) ->
  exists a1 nets, qst_prepare use_min a = Some a1 /\ qst_testbench limit a1 = Some nets /\ nets <> [] /\
    (forall p d s, aget p (params a) = Some d -> p <> "run" -> In s nets -> aget p (pars s) = aget p (pars e)) /\
    (forall r, In r (elements a1) -> In r (map fst (comps e))).
Proof.
  intros um e a limit H1 H2 H3 H4 H5 H6 H7. destruct (C255_one_at_a_time um e a limit H1 H2 H3 H4 H5 H6 H7) as (a1 & nets & bs & A & B & C & _ & D & F). exists a1, nets. split; [exact A|]. split; [exact B|]. split; [|split].
  - intros ->. inversion F; subst. cbn [flat_map] in C. unfold all_runs in C. replace (Z.to_nat (Z.of_nat (length (elements a1)) - 1 + 2)) with (S (length (elements a1))) in C by lia. discriminate C.
  - intros p d s _ NR I. clear -F NR I. induction F as [|b x bs xs HX F IH]; [destruct I|]. destruct I as [->|I]; [|apply IH; exact I]. exact (proj1 (proj2 (proj2 HX)) p NR).
  - intros r R. apply D in R. destruct R as (q & d & (R & _)). apply aget_In. exists (VNum q). exact R.
Qed.
Print Assumptions C256_parameters_refuted.
Example C256_nonvacuous : aget "gain" (params q_ana) = Some (from_min_max 5 9 "uniform").
Proof. reflexivity. Qed.

(** C257: a test bench that was not prepared is prepared when it is run.  The formulas are not put into the netlist: all components keep their
    values in every run. *)
Lemma qst_components_cur : forall um rs a n a' n', qst_components um rs (a, n) = Some (a', n') -> cur a' = cur a.
Proof.
  induction rs as [|r rs IH]; cbn [qst_components]; intros a n a' n' H; [congruence|]. destruct (qst_component um r (a, n)) as [[a1 n1]|] eqn:E; [|discriminate H]. rewrite (IH _ _ _ _ H). clear IH H.
  unfold qst_component in E. destruct (value_and_dev a r) as [[v d]|]; [|discriminate E]. destruct (dtyp d); [| |congruence]; (destruct (value_text v); [|discriminate E]); injection E as <- <-; reflexivity.
Qed.
Lemma run_batches_comps : forall bs x s, In s (run_batches bs x) -> comps s = comps x.
Proof. induction bs as [|[lo hi] bs IH]; cbn; intros x s H; [destruct H|]. destruct H as [<-|H]; [reflexivity|]. apply IH in H. exact H. Qed.
Theorem C257_unprepared_refuted : forall e a n limit nets, setup e a -> play_all (instrs a) e = Some n ->
  qst_testbench limit a = Some nets -> forall s, In s nets -> comps s = comps n.
Proof.
  intros e a n limit nets S HP H s Hs. pose proof (setup_ok e a S) as O. unfold qst_testbench in H. rewrite (o_prep _ _ O) in H. unfold play, reset_netlist_ in H. cbn [added instrs cur] in H. rewrite (o_orig _ _ O), HP in H.
  cbn [orig defaults devices params elements prepared last_run andb] in H. rewrite (o_prep _ _ O) in H.
  unfold qst_prepare in H. cbv zeta in H. destruct (qst_components _ _ _) as [[a1 n1]|] eqn:E1; [|discriminate H]. cbn [last_run cur] in H.
  destruct (batches _ _) as [bs|]; [|discriminate H]. injection H as <-. apply run_batches_comps in Hs. rewrite Hs.
  cbn [rem_dir set_par add_dir comps]. rewrite (qst_components_cur _ _ _ _ _ _ E1). reflexivity.
Qed.
Print Assumptions C257_unprepared_refuted.
Example C257_nonvacuous : exists nets, qst_testbench 2000 q_ana = Some nets /\ map (fun s => aget "R1" (comps s)) nets = [Some (VNum 1000)].
Proof. eexists. split; vm_compute; reflexivity. Qed.

(** C258: the extremes of a measurement after a worst case analysis in which every simulation gave one value. *)
Import ColModel ColSpec.
Lemma least_spec : forall l x, (In (least x l) (x :: l)) /\ (forall y, In y (x :: l) -> (least x l <= y)%Q).
Proof.
  induction l as [|y l IH]; intros x; cbn [least]; [split; [left; reflexivity|intros z [<-|[]]; apply Qle_refl]|]. destruct (Qle_bool x y) eqn:E.
  - destruct (IH x) as (A & B). split; [destruct A as [A|A]; [left; exact A|right; right; exact A]|]. intros z [<-|[<-|Z]]; [apply B; left; reflexivity| |apply B; right; exact Z]. apply Qle_bool_iff in E. exact (Qle_trans _ _ _ (B x (or_introl eq_refl)) E).
  - destruct (IH y) as (A & B). split; [right; exact A|]. intros z [<-|Z]; [|apply B; exact Z]. assert (Y : (y <= x)%Q) by (apply Qlt_le_weak; apply Qnot_le_lt; intros K; apply Qle_bool_iff in K; congruence). exact (Qle_trans _ _ _ (B y (or_introl eq_refl)) Y).
Qed.
Lemma greatest_spec : forall l x, (In (greatest x l) (x :: l)) /\ (forall y, In y (x :: l) -> (y <= greatest x l)%Q).
Proof.
  induction l as [|y l IH]; intros x; cbn [greatest]; [split; [left; reflexivity|intros z [<-|[]]; apply Qle_refl]|]. destruct (Qle_bool y x) eqn:E.
  - destruct (IH x) as (A & B). split; [destruct A as [A|A]; [left; exact A|right; right; exact A]|]. intros z [<-|[<-|Z]]; [apply B; left; reflexivity| |apply B; right; exact Z]. apply Qle_bool_iff in E. exact (Qle_trans _ _ _ E (B x (or_introl eq_refl))).
  - destruct (IH y) as (A & B). split; [right; exact A|]. intros z [<-|Z]; [|apply B; exact Z]. assert (Y : (x <= y)%Q) by (apply Qlt_le_weak; apply Qnot_le_lt; intros K; apply Qle_bool_iff in K; congruence). exact (Qle_trans _ _ _ Y (B y (or_introl eq_refl))).
Qed.
(** [logs]: the logs of the simulations, one each, with the value of the measurement in [h]. *)
Definition collected (h : heap Q) (n : nat) (logs : list (option log)) (m : str) : option (list Q) :=
  let s := read_logfiles h n logs in column (st_heap s) (l_data (st_log s)) m.
Lemma collected_values : forall (h : heap Q) n logs m (value : log -> Q), separate n (found logs) -> found logs <> [] ->
  (forall g, In (Some g) logs -> column h (l_data g) m = Some [value g]) -> collected h n logs m = Some (map value (found logs)).
Proof.
  intros h n logs m value SEP NE ALL. destruct (ColProps.C155_collected Q h n logs SEP) as (_ & B & _).
  assert (V : forall g, In g (found logs) -> column h (l_data g) m = Some [value g]).
  { intros g G. apply ALL. unfold found in G. apply in_flat_map in G. destruct G as ([g'|] & I & G); [|destruct G]. destruct G as [->|[]]. exact I. }
  unfold collected. cbv zeta. rewrite B.
  - f_equal. clear -V. unfold gather. induction (found logs) as [|g L IH]; [reflexivity|]. cbn [flat_map map]. rewrite (V g (or_introl eq_refl)). cbn [app]. f_equal. apply IH. intros x X. apply V. right. exact X.
  - destruct (found logs) as [|g L] eqn:EF; [contradiction|]. exists g. split; [left; reflexivity|]. pose proof (V g (or_introl eq_refl)) as VG. unfold column in VG. destruct (dget m (l_data g)) as [i|] eqn:D; [|discriminate VG]. apply ColProofs.dget_In' in D. apply in_map_iff. exists (m, i). split; [reflexivity|exact D].
Qed.
Theorem C258_extremes : forall (h : heap Q) n logs m (value : log -> Q), separate n (found logs) -> logs <> [] ->
  (forall l, In l logs -> exists g, l = Some g /\ column h (l_data g) m = Some [value g]) ->
  exists lo hi, get_min_max true (length logs) (collected h n logs m) = Some (Some (lo, hi)) /\
    (exists l, In (Some l) logs /\ value l = lo) /\ (exists l, In (Some l) logs /\ value l = hi) /\
    forall l, In (Some l) logs -> (lo <= value l <= hi)%Q.
Proof.
  intros h n logs m value SEP NE ALL.
  assert (FD : logs = map Some (found logs)).
  { clear -ALL. induction logs as [|x logs IH]; [reflexivity|]. destruct (ALL x (or_introl eq_refl)) as (g & -> & _). cbn [found flat_map map app]. f_equal. apply IH. intros l L. apply ALL. right. exact L. }
  assert (C : collected h n logs m = Some (map value (found logs))).
  { apply collected_values; [exact SEP|intros E; rewrite E in FD; rewrite FD in NE; contradiction|]. intros g G. destruct (ALL (Some g) G) as (g' & E & X). injection E as <-. exact X. }
  rewrite C. unfold get_min_max. rewrite map_length. assert (LE : length (found logs) = length logs) by (rewrite FD at 2; rewrite map_length; reflexivity). rewrite LE, Nat.eqb_refl.
  destruct (found logs) as [|g L]; [rewrite FD in NE; contradiction|]. cbn [map]. destruct (least_spec (map value L) (value g)) as (A1 & A2). destruct (greatest_spec (map value L) (value g)) as (B1 & B2).
  change (value g :: map value L) with (map value (g :: L)) in *. exists (least (value g) (map value L)), (greatest (value g) (map value L)). split; [reflexivity|].
  assert (IN : forall x, In x (map value (g :: L)) -> exists l, In (Some l) logs /\ value l = x) by (intros x X; apply in_map_iff in X; destruct X as (l & E & I); exists l; split; [rewrite FD; apply in_map; exact I|exact E]).
  split; [apply IN; exact A1|]. split; [apply IN; exact B1|]. intros l X. rewrite FD in X. apply in_map_iff in X. destruct X as (l' & E & I). injection E as ->. split; [apply A2|apply B2]; apply in_map; exact I.
Qed.
Print Assumptions C258_extremes.
Definition q_heap : heap Q := fun a => nth a [[3%Q]; [1%Q]; [2%Q]] [].
Definition q_log (i : nat) : log := Log [] [(s2l "vout", i)] 1.
Example C258_nonvacuous : separate 3 (found [Some (q_log 0); Some (q_log 1); Some (q_log 2)]) /\
  get_min_max true 3 (collected q_heap 3 [Some (q_log 0); Some (q_log 1); Some (q_log 2)] (s2l "vout")) = Some (Some (1%Q, 3%Q)).
Proof. split; [split; cbn; repeat constructor; cbn; intuition discriminate|vm_compute; reflexivity]. Qed.

(** C259: a failed simulation does not hide the extremes of the others.  It does. *)
Theorem C259_failed_refuted : forall (h : heap Q) n logs m (value : log -> Q), separate n (found logs) -> found logs <> [] ->
  (forall g, In (Some g) logs -> column h (l_data g) m = Some [value g]) -> In None logs ->
  collected h n logs m = Some (map value (found logs)) /\ get_min_max true (length logs) (collected h n logs m) = Some None.
Proof.
  intros h n logs m value SEP NE ALL F. assert (C := collected_values h n logs m value SEP NE ALL). split; [exact C|]. rewrite C. unfold get_min_max. rewrite map_length.
  assert (LE : length (found logs) < length logs).
  { clear -F. assert (G : forall l : list (option log), length (found l) <= length l) by (induction l as [|[x|] l IH]; cbn [found flat_map app length]; [lia| |]; unfold found in IH; lia).
    induction logs as [|x logs IH]; [destruct F|]. destruct F as [->|F]; [specialize (G logs); cbn [found flat_map app length]; unfold found in G; lia|]. specialize (IH F). destruct x; cbn [found flat_map app length]; unfold found in IH; lia. }
  assert (E : Nat.eqb (length (found logs)) (length logs) = false) by (apply Nat.eqb_neq; lia). rewrite E. reflexivity.
Qed.
Print Assumptions C259_failed_refuted.
Example C259_nonvacuous : get_min_max true 3 (collected q_heap 3 [Some (q_log 0); None; Some (q_log 2)] (s2l "vout")) = Some None.
Proof. vm_compute. reflexivity. Qed.
