(** Monte Carlo analyses: C150-C154. *)
From Coq Require Import String Ascii List Bool Arith ZArith QArith Qabs Lia Lqa.
From Verif Require Import PyStr EngModel EngSpec EngProofs TolModel TolSpec TolBatch TolCorner TolCollect TolBench McModel McSpec McG McRun McBench.
Import ListNotations.
Local Open Scope string_scope. Local Open Scope nat_scope. Local Open Scope list_scope.

(** ** The circuit of the examples *)
Definition mc_net : ed := Ed [("V1", VNum 10); ("R1", VNum 1000); ("R2", VNum 2000); ("XU1", VText "opamp")] [("gain", VNum 7)] [".op"].
Definition mc_ana : ana :=
  set_parameter_deviation "gain" 5 9 "uniform" (set_deviation "R2" 1900 2200 "uniform" (set_tolerance "R" (1 # 20) "normal" (new_analysis mc_net))).
Lemma mc_setup : setup mc_net mc_ana.
Proof. unfold mc_ana. apply S_parameter; [|left; reflexivity]. apply S_deviation; [|cbn; tauto|reflexivity]. apply S_tolerance; [|left; cbn; tauto]. apply S_new. Qed.

(** ** C150 The netlists of run_analysis *)

(** [a0] is the analysis as set up, [a] the same analysis, possibly after earlier runs; [n] the netlist with the recorded edits. *)
Theorem C150_random_netlists : forall e a0 a n uni gau num_runs,
  setup e a0 -> NoDup (map fst (comps e)) -> same_analysis a a0 -> play_all (instrs a0) e = Some n -> (forall i k r, (0 <= uni i k r <= 1)%Q) ->
  exists sims a', mc_run_analysis uni gau num_runs a = Some (sims, a') /\ length sims = num_runs /\
    (forall i s, nth_error sims i = Some s -> random_netlist a0 n (uni i) (gau i) s) /\ same_analysis a' a0.
Proof.
  intros e a0 a n uni gau num_runs HS ND SA PL HU. unfold mc_run_analysis.
  destruct (mc_runs_spec uni gau e a0 n (seq 0 num_runs) (Ana (orig a) (cur a) (instrs a) (added a) (defaults a) (devices a) (params a) [] (prepared a) (last_run a)) HU HS ND SA PL) as (sims & a' & E & S & F).
  exists sims, a'. split; [exact E|]. assert (L : length sims = num_runs). { clear -F. rewrite <- (seq_length num_runs 0). induction F; cbn; congruence. } split; [exact L|]. split; [|exact S].
  intros i s Hs. assert (LI : i < num_runs) by (rewrite <- L; apply nth_error_Some; congruence). clear -F Hs LI. 
  assert (G : forall t, Forall2 (fun i s => random_netlist a0 n (uni i) (gau i) s) t sims -> forall j x, nth_error sims j = Some x -> exists y, nth_error t j = Some y /\ random_netlist a0 n (uni y) (gau y) x).
  { clear. intros t F. induction F as [|y x t l H F IH]; intros [|j] z Z; try discriminate Z; cbn in Z; [injection Z as <-; exists y; split; [reflexivity|exact H]|apply IH; exact Z]. }
  destruct (G _ F i s Hs) as (y & Y & R). rewrite (nth_error_nth' (seq 0 num_runs) 0) in Y by (rewrite seq_length; exact LI). rewrite seq_nth in Y by exact LI. injection Y as <-. exact R.
Qed.
Print Assumptions C150_random_netlists.
Example C150_nonvacuous : exists sims a', mc_run_analysis (fun i _ _ => if Nat.eqb i 0 then 0 else (1 # 4))%Q (fun i _ _ => inject_Z (Z.of_nat i)) 2 mc_ana = Some (sims, a') /\
  map (fun s => map (fun r => match aget r (comps s) with Some (VNum q) => Qred q | _ => 0%Q end) ["R1"; "R2"]) sims = [[1000; 1900]; [101667 # 100; 1975]]%Q /\
  map (fun s => match aget "gain" (pars s) with Some (VNum q) => Qred q | _ => 0%Q end) sims = [5; 6]%Q.
Proof. eexists. eexists. split; [vm_compute; reflexivity|]. split; vm_compute; reflexivity. Qed.

(** ** C151 The text of a random number *)

(** Any number, as written, is read back with six significant digits, and is on the same side as the number of any limit that has no more
    than six significant digits. *)
Theorem C151_text_of_number : forall v : Q, exists r, parse_value (show_g v) = Some (r, []) /\ rounded r v /\
  (forall h, six_digits h -> ((v <= h)%Q -> (r <= h)%Q) /\ ((h <= v)%Q -> (h <= r)%Q)).
Proof.
  intros v. destruct (show_g_ok v) as (r & E & C & X & U & L). exists r. split; [exact E|]. split; [split; assumption|]. intros h S. split; [apply U; exact S|apply L; exact S].
Qed.
Print Assumptions C151_text_of_number.
Example C151_nonvacuous : show_g (1234567 # 1) = s2l "1.23457e+06" /\ show_g (- (1 # 3000)) = s2l "-0.000333333" /\ show_g (999999500 # 1000) = s2l "1e+06" /\ show_g (45 # 1000000) = s2l "4.5e-05".
Proof. vm_compute. auto. Qed.

(** ** C152 The test bench *)

Theorem C152_test_bench : forall e a sim N limit, setup e a -> NoDup (map fst (comps e)) -> instrs a = [] -> (sim = LTspice \/ sim = Qspice) -> (-1 <= N)%Z -> (1 <= limit)%Z ->
  (forall p, In p (map fst (params a)) -> p <> "run" /\ ((exists q, aget p (pars e) = Some (VNum q)) \/ exists s, aget p (pars e) = Some (VText s))) -> (forall lo hi, ~ In (step_dir lo hi) (dirs e)) ->
  exists a1 nets bs, mc_prepare sim (Some N) a = Some a1 /\ mc_testbench sim limit a1 = Some nets /\ flat_map batch_runs bs = all_runs N /\
    Forall2 (fun b s => mc_bench a e (match sim with LTspice => true | _ => false end) (fst b) (snd b) s) bs nets.
Proof.
  intros e a sim N limit H1 H2 H3 H4 H5 H6 H7 H8. destruct (mc_bench_runs e a sim N limit H1 H2 H3 H4 H5 H6) as (a1 & nets & bs & A & B & _ & C & D); [|exact H8|exists a1, nets, bs; auto].
  intros p P. destruct (H7 p P) as (X & [(q & Y)|(s & Y)]); (split; [exact X|eexists; split; [exact Y|exact I]]).
Qed.
Print Assumptions C152_test_bench.
Example C152_nonvacuous : exists a1 nets, mc_prepare LTspice (Some 10%Z) mc_ana = Some a1 /\ mc_testbench LTspice 8 a1 = Some nets /\ length nets = 2 /\
  map (fun s => map (fun r => aget r (comps s)) ["V1"; "R1"; "R2"]) (firstn 1 nets) = [[Some (VNum 10); Some (VText "{ntol(1k,0.05)}"); Some (VText "{urng(2k,2050,150)}")]] /\
  map (fun s => (aget "gain" (pars s), dirs s)) (firstn 1 nets) =
    [(Some (VText "{urng(7,7,2)}"), [".op"; lt_ntol; lt_urng; ".step param run -1 6 1"])] /\
  (exists d, comp_has mc_ana mc_net "R1" 1000 d /\ covered true d /\ short 1000 d).
Proof.
  eexists. eexists. split; [vm_compute; reflexivity|]. split; [vm_compute; reflexivity|]. do 3 (split; [vm_compute; reflexivity|]).
  exists (from_tolerance (1 # 20) "normal"). split; [split; [reflexivity|split; [discriminate|split; [reflexivity|right; split; reflexivity]]]|]. split; [split; [right; reflexivity|left; reflexivity]|].
  split; [exists 1%Z, 3%Z; split; reflexivity|]. split; [intros _; split; [exists 5%Z, (-2)%Z; split; reflexivity|split; vm_compute; discriminate]|discriminate].
Qed.

(** ** C153 Formulas that come out wrong *)

Definition count_in (c : ascii) (s : string) : nat := length (filter (Ascii.eqb c) (s2l s)).
(** A normal distribution between a minimum and a maximum for a component: the function is not defined; for a parameter the deviation
    is multiplied with the mean once more; the even distribution for Qspice lacks a parenthesis; a tolerance loses its zeros. *)
Theorem C153_formulas_refuted :
  (let a := set_deviation "R2" 1900 2200 "normal" (new_analysis mc_net) in setup mc_net a /\
     exists a1 s t, mc_prepare LTspice (Some 10%Z) a = Some a1 /\ mc_testbench LTspice 100 a1 = Some [s] /\ aget "R2" (comps s) = Some (VText t) /\ forall run w g x, ~ means (dirs s) run w g t x) /\
  (let a := set_parameter_deviation "gain" 5 9 "normal" (new_analysis mc_net) in setup mc_net a /\
     exists a1 s t, mc_prepare LTspice (Some 10%Z) a = Some a1 /\ mc_testbench LTspice 100 a1 = Some [s] /\ aget "gain" (pars s) = Some (VText t) /\
       means (dirs s) 0 0 1 t (7 * (1 + (666667 # 1000000) * 1)) /\ (deviated (from_min_max 5 9 "normal") 7 0 0 1 == 23 # 3)%Q) /\
  (let a := set_deviation "R2" 1900 2200 "uniform" (new_analysis mc_net) in setup mc_net a /\
     exists a1 s f, mc_prepare Qspice (Some 10%Z) a = Some a1 /\ mc_testbench Qspice 100 a1 = Some [s] /\ In f (dirs s) /\ count_in "("%char f = S (count_in ")"%char f)) /\
  (let a := set_tolerance "R2" 10 "uniform" (new_analysis mc_net) in setup mc_net a /\
     exists a1 s, mc_prepare LTspice (Some 10%Z) a = Some a1 /\ mc_testbench LTspice 100 a1 = Some [s] /\ aget "R2" (comps s) = Some (VText "{utol(2k,1)}")).
Proof.
  split; [|split; [|split]]; cbv zeta.
  - split; [apply S_deviation; [apply S_new|cbn; tauto|reflexivity]|]. eexists. eexists. exists "{nrng(2k,2050,50)}". split; [vm_compute; reflexivity|]. split; [vm_compute; reflexivity|]. split; [vm_compute; reflexivity|].
    intros run w g x M. cbn [dirs] in M. inversion M as [s n t q tol D F|s n t q tol D F|s n m f q mean df D F|s n m f q mean df D F]; subst; cbn in D; try (intuition discriminate).
  - split; [apply S_parameter; [apply S_new|left; reflexivity]|]. eexists. eexists. exists "{nrng(7,7,0.666667)}". split; [vm_compute; reflexivity|]. split; [vm_compute; reflexivity|]. split; [vm_compute; reflexivity|]. split; [|vm_compute; reflexivity].
    apply (M_nrng _ 0 0 1 "{nrng(7,7,0.666667)}" (s2l "7") (s2l "7") (s2l "0.666667") 7 7 (666667 # 1000000)).
    + right. left. reflexivity.
    + vm_compute. reflexivity.
    + eexists. split; vm_compute; reflexivity.
    + eexists. split; vm_compute; reflexivity.
    + eexists. split; vm_compute; reflexivity.
  - split; [apply S_deviation; [apply S_new|cbn; tauto|reflexivity]|]. eexists. eexists. eexists. split; [vm_compute; reflexivity|]. split; [vm_compute; reflexivity|]. split; [right; left; reflexivity|vm_compute; reflexivity].
  - split; [apply S_tolerance; [apply S_new|right; reflexivity]|]. eexists. eexists. split; [vm_compute; reflexivity|]. split; vm_compute; reflexivity.
Qed.
Print Assumptions C153_formulas_refuted.

(** ** C154 A test bench that was not prepared *)

Lemma mc_components_cur : forall rs a n a' n', mc_components rs (a, n) = Some (a', n') -> cur a' = cur a.
Proof.
  induction rs as [|r rs IH]; cbn [mc_components]; intros a n a' n' H; [congruence|]. destruct (mc_component r (a, n)) as [[a1 n1]|] eqn:E; [|discriminate H]. rewrite (IH _ _ _ _ H). clear IH H.
  unfold mc_component in E. destruct (value_and_dev a r) as [[v d]|]; [|discriminate E]. destruct (dtyp d); [| |congruence]; (destruct (value_text v); [|discriminate E]);
    (destruct (String.eqb (ddist d) "uniform"); [|destruct (String.eqb (ddist d) "normal")]); injection E as <- <-; reflexivity.
Qed.
Lemma mc_parameters_comps : forall ps a n a' n', mc_parameters ps (a, n) = Some (a', n') -> comps (cur a') = comps (cur a).
Proof.
  induction ps as [|p ps IH]; cbn [mc_parameters]; intros a n a' n' H; [congruence|]. destruct (mc_parameter p (a, n)) as [[a1 n1]|] eqn:E; [|discriminate H]. rewrite (IH _ _ _ _ H). clear IH H.
  unfold mc_parameter in E. destruct (par_value_and_dev a p) as [[v d]|]; [|discriminate E]. destruct (dtyp d); [| |congruence]; (destruct (value_text v); [|discriminate E]);
    (destruct (String.eqb (ddist d) "uniform"); [|destruct (String.eqb (ddist d) "normal")]); injection E as <- <-; reflexivity.
Qed.
Lemma run_batches_comps' : forall bs x s, In s (run_batches bs x) -> comps s = comps x.
Proof. induction bs as [|[lo hi] bs IH]; cbn; intros x s H; [destruct H|]. destruct H as [<-|H]; [reflexivity|]. apply IH in H. exact H. Qed.
Lemma add_dirs_comps : forall fs e, comps (fold_left (fun e f => add_dir f e) fs e) = comps e.
Proof. intros. rewrite add_dirs. reflexivity. Qed.
Theorem C154_unprepared_refuted : forall e a n sim limit nets, setup e a -> play_all (instrs a) e = Some n ->
  mc_testbench sim limit a = Some nets -> forall s, In s nets -> comps s = comps n.
Proof.
  intros e a n sim limit nets S HP H s Hs. pose proof (setup_ok e a S) as O. unfold mc_testbench in H. rewrite (o_prep _ _ O) in H. unfold play, reset_netlist_ in H. cbn [added instrs cur] in H. rewrite (o_orig _ _ O), HP in H.
  cbn [orig defaults devices params elements prepared last_run andb] in H. rewrite (o_prep _ _ O) in H.
  unfold mc_prepare in H. cbv zeta in H. destruct (mc_components _ _) as [[a1 n1]|] eqn:E1; [|discriminate H]. cbn [fst] in H. destruct (mc_parameters _ _) as [[a2 n2]|] eqn:E2; [|discriminate H].
  destruct (functions sim n2) as [fs|]; [|discriminate H]. cbn [last_run cur] in H. destruct (batches _ _) as [bs|]; [|discriminate H]. injection H as <-. apply run_batches_comps' in Hs. rewrite Hs.
  cbn [rem_dir set_par add_dir comps]. rewrite add_dirs_comps. rewrite (mc_parameters_comps _ _ _ _ _ E2), (mc_components_cur _ _ _ _ _ E1). reflexivity.
Qed.
Print Assumptions C154_unprepared_refuted.
Example C154_nonvacuous : exists nets, mc_testbench LTspice 2000 mc_ana = Some nets /\ map (fun s => aget "R1" (comps s)) nets = [Some (VNum 1000)].
Proof. eexists. split; vm_compute; reflexivity. Qed.
