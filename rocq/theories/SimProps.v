(** Properties C144-C149: switches, command lines and files of the simulators. *)
From Coq Require Import String Ascii List Bool Arith ZArith Lia.
From Verif Require Import PyStr StepsModel StepsProofs EngProofs QTagModel RunnerModel RunnerSpec RunnerProofs SimModel SimSpec.
From Verif Require Import QEdProofs2 QEdProofs3 QEdProofs4 AscProofs9.
From Verif Require Import QTagModel RunnerModel RunnerSpec RunnerProofs EngProofs SimModel SimSpec.
Import ListNotations.
Local Open Scope string_scope. Local Open Scope nat_scope. Local Open Scope list_scope.


Lemma lstrip_app : forall f a s, Forall (fun c => f c = true) a -> lstrip_if f (a ++ s) = lstrip_if f s.
Proof. intros f a s H. induction H as [|c a C H IH]; [reflexivity|]. cbn [app lstrip_if]. rewrite C. exact IH. Qed.
Lemma strip_around : forall a s b, Forall (fun c => is_space c = true) a -> Forall (fun c => is_space c = true) b -> strip (a ++ s ++ b) = strip s.
Proof.
  intros a s b A B. unfold strip, strip_if. rewrite lstrip_app by exact A. induction s as [|c s IH].
  - cbn [app]. rewrite <- (app_nil_r b) at 1. rewrite lstrip_app by exact B. reflexivity.
  - cbn [app lstrip_if]. destruct (is_space c); [exact IH|]. unfold rstrip_if. rewrite app_comm_cons, rev_app_distr. rewrite lstrip_app by (apply Forall_rev; exact B). reflexivity.
Qed.
Lemma strip_dash : forall s, strip s <> [] -> strip ("-"%char :: strip s) = "-"%char :: strip s.
Proof.
  intros s N. apply strip_id; [reflexivity|]. cbn [rev]. unfold strip, strip_if, rstrip_if in N |- *. rewrite rev_involutive. set (u := lstrip_if is_space s) in *.
  assert (LS : stops is_space (lstrip_if is_space (rev u))). { clear. induction (rev u) as [|c t IH]; [exact I|]. cbn [lstrip_if]. destruct (is_space c) eqn:E; [exact IH|exact E]. }
  destruct (lstrip_if is_space (rev u)); [contradiction N; reflexivity|exact LS].
Qed.
(** C144.  Every documented switch, with a parameter that suits it, gives the words the simulator wants; *)
Theorem C144_documented : forall m w out k p, In (w, out, k) (documented m) -> suits k p -> valid_switch m false (Some (s2l w)) p = Some (written m out k p).
Proof.
  intros m w out k p H S. destruct m; cbn [documented In] in H.
  all: repeat match type of H with _ \/ _ => destruct H as [H|H] | False => contradiction end; injection H as <- <- <-; cbn [suits] in S; cbn [written given].
  all: try (vm_compute; reflexivity).
  all: try (match goal with |- valid_switch _ _ _ ?p = Some [s2l ?w; strip _] => transitivity (Some (fill NGspice (s2l w) [s2l w; s2l "var_value"] p)); [reflexivity|] end;
    destruct S as [S1 S2]; unfold fill; rewrite S2, andb_false_r; change (is_ (s2l "var_value") "<FILE>") with false; change (is_ (s2l "var_value") "<TERM>") with false; change (is_ (s2l "var_value") "var_value") with true;
    cbn [orb andb]; rewrite (proj2 (mem_c_In "=" (strip p))) by exact S1; reflexivity).
  all: try (match goal with |- valid_switch _ _ _ ?p = Some [s2l ?w; _] => transitivity (Some (fill Xyce (s2l w) [s2l w; s2l "<int_option>"] p)); [reflexivity|] end;
    cbn [fill]; change (is_ (s2l "<int_option>") "<int_option>") with true; cbn iota; destruct (py_int p); [reflexivity|contradiction]).
  all: cbn [map In] in S; repeat match type of S with _ \/ _ => destruct S as [S|S] | False => contradiction end; try (rewrite <- S; reflexivity).
  - change (Some [s2l "-I" ++ p ++ []] = Some [s2l "-I" ++ p]). rewrite app_nil_r. reflexivity.
  - change (Some [s2l "-ProtectSelections"; p ++ []] = Some [s2l "-ProtectSelections"; p]). rewrite app_nil_r. reflexivity.
  - change (Some [s2l "-ProtectSubcircuits"; p ++ []] = Some [s2l "-ProtectSubcircuits"; p]). rewrite app_nil_r. reflexivity.
  - change (Some [s2l "-r"; p ++ []] = Some [s2l "-r"; p]). rewrite app_nil_r. reflexivity.
Qed.
Print Assumptions C144_documented.
(** blanks around a switch and a missing dash make no difference; *)
Theorem C144_spelling : forall m n p s,
  (forall a b, Forall (fun c => is_space c = true) a -> Forall (fun c => is_space c = true) b -> valid_switch m n (Some (a ++ s ++ b)) p = valid_switch m n (Some s) p) /\
  (forall c r, strip s = c :: r -> c <> "-"%char -> valid_switch m n (Some ("-"%char :: strip s)) p = valid_switch m n (Some s) p).
Proof.
  intros m n p s. split.
  - intros a b A B. unfold valid_switch. rewrite strip_around by assumption. reflexivity.
  - intros c r E N. unfold valid_switch. rewrite strip_dash by (rewrite E; discriminate). rewrite E. cbn [aeqb]. change (aeqb "-" DASH) with true. cbn iota. destruct (aeqb c DASH) eqn:K; [apply aeqb_eq in K; contradiction|]. reflexivity.
Qed.
Print Assumptions C144_spelling.
(** what is returned is a switch, with its parameter as it was given, and never one the library sets itself. *)
Theorem C144_words : forall m n s p l, valid_switch m n s p = Some l -> l <> [] ->
  exists w, ~ In w (taken m) /\ (l = [w] \/ l = [w; given m p]) /\ startswith [DASH] w = true.
Proof.
  intros m n s p l H NE. unfold valid_switch in H. destruct (match m with LTspice => n | _ => false end); [discriminate H|]. destruct s as [s|]; [|injection H as <-; contradiction].
  destruct (strip s) as [|c r]; [injection H as <-; contradiction|]. set (w := if aeqb c DASH then c :: r else DASH :: c :: r) in *. clearbody w.
  destruct (mem_s w (own m)) eqn:MO; [injection H as <-; contradiction|]. destruct (dget w (table m)) as [l0|] eqn:ED; [|discriminate H]. injection H as H. apply dget_In in ED.
  assert (RP : replace (s2l "<path>") p (s2l "<path>") = p) by (change (p ++ [] = p); apply app_nil_r).
  assert (RI : replace (s2l "<path>") p (s2l "-I<path>") = s2l "-I" ++ p) by (change (s2l "-I" ++ p ++ [] = s2l "-I" ++ p); rewrite app_nil_r; reflexivity).
  destruct m; cbv [table words_of] in ED; cbn [map fst snd In] in ED.
  all: repeat match type of ED with _ \/ _ => destruct ED as [ED|ED] | False => contradiction end; injection ED as <- <-; try discriminate MO; clear MO.
  all: unfold fill in H; cbn [map] in H; rewrite ?RP, ?RI in H.
  all: repeat match type of H with context [if ?b then _ else _] => destruct b end; try (subst l; contradiction NE; reflexivity).
  all: subst l; match goal with |- exists w, _ /\ (?a :: _ = _ \/ _) /\ _ => exists a end.
  all: split; [cbn [taken map In]; intros K; repeat match type of K with _ \/ _ => destruct K as [K|K] | False => contradiction end; try discriminate K; injection K; intros; discriminate|split; [cbn [given]; auto|reflexivity]].
Qed.
Print Assumptions C144_words.
(** Any other name raises ValueError, as every name does with the LTspice of macOS. *)
Definition names (m : sim) : list str :=
  map s2l match m with
  | LTspice => ["-alt"; "-ascii"; "-big"; "-encrypt"; "-fastaccess"; "-FixUpSchematicFonts"; "-FixUpSymbolFonts"; "-ini"; "-I"; "-max"; "-netlist"; "-norm"; "-PCBnetlist"; "-SOI"; "-sync"; "-Run"; "-b"]
  | NGspice => ["-c"; "--circuitfile"; "-D"; "--define"; "-i"; "--interactive"; "-n"; "--no-spiceinit"; "-q"; "--completion"; "--soa-log"; "-s"; "--server"; "-t"; "--term"; "-b"; "-o"; "-r"; "-a"]
  | Qspice => ["-ASCII"; "-ascii"; "-binary"; "-BSIM1"; "-Meyer"; "-o"; "-ProtectSelections"; "-ProtectSubcircuits"; "-r"]
  | Xyce => ["-capabilities"; "-license"; "-param"; "-doc"; "-doc_cat"; "-count"; "-syntax"; "-norun"; "-namesfile"; "-noise_names_file"; "-quiet"; "-jacobian_test"; "-hspice-ext"; "-redefined_params";
      "-subckt_multiplier"; "-delim"; "-o"; "-per-processor"; "-remeasure"; "-nox"; "-linsolv"; "-maxord"; "-max-warnings"; "-prf"; "-rsf"; "-a"; "-randseed"; "-plugin"; "-l"; "-r"]
  end.
Theorem C144_unknown : forall m s p, (forall o, valid_switch LTspice true o p = None) /\
  (valid_switch m false (Some ("-"%char :: s)) p = None <-> ~ In ("-"%char :: rstrip s) (names m)).
Proof.
  intros m s p. split; [reflexivity|]. unfold valid_switch. cbn [andb]. assert (ES : strip ("-"%char :: s) = "-"%char :: rstrip s).
  { unfold strip, strip_if. change (lstrip_if is_space ("-"%char :: s)) with ("-"%char :: s). unfold rstrip, rstrip_if. cbn [rev]. destruct (lstrip_all is_space (rev s)) as (q & E & Q). rewrite E at 1. rewrite <- app_assoc. rewrite lstrip_app by (apply Forall_forall; exact Q).
    assert (LS : stops is_space (lstrip_if is_space (rev s))). { clear. induction (rev s) as [|c t IH]; [exact I|]. cbn [lstrip_if]. destruct (is_space c) eqn:E; [exact IH|exact E]. }
    destruct (lstrip_if is_space (rev s)) as [|c t]; [reflexivity|]. cbn [app lstrip_if]. rewrite LS. cbn [rev]. rewrite rev_app_distr. reflexivity. }
  replace (match m with LTspice => false | _ => false end) with false by (destruct m; reflexivity). rewrite ES. change (aeqb "-" DASH) with true. cbn iota. set (w := "-"%char :: rstrip s). clearbody w. clear ES.
  assert (EN : forall x, In x (names m) <-> In x (own m) \/ In x (map fst (table m))) by (intros x; destruct m; cbv [names own table words_of]; cbn [map fst In]; tauto).
  rewrite EN. unfold mem_s. destruct (existsb (str_eqb w) (own m)) eqn:MO.
  - split; [discriminate|]. intros K. contradiction K. left. apply existsb_exists in MO. destruct MO as (x & X & E). apply str_eqb_eq in E. subst. exact X.
  - assert (NO : ~ In w (own m)). { intros K. assert (existsb (str_eqb w) (own m) = true) by (apply existsb_exists; exists w; split; [exact K|apply str_eqb_eq; reflexivity]). congruence. }
    destruct (dget w (table m)) as [l|] eqn:ED; [split; [discriminate|]; intros K; contradiction K; right; apply (in_map fst _ _ (dget_In _ _ _ _ ED))|]. split; [|reflexivity]. intros _ [K|K]; [contradiction|]. apply dget_none_in in ED. contradiction.
Qed.
Print Assumptions C144_unknown.
Example C144_nonvacuous : valid_switch LTspice false (Some (s2l " I ")) (s2l "/lib") = Some [s2l "-I/lib"] /\ valid_switch NGspice false (Some (s2l "-D")) (s2l " a=1 ") = Some [s2l "-D"; s2l "a=1"]
  /\ valid_switch Xyce false (Some (s2l "maxord")) (s2l "3") = Some [s2l "-maxord"; s2l "3"] /\ valid_switch Qspice false (Some (s2l "-o")) [] = Some [] /\ valid_switch Qspice false (Some (s2l "-x")) [] = None.
Proof. repeat split; reflexivity. Qed.

(** C145, refuted: every documented switch can be given.  Two of LTspice and one of Xyce are refused whatever the parameter, two of Xyce
    are dropped, LTspice gets "- ini" instead of "-ini", and ngspice cannot be given ngbehavior even without a compatibility mode. *)
Theorem C145_documented_refuted : forall p,
  valid_switch LTspice false (Some (s2l "-normal")) p = None /\ valid_switch LTspice false (Some (s2l "-PCBnetlistBatch")) p = None /\
  valid_switch Xyce false (Some (s2l "-local_variation")) p = None /\ valid_switch Xyce false (Some (s2l "-nox")) p = Some [] /\ valid_switch Xyce false (Some (s2l "-linsolv")) p = Some [] /\ valid_switch Xyce false (Some (s2l "-o")) p = Some [] /\
  valid_switch LTspice false (Some (s2l "-ini")) p = Some [s2l "- ini"; p] /\ valid_switch NGspice false (Some (s2l "-D")) (s2l "ngbehavior=ps") = Some [].
Proof.
  intros p. do 6 (split; [reflexivity|]). split; [|reflexivity]. change (Some [s2l "- ini"; p ++ []] = Some [s2l "- ini"; p]). rewrite app_nil_r. reflexivity.
Qed.
Print Assumptions C145_documented_refuted.

(** C146.  The command of a run begins with the executable, has the switches of the user together and in their order, and names the
    netlist; *)
Theorem C146_command : forall m pf mode absolute exe f sw l, command m pf mode absolute exe f sw = Some l ->
  exists a b, l = exe ++ a ++ sw ++ b /\ In (match m, pf with LTspice, Wine => s2l "Z:" | _, _ => [] end ++ posix (match m with Qspice => absolute f | _ => f end)) (a ++ b) /\
              (m = LTspice \/ m = Qspice -> b = []) /\ (m = NGspice \/ m = Xyce -> a = []).
Proof.
  intros m pf mode absolute exe f sw l H. destruct m; cbn [command] in H.
  - destruct pf; [injection H as <-; exists [s2l "-Run"; s2l "-b"; s2l "Z:" ++ posix f], []|destruct (endswith _ _); [discriminate H|]; injection H as <-; exists [s2l "-b"; posix f], []|injection H as <-; exists [s2l "-Run"; s2l "-b"; posix f], []].
    all: rewrite app_nil_r; split; [reflexivity|]; split; [cbn; tauto|]; split; [reflexivity|intros [K|K]; discriminate K].
  - injection H as <-. eexists [], _. split; [reflexivity|]. split; [cbn [app]; apply in_or_app; right; cbn; tauto|]. split; [intros [K|K]; discriminate K|reflexivity].
  - injection H as <-. exists [s2l "-o"; posix (with_suffix (absolute f) (s2l ".log")); posix (absolute f)], []. rewrite app_nil_r. split; [reflexivity|]. split; [cbn; tauto|]. split; [reflexivity|intros [K|K]; discriminate K].
  - injection H as <-. eexists [], _. split; [reflexivity|]. split; [cbn; tauto|]. split; [intros [K|K]; discriminate K|reflexivity].
Qed.
Print Assumptions C146_command.
Lemma split_name : forall stem ext, name_of stem ext -> split_suffix (stem ++ ext) = (stem, ext).
Proof.
  intros stem ext (N & E & D). unfold split_suffix. destruct E as [->|(r & -> & R & ND)].
  - rewrite app_nil_r. assert (~ In dot stem) by (apply D; reflexivity). destruct (split_at_last dot stem) as [[a b]|] eqn:S; [|reflexivity].
    exfalso. unfold split_at_last in S. destruct (split_at_first dot (rev stem)) as [[x y]|] eqn:S1; [|discriminate S]. apply H. apply in_rev. clear - S1. revert x y S1. induction (rev stem) as [|c t IH]; intros x y S1; [discriminate S1|]. cbn in S1. destruct (aeqb dot c) eqn:E; [apply aeqb_eq in E; left; congruence|].
    destruct (aeqb c dot) eqn:E2; [apply aeqb_eq in E2; left; congruence|]. destruct (split_at_first dot t) as [[x1 y1]|]; [|discriminate S1]. right. eapply IH. reflexivity.
  - change (stem ++ "."%char :: r) with (stem ++ dot :: r). rewrite (split_at_last_app dot stem r ND). destruct stem; [contradiction N; reflexivity|]. destruct r; [contradiction R; reflexivity|]. reflexivity.
Qed.
(** the log file and the raw file it names are those the library looks for, which are beside the netlist and have its stem. *)
Theorem C146_files : forall m pf mode absolute exe d stem ext sw l, name_of stem ext -> (m = Qspice -> absolute (Path d (stem ++ ext)) = Path d (stem ++ ext)) ->
  command m pf mode absolute exe (Path d (stem ++ ext)) sw = Some l ->
  posix (log_of (Path d (stem ++ ext))) = d ++ stem ++ s2l ".log" /\
  posix (raw_of m (Path d (stem ++ ext))) = d ++ stem ++ match m with Qspice => s2l ".qraw" | _ => s2l ".raw" end /\
  (m = NGspice \/ m = Qspice -> follows (s2l "-o") (posix (log_of (Path d (stem ++ ext)))) l) /\
  (m = Xyce -> follows (s2l "-l") (posix (log_of (Path d (stem ++ ext)))) l) /\
  (m = NGspice \/ m = Xyce -> follows (s2l "-r") (posix (raw_of m (Path d (stem ++ ext)))) l).
Proof.
  intros m pf mode absolute exe d stem ext sw l N AB H. unfold log_of, raw_of, posix, with_suffix. cbn [folder name]. rewrite (split_name _ _ N). cbn [fst]. split; [reflexivity|]. split; [destruct m; reflexivity|].
  assert (ES : forall e, posix (with_suffix (Path d (stem ++ ext)) e) = d ++ stem ++ e) by (intros e; unfold posix, with_suffix; cbn [folder name]; rewrite (split_name _ _ N); reflexivity).
  destruct m; cbn [command] in H.
  - split; [intros [K|K]; discriminate K|]. split; [intros K; discriminate K|intros [K|K]; discriminate K].
  - injection H as <-. rewrite !ES. split; [|split; [intros K; discriminate K|]]; intros _.
    + exists (exe ++ sw ++ compat mode ++ [s2l "-b"]). eexists. rewrite <- !app_assoc. reflexivity.
    + exists (exe ++ sw ++ compat mode ++ [s2l "-b"; s2l "-o"; d ++ stem ++ s2l ".log"]). eexists. rewrite <- !app_assoc. reflexivity.
  - rewrite (AB eq_refl) in H. injection H as <-. rewrite !ES. split; [|split; [intros K; discriminate K|intros [K|K]; discriminate K]]. intros _. exists exe. eexists. reflexivity.
  - injection H as <-. rewrite !ES. split; [intros [K|K]; discriminate K|]. split; intros _.
    + exists (exe ++ sw). eexists. rewrite <- !app_assoc. reflexivity.
    + exists (exe ++ sw ++ [s2l "-l"; d ++ stem ++ s2l ".log"]). eexists. rewrite <- !app_assoc. reflexivity.
Qed.
Print Assumptions C146_files.
Example C146_nonvacuous : name_of (s2l "a.b_1") (s2l ".net") /\
  command NGspice Wine (Some (s2l "ps")) (fun f => f) [s2l "ngspice"] (Path (s2l "/tmp/") (s2l "a.b_1.net")) [s2l "-n"] =
    Some (map s2l ["ngspice"; "-n"; "-D"; "ngbehavior=ps"; "-b"; "-o"; "/tmp/a.b_1.log"; "-r"; "/tmp/a.b_1.raw"; "/tmp/a.b_1.net"]).
Proof.
  split; [|reflexivity]. split; [discriminate|]. split; [|discriminate]. right. exists (s2l "net"). split; [reflexivity|]. split; [discriminate|]. apply mem_c_not_In. reflexivity.
Qed.

(** C147.  Runs that are named by the runner have log files, raw files and console logs of their own: *)
Lemma auto_name : forall n stem ext, name_of stem ext -> exists e, run_file_name n (stem ++ ext) = (stem ++ under :: dec n) ++ e /\ name_of (stem ++ under :: dec n) e.
Proof.
  intros n stem ext N. unfold run_file_name. rewrite (split_name _ _ N). destruct N as (N1 & N2 & N3). eexists. rewrite app_comm_cons, app_assoc. split; [reflexivity|].
  split; [destruct stem; discriminate|]. destruct (str_eqb ext (s2l ".qsch")) eqn:E.
  - split; [|discriminate]. right. exists (s2l "net"). split; [reflexivity|]. split; [discriminate|]. apply mem_c_not_In. reflexivity.
  - split; [exact N2|]. intros K. specialize (N3 K). intros X. apply in_app_or in X. destruct X as [X|[X|X]]; [contradiction|discriminate X|]. exact (dec_no_char "."%char n eq_refl X).
Qed.
Theorem C147_own_files : forall conds wait p ls s os i j n1 st1 ex1 f1 n2 st2 ex2 f2 d suffix,
  runs_to conds wait p ls s os -> i <> j ->
  nth_error (assigned os) i = Some (n1, false, st1 ++ ex1, f1) -> nth_error (assigned os) j = Some (n2, false, st2 ++ ex2, f2) ->
  name_of st1 ex1 -> name_of st2 ex2 ->
  posix (with_suffix (Path d f1) suffix) <> posix (with_suffix (Path d f2) suffix).
Proof.
  intros conds wait p ls s os i j n1 st1 ex1 f1 n2 st2 ex2 f2 d suffix H Hij H1 H2 N1 N2 E.
  pose proof (exec_names _ _ _ _ _ _ H) as HN. rewrite Forall_forall in HN.
  pose proof (HN _ (nth_error_In _ _ H1) eq_refl) as E1. pose proof (HN _ (nth_error_In _ _ H2) eq_refl) as E2. cbn beta iota in E1, E2.
  destruct (auto_name n1 _ _ N1) as (e1 & A1 & B1). destruct (auto_name n2 _ _ N2) as (e2 & A2 & B2). rewrite A1 in E1. rewrite A2 in E2. subst f1 f2.
  unfold posix, with_suffix in E. cbn [folder name] in E. rewrite (split_name _ _ B1), (split_name _ _ B2) in E. cbn [fst] in E. apply app_inv_head in E. apply app_inv_tail in E.
  pose proof (split_at_last_app under st1 (dec n1) (dec_no_char under n1 eq_refl)) as S1. pose proof (split_at_last_app under st2 (dec n2) (dec_no_char under n2 eq_refl)) as S2.
  rewrite E in S1. rewrite S1 in S2. injection S2 as _ S2. apply dec_inj in S2.
  pose proof (numbers_increase _ _ _ _ _ _ H) as HS.
  assert (nth_error (assigned_numbers os) i = Some n1) as G1 by (rewrite <- assigned_fst; rewrite (map_nth_error _ _ _ H1); reflexivity).
  assert (nth_error (assigned_numbers os) j = Some n2) as G2 by (rewrite <- assigned_fst; rewrite (map_nth_error _ _ _ H2); reflexivity).
  destruct (Nat.lt_gt_cases i j) as [G _]. destruct (G Hij) as [L|L]; [pose proof (sorted_nth _ _ _ _ _ HS L G1 G2); lia|pose proof (sorted_nth _ _ _ _ _ HS L G2 G1); lia].
Qed.
Print Assumptions C147_own_files.
Example C147_nonvacuous : exists s os,
  runs_to CNone true 4 [LRun (Request (s2l "a.net") None true []); LPoll; LRun (Request (s2l "a.cir") None true []); LPoll] s os /\
  map (fun x => l2s (posix (log_of (Path [] (snd x))))) (assigned os) = ["a_1.log"; "a_2.log"].
Proof. eexists. eexists. split; [vm_compute; reflexivity|]. vm_compute. reflexivity. Qed.

(** C148.  The switches of a run are those given to it, or else all that were added to the runner since they were last cleared. *)
Theorem C148_switches : forall h given, run_switches h given = match given with Some (x :: l) => x :: l | _ => since_clear h end.
Proof.
  intros h given. assert (E : runner_switches h = since_clear h).
  { unfold runner_switches. assert (A : forall h acc, fold_left step_switches h acc = if existsb (fun c => match c with Clear => true | _ => false end) h then since_clear h else acc ++ since_clear h).
    { clear. induction h as [|[s p|] h IH]; intros acc; cbn [fold_left existsb since_clear orb step_switches].
      - rewrite app_nil_r. reflexivity.
      - rewrite IH. destruct (existsb _ h); [reflexivity|]. rewrite <- app_assoc. cbn [app]. reflexivity.
      - rewrite IH. destruct (existsb _ h); reflexivity. }
    rewrite A. destruct (existsb _ h); reflexivity. }
  unfold run_switches. rewrite E. reflexivity.
Qed.
Print Assumptions C148_switches.
Example C148_nonvacuous : run_switches [Add (s2l "-x") None; Clear; Add (s2l "-I") (Some (s2l "/lib")); Add (s2l "-alt") None] None = [s2l "-I"; s2l "/lib"; s2l "-alt"].
Proof. reflexivity. Qed.
(** C149, refuted: a switch without parameter adds one word, and a run can be given no switches.  The default parameter is an empty text,
    which becomes an empty argument; and an empty list is taken as none. *)
Theorem C149_empty_refuted : forall s h, run_switches [Add s (Some [])] None = [s; []] /\ run_switches h (Some []) = run_switches h None.
Proof. intros s h. split; reflexivity. Qed.
Print Assumptions C149_empty_refuted.
