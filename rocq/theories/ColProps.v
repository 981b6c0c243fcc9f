(** Collected logs and their export: C155-C160. *)
From Coq Require Import String Ascii List Bool Arith Lia.
From Verif Require Import PyStr StepsModel StepsProofs ColModel ColSpec ColProofs ColExport.
Import ListNotations.
Local Open Scope string_scope. Local Open Scope nat_scope. Local Open Scope list_scope.

(** ** C155 Every value of every log, in the order of the simulations *)

Theorem C155_collected : forall (V : Type) (h : heap V) n logs, separate n (found logs) ->
  let s := read_logfiles h n logs in
  (forall p, (exists l, In l (found logs) /\ In p (map fst (l_steps l))) -> column (st_heap s) (l_steps (st_log s)) p = Some (gather h l_steps (found logs) p)) /\
  (forall m, (exists l, In l (found logs) /\ In m (map fst (l_data l))) -> column (st_heap s) (l_data (st_log s)) m = Some (gather h l_data (found logs) m)) /\
  (forall p, (forall l, In l (found logs) -> ~ In p (map fst (l_steps l))) -> column (st_heap s) (l_steps (st_log s)) p = None) /\
  (forall m, (forall l, In l (found logs) -> ~ In m (map fst (l_data l))) -> column (st_heap s) (l_data (st_log s)) m = None) /\
  l_count (st_log s) = list_sum (map l_count (found logs)).
Proof.
  intros V h n logs SEP. cbv zeta. destruct (collect_spec h n logs SEP) as (A & B & C).
  assert (IN : forall W (k : str) (d : list (str * W)), In k (map fst d) <-> match dget k d with Some _ => true | None => false end = true).
  { intros W k d. unfold dget. induction d as [|[x v] d IH]; cbn; [intuition discriminate|]. destruct (str_eqb x k) eqn:E; [apply str_eqb_eq in E; intuition|]. rewrite <- IH. split; [|tauto]. intros [->|X]; [rewrite str_eqb_refl in E; discriminate E|exact X]. }
  assert (EX : forall (cols : log -> list (str * nat)) p, (exists l : log, In l (found logs) /\ In p (map fst (cols l))) <-> existsb (fun l => match dget p (cols l) with Some _ => true | None => false end) (found logs) = true).
  { intros cols p. rewrite existsb_exists. split; intros (l & L & X); exists l; (split; [exact L|]); apply IN; exact X. }
  split; [intros p P; rewrite A; apply EX in P; rewrite P; reflexivity|]. split; [intros p P; rewrite B; apply EX in P; rewrite P; reflexivity|].
  split; [|split; [|exact C]]; intros p P; rewrite ?A, ?B; match goal with |- (if ?b then _ else _) = _ => destruct b eqn:E; [|reflexivity] end; apply EX in E; destruct E as (l & L & X); destruct (P l L X).
Qed.
Print Assumptions C155_collected.
Definition ex_heap : heap nat := fun a => nth a [[1; 2]; [10; 20]; [3]; [30]] [].
Definition ex_logs : list (option log) := [Some (Log [(s2l "run", 0)] [(s2l "vout", 1)] 2); None; Some (Log [(s2l "run", 2)] [(s2l "vout", 3)] 1)].
Example C155_nonvacuous : separate 4 (found ex_logs) /\ let s := read_logfiles ex_heap 4 ex_logs in
  column (st_heap s) (l_data (st_log s)) (s2l "vout") = Some [10; 20; 30] /\ column (st_heap s) (l_steps (st_log s)) (s2l "run") = Some [1; 2; 3] /\ l_count (st_log s) = 3.
Proof. split; [split; [cbn; repeat constructor; cbn; intuition discriminate|cbn; repeat constructor; cbn; intuition discriminate]|vm_compute; auto]. Qed.

(** ** C156 Rows *)

(** If all logs have the same names and one value of each per run, each row of the collection is a row of one of the logs. *)
Theorem C156_rows : forall (V : Type) (h : heap V) n logs ps ms, separate n (found logs) -> found logs <> [] -> same_shape h ps ms (found logs) ->
  let s := read_logfiles h n logs in
  forall i x y c, (In x ps /\ column (st_heap s) (l_steps (st_log s)) x = Some c \/ In x ms /\ column (st_heap s) (l_data (st_log s)) x = Some c) -> nth_error c i = Some y ->
  exists l j, In l (found logs) /\
    (forall p, In p ps -> exists col own, column (st_heap s) (l_steps (st_log s)) p = Some col /\ column h (l_steps l) p = Some own /\ nth_error col i = nth_error own j) /\
    (forall m, In m ms -> exists col own, column (st_heap s) (l_data (st_log s)) m = Some col /\ column h (l_data l) m = Some own /\ nth_error col i = nth_error own j).
Proof.
  intros V h n logs ps ms SEP NE SH. cbv zeta. intros i x y c HX HY. destruct (C155_collected V h n logs SEP) as (A & B & _).
  destruct (found logs) as [|l0 r] eqn:EF; [congruence|]. rewrite <- EF in *.
  assert (S0 : exists k, (forall p, In p ps -> exists c, column h (l_steps l0) p = Some c /\ length c = k) /\ (forall m, In m ms -> exists c, column h (l_data l0) m = Some c /\ length c = k)).
  { unfold same_shape in SH. rewrite Forall_forall in SH. apply SH. rewrite EF. left. reflexivity. }
  destruct S0 as (k & SP & SM).
  assert (KEY : forall (d : list (str * nat)) p c0, column h d p = Some c0 -> In p (map fst d)).
  { intros d p c0 H. unfold column in H. destruct (dget p d) as [a|] eqn:E; [|discriminate H]. apply in_map_iff. exists (p, a). split; [reflexivity|apply dget_In'; exact E]. }
  assert (L0 : In l0 (found logs)) by (rewrite EF; left; reflexivity).
  assert (AP : forall p, In p ps -> column (st_heap (read_logfiles h n logs)) (l_steps (st_log (read_logfiles h n logs))) p = Some (gather h l_steps (found logs) p)).
  { intros p P. apply A. exists l0. split; [exact L0|]. destruct (SP p P) as (c0 & E & _). exact (KEY _ _ _ E). }
  assert (AM : forall m, In m ms -> column (st_heap (read_logfiles h n logs)) (l_data (st_log (read_logfiles h n logs))) m = Some (gather h l_data (found logs) m)).
  { intros p P. apply B. exists l0. split; [exact L0|]. destruct (SM p P) as (c0 & E & _). exact (KEY _ _ _ E). }
  destruct (gather_rows h ps ms (found logs) SH i) as (l & j & L & RP & RM).
  { destruct HX as [(X & E)|(X & E)]; [left; rewrite (AP x X) in E|right; rewrite (AM x X) in E]; injection E as E; exists x, y; (split; [exact X|]); rewrite E; exact HY. }
  assert (SL : exists k, (forall p, In p ps -> exists c, column h (l_steps l) p = Some c /\ length c = k) /\ (forall m, In m ms -> exists c, column h (l_data l) m = Some c /\ length c = k)).
  { unfold same_shape in SH. rewrite Forall_forall in SH. apply SH. exact L. }
  destruct SL as (k' & SP' & SM'). exists l, j. split; [exact L|]. split; intros p P.
  - destruct (SP' p P) as (own & E & _). exists (gather h l_steps (found logs) p), own. split; [apply AP; exact P|]. split; [exact E|]. rewrite (RP p P), E. reflexivity.
  - destruct (SM' p P) as (own & E & _). exists (gather h l_data (found logs) p), own. split; [apply AM; exact P|]. split; [exact E|]. rewrite (RM p P), E. reflexivity.
Qed.
Print Assumptions C156_rows.
Example C156_nonvacuous : same_shape ex_heap [s2l "run"] [s2l "vout"] (found ex_logs).
Proof. constructor; [exists 2|constructor; [exists 1|constructor]]; (split; intros p [<-|[]]; eexists; split; vm_compute; reflexivity). Qed.

(** ** C157 A measurement missing in one log *)

(** The values that follow are found in the rows of other runs. *)
Theorem C157_missing_measure_refuted : exists (h : heap nat) n logs, separate n (found logs) /\
  let s := read_logfiles h n logs in
  column (st_heap s) (l_steps (st_log s)) (s2l "run") = Some [1; 2; 3] /\ column (st_heap s) (l_data (st_log s)) (s2l "vout") = Some [10; 30] /\
  gather h l_steps [Log [(s2l "run", 3)] [(s2l "vout", 4)] 1] (s2l "run") = [3] /\ gather h l_data [Log [(s2l "run", 3)] [(s2l "vout", 4)] 1] (s2l "vout") = [30].
Proof.
  exists (fun a => nth a [[1]; [10]; [2]; [3]; [30]] []), 5, [Some (Log [(s2l "run", 0)] [(s2l "vout", 1)] 1); Some (Log [(s2l "run", 2)] [] 1); Some (Log [(s2l "run", 3)] [(s2l "vout", 4)] 1)].
  split; [split; [cbn; repeat constructor; cbn; intuition discriminate|cbn; repeat constructor; cbn; intuition discriminate]|vm_compute; auto].
Qed.
Print Assumptions C157_missing_measure_refuted.

(** ** C158 The logs given *)

(** Adding two logs changes the step values of the first: any two logs with a step variable in common. *)
Theorem C158_first_log_changed_refuted : forall (V : Type) (h : heap V) n p a b ms1 ms2 c1 c2, a <> b -> a < n -> b < n ->
  let l1 := Log [(p, a)] ms1 c1 in let l2 := Log [(p, b)] ms2 c2 in
  separate n [l1; l2] ->
  let s := add_log_data (add_log_data (Store h n (Log [] [] 0)) (Some l1)) (Some l2) in
  column h (l_steps l1) p = Some (h a) /\ column (st_heap s) (l_steps l1) p = Some (h a ++ h b).
Proof.
  intros V h n p a b ms1 ms2 c1 c2 NE HA HB l1 l2 SEP s. split; [unfold column, dget; cbn; rewrite str_eqb_refl; reflexivity|].
  destruct (collect_spec h n [Some l1; Some l2] SEP) as (A & _ & _). specialize (A p). change (read_logfiles h n [Some l1; Some l2]) with s in A.
  cbn [found flat_map app existsb l_steps l1 l2] in A. unfold dget in A at 2. cbn [find fst] in A. rewrite str_eqb_refl in A. cbn [orb] in A. cbn [gather flat_map l_steps l1 l2] in A.
  assert (EG : forall x, column h [(p, x)] p = Some (h x)) by (intros x; unfold column, dget; cbn; rewrite str_eqb_refl; reflexivity). rewrite !EG, app_nil_r in A.
  (* the collected step column is the list of the first log itself *)
  assert (ST : l_steps (st_log s) = [(p, a)]).
  { assert (M : forall l (t : store V), l_steps (st_log (fold_left add_measure l t)) = l_steps (st_log t)) by (induction l as [|[q x] l IH]; intros t; [reflexivity|]; cbn [fold_left]; rewrite IH; unfold add_measure; destruct (dget q _); reflexivity).
    subst s l1 l2. unfold add_log_data. cbv zeta. cbn [st_log l_steps l_data st_heap st_next]. rewrite M. cbn [fold_left add_step st_log l_steps]. rewrite M. cbn [fold_left add_step st_log l_steps dget find app].
    unfold dget. cbn [find fst]. rewrite str_eqb_refl. cbn [st_log l_steps]. rewrite ?M. reflexivity. }
  rewrite ST, orb_true_r in A. exact A.
Qed.
Print Assumptions C158_first_log_changed_refuted.
Example C158_nonvacuous : separate 4 (found ex_logs) /\ let s := fold_left add_log_data ex_logs (Store ex_heap 4 (Log [] [] 0)) in st_heap s 0 = [1; 2; 3] /\ ex_heap 0 = [1; 2].
Proof. split; [apply C155_nonvacuous|vm_compute; auto]. Qed.

(** ** C159 The exported file *)

(** Split at line feeds and separators, it is the table: the titles, and a line with the number, the step values and the measurements
    of every run. *)
Theorem C159_export : forall c term prefix count n steps data old, 0 < n -> data <> [] -> (count = 0 -> steps = []) ->
  Forall (fun tc => regular n (snd tc)) (steps ++ data) -> Forall (clean_col c) (steps ++ data) -> (forall p, prefix = Some p -> clean_text c p) ->
  is_digit c = false -> ~ In c (s2l "_stepuser info") -> c <> "010"%char ->
  exists t, export_data prefix [c] term count steps data = Exported t /\
    map (split_on c) (split_on "010"%char t) = table prefix n (steps ++ data) ++ [[[]]] /\
    file_after old prefix (Exported t) = match prefix with Some _ => old ++ t | None => t end.
Proof.
  intros. destruct (export_ok c term prefix count n steps data) as (t & A & B); try assumption. exists t. split; [exact A|]. split; [exact B|reflexivity].
Qed.
Print Assumptions C159_export.
(** All lines of the table have the same number of fields. *)
Theorem C159_rectangular : forall prefix n cols, 0 < n -> Forall (fun tc => regular n (snd tc)) cols -> exists w, Forall (fun l => length l = w) (table prefix n cols).
Proof.
  intros prefix n cols HN F. exists (match prefix with Some _ => 1 | None => 0 end + 1 + length (flat_map headings cols)). unfold table. constructor; [rewrite !app_length; destruct prefix; cbn; lia|].
  apply Forall_forall. intros l L. apply in_map_iff in L. destruct L as (i & <- & I). apply in_seq in I. rewrite !app_length. assert (E : length (flat_map (row_of i) cols) = length (flat_map headings cols)).
  { induction F as [|[title col] cols (LC & w & W & FW) F IH]; [reflexivity|]. cbn [flat_map]. rewrite !app_length, IH. f_equal. unfold row_of, headings. cbn [fst snd] in *. destruct (nth_error col i) as [x|] eqn:EX; [|apply nth_error_None in EX; lia].
    destruct col as [|x0 col]; [cbn in LC; lia|]. rewrite Forall_forall in FW. rewrite (FW x (nth_error_In _ _ EX)). rewrite (FW x0 (or_introl eq_refl)). destruct (Nat.leb_spec w 1); [cbn; lia|]. rewrite map_length, seq_length. reflexivity. }
  rewrite E. destruct prefix; cbn; lia.
Qed.
Print Assumptions C159_rectangular.
Example C159_nonvacuous : export_data (Some (s2l "b1")) (s2l "	") [] 2 [(s2l "run", [One (s2l "1"); One (s2l "2")])] [(s2l "vout", [Many [s2l "3"; s2l "4"]; Many [s2l "5"; s2l "6"]])] =
  Exported (s2l "user info	step	run	vout_0	vout_1" ++ [NLc] ++ s2l "b1	1	1	3	4" ++ [NLc] ++ s2l "b1	2	2	5	6" ++ [NLc]).
Proof. vm_compute. reflexivity. Qed.

(** ** C160 Line terminator, lengths *)

(** The line terminator asked for is not used; a longer measurement is cut without an error; a shorter one stops the export with
    part of the file written. *)
Theorem C160_export_refuted :
  (forall prefix sep t1 t2 count steps data, export_data prefix sep t1 count steps data = export_data prefix sep t2 count steps data) /\
  (forall title x y, export_data None (s2l ",") [] 1 [(s2l "run", [One (s2l "1")])] [(title, [One x; One y])] = export_data None (s2l ",") [] 1 [(s2l "run", [One (s2l "1")])] [(title, [One x])]) /\
  (forall old, file_after old None (export_data None (s2l ",") [] 1 [(s2l "run", [One (s2l "1"); One (s2l "2")])] [(s2l "m", [One (s2l "5")])]) = s2l "step,run,m" ++ [NLc] ++ s2l "1,1,5" ++ [NLc] /\
     exists t, export_data None (s2l ",") [] 1 [(s2l "run", [One (s2l "1"); One (s2l "2")])] [(s2l "m", [One (s2l "5")])] = Broken t).
Proof. split; [reflexivity|]. split; [reflexivity|]. intros old. split; [vm_compute; reflexivity|]. eexists. vm_compute. reflexivity. Qed.
Print Assumptions C160_export_refuted.
