(** C177-C181: waveforms exported as text, with several runs. *)
From Coq Require Import String Ascii List Bool Arith Lia.
From Verif Require Import PyStr Regex StepsModel LogModel CompModel QlogModel ExpModel ExpSpec ExpProofs ExpProofs2.
Import ListNotations.
Local Open Scope string_scope. Local Open Scope nat_scope. Local Open Scope list_scope.

(** * C177.  The table: every row with the number and the parameter values of its own run. *)
Theorem C177_table : forall word names header runs, word = "Run" \/ word = "Step" -> names <> [] -> runs <> [] -> Forall (run_ok names) runs ->
  reformat (exported word header runs) = Some (table names header runs).
Proof. exact reformat_ok. Qed.
Print Assumptions C177_table.

Definition ex_header : list str := [s2l "time"; s2l "V(out)" ++ [LFc]].
Definition ex_run1 : run := Run (s2l "1") (s2l "2") [(s2l "Ton", s2l "400m"); (s2l "Rload", s2l "1K")] 1 [[s2l "0.0"; s2l "1.5" ++ [LFc]]; [s2l "1e-3"; s2l "-2" ++ [LFc]]].
Definition ex_run2 : run := Run (s2l "2") (s2l "2") [(s2l "Ton", s2l "-.5"); (s2l "Rload", s2l "2K")] 0 [[s2l "0.0"; s2l "7" ++ [LFc]]].
Lemma ex_row : forall l, startswith (s2l "Step Information:") (sep_by HT l) = false -> row_ok l.
Proof. intros l H t E. rewrite E, startswith_prefix in H. discriminate H. Qed.
Lemma ex_runs_ok : Forall (run_ok [s2l "Ton"; s2l "Rload"]) [ex_run1; ex_run2].
Proof.
  assert (P : forall l, forallb (fun p => forallb plain (fst p) && forallb plain (snd p)) l = true -> Forall param_ok l).
  { intros l H. apply Forall_forall. intros p I. rewrite forallb_forall in H. specialize (H p I). apply andb_true_iff in H. exact H. }
  repeat constructor; try (apply P; reflexivity); try (apply ex_row; reflexivity).
Qed.
Example C177_nonvacuous : Forall (run_ok [s2l "Ton"; s2l "Rload"]) [ex_run1; ex_run2] /\
  option_map l2s (reformat (exported "Step" ex_header [ex_run1; ex_run2])) = Some
"Run	Ton	Rload	time	V(out)
1	400m	1K	0.0	1.5
1	400m	1K	1e-3	-2
2	-.5	2K	0.0	7
".
Proof. split; [exact ex_runs_ok|]. vm_compute. reflexivity. Qed.

(** * C178.  A line of step information with a character that is not expected, such as the degree sign: the rows of the run get the
    number and the values of the run before. *)
Theorem C178_own_run_refuted : forall word names header r1 r2 c, word = "Run" \/ word = "Step" -> names <> [] -> run_ok names r1 -> Forall row_ok (r_rows r2) ->
  In c (sep_by " " (map (fun p => fst p ++ "="%char :: snd p) (r_params r2))) -> is_word c = false -> ~ In c (s2l "=. -") ->
  ~ In "("%char (sep_by " " (map (fun p => fst p ++ "="%char :: snd p) (r_params r2))) ->
  reformat (exported word header [r1; r2]) = Some (table names header [r1; Run (r_no r1) (r_total r1) (r_params r1) (r_gap r1) (r_rows r2)]).
Proof.
  intros word names header r1 r2 c W N OK RO I C1 C2 NP. unfold reformat, exported. cbn [flat_map]. rewrite app_nil_r. rewrite tab_lines_app, (tab_run word names) by assumption.
  cbn [tab_lines]. unfold tab_line. rewrite info_starts. unfold tabular_re. rewrite (strange_line _ word r2 c); [|exact I| |exact NP].
  2:{ unfold step_char. rewrite C1. cbn [orb]. apply mem_c_not_In. exact C2. }
  rewrite tab_rows by exact RO. cbn [option_map t_out t_header app]. f_equal. unfold table. cbn [flat_map r_no r_params r_rows]. rewrite app_nil_r, <- !app_assoc. f_equal. f_equal. f_equal.
  apply flat_map_ext'. intros row. rewrite fields_tabs by discriminate. destruct OK as (_ & _ & _ & NM & _). destruct (r_params r1) as [|p l] eqn:E; [contradiction N; rewrite <- NM; reflexivity|]. unfold tabs. cbn [map].
  change (join [TABc] (r_no r1 :: snd p :: map snd l)) with (r_no r1 ++ [TABc] ++ join [TABc] (snd p :: map snd l)). change HT with TABc. rewrite <- !app_assoc. reflexivity.
Qed.
Print Assumptions C178_own_run_refuted.
Definition cold : run := Run (s2l "1") (s2l "2") [(s2l "Temp", s2l "27")] 1 [[s2l "0"; s2l "1.5" ++ [LFc]]].
Definition hot : run := Run (s2l "2") (s2l "2") [(s2l "Temp", s2l "85" ++ ["176"%char; "C"%char])] 1 [[s2l "0"; s2l "2.5" ++ [LFc]]].
Example C178_nonvacuous : run_ok [s2l "Temp"] cold /\ In "176"%char (sep_by " " (map (fun p => fst p ++ "="%char :: snd p) (r_params hot))) /\
  option_map l2s (reformat (exported "Run" ex_header [cold; hot])) = Some
"Run	Temp	time	V(out)
1	27	0	1.5
1	27	0	2.5
".
Proof.
  split; [|split; [vm_compute; tauto|vm_compute; reflexivity]]. repeat constructor. apply ex_row. reflexivity.
Qed.

(** * C179.  The data set: every column of the file, the run number and the parameters have one entry for every row of every run. *)
Theorem C179_columns : forall (V : Type) (conv raw : str -> V) header names runs,
  header <> [] -> names <> [] -> runs <> [] -> Forall (fun x => ~ In HT x) header ->
  NoDup (map lower (header ++ s2l "runno" :: names)) -> Forall (run_ok names) runs ->
  Forall (fun r => Forall (fun row => length row = length header /\ Forall (fun x => ~ In HT x) row) (r_rows r)) runs ->
  exists d, read_export conv raw (exported "Run" header runs) = Some d /\
    (forall i h, nth_error header i = Some h -> dget (lower h) d = Some (per_row (fun _ row => conv (nth i row [])) runs)) /\
    dget (s2l "runno") d = Some (per_row (fun r _ => raw (r_no r)) runs) /\
    (forall j k, nth_error names j = Some k -> dget (lower k) d = Some (per_row (fun r _ => conv (nth j (map snd (r_params r)) [])) runs)) /\
    (forall k, ~ In k (map lower (header ++ s2l "runno" :: names)) -> dget k d = None).
Proof. intros V conv raw header names runs NH N NR TB ND OK WD. exact (export_ok conv raw header names runs NH N NR TB ND OK WD). Qed.
Print Assumptions C179_columns.
Example C179_nonvacuous : Forall (run_ok [s2l "Ton"; s2l "Rload"]) [ex_run1; ex_run2] /\
  Forall (fun x => ~ In HT x) ex_header /\
  NoDup (map lower (ex_header ++ s2l "runno" :: [s2l "Ton"; s2l "Rload"])) /\
  Forall (fun r => Forall (fun row => length row = length ex_header /\ Forall (fun x => ~ In HT x) row) (r_rows r)) [ex_run1; ex_run2] /\
  option_map (map (fun c => (l2s (fst c), map l2s (snd c)))) (read_export (fun s => s) (fun s => s) (exported "Run" [s2l "time"; s2l "V(out)"] [ex_run2]))
    = Some [("time", ["0.0"]); ("v(out)", [l2s (s2l "7" ++ [LFc])]); ("runno", ["2"]); ("ton", ["-.5"]); ("rload", ["2K"])].
Proof.
  split; [exact ex_runs_ok|]. assert (T : forall x, mem_c HT x = false -> ~ In HT x) by (intros x; apply mem_c_not_In).
  split; [repeat constructor; apply T; reflexivity|]. split; [vm_compute; repeat constructor; cbn [In]; intuition discriminate|]. split; [|vm_compute; reflexivity].
  repeat constructor; apply T; reflexivity.
Qed.

(** * C180.  The name of the last column keeps the line feed of the header line: the column is not found under its name. *)
Theorem C180_last_column_refuted : forall (V : Type) (conv raw : str -> V) front last names runs,
  names <> [] -> runs <> [] -> Forall (fun x => ~ In HT x) (front ++ [last ++ [LFc]]) ->
  NoDup (map lower ((front ++ [last ++ [LFc]]) ++ s2l "runno" :: names)) -> ~ In (lower last) (map lower (front ++ s2l "runno" :: names)) -> Forall (run_ok names) runs ->
  Forall (fun r => Forall (fun row => length row = S (length front) /\ Forall (fun x => ~ In HT x) row) (r_rows r)) runs ->
  exists d, read_export conv raw (exported "Run" (front ++ [last ++ [LFc]]) runs) = Some d /\ dget (lower last) d = None /\
    dget (lower last ++ [LFc]) d = Some (per_row (fun _ row => conv (nth (length front) row [])) runs).
Proof.
  intros V conv raw front last names runs N NR TB ND NL OK WD.
  destruct (export_ok conv raw (front ++ [last ++ [LFc]]) names runs) as (d & E & A & _ & _ & D); try assumption.
  - destruct front; discriminate.
  - eapply Forall_impl; [|exact WD]. intros r. apply Forall_impl. intros row (L & T). split; [|exact T]. rewrite app_length. cbn. lia.
  - exists d. split; [exact E|]. assert (LO : lower (last ++ [LFc]) = lower last ++ [LFc]) by (unfold lower; rewrite map_app; reflexivity). split.
    + apply D. unfold keys. rewrite !map_app. cbn [map]. rewrite LO. intros I. apply in_app_or in I. destruct I as [I|I].
      * apply in_app_or in I. destruct I as [I|[I|[]]]; [apply NL; rewrite map_app; apply in_or_app; left; exact I|].
        apply (f_equal (@length ascii)) in I. rewrite app_length in I. cbn in I. lia.
      * apply NL. rewrite map_app. apply in_or_app. right. exact I.
    + rewrite <- LO. apply A. rewrite nth_error_app2 by apply le_n. rewrite Nat.sub_diag. reflexivity.
Qed.
Print Assumptions C180_last_column_refuted.
Example C180_nonvacuous : exists d, read_export (fun s => s) (fun s => s) (exported "Run" ex_header [ex_run1; ex_run2]) = Some d /\
  dget (s2l "v(out)") d = None /\ dget (s2l "time") d = Some [s2l "0.0"; s2l "1e-3"; s2l "0.0"] /\ dget (s2l "runno") d = Some [s2l "1"; s2l "1"; s2l "2"].
Proof. eexists. vm_compute. split; [reflexivity|]. split; [reflexivity|]. split; reflexivity. Qed.

(** * C181.  Step lines written "(Step: 1/2)", which the reformatting accepts: nothing can be read. *)
Theorem C181_step_word_refuted : forall (V : Type) (conv raw : str -> V) header names r row rows runs, names <> [] -> run_ok names r -> r_rows r = row :: rows ->
  read_export conv raw (exported "Step" header (r :: runs)) = None.
Proof.
  intros V conv raw header names r row rows runs N OK E. unfold read_export, exported. cbn [flat_map]. rewrite E. cbn [map app exp_lines].
  assert (U : step_info export_re (info_line "Step" r) = None).
  { destruct OK as (D1 & D2 & P & NM & _). unfold step_info, re_match, export_re. destruct (m (info_re (seqs (lits "Run"))) 0 (info_line "Step" r) [] (fun p _ c => Some (p, c))) as [[e c]|] eqn:M; [exfalso|reflexivity].
    assert (G : re_match (info_re (seqs (lits "Run"))) (info_line "Step" r) = None); [|unfold re_match in G; congruence]. clear M.
    unfold info_line. pose proof (text_chars _ P) as T. destruct (text_nonempty (r_params r)) as (a & t & TN); [intros F; rewrite F in NM; apply N; rewrite <- NM; reflexivity|].
    set (txt := sep_by " " (map (fun p => fst p ++ "="%char :: snd p) (r_params r))) in *. change (sep_by " " (map (fun p : str * str => fst p ++ "="%char :: snd p) (r_params r))) with txt in TN.
    apply no_run; exact T. }
  unfold exp_line at 1. rewrite info_starts, U. unfold exp_line. destruct OK as (_ & _ & _ & _ & RO). rewrite E in RO. apply Forall_cons_iff in RO. rewrite row_starts by apply RO. cbn [e_cur e_data append_current].
  assert (NE : split_on TABc (sep_by HT row) <> []) by (clear; induction (sep_by HT row) as [|x s IH]; cbn; [discriminate|destruct (aeqb x TABc); [discriminate|destruct (split_on TABc s); discriminate]]).
  destruct (split_on TABc (sep_by HT row)) as [|v vs]; [contradiction|]. cbn [append_values]. destruct (split_on TABc (sep_by HT header)); reflexivity.
Qed.
Print Assumptions C181_step_word_refuted.
Example C181_nonvacuous : run_ok [s2l "Ton"; s2l "Rload"] ex_run1 /\ read_export (fun s => s) (fun s => s) (exported "Step" ex_header [ex_run1; ex_run2]) = None /\
  reformat (exported "Step" ex_header [ex_run1; ex_run2]) <> None.
Proof. split; [exact (Forall_inv ex_runs_ok)|]. split; [vm_compute; reflexivity|]. vm_compute. discriminate. Qed.
