(** C182-C186: exporting the Fourier analyses of a log. *)
From Coq Require Import String Ascii List Bool Arith Lia.
From Verif Require Import PyStr Regex StepsModel LogModel CompModel LtlogModel ExpSpec FourModel FourSpec FourProofs.
Import ListNotations.
Local Open Scope string_scope. Local Open Scope nat_scope. Local Open Scope list_scope.

(** * C182.  The first table: one row for every analysis, with the values of its step. *)
Theorem C182_summary : forall (V F N : Type) (showv : V -> str) (showf : F -> str) (shown : N -> str) (below1 minus1 : F -> bool) (log : @ltlog V F N),
  t_fourier log <> [] -> stepped_ok log -> (forall e, In e (entries log) -> f_harmonics (snd e) <> []) ->
  (forall e, In e (entries log) -> match f_periods (snd e) with Periods f => below1 f = false /\ minus1 f = false | NoPeriods => False | AllPeriods => True end) ->
  exists rest, export_fourier showv showf shown below1 minus1 log = Some (Some (
    line ((match t_count log with 0 => [] | _ => map fst (t_steps log) end) ++ summary_titles) ++
    concat (map (fun e => line (values_of showv log (snd e) ++ summary_fields showf e)) (entries log)) ++ between ++ rest)).
Proof. intros V F N showv showf shown below1 minus1 log NE SO HH PO. eexists. exact (export_ok showv showf shown below1 minus1 log NE SO HH PO). Qed.
Print Assumptions C182_summary.
(** The analyses of a log that was read are in the order of the steps; those before the first step line have no step. *)
Theorem C182_order : forall (V F N : Type) (conv : str -> V) (tofloat : str -> option F) (toint : str -> option N) read_measures steps is_int lines log,
  read_ltlog conv tofloat toint read_measures steps is_int lines = Some log ->
  Forall (fun e => exists l1 l2, snd e = l1 ++ l2 /\ Forall (fun a => f_step a = None) l1 /\ in_order (t_count log) 0 l2) (t_fourier log).
Proof. intros V F N conv tofloat toint rm steps is_int ls log R. exact (read_sorted conv tofloat toint rm steps is_int ls log R). Qed.
Print Assumptions C182_order.

Definition an (p : @periods str) (h : list nat) (k : option nat) : @fourier str nat :=
  Fourier (Some (s2l "V(out)")) p (Some (s2l "0.5")) None (Some (s2l "1.25")) (map (fun n => Harmonic n (s2l "1000.0") (s2l "0.1") (s2l "1.0") (s2l "-90.0") (s2l "0.0")) h) k.
Definition ex_log : @ltlog nat str nat :=
  LtLog [(s2l "r1", [10; 20]); (s2l "c1", [1; 2])] 2 [] [(Some (s2l "V(out)"), [an AllPeriods [1; 2] (Some 0); an (Periods (s2l "3.0")) [1] (Some 1)])].
Definition below (s : str) : bool := startswith (s2l "0.") s.
Lemma ex_log_ok : stepped_ok ex_log /\ (forall e, In e (entries ex_log) -> f_harmonics (snd e) <> []) /\
  (forall e, In e (entries ex_log) -> match f_periods (snd e) with Periods f => below f = false /\ below f = false | NoPeriods => False | AllPeriods => True end).
Proof.
  split; [|split].
  - intros _. split; [discriminate|]. split; [repeat constructor|]. constructor; [|constructor]. cbn [snd]. econstructor; [reflexivity|lia|cbn; lia|]. econstructor; [reflexivity|lia|cbn; lia|]. constructor.
  - intros e [<- | [<- | []]]; discriminate.
  - intros e [<- | [<- | []]]; cbn; auto.
Qed.
Example C182_nonvacuous : stepped_ok ex_log /\
  option_map (option_map l2s) (export_fourier dec (fun s => s) dec below below ex_log) = Some (Some
"r1	c1	Signal	N-Periods	DC Component	Fundamental	N-Harmonics	PHD	THD
10	1	V(out)	all	0.5	1000.0	2	None	1.25
20	2	V(out)	3.0	0.5	1000.0	1	None	1.25


Harmonic Analysis
r1	c1	Signal	N-Periods	Harmonic	Frequency	Fourier	Normalized	Phase	Normalized
10	1	V(out)	-1	1	1000.0	0.1	1.0	-90.0	0.0
10	1	V(out)	-1	2	1000.0	0.1	1.0	-90.0	0.0
20	2	V(out)	3.0	1	1000.0	0.1	1.0	-90.0	0.0

").
Proof. split; [apply ex_log_ok|]. vm_compute. reflexivity. Qed.

(** * C183.  The second table, for logs with steps: one row for every harmonic of every analysis. *)
Theorem C183_harmonics : forall (V F N : Type) (showv : V -> str) (showf : F -> str) (shown : N -> str) (below1 minus1 : F -> bool) (log : @ltlog V F N),
  t_fourier log <> [] -> 0 < t_count log -> stepped_ok log -> (forall e, In e (entries log) -> f_harmonics (snd e) <> []) ->
  (forall e, In e (entries log) -> match f_periods (snd e) with Periods f => below1 f = false /\ minus1 f = false | NoPeriods => False | AllPeriods => True end) ->
  exists first, export_fourier showv showf shown below1 minus1 log = Some (Some (first ++ between ++
    line (map fst (t_steps log) ++ harmonic_titles) ++
    concat (map (fun e => concat (map (fun h => line (values_of showv log (snd e) ++ harmonic_fields showf shown e h)) (f_harmonics (snd e)))) (entries log)) ++ [LFc])).
Proof.
  intros V F N showv showf shown below1 minus1 log NE C SO HH PO. exists (line ((match t_count log with 0 => [] | _ => map fst (t_steps log) end) ++ summary_titles) ++ concat (map (fun e => line (values_of showv log (snd e) ++ summary_fields showf e)) (entries log))). rewrite (export_ok showv showf shown below1 minus1 log NE SO HH PO). rewrite (line_app (map fst (t_steps log))).
  - f_equal. f_equal. rewrite <- !app_assoc. reflexivity.
  - destruct (SO C) as (NS & _). destruct (t_steps log); [contradiction|discriminate].
  - discriminate.
Qed.
Print Assumptions C183_harmonics.
Example C183_nonvacuous : t_fourier ex_log <> [] /\ 0 < t_count ex_log /\ stepped_ok ex_log /\ (forall e, In e (entries ex_log) -> f_harmonics (snd e) <> []).
Proof. split; [discriminate|]. split; [cbn; lia|]. split; apply ex_log_ok. Qed.

(** * C184.  Without steps the header of the second table has an empty first column that the rows do not have. *)
Theorem C184_header_refuted : forall (V F N : Type) (showv : V -> str) (showf : F -> str) (shown : N -> str) (below1 minus1 : F -> bool) (log : @ltlog V F N),
  t_fourier log <> [] -> t_count log = 0 -> t_steps log = [] -> (forall e, In e (entries log) -> f_harmonics (snd e) <> []) ->
  (forall e, In e (entries log) -> match f_periods (snd e) with Periods f => below1 f = false /\ minus1 f = false | NoPeriods => False | AllPeriods => True end) ->
  exists first, export_fourier showv showf shown below1 minus1 log = Some (Some (first ++ between ++
    line ([] :: harmonic_titles) ++
    concat (map (fun e => concat (map (fun h => line (harmonic_fields showf shown e h)) (f_harmonics (snd e)))) (entries log)) ++ [LFc])) /\
    length ([] :: harmonic_titles) = 9 /\ forall e h, length (harmonic_fields showf shown e h) = 8.
Proof.
  intros V F N showv showf shown below1 minus1 log NE C S HH PO. exists (line ((match t_count log with 0 => [] | _ => map fst (t_steps log) end) ++ summary_titles) ++ concat (map (fun e => line (values_of showv log (snd e) ++ summary_fields showf e)) (entries log))). split; [|split; [reflexivity|reflexivity]].
  rewrite (export_ok showv showf shown below1 minus1 log NE); [|intros L; lia|exact HH|exact PO]. rewrite S. f_equal. f_equal. rewrite <- !app_assoc. f_equal. f_equal.
  assert (E : values_of showv log = fun _ => []) by (unfold values_of; rewrite C; reflexivity). rewrite E. reflexivity.
Qed.
Print Assumptions C184_header_refuted.
Definition plain_log : @ltlog nat str nat := LtLog [] 0 [] [(Some (s2l "V(out)"), [an AllPeriods [1] None])].
Example C184_nonvacuous : t_fourier plain_log <> [] /\ (forall e, In e (entries plain_log) -> f_harmonics (snd e) <> []) /\
  option_map (option_map l2s) (export_fourier dec (fun s => s) dec below below plain_log) = Some (Some
"Signal	N-Periods	DC Component	Fundamental	N-Harmonics	PHD	THD
V(out)	all	0.5	1000.0	1	None	1.25


Harmonic Analysis
	Signal	N-Periods	Harmonic	Frequency	Fourier	Normalized	Phase	Normalized
V(out)	-1	1	1000.0	0.1	1.0	-90.0	0.0

").
Proof. split; [discriminate|]. split; [intros e [<- | []]; discriminate|]. vm_compute. reflexivity. Qed.

(** * C185.  Less than one period: "all" with steps, the number without. *)
Definition half (k : option nat) := an (Periods (s2l "0.5")) [1] k.
Theorem C185_periods_refuted :
  option_map (option_map (fun t => l2s (firstn 93 t))) (export_fourier dec (fun s => s) dec below (fun _ => false) (LtLog [(s2l "r1", [10])] 1 [] [(Some (s2l "V(out)"), [half (Some 0)])])) = Some (Some
"r1	Signal	N-Periods	DC Component	Fundamental	N-Harmonics	PHD	THD
10	V(out)	all	0.5	1000.0	1	N") /\
  option_map (option_map (fun t => l2s (firstn 87 t))) (export_fourier (V := nat) dec (fun s => s) dec below (fun _ => false) (LtLog [] 0 [] [(Some (s2l "V(out)"), [half None])])) = Some (Some
"Signal	N-Periods	DC Component	Fundamental	N-Harmonics	PHD	THD
V(out)	0.5	0.5	1000.0	1	N").
Proof. split; vm_compute; reflexivity. Qed.
Print Assumptions C185_periods_refuted.

(** * C186.  Analyses before the first step line of a stepped log are not in the file. *)
Theorem C186_before_first_step_refuted : forall (V F N : Type) (showv : V -> str) (showf : F -> str) (shown : N -> str) (below1 minus1 : F -> bool) (log : @ltlog V F N),
  t_fourier log <> [] -> 0 < t_count log -> t_steps log <> [] -> Forall (fun c => t_count log <= length (snd c)) (t_steps log) ->
  (forall e, In e (entries log) -> f_step (snd e) = None) ->
  export_fourier showv showf shown below1 minus1 log = Some (Some (line (map fst (t_steps log) ++ summary_titles) ++ between ++ line (map fst (t_steps log) ++ harmonic_titles) ++ [LFc])).
Proof.
  intros V F N showv showf shown below1 minus1 log NE C NS LEN NO. unfold export_fourier.
  assert (Z : forall (A : Type) (l : list A), concat (map (fun _ => []) l) = ([] : str)) by (intros A l; induction l as [|x l IH]; [reflexivity|exact IH]).
  assert (NA : forall e a n, In e (t_fourier log) -> In a (snd e) -> at_step a n = false).
  { intros e a n E A. unfold at_step. pose proof (NO _ (in_entries log e a E A)) as Q. cbn [snd] in Q. rewrite Q. reflexivity. }
  rewrite (cat_some _ _ (fun _ => [])), (cat_some _ _ (fun _ => [])).
  - rewrite !Z. destruct (t_fourier log); [contradiction|]. destruct (t_count log) as [|n]; [lia|]. cbv zeta. f_equal. f_equal.
    assert (M : map fst (t_steps log) <> []) by (destruct (t_steps log); [contradiction|discriminate]). rewrite !line_app by (try exact M; discriminate). rewrite <- !app_assoc. rewrite !(tabbed_sep (map s2l _)). reflexivity.
  - intros e E. unfold harmonic_signal. rewrite (cat_some _ _ (fun _ => [])); [rewrite Z; reflexivity|]. intros a A. destruct (t_count log) as [|n]; [lia|].
    rewrite (cat_some _ _ (fun _ => [])); [rewrite Z; reflexivity|]. intros s S. rewrite (NA e a s E A). reflexivity.
  - intros e E. unfold summary_signal. destruct (t_count log) as [|n] eqn:CC; [lia|]. rewrite (cat_some _ _ (fun _ => [])); [rewrite Z; reflexivity|]. intros s S. apply in_seq in S.
    rewrite step_values_ok by (eapply Forall_impl; [|exact LEN]; cbn; intros; lia). rewrite (cat_some _ _ (fun _ => [])); [rewrite Z; reflexivity|]. intros a A. rewrite (NA e a s E A). reflexivity.
Qed.
Print Assumptions C186_before_first_step_refuted.
Definition early_log : @ltlog nat str nat := LtLog [(s2l "r1", [10])] 1 [] [(Some (s2l "V(out)"), [an AllPeriods [1] None])].
Example C186_nonvacuous : t_fourier early_log <> [] /\ 0 < t_count early_log /\ (forall e, In e (entries early_log) -> f_step (snd e) = None) /\
  option_map (option_map l2s) (export_fourier dec (fun s => s) dec below below early_log) = Some (Some
"r1	Signal	N-Periods	DC Component	Fundamental	N-Harmonics	PHD	THD


Harmonic Analysis
r1	Signal	N-Periods	Harmonic	Frequency	Fourier	Normalized	Phase	Normalized

").
Proof. split; [discriminate|]. split; [cbn; lia|]. split; [intros e [<- | []]; reflexivity|]. vm_compute. reflexivity. Qed.
