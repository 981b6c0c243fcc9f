(** Qspice logs and measurement files: C161-C166. *)
From Coq Require Import String Ascii List Bool Arith Lia.
From Verif Require Import PyStr Regex RegexProofs StepsModel StepsSpec StepsProofs LogModel LogSpec LogProofs QlogModel QlogSpec QlogProofs QlogMeas.
Import ListNotations.
Local Open Scope string_scope. Local Open Scope nat_scope. Local Open Scope list_scope.

(** ** C161 The steps of the log *)
Theorem C161_steps : forall (V : Type) (conv : str -> V) log, Forall qline_ok log -> numbers log = seq 1 (length (numbers log)) ->
  exists s, read_qlog conv [] (map qline_text log) = Some (length (numbers log), s) /\
    forall k, dget (lower k) s = match given k log with [] => None | vs => Some (map conv vs) end.
Proof.
  intros V conv log F N. unfold read_qlog. rewrite qsteps_ok by exact F. cbn [length plus]. destruct (list_eq_dec _ _ _) as [D|D]; [|congruence].
  eexists. split; [reflexivity|]. intros k. rewrite add1_all by discriminate. unfold given. rewrite <- (map_map snd conv). destruct (filter _ _); reflexivity.
Qed.
Print Assumptions C161_steps.
(** Steps missing, repeated or out of order are refused. *)
Theorem C161_order : forall (V : Type) (conv : str -> V) log, Forall qline_ok log -> numbers log <> seq 1 (length (numbers log)) ->
  read_qlog conv [] (map qline_text log) = None.
Proof. intros V conv log F N. unfold read_qlog. rewrite qsteps_ok by exact F. cbn [length plus]. destruct (list_eq_dec _ _ _) as [D|D]; [congruence|reflexivity]. Qed.
Print Assumptions C161_order.
Definition ex_qlog : list qline := [QStep [] 1 2 (s2l "  ") [(s2l "Vin", s2l "1"); (s2l "r1", s2l "1000")]; QOther (s2l "C:\x.net" ++ [NLC]); QStep (s2l " ") 2 2 (s2l "  ") [(s2l "vin", s2l "10"); (s2l "r1", s2l "1000")]].
Example C161_nonvacuous : Forall qline_ok ex_qlog /\ numbers ex_qlog = seq 1 2 /\ l2s (qline_text (hd (QOther []) ex_qlog)) = l2s (s2l "1 of 2 steps:  .step Vin=1 r1=1000" ++ [NLC]) /\
  read_qlog l2s [] (map qline_text ex_qlog) = Some (2, [(s2l "vin", ["1"; "10"]); (s2l "r1", ["1000"; "1000"])]).
Proof.
  assert (P : forall s, forallb (fun c => negb (aeqb c " ") && negb (aeqb c "=")) s = true -> plain s).
  { intros s Hs c Hc. rewrite forallb_forall in Hs. specialize (Hs c Hc). apply andb_true_iff in Hs. destruct Hs as [A B]. apply negb_true_iff in A, B. apply aeqb_neq in A, B. split; assumption. }
  assert (C : forall s, mem_c TABC s = false -> mem_c NLC s = false -> mem_c "013" s = false -> cell s) by (intros s A B D; apply mem_c_not_In in A, B, D; repeat split; assumption).
  split; [|split; [reflexivity|split; [vm_compute; reflexivity|vm_compute; reflexivity]]].
  repeat apply Forall_cons; try apply Forall_nil; cbn [qline_ok]; try (split; [reflexivity|split; [discriminate|split; [reflexivity|]]]; apply (Forall_cons (A:=str*str)); [|apply (Forall_cons (A:=str*str)); [|apply Forall_nil]]; cbn [fst snd]; (split; [apply P; reflexivity|]; split; [apply P; reflexivity|]; split; apply C; reflexivity)).
  intros (a & b & E). assert (H : In "p"%char (s2l "C:\x.net" ++ [NLC])) by (rewrite E; apply in_or_app; right; apply in_or_app; left; vm_compute; auto). vm_compute in H. repeat (destruct H as [H|H]; [discriminate H|]). destruct H.
Qed.

(** ** C162 The measurements *)
(** Measurement [m] has [w] values per run.  The values of each of its columns are found, run by run, under its name (the further
    columns under its name and a number); in a stepped simulation the step numbers of the last measurement are under "step"; nothing else
    is stored, and the measurements are counted. *)
Theorem C162_measures : forall (V : Type) (conv : str -> V) (stepped : bool) wms,
  Forall (fun wm => qmeasure_ok (fst wm) (snd wm) /\ (if stepped then 2 else 1) <= fst wm) wms ->
  NoDup (flat_map (qtitles stepped) wms) -> (stepped = true -> ~ In (s2l "step") (flat_map (qtitles stepped) wms)) ->
  exists d, parse_meas conv stepped (flat_map (fun wm => qmeasure_lines (snd wm)) wms) [] = Some (d, list_sum (map (fun wm => length (qm_rows (snd wm))) wms)) /\
    (forall w m j, In (w, m) wms -> qm_rows m <> [] -> j < w - (if stepped then 1 else 0) ->
       exists col, dget (lower (numbered (qm_name m) j)) d = Some col /\ column_is conv m (if stepped then S j else j) col) /\
    (stepped = true -> forall a w m, wms = a ++ [(w, m)] -> qm_rows m <> [] -> exists col, dget (s2l "step") d = Some col /\ column_is conv m 0 col) /\
    (forall key, ~ In key (flat_map (qtitles stepped) wms) -> (stepped = true -> key <> s2l "step") -> dget key d = None).
Proof.
  intros V conv stepped wms F ND NS. destruct (blocks_ok conv stepped wms (QMeas None None [] 0) F ND NS) as (st & E & C & A & B & D).
  exists (q_data st). unfold parse_meas. cbn [length]. rewrite E. cbn [option_map]. split; [rewrite C; reflexivity|]. split; [|split].
  - intros w m j I R J. rewrite Forall_forall in A. apply (A (w, m) I j J R).
  - intros S a w m EQ R. apply (B S a (w, m) [] EQ R). constructor.
  - intros key K1 K2. rewrite (D key K1); [reflexivity|]. intros S. left. apply K2. exact S.
Qed.
Print Assumptions C162_measures.
Definition ex_row (l : list string) : list piece := flat_map (fun w => [Blank " "; Word (s2l w)]) l.
Definition ex_meas : list (nat * qmeasure) :=
  [(3, QMeasure (Typed (s2l "tran") (s2l "t1") (s2l "find v(out) at 1m:")) [ex_row ["0"; "0.63"; "0.001"]; ex_row ["1"; "6.3"; "0.001"]]);
   (2, QMeasure (Untyped (s2l "Vx") (s2l "max") (s2l "v(x):")) [ex_row ["0"; "5"]; ex_row ["1"; "6"]])].
Lemma name_dec : forall s, forallb (fun c => is_digit c || is_upper c || is_lower c || aeqb c "_") s = true -> s <> [] -> name_text s.
Proof. intros s H NE. split; [exact NE|]. intros c C. rewrite forallb_forall in H. specialize (H c C). rewrite !orb_true_iff in H. destruct H as [[[H|H]|H]|H]; [auto|auto|auto|]. apply aeqb_eq in H. auto. Qed.
Lemma word_dec : forall s, forallb (fun c => negb (is_blank c) && negb (is_comma c) && negb (bracket_char c)) s = true -> Forall word_char s.
Proof. intros s H. apply Forall_forall. intros c C. rewrite forallb_forall in H. specialize (H c C). rewrite !andb_true_iff, !negb_true_iff in H. unfold word_char. tauto. Qed.
Example C162_nonvacuous : Forall (fun wm => qmeasure_ok (fst wm) (snd wm) /\ 2 <= fst wm) ex_meas /\ NoDup (flat_map (qtitles true) ex_meas) /\ ~ In (s2l "step") (flat_map (qtitles true) ex_meas) /\
  parse_meas l2s true (flat_map (fun wm => qmeasure_lines (snd wm)) ex_meas) [] =
    Some ([(s2l "step", [VText "0"; VText "1"]); (s2l "t1", [VText "0.63"; VText "6.3"]); (s2l "t1_1", [VText "0.001"; VText "0.001"]); (s2l "vx", [VText "5"; VText "6"])], 4).
Proof.
  assert (NM : forall t, startswith (s2l ".meas ") t = false -> ~ (exists u, t = s2l ".meas " ++ u)) by (intros t H (u & ->); vm_compute in H; discriminate H).
  assert (RO : forall l, forallb (fun w => negb (str_eqb (s2l w) []) && forallb (fun c => negb (is_blank c) && negb (is_comma c) && negb (bracket_char c)) (s2l w)) l = true -> line_ok (ex_row l)).
  { intros l H. split.
    - clear H. induction l as [|w l IH]; [exact I|]. unfold ex_row in *. cbn [flat_map app separated]. split; [exact I|]. split; [destruct l; exact I|exact IH].
    - apply Forall_forall. intros p P. apply in_flat_map in P. destruct P as (w & W & P). rewrite forallb_forall in H. specialize (H w W). apply andb_true_iff in H. destruct H as (H1 & H2). destruct P as [<-|[<-|[]]]; [reflexivity|]. split; [intros G; rewrite G in H1; discriminate H1|apply word_dec; exact H2]. }
  split; [|split; [|split]].
  - repeat apply Forall_cons; try apply Forall_nil; cbn [fst snd]; (split; [|lia]); unfold qmeasure_ok; cbn [qm_head qm_rows head_ok]; split.
    + split; [left; reflexivity|]. split; [apply name_dec; [reflexivity|discriminate]|apply mem_c_not_In; reflexivity].
    + repeat apply Forall_cons; try apply Forall_nil; (split; [apply RO; reflexivity|]; split; [discriminate|]; split; [apply NM; reflexivity|reflexivity]).
    + split; [apply name_dec; [reflexivity|discriminate]|]. split; [intros H; vm_compute in H; repeat (destruct H as [H|H]; [discriminate H|]); destruct H|]. split; [apply name_dec; [reflexivity|discriminate]|apply mem_c_not_In; reflexivity].
    + repeat apply Forall_cons; try apply Forall_nil; (split; [apply RO; reflexivity|]; split; [discriminate|]; split; [apply NM; reflexivity|reflexivity]).
  - vm_compute. repeat constructor; cbn; intuition discriminate.
  - vm_compute. intuition discriminate.
  - vm_compute. reflexivity.
Qed.

(** ** C163 The type of a measurement in upper case *)
(** With a type that is not written in lower case, the type is taken for the name. *)
Theorem C163_upper_case_refuted : forall (V : Type) (conv : str -> V) K a r w rows, In (lower K) kinds -> ~ In K kinds -> 1 <= w -> rows <> [] ->
  qmeasure_ok w (QMeasure (Untyped K a r) rows) -> (forall j, lower a <> lower (numbered K j)) ->
  exists d n, parse_meas conv false ((s2l ".meas " ++ K ++ s2l " " ++ a ++ s2l " " ++ r ++ ["010"%char]) :: map row_text rows) [] = Some (d, n) /\
    dget (lower a) d = None /\ exists col, dget (lower K) d = Some col.
Proof.
  intros V conv K a r w rows IK NK W NR OK NA. set (m := QMeasure (Untyped K a r) rows) in *.
  assert (QT : flat_map (qtitles false) [(w, m)] = map (fun j => lower (numbered K j)) (seq 0 (w - 0))) by (cbn [flat_map]; unfold qtitles; cbn [fst snd m qm_rows qm_name qm_head]; destruct rows; [congruence|rewrite app_nil_r; reflexivity]).
  destruct (C162_measures V conv false [(w, m)]) as (d & E & A & _ & N).
  - constructor; [split; [exact OK|exact W]|constructor].
  - rewrite QT. generalize 0 at 1. generalize (w - 0) as n. induction n as [|n IH]; intros b; [constructor|]. cbn [seq map]. constructor; [|apply IH]. intros H. apply in_map_iff in H. destruct H as (i & X & I). apply numbered_inj in X. apply in_seq in I. lia.
  - discriminate.
  - exists d, (list_sum (map (fun wm : nat * qmeasure => length (qm_rows (snd wm))) [(w, m)])). cbn [flat_map snd qmeasure_lines m qm_head qm_rows head_text] in E. rewrite app_nil_r in E. split; [exact E|]. split.
    + apply N; [|discriminate]. rewrite QT. intros H. apply in_map_iff in H. destruct H as (i & X & _). exact (NA i (eq_sym X)).
    + destruct (A w m 0 (or_introl eq_refl) NR) as (col & C & _); [lia|]. exists col. exact C.
Qed.
Print Assumptions C163_upper_case_refuted.
(** Of several such measurements only the last is left. *)
Example C163_nonvacuous : parse_meas l2s false (flat_map (fun m => [s2l m ++ [NLC]]) [".meas TRAN vin rms v(in):"; " 1"; ".meas TRAN vout rms v(out):"; " 2"]) [] = Some ([(s2l "tran", [VText "2"])], 2).
Proof. vm_compute. reflexivity. Qed.

(** ** C164 Blank lines *)
Lemma lines_app : forall (V : Type) (conv : str -> V) stepped a b st, qmeas_lines conv stepped (a ++ b) st = match qmeas_lines conv stepped a st with Some st' => qmeas_lines conv stepped b st' | None => None end.
Proof. intros V conv stepped a. induction a as [|l a IH]; intros b st; [reflexivity|]. cbn [app qmeas_lines]. destruct (qmeas_line conv stepped l st); [apply IH|reflexivity]. Qed.
Definition started {V} (st : qmeas (V:=V)) : Prop := q_name st <> None /\ (q_headers st = None \/ exists h hs, q_headers st = Some (h :: hs)).
Lemma line_started : forall (V : Type) (conv : str -> V) stepped l st st', started st -> qmeas_line conv stepped l st = Some st' -> started st'.
Proof.
  intros V conv stepped l st st' (N & H) E. unfold qmeas_line in E. destruct (re_match meas_re l) as [[e c]|].
  - destruct (group 1 l c); [|discriminate E]. destruct (group 2 l c); [|discriminate E]. injection E as <-. split; [discriminate|left; reflexivity].
  - destruct (q_name st) as [name|] eqn:EN; [|congruence]. destruct (split_line conv l) as [vals|]; [|discriminate E]. destruct (q_headers st) as [hs|] eqn:EH.
    + destruct (append_row 0 hs vals (q_data st)); [|discriminate E]. injection E as <-. split; [discriminate|]. destruct H as [H|(h & t & H)]; [discriminate H|]. injection H as ->. right. exists h, t. reflexivity.
    + destruct (qheaders stepped name (length vals)) as [hs|] eqn:Q; [|discriminate E]. cbn [option_map] in E. destruct (append_row 0 hs vals _); [|discriminate E]. injection E as <-. split; [discriminate|]. right. cbn [q_headers].
      destruct hs as [|h t]; [|exists h, t; reflexivity]. exfalso. unfold qheaders in Q. cbv zeta in Q. destruct stepped; cbn [upd] in Q; match type of Q with context [map ?f ?l] => destruct (map f l) end; discriminate Q.
Qed.
Lemma lines_started : forall (V : Type) (conv : str -> V) stepped ls st st', started st -> qmeas_lines conv stepped ls st = Some st' -> started st'.
Proof.
  intros V conv stepped ls. induction ls as [|l ls IH]; intros st st' S E; cbn [qmeas_lines] in E; [injection E as <-; exact S|]. destruct (qmeas_line conv stepped l st) as [st1|] eqn:E1; [|discriminate E]. exact (IH st1 st' (line_started _ _ _ _ _ _ S E1) E).
Qed.
(** A blank line anywhere after the first measurement makes reading fail. *)
Theorem C164_blank_line_refuted : forall (V : Type) (conv : str -> V) stepped before h after rest, head_ok h ->
  parse_meas conv stepped (before ++ head_text h :: after ++ [["010"%char]] ++ rest) [] = None.
Proof.
  intros V conv stepped before h after rest H. unfold parse_meas. rewrite lines_app. destruct (qmeas_lines conv stepped before _) as [st|]; [|reflexivity]. cbn [qmeas_lines]. rewrite head_line by exact H. rewrite lines_app.
  match goal with |- context [qmeas_lines conv stepped after ?s] => destruct (qmeas_lines conv stepped after s) as [st1|] eqn:E; [|reflexivity]; assert (S : started st1) by (eapply lines_started; [|exact E]; split; [discriminate|left; reflexivity]) end.
  destruct S as (N & HH). cbn [app qmeas_lines]. unfold qmeas_line at 1. change (re_match meas_re ["010"%char]) with (@None (nat * caps)). cbv iota. destruct (q_name st1) as [name|]; [|congruence]. change (split_line conv ["010"%char]) with (Some (@nil (val V))). cbv iota.
  destruct HH as [->|(t & hs & ->)].
  - destruct stepped; reflexivity.
  - cbn [append_row nth_error]. destruct (dget (lower t) (q_data st1)); reflexivity.
Qed.
Print Assumptions C164_blank_line_refuted.
Example C164_nonvacuous : parse_meas l2s false (flat_map (fun m => [s2l m ++ [NLC]]) [".meas tran vin rms v(in):"; " 1"]) [] = Some ([(s2l "vin", [VText "1"])], 1) /\
  parse_meas l2s false (flat_map (fun m => [s2l m ++ [NLC]]) [".meas tran vin rms v(in):"; " 1"; ""]) [] = None.
Proof. vm_compute. auto. Qed.

(** ** C165 Steps given by the caller *)
(** With steps given by the caller, every log of a stepped simulation is refused. *)
Theorem C165_step_set_refuted : forall (V : Type) (conv : str -> V) set log k, set <> [] -> Forall qline_ok log -> numbers log = seq 1 (S k) ->
  read_qlog conv set (map qline_text log) = None.
Proof.
  intros V conv set log k NE F N. unfold read_qlog. rewrite qsteps_ok by exact F. destruct (list_eq_dec _ _ _) as [D|D]; [|reflexivity]. rewrite N in D. cbn [seq length] in D. injection D as D _. destruct set; [congruence|discriminate D].
Qed.
Print Assumptions C165_step_set_refuted.
Example C165_nonvacuous : Forall qline_ok ex_qlog /\ numbers ex_qlog = seq 1 2. Proof. split; apply C161_nonvacuous. Qed.

(** ** C166 Columns of different measurements *)
(** The second column of "v" is lost if there is a measurement "v_1"; the step numbers are those of the last measurement, even if it
    has values for other runs. *)
Theorem C166_overwritten_refuted :
  parse_meas l2s false (flat_map (fun m => [s2l m ++ [NLC]]) [".meas tran v find v(out) at 1m:"; " 5 0.001"; ".meas tran v_1 max v(x):"; " 7"]) [] = Some ([(s2l "v", [VText "5"]); (s2l "v_1", [VText "7"])], 2) /\
  parse_meas l2s true (flat_map (fun m => [s2l m ++ [NLC]]) [".meas tran a max v(out):"; " 0 10"; " 1 11"; ".meas tran b max v(x):"; " 1 21"]) [] = Some ([(s2l "step", [VText "1"]); (s2l "a", [VText "10"; VText "11"]); (s2l "b", [VText "21"])], 3).
Proof. vm_compute. auto. Qed.
Print Assumptions C166_overwritten_refuted.
