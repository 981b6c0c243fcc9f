(** The stepping table of SimStepper and its CSV file. *)
From Coq Require Import String Ascii List Bool Arith Lia Permutation Sorted.
From Verif Require Import PyStr StepperModel StepperSpec StepperProofs CsvModel CsvSpec CsvProofs CsvProofs2
  CsvProofs3.
Import ListNotations.
Local Open Scope string_scope. Local Open Scope nat_scope. Local Open Scope list_scope.

(** C266: after a stepped session (sweeps [dims] over values set before, run numbers growing, some
    simulations perhaps refused) the exported file, read by a CSV reader, is a title line with the names in
    the order they were first given, and for every accepted simulation a line with its run number, the value
    every name had in it and its netlist file. *)
Theorem C266_table_of_a_session : forall d dims o before net0,
  good_delimiter d -> all_reiterable dims ->
  (forall e e', In e dims -> In e' dims -> snd (d_target e) = snd (d_target e') -> d_target e = d_target e') ->
  (forall i j n m a b, i < j -> o i = Some (n, a) -> o j = Some (m, b) -> n < m) ->
  NoDup (map fst before) ->
  (forall x, In x (map fst before) \/ In x (map (fun e => snd (d_target e)) dims) ->
     x <> "runno" /\ x <> "netlist") ->
  Forall (fun kv => plain_number d (snd kv)) before ->
  (forall e v, In e dims -> In v (d_values e) -> plain_number d v) ->
  let names := names_after (map fst before) dims in
  let lines := table_lines o names (fun c => values_in (vget before) dims c) 0 (combinations dims) in
  lines <> [] ->
  exists n s, (forall m, run_steps (n + S m) dims o net0 before [] = Some s) /\
  exists file, export_step_info d (sim_info s) = Written file /\
    reads d file = Some ((Quoted (s2l "runno") :: map (fun k => Quoted (s2l k)) names ++ [Quoted (s2l "netlist")])
                         :: lines).
Proof.
  intros d dims o before net0 G HR OM INC ND NR P0 PD names lines NE.
  exact (export_session d dims o before G OM INC ND NR P0 PD net0 HR NE).
Qed.
Print Assumptions C266_table_of_a_session.

(** C267: whatever was recorded (also by several sessions, in any order), when all simulations have the
    same names the file is the table of them in ascending order of their run numbers; texts come back
    exactly, whatever quotes, delimiters and line ends are in them. *)
Theorem C267_table_of_recorded_runs : forall d i,
  good_delimiter d -> i <> [] ->
  (forall e, In e i -> NoDup (map fst (snd e)) /\ ~ In "runno" (map fst (snd e)) /\
     forall kv, In kv (snd e) -> plain_number d (snd kv)) ->
  (forall e e' x, In e i -> In e' i -> In x (map fst (snd e)) -> In x (map fst (snd e'))) ->
  exists n first rest file,
    Permutation i ((n, first) :: rest) /\ StronglySorted le (map fst ((n, first) :: rest)) /\
    export_step_info d i = Written file /\
    reads d file = Some ((Quoted (s2l "runno") :: map (fun kv => Quoted (s2l (fst kv))) first)
      :: map (fun e => Bare (dec (fst e))
              :: map (fun kv => match find (fun kv' => String.eqb (fst kv) (fst kv')) (snd e) with
                                | Some kv' => field_of (snd kv') | None => Quoted [] end) first)
             ((n, first) :: rest)).
Proof.
  intros d i G NE H K. destruct (sorted_runs i) as [|[n first] rest] eqn:E.
  - pose proof (sorted_perm i) as P. rewrite E in P. apply Permutation_sym, Permutation_nil in P. contradiction.
  - pose proof (sorted_perm i) as P. rewrite E in P.
    assert (forall e, In e ((n, first) :: rest) -> In e i) as Back.
    { intros e I. eapply Permutation_in; [apply Permutation_sym; exact P|exact I]. }
    destruct (export_ok d n first rest i G E) as (file & W & R).
    { apply Forall_forall. intros e I. apply Back in I as I'. destruct (H e I') as (A & B & C).
      split; [exact A|]. split; [exact B|]. split.
      - intros x X. apply (K e (n, first) x I'); [apply Back; left; reflexivity|exact X].
      - apply Forall_forall. exact C. }
    exists n, first, rest, file. split; [exact P|]. split.
    { pose proof (sorted_sorted i) as SS. rewrite E in SS. exact SS. }
    split; [exact W|]. rewrite R. f_equal. f_equal.
    + rewrite map_map. reflexivity.
    + apply map_ext. intros e. unfold row_of. cbn [map]. f_equal.
      * cbn [field_of]. rewrite s2l_back. reflexivity.
      * rewrite !map_map. apply map_ext. intros kv. unfold vget.
        remember (find (fun kv' => String.eqb (fst kv) (fst kv')) (snd e)) as q eqn:Q.
        change values with (list (string * value)) in *. rewrite <- Q. destruct q; reflexivity.
Qed.
Print Assumptions C267_table_of_recorded_runs.

(** C268 is false: a name that a later simulation has and the first has not makes the export fail, after
    part of the file was written. *)
Theorem C268_names_set_later_refuted : forall d i e e' x,
  In e i -> In e' i -> (forall e'', In e'' i -> e'' = e \/ fst e < fst e'') ->
  In x (map fst (snd e')) -> ~ In x (map fst (snd e)) -> x <> "runno" ->
  exists part, export_step_info d i = BadRow part.
Proof.
  intros d i e e' x I I' Min X N NR. unfold export_step_info.
  pose proof (sorted_perm i) as P. pose proof (sorted_sorted i) as S.
  destruct (sorted_runs i) as [|[n first] rest] eqn:E.
  { eapply Permutation_in in P; [|exact I]. destruct P. }
  assert ((n, first) = e) as <-.
  { destruct (Min (n, first)) as [H|H].
    - eapply Permutation_in; [apply Permutation_sym; exact P|left; reflexivity].
    - exact H.
    - assert (In e ((n, first) :: rest)) as J by (eapply Permutation_in; [exact P|exact I]).
      destruct J as [J|J]; [exact J|]. cbn [map] in S. inversion S as [|? ? _ F]; subst.
      rewrite Forall_forall in F. specialize (F (fst e) (in_map fst _ _ J)). cbn [fst] in *. lia. }
  apply write_rows_bad. exists e', x. split; [eapply Permutation_in; [exact P|exact I']|].
  split; [exact X|]. cbn [snd] in N. intros [H|H]; [congruence|contradiction].
Qed.
Print Assumptions C268_names_set_later_refuted.

(** It happens when a value is set between two sessions. *)
Example C268_nonvacuous :
  let dims := [Dim (WComponent, "R1") [VText "1k"] true] in
  let o k := Some (S k, "n") in
  let o' k := Some (S (S k), "n") in
  match run_steps 20 dims o (fun _ => None) [] [] with
  | Some s => match run_steps 20 dims o' (fun _ => None) (vset "C1" (VText "1u") (current_values s)) (sim_info s) with
              | Some s' => match export_step_info ";" (sim_info s') with BadRow _ => true | _ => false end
              | None => false end
  | None => false end = true.
Proof. vm_compute. reflexivity. Qed.

(** C269 is false: a parameter and a component of one name share a column, only the one set last is
    seen. *)
Theorem C269_same_name_refuted : exists dims o s file rows,
  In (Dim (WParam, "x") [VNumber "10"; VNumber "20"] true) dims /\
  run_steps 40 dims o (fun _ => None) [] [] = Some s /\
  export_step_info ";" (sim_info s) = Written file /\ reads ";" file = Some rows /\
  List.length rows = 3 /\
  forall row, In row rows -> ~ In (Bare (s2l "10")) row /\ ~ In (Bare (s2l "20")) row.
Proof.
  exists [Dim (WParam, "x") [VNumber "10"; VNumber "20"] true; Dim (WComponent, "x") [VNumber "7"] true],
         (fun k => Some (S k, "n.net")).
  match goal with |- exists s file rows, _ /\ ?r = Some s /\ _ =>
    assert (match r with
            | Some s => match export_step_info ";" (sim_info s) with
                        | Written f => reads ";" f
                        | _ => None end
            | None => None end
      = Some [[Quoted (s2l "runno"); Quoted (s2l "x"); Quoted (s2l "netlist")];
              [Bare (s2l "1"); Bare (s2l "7"); Quoted (s2l "n.net")];
              [Bare (s2l "2"); Bare (s2l "7"); Quoted (s2l "n.net")]]) as H by (vm_compute; reflexivity);
    destruct r as [s|]; [|discriminate] end.
  destruct (export_step_info ";" (sim_info s)) as [f| |f] eqn:E; try discriminate.
  exists s, f. eexists. split; [left; reflexivity|]. split; [reflexivity|].
  split; [exact E|]. split; [exact H|]. split; [reflexivity|].
  intros row Hr. cbn [In] in Hr.
  destruct Hr as [<-|[<-|[<-|[]]]]; split; intros K; cbn [In] in K;
    repeat (destruct K as [K|K]; [discriminate|]); destruct K.
Qed.
Print Assumptions C269_same_name_refuted.

(** C270 is false: without a single accepted simulation the export is an IndexError, not an empty table. *)
Theorem C270_no_simulation_refuted : forall d dims o net0 before fuel s,
  (forall k, o k = None) -> run_steps fuel dims o net0 before [] = Some s ->
  export_step_info d (sim_info s) = NoRuns.
Proof.
  intros d dims o net0 before fuel s N H.
  assert (forall f x s', rec_loop f dims o x = Some s' -> sim_info x = [] -> sim_info s' = []) as L.
  { induction f as [|f IH]; intros x s' E Z; [discriminate|]. cbn [rec_loop] in E.
    destruct (rec_step dims o x) as [y|] eqn:Y; [|injection E as <-; exact Z].
    apply (IH y); [exact E|]. unfold rec_step in Y. destruct (step dims (base x)) as [b|]; [|discriminate].
    injection Y as <-. destruct (iter_no (base x)) as [i|]; [|exact Z].
    destruct (nth_error dims i) as [e|].
    - destruct (nth i (iters (base x)) []); exact Z.
    - cbn [sim_info]. rewrite N. exact Z. }
  rewrite (L _ _ _ H eq_refl). reflexivity.
Qed.
Print Assumptions C270_no_simulation_refuted.
Example C270_nonvacuous : exists s,
  run_steps 20 [Dim (WComponent, "R1") [VText "1k"] true] (fun _ => None) (fun _ => None) [] [] = Some s.
Proof. vm_compute. eexists. reflexivity. Qed.

(** C271 is false: a parameter called "runno" takes the place of the run number. *)
Theorem C271_parameter_runno_refuted : exists dims o s file rows,
  run_steps 40 dims o (fun _ => None) [] [] = Some s /\ o 0 = Some (1, "n.net") /\
  export_step_info ";" (sim_info s) = Written file /\ reads ";" file = Some rows /\
  List.length rows = 2 /\ forall row, In row rows -> ~ In (Bare (dec 1)) row.
Proof.
  exists [Dim (WParam, "runno") [VNumber "50"] true], (fun k => Some (S k, "n.net")).
  match goal with |- exists s file rows, ?r = Some s /\ _ =>
    assert (match r with
            | Some s => match export_step_info ";" (sim_info s) with
                        | Written f => reads ";" f
                        | _ => None end
            | None => None end
      = Some [[Quoted (s2l "runno"); Quoted (s2l "runno"); Quoted (s2l "netlist")];
              [Bare (s2l "50"); Bare (s2l "50"); Quoted (s2l "n.net")]]) as H by (vm_compute; reflexivity);
    destruct r as [s|]; [|discriminate] end.
  destruct (export_step_info ";" (sim_info s)) as [f| |f] eqn:E; try discriminate.
  exists s, f. eexists. split; [reflexivity|]. split; [reflexivity|].
  split; [exact E|]. split; [exact H|]. split; [reflexivity|].
  intros row Hr. cbn [In] in Hr.
  destruct Hr as [<-|[<-|[]]]; intros K; cbn [In] in K;
    repeat (destruct K as [K|K]; [discriminate|]); destruct K.
Qed.
Print Assumptions C271_parameter_runno_refuted.

(** A session that meets the hypotheses of C266: two sweeps, a value set before, one simulation refused. *)
Example C266_nonvacuous :
  let dims := [Dim (WParam, "temp") [VNumber "0"; VNumber "80"] true;
               Dim (WModel, "D1") [VText "BAT""54"; VText "x;y"] true] in
  let o k := match k with 2 => None | _ => Some (k + 3, "n.net") end in
  (forall i j n m a b, i < j -> o i = Some (n, a) -> o j = Some (m, b) -> n < m) /\
  good_delimiter ";" /\
  table_lines o (names_after ["R1"] dims) (fun c => values_in (vget [("R1", VText "1k")]) dims c) 0
    (combinations dims)
  = [[Bare (s2l "3"); Quoted (s2l "1k"); Bare (s2l "0"); Quoted (s2l "BAT""54"); Quoted (s2l "n.net")];
     [Bare (s2l "4"); Quoted (s2l "1k"); Bare (s2l "0"); Quoted (s2l "x;y"); Quoted (s2l "n.net")];
     [Bare (s2l "6"); Quoted (s2l "1k"); Bare (s2l "80"); Quoted (s2l "x;y"); Quoted (s2l "n.net")]].
Proof.
  split; [|split].
  - intros i j n m a b L A B. destruct i as [|[|[|i]]], j as [|[|[|j]]]; cbn in *; try discriminate;
      injection A as <- <-; injection B as <- <-; lia.
  - repeat split; discriminate.
  - vm_compute. reflexivity.
Qed.

(** Two recorded sessions in the wrong order, with texts full of special characters. *)
Example C267_nonvacuous :
  let i := [(12, [("R1", VText "1k"); ("t", VNumber "-1.5e-05")]);
            (3, [("t", VNumber "7"); ("R1", VText "a""b;c")])] in
  good_delimiter ";" /\
  (forall e, In e i -> NoDup (map fst (snd e)) /\ ~ In "runno" (map fst (snd e)) /\
     forall kv, In kv (snd e) -> plain_number ";" (snd kv)) /\
  (forall e e' x, In e i -> In e' i -> In x (map fst (snd e)) -> In x (map fst (snd e'))) /\
  match export_step_info ";" i with
  | Written f => reads ";" f
  | _ => None
  end = Some [[Quoted (s2l "runno"); Quoted (s2l "t"); Quoted (s2l "R1")];
              [Bare (s2l "3"); Bare (s2l "7"); Quoted (s2l "a""b;c")];
              [Bare (s2l "12"); Bare (s2l "-1.5e-05"); Quoted (s2l "1k")]].
Proof.
  cbn zeta. split; [repeat split; discriminate|]. split; [|split; [|vm_compute; reflexivity]].
  - intros e [<-|[<-|[]]]; cbn [snd map fst]; (split; [|split]).
    + repeat constructor; cbn; intuition discriminate.
    + cbn; intuition discriminate.
    + intros kv [<-|[<-|[]]]; cbn [plain_number snd]; [exact I|].
      repeat split; [discriminate| | | |]; vm_compute; intuition discriminate.
    + repeat constructor; cbn; intuition discriminate.
    + cbn; intuition discriminate.
    + intros kv [<-|[<-|[]]]; cbn [plain_number snd]; [|exact I].
      repeat split; [discriminate| | | |]; vm_compute; intuition discriminate.
  - intros e e' x [<-|[<-|[]]] [<-|[<-|[]]]; cbn; tauto.
Qed.
