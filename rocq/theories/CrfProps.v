(** C272-C277: one RAW file out of the runs (sim_runner.py, create_raw_file_with). *)
From Coq Require Import String Ascii List Bool Arith QArith Qabs Lqa Lia Sorted.
From Verif Require Import PyStr EngModel StepsModel MrgModel MrgSpec MrgProofs MrgProofs2 MrgProps CrfModel CrfSpec CrfProofs.
Import ListNotations.
Local Open Scope string_scope. Local Open Scope nat_scope. Local Open Scope list_scope.

Lemma mk_what name data what num :
  (name = s2l "time" -> what = s2l "time") -> (name = s2l "frequency" -> what = s2l "frequency") -> t_what (mk_trace name data what num) = what.
Proof.
  intros A B. cbn [mk_trace t_what]. destruct (str_eqb name (s2l "time")) eqn:E.
  - apply str_eqb_eq in E. symmetry. auto.
  - destruct (str_eqb name (s2l "frequency")) eqn:E2; [|reflexivity]. apply str_eqb_eq in E2. symmetry. auto.
Qed.

Lemma all_raw_spec : forall tasks, all_raw tasks = true <-> Forall (fun t => k_raw t <> None) tasks.
Proof.
  intros tasks. unfold all_raw. rewrite forallb_forall, Forall_forall. split; intros H t I; specialize (H t I); destruct (k_raw t); congruence.
Qed.

Lemma first_traces (s0 : source) n0 ax (others : list (nat * source)) : forall save trs,
  Forall2 (fun n t => StepsModel.dget n (s_traces s0) = Some t /\ length (st_wave t 0) = length (st_wave (s_ax s0) 0)) save trs ->
  others <> [] ->
  forall ts',
  Forall2 (fun t t' => t_name t' = t_name t /\ t_what t' = t_what t /\ t_num t' = t_num t /\
             (length ax <> length (st_wave (s_ax s0) 0) -> resampled (st_wave (s_ax s0) 0) (t_data t) ax (t_data t')))
    (map (fun nt => mk_trace (rename (AddTag (dec n0)) (fst nt)) (st_wave (snd nt) 0) (st_what (snd nt)) (st_num (snd nt))) (combine save trs)) ts' ->
  Forall2 (fun x t' => exists t, has_trace s0 0 x t /\ t_name t' = rename (AddTag (dec n0)) x /\
             (others = [] -> t_data t' = st_wave t 0) /\
             (length ax <> length (st_wave (s_ax s0) 0) -> is_trace_of ax (n0, s0, x) t')) save ts'.
Proof.
  intros save trs F NO. induction F as [|x t l ts (A & B) F IH]; intros ts' H; cbn [combine map] in *; inversion H as [|? ? ? ? (N & W & U & R) H']; subst;
    constructor; [|apply IH; assumption].
  exists t. split; [split; assumption|]. split; [exact N|]. split; [intros; contradiction|]. intros LE.
  exists t. split; [split; assumption|]. split; [exact N|]. split; [exact U|]. split; [|exact (R LE)].
  rewrite N, W. intros (O1 & O2). cbn [mk_trace t_what t_name fst snd] in *.
  apply str_eqb_neq in O1. apply str_eqb_neq in O2. rewrite O1, O2. reflexivity.
Qed.

(** C272: the file has, for each run with a RAW file, each of the wanted traces: the name tagged with the run number, the samples of
    the run interpolated on the common axis. The traces of the first run are resampled whenever the axis has got another length
    (C200 for the case that it has not), and are exact copies if there is no other run. The method returns True exactly if no run
    lacked its RAW file. *)
Theorem C272_all_runs : forall title n0 s0 rest save ty,
  NoDup save -> save <> [] ->
  number_type (s_flags s0) ty -> proper_axis s0 -> increasing (st_wave (s_ax s0) 0) ->
  Forall (fun x => exists t, has_trace s0 0 x t) save ->
  2 + length (with_file rest) < length (st_wave (s_ax s0) 0) ->
  Forall (fun rs => usable (2 + length (with_file rest)) save (snd rs) /\ same_kind (snd rs) ty (st_what (s_ax s0))) (with_file rest) ->
  exists ok w ax first others,
    create_raw_file_with title (Task n0 (Some s0) :: rest) save = Made ok w /\
    (ok = true <-> Forall (fun t => k_raw t <> None) rest) /\
    w_traces w = ax :: first ++ others /\
    t_name ax = s_ax_name s0 /\ increasing (t_data ax) /\
    (with_file rest = [] -> t_data ax = st_wave (s_ax s0) 0) /\
    Forall2 (fun x t' => exists t, has_trace s0 0 x t /\ t_name t' = rename (AddTag (dec n0)) x /\
               (with_file rest = [] -> t_data t' = st_wave t 0) /\
               (length (t_data ax) <> length (st_wave (s_ax s0) 0) -> is_trace_of (t_data ax) (n0, s0, x) t')) save first /\
    Forall2 (is_trace_of (t_data ax)) (wanted_traces (with_file rest) save) others.
Proof.
  intros title n0 s0 rest save ty ND NE NT (PA1 & PA2) INC HT LEN FO.
  destruct (found_first s0 save HT) as (trs & FT).
  pose proof (first_call title n0 s0 rest save trs (ltac:(clear - FT; induction FT as [|a b l l' (A & _) F IH]; constructor; assumption))) as FC.
  set (ax0 := mk_trace (s_ax_name s0) (st_wave (s_ax s0) 0) (st_what (s_ax s0)) (st_num (s_ax s0))) in *.
  set (ts0 := map (fun nt => mk_trace (rename (AddTag (dec n0)) (fst nt)) (st_wave (snd nt) 0) (st_what (snd nt)) (st_num (snd nt))) (combine save trs)) in *.
  set (w0 := Writer (num_type (s_flags s0)) (existsb (str_eqb (s2l "forward")) (s_flags s0)) (existsb (str_eqb (s2l "log")) (s_flags s0))
          (s_plot s0) (ax0 :: ts0) [] []) in *.
  pose proof NT as NT'. apply num_type_ok in NT'.
  assert (t_what ax0 = st_what (s_ax s0)) as AW by (apply mk_what; assumption).
  set (srcs := sources (Task n0 (Some s0) :: rest)) in *.
  assert (forall st, add_tasks srcs save 0 (Task n0 (Some s0) :: rest) true (new_raw title, file_names) = st <->
    option_map (fun st' => (all_raw rest, st')) (add_calls srcs (calls save 1 rest) (w0, file_names)) = st) as ET.
  { intros st. rewrite add_tasks_calls. cbn [calls k_raw k_runno add_calls]. rewrite FC. reflexivity. }
  assert (length ts0 = length save) as LT.
  { unfold ts0. rewrite map_length, combine_length. clear - FT. assert (length trs = length save) as -> by (induction FT; cbn; congruence). lia. }
  destruct (with_file rest) as [|[n1 s1] l1] eqn:WF.
  - exists (all_raw rest), w0, ax0, ts0, []. split.
    { unfold create_raw_file_with. cbn [k_raw]. fold srcs.
      assert (calls save 1 rest = []) as CE.
      { pose proof (calls_length save rest 1) as H. rewrite WF in H. destruct (calls save 1 rest); [reflexivity|discriminate]. }
      assert (add_tasks srcs save 0 (Task n0 (Some s0) :: rest) true (new_raw title, file_names) = Some (all_raw rest, (w0, file_names))) as ->.
      { apply ET. rewrite CE. reflexivity. }
      reflexivity. }
    split; [apply all_raw_spec|]. split; [cbn [w_traces w0]; rewrite app_nil_r; reflexivity|]. split; [reflexivity|]. split; [exact INC|].
    split; [reflexivity|]. split.
    + unfold ts0. clear - FT. cbn [ax0 mk_trace t_data].
      induction FT as [|x t l ts (A & B) F IH]; cbn [combine map]; constructor; [|exact IH].
      exists t. split; [split; assumption|]. split; [reflexivity|]. split; [reflexivity|]. intros H. contradiction.
    + constructor.
  - rewrite <- WF in *. assert (length (with_file rest) = length (calls save 1 rest)) as LC by (symmetry; apply calls_length).
    destruct (C199_aligned srcs (calls save 1 rest) w0 file_names ax0 ts0) as (w1 & nm1 & w' & ax' & ts' & ims & E1 & E2 & E3 & E4 & _ & E6 & E7 & E8).
    + reflexivity.
    + reflexivity.
    + reflexivity.
    + destruct save as [|x save]; [contradiction|]. destruct (calls (x :: save) 1 rest) as [|c cs] eqn:CE.
      * exfalso. cbn in LC. rewrite WF in LC. discriminate.
      * intros H. unfold wanted in H. cbn [flat_map] in H. apply app_eq_nil in H as (H & _).
        assert (c_names c = x :: save) as CN.
        { assert (In c (calls (x :: save) 1 rest)) as I by (rewrite CE; left; reflexivity).
          clear - I. revert I. generalize 1. induction rest as [|t r IH]; intros k I; [destruct I|]. cbn [calls] in I.
          destruct (k_raw t); [destruct I as [<-|I]; [reflexivity|]|]; eapply IH; exact I. }
        rewrite CN in H. discriminate.
    + exact INC.
    + rewrite <- LC. cbn [ax0 mk_trace t_data]. exact LEN.
    + unfold ts0. apply map_combine_len with (s0 := s0). exact FT.
    + rewrite <- LC. cbn [w0 w_num]. rewrite NT', AW.
      apply (calls_aligned save ty (st_what (s_ax s0)) (2 + length (with_file rest)) rest [Task n0 (Some s0)]). exact FO.
    + apply wanted_nodup. exact ND.
    + exists (all_raw rest), w', ax', ts', ims. split.
      { unfold create_raw_file_with. cbn [k_raw]. fold srcs.
        assert (add_tasks srcs save 0 (Task n0 (Some s0) :: rest) true (new_raw title, file_names) = Some (all_raw rest, (w1, nm1))) as ->.
        { apply ET. rewrite E1. reflexivity. }
        rewrite E2. reflexivity. }
      split; [apply all_raw_spec|]. split; [exact E3|]. split; [exact E4|]. split; [exact E6|].
      split; [intros H; rewrite H in WF; discriminate|]. split.
      * apply (first_traces s0 n0 (t_data ax') (with_file rest) save trs FT); [rewrite WF; discriminate|exact E7].
      * apply (wanted_traces_ok save (t_data ax') rest [Task n0 (Some s0)] ims). exact E8.
Qed.
Print Assumptions C272_all_runs.
Lemma last_us : forall a b n m, a ++ s2l "_" ++ dec n = b ++ s2l "_" ++ dec m -> a = b /\ n = m.
Proof.
  intros a b n m E. change (s2l "_" ++ dec n) with ("_"%char :: dec n) in E. change (s2l "_" ++ dec m) with ("_"%char :: dec m) in E.
  pose proof (split_at_last_app "_" a (dec n) (dec_no_char "_" n eq_refl)) as H1.
  pose proof (split_at_last_app "_" b (dec m) (dec_no_char "_" m eq_refl)) as H2.
  rewrite E, H2 in H1. injection H1 as <- H1. split; [reflexivity|]. apply dec_inj. symmetry. exact H1.
Qed.

(** The names after tagging tell the runs and the traces apart. *)
Lemma tag_inj : forall n m x y, plain_name x -> plain_name y -> rename (AddTag (dec n)) x = rename (AddTag (dec m)) y -> n = m /\ x = y.
Proof.
  intros n m x y [(k & b & K & NB & NI & ->)|X] [(k' & b' & K' & NB' & NI' & ->)|Y] E.
  - rewrite (proj1 (C206_tag (dec n)) k b K NB NI), (proj1 (C206_tag (dec m)) k' b' K' NB' NI') in E.
    injection E as <- E. change (b ++ (s2l "_" ++ (dec n ++ s2l ")")) = b' ++ (s2l "_" ++ (dec m ++ s2l ")"))) in E.
    rewrite !app_assoc in E. apply app_inj_tail in E as (E & _). rewrite <- !app_assoc in E.
    apply last_us in E as (-> & ->). split; reflexivity.
  - exfalso. rewrite (proj1 (C206_tag (dec n)) k b K NB NI), (proj2 (C206_tag (dec m)) y Y) in E.
    rewrite !app_assoc in E. change (s2l ")") with [")"%char] in E.
    assert (exists q c, dec m = q ++ [c]) as (q & c & D).
    { destruct (exists_last (dec_not_nil m)) as (q & c & D). exists q, c. exact D. }
    rewrite D in E. rewrite app_assoc in E. apply app_inj_tail in E as (_ & <-).
    apply (dec_no_char ")" m eq_refl). rewrite D. apply in_or_app. right. left. reflexivity.
  - exfalso. rewrite (proj1 (C206_tag (dec m)) k' b' K' NB' NI'), (proj2 (C206_tag (dec n)) x X) in E. symmetry in E.
    rewrite !app_assoc in E. change (s2l ")") with [")"%char] in E.
    assert (exists q c, dec n = q ++ [c]) as (q & c & D).
    { destruct (exists_last (dec_not_nil n)) as (q & c & D). exists q, c. exact D. }
    rewrite D in E. rewrite app_assoc in E. apply app_inj_tail in E as (_ & <-).
    apply (dec_no_char ")" n eq_refl). rewrite D. apply in_or_app. right. left. reflexivity.
  - rewrite (proj2 (C206_tag (dec n)) x X), (proj2 (C206_tag (dec m)) y Y) in E. apply last_us in E as (-> & ->). split; reflexivity.
Qed.

Lemma names_nodup : forall (l : list (nat * str)), NoDup l -> Forall (fun q => plain_name (snd q)) l ->
  NoDup (map (fun q => rename (AddTag (dec (fst q))) (snd q)) l).
Proof.
  intros l ND. induction ND as [|[n x] l NI ND IH]; intros F; inversion F as [|? ? P F']; subst; cbn [map]; constructor; [|apply IH; exact F'].
  intros I. apply in_map_iff in I as ([m y] & E & I). cbn [fst snd] in *. apply NI.
  rewrite Forall_forall in F'. specialize (F' (m, y) I). apply tag_inj in E as (-> & ->); [exact I|exact F'|exact P].
Qed.

Lemma prod_nodup : forall (runs : list (nat * source)) (save : list str), NoDup (map fst runs) -> NoDup save ->
  NoDup (flat_map (fun rs => map (fun x => (fst rs, x)) save) runs).
Proof.
  intros runs save ND NS. induction runs as [|[n s] runs IH]; cbn [flat_map]; [constructor|].
  inversion ND as [|? ? NI ND']; subst. cbn [fst] in *.
  assert (NoDup (map (fun x => (n, x)) save)) as H1.
  { apply FinFun.Injective_map_NoDup; [|exact NS]. intros a b E. injection E as E. exact E. }
  specialize (IH ND'). assert (forall x, In (n, x) (flat_map (fun rs => map (fun y => (fst rs, y)) save) runs) -> False) as H2.
  { intros x I. apply in_flat_map in I as ([m t] & I & J). apply in_map_iff in J as (y & E & _). injection E as -> _.
    apply NI. apply in_map_iff. exists (n, t). split; [reflexivity|exact I]. }
  clear NS. revert H1. generalize save at 1 2 as l. induction l as [|x l IHl]; intros H1; cbn [map app]; [exact IH|].
  inversion H1 as [|? ? N1 H1']; subst. constructor; [|apply IHl; exact H1'].
  rewrite in_app_iff. intros [I|I]; [contradiction|]. exact (H2 x I).
Qed.

(** C273: the names of all traces of the file are different, whatever the runs and the traces: none hides another. *)
Theorem C273_distinct_names : forall title n0 s0 rest save ty ok w,
  NoDup save -> save <> [] ->
  number_type (s_flags s0) ty -> proper_axis s0 -> increasing (st_wave (s_ax s0) 0) ->
  Forall (fun x => exists t, has_trace s0 0 x t) save ->
  2 + length (with_file rest) < length (st_wave (s_ax s0) 0) ->
  Forall (fun rs => usable (2 + length (with_file rest)) save (snd rs) /\ same_kind (snd rs) ty (st_what (s_ax s0))) (with_file rest) ->
  Forall plain_name save -> NoDup (n0 :: map fst (with_file rest)) ->
  create_raw_file_with title (Task n0 (Some s0) :: rest) save = Made ok w ->
  NoDup (map t_name (tl (w_traces w))) /\
  forall n x, In n (n0 :: map fst (with_file rest)) -> In x save -> In (rename (AddTag (dec n)) x) (map t_name (tl (w_traces w))).
Proof.
  intros title n0 s0 rest save ty ok w ND NE NT PA INC HT LEN FO PL NR EC.
  destruct (C272_all_runs title n0 s0 rest save ty ND NE NT PA INC HT LEN FO)
    as (ok' & w' & ax & first & others & EC' & _ & EW & _ & _ & _ & F1 & F2).
  rewrite EC in EC'. injection EC' as <- <-. rewrite EW. cbn [tl].
  assert (map t_name (first ++ others) =
    map (fun q => rename (AddTag (dec (fst q))) (snd q)) (flat_map (fun rs => map (fun x => (fst rs, x)) save) ((n0, s0) :: with_file rest))) as E.
  { rewrite map_app. cbn [flat_map]. rewrite map_app. f_equal.
    - rewrite map_map. cbn [fst snd]. clear - F1. induction F1 as [|x t l l' (s & _ & H & _) F IH]; cbn [map]; [reflexivity|]. rewrite H, IH. reflexivity.
    - assert (map t_name others = map (fun q => rename (AddTag (dec (fst (fst q)))) (snd q)) (wanted_traces (with_file rest) save)) as ->.
      { clear - F2. induction F2 as [|[[n s] x] t l l' H F IH]; cbn [map]; [reflexivity|]. destruct H as (u & _ & H & _).
        cbn [fst snd]. rewrite H, IH. reflexivity. }
      unfold wanted_traces. clear. induction (with_file rest) as [|[n s] l IH]; cbn [flat_map]; [reflexivity|].
      rewrite !map_app, IH, !map_map. reflexivity. }
  rewrite E. split.
  - apply names_nodup.
    + apply prod_nodup; assumption.
    + apply Forall_forall. intros [m x] I. apply in_flat_map in I as (rs & _ & I). apply in_map_iff in I as (y & Q & I). injection Q as _ <-.
      rewrite Forall_forall in PL. apply PL. exact I.
  - intros n x I J. apply in_map_iff. exists (n, x). split; [reflexivity|]. apply in_flat_map.
    assert (exists s, In (n, s) ((n0, s0) :: with_file rest)) as (s & Q).
    { destruct I as [<-|I]; [exists s0; left; reflexivity|]. apply in_map_iff in I as ([m s] & <- & I). exists s. right. exact I. }
    exists (n, s). split; [exact Q|]. apply in_map_iff. exists x. split; [reflexivity|exact J].
Qed.
Print Assumptions C273_distinct_names.

(** A case: two runs, and one without RAW file between them; the axes differ. *)
Definition ex_run (ax v : list Q) : source :=
  Source [s2l "real"; s2l "forward"] (s2l "Transient Analysis") (s2l "time")
    (STrace (s2l "time") (s2l "double") (fun _ => ax)) [(s2l "V(out)", STrace (s2l "voltage") (s2l "real") (fun _ => v))].
Definition ex_a : source := ex_run [0; 1; 2; 3; 4]%Q [0; 10; 20; 30; 40]%Q.
Definition ex_b : source := ex_run [0; 1#2; 1; 2; 3; 4]%Q [0; 1; 2; 4; 6; 8]%Q.
Definition ex_rest : list rtask := [Task 2 None; Task 3 (Some ex_b)].
Example C272_nonvacuous :
  (NoDup [s2l "V(out)"] /\ number_type (s_flags ex_a) (s2l "real") /\ proper_axis ex_a /\ increasing (st_wave (s_ax ex_a) 0) /\
   Forall (fun x => exists t, has_trace ex_a 0 x t) [s2l "V(out)"] /\
   2 + length (with_file ex_rest) < length (st_wave (s_ax ex_a) 0) /\
   Forall (fun rs => usable (2 + length (with_file ex_rest)) [s2l "V(out)"] (snd rs) /\ same_kind (snd rs) (s2l "real") (st_what (s_ax ex_a)))
     (with_file ex_rest) /\
   Forall plain_name [s2l "V(out)"] /\ NoDup (1 :: map fst (with_file ex_rest))) /\
  exists w, create_raw_file_with (s2l "t") (Task 1 (Some ex_a) :: ex_rest) [s2l "V(out)"] = Made false w /\
    map t_name (w_traces w) = [s2l "time"; s2l "V(out_1)"; s2l "V(out_3)"].
Proof.
  split.
  - split; [constructor; [tauto|constructor]|]. split.
    { left. exists [], [s2l "forward"]. repeat split; [left; reflexivity|intros []|intros []]. }
    split; [split; [intros _; reflexivity|intros H; vm_compute in H; discriminate]|]. split.
    { repeat (constructor; [|repeat (constructor; [reflexivity|]); constructor]). constructor. }
    split; [constructor; [eexists; split; vm_compute; reflexivity|constructor]|]. split; [cbn; lia|]. split.
    { constructor; [|constructor]. cbn [fst snd]. split.
      - split; [|split; [cbn; lia|]].
        + repeat (constructor; [|repeat (constructor; [vm_compute; discriminate|]); constructor]). constructor.
        + constructor; [eexists; split; vm_compute; reflexivity|constructor].
      - split; [|reflexivity]. left. exists [], [s2l "forward"]. repeat split; [left; reflexivity|intros []|intros []]. }
    split.
    { constructor; [|constructor]. left. exists "V"%char, (s2l "out"). split; [vm_compute; tauto|]. split; [discriminate|].
      split; [vm_compute; intros H; repeat (destruct H as [H|H]; [discriminate|]); exact H|reflexivity]. }
    { constructor; [cbn; intros [H|[]]; discriminate|]. constructor; [intros []|constructor]. }
  - eexists. split; [vm_compute; reflexivity|reflexivity].
Qed.

(** ** What the documentation promises and the code does not do *)
(** C274: no run matches: an exception, not False. *)
Theorem C274_no_run_refuted : forall title save ok w,
  create_raw_file_with title [] save = NoTask /\ create_raw_file_with title [] save <> Made ok w.
Proof. intros. split; [reflexivity|discriminate]. Qed.
Print Assumptions C274_no_run_refuted.

(** C275: the first matching run has no RAW file: nothing is created, whatever the others have. *)
Theorem C275_first_missing_refuted : forall title n0 rest save,
  create_raw_file_with title (Task n0 None :: rest) save = NoTemplate.
Proof. reflexivity. Qed.
Print Assumptions C275_first_missing_refuted.

(** C276: only the first step of a stepped run gets into the file: what is made does not depend on the others. *)
Definition first_step_like (t t' : strace) : Prop := st_what t = st_what t' /\ st_num t = st_num t' /\ st_wave t 0 = st_wave t' 0.
Definition same_first_step (s s' : source) : Prop :=
  s_flags s = s_flags s' /\ s_plot s = s_plot s' /\ s_ax_name s = s_ax_name s' /\ first_step_like (s_ax s) (s_ax s') /\
  Forall2 (fun a b => fst a = fst b /\ first_step_like (snd a) (snd b)) (s_traces s) (s_traces s').
Definition same_tasks (t t' : rtask) : Prop :=
  k_runno t = k_runno t' /\
  match k_raw t, k_raw t' with Some s, Some s' => same_first_step s s' | None, None => True | _, _ => False end.
Lemma dget_like : forall l l' n, Forall2 (fun a b => fst a = fst b /\ first_step_like (snd a) (snd b)) l l' ->
  match StepsModel.dget n l, StepsModel.dget n l' with
  | Some t, Some t' => first_step_like t t' | None, None => True | _, _ => False end.
Proof.
  intros l l' n F. unfold StepsModel.dget. induction F as [|[k t] [k' t'] l l' (E & S1) F IH]; cbn [find]; [exact I|].
  cbn [fst snd] in *. subst k'. destruct (str_eqb k n); [exact S1|exact IH].
Qed.

Section Like.
Variables srcs srcs' : nat -> source.
Hypothesis like : forall k, same_first_step (srcs k) (srcs' k).

Lemma import_like k r : forall l imp nm, import_all srcs k r l imp nm = import_all srcs' k r l imp nm.
Proof.
  induction l as [|n l IH]; intros imp nm; cbn [import_all]; [reflexivity|].
  destruct (like k) as (_ & _ & _ & _ & F). pose proof (dget_like _ _ n F) as H.
  destruct (StepsModel.dget n (s_traces (srcs k))), (StepsModel.dget n (s_traces (srcs' k))); try contradiction; [apply IH|reflexivity].
Qed.
Lemma append_like k r : forall l ts, append_all srcs k r 0 l ts = append_all srcs' k r 0 l ts.
Proof.
  induction l as [|n l IH]; intros ts; cbn [append_all]; [reflexivity|].
  destruct (like k) as (_ & _ & _ & _ & F). pose proof (dget_like _ _ n F) as H.
  destruct (StepsModel.dget n (s_traces (srcs k))) as [t|], (StepsModel.dget n (s_traces (srcs' k))) as [t'|]; try contradiction; [|reflexivity].
  destruct H as (-> & -> & ->). apply IH.
Qed.
Lemma data_like c al w nm : c_step c = 0 -> add_data srcs c al w nm = add_data srcs' c al w nm.
Proof.
  intros S0. unfold add_data. rewrite S0. destruct (like (c_src c)) as (_ & _ & _ & (_ & _ & AX) & _). rewrite AX.
  rewrite append_like. destruct (w_traces w) as [|ax ts]; [reflexivity|].
  rewrite import_like. reflexivity.
Qed.
Lemma traces_like c st : c_step c = 0 -> add_traces srcs c st = add_traces srcs' c st.
Proof.
  intros S0. destruct st as [w nm]. unfold add_traces. rewrite !(data_like c _ _ _ S0).
  destruct (like (c_src c)) as (-> & -> & -> & (-> & -> & AX) & _). rewrite S0, AX. reflexivity.
Qed.
Lemma imports_like nm ts : forall l, interp_imports srcs nm ts l = interp_imports srcs' nm ts l.
Proof.
  induction l as [|[k n] l IH]; cbn [interp_imports]; [reflexivity|]. rewrite IH.
  destruct (like k) as (_ & _ & _ & (_ & _ & AX) & F). pose proof (dget_like _ _ n F) as H. rewrite AX.
  destruct (StepsModel.dget n (s_traces (srcs k))) as [t|], (StepsModel.dget n (s_traces (srcs' k))) as [t'|]; try contradiction; [|reflexivity].
  destruct H as (-> & -> & ->). reflexivity.
Qed.
Lemma save_like w nm : before_save srcs w nm = before_save srcs' w nm.
Proof. unfold before_save, consolidate. rewrite imports_like. reflexivity. Qed.
End Like.

Lemma like_refl s : same_first_step s s.
Proof.
  repeat split. induction (s_traces s) as [|a l IH]; constructor; [|exact IH]. repeat split.
Qed.

Theorem C276_steps_refuted : forall title save tasks tasks', Forall2 same_tasks tasks tasks' ->
  create_raw_file_with title tasks save = create_raw_file_with title tasks' save.
Proof.
  intros title save tasks tasks' F.
  assert (forall k, same_first_step (sources tasks k) (sources tasks' k)) as L.
  { unfold sources. clear title save. induction F as [|[n s] [n' s'] l l' (E & H) F IH]; intros k.
    - destruct k; apply like_refl.
    - destruct k as [|k]; [|apply IH]. cbn [nth_error k_runno k_raw] in *. subst n'. destruct s, s'; try contradiction; [exact H|apply like_refl]. }
  assert (forall k ok st, add_tasks (sources tasks) save k tasks ok st = add_tasks (sources tasks') save k tasks' ok st) as A.
  { revert L. generalize (sources tasks) (sources tasks'). intros srcs srcs' L.
    induction F as [|[n s] [n' s'] l l' (E & H) F IH]; intros k ok st; cbn [add_tasks]; [reflexivity|].
    cbn [k_runno k_raw] in *. subst n'. destruct s, s'; try contradiction; [|apply IH].
    rewrite (traces_like srcs srcs' L) by reflexivity. destruct (add_traces srcs' (call_for save k n) st); [apply IH|reflexivity]. }
  unfold create_raw_file_with. destruct F as [|[n s] [n' s'] l l' (E & H) F]; [reflexivity|]. cbn [k_runno k_raw] in *.
  destruct s, s'; try contradiction; [|reflexivity]. rewrite A.
  match goal with |- match ?a with _ => _ end = _ => destruct a as [[ok [w nm]]|] end; [|reflexivity].
  rewrite (save_like _ _ L). reflexivity.
Qed.
Print Assumptions C276_steps_refuted.
Example C276_nonvacuous :
  let two := Source (s_flags ex_a) (s_plot ex_a) (s_ax_name ex_a) (STrace (s2l "time") (s2l "double") (fun _ => [0; 1; 2; 3; 4]%Q))
     [(s2l "V(out)", STrace (s2l "voltage") (s2l "real") (fun k => match k with 0 => [0; 10; 20; 30; 40]%Q | _ => [7; 7; 7; 7; 7]%Q end))] in
  Forall2 same_tasks [Task 1 (Some ex_a)] [Task 1 (Some two)] /\ ex_a <> two.
Proof.
  split.
  - constructor; [|constructor]. split; [reflexivity|]. cbn [k_raw]. split; [reflexivity|]. split; [reflexivity|]. split; [reflexivity|].
    split; [repeat split|]. constructor; [|constructor]. repeat split.
  - intros E. assert (map (fun q => st_wave (snd q) 1) (s_traces ex_a) = [[7; 7; 7; 7; 7]%Q]) as H by (rewrite E; reflexivity). vm_compute in H. discriminate.
Qed.

(** C277: all runs have the same axis: each run after the first costs the file its last point. *)
Lemma merge_prefix : forall err a r f, (0 < err)%Q -> length a + length (a ++ r) <= f -> merge f err a (a ++ r) = removelast a.
Proof.
  intros err a r f EP. revert a. induction f as [|f IH]; intros a L; [destruct a; [reflexivity|cbn in L; lia]|].
  cbn [merge]. destruct a as [|x [|x' l]]; [reflexivity|reflexivity|].
  change ((x :: x' :: l) ++ r) with (x :: x' :: (l ++ r)). cbv iota.
  assert (Qltb (Qabs (x - x)) err = true) as ->.
  { unfold Qltb. apply negb_true_iff. apply not_true_iff_false. intros H. apply Qle_bool_iff in H.
    assert (Qabs (x - x) == 0)%Q as E by (rewrite (Qabs_wd (x - x) 0); [reflexivity|ring]). rewrite E in H. lra. }
  change (removelast (x :: x' :: l)) with (x :: removelast (x' :: l)). f_equal.
  change (x' :: l ++ r) with ((x' :: l) ++ r). apply IH. cbn [length app] in *. lia.
Qed.
Lemma merged_prefix err m l : (0 < err)%Q -> m <= length l -> merged err (firstn m l) l = firstn (m - 1) l.
Proof.
  intros EP L. unfold merged. pattern l at 2 4. rewrite <- (firstn_skipn m l).
  rewrite merge_prefix; [|exact EP|rewrite app_length; lia].
  destruct m as [|m]; [reflexivity|]. rewrite removelast_firstn by lia. f_equal. lia.
Qed.

Lemma same_axis_calls (srcs : nat -> source) ax ts : forall cs m w nm N,
  w_traces w = ax :: ts -> (w_new w = firstn m (t_data ax) \/ (w_new w = [] /\ m = length (t_data ax))) -> 0 < m ->
  m <= length (t_data ax) -> length cs < m ->
  Forall (fun c => aligned srcs N (w_num w) (t_what ax) c /\ st_wave (s_ax (srcs (c_src c))) 0 = t_data ax /\ c_names c <> []) cs ->
  exists w1 nm1, add_calls srcs cs (w, nm) = Some (w1, nm1) /\ w_traces w1 = ax :: ts /\
    (cs <> [] -> w_new w1 = firstn (m - length cs) (t_data ax) /\ w_imp w1 <> []).
Proof.
  induction cs as [|c cs IH]; intros m w nm N W NW MP ML LC F.
  - exists w, nm. split; [reflexivity|]. split; [exact W|]. intros H. contradiction.
  - inversion F as [|? ? ((A1 & EP & ST & MS & (K1 & K2) & SP & LN & HT) & SAME & NE) F']; subst. cbn [length] in LC.
    pose proof K1 as K1'. apply num_type_ok in K1'.
    destruct (import_ok srcs (c_names c) (c_src c) (c_ren c) (w_imp w) nm HT) as (nm' & EI & _).
    assert (Qltb 0 (c_minstep c) = false) as M0 by (unfold Qltb; apply negb_false_iff; apply Qle_bool_iff; lra).
    assert (merged (c_err c) (match w_new w with [] => t_data ax | l => l end) (t_data ax) = firstn (m - 1) (t_data ax)) as MG.
    { destruct NW as [NW|(NW & ->)]; rewrite NW.
      - rewrite <- (merged_prefix (c_err c) m (t_data ax) EP ML).
        destruct (firstn m (t_data ax)) eqn:E; [|reflexivity].
        exfalso. assert (length (firstn m (t_data ax)) = 0) as H by (rewrite E; reflexivity). rewrite firstn_length in H. lia.
      - rewrite <- (merged_prefix (c_err c) (length (t_data ax)) (t_data ax) EP (le_n _)). rewrite firstn_all. reflexivity. }
    set (w2 := Writer (w_num w) (w_fwd w) (w_log w) (w_plot w) (w_traces w) (firstn (m - 1) (t_data ax)) (w_imp w ++ map (fun n => (c_src c, n)) (c_names c))).
    assert (add_traces srcs c (w, nm) = Some (w2, nm')) as EA.
    { unfold add_traces. rewrite W, K1', str_eqb_refl, K2, str_eqb_refl. cbn [negb].
      destruct (c_names c) as [|x l] eqn:Z; [contradiction|]. unfold add_data. rewrite W, A1, M0, Z.
      cbn [orb]. rewrite EI, ST, SAME, MG. unfold w2. rewrite W. reflexivity. }
    cbn [add_calls]. rewrite EA.
    destruct (IH (m - 1) w2 nm' N) as (w1 & nm1 & E1 & E2 & E3).
    + exact W.
    + left. reflexivity.
    + lia.
    + lia.
    + lia.
    + exact F'.
    + exists w1, nm1. split; [exact E1|]. split; [exact E2|]. intros _. cbn [length].
      destruct cs as [|c' cs].
      * cbn in E1. injection E1 as <- _. cbn [w2 w_new w_imp length]. split; [reflexivity|].
        intros H. apply app_eq_nil in H as (_ & H). apply map_eq_nil in H. contradiction.
      * destruct E3 as (E3 & E4); [discriminate|]. split; [|exact E4]. rewrite E3. f_equal. cbn [length]. lia.
Qed.

Theorem C277_last_points_refuted : forall title n0 s0 rest save ty,
  NoDup save -> save <> [] ->
  number_type (s_flags s0) ty -> proper_axis s0 -> increasing (st_wave (s_ax s0) 0) ->
  Forall (fun x => exists t, has_trace s0 0 x t) save ->
  2 + length (with_file rest) < length (st_wave (s_ax s0) 0) ->
  Forall (fun rs => usable (2 + length (with_file rest)) save (snd rs) /\ same_kind (snd rs) ty (st_what (s_ax s0)) /\
            st_wave (s_ax (snd rs)) 0 = st_wave (s_ax s0) 0) (with_file rest) ->
  exists ok w ax ts, create_raw_file_with title (Task n0 (Some s0) :: rest) save = Made ok w /\ w_traces w = ax :: ts /\
    t_data ax = firstn (length (st_wave (s_ax s0) 0) - length (with_file rest)) (st_wave (s_ax s0) 0).
Proof.
  intros title n0 s0 rest save ty ND NE NT PA INC HT LEN FO.
  assert (Forall (fun rs => usable (2 + length (with_file rest)) save (snd rs) /\ same_kind (snd rs) ty (st_what (s_ax s0))) (with_file rest)) as FO'.
  { eapply Forall_impl; [|exact FO]. intros a (A & B & _). split; assumption. }
  destruct (C272_all_runs title n0 s0 rest save ty ND NE NT PA INC HT LEN FO')
    as (ok & w & ax & first & others & EC & _ & EW & _ & _ & ZW & _).
  exists ok, w, ax, (first ++ others). split; [exact EC|]. split; [exact EW|].
  destruct (with_file rest) as [|r1 l1] eqn:WF.
  { cbn [length]. rewrite Nat.sub_0_r, firstn_all. apply ZW. reflexivity. }
  rewrite <- WF in *. clear ZW.
  destruct (found_first s0 save HT) as (trs & FT).
  pose proof (first_call title n0 s0 rest save trs (ltac:(clear - FT; induction FT as [|a b l l' (A & _) F IH]; constructor; assumption))) as FC.
  set (ax0 := mk_trace (s_ax_name s0) (st_wave (s_ax s0) 0) (st_what (s_ax s0)) (st_num (s_ax s0))) in *.
  match type of FC with _ = Some (?w0, _) => set (wf := w0) in * end.
  assert (t_what ax0 = st_what (s_ax s0)) as AW by (destruct PA; apply mk_what; assumption).
  pose proof NT as NT'. apply num_type_ok in NT'.
  set (srcs := sources (Task n0 (Some s0) :: rest)) in *.
  destruct (same_axis_calls srcs ax0 (tl (w_traces wf)) (calls save 1 rest) (length (st_wave (s_ax s0) 0)) wf file_names
              (2 + length (with_file rest))) as (w1 & nm1 & E1 & E2 & E3).
  - reflexivity.
  - right. split; reflexivity.
  - lia.
  - cbn [ax0 mk_trace t_data]. lia.
  - rewrite calls_length. lia.
  - cbn [wf w_num]. rewrite NT', AW.
    pose proof (calls_aligned save ty (st_what (s_ax s0)) (2 + length (with_file rest)) rest [Task n0 (Some s0)] FO') as G.
    cbn [length app] in G. fold srcs in G. rewrite Forall_forall in G |- *. intros c I. split; [apply G; exact I|].
    clear - I FO NE. 
    assert (forall r pre, Forall (fun rs => st_wave (s_ax (snd rs)) 0 = st_wave (s_ax s0) 0) (with_file r) -> In c (calls save (length pre) r) ->
      st_wave (s_ax (sources (pre ++ r) (c_src c))) 0 = st_wave (s_ax s0) 0 /\ c_names c = save) as K.
    { induction r as [|t r IH]; intros pre F J; [destruct J|].
      assert (length (pre ++ [t]) = S (length pre)) as L by (rewrite app_length; cbn; lia).
      unfold with_file in F. cbn [flat_map] in F. cbn [calls] in J.
      replace (pre ++ t :: r) with ((pre ++ [t]) ++ r) by (rewrite <- app_assoc; reflexivity).
      rewrite <- L in J. destruct (k_raw t) as [s|] eqn:K.
      - inversion F as [|? ? F1 F2]; subst. destruct J as [<-|J]; [|apply IH; assumption].
        cbn [call_for c_src c_names]. split; [|reflexivity]. cbn [snd] in F1. rewrite <- F1. unfold sources. rewrite <- app_assoc. cbn [app].
        rewrite nth_error_app2, Nat.sub_diag by lia. cbn [nth_error]. destruct t as [m q]. cbn in K. subst. reflexivity.
      - apply IH; assumption. }
    destruct (K rest [Task n0 (Some s0)]) as (K1 & K2).
    { eapply Forall_impl; [|exact FO]. intros a (_ & _ & A). exact A. }
    { exact I. }
    split; [exact K1|]. rewrite K2. exact NE.
  - assert (calls save 1 rest <> []) as CN.
    { intros H. pose proof (calls_length save rest 1) as G. rewrite H, WF in G. discriminate. }
    destruct (E3 CN) as (N1 & I1). rewrite calls_length in N1.
    assert (add_tasks srcs save 0 (Task n0 (Some s0) :: rest) true (new_raw title, file_names) = Some (all_raw rest, (w1, nm1))) as ET.
    { rewrite add_tasks_calls. cbn [calls k_raw k_runno add_calls]. rewrite FC, E1. reflexivity. }
    unfold create_raw_file_with in EC. cbn [k_raw] in EC. fold srcs in EC. rewrite ET in EC.
    unfold before_save in EC. destruct (w_imp w1) as [|i im] eqn:EI; [contradiction|].
    unfold consolidate in EC. rewrite EI, E2 in EC.
    destruct (w_new w1) as [|q qs] eqn:EN.
    { exfalso. assert (length (firstn (length (st_wave (s_ax s0) 0) - length (with_file rest)) (t_data ax0)) = 0) as H by (rewrite <- N1; reflexivity).
      rewrite firstn_length in H. cbn [ax0 mk_trace t_data] in H. lia. }
    destruct (if length (q :: qs) =? length (t_data ax0) then Some (tl (w_traces wf)) else interp_traces (t_data ax0) (q :: qs) (tl (w_traces wf))) as [ts2|]; [|discriminate].
    destruct (interp_imports srcs nm1 (q :: qs) (i :: im)) as [ims|]; [|discriminate].
    injection EC as _ <-. cbn [w_traces] in EW. injection EW as <- _. cbn [mk_trace t_data]. rewrite N1. reflexivity.
Qed.
Print Assumptions C277_last_points_refuted.
Example C277_nonvacuous : exists w ax ts,
  create_raw_file_with (s2l "t") [Task 1 (Some ex_a); Task 2 (Some ex_a); Task 3 (Some ex_a)] [s2l "V(out)"] = Made true w /\
  w_traces w = ax :: ts /\ length (t_data ax) = 3 /\ length (st_wave (s_ax ex_a) 0) = 5.
Proof. do 3 eexists. split; [vm_compute; reflexivity|]. vm_compute. repeat split. Qed.
