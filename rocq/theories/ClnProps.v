(** C234-C240: the files of the runs, and stopping them. *)
From Coq Require Import String Ascii List Bool Arith ZArith QArith Lia.
From Verif Require Import PyStr RunnerModel SimModel SimSpec SimProps ClnModel ClnSpec ClnProofs ClnProofs2 ClnProofs3.
Import ListNotations.
Local Open Scope string_scope. Local Open Scope nat_scope. Local Open Scope list_scope.

(** C234: cleanup_files puts everything back as it was before the first run ([d0]), but for the files of the runs that are still going on,
    which it does not touch; at any time of any history. *)
Theorem C234_cleanup : forall m out cwd d0 s, goes m out cwd d0 s ->
  (forall t p, In t (known s) -> belongs m (k_net t) p -> d0 p = None) ->
  (forall t, In t (known s) -> failed t -> s_disk s (raw_of m (k_net t)) = None) ->
  (forall t p, running s t -> belongs m (k_net t) p -> s_disk (cleanup s) p = s_disk s p) /\
  (forall p, (forall t, running s t -> ~ belongs m (k_net t) p) -> s_disk (cleanup s) p = d0 p).
Proof. exact cleaned. Qed.
Print Assumptions C234_cleanup.
(** Two runs, one of which is still going on. *)
Definition two_runs : list cevent :=
  [ERun None (FromEditor (Path (s2l "lib/") (s2l "a.b.asc")) (s2l "* a")) true; EWrite 1 (s2l ".log") (s2l "ok"); ERun None (FromFile (Path (s2l "lib/") (s2l "c.net"))) true; EWrite 1 (s2l ".raw") (s2l "1");
   EWrite 2 (s2l ".log") (s2l "?"); EEnd 1 0].
Definition lib_disk : disk := put (Path (s2l "lib/") (s2l "c.net")) (Some (s2l "* c")) (fun _ => None).
Example C234_nonvacuous : exists s, s = history LTspice (Some (s2l "out/")) (s2l "./") lib_disk two_runs /\ goes LTspice (Some (s2l "out/")) (s2l "./") lib_disk s /\
  (forall t p, In t (known s) -> belongs LTspice (k_net t) p -> lib_disk p = None) /\
  map (fun f => s_disk s (Path (s2l "out/") (s2l f))) ["a.b_1.asc"; "a.b_1.log"; "a.b_1.raw"; "c_2.net"; "c_2.log"] = [Some (s2l "* a"); Some (s2l "ok"); Some (s2l "1"); Some (s2l "* c"); Some (s2l "?")] /\
  map (fun f => s_disk (cleanup s) (Path (s2l "out/") (s2l f))) ["a.b_1.asc"; "a.b_1.log"; "a.b_1.raw"; "c_2.net"; "c_2.log"] = [None; None; None; Some (s2l "* c"); Some (s2l "?")].
Proof.
  eexists. split; [reflexivity|]. split; [|split; [|split; vm_compute; reflexivity]].
  - unfold history, two_runs. cbn [fold_left].
    assert (W : forall s no ext text, (forallb (fun t => negb (k_no t =? no) || existsb (fun sf => str_eqb (suffix_of (k_net t)) sf && existsb (str_eqb ext) (products LTspice sf) && negb (str_eqb (fst (split_suffix (name (k_net t)))) []) && str_eqb (fst (split_suffix (name (k_net t))) ++ sf) (name (k_net t))) netlists) (s_active s)) = true -> usual LTspice s (EWrite no ext text)).
    { intros s no ext text H t I E. rewrite forallb_forall in H. apply H in I. rewrite E, Nat.eqb_refl in I. cbn [negb orb] in I. apply existsb_exists in I. destruct I as (sf & S1 & S2). rewrite !andb_true_iff in S2. destruct S2 as (((A & B) & C) & D).
      exists (folder (k_net t)), (fst (split_suffix (name (k_net t)))), sf. apply str_eqb_eq in D. split; [rewrite D; destruct (k_net t); reflexivity|]. split; [intros K; rewrite K in C; discriminate C|]. split; [exact S1|]. apply existsb_exists in B. destruct B as (x & X & Y). apply str_eqb_eq in Y. subst x. exact X. }
    repeat (apply GStep; [|first [exact I|apply W; vm_compute; reflexivity|split; [reflexivity|split; [reflexivity|]]]]); [apply GStart| |].
    + exists (s2l "a.b"), (s2l ".asc"). split; [reflexivity|]. split; [discriminate|]. right. right. left. reflexivity.
    + exists (s2l "c"), (s2l ".net"). split; [reflexivity|]. split; [discriminate|]. right. left. reflexivity.
  - intros t p I B. assert (F : folder p = s2l "out/").
    { assert (FT : folder (k_net t) = s2l "out/") by (vm_compute in I; destruct I as [<- |[<- |[]]]; reflexivity). destruct B as (d & st & sf & e & E & _ & _ & -> & _). rewrite E in FT. exact FT. }
    unfold lib_disk, put, same_path. rewrite F. reflexivity.
Qed.

Lemma del_ext : forall d st x y k, x <> y -> del (Path d (st ++ y)) k (Path d (st ++ x)) = k (Path d (st ++ x)).
Proof. intros d st x y k N. apply del_other. intros E. injection E as E. apply app_inv_head in E. contradiction. Qed.
Lemma put_ext : forall d st x y c k, x <> y -> put (Path d (st ++ y)) c k (Path d (st ++ x)) = k (Path d (st ++ x)).
Proof. intros d st x y c k N. apply put_other. intros E. injection E as E. apply app_inv_head in E. contradiction. Qed.
Definition place (out : option str) (cwd : str) : str := match out with Some o => o | None => cwd end.
Lemma editor_run : forall out cwd n f st sf text d, st <> [] -> In sf netlists ->
  prepare out cwd n None (FromEditor (Path f (st ++ sf)) text) d = Some (Path (place out cwd) ((st ++ under :: dec n) ++ sf), put (Path (place out cwd) ((st ++ under :: dec n) ++ sf)) (Some text) d).
Proof.
  intros out cwd n f st sf text d N I. unfold prepare. cbn [name]. assert (RN : run_file_name n (st ++ sf) = (st ++ under :: dec n) ++ sf).
  { unfold run_file_name. rewrite (split_name _ _ (net_name_of _ _ N I)). assert (str_eqb sf (s2l ".qsch") = false) as ->; [|rewrite app_comm_cons, app_assoc; reflexivity]. apply str_eqb_neq. intros ->. vm_compute in I. intuition discriminate. }
  rewrite RN. destruct out; reflexivity.
Qed.

(** C235: cleanup_files deletes the waveforms of all runs.  Not those a failed run has left. *)
Theorem C235_failed_run_refuted : forall m out cwd d0 f st sf text wave ret, st <> [] -> In sf netlists -> ret <> 0%Z ->
  s_disk (history m out cwd d0 [ERun None (FromEditor (Path f (st ++ sf)) text) true; EWrite 1 (raw_name m) wave; EEnd 1 ret; EClean]) (Path (place out cwd) (st ++ s2l "_1" ++ raw_name m)) = Some wave.
Proof.
  intros m out cwd d0 f st sf text wave ret N I R. unfold history. cbn [fold_left]. set (s0 := new_state d0). cbn [cstep s_no s_disk s_active s_done s0 new_state]. rewrite (editor_run out cwd 1 f st sf text _ N I).
  set (dd := place out cwd). set (st1 := st ++ under :: dec 1). assert (N1 : st1 <> []) by apply stem_ne. cbn [s_active app find k_no ended k_end negb andb Nat.eqb s_disk s_no s_done].
  cbn [k_net]. rewrite (suffix_net _ _ _ _ N1 I). cbn [finish_in k_no Nat.eqb ended k_end negb andb].
  assert (RN : forall y, In y (sf :: map s2l [".log"; ".fail"; ".exe.log"; ".log.raw"; ".op.raw"; ".db"; ".net"]) -> raw_name m <> y).
  { intros y [<- |Y] E; [subst sf; destruct m; vm_compute in I; intuition discriminate|]. cbn [map In] in Y. destruct m; repeat (destruct Y as [<- |Y]; [vm_compute in E; discriminate E|]); destruct Y. }
  unfold finish. cbn [k_net k_no]. rewrite (suffix_net _ _ _ _ N1 I), (suffix_log _ _ _ N1). destruct (Z.eqb_spec ret 0) as [K|_]; [contradiction|].
  replace (st ++ s2l "_1" ++ raw_name m) with (st1 ++ raw_name m) by (unfold st1; rewrite <- app_assoc; reflexivity).
  set (D := put (Path dd (st1 ++ raw_name m)) (Some wave) (put (Path dd (st1 ++ sf)) (Some text) d0)). assert (D1 : D (Path dd (st1 ++ raw_name m)) = Some wave) by apply put_same.
  assert (SF : forall e, suffix_of (k_net {| k_no := 1; k_net := Path dd (st1 ++ sf); k_end := e |}) = sf) by (intros e; unfold suffix_of; cbn [k_net name]; rewrite (split_name _ _ (net_name_of _ _ N1 I)); reflexivity).
  assert (CL : forall l k, (l = s2l ".log" \/ l = s2l ".fail") -> k (Path dd (st1 ++ raw_name m)) = Some wave ->
    clean_task {| k_no := 1; k_net := Path dd (st1 ++ sf); k_end := Some {| e_ret := ret; e_raw := None; e_log := Path dd (st1 ++ l) |} |} k (Path dd (st1 ++ raw_name m)) = Some wave).
  { intros l k L K. unfold clean_task. rewrite SF. cbn [k_net k_end e_log e_raw]. rewrite !(suffix_net _ _ _ _ N1 I). cbn [fold_left]. rewrite !(suffix_net _ _ _ _ N1 I).
    assert (L' : raw_name m <> l) by (apply RN; destruct L as [-> | ->]; cbn; tauto).
    destruct (_ || _); [destruct (str_eqb sf (s2l ".asc"))|]; rewrite !del_ext; try exact K; try exact L'; apply RN; cbn; tauto. }
  destruct (D (Path dd (st1 ++ s2l ".log"))) as [c|] eqn:DL; unfold cleanup, update; cbn [s_active s_done s_disk app filter ended k_end negb fold_left]; cbn [s_active s_done s_disk app filter ended k_end negb fold_left].
  - apply CL; [right; reflexivity|]. rewrite !put_ext; [exact D1|apply RN; cbn; tauto|apply RN; cbn; tauto].
  - apply CL; [left; reflexivity|exact D1].
Qed.
Print Assumptions C235_failed_run_refuted.
Example C235_nonvacuous : s2l "filter" <> [] /\ In (s2l ".net") netlists /\ (1 <> 0)%Z.
Proof. split; [discriminate|]. split; [left; reflexivity|discriminate]. Qed.

(** C236: cleanup_files deletes LTspice's other files of all runs.  Not those of .cir netlists (nor .sp, .ckt). *)
Theorem C236_other_netlists_refuted : forall out cwd d0 f st sf text e wave, st <> [] -> In sf (map s2l [".cir"; ".sp"; ".ckt"]) -> In e (map s2l [".log.raw"; ".op.raw"; ".db"]) ->
  s_disk (history LTspice out cwd d0 [ERun None (FromEditor (Path f (st ++ sf)) text) true; EWrite 1 e wave; EEnd 1 0; EClean]) (Path (place out cwd) (st ++ s2l "_1" ++ e)) = Some wave.
Proof.
  intros out cwd d0 f st sf text e wave N I' EE. assert (I : In sf netlists) by (cbn [map In netlists] in *; tauto). unfold history. cbn [fold_left]. set (s0 := new_state d0). cbn [cstep s_no s_disk s_active s_done s0 new_state]. rewrite (editor_run out cwd 1 f st sf text _ N I).
  set (dd := place out cwd). set (st1 := st ++ under :: dec 1). assert (N1 : st1 <> []) by apply stem_ne. cbn [s_active app find k_no ended k_end negb andb Nat.eqb s_disk s_no s_done].
  cbn [k_net]. rewrite (suffix_net _ _ _ _ N1 I). cbn [finish_in k_no Nat.eqb ended k_end negb andb]. unfold finish. cbn [Z.eqb k_net k_no]. unfold raw_of. rewrite !(suffix_net _ _ _ _ N1 I).
  replace (st ++ s2l "_1" ++ e) with (st1 ++ e) by (unfold st1; rewrite <- app_assoc; reflexivity).
  unfold cleanup, update; cbn [s_active s_done s_disk app filter ended k_end negb fold_left]; cbn [s_active s_done s_disk app filter ended k_end negb fold_left].
  assert (SF : suffix_of (Path dd (st1 ++ sf)) = sf) by (unfold suffix_of; cbn [name]; rewrite (split_name _ _ (net_name_of _ _ N1 I)); reflexivity).
  unfold clean_task. cbn [k_net k_end e_log e_raw]. rewrite SF, !(suffix_net _ _ _ _ N1 I).
  assert (X : (str_eqb sf (s2l ".net") || str_eqb sf (s2l ".asc")) = false) by (cbn [map In] in I'; repeat (destruct I' as [<- |I']; [reflexivity|]); destruct I'). rewrite X.
  assert (NE : forall y, In y [sf; s2l ".log"; s2l ".exe.log"; raw_extension LTspice] -> e <> y) by (intros y [<- |Y] K; [subst e; cbn [map In] in I', EE; intuition (try congruence; subst; discriminate)|]; cbn [map In] in Y, EE; subst e; intuition (try congruence; subst; discriminate)).
  rewrite !del_ext; [apply put_same|apply NE; cbn; tauto|apply NE; cbn; tauto|apply NE; cbn; tauto|apply NE; cbn; tauto].
Qed.
Print Assumptions C236_other_netlists_refuted.
Example C236_nonvacuous : s2l "filter" <> [] /\ In (s2l ".cir") (map s2l [".cir"; ".sp"; ".ckt"]) /\ In (s2l ".op.raw") (map s2l [".log.raw"; ".op.raw"; ".db"]).
Proof. split; [discriminate|]. split; [left; reflexivity|right; left; reflexivity]. Qed.

(** C237: cleanup_files deletes the netlists of all runs.  The netlist of a run for which no place became free in time stays. *)
Theorem C237_no_place_refuted : forall m out cwd d0 f st sf text, st <> [] -> In sf netlists ->
  s_disk (history m out cwd d0 [ERun None (FromEditor (Path f (st ++ sf)) text) false; EClean]) (Path (place out cwd) (st ++ s2l "_1" ++ sf)) = Some text.
Proof.
  intros m out cwd d0 f st sf text N I. unfold history. cbn [fold_left]. set (s0 := new_state d0). cbn [cstep s_no s_disk s_active s_done s0 new_state]. rewrite (editor_run out cwd 1 f st sf text _ N I).
  replace (st ++ s2l "_1" ++ sf) with ((st ++ under :: dec 1) ++ sf) by (rewrite <- app_assoc; reflexivity). apply put_same.
Qed.
Print Assumptions C237_no_place_refuted.
Example C237_nonvacuous : s2l "filter" <> [] /\ In (s2l ".net") netlists.
Proof. split; [discriminate|left; reflexivity]. Qed.

(** C238: the files of the user stay.  A run with a name of a file there (no output folder) overwrites it, and cleanup_files deletes it. *)
Theorem C238_named_run_refuted : forall m cwd d0 circuit file text ret,
  s_disk (history m None cwd d0 [ERun (Some file) (FromEditor circuit text) true; EEnd 1 ret; EClean]) (Path cwd file) = None.
Proof.
  intros m cwd d0 circuit file text ret. unfold history. cbn [fold_left]. set (s0 := new_state d0). cbn [cstep s_no s_disk s_active s_done s0 new_state prepare on_output_folder]. cbn [s_active app s_disk s_no s_done]. cbn [finish_in k_no Nat.eqb ended k_end negb andb].
  assert (CL : forall t d, k_net t = Path cwd file -> clean_task t d (Path cwd file) = None).
  { intros t d E. unfold clean_task. rewrite E. set (d1 := del (Path cwd file) d). assert (H1 : d1 (Path cwd file) = None) by apply del_same.
    set (d2 := match k_end t with Some e => del (e_log e) d1 | None => d1 end). assert (H2 : d2 (Path cwd file) = None) by (unfold d2; destruct (k_end t); [apply del_none|]; exact H1).
    match goal with |- context [del (with_suffix (Path cwd file) (s2l ".exe.log")) d2] => set (d3 := del (with_suffix (Path cwd file) (s2l ".exe.log")) d2) end. assert (H3 : d3 (Path cwd file) = None) by (apply del_none; exact H2).
    set (d4 := match k_end t with Some e => match e_raw e with Some r => del r d3 | None => d3 end | None => d3 end). assert (H4 : d4 (Path cwd file) = None) by (unfold d4; destruct (k_end t) as [e|]; [destruct (e_raw e); [apply del_none|]|]; exact H3).
    destruct (_ || _); [|exact H4]. cbn [fold_left]. destruct (str_eqb _ _); repeat apply del_none; exact H4. }
  unfold finish. cbn [k_net k_no]. destruct (Z.eqb ret 0); [|destruct (put _ _ _ _)]; unfold cleanup, update; cbn [s_active s_done s_disk app filter ended k_end negb fold_left]; cbn [s_active s_done s_disk app filter ended k_end negb fold_left]; apply CL; reflexivity.
Qed.
Print Assumptions C238_named_run_refuted.
Example C238_nonvacuous : lib_disk (Path (s2l "lib/") (s2l "c.net")) = Some (s2l "* c").
Proof. reflexivity. Qed.

(** C239: aborting kills the simulators that run.  It kills none: it looks for processes with an empty name. *)
Theorem C239_nothing_killed_refuted : forall procs, (forall p, In p procs -> snd p <> []) -> kill_all_spice procs = procs.
Proof.
  intros procs H. unfold kill_all_spice. cbv zeta. induction procs as [|p l IH]; [reflexivity|]. cbn [filter]. match goal with |- context [str_eqb ?a ?b] => destruct (str_eqb a b) eqn:E end; [exfalso; apply str_eqb_eq in E; exact (H p (or_introl eq_refl) E)|]. cbn [negb]. f_equal. apply IH. intros q I. apply H. right. exact I.
Qed.
Print Assumptions C239_nothing_killed_refuted.
Example C239_nonvacuous : kill_all_spice [(7, s2l "ltspice.exe")] = [(7, s2l "ltspice.exe")].
Proof. reflexivity. Qed.

(** C240: without a time limit of its own, wait_completion waits until the last of the running tasks is over its time; for ever if none has
    a limit. *)
Theorem C240_last_limit : forall runner tasks,
  (forall a, maximum_stop_time runner tasks = Some a -> (exists t, In t tasks /\ limit runner t a) /\ forall t b, In t tasks -> limit runner t b -> (b <= a)%Q) /\
  (maximum_stop_time runner tasks = None <-> forall t b, In t tasks -> ~ limit runner t b).
Proof.
  intros runner. assert (ST : forall t, match stop_time runner t with Some b => limit runner t b /\ (forall c, limit runner t c -> c = b) | None => forall b, ~ limit runner t b end).
  { intros [[start|] [own|]]; unfold stop_time; cbn [fst snd].
    - split; [constructor|]. intros c H. inversion H; reflexivity.
    - destruct runner as [r|]; [split; [constructor; reflexivity|intros c H; inversion H; congruence]|intros b H; inversion H; discriminate].
    - intros b H; inversion H.
    - destruct runner; intros b H; inversion H. }
  unfold maximum_stop_time.
  assert (G : forall tasks acc, let r := fold_left (fun alarm t => match stop_time runner t with None => alarm | Some s => match alarm with None => Some s | Some a => if negb (Qle_bool s a) then Some s else alarm end end) tasks acc in
    match r with Some a => ((exists t, In t tasks /\ limit runner t a) \/ acc = Some a) /\ (forall t b, In t tasks -> limit runner t b -> (b <= a)%Q) /\ (forall b, acc = Some b -> (b <= a)%Q) | None => acc = None /\ forall t b, In t tasks -> ~ limit runner t b end).
  { induction tasks as [|t l IH]; intros acc; cbn [fold_left].
    - destruct acc as [a|]; [split; [right; reflexivity|]; split; [intros t b []|intros b E; injection E as <-; apply Qle_refl]|split; [reflexivity|intros t b []]].
    - specialize (ST t). destruct (stop_time runner t) as [s|].
      2:{ specialize (IH acc). cbv zeta in *. destruct (fold_left _ l acc) as [a|].
          - destruct IH as ([(u & I & L)|A] & B & C); (split; [|split; [intros u0 b [<- |I0] L0; [destruct (ST b L0)|exact (B u0 b I0 L0)]|exact C]]); [left; exists u; split; [right; exact I|exact L]|right; exact A].
          - destruct IH as (A & B). split; [exact A|]. intros u b [<- |I]; [apply ST|apply B; exact I]. }
      destruct ST as (S1 & S2). set (acc' := match acc with None => Some s | Some a => if negb (Qle_bool s a) then Some s else acc end).
      assert (AC : exists a', acc' = Some a' /\ (s <= a')%Q /\ (forall b, acc = Some b -> (b <= a')%Q) /\ (a' = s \/ acc = Some a')).
      { unfold acc'. destruct acc as [a|]; [|exists s; split; [reflexivity|]; split; [apply Qle_refl|]; split; [intros b E; discriminate E|left; reflexivity]].
        destruct (Qle_bool s a) eqn:E; cbn [negb].
        - apply Qle_bool_iff in E. exists a. split; [reflexivity|]. split; [exact E|]. split; [intros b K; injection K as <-; apply Qle_refl|right; reflexivity].
        - exists s. split; [reflexivity|]. split; [apply Qle_refl|]. split; [|left; reflexivity]. intros b K. injection K as <-. apply Qlt_le_weak. apply Qnot_le_lt. intros K. apply Qle_bool_iff in K. congruence. }
      destruct AC as (a' & EA & A1 & A2 & A3). specialize (IH acc'). cbv zeta in *. rewrite EA in *. destruct (fold_left _ l (Some a')) as [a|].
      + destruct IH as (X & Y & Z). split; [|split].
        * destruct X as [(u & I & L)|X]; [left; exists u; split; [right; exact I|exact L]|]. injection X as <-. destruct A3 as [-> |A3]; [left; exists t; split; [left; reflexivity|exact S1]|right; exact A3].
        * intros u b [<- |I] L; [|exact (Y u b I L)]. rewrite (S2 b L). apply Qle_trans with a'; [exact A1|apply Z; reflexivity].
        * intros b E. apply Qle_trans with a'; [apply A2; exact E|apply Z; reflexivity].
      + destruct IH as (X & _). discriminate X. }
  intros tasks. specialize (G tasks None). cbv zeta in G. destruct (fold_left _ tasks None) as [a|].
  - destruct G as ([(u & I & L)|X] & Y & _); [|discriminate X]. split; [intros a' E; injection E as <-; split; [exists u; auto|exact Y]|]. split; [intros E; discriminate E|intros H; destruct (H u a I L)].
  - destruct G as (_ & Y). split; [intros a' E; discriminate E|]. split; [intros _; exact Y|reflexivity].
Qed.
Print Assumptions C240_last_limit.
Example C240_nonvacuous : maximum_stop_time (Some (600 # 1)) [(Some (1 # 1), None); (None, Some (9 # 1)); (Some (2 # 1), Some (5 # 1))] = Some (601 # 1)%Q.
Proof. reflexivity. Qed.
