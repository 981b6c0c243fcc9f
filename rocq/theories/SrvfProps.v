(** C241-C248: the files of a simulation server. *)
From Coq Require Import String Ascii List Bool Arith ZArith Lia.
From Verif Require Import PyStr RunnerModel SimModel SrvfModel ClnSpec SrvfSpec SrvfProofs SrvfProofs2 SrvfProofs3.
Import ListNotations.
Local Open Scope string_scope. Local Open Scope nat_scope. Local Open Scope list_scope.

Definition fresh_folder (out : str) (d0 : vdisk) : Prop := forall p n, run_file out p n -> d0 p = None.

Lemma answer_job : forall v s n z c, answer v s n = Some (z, c) -> exists runs t x, session s (v_sessions v) = Some runs /\ In n runs /\ In t (v_finished v) /\ j_no t = n /\ j_end t = Some x /\ j_zip x = Some z /\ v_disk v z = Some c.
Proof.
  intros v s n z c H. unfold answer in H. destruct (session s (v_sessions v)) as [runs|]; [|discriminate H]. destruct (existsb (Nat.eqb n) runs) eqn:E; [|discriminate H]. apply existsb_exists in E. destruct E as (k & K & EK). apply Nat.eqb_eq in EK. subst k.
  destruct (find _ (v_finished v)) as [t|] eqn:F; [|discriminate H]. apply find_some in F. destruct F as (F1 & F2). apply andb_true_iff in F2. destruct F2 as (F2 & F3). apply Nat.eqb_eq in F2. destruct (j_end t) as [x|] eqn:X; [|discriminate H]. destruct (j_zip x) as [z'|] eqn:Z; [|discriminate H]. destruct (v_disk v z') as [c'|] eqn:D; [|discriminate H]. injection H as <- <-.
  exists runs, t, x. auto 10.
Qed.

(** C241: what a client gets for a run of its session is what the simulator of that run wrote, all of it and nothing else, whatever the other
    clients and their runs did; and the run is one this client started. *)
Theorem C241_delivered : forall m out d0 h v s n z c, fresh_folder out d0 -> reached m out d0 h v -> answer v s n = Some (z, c) ->
  exists b ext files ret, In (VRun s (b ++ ext) files true) h /\ returned h n = Some ret /\ z = file_of out b n (s2l ".zip") /\ c = Zip (delivery m out b n h ret).
Proof.
  intros m out d0 h v s n z c FF R A. destruct (reached_inv m out d0 h v FF R) as [J _ _ _ _ _]. destruct (answer_job _ _ _ _ _ A) as (runs & t & x & SS & IN & T & N & X & Z & D).
  destruct (J t ltac:(unfold known_jobs; apply in_or_app; right; exact T)) as ((b & sf & s' & ext & files & _ & _ & V & _ & Q & E) & _). rewrite X, N in E. destruct E as (ret & E1 & _ & _ & _ & E4). rewrite Z in E4. destruct E4 as (-> & E4 & _). rewrite E4 in D. injection D as <-.
  assert (s = s') as -> by (apply (Q s runs (session_In _ _ _ SS)); rewrite N; exact IN). exists b, ext, files, ret. auto.
Qed.
Print Assumptions C241_delivered.

(** C241: and a run that ended, left a log (or waveforms) and was collected can be had. *)
Theorem C241_available : forall m out d0 h v s n runs t, fresh_folder out d0 -> reached m out d0 h v -> session s (v_sessions v) = Some runs -> In n runs -> In t (v_finished v) -> j_no t = n ->
  (wrote h n (s2l ".log") <> None \/ returned h n = Some 0%Z /\ wrote h n (raw_name m) <> None) -> answer v s n <> None.
Proof.
  intros m out d0 h v s n runs t FF R SS IN T N W. destruct (reached_inv m out d0 h v FF R) as [J ND _ _ _ DO]. destruct (J t ltac:(unfold known_jobs; apply in_or_app; right; exact T)) as ((b & sf & s' & ext & files & _ & _ & V & _ & Q & E) & _).
  pose proof (DO t T) as NE. destruct (j_end t) as [x|] eqn:X; [|contradiction]. rewrite N in E. destruct E as (ret & E1 & _ & _ & _ & E4).
  assert (DN : delivery m out b n h ret <> []).
  { unfold delivery, part. destruct W as [W|(W0 & W)].
    - destruct (Z.eqb ret 0), (wrote h n (s2l ".log")); try contradiction; destruct (wrote h n (raw_name m)); discriminate.
    - rewrite E1 in W0. injection W0 as ->. destruct (wrote h n (raw_name m)); [discriminate|contradiction]. }
  unfold answer. rewrite SS. assert (existsb (Nat.eqb n) runs = true) as -> by (apply existsb_exists; exists n; split; [exact IN|apply Nat.eqb_refl]).
  destruct (j_zip x) as [z|] eqn:Z; [|contradiction]. destruct E4 as (-> & E4 & _).
  assert (F : find (fun t => (n =? j_no t) && match j_end t with Some e => match j_zip e with Some _ => true | None => false end | None => false end) (v_finished v) = Some t).
  { assert (NDF : NoDup (map j_no (v_finished v))) by (unfold known_jobs in ND; rewrite map_app in ND; exact (QCmpProofs3.NoDup_app_r _ _ _ ND)).
    clear - T N X Z NDF. induction (v_finished v) as [|u l IH]; [destruct T|]. cbn [find]. cbn [map] in NDF. inversion NDF as [|? ? A B]; subst. destruct T as [-> |T].
    - rewrite Nat.eqb_refl, X, Z. reflexivity.
    - destruct (Nat.eqb_spec (j_no t) (j_no u)) as [K|_]; [exfalso; apply A; rewrite <- K; apply in_map; exact T|]. cbn [andb]. apply IH; assumption. }
  rewrite F, X, Z, E4. discriminate.
Qed.
Print Assumptions C241_available.

(** Two clients, two runs at the same time, the second fails. *)
Definition busy : list vevent :=
  [VStart; VStart; VRun 0 (s2l "amp.net") [(s2l "amp.net", s2l "* amp"); (s2l "m.lib", s2l "* lib")] true; VRun 1 (s2l "amp.net") [(s2l "amp.net", s2l "* other amp")] true;
   VWrite 1 (s2l ".log") (s2l "ok"); VWrite 2 (s2l ".log") (s2l "bad"); VWrite 1 (s2l ".raw") (s2l "1 2"); VEnd 2 1; VEnd 1 0; VCollect].
Lemma allowed_dec : forall m out v n ext, (exists t, In t (v_jobs v) /\ j_no t = n /\ j_end t = None /\ existsb (fun sf => str_eqb (suffix_of (j_net t)) sf && existsb (str_eqb ext) (products m sf)) netlists = true /\
  negb (str_eqb (fst (split_suffix (name (j_net t)))) []) = true /\ j_net t = Path out (fst (split_suffix (name (j_net t))) ++ suffix_of (j_net t))) -> forall text, allowed m out v (VWrite n ext text).
Proof.
  intros m out v n ext (t & A & B & C & D & E & F) text. apply existsb_exists in D. destruct D as (sf & D1 & D2). apply andb_true_iff in D2. destruct D2 as (D2 & D3). apply str_eqb_eq in D2. apply existsb_exists in D3. destruct D3 as (x & D3 & D4). apply str_eqb_eq in D4. subst x.
  exists t, (fst (split_suffix (name (j_net t)))), sf. split; [split; [exact A|split; [exact B|exact C]]|]. rewrite <- D2. split; [exact F|]. split; [intros K; rewrite K in E; discriminate E|]. rewrite D2. split; assumption.
Qed.
Lemma not_run_like : forall out f, (match split_at_last under f with Some (_, r) => negb (existsb is_digit r) | None => true end) = true -> forall n, ~ run_file out (Path out f) n.
Proof.
  intros out f H n (b & e & E & I). unfold file_of in E. injection E as ->. change "_"%char with under in H. rewrite <- app_assoc in H. cbn [app] in H.
  assert (NU : ~ In under (dec n ++ e)).
  { intros K. apply in_app_or in K. destruct K as [K|K]; [exact (dec_no_char under n eq_refl K)|].
    assert (X : forallb (fun e => negb (mem_c under e)) run_exts = true) by (vm_compute; reflexivity). rewrite forallb_forall in X. apply X in I. apply negb_true_iff in I. exact (proj1 (mem_c_not_In under e) I K). }
  rewrite (split_at_last_app under b (dec n ++ e) NU) in H. apply negb_true_iff in H. pose proof (dec_digits n) as D. pose proof (ClnProofs.dec_nonempty n) as N. destruct (dec n) as [|c r]; [contradiction|]. cbn [forallb existsb app] in D, H. apply andb_true_iff in D. rewrite (proj1 D) in H. discriminate H.
Qed.
Lemma busy_reached : reached LTspice (s2l "temp/") (fun _ => None) busy (served LTspice (s2l "temp/") (fun _ => None) busy).
Proof.
  assert (G : forall h1 h2 v, reached LTspice (s2l "temp/") (fun _ => None) h1 v ->
    (forall a e b, h2 = a ++ e :: b -> allowed LTspice (s2l "temp/") (fold_left (vstep LTspice (s2l "temp/")) a v) e) -> reached LTspice (s2l "temp/") (fun _ => None) (h1 ++ h2) (fold_left (vstep LTspice (s2l "temp/")) h2 v)).
  { intros h1 h2. revert h1. induction h2 as [|e h2 IH]; intros h1 v R H; [rewrite app_nil_r; exact R|]. cbn [fold_left]. replace (h1 ++ e :: h2) with ((h1 ++ [e]) ++ h2) by (rewrite <- app_assoc; reflexivity). apply IH; [apply RStep; [exact R|exact (H [] e h2 eq_refl)]|]. intros a e' b K. rewrite K in *. exact (H (e :: a) e' b eq_refl). }
  apply (G [] busy); [apply RStart|]. intros a e b K. unfold busy in K.
  assert (RN : forall out v s c files slot, (exists stem ext, c = stem ++ ext /\ stem <> [] /\ In ext (s2l ".qsch" :: netlists)) -> forallb (fun f => match split_at_last under (fst f) with Some (_, r) => negb (existsb is_digit r) | None => true end) files = true -> allowed LTspice out v (VRun s c files slot)).
  { intros out v s c files slot X Y. split; [exact X|]. intros f n I. apply in_map_iff in I. destruct I as (x & <- & I). rewrite forallb_forall in Y. apply not_run_like. exact (Y x I). }
  repeat (destruct a as [|x a]; [injection K as <- <-|injection K as <- K]); try destruct a; try discriminate K; try exact I;
    first [apply RN; [eexists (s2l "amp"), (s2l ".net"); split; [reflexivity|]; split; [discriminate|right; left; reflexivity]|reflexivity]
          |apply allowed_dec; eexists; split; [left; reflexivity|]; repeat split; reflexivity
          |apply allowed_dec; eexists; split; [right; left; reflexivity|]; repeat split; reflexivity
          |eexists; split; [left; reflexivity|split; reflexivity]
          |eexists; split; [right; left; reflexivity|split; reflexivity]].
Qed.
Example C241_nonvacuous : fresh_folder (s2l "temp/") (fun _ => None) /\ exists v, reached LTspice (s2l "temp/") (fun _ => None) busy v /\
  answer v 0 1 = Some (Path (s2l "temp/") (s2l "amp_1.zip"), Zip [(Path (s2l "temp/") (s2l "amp_1.raw"), Plain (s2l "1 2")); (Path (s2l "temp/") (s2l "amp_1.log"), Plain (s2l "ok"))]) /\
  answer v 1 2 = Some (Path (s2l "temp/") (s2l "amp_2.zip"), Zip [(Path (s2l "temp/") (s2l "amp_2.fail"), Plain (s2l "bad"))]) /\ answer v 0 2 = None.
Proof. split; [intros p n _; reflexivity|]. eexists. split; [exact busy_reached|]. repeat split; vm_compute; reflexivity. Qed.

(** C242: a run is delivered once, and its netlist and all that was delivered are then deleted; no file of another run, and no other file of the
    disk, is touched. *)
Theorem C242_once_and_gone : forall m out d0 h v s n z l, fresh_folder out d0 -> reached m out d0 h v -> answer v s n = Some (z, Zip l) ->
  let v' := vstep m out v (VGet s n) in
  (forall p, ~ run_file out p n -> v_disk v' p = v_disk v p) /\ v_disk v' z = None /\ (forall p, In p (map fst l) -> v_disk v' p = None) /\
  (forall t, In t (v_finished v) -> j_no t = n -> v_disk v' (j_net t) = None) /\
  (forall h' s', answer (fold_left (vstep m out) h' v') s' n = None).
Proof.
  intros m out d0 h v s n z l FF R A. pose proof (reached_inv m out d0 h v FF R) as INV. destruct (answer_job _ _ _ _ _ A) as (runs & t & x & SS & IN & T & N & X & Z & D). cbv zeta. unfold vstep at 1 2 3 4. cbv beta iota. rewrite A.
  destruct (erase_run n (v_finished v) (v_disk v)) as (lf, d) eqn:F. cbn [v_disk]. destruct (inv_erase m out h v n lf d INV F) as (INV' & K1 & K2). destruct INV as [J ND FR HI SE DO].
  destruct (erase_run_spec _ _ _ _ _ F) as [(_ & _ & H)|(a & t' & b' & EF & N' & EL & ED)]; [destruct (H t T N)|].
  assert (U : forall u, In u (v_finished v) -> j_no u = n -> u = t).
  { intros u UI UN. assert (NDF : NoDup (map j_no (v_finished v))) by (unfold known_jobs in ND; rewrite map_app in ND; exact (QCmpProofs3.NoDup_app_r _ _ _ ND)). clear - UI UN T N NDF. induction (v_finished v) as [|y r IH]; [destruct T|]. cbn [map] in NDF. inversion NDF as [|? ? A B]; subst. destruct T as [-> |T], UI as [-> |UI]; [reflexivity|exfalso; apply A; rewrite <- UN; apply in_map; exact UI|exfalso; apply A; rewrite UN; apply in_map; exact T|apply IH; assumption]. }
  assert (t' = t) as -> by (apply U; [rewrite EF; apply in_or_app; right; left; reflexivity|exact N']).
  destruct (J t ltac:(unfold known_jobs; apply in_or_app; right; exact T)) as ((b & sf & s' & ext & files & SF & NN & V & _ & Q & E) & _). rewrite X, N in E. destruct E as (ret & E1 & E2 & E3 & EM & E4). rewrite Z in E4. destruct E4 as (EZ & E4 & _). rewrite E4 in D. injection D as D.
  unfold erase_files in ED. rewrite X, Z in ED. cbn [vdel_opt] in ED.
  split; [exact K1|]. split; [rewrite ED; apply vdel_same|].
  assert (GL : d (j_log x) = None) by (rewrite ED; apply vdel_none; destruct (j_raw x); cbn [vdel_opt]; [apply vdel_none|]; apply vdel_same).
  split; [intros p P; rewrite <- D in P; apply in_map_iff in P; destruct P as ((p', c') & <- & P); cbn [fst]; destruct (EM p' c' P) as [-> |P']; [exact GL|rewrite ED, P'; cbn [vdel_opt]; apply vdel_none; apply vdel_same]|].
  split; [intros u U1 U2; rewrite (U u U1 U2), ED; apply vdel_none; destruct (j_raw x); cbn [vdel_opt]; [apply vdel_none|]; apply vdel_none; apply vdel_same|].
  (* never again *)
  set (v1 := vstep m out v (VGet s n)). assert (EV1 : {| v_disk := d; v_sessions := v_sessions v; v_next := v_next v; v_runno := v_runno v; v_jobs := v_jobs v; v_finished := lf |} = v1) by (unfold v1; cbn [vstep]; rewrite A, F; reflexivity). rewrite ?EV1. clear EV1.
  assert (G : forall h' w, (forall u, In u (known_jobs w) -> j_no u <> n) -> n <= v_runno w -> (forall u, In u (known_jobs (fold_left (vstep m out) h' w)) -> j_no u <> n)).
  { induction h' as [|e h' IH]; intros w KW LW; [exact KW|]. cbn [fold_left]. apply IH.
    - clear - KW LW. intros u I. unfold known_jobs in *. destruct e as [|s circuit files slot|no ext text|no ret| |s no|s|]; cbn [vstep] in I; try (apply KW; exact I).
      + destruct (session s (v_sessions w)); [|apply KW; exact I]. destruct (extract _ _ _ _); cbn [v_jobs v_finished] in I; [|apply KW; exact I]. destruct slot; [|rewrite app_nil_r in I; apply KW; exact I]. rewrite <- app_assoc in I. apply in_app_or in I. destruct I as [I|[<- |I]]; [apply KW; apply in_or_app; left; exact I|cbn [j_no]; lia|apply KW; apply in_or_app; right; exact I].
      + destruct (find _ _); cbn [v_jobs v_finished] in I; apply KW; exact I.
      + destruct (vfinish_in m no ret (v_jobs w) (v_disk w)) as (l, d) eqn:F. cbn [v_jobs v_finished] in I. destruct (vfinish_in_spec _ _ _ _ _ _ _ F) as [(-> & _)|(a & t & b & t' & EL & N & _ & -> & FT)]; [apply KW; exact I|]. rewrite EL in KW.
        assert (j_no t' = j_no t) by (unfold vfinish in FT; repeat match type of FT with context [if ?c then _ else _] => destruct c | context [match v_disk w ?p with _ => _ end] => destruct (v_disk w p) end; cbv zeta in FT; match type of FT with context [zip_files ?x ?y ?q] => destruct (zip_files x y q) end; injection FT as <- _; reflexivity).
        rewrite <- app_assoc in *. cbn [app] in *. apply in_app_or in I. destruct I as [I|[<- |I]]; [apply KW; apply in_or_app; left; exact I|rewrite H; apply KW; apply in_or_app; right; left; reflexivity|apply KW; apply in_or_app; right; right; exact I].
      + cbn [v_jobs v_finished] in I. apply KW. apply in_app_or in I. apply in_or_app. destruct I as [I|I]; [left; apply filter_In in I; exact (proj1 I)|apply in_app_or in I; destruct I as [I|I]; [right; exact I|left; apply filter_In in I; exact (proj1 I)]].
      + destruct (answer w s no); [|apply KW; exact I]. destruct (erase_run no (v_finished w) (v_disk w)) as (l, d) eqn:F. cbn [v_jobs v_finished] in I. apply KW. destruct (erase_run_spec _ _ _ _ _ F) as [(-> & _)|(a & t & b & EF & _ & -> & _)]; [exact I|]. rewrite EF. apply in_app_or in I. apply in_or_app. destruct I as [I|I]; [left; exact I|right; apply in_app_or in I; apply in_or_app; destruct I; [left|right; right]; assumption].
      + destruct (session s (v_sessions w)) as [rs|]; [|apply KW; exact I]. destruct (fold_left _ rs (v_finished w, v_disk w)) as (l, d) eqn:F. cbn [v_jobs v_finished] in I. apply KW. clear KW.
        assert (S : forall rs lf d0 l d, fold_left (fun ld n => erase_run n (fst ld) (snd ld)) rs (lf, d0) = (l, d) -> incl l lf).
        { induction rs0 as [|k rs0 IH]; intros lf d1 l1 d2 E; cbn [fold_left] in E; [injection E as <- _; apply incl_refl|]. cbn [fst snd] in E. destruct (erase_run k lf d1) as (l2, d3) eqn:F2. apply IH in E. intros y Y. apply E in Y. destruct (erase_run_spec _ _ _ _ _ F2) as [(-> & _)|(a & t & b & -> & _ & -> & _)]; [exact Y|]. apply in_app_or in Y. apply in_or_app. destruct Y; [left|right; right]; assumption. }
        apply in_app_or in I. apply in_or_app. destruct I as [I|I]; [left; exact I|right; exact (S _ _ _ _ _ F u I)].
    - clear - LW. destruct e as [|s circuit files slot|no ext text|no ret| |s no|s|]; cbn [vstep]; try exact LW.
      + destruct (session s (v_sessions w)); [|exact LW]. destruct (extract _ _ _ _); cbn [v_runno]; lia.
      + destruct (find _ _); exact LW.
      + destruct (vfinish_in _ _ _ _ _); exact LW.
      + destruct (answer w s no); [|exact LW]. destruct (erase_run _ _ _); exact LW.
      + destruct (session s (v_sessions w)); [|exact LW]. destruct (fold_left _ _ _); exact LW. }
  intros h' s''. destruct (answer (fold_left (vstep m out) h' v1) s'' n) as [(z2, c2)|] eqn:A2; [|reflexivity]. exfalso. destruct (answer_job _ _ _ _ _ A2) as (_ & u & _ & _ & _ & UI & UN & _). revert UN. apply (G h' v1).
  - unfold v1. cbn [vstep]. rewrite A, F. unfold known_jobs. cbn [v_jobs v_finished]. intros w I. apply in_app_or in I. destruct I as [I|I]; [|exact (proj2 (K2 w I))]. rewrite <- N. apply (other_no (known_jobs v) (v_jobs v ++ a) t b' w); [unfold known_jobs; rewrite EF, <- app_assoc; reflexivity|exact ND|apply in_or_app; left; apply in_or_app; left; exact I].
  - unfold v1. cbn [vstep]. rewrite A, F. cbn [v_runno]. apply (SE s runs n); [apply session_In; exact SS|exact IN].
  - unfold known_jobs. apply in_or_app. right. exact UI.
Qed.
Print Assumptions C242_once_and_gone.

(** C243: as long as a run goes on (or waits to be fetched) its netlist is the circuit its client sent with it. *)
Theorem C243_own_netlist : forall m out d0 h v t, fresh_folder out d0 -> reached m out d0 h v -> In t (v_jobs v ++ v_finished v) ->
  exists s b ext files, In (VRun s (b ++ ext) files true) h /\ (exists sf, j_net t = file_of out b (j_no t) sf) /\ (forall text, sent files (b ++ ext) = Some text -> v_disk v (j_net t) = Some (Plain text)) /\
    (forall s' runs, session s' (v_sessions v) = Some runs -> In (j_no t) runs -> s' = s).
Proof.
  intros m out d0 h v t FF R I. destruct (reached_inv m out d0 h v FF R) as [J _ _ _ _ _]. destruct (J t I) as ((b & sf & s & ext & files & _ & NN & V & TX & Q & _) & _). exists s, b, ext, files. split; [exact V|]. split; [exists sf; exact NN|]. split; [exact TX|]. intros s' runs SS. apply Q. apply session_In. exact SS.
Qed.
Print Assumptions C243_own_netlist.

Example C243_nonvacuous : map (fun t => v_disk (served LTspice (s2l "temp/") (fun _ => None) busy) (j_net t)) (v_finished (served LTspice (s2l "temp/") (fun _ => None) busy)) = [Some (Plain (s2l "* amp")); Some (Plain (s2l "* other amp"))].
Proof. vm_compute. reflexivity. Qed.
Example C242_nonvacuous : map (fun f => v_disk (vstep LTspice (s2l "temp/") (served LTspice (s2l "temp/") (fun _ => None) busy) (VGet 0 1)) (Path (s2l "temp/") (s2l f))) ["amp_1.net"; "amp_1.log"; "amp_1.raw"; "amp_1.zip"; "amp_2.net"; "amp_2.fail"] =
  [None; None; None; None; Some (Plain (s2l "* other amp")); Some (Plain (s2l "bad"))].
Proof. vm_compute. reflexivity. Qed.

Definition temp (f : string) : path := Path (s2l "temp/") (s2l f).
Notation serve := (served LTspice (s2l "temp/")).
Definition one_run (text log raw : str) : list vevent :=
  [VStart; VRun 0 (s2l "amp.net") [(s2l "amp.net", text)] true; VWrite 1 (s2l ".log") log; VWrite 1 (s2l ".raw") raw; VWrite 1 (s2l ".op.raw") raw; VEnd 1 0; VCollect].
(** C244: when all runs were fetched, all sessions closed and the server stopped, the server's folder is as it was.  LTspice's other files stay,
    and so do the circuits that were sent. *)
Theorem C244_leftovers_refuted : forall d0 text log raw, (forall p, folder p = s2l "temp/" -> d0 p = None) ->
  let v := serve d0 (one_run text log raw ++ [VGet 0 1; VClose 0; VStop]) in
  v_disk v (temp "amp_1.op.raw") = Some (Plain raw) /\ v_disk v (temp "amp.net") = Some (Plain text).
Proof.
  intros d0 text log raw H. split; cbv zeta; unfold served, one_run; cbn [app fold_left];
    cbv; repeat (match goal with |- context [d0 ?p] => rewrite (H p eq_refl) end; cbv); reflexivity.
Qed.
Print Assumptions C244_leftovers_refuted.

(** C245: stopping the server deletes the files of the runs nobody fetched.  Those the manager has collected stay, all of them. *)
Theorem C245_stop_refuted : forall d0 text log raw, (forall p, folder p = s2l "temp/" -> d0 p = None) ->
  let v := serve d0 (one_run text log raw ++ [VStop]) in
  map (fun f => v_disk v (temp f)) ["amp_1.net"; "amp_1.log"; "amp_1.raw"; "amp_1.zip"] =
  [Some (Plain text); Some (Plain log); Some (Plain raw); Some (Zip [(temp "amp_1.raw", Plain raw); (temp "amp_1.log", Plain log)])].
Proof.
  intros d0 text log raw H. cbv zeta; unfold served, one_run; cbn [app fold_left];
    cbv; repeat (match goal with |- context [d0 ?p] => rewrite (H p eq_refl) end; cbv); reflexivity.
Qed.
Print Assumptions C245_stop_refuted.

(** C246: the runs of a client see the files it sent with them.  A file of the same name sent by another client replaces it while the run goes
    on. *)
Theorem C246_shared_sources_refuted : forall d0 a b mine theirs,
  let v := serve d0 [VStart; VStart; VRun 0 (s2l "amp.net") [(s2l "amp.net", a); (s2l "models.lib", mine)] true; VRun 1 (s2l "osc.net") [(s2l "osc.net", b); (s2l "models.lib", theirs)] true] in
  map (fun t => (j_no t, jended t)) (v_jobs v) = [(1, false); (2, false)] /\ v_disk v (temp "models.lib") = Some (Plain theirs).
Proof. intros d0 a b mine theirs. split; cbv; reflexivity. Qed.
Print Assumptions C246_shared_sources_refuted.

(** C247: the netlist of a run stays the one its client sent.  Not if another client sends a circuit with the name of the run file. *)
Theorem C247_overwritten_refuted : forall d0 mine theirs,
  let v := serve d0 [VStart; VStart; VRun 0 (s2l "amp.net") [(s2l "amp.net", mine)] true; VRun 1 (s2l "amp_1.net") [(s2l "amp_1.net", theirs)] true] in
  map (fun t => (j_no t, jended t, v_disk v (j_net t))) (v_jobs v) = [(1, false, Some (Plain theirs)); (2, false, Some (Plain theirs))].
Proof. intros d0 mine theirs. cbv. reflexivity. Qed.
Print Assumptions C247_overwritten_refuted.
Example C244_nonvacuous : forall p, folder p = s2l "temp/" -> (fun _ : path => @None content) p = None.
Proof. reflexivity. Qed.
