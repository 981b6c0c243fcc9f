From Coq Require Import String Ascii List Bool Arith Lia Permutation Sorted.
From Verif Require Import PyStr StepperModel StepperSpec StepperProofs CsvModel CsvSpec CsvProofs CsvProofs2.
Import ListNotations.
Local Open Scope string_scope. Local Open Scope nat_scope. Local Open Scope list_scope.

Section Export.
Variable d : ascii.
Variable dims : list dim.
Variable o : outcomes.
Variable cv0 : values.
Hypothesis G : good_delimiter d.
Hypothesis OM : one_meaning dims.
Hypothesis INC : increasing o.
Hypothesis ND : NoDup (map fst cv0).
Hypothesis NR : forall x, In x (map fst cv0) \/ In x (map dname dims) -> x <> "runno" /\ x <> "netlist".
Hypothesis P0 : Forall (fun kv => plain_number d (snd kv)) cv0.
Hypothesis PD : forall e v, In e dims -> In v (d_values e) -> plain_number d v.

Let names := names_after (map fst cv0) dims.

Lemma names_ok x : In x names -> x <> "runno" /\ x <> "netlist".
Proof. intros H. apply names_after_In in H. apply NR. exact H. Qed.

Lemma names_nodup : NoDup names.
Proof. apply names_after_NoDup, ND. Qed.

Definition matches (c : list value) (cv : values) : Prop :=
  map fst cv = names /\ (forall k, In k names -> vget cv k = values_in (vget cv0) dims c k) /\
  Forall2 (fun v d => In v (d_values d)) c dims.

Lemma matches_ok c r cv n0 : In c (combinations dims) ->
  same_netlist r (with_combination n0 dims c) ->
  good_cv dims cv0 (List.length dims) cv r -> matches c cv.
Proof.
  intros I S (A & B & C). apply combinations_In in I as F. rewrite firstn_all in *.
  split; [exact C|]. split; [|exact F]. intros k Hk.
  destruct (in_dec string_dec k (map dname dims)) as [J|J].
  - apply in_map_iff in J as (e & <- & Ie). rewrite (A _ Ie), S. unfold dname at 1.
    apply combination_values.
    + intros e' Ie' E. apply OM; assumption.
    + eapply Forall2_len; exact F.
    + right. apply in_map, Ie.
  - rewrite B by exact J. symmetry. apply values_in_other, J.
Qed.

Lemma matches_plain c cv : matches c cv -> Forall (fun kv => plain_number d (snd kv)) cv.
Proof.
  intros (K & V & F). apply Forall_forall. intros [k v] I. cbn [snd].
  assert (In k names) as Ik by (rewrite <- K; apply in_map_iff; exists (k, v); auto).
  assert (vget cv k = Some v) as E.
  { apply vget_perm_NoDup; [rewrite K; exact names_nodup|exact I]. }
  rewrite V in E by exact Ik. destruct (in_dec string_dec k (map dname dims)) as [J|J].
  - apply values_in_known in E as (_ & _ & i & Ei); [|eapply Forall2_len; exact F|exact J].
    clear - Ei F PD. revert i Ei. induction F as [|x e c ds Hx F IH]; intros i Ei; [destruct i; discriminate|].
    destruct i as [|i].
    + injection Ei as ->. eapply PD; [left; reflexivity|exact Hx].
    + eapply IH; [|exact Ei]. intros; eapply PD; [right|]; eassumption.
  - rewrite values_in_other in E by exact J. apply vget_In in E. rewrite Forall_forall in P0. apply (P0 _ E).
Qed.

Lemma vset_netlist cv nm c : matches c cv -> map fst (vset "netlist" (VText nm) cv) = names ++ ["netlist"].
Proof.
  intros (K & _). rewrite keys_vset, K. unfold add_name. destruct in_dec as [I|I]; [|reflexivity].
  apply names_ok in I. tauto.
Qed.

Lemma recs_rows : forall cs cvs k, Forall2 matches cs cvs ->
  map (fun e => map field_of (row_of (names ++ ["netlist"]) e)) (recs o k cvs)
  = table_lines o names (fun c => values_in (vget cv0) dims c) k cs.
Proof.
  intros cs cvs k F. revert k. induction F as [|c cv cs cvs M F IH]; intros k; [reflexivity|].
  cbn [recs table_lines]. rewrite map_app, IH. f_equal.
  destruct (o k) as [[n nm]|]; [|reflexivity]. cbn [map]. f_equal. unfold row_of. cbn [fst snd map].
  f_equal.
  - cbn [field_of]. rewrite s2l_back. reflexivity.
  - rewrite !map_app, map_map. f_equal.
    + apply map_ext_in. intros x Ix. rewrite vget_vset.
      destruct (String.eqb x "netlist") eqn:E.
      * apply String.eqb_eq in E. apply names_ok in Ix. tauto.
      * destruct M as (_ & V & _). rewrite V by exact Ix. destruct (values_in _ _ _ _); reflexivity.
    + cbn [map]. rewrite vget_vset. reflexivity.
Qed.

Lemma recs_good : forall cs cvs k, Forall2 matches cs cvs ->
  Forall (fun e => map fst (snd e) = names ++ ["netlist"] /\
                   Forall (fun kv => plain_number d (snd kv)) (snd e)) (recs o k cvs).
Proof.
  intros cs cvs k F. revert k. induction F as [|c cv cs cvs M F IH]; intros k; [constructor|].
  cbn [recs]. apply Forall_app. split; [|apply IH].
  destruct (o k) as [[n nm]|]; [|constructor]. constructor; [|constructor]. cbn [snd]. split.
  - eapply vset_netlist, M.
  - pose proof (matches_plain _ _ M) as P. clear - P. induction cv as [|[x y] cv IHcv]; cbn [vset].
    + repeat constructor.
    + inversion P; subst. destruct (String.eqb "netlist" x); constructor; auto. exact I.
Qed.

Lemma nl_nodup : NoDup (names ++ ["netlist"]).
Proof.
  apply NoDup_app_intro; [exact names_nodup|repeat constructor; auto|].
  intros x Ix [<-|[]]. apply names_ok in Ix. tauto.
Qed.

Lemma matches_all net0 : forall cs rs cvs, (forall c, In c cs -> In c (combinations dims)) ->
  Forall2 (fun c r => same_netlist r (with_combination net0 dims c)) cs rs ->
  Forall2 (fun r cv => good_cv dims cv0 (List.length dims) cv r) rs cvs -> Forall2 matches cs cvs.
Proof.
  intros cs rs cvs S F. revert cvs. induction F as [|c r cs rs H F IH]; intros cvs FC; inversion FC; subst.
  - constructor.
  - constructor.
    + eapply matches_ok; [apply S; left; reflexivity|exact H|eassumption].
    + apply IH; [|assumption]. intros; apply S; right; assumption.
Qed.

Lemma export_session net0 : all_reiterable dims ->
  table_lines o names (fun c => values_in (vget cv0) dims c) 0 (combinations dims) <> [] ->
  exists n s, (forall m, run_steps (n + S m) dims o net0 cv0 [] = Some s) /\
  exists file, export_step_info d (sim_info s) = Written file /\
    reads d file = Some ((Quoted (s2l "runno") :: map (fun k => Quoted (s2l k)) names ++ [Quoted (s2l "netlist")])
                         :: table_lines o names (fun c => values_in (vget cv0) dims c) 0 (combinations dims)).
Proof.
  intros HR NE. destruct (run_all_correct dims net0 HR) as (n & rs & E & F).
  assert (forall m, exists s', run_steps (n + S m) dims o net0 cv0 [] = Some s' /\
                     Inv dims o cv0 [] s' /\ runs (base s') = rs) as R.
  { intros m. apply rec_loop_runs; [exact OM|apply Inv_start|]. apply E. }
  destruct (R 0) as (s & Es & Is & Rs).
  exists n, s. split.
  { intros m. unfold run_steps in *. replace (n + S m) with ((n + 1) + m) by lia. apply rec_loop_det. exact Es. }
  destruct Is as (_ & cvs & FC & SI). rewrite Rs in FC.
  rewrite (records_recs o INC) in SI by (intros ? ? ? ? ? ? []). cbn [app] in SI.
  assert (Forall2 matches (combinations dims) cvs) as FM.
  { eapply matches_all; [intros c H; exact H|exact F|exact FC]. }
  rewrite <- (recs_rows _ _ 0 FM) in NE |- *.
  pose proof (recs_good _ _ 0 FM) as GR. pose proof (recs_sorted o INC cvs 0) as SR.
  rewrite SI. destruct (recs o 0 cvs) as [|[n1 first] rest] eqn:ER; [elim NE; reflexivity|].
  inversion GR as [|? ? [K1 _] _]; subst. cbn [snd] in K1.
  destruct (export_ok d n1 first rest ((n1, first) :: rest) G) as (file & W & RD).
  - apply sorted_id, SR.
  - eapply Forall_impl; [|exact GR]. intros e (K & P). rewrite K1, K.
    split; [exact nl_nodup|]. split; [|split; [auto|exact P]].
    intros H. apply in_app_iff in H as [H|[H|[]]]; [apply names_ok in H; tauto|discriminate].
  - exists file. split; [exact W|]. rewrite RD, K1, map_app. reflexivity.
Qed.
End Export.
