(** cleanup_files: every history. *)
From Coq Require Import String Ascii List Bool Arith ZArith Lia Permutation.
From Verif Require Import PyStr RunnerModel SimModel SimSpec SimProps ClnModel ClnSpec ClnProofs ClnProofs2.
Import ListNotations.
Local Open Scope string_scope. Local Open Scope nat_scope. Local Open Scope list_scope.

Definition fresh (m : sim) (d0 : disk) (s : cstate) : Prop := forall t p, In t (known s) -> belongs m (k_net t) p -> d0 p = None.
Record inv (m : sim) (d0 : disk) (s : cstate) : Prop := {
  i_nodup : NoDup (map k_no (known s));
  i_small : forall t, In t (known s) -> k_no t <= s_no s;
  i_task : forall t, In t (known s) -> task_inv m (s_disk s) t;
  i_done : forall t, In t (s_done s) -> k_end t <> None;
  i_disk : forall p, s_disk s p = d0 p \/ exists t, In t (known s) /\ belongs m (k_net t) p }.

Lemma filter_both : forall A (f : A -> bool) l, Permutation l (filter (fun x => negb (f x)) l ++ filter f l).
Proof.
  intros A f l. induction l as [|x l IH]; [constructor|]. cbn [filter]. destruct (f x); cbn [negb app]; [|constructor; exact IH]. eapply perm_trans; [apply perm_skip; exact IH|]. apply Permutation_middle.
Qed.
Lemma known_update : forall s, Permutation (known s) (known (update s)).
Proof.
  intros s. unfold known, update. cbn [s_active s_done]. eapply perm_trans; [apply Permutation_app_tail, (filter_both _ ended)|]. rewrite <- app_assoc. apply Permutation_app_head, Permutation_app_comm.
Qed.
Lemma nodup_eq : forall (l : list ctask) a b, NoDup (map k_no l) -> In a l -> In b l -> k_no a = k_no b -> a = b.
Proof.
  induction l as [|x l IH]; intros a b ND IA IB E; [destruct IA|]. cbn [map] in ND. inversion ND as [|y ys NI ND']; subst. destruct IA as [-> |IA], IB as [-> |IB]; [reflexivity| | |apply IH; assumption].
  - exfalso. apply NI. rewrite E. apply in_map. exact IB.
  - exfalso. apply NI. rewrite <- E. apply in_map. exact IA.
Qed.
Lemma only_mine : forall m d0 s a b p, inv m d0 s -> In a (known s) -> In b (known s) -> belongs m (k_net a) p -> belongs m (k_net b) p -> a = b.
Proof.
  intros m d0 s a b p [ND _ IT _ _] IA IB BA BB. apply (nodup_eq (known s)); [exact ND|exact IA|exact IB|]. apply (belongs_one m _ _ (k_net a) (k_net b) p); [apply (ti_num _ _ _ (IT a IA))|apply (ti_num _ _ _ (IT b IB))|exact BA|exact BB].
Qed.
Lemma inv_update : forall m d0 s, inv m d0 s -> inv m d0 (update s).
Proof.
  intros m d0 s [ND SM IT ID DK]. pose proof (known_update s) as P. assert (IN : forall t, In t (known (update s)) <-> In t (known s)) by (intros t; split; apply Permutation_in; [apply Permutation_sym; exact P|exact P]). split.
  - apply (Permutation_NoDup (Permutation_map k_no P) ND).
  - intros t I. apply SM. apply IN. exact I.
  - intros t I. apply IT. apply IN. exact I.
  - intros t I. cbn [update s_done] in I. apply in_app_or in I. destruct I as [I|I]; [exact (ID t I)|]. apply filter_In in I. destruct I as (_ & E). unfold ended in E. destruct (k_end t); [discriminate|discriminate E].
  - intros p. destruct (DK p) as [E|(t & I & B)]; [left; exact E|right; exists t; split; [apply IN; exact I|exact B]].
Qed.
(** Cleaning the completed tasks. *)
Lemma clean_all : forall m l d, (forall t, In t l -> task_inv m d t /\ k_end t <> None /\ (failed t -> d (raw_of m (k_net t)) = None)) ->
  let d' := fold_left (fun d t => clean_task t d) l d in
  (forall p t, In t l -> belongs m (k_net t) p -> d' p = None) /\ (forall p, (forall t, In t l -> ~ belongs m (k_net t) p) -> d' p = d p) /\ (forall p, d p = None -> d' p = None).
Proof.
  intros m l. induction l as [|t l IH]; intros d H; cbv zeta; cbn [fold_left]; [split; [intros p t []|split; auto]|].
  destruct (H t (or_introl eq_refl)) as (TI & TE & TF).
  assert (H' : forall u, In u l -> task_inv m (clean_task t d) u /\ k_end u <> None /\ (failed u -> clean_task t d (raw_of m (k_net u)) = None)).
  { intros u I. destruct (H u (or_intror I)) as (A & B & C). split; [apply (task_inv_less m d); [exact A|intros p; apply clean_none]|]. split; [exact B|]. intros F. apply clean_none. exact (C F). }
  destruct (IH _ H') as (X & Y & Z). split; [|split].
  - intros p u [<- |I] B; [|exact (X p u I B)]. apply Z. exact (clean_mine m t d p TI TE TF B).
  - intros p NB. rewrite Y by (intros u I; apply NB; right; exact I). apply (clean_other m); [exact TI|apply NB; left; reflexivity].
  - intros p N. apply Z. apply clean_none. exact N.
Qed.
(** A failed run leaves no waveforms: lasts, once it holds. *)
Definition no_failed_raw (m : sim) (s : cstate) : Prop := forall t, In t (known s) -> failed t -> s_disk s (raw_of m (k_net t)) = None.
(** Cleaning keeps the invariant even if failed runs left waveforms. *)
Lemma clean_less : forall l d p, d p = None -> fold_left (fun d t => clean_task t d) l d p = None.
Proof. induction l as [|t l IH]; intros d p H; [exact H|]. cbn [fold_left]. apply IH, clean_none, H. Qed.
Lemma clean_others : forall m l d p, (forall t, In t l -> task_inv m d t) -> (forall t, In t l -> ~ belongs m (k_net t) p) -> fold_left (fun d t => clean_task t d) l d p = d p.
Proof.
  intros m l. induction l as [|t l IH]; intros d p H NB; [reflexivity|]. cbn [fold_left]. rewrite IH; [apply (clean_other m); [apply H; left; reflexivity|apply NB; left; reflexivity]| |intros u I; apply NB; right; exact I].
  intros u I. apply (task_inv_less m d); [apply H; right; exact I|intros q; apply clean_none].
Qed.
Lemma belongs_dec : forall m net p, numbered 0 net \/ (exists n, numbered n net) -> belongs m net p \/ ~ belongs m net p.
Proof.
  intros m net p H. assert (exists n, numbered n net) as (n & d & b & sf & -> & I) by (destruct H as [H|H]; [exists 0; exact H|exact H]). pose proof (stem_ne b n) as N. set (st := b ++ under :: dec n) in *.
  destruct (existsb (fun e => same_path p (Path d (st ++ e))) (run_files m sf)) eqn:E.
  - left. apply existsb_exists in E. destruct E as (e & R & E). apply same_path_eq in E. apply belongs_net; [exact N|exact I|]. exists e. auto.
  - right. intros B. apply belongs_net in B; [|exact N|exact I]. destruct B as (e & R & ->). assert (T : existsb (fun e0 => same_path (Path d (st ++ e)) (Path d (st ++ e0))) (run_files m sf) = true) by (apply existsb_exists; exists e; split; [exact R|apply same_path_eq; reflexivity]). congruence.
Qed.
Lemma some_mine : forall m l p, (forall t, In t l -> exists n, numbered n (k_net t)) -> (exists t, In t l /\ belongs m (k_net t) p) \/ (forall t, In t l -> ~ belongs m (k_net t) p).
Proof.
  intros m l p. induction l as [|t l IH]; intros H; [right; intros t []|]. destruct (belongs_dec m (k_net t) p (or_intror (H t (or_introl eq_refl)))) as [B|B]; [left; exists t; split; [left; reflexivity|exact B]|].
  destruct IH as [(u & I & U)|IH]; [intros u I; apply H; right; exact I|left; exists u; split; [right; exact I|exact U]|right; intros u [<- |I]; [exact B|exact (IH u I)]].
Qed.
Lemma inv_clean : forall m d0 s, inv m d0 s -> inv m d0 (cleanup s).
Proof.
  intros m d0 s IV. apply inv_update in IV. unfold cleanup. set (u := update s) in *. clearbody u. clear s. destruct IV as [ND SM IT ID DK]. split; cbn [s_disk s_no s_active s_done]; try assumption.
  - intros t I. apply (task_inv_less m (s_disk u)); [exact (IT t I)|]. intros p. apply clean_less.
  - intros p. destruct (some_mine m (s_done u) p) as [(t & I & B)|N].
    + intros t I. exists (k_no t). apply (ti_num m (s_disk u)). apply IT. apply in_or_app. right. exact I.
    + right. exists t. split; [apply in_or_app; right; exact I|exact B].
    + destruct (DK p) as [E|E]; [left|right; exact E]. rewrite (clean_others m); [exact E| |exact N]. intros t I. apply IT. apply in_or_app. right. exact I.
Qed.

(** ** Runs *)
Lemma prepare_ok : forall out cwd n src d net d', (exists stem ext, source_name src = stem ++ ext /\ stem <> [] /\ In ext (s2l ".qsch" :: netlists)) ->
  prepare out cwd n None src d = Some (net, d') -> numbered n net /\ exists c, d' = put net (Some c) d.
Proof.
  intros out cwd n src d net d' (stem & ext & E & N & I) H. destruct (run_name n stem ext N I) as (sf & SF & RN). destruct src as [p|p text]; cbn [source_name] in E; cbn [prepare] in H; rewrite E, RN in H.
  - unfold to_output_folder in H. destruct (d p) as [c|]; [|discriminate H]. destruct (same_path _ _); [discriminate H|]. injection H as <- <-. split; [|exists c; reflexivity]. exists (match out with Some o => o | None => folder p end), stem, sf. split; [destruct out; reflexivity|exact SF].
  - injection H as <- <-. split; [|exists text; reflexivity]. unfold on_output_folder. exists (match out with Some o => o | None => cwd end), stem, sf. split; [destruct out; reflexivity|exact SF].
Qed.
Lemma finish_in_spec : forall m no ret l d l' d', finish_in m no ret l d = (l', d') -> (l' = l /\ d' = d) \/ exists a t b t', l = a ++ t :: b /\ k_no t = no /\ k_end t = None /\ l' = a ++ t' :: b /\ finish m ret t d = (t', d').
Proof.
  intros m no ret l. induction l as [|t l IH]; intros d l' d' H; cbn [finish_in] in H; [injection H as <- <-; left; auto|]. destruct ((k_no t =? no) && negb (ended t)) eqn:E.
  - destruct (finish m ret t d) as [t' d1] eqn:F. injection H as <- <-. right. exists [], t, l, t'. apply andb_true_iff in E. destruct E as (E1 & E2). apply Nat.eqb_eq in E1. unfold ended in E2. destruct (k_end t) eqn:K; [discriminate E2|]. repeat split; auto.
  - destruct (finish_in m no ret l d) as [r' d1] eqn:F. injection H as <- <-. destruct (IH _ _ _ F) as [(-> & ->)|(a & u & b & u' & -> & A & B & -> & C)]; [left; auto|]. right. exists (t :: a), u, b, u'. repeat split; auto.
Qed.
Lemma finish_ok : forall m ret t d t' d', finish m ret t d = (t', d') -> task_inv m d t -> k_end t = None ->
  k_no t' = k_no t /\ k_net t' = k_net t /\ task_inv m d' t' /\ (forall p, ~ belongs m (k_net t) p -> d' p = d p).
Proof.
  intros m ret t d t' d' F TI EN. destruct (fail_mine m _ _ (ti_num _ _ _ TI)) as (BF & BL & _). pose proof (ti_run _ _ _ TI EN) as FN. pose proof (ti_num _ _ _ TI) as NU.
  unfold finish in F. fold (log_of (k_net t)) in F. destruct (Z.eqb_spec ret 0) as [R|R].
  - injection F as <- <-. cbn [k_no k_net]. split; [reflexivity|]. split; [reflexivity|]. split; [|auto]. split; cbn [k_end k_no k_net]; [exact NU|intros K; discriminate K| |]; intros e E Z; injection E as <-; cbn [e_ret e_raw e_log] in *; [auto|contradiction].
  - assert (FL : with_suffix (log_of (k_net t)) (s2l ".fail") = fail_of (k_net t) /\ fail_of (k_net t) <> log_of (k_net t)).
    { destruct NU as (dd & b & sf & -> & I). pose proof (stem_ne b (k_no t)) as N. unfold log_of, fail_of. rewrite !(suffix_net _ _ _ _ N I), (suffix_log _ _ _ N). split; [reflexivity|]. intros E. injection E as E. apply app_inv_head in E. discriminate E. }
    destruct FL as (FL & NE). destruct (d (log_of (k_net t))) as [c|] eqn:DL.
    + rewrite FL in F. injection F as <- <-. cbn [k_no k_net]. split; [reflexivity|]. split; [reflexivity|]. split.
      * split; cbn [k_end k_no k_net]; [exact NU|intros K; discriminate K| |]; intros e E Z; injection E as <-; cbn [e_ret e_raw e_log] in *; [contradiction|]. split; [reflexivity|]. split; [|left; reflexivity]. rewrite put_other by (intros K; apply NE; symmetry; exact K). apply put_same.
      * intros p NB. rewrite !put_other; [reflexivity| |]; intros ->; contradiction.
    + injection F as <- <-. cbn [k_no k_net]. split; [reflexivity|]. split; [reflexivity|]. split; [|auto].
      split; cbn [k_end k_no k_net]; [exact NU|intros K; discriminate K| |]; intros e E Z; injection E as <-; cbn [e_ret e_raw e_log] in *; [contradiction|]. split; [reflexivity|]. split; [exact DL|right; auto].
Qed.
Lemma products_not_fail : forall m sf, In sf netlists -> ~ In (s2l ".fail") (products m sf).
Proof.
  intros m sf I H. assert (T : forallb (fun m => forallb (fun sf => negb (existsb (str_eqb (s2l ".fail")) (products m sf))) netlists) [LTspice; NGspice; Qspice; Xyce] = true) by (vm_compute; reflexivity).
  rewrite forallb_forall in T. assert (M : In m [LTspice; NGspice; Qspice; Xyce]) by (destruct m; cbn; tauto). apply T in M. rewrite forallb_forall in M. apply M in I. apply negb_true_iff in I. assert (K : existsb (str_eqb (s2l ".fail")) (products m sf) = true) by (apply existsb_exists; exists (s2l ".fail"); split; [exact H|apply str_eqb_refl]). congruence.
Qed.
Lemma inv_step : forall m out cwd d0 s e, inv m d0 s -> usual m s e -> fresh m d0 (cstep m out cwd s e) -> inv m d0 (cstep m out cwd s e).
Proof.
  intros m out cwd d0 s e IV US FR. destruct e as [given src slot|no ext text|no ret| |].
  - destruct US as (-> & -> & NM). cbn [cstep] in *. destruct (prepare out cwd (S (s_no s)) None src (s_disk s)) as [[net d']|] eqn:P.
    2:{ destruct IV as [ND SM IT ID DK]. split; cbn [s_disk s_no s_active s_done]; try assumption. intros t I. specialize (SM t I). lia. }
    destruct (prepare_ok _ _ _ _ _ _ _ NM P) as (NU & c & ->). set (t0 := {| k_no := S (s_no s); k_net := net; k_end := None |}) in *.
    assert (IN : forall t, In t ((s_active s ++ [t0]) ++ s_done s) <-> t = t0 \/ In t (known s)).
    { intros t. unfold known. rewrite !in_app_iff. cbn [In]. intuition congruence. }
    destruct (fail_mine m _ _ NU) as (BF & _ & _ & BN). destruct IV as [ND SM IT ID DK].
    assert (OTH : forall t p, In t (known s) -> belongs m (k_net t) p -> belongs m net p -> False).
    { intros t p I B B'. specialize (SM t I). assert (k_no t = S (s_no s)) by (apply (belongs_one m _ _ (k_net t) net p); [apply (ti_num _ _ _ (IT t I))|exact NU|exact B|exact B']). lia. }
    split; unfold known; cbn [s_disk s_no s_active s_done].
    + rewrite !map_app. cbn [map]. rewrite <- app_assoc. cbn [app]. apply NoDup_Add with (a := S (s_no s)) (l := map k_no (s_active s) ++ map k_no (s_done s)); [apply Add_app|]. rewrite <- map_app. split; [exact ND|]. intros K. apply in_map_iff in K. destruct K as (t & E & I). specialize (SM t I). lia.
    + intros t I. apply IN in I. destruct I as [-> |I]; [apply le_n|]. specialize (SM t I). lia.
    + intros t I. apply IN in I. destruct I as [-> |I].
      * split; cbn [k_no k_net k_end t0]; [exact NU| |intros e K; discriminate K|intros e K; discriminate K]. intros _. rewrite put_other.
        -- destruct (DK (fail_of net)) as [E|(t & I & B)]; [|exfalso; exact (OTH t _ I B BF)]. rewrite E. apply (FR t0); [unfold known; cbn [s_active s_done]; apply IN; left; reflexivity|exact BF].
        -- destruct NU as (dd & b & sf & -> & I). pose proof (stem_ne b (S (s_no s))) as N. unfold fail_of. rewrite (suffix_net _ _ _ _ N I). intros E. injection E as E. apply app_inv_head in E. subst sf. vm_compute in I. intuition discriminate.
      * apply (task_inv_ext m (s_disk s)); [exact (IT t I)|]. intros p B. apply put_other. intros ->. exact (OTH t _ I B BN).
    + exact ID.
    + intros p. unfold put. destruct (same_path p net) eqn:E.
      * right. exists t0. split; [apply IN; left; reflexivity|]. apply same_path_eq in E. subst p. exact BN.
      * destruct (DK p) as [K|(t & I & B)]; [left; exact K|right; exists t; split; [apply IN; right; exact I|exact B]].
  - cbn [cstep] in *. destruct (find _ (s_active s)) as [t|] eqn:F; [|exact IV]. apply find_some in F. destruct F as (IA & F). apply andb_true_iff in F. destruct F as (F1 & F2). apply Nat.eqb_eq in F1. assert (KE : k_end t = None) by (unfold ended in F2; destruct (k_end t); [discriminate F2|reflexivity]).
    destruct (US t IA F1) as (dd & st & sf & NET & N & I & PR). assert (KN : In t (known s)) by (apply in_or_app; left; exact IA). pose proof (suffix_net dd st sf ext N I) as WS. rewrite <- NET in WS.
    assert (B : belongs m (k_net t) (with_suffix (k_net t) ext)) by (rewrite NET; apply in_files; [exact N|exact I|right; right; exact PR]).
    assert (MINE := fun u p => only_mine m d0 s t u p IV KN). destruct IV as [ND SM IT ID DK]. split; cbn [s_disk s_no s_active s_done]; unfold known in *; cbn [s_active s_done]; try assumption.
    + intros u IU. destruct (belongs_dec m (k_net u) (with_suffix (k_net t) ext) (or_intror (ex_intro (fun n => numbered n (k_net u)) _ (ti_num _ _ _ (IT u IU))))) as [BU|BU].
      * assert (t = u) by (apply (MINE u (with_suffix (k_net t) ext)); assumption). subst u. destruct (IT t IU) as [A A1 A2 A3]. split; [exact A| |intros e K; congruence|intros e K; congruence]. intros _. rewrite put_other; [exact (A1 KE)|]. rewrite WS. unfold fail_of. rewrite NET, (suffix_net _ _ _ _ N I). intros E. injection E as E. apply app_inv_head in E. subst ext. exact (products_not_fail m sf I PR).
      * apply (task_inv_ext m (s_disk s)); [exact (IT u IU)|]. intros p BP. apply put_other. intros ->. contradiction.
    + intros p. unfold put. destruct (same_path p _) eqn:E; [|exact (DK p)]. right. apply same_path_eq in E. subst p. exists t. split; [exact KN|exact B].
  - cbn [cstep] in *. destruct (finish_in m no ret (s_active s) (s_disk s)) as [l' d'] eqn:F. destruct (finish_in_spec _ _ _ _ _ _ _ F) as [(-> & ->)|(a & t & b & t' & EA & KN & KE & -> & FI)].
    { destruct s; exact IV. }
    assert (KT : In t (known s)) by (unfold known; rewrite EA; apply in_or_app; left; apply in_or_app; right; left; reflexivity).
    assert (MINE := fun u p => only_mine m d0 s t u p IV KT). destruct IV as [ND SM IT ID DK]. destruct (finish_ok _ _ _ _ _ _ FI (IT t KT) KE) as (N1 & N2 & TI & OT).
    assert (IN : forall u, In u ((a ++ t' :: b) ++ s_done s) -> u = t' \/ In u (known s)) by (intros u; unfold known; rewrite EA, !in_app_iff; cbn [In]; intuition congruence).
    assert (NI : forall u, In u ((a ++ t' :: b) ++ s_done s) -> u <> t' -> u <> t).
    { intros u IU NE ->. unfold known in ND. rewrite EA, <- app_assoc in ND. cbn [app] in ND. rewrite map_app in ND. cbn [map] in ND. apply NoDup_remove_2 in ND. rewrite <- map_app in ND. apply ND. apply in_map_iff. exists t. split; [reflexivity|]. rewrite <- app_assoc in IU. cbn [app] in IU. apply in_app_or in IU. destruct IU as [IU|[IU|IU]]; [apply in_or_app; left; exact IU|congruence|apply in_or_app; right; exact IU]. }
    split; unfold known; cbn [s_disk s_no s_active s_done].
    + unfold known in ND. rewrite EA in ND. rewrite !map_app in *. cbn [map] in *. rewrite N1. exact ND.
    + intros u IU. destruct (IN u IU) as [-> |I]; [rewrite N1; apply SM; exact KT|apply SM; exact I].
    + intros u IU. destruct (IN u IU) as [-> |I]; [exact TI|]. assert (TE : t <> t') by (intros X; assert (KE' : k_end t' = None) by congruence; unfold finish in FI; destruct (Z.eqb ret 0); [injection FI as <- _; discriminate KE'|]; destruct (s_disk s _); injection FI as <- _; discriminate KE').
      assert (NT : u <> t).
      { destruct (Nat.eq_dec (k_no u) (k_no t)) as [E|E]; [|intros ->; congruence]. assert (u = t) by (apply (nodup_eq (known s)); [exact ND|exact I|exact KT|exact E]). subst u. exact (NI t IU TE). }
      apply (task_inv_ext m (s_disk s)); [exact (IT u I)|]. intros p BP. apply OT. intros BT. apply NT. symmetry. exact (MINE u p I BT BP).
    + exact ID.
    + intros p. destruct (belongs_dec m (k_net t) p) as [B|B]; [right; exists (k_no t); apply (ti_num m (s_disk s)); apply IT; exact KT| |].
      * right. exists t'. split; [rewrite !in_app_iff; cbn [In]; tauto|rewrite N2; exact B].
      * rewrite (OT p B). destruct (DK p) as [E|(u & I & BU)]; [left; exact E|]. right. unfold known in I. rewrite EA, !in_app_iff in I. cbn [In] in I. assert (u <> t) by (intros ->; contradiction). exists u. split; [rewrite !in_app_iff; cbn [In]; intuition congruence|exact BU].
  - apply inv_update. exact IV.
  - apply inv_clean. exact IV.
Qed.
(** Tasks are never forgotten. *)
Lemma step_known : forall m out cwd s e t, In t (known s) -> exists t', In t' (known (cstep m out cwd s e)) /\ k_net t' = k_net t.
Proof.
  intros m out cwd s e t I. destruct e as [given src slot|no ext text|no ret| |]; cbn [cstep].
  - destruct (prepare _ _ _ _ _ _) as [[net d']|]; exists t; (split; [|reflexivity]); unfold known in *; cbn [s_active s_done]; [|exact I]. rewrite !in_app_iff in *. tauto.
  - destruct (find _ _); exists t; (split; [|reflexivity]); exact I.
  - destruct (finish_in m no ret (s_active s) (s_disk s)) as [l' d'] eqn:F. unfold known in *. cbn [s_active s_done]. destruct (finish_in_spec _ _ _ _ _ _ _ F) as [(-> & ->)|(a & u & b & u' & EA & KN & KE & -> & FI)]; [exists t; auto|].
    assert (N2 : k_net u' = k_net u) by (unfold finish in FI; destruct (Z.eqb ret 0); [injection FI as <- _; reflexivity|]; destruct (s_disk s _); injection FI as <- _; reflexivity).
    rewrite EA, !in_app_iff in I. cbn [In] in I. destruct I as [[I|[<- |I]]|I]; [exists t| exists u'|exists t|exists t]; (split; [rewrite !in_app_iff; cbn [In]; tauto|auto]).
  - exists t. split; [|reflexivity]. apply (Permutation_in _ (known_update s)). exact I.
  - exists t. split; [|reflexivity]. apply (Permutation_in _ (known_update s)). exact I.
Qed.
Lemma goes_inv : forall m out cwd d0 s, goes m out cwd d0 s -> fresh m d0 s -> inv m d0 s.
Proof.
  intros m out cwd d0 s G. induction G as [|s e G IH US]; intros FR.
  - split; cbn; [constructor|intros t []|intros t []|intros t []|auto].
  - apply inv_step; [|exact US|exact FR]. apply IH. intros t p I B. destruct (step_known m out cwd s e t I) as (t' & I' & E). apply (FR t' p I'). rewrite E. exact B.
Qed.
Theorem cleaned : forall m out cwd d0 s, goes m out cwd d0 s -> fresh m d0 s -> no_failed_raw m s ->
  (forall t p, running s t -> belongs m (k_net t) p -> s_disk (cleanup s) p = s_disk s p) /\
  (forall p, (forall t, running s t -> ~ belongs m (k_net t) p) -> s_disk (cleanup s) p = d0 p).
Proof.
  intros m out cwd d0 s G FR NF. pose proof (goes_inv _ _ _ _ _ G FR) as IV. pose proof (inv_update _ _ _ IV) as IU.
  assert (DN : forall t, In t (s_done (update s)) -> In t (known s)) by (intros t I; apply (Permutation_in _ (Permutation_sym (known_update s))); apply in_or_app; right; exact I).
  destruct (clean_all m (s_done (update s)) (s_disk (update s))) as (X & Y & _).
  { intros t I. split; [apply (i_task _ _ _ IU); apply in_or_app; right; exact I|]. split; [apply (i_done _ _ _ IU); exact I|]. intros F. apply NF; [apply DN; exact I|exact F]. }
  change (s_disk (cleanup s)) with (fold_left (fun d t => clean_task t d) (s_done (update s)) (s_disk (update s))). change (s_disk (update s)) with (s_disk s) in *. split.
  - intros t p (I & E) B. apply Y. intros u IU' BU. assert (t = u) by (apply (only_mine m d0 s t u p IV); [apply in_or_app; left; exact I|apply DN; exact IU'|exact B|exact BU]). subst u. exact (i_done _ _ _ IU t IU' E).
  - intros p NR. destruct (some_mine m (s_done (update s)) p) as [(t & I & B)|N].
    + intros t I. exists (k_no t). apply (ti_num m (s_disk s)). apply (i_task _ _ _ IV). apply DN. exact I.
    + rewrite (X p t I B). symmetry. apply (FR t); [apply DN; exact I|exact B].
    + rewrite (Y p N). destruct (i_disk _ _ _ IV p) as [E|(t & I & B)]; [exact E|]. exfalso. apply (Permutation_in _ (known_update s)) in I. apply in_app_or in I. destruct I as [I|I]; [|exact (N t I B)]. cbn [update s_active] in I. apply filter_In in I. destruct I as (I & E). apply (NR t); [|exact B]. split; [exact I|]. unfold ended in E. destruct (k_end t); [discriminate E|reflexivity].
Qed.
