From Coq Require Import String Ascii List Bool Arith ZArith Lia.
From Verif Require Import PyStr RunnerModel SimModel SimSpec SimProps SrvfModel ClnSpec SrvfSpec.
From Verif Require ClnModel ClnProofs.
Import ListNotations.
Local Open Scope string_scope. Local Open Scope nat_scope. Local Open Scope list_scope.

Lemma vput_same : forall p c d, vput p c d p = c.
Proof. intros p c d. unfold vput. rewrite (proj2 (ClnProofs.same_path_eq p p) eq_refl). reflexivity. Qed.
Lemma vput_other : forall p c d q, q <> p -> vput p c d q = d q.
Proof. intros p c d q N. unfold vput. destruct (ClnModel.same_path q p) eqn:E; [apply ClnProofs.same_path_eq in E; contradiction|reflexivity]. Qed.
Lemma vdel_same : forall p d, vdel p d p = None.
Proof. intros p d. unfold vdel, there. destruct (d p) eqn:E; [apply vput_same|exact E]. Qed.
Lemma vdel_other : forall p d q, q <> p -> vdel p d q = d q.
Proof. intros p d q N. unfold vdel. destruct (there d p); [apply vput_other; exact N|reflexivity]. Qed.
Lemma vdel_none : forall p d q, d q = None -> vdel p d q = None.
Proof. intros p d q H. unfold vdel. destruct (there d p); [|exact H]. unfold vput. destruct (ClnModel.same_path q p); [reflexivity|exact H]. Qed.

(** ** Names *)
Lemma run_ext_clean : forall e c, In e run_exts -> In c e -> is_digit c = false.
Proof.
  intros e c I C. assert (H : forallb (fun e => forallb (fun c => negb (is_digit c)) e) run_exts = true) by (vm_compute; reflexivity). rewrite forallb_forall in H. apply H in I. rewrite forallb_forall in I. apply I in C. apply negb_true_iff. exact C.
Qed.
Lemma ends_apart : forall (x : str) c (e : str) x' c' e', (forall z, In z e -> is_digit z = false) -> (forall z, In z e' -> is_digit z = false) -> is_digit c = true -> is_digit c' = true ->
  (x ++ [c]) ++ e = (x' ++ [c']) ++ e' -> x ++ [c] = x' ++ [c'] /\ e = e'.
Proof.
  intros x c e x' c' e' I I' C C' E. assert (K : forall l : str, l <> [] -> exists r z, l = r ++ [z]) by (intros l N; destruct (exists_last N) as (r & z & R); exists r, z; exact R).
  apply app_eq_app in E. destruct E as (l & [(A & B)|(A & B)]).
  - destruct l as [|z l]; [rewrite app_nil_r in A; auto|]. exfalso. destruct (K (z :: l) ltac:(discriminate)) as (r & w & R). rewrite R in *. rewrite app_assoc in A. apply app_inj_tail in A. destruct A as (_ & ->). assert (ND : is_digit w = false) by (apply I'; rewrite B; apply in_or_app; left; apply in_or_app; right; left; reflexivity). congruence.
  - destruct l as [|z l]; [rewrite app_nil_r in A; split; [auto|exact B]|]. exfalso. destruct (K (z :: l) ltac:(discriminate)) as (r & w & R). rewrite R in *. rewrite app_assoc in A. apply app_inj_tail in A. destruct A as (_ & ->). assert (ND : is_digit w = false) by (apply I; rewrite B; apply in_or_app; left; apply in_or_app; right; left; reflexivity). congruence.
Qed.
Lemma file_of_inj : forall out b n e b' n' e', In e run_exts -> In e' run_exts -> file_of out b n e = file_of out b' n' e' -> b = b' /\ n = n' /\ e = e'.
Proof.
  intros out b n e b' n' e' I I' E. unfold file_of in E. injection E as E. destruct (ClnProofs.stem_end b n) as (x & c & X & C). destruct (ClnProofs.stem_end b' n') as (x' & c' & X' & C'). change "_"%char with under in E. rewrite X, X' in E.
  apply ends_apart in E; try assumption; [|intros z; apply run_ext_clean; exact I|intros z; apply run_ext_clean; exact I']. destruct E as (E & ->). rewrite <- X, <- X' in E.
  pose proof (split_at_last_app under b (dec n) (dec_no_char under n eq_refl)) as S1. pose proof (split_at_last_app under b' (dec n') (dec_no_char under n' eq_refl)) as S2. rewrite E in S1. rewrite S1 in S2. injection S2 as -> S2. split; [reflexivity|]. split; [apply dec_inj; exact S2|reflexivity].
Qed.
Lemma run_file_no : forall out p n n', run_file out p n -> run_file out p n' -> n = n'.
Proof. intros out p n n' (b & e & -> & I) (b' & e' & E & I'). exact (proj1 (proj2 (file_of_inj _ _ _ _ _ _ _ I I' E))). Qed.
Lemma net_ext : forall sf, In sf netlists -> In sf run_exts.
Proof. intros sf I. unfold run_exts. apply in_or_app. left. exact I. Qed.
Lemma prod_ext : forall m sf e, In sf netlists -> In e (products m sf) -> In e run_exts.
Proof.
  intros m sf e I R. assert (H : forallb (fun m => forallb (fun sf => forallb (fun e => existsb (str_eqb e) run_exts) (products m sf)) netlists) [LTspice; NGspice; Qspice; Xyce] = true) by (vm_compute; reflexivity).
  rewrite forallb_forall in H. assert (M : In m [LTspice; NGspice; Qspice; Xyce]) by (destruct m; cbn; tauto). apply H in M. rewrite forallb_forall in M. apply M in I. rewrite forallb_forall in I. apply I in R. apply existsb_exists in R. destruct R as (x & X & E). apply str_eqb_eq in E. subst x. exact X.
Qed.
Lemma prod_not_net : forall m sf e, In sf netlists -> In e (products m sf) -> e <> sf.
Proof.
  intros m sf e I R. assert (H : forallb (fun m => forallb (fun sf => forallb (fun e => negb (str_eqb e sf)) (products m sf)) netlists) [LTspice; NGspice; Qspice; Xyce] = true) by (vm_compute; reflexivity).
  rewrite forallb_forall in H. assert (M : In m [LTspice; NGspice; Qspice; Xyce]) by (destruct m; cbn; tauto). apply H in M. rewrite forallb_forall in M. apply M in I. rewrite forallb_forall in I. apply I in R. apply negb_true_iff, str_eqb_neq in R. exact R.
Qed.
Lemma prod_own : forall m sf, In (raw_name m) (products m sf) /\ In (s2l ".log") (products m sf).
Proof. intros m sf. unfold products. split; [right; left; reflexivity|left; reflexivity]. Qed.
Lemma own_exts : forall m, In (raw_name m) run_exts /\ In (s2l ".log") run_exts /\ In (s2l ".fail") run_exts /\ In (s2l ".zip") run_exts.
Proof. intros m. destruct m; vm_compute; repeat split; tauto. Qed.
Lemma own_names : forall m, NoDup [raw_name m; s2l ".log"; s2l ".fail"; s2l ".zip"].
Proof. intros m. destruct m; vm_compute; repeat constructor; cbn; intuition discriminate. Qed.
Lemma own_not_net : forall m e sf, In e [raw_name m; s2l ".log"; s2l ".fail"; s2l ".zip"] -> In sf netlists -> e <> sf.
Proof.
  intros m e sf I J. assert (H : forallb (fun m => forallb (fun e => forallb (fun sf => negb (str_eqb e sf)) netlists) [raw_name m; s2l ".log"; s2l ".fail"; s2l ".zip"]) [LTspice; NGspice; Qspice; Xyce] = true) by (vm_compute; reflexivity).
  rewrite forallb_forall in H. assert (M : In m [LTspice; NGspice; Qspice; Xyce]) by (destruct m; cbn; tauto). apply H in M. rewrite forallb_forall in M. apply M in I. rewrite forallb_forall in I. apply I in J. apply negb_true_iff, str_eqb_neq in J. exact J.
Qed.
Lemma suffix_file : forall out b n sf e, In sf (netlists ++ map s2l [".log"; ".fail"; ".raw"; ".qraw"]) -> with_suffix (file_of out b n sf) e = file_of out b n e.
Proof.
  intros out b n sf e I. unfold file_of, with_suffix. cbn [folder name]. rewrite split_name; [reflexivity|]. split; [apply ClnProofs.stem_ne|].
  assert (H : forallb (fun s => match s with c :: (_ :: _) as r => match r with [] => false | _ => aeqb c "."%char && negb (mem_c "."%char r) end | _ => false end) (netlists ++ map s2l [".log"; ".fail"; ".raw"; ".qraw"]) = true) by (vm_compute; reflexivity).
  rewrite forallb_forall in H. apply H in I. destruct sf as [|c [|c' r]]; try discriminate I. apply andb_true_iff in I. destruct I as (A & B). apply aeqb_eq in A. subst c. split; [|discriminate]. right. exists (c' :: r). split; [reflexivity|]. split; [discriminate|]. apply mem_c_not_In. apply negb_true_iff. exact B.
Qed.

(** ** History functions *)
Lemma wrote_app : forall h x n e, wrote (h ++ [x]) n e = match x with VWrite n' e' t => if (n' =? n) && str_eqb e' e then Some t else wrote h n e | _ => wrote h n e end.
Proof. intros h x n e. unfold wrote. rewrite fold_left_app. reflexivity. Qed.
Lemma returned_app : forall h x n, returned (h ++ [x]) n = match x with VEnd n' r => if n' =? n then Some r else returned h n | _ => returned h n end.
Proof. intros h x n. unfold returned. rewrite fold_left_app. reflexivity. Qed.

(** ** The invariant *)
Section Inv.
Variables (m : sim) (out : str) (d0 : vdisk).
Definition known_jobs (v : vserver) : list job := v_jobs v ++ v_finished v.
Definition end_inv (h : list vevent) (d : vdisk) (b sf : str) (n : nat) (x : option jend) : Prop :=
  match x with
  | None => (forall e, In e (products m sf) -> d (file_of out b n e) = option_map Plain (wrote h n e)) /\ d (file_of out b n (s2l ".zip")) = None /\ d (file_of out b n (s2l ".fail")) = None /\ returned h n = None
  | Some x => exists ret, returned h n = Some ret /\ (j_log x = file_of out b n (s2l ".log") \/ j_log x = file_of out b n (s2l ".fail")) /\
      (j_raw x = None \/ j_raw x = Some (file_of out b n (raw_name m))) /\
      (forall p c, In (p, c) (delivery m out b n h ret) -> p = j_log x \/ j_raw x = Some p) /\
      match j_zip x with
      | None => delivery m out b n h ret = []
      | Some z => z = file_of out b n (s2l ".zip") /\ d z = Some (Zip (delivery m out b n h ret)) /\ delivery m out b n h ret <> []
      end
  end.
Definition job_inv (h : list vevent) (d : vdisk) (sess : list (nat * list nat)) (t : job) : Prop :=
  exists b sf s ext files, In sf netlists /\ j_net t = file_of out b (j_no t) sf /\ In (VRun s (b ++ ext) files true) h /\
    (forall text, sent files (b ++ ext) = Some text -> d (j_net t) = Some (Plain text)) /\
    (forall s' runs, In (s', runs) sess -> In (j_no t) runs -> s' = s) /\ end_inv h d b sf (j_no t) (j_end t).
Record inv (h : list vevent) (v : vserver) : Prop := {
  i_jobs : forall t, In t (known_jobs v) -> job_inv h (v_disk v) (v_sessions v) t /\ j_no t <= v_runno v;
  i_nodup : NoDup (map j_no (known_jobs v));
  i_free : forall p n, run_file out p n -> v_runno v < n -> v_disk v p = None;
  i_hist : forall n, v_runno v < n -> (forall e, wrote h n e = None) /\ returned h n = None;
  i_sess : forall s runs n, In (s, runs) (v_sessions v) -> In n runs -> n <= v_runno v;
  i_done : forall t, In t (v_finished v) -> j_end t <> None }.

Lemma delivery_ext : forall h h' b n ret, (forall e, wrote h' n e = wrote h n e) -> delivery m out b n h' ret = delivery m out b n h ret.
Proof. intros h h' b n ret H. unfold delivery. rewrite !H. reflexivity. Qed.
(** Nothing changed for this job. *)
Lemma job_kept : forall h h' d d' sess sess' t, job_inv h d sess t -> incl h h' ->
  (forall p, run_file out p (j_no t) -> d' p = d p) -> (forall e, wrote h' (j_no t) e = wrote h (j_no t) e) -> returned h' (j_no t) = returned h (j_no t) ->
  (forall s runs, In (s, runs) sess' -> In (j_no t) runs -> exists runs', In (s, runs') sess /\ In (j_no t) runs') -> job_inv h' d' sess' t.
Proof.
  intros h h' d d' sess sess' t (b & sf & s & ext & files & I & N & R & T & S & E) H D W K Q. exists b, sf, s, ext, files. assert (F : forall e, In e run_exts -> d' (file_of out b (j_no t) e) = d (file_of out b (j_no t) e)) by (intros e J; apply D; exists b, e; split; [reflexivity|exact J]).
  split; [exact I|]. split; [exact N|]. split; [apply H; exact R|]. split; [intros text X; rewrite N, F; [rewrite <- N; apply T; exact X|apply net_ext; exact I]|].
  split; [intros s' runs A B; destruct (Q s' runs A B) as (r' & A' & B'); exact (S s' r' A' B')|].
  destruct (own_exts m) as (X1 & X2 & X3 & X4). unfold end_inv in *. destruct (j_end t) as [x|].
  - destruct E as (ret & E1 & E2 & E3 & EM & E4). exists ret. rewrite K. split; [exact E1|]. split; [exact E2|]. split; [exact E3|]. rewrite !(delivery_ext h h') by exact W. split; [exact EM|]. destruct (j_zip x) as [z|]; [|exact E4]. destruct E4 as (-> & E4 & E5). split; [reflexivity|]. rewrite F; [split; assumption|exact X4].
  - destruct E as (E1 & E2 & E3 & E4). rewrite K, !F by assumption. split; [|split; [|split]]; try assumption. intros e J. rewrite F, W; [apply E1; exact J|exact (prod_ext m sf e I J)].
Qed.
End Inv.
