(** cleanup_files: the invariants. *)
From Coq Require Import String Ascii List Bool Arith ZArith Lia.
From Verif Require Import PyStr RunnerModel SimModel SimSpec SimProps ClnModel ClnSpec.
Import ListNotations.
Local Open Scope string_scope. Local Open Scope nat_scope. Local Open Scope list_scope.

Lemma same_path_eq : forall p q, same_path p q = true <-> p = q.
Proof.
  intros [a b] [c e]. unfold same_path. cbn [folder name]. rewrite andb_true_iff, !str_eqb_eq. split; [intros (-> & ->); reflexivity|intros H; injection H as -> ->; auto].
Qed.
Lemma put_same : forall p c d, put p c d p = c.
Proof. intros p c d. unfold put. rewrite (proj2 (same_path_eq p p) eq_refl). reflexivity. Qed.
Lemma put_other : forall p c d q, q <> p -> put p c d q = d q.
Proof. intros p c d q N. unfold put. destruct (same_path q p) eqn:E; [apply same_path_eq in E; contradiction|reflexivity]. Qed.
Lemma del_same : forall p d, del p d p = None.
Proof. intros p d. unfold del, exists_on. destruct (d p) eqn:E; [apply put_same|exact E]. Qed.
Lemma del_other : forall p d q, q <> p -> del p d q = d q.
Proof. intros p d q N. unfold del. destruct (exists_on d p); [apply put_other; exact N|reflexivity]. Qed.
Lemma del_none : forall p d q, d q = None -> del p d q = None.
Proof. intros p d q H. unfold del. destruct (exists_on d p); [|exact H]. unfold put. destruct (same_path q p); [reflexivity|exact H]. Qed.

(** ** File names *)
Definition all_exts : list str := netlists ++ map s2l [".log"; ".fail"; ".raw"; ".qraw"; ".exe.log"; ".log.raw"; ".op.raw"; ".db"].
Lemma netlist_ext : forall sf, In sf netlists -> extension sf /\ sf <> [].
Proof.
  intros sf H. unfold netlists in H. cbn [map In] in H. repeat (destruct H as [<- |H]; [split; [right; eexists; split; [reflexivity|split; [discriminate|apply mem_c_not_In; reflexivity]]|discriminate]|]). destruct H.
Qed.
Lemma net_name_of : forall st sf, st <> [] -> In sf netlists -> name_of st sf.
Proof. intros st sf N I. destruct (netlist_ext sf I) as (A & B). split; [exact N|]. split; [exact A|intros K; contradiction]. Qed.
Lemma suffix_net : forall d st sf e, st <> [] -> In sf netlists -> with_suffix (Path d (st ++ sf)) e = Path d (st ++ e).
Proof. intros d st sf e N I. unfold with_suffix. cbn [folder name]. rewrite (split_name _ _ (net_name_of st sf N I)). reflexivity. Qed.
Lemma suffix_log : forall d st e, st <> [] -> with_suffix (Path d (st ++ s2l ".log")) e = Path d (st ++ e).
Proof.
  intros d st e N. unfold with_suffix. cbn [folder name]. rewrite split_name; [reflexivity|]. split; [exact N|]. split; [|discriminate]. right. exists (s2l "log"). split; [reflexivity|]. split; [discriminate|apply mem_c_not_In; reflexivity].
Qed.
Lemma net_split : forall d st sf d' st' sf', st <> [] -> st' <> [] -> In sf netlists -> In sf' netlists -> Path d (st ++ sf) = Path d' (st' ++ sf') -> d = d' /\ st = st' /\ sf = sf'.
Proof.
  intros d st sf d' st' sf' N N' I I' E. injection E as ED EN. pose proof (split_name _ _ (net_name_of st sf N I)) as S1. pose proof (split_name _ _ (net_name_of st' sf' N' I')) as S2. rewrite EN in S1. rewrite S1 in S2. injection S2 as -> ->. auto.
Qed.
Lemma belongs_net : forall m d st sf p, st <> [] -> In sf netlists -> (belongs m (Path d (st ++ sf)) p <-> exists e, In e (run_files m sf) /\ p = Path d (st ++ e)).
Proof.
  intros m d st sf p N I. split.
  - intros (d' & st' & sf' & e & E & N' & I' & P & R). destruct (net_split _ _ _ _ _ _ N N' I I' E) as (-> & -> & ->). exists e. auto.
  - intros (e & R & P). exists d, st, sf, e. auto.
Qed.
Lemma run_files_all : forall m sf e, In sf netlists -> In e (run_files m sf) -> In e all_exts.
Proof.
  intros m sf e I R. assert (H : forallb (fun m => forallb (fun sf => forallb (fun e => existsb (str_eqb e) all_exts) (run_files m sf)) netlists) [LTspice; NGspice; Qspice; Xyce] = true) by (vm_compute; reflexivity).
  rewrite forallb_forall in H. assert (M : In m [LTspice; NGspice; Qspice; Xyce]) by (destruct m; cbn; tauto). apply H in M. rewrite forallb_forall in M. apply M in I. rewrite forallb_forall in I. apply I in R. apply existsb_exists in R. destruct R as (x & X & E). apply str_eqb_eq in E. subst x. exact X.
Qed.
Lemma no_digit : forall e c, In e all_exts -> In c e -> is_digit c = false.
Proof.
  intros e c I C. assert (H : forallb (fun e => forallb (fun c => negb (is_digit c)) e) all_exts = true) by (vm_compute; reflexivity). rewrite forallb_forall in H. apply H in I. rewrite forallb_forall in I. apply I in C. apply negb_true_iff. exact C.
Qed.
Lemma dec_nonempty : forall n, dec n <> [].
Proof. intros n H. pose proof (undec_dec n) as U. rewrite H in U. discriminate U. Qed.
(** The stem of a numbered name ends in a digit: the extensions cannot be confused. *)
Lemma stem_end : forall b n, exists x c, b ++ under :: dec n = x ++ [c] /\ is_digit c = true.
Proof.
  intros b n. destruct (exists_last (dec_nonempty n)) as (x & c & E). exists (b ++ under :: x), c. split; [rewrite E, <- app_assoc; reflexivity|].
  pose proof (dec_digits n) as D. rewrite E in D. rewrite forallb_app in D. apply andb_true_iff in D. destruct D as (_ & D). cbn in D. apply andb_true_iff in D. exact (proj1 D).
Qed.
Lemma stems_apart : forall b n e b' n' e', In e all_exts -> In e' all_exts -> (b ++ under :: dec n) ++ e = (b' ++ under :: dec n') ++ e' -> b ++ under :: dec n = b' ++ under :: dec n' /\ e = e'.
Proof.
  intros b n e b' n' e' I I' E. destruct (stem_end b n) as (x & c & X & C). destruct (stem_end b' n') as (x' & c' & X' & C'). rewrite X, X' in *. clear X X' b n b' n'.
  assert (K : forall l : str, l <> [] -> exists r z, l = r ++ [z]) by (intros l N; destruct (exists_last N) as (r & z & R); exists r, z; exact R).
  apply app_eq_app in E. destruct E as (l & [(A & B)|(A & B)]).
  - destruct l as [|z l]; [rewrite app_nil_r in A; auto|]. exfalso. destruct (K (z :: l) ltac:(discriminate)) as (r & w & R). rewrite R in *. rewrite app_assoc in A. apply app_inj_tail in A. destruct A as (_ & ->). assert (ND : is_digit w = false) by (apply (no_digit e'); [exact I'|]; rewrite B; apply in_or_app; left; apply in_or_app; right; left; reflexivity). congruence.
  - destruct l as [|z l]; [rewrite app_nil_r in A; split; [auto|exact B]|]. exfalso. destruct (K (z :: l) ltac:(discriminate)) as (r & w & R). rewrite R in *. rewrite app_assoc in A. apply app_inj_tail in A. destruct A as (_ & ->). assert (ND : is_digit w = false) by (apply (no_digit e); [exact I|]; rewrite B; apply in_or_app; left; apply in_or_app; right; left; reflexivity). congruence.
Qed.
Definition numbered (n : nat) (net : path) : Prop := exists d b sf, net = Path d ((b ++ under :: dec n) ++ sf) /\ In sf netlists.
Lemma stem_ne : forall b n, b ++ under :: dec n <> [].
Proof. intros b n. destruct b; discriminate. Qed.
Lemma belongs_one : forall m n n' net net' p, numbered n net -> numbered n' net' -> belongs m net p -> belongs m net' p -> n = n'.
Proof.
  intros m n n' net net' p (d & b & sf & -> & I) (d' & b' & sf' & -> & I') B B'. apply belongs_net in B; [|apply stem_ne|exact I]. apply belongs_net in B'; [|apply stem_ne|exact I']. destruct B as (e & R & ->). destruct B' as (e' & R' & E). injection E as _ E.
  apply stems_apart in E; [|exact (run_files_all m sf e I R)|exact (run_files_all m sf' e' I' R')]. destruct E as (E & _).
  pose proof (split_at_last_app under b (dec n) (dec_no_char under n eq_refl)) as S1. pose proof (split_at_last_app under b' (dec n') (dec_no_char under n' eq_refl)) as S2. rewrite E in S1. rewrite S1 in S2. injection S2 as _ S2. apply dec_inj. exact S2.
Qed.
Lemma run_name : forall n stem ext, stem <> [] -> In ext (s2l ".qsch" :: netlists) -> exists sf, In sf netlists /\ run_file_name n (stem ++ ext) = (stem ++ under :: dec n) ++ sf.
Proof.
  intros n stem ext N I. unfold run_file_name. assert (NO : name_of stem ext).
  { destruct I as [<- |I]; [|apply net_name_of; assumption]. split; [exact N|]. split; [|discriminate]. right. exists (s2l "qsch"). split; [reflexivity|]. split; [discriminate|apply mem_c_not_In; reflexivity]. }
  rewrite (split_name _ _ NO). destruct (str_eqb ext (s2l ".qsch")) eqn:E.
  - exists (s2l ".net"). split; [left; reflexivity|]. rewrite app_comm_cons, app_assoc. reflexivity.
  - exists ext. split; [destruct I as [<- |I]; [discriminate E|exact I]|]. rewrite app_comm_cons, app_assoc. reflexivity.
Qed.
