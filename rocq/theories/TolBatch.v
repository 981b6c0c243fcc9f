(** Proofs about the batches of run_testbench (C41). *)
From Coq Require Import String List Bool Arith ZArith Lia.
From Verif Require Import TolModel TolSpec.
Import ListNotations.
Local Open Scope list_scope.

Lemma widen_spec : forall fuel total r, (1 <= r <= total)%Z -> (total - r < Z.of_nat fuel)%Z ->
  exists r', widen fuel total r = Some r' /\ (r <= r' <= total)%Z /\ (total mod r' <> 1)%Z /\ (forall s, (r <= s < r')%Z -> (total mod s = 1)%Z).
Proof.
  induction fuel as [|f IH]; intros total r HR HF; [lia|]. cbn [widen].
  destruct (Z.eqb_spec r 0); [lia|]. destruct (Z.eqb_spec (total mod r) 1) as [E|E].
  - destruct (Z.eq_dec r total) as [->|N]. { rewrite Z_mod_same_full in E. discriminate. }
    destruct (IH total (r + 1)%Z) as (r' & A & B & C & D); [lia|lia|]. exists r'. split; [exact A|]. split; [lia|]. split; [exact C|].
    intros s Hs. destruct (Z.eq_dec s r) as [->|]; [exact E|apply D; lia].
  - exists r. split; [reflexivity|]. split; [lia|]. split; [exact E|]. intros s Hs. lia.
Qed.

Lemma chunk : forall r T m, flat_map (fun k => seq (k * r) (min r (T - k * r))) (seq 0 m) = seq 0 (min T (m * r)).
Proof.
  intros r T. induction m as [|m IH]; [rewrite Nat.min_0_r; reflexivity|].
  rewrite seq_S, flat_map_app, IH. cbn [flat_map]. rewrite app_nil_r. cbn [plus].
  destruct (Nat.le_gt_cases (m * r) T) as [L|L].
  - rewrite (Nat.min_r T (m * r)) by lia. replace (min T (S m * r)) with (m * r + min r (T - m * r)) by lia.
    rewrite seq_app. cbn [plus]. reflexivity.
  - rewrite (Nat.min_l T (m * r)) by lia. replace (T - m * r) with 0 by lia. rewrite Nat.min_0_r. cbn [seq]. rewrite app_nil_r. f_equal. lia.
Qed.

Lemma flat_map_map' : forall {A B C} (f : A -> B) (g : B -> list C) l, flat_map g (map f l) = flat_map (fun x => g (f x)) l.
Proof. induction l as [|x l IH]; [reflexivity|]. cbn. rewrite IH. reflexivity. Qed.
Lemma map_flat_map' : forall {A B C} (f : B -> C) (g : A -> list B) l, map f (flat_map g l) = flat_map (fun x => map f (g x)) l.
Proof. induction l as [|x l IH]; [reflexivity|]. cbn. rewrite map_app, IH. reflexivity. Qed.

Lemma batches_cover : forall last r, (0 <= last + 1)%Z -> (1 <= r)%Z ->
  flat_map batch_runs (map (fun s => (s, Z.min (s + r - 1) last)%Z) (py_range (-1) (last + 1) r)) = all_runs last.
Proof.
  intros last r HT HR. unfold py_range. destruct (Z.leb_spec r 0); [lia|]. rewrite flat_map_map', flat_map_map'.
  set (T := Z.to_nat (last + 2)). set (rn := Z.to_nat r). set (m := Z.to_nat ((last + 1 - -1 + r - 1) / r)).
  unfold all_runs. fold T.
  assert (HM : T <= m * rn).
  { unfold T, m, rn. pose proof (Z.div_mod (last + 1 - -1 + r - 1) r ltac:(lia)) as D. pose proof (Z.mod_pos_bound (last + 1 - -1 + r - 1) r ltac:(lia)) as B.
    assert (0 <= (last + 1 - -1 + r - 1) / r)%Z by (apply Z.div_pos; lia). apply Nat2Z.inj_le. rewrite Nat2Z.inj_mul, !Z2Nat.id by lia. lia. }
  replace (seq 0 T) with (seq 0 (min T (m * rn))) by (f_equal; lia). rewrite <- chunk, map_flat_map'.
  apply flat_map_ext. intros k. unfold batch_runs. cbn [fst snd].
  assert (L : Z.to_nat (Z.min (-1 + Z.of_nat k * r + r - 1) last - (-1 + Z.of_nat k * r) + 1) = min rn (T - k * rn)).
  { unfold rn, T. assert (Z.of_nat (k * Z.to_nat r) = (Z.of_nat k * r)%Z) by (rewrite Nat2Z.inj_mul, Z2Nat.id; lia). lia. }
  rewrite L. generalize (min rn (T - k * rn)). intros c.
  replace (seq (k * rn) c) with (map (plus (k * rn)) (seq 0 c)).
  - rewrite map_map. apply map_ext. intros j. unfold rn. rewrite Nat2Z.inj_add, Nat2Z.inj_mul, Z2Nat.id by lia. lia.
  - clear. generalize (k * rn). intros b. revert b. induction c as [|c IH]; intros b; [reflexivity|]. cbn [seq map]. f_equal; [lia|].
    rewrite <- seq_shift, map_map. rewrite <- (IH (S b)). apply map_ext. intros. lia.
Qed.

Lemma batches_in : forall last r b, (1 <= r)%Z -> In b (map (fun s => (s, Z.min (s + r - 1) last)%Z) (py_range (-1) (last + 1) r)) ->
  exists k, fst b = (-1 + Z.of_nat k * r)%Z /\ (fst b <= last)%Z /\ snd b = Z.min (fst b + r - 1) last.
Proof.
  intros last r b HR HI. apply in_map_iff in HI. destruct HI as (s & <- & HI). unfold py_range in HI. destruct (Z.leb_spec r 0); [lia|].
  apply in_map_iff in HI. destruct HI as (k & <- & HK). apply in_seq in HK. exists k. cbn [fst snd]. split; [reflexivity|]. split; [|reflexivity].
  pose proof (Z.div_mod (last + 1 - -1 + r - 1) r ltac:(lia)) as D. pose proof (Z.mod_pos_bound (last + 1 - -1 + r - 1) r ltac:(lia)) as B.
  assert (Z.of_nat k < (last + 1 - -1 + r - 1) / r)%Z by lia. nia.
Qed.

Lemma batches_spec : forall last limit, (0 <= last + 1)%Z -> (1 <= limit)%Z ->
  exists r bs, batches last limit = Some bs /\ bs = map (fun s => (s, Z.min (s + r - 1) last)%Z) (py_range (-1) (last + 1) r) /\
    (Z.min limit (last + 2) <= r <= last + 2)%Z /\ ((last + 2) mod r <> 1)%Z /\ (forall s, (Z.min limit (last + 2) <= s < r)%Z -> ((last + 2) mod s = 1)%Z).
Proof.
  intros last limit H0 HL. unfold batches, runs_per_batch.
  destruct (widen_spec (S (S (Z.to_nat (last + 2)))) (last + 2) (Z.min limit (last + 2))) as (r & E & A & B & C); [lia|lia|].
  rewrite E. exists r. eexists. split; [reflexivity|]. split; [reflexivity|]. auto.
Qed.

Lemma no_single : forall last r b, (1 < r)%Z -> ((last + 2) mod r <> 1)%Z ->
  In b (map (fun s => (s, Z.min (s + r - 1) last)%Z) (py_range (-1) (last + 1) r)) -> (2 <= batch_size b <= r)%Z.
Proof.
  intros last r b HR HM HI. apply batches_in in HI; [|lia]. destruct HI as (k & F & L & S). unfold batch_size. rewrite S.
  split; [|lia]. destruct (Z.eq_dec (fst b) last) as [E|N]; [|lia]. exfalso. apply HM.
  replace (last + 2)%Z with (1 + Z.of_nat k * r)%Z by lia. rewrite Z_mod_plus_full. apply Z.mod_small. lia.
Qed.
