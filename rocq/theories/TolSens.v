(** Sensitivities (C43, C87, C89). *)
From Coq Require Import String Ascii List Bool Arith ZArith NArith QArith Qabs Qfield Lia.
From Verif Require Import TolModel TolSpec TolBatch TolCorner TolCollect TolRuns.
Import ListNotations.
Local Open Scope string_scope. Local Open Scope nat_scope. Local Open Scope list_scope.

(** ** The dictionary of sensitivities *)
Lemma fold_aset : forall {A} (f : string -> A) l d, NoDup (map fst d ++ l) ->
  fold_left (fun d r => aset r (f r) d) l d = d ++ map (fun r => (r, f r)) l.
Proof.
  intros A f. induction l as [|x l IH]; intros d H; cbn; [rewrite app_nil_r; reflexivity|].
  assert (E : aset x (f x) d = d ++ [(x, f x)]).
  { assert (N : ~ In x (map fst d)). { intros K. apply NoDup_remove_2 in H. apply H. rewrite in_app_iff. left. exact K. }
    clear - N. induction d as [|[k v] d IH]; [reflexivity|]. cbn in *. destruct (String.eqb_spec x k) as [->|]; [exfalso; apply N; left; reflexivity|]. rewrite IH; [reflexivity|tauto]. }
  rewrite E, IH; [rewrite <- app_assoc; reflexivity|]. rewrite map_app. cbn. rewrite <- app_assoc. exact H.
Qed.
Lemma index_nth : forall l k x, NoDup l -> nth_error l k = Some x -> index_of x l = k.
Proof.
  induction l as [|y l IH]; intros [|k] x ND H; try discriminate; cbn in H |- *.
  - injection H as ->. rewrite String.eqb_refl. reflexivity.
  - inversion ND; subst. destruct (String.eqb_spec x y) as [->|]; [exfalso; eapply H2; eapply nth_error_In; exact H|]. f_equal. apply IH; assumption.
Qed.
Lemma sens_eq : forall els data, NoDup els ->
  sensitivities els data = map (fun r => (r, qmean (diffs data (index_of r els)))) els.
Proof. intros els data H. unfold sensitivities. rewrite (fold_aset (fun r => qmean (diffs data (index_of r els)))); [reflexivity|exact H]. Qed.
Lemma index_map : forall {A} (f : nat -> A) els, NoDup els -> map (fun r => f (index_of r els)) els = map f (seq 0 (length els)).
Proof.
  intros A f els ND. rewrite <- (map_map (fun r => index_of r els) f). f_equal.
  induction els as [|x els IH]; [reflexivity|]. inversion ND as [|? ? NI ND']; subst. cbn [map index_of]. rewrite String.eqb_refl. cbn [length seq]. f_equal.
  rewrite <- seq_shift, <- IH by exact ND'. rewrite map_map. apply map_ext_in. intros r Hr. destruct (String.eqb_spec r x) as [->|]; [contradiction|reflexivity].
Qed.

(** ** Sums *)
Lemma qsum_app : forall l m, (qsum (l ++ m) == qsum l + qsum m)%Q.
Proof. induction l as [|x l IH]; intros m; cbn; [ring|]. rewrite IH. ring. Qed.
Lemma qsum_nonneg : forall l, Forall (fun x => 0 <= x)%Q l -> (0 <= qsum l)%Q.
Proof. induction 1; cbn; [apply Qle_refl|]. rewrite <- (Qplus_0_l 0). apply Qplus_le_compat; assumption. Qed.
Lemma qsum_ge : forall l x, Forall (fun x => 0 <= x)%Q l -> In x l -> (x <= qsum l)%Q.
Proof.
  induction 1 as [|y l Hy HF IH]; intros HI; [destruct HI|]. cbn. destruct HI as [->|HI].
  - rewrite <- (Qplus_0_r x) at 1. apply Qplus_le_compat; [apply Qle_refl|apply qsum_nonneg; exact HF].
  - rewrite <- (Qplus_0_l x). apply Qplus_le_compat; [exact Hy|apply IH; exact HI].
Qed.
Lemma qsum_zero : forall l, Forall (fun x => x == 0)%Q l -> (qsum l == 0)%Q.
Proof. induction 1; cbn; [reflexivity|]. rewrite H, IHForall. ring. Qed.
Lemma qsum_share : forall t l, ~ (t == 0)%Q -> (qsum (map (fun x => x / t * 100) l) == qsum l / t * 100)%Q.
Proof. intros t l H. induction l as [|x l IH]; cbn; [field; exact H|]. rewrite IH. field. exact H. Qed.
Lemma qsum_ext : forall {A} (f g : A -> Q) l, (forall x, In x l -> f x == g x)%Q -> (qsum (map f l) == qsum (map g l))%Q.
Proof. induction l as [|x l IH]; intros H; cbn; [reflexivity|]. rewrite IH by (intros; apply H; right; assumption). rewrite (H x) by (left; reflexivity). reflexivity. Qed.
Lemma sum_to_qsum : forall n f, (sum_to n f == qsum (map f (seq 0 n)))%Q.
Proof. induction n as [|n IH]; intros f; [reflexivity|]. rewrite seq_S, map_app, qsum_app. cbn [sum_to map qsum plus]. rewrite IH. ring. Qed.

(** ** The differences of one element *)
Lemma land_bit : forall i k, N.eqb (N.land (N.of_nat i) (2 ^ N.of_nat k)) 0 = negb (N.testbit (N.of_nat i) (N.of_nat k)).
Proof.
  intros i k. destruct (N.testbit (N.of_nat i) (N.of_nat k)) eqn:E; cbn [negb].
  - apply N.eqb_neq. intros H. assert (K : N.testbit (N.land (N.of_nat i) (2 ^ N.of_nat k)) (N.of_nat k) = true) by (rewrite N.land_spec, E, N.pow2_bits_true; reflexivity).
    rewrite H, N.bits_0 in K. discriminate.
  - apply N.eqb_eq. apply N.bits_inj_0. intros m. rewrite N.land_spec, N.pow2_bits_eqb. destruct (N.eqb_spec (N.of_nat k) m) as [<-|]; [rewrite E; reflexivity|apply andb_false_r].
Qed.
Lemma lor_bit : forall i k, N.testbit (N.of_nat i) (N.of_nat k) = false -> N.to_nat (N.lor (N.of_nat i) (2 ^ N.of_nat k)) = i + 2 ^ k.
Proof.
  intros i k H. assert (L : N.land (N.of_nat i) (2 ^ N.of_nat k) = 0%N) by (apply N.eqb_eq; rewrite land_bit, H; reflexivity).
  rewrite <- N.lxor_lor by exact L. rewrite <- N.add_nocarry_lxor by exact L. rewrite <- pow_nat. lia.
Qed.
Definition clear_runs (n k : nat) : list nat := filter (fun i => negb (N.testbit (N.of_nat i) (N.of_nat k))) (seq 0 (2 ^ n)).
Definition change (data : list Q) (k i : nat) : Q := Qabs (nth i data 0 - nth (i + 2 ^ k) data 0)%Q.
Lemma diffs_eq : forall n data k, length data = 2 ^ n -> diffs data k = map (change data k) (clear_runs n k).
Proof.
  intros n data k HL. unfold diffs, clear_runs. rewrite HL. induction (seq 0 (2 ^ n)) as [|i l IH]; [reflexivity|]. cbn [flat_map filter]. rewrite land_bit, IH.
  destruct (N.testbit (N.of_nat i) (N.of_nat k)) eqn:E; cbn [negb]; [reflexivity|]. cbn [app map]. f_equal. unfold change. rewrite lor_bit by exact E. reflexivity.
Qed.
Lemma filter_seq_shift : forall (f : nat -> bool) b n, filter f (seq b n) = map (plus b) (filter (fun i => f (b + i)) (seq 0 n)).
Proof.
  intros f b n. replace (seq b n) with (map (plus b) (seq 0 n)).
  - induction (seq 0 n) as [|i l IH]; [reflexivity|]. cbn. rewrite IH. destruct (f (b + i)); reflexivity.
  - revert b. induction n as [|n IH]; intros b; [reflexivity|]. cbn [seq map]. f_equal; [lia|]. rewrite <- seq_shift, map_map. rewrite <- (IH (S b)). apply map_ext. intros. lia.
Qed.
Lemma high_bit : forall n i k, i < 2 ^ n -> k < n -> N.testbit (N.of_nat (2 ^ n + i)) (N.of_nat k) = N.testbit (N.of_nat i) (N.of_nat k).
Proof.
  intros n i k Hi Hk. rewrite Nat2N.inj_add, pow_nat. assert (L : N.land (2 ^ N.of_nat n) (N.of_nat i) = 0%N).
  { rewrite N.land_comm. apply N.eqb_eq. rewrite land_bit, (bit_above n) by lia. reflexivity. }
  rewrite N.add_nocarry_lxor by exact L. rewrite N.lxor_spec, N.pow2_bits_eqb. destruct (N.eqb_spec (N.of_nat n) (N.of_nat k)); [lia|]. apply xorb_false_l.
Qed.
Lemma top_bit : forall n i, i < 2 ^ n -> N.testbit (N.of_nat (2 ^ n + i)) (N.of_nat n) = true.
Proof.
  intros n i Hi. rewrite Nat2N.inj_add, pow_nat. assert (L : N.land (2 ^ N.of_nat n) (N.of_nat i) = 0%N).
  { rewrite N.land_comm. apply N.eqb_eq. rewrite land_bit, (bit_above n) by lia. reflexivity. }
  rewrite N.add_nocarry_lxor by exact L. rewrite N.lxor_spec, N.pow2_bits_true, (bit_above n) by lia. reflexivity.
Qed.
Lemma filter_none : forall {A} (f : A -> bool) l, (forall x, In x l -> f x = false) -> filter f l = [].
Proof. induction l as [|x l IH]; intros H; [reflexivity|]. cbn. rewrite (H x) by (left; reflexivity). apply IH. intros. apply H. right. assumption. Qed.
Lemma filter_all : forall {A} (f : A -> bool) l, (forall x, In x l -> f x = true) -> filter f l = l.
Proof. induction l as [|x l IH]; intros H; [reflexivity|]. cbn. rewrite (H x) by (left; reflexivity). f_equal. apply IH. intros. apply H. right. assumption. Qed.
Lemma clear_count : forall n k, k < n -> length (clear_runs n k) = 2 ^ (n - 1).
Proof.
  induction n as [|n IH]; intros k Hk; [lia|]. unfold clear_runs. replace (2 ^ S n) with (2 ^ n + 2 ^ n) by (rewrite Nat.pow_succ_r'; lia). rewrite seq_app, filter_app, app_length.
  cbn [plus]. rewrite (filter_seq_shift _ (2 ^ n)), map_length. replace (S n - 1) with n by lia. destruct (Nat.eq_dec k n) as [->|N].
  - rewrite filter_all, filter_none.
    + rewrite seq_length. cbn [length]. lia.
    + intros x Hx. apply in_seq in Hx. rewrite top_bit by lia. reflexivity.
    + intros x Hx. apply in_seq in Hx. rewrite (bit_above n) by lia. reflexivity.
  - assert (E : filter (fun i => negb (N.testbit (N.of_nat (2 ^ n + i)) (N.of_nat k))) (seq 0 (2 ^ n)) = clear_runs n k).
    { unfold clear_runs. apply filter_ext_in. intros i Hi. apply in_seq in Hi. rewrite high_bit by lia. reflexivity. }
    rewrite E. fold (clear_runs n k). rewrite IH by lia. destruct n as [|n]; [lia|]. replace (S n - 1) with n by lia. rewrite Nat.pow_succ_r'. lia.
Qed.
Lemma qsum_filter : forall (f : nat -> Q) (p : nat -> bool) l, (qsum (map f (filter (fun i => negb (p i)) l)) == qsum (map (fun i => if p i then 0 else f i) l))%Q.
Proof. intros f p. induction l as [|i l IH]; [reflexivity|]. cbn. destruct (p i); cbn; rewrite IH; ring. Qed.
Lemma qmean_change : forall n data k, length data = 2 ^ n -> k < n -> (qmean (diffs data k) == mean_change n (fun i => nth i data 0) k)%Q.
Proof.
  intros n data k HL Hk. unfold qmean, mean_change. rewrite (diffs_eq n) by exact HL. rewrite map_length, clear_count by exact Hk.
  rewrite sum_to_qsum. unfold clear_runs. rewrite qsum_filter. reflexivity.
Qed.
Lemma change_nonneg : forall n data k, (0 <= mean_change n data k)%Q.
Proof.
  intros n data k. unfold mean_change. rewrite sum_to_qsum. unfold Qdiv. apply Qmult_le_0_compat.
  - apply qsum_nonneg. apply Forall_forall. intros x Hx. apply in_map_iff in Hx. destruct Hx as (i & <- & _). destruct (N.testbit _ _); [apply Qle_refl|apply Qabs_nonneg].
  - apply Qinv_le_0_compat. unfold Qle. cbn. lia.
Qed.
Lemma change_zero : forall n data k, no_influence n data k -> (mean_change n data k == 0)%Q.
Proof.
  intros n data k H. unfold mean_change. rewrite sum_to_qsum, qsum_zero; [unfold Qdiv; ring|]. apply Forall_forall. intros x Hx. apply in_map_iff in Hx. destruct Hx as (i & <- & Hi). apply in_seq in Hi.
  destruct (N.testbit (N.of_nat i) (N.of_nat k)) eqn:E; [reflexivity|]. rewrite (H i) by (assumption || lia). setoid_replace (data (i + 2 ^ k)%nat - data (i + 2 ^ k)%nat)%Q with 0%Q by ring. reflexivity.
Qed.
Lemma change_pos : forall n data k i, i < 2 ^ n -> N.testbit (N.of_nat i) (N.of_nat k) = false -> ~ (data i == data (i + 2 ^ k)%nat)%Q -> (0 < mean_change n data k)%Q.
Proof.
  intros n data k i Hi HB HD. unfold mean_change. rewrite sum_to_qsum. unfold Qdiv. apply Qmult_lt_0_compat.
  - apply Qlt_le_trans with (Qabs (data i - data (i + 2 ^ k)%nat)).
    + assert (N : ~ (data i - data (i + 2 ^ k)%nat == 0)%Q) by (intros K; apply HD; setoid_replace (data i) with (data i - data (i + 2 ^ k)%nat + data (i + 2 ^ k)%nat)%Q by ring; rewrite K; ring).
      destruct (Qlt_le_dec 0 (Qabs (data i - data (i + 2 ^ k)%nat))) as [L|L]; [exact L|]. exfalso. apply N. clear - L.
      assert (Z : (Qabs (data i - data (i + 2 ^ k)%nat) == 0)%Q) by (apply Qle_antisym; [exact L|apply Qabs_nonneg]). revert Z. apply Qabs_case; intros _ Z; [exact Z|].
      setoid_replace (data i - data (i + 2 ^ k)%nat)%Q with (- - (data i - data (i + 2 ^ k)%nat))%Q by ring. rewrite Z. reflexivity.
    + apply qsum_ge.
      * apply Forall_forall. intros x Hx. apply in_map_iff in Hx. destruct Hx as (j & <- & _). destruct (N.testbit (N.of_nat j) (N.of_nat k)); [apply Qle_refl|apply Qabs_nonneg].
      * apply in_map_iff. exists i. rewrite HB. split; [reflexivity|]. apply in_seq. lia.
  - apply Qinv_lt_0_compat. assert (0 < 2 ^ (n - 1)) by (apply Nat.neq_0_lt_0; apply Nat.pow_nonzero; lia). unfold Qlt. cbn. lia.
Qed.

Lemma share_range : forall t x, (0 <= x)%Q -> (x <= t)%Q -> (0 < t)%Q -> (0 <= x / t * 100 <= 100)%Q.
Proof.
  intros t x H0 H1 Ht. split.
  - apply Qmult_le_0_compat; [|discriminate]. unfold Qdiv. apply Qmult_le_0_compat; [exact H0|]. apply Qinv_le_0_compat. apply Qlt_le_weak. exact Ht.
  - setoid_replace 100%Q with (1 * 100)%Q at 2 by ring. apply Qmult_le_compat_r; [|discriminate]. apply Qle_shift_div_r; [exact Ht|]. rewrite Qmult_1_l. exact H1.
Qed.

Lemma sens_total : forall n els data, NoDup els -> length els = n -> length data = 2 ^ n ->
  (qsum (map snd (sensitivities els data)) == sum_to n (mean_change n (fun i => nth i data 0)))%Q.
Proof.
  intros n els data ND HL HD. rewrite sens_eq by exact ND. rewrite map_map. cbn [snd]. rewrite (index_map (fun k => qmean (diffs data k))) by exact ND. rewrite HL, sum_to_qsum.
  apply qsum_ext. intros k Hk. apply in_seq in Hk. apply qmean_change; [exact HD|lia].
Qed.
Lemma aget_map : forall {A} (g : string -> A) l r, In r l -> aget r (map (fun x => (x, g x)) l) = Some (g r).
Proof. induction l as [|x l IH]; intros r HI; [destruct HI|]. cbn. destruct (String.eqb_spec r x) as [->|N]; [reflexivity|]. apply IH. destruct HI as [->|HI]; [contradiction|exact HI]. Qed.
Lemma sens_all : forall n els data, NoDup els -> length els = n -> length data = 2 ^ n -> (0 < sum_to n (mean_change n (fun i => nth i data 0)))%Q ->
  exists res, sensitivity_all els data = Some res /\ map fst res = els /\
    (forall k r, nth_error els k = Some r -> exists x, aget r res = Some x /\ (x == mean_change n (fun i => nth i data 0) k / sum_to n (mean_change n (fun i => nth i data 0)) * 100)%Q) /\
    (qsum (map snd res) == 100)%Q.
Proof.
  intros n els data ND HL HD HT. pose proof (sens_total n els data ND HL HD) as ET. set (t := qsum (map snd (sensitivities els data))) in *.
  assert (Nt : ~ (t == 0)%Q) by (intros K; rewrite ET in K; rewrite K in HT; discriminate).
  unfold sensitivity_all. fold t.
  assert (EM : forall (x : option (list (string * Q))) y, match sensitivities els data with [] => x | _ => y end = y).
  { intros x y. unfold t in Nt. destruct (sensitivities els data); [exfalso; apply Nt; reflexivity|reflexivity]. }
  rewrite EM. clear EM. destruct (Qeq_bool t 0) eqn:Z; [apply Qeq_bool_iff in Z; contradiction|].
  eexists. split; [reflexivity|]. rewrite !map_map. cbn [fst snd]. split; [rewrite sens_eq by exact ND; rewrite map_map; cbn; apply map_id|]. split.
  - intros k r Hk. rewrite sens_eq by exact ND. rewrite map_map. cbn [fst snd].
    exists (qmean (diffs data (index_of r els)) / t * 100)%Q. split.
    + assert (HI : In r els) by (eapply nth_error_In; exact Hk). exact (aget_map (fun r => (qmean (diffs data (index_of r els)) / t * 100)%Q) els r HI).
    + rewrite (index_nth els k r ND Hk), ET. rewrite (qmean_change n) by (try exact HD; rewrite <- HL; apply nth_error_Some; rewrite Hk; discriminate). reflexivity.
  - assert (EM : map (fun x => (snd x / t * 100)%Q) (sensitivities els data) = map (fun x => (x / t * 100)%Q) (map snd (sensitivities els data))) by (rewrite map_map; reflexivity).
    rewrite EM, qsum_share by exact Nt. fold t. field. exact Nt.
Qed.
Lemma sum_to_nonneg : forall n (f : nat -> Q), (forall k : nat, 0 <= f k)%Q -> (0 <= sum_to n f)%Q.
Proof. intros n f H. rewrite sum_to_qsum. apply qsum_nonneg. apply Forall_forall. intros x Hx. apply in_map_iff in Hx. destruct Hx as (k & <- & _). apply H. Qed.
Lemma sum_to_ge : forall n (f : nat -> Q) (k : nat), (forall k : nat, 0 <= f k)%Q -> k < n -> (f k <= sum_to n f)%Q.
Proof.
  intros n f k H Hk. rewrite sum_to_qsum. apply qsum_ge.
  - apply Forall_forall. intros x Hx. apply in_map_iff in Hx. destruct Hx as (j & <- & _). apply H.
  - apply in_map_iff. exists k. split; [reflexivity|apply in_seq; lia].
Qed.
Lemma sum_to_zero : forall n (f : nat -> Q), (forall k : nat, (k < n)%nat -> f k == 0)%Q -> (sum_to n f == 0)%Q.
Proof. induction n as [|n IH]; intros f H; [reflexivity|]. cbn. rewrite IH by (intros; apply H; lia). rewrite H by lia. reflexivity. Qed.
Lemma sens_fails : forall n els data, NoDup els -> length els = n -> length data = 2 ^ n -> els <> [] ->
  (forall k, k < n -> no_influence n (fun i => nth i data 0%Q) k) -> sensitivity_all els data = None /\ (forall r, sensitivity_one els data r = None).
Proof.
  intros n els data ND HL HD HE HN. pose proof (sens_total n els data ND HL HD) as ET.
  rewrite sum_to_zero in ET by (intros k Hk; apply change_zero; apply HN; exact Hk).
  assert (Z : Qeq_bool (qsum (map snd (sensitivities els data))) 0 = true) by (apply Qeq_bool_iff; exact ET).
  unfold sensitivity_all, sensitivity_one. rewrite Z. split; [|intros r; destruct (aget r _); reflexivity]. rewrite sens_eq by exact ND. destruct els; [contradiction|reflexivity].
Qed.
