(** The run sequences of the worst case and quick sensitivity analyses (C42, C89). *)
From Coq Require Import String Ascii List Bool Arith ZArith NArith QArith Lia.
From Verif Require Import TolModel TolSpec TolCorner TolCollect.
Import ListNotations.
Local Open Scope string_scope. Local Open Scope nat_scope. Local Open Scope list_scope.

(** ** Numbers as combinations *)
Definition bits (neg : bool) (n i : nat) : list bool := map (fun k => xorb neg (N.testbit (N.of_nat i) (N.of_nat k))) (seq 0 n).
Fixpoint num (c : list bool) : N := match c with [] => 0 | b :: r => (if b then 1 else 0) + 2 * num r end%N.
Lemma num_bit : forall c k, N.testbit (num c) (N.of_nat k) = nth k c false.
Proof.
  induction c as [|b c IH]; intros k. { cbn [num]. rewrite N.bits_0. destruct k; reflexivity. }
  cbn [num]. destruct k as [|k].
  - cbn [nth]. destruct b; [rewrite N.add_comm; apply N.testbit_odd_0|apply N.testbit_even_0].
  - cbn [nth]. rewrite Nat2N.inj_succ, <- IH. destruct b; [rewrite N.add_comm; apply N.testbit_odd_succ; lia|apply N.testbit_even_succ; lia].
Qed.
Lemma num_bound : forall c, (num c < 2 ^ N.of_nat (length c))%N.
Proof. induction c as [|b c IH]; [cbn; lia|]. cbn [num]. replace (N.of_nat (length (b :: c))) with (N.succ (N.of_nat (length c))) by (cbn [length]; lia). rewrite N.pow_succ_r'. destruct b; lia. Qed.
Lemma pow_nat : forall n, N.of_nat (2 ^ n) = (2 ^ N.of_nat n)%N.
Proof. induction n as [|n IH]; [reflexivity|]. rewrite Nat.pow_succ_r', Nat2N.inj_mul, IH, (Nat2N.inj_succ n), N.pow_succ_r'. reflexivity. Qed.
Lemma bit_above : forall n i j, i < 2 ^ n -> n <= j -> N.testbit (N.of_nat i) (N.of_nat j) = false.
Proof.
  intros n i j Hi Hj. destruct (N.eq_dec (N.of_nat i) 0) as [->|Na]; [apply N.bits_0|]. apply N.bits_above_log2. apply N.log2_lt_pow2; [lia|].
  rewrite <- pow_nat. assert (2 ^ n <= 2 ^ j) by (apply Nat.pow_le_mono_r; lia). lia.
Qed.
Lemma nth_map_seq : forall {A} (f : nat -> A) n k d, k < n -> nth k (map f (seq 0 n)) d = f k.
Proof. intros A f n k d H. rewrite nth_indep with (d' := f 0) by (rewrite map_length, seq_length; exact H). rewrite map_nth, seq_nth by exact H. reflexivity. Qed.
Lemma bits_nth : forall neg n i k, k < n -> nth k (bits neg n i) false = xorb neg (N.testbit (N.of_nat i) (N.of_nat k)).
Proof. intros. unfold bits. apply (nth_map_seq (fun k => xorb neg (N.testbit (N.of_nat i) (N.of_nat k)))). assumption. Qed.
Lemma every_bits : forall neg n, every_combination n (bits neg n).
Proof.
  intros neg n. split; [|split].
  - intros i _. unfold bits. rewrite map_length, seq_length. reflexivity.
  - intros c Hc. set (c' := map (xorb neg) c). exists (N.to_nat (num c')). assert (B : (num c' < 2 ^ N.of_nat n)%N).
    { pose proof (num_bound c'). unfold c' in *. rewrite map_length, Hc in H. exact H. }
    split; [rewrite <- pow_nat in B; lia|]. apply nth_ext with (d := false) (d' := false). { unfold bits. rewrite map_length, seq_length. lia. }
    intros k Hk. unfold bits in Hk. rewrite map_length, seq_length in Hk. rewrite bits_nth by exact Hk. rewrite N2Nat.id, num_bit. unfold c'.
    rewrite nth_indep with (d' := xorb neg false) by (rewrite map_length; lia). rewrite map_nth. destruct neg, (nth k c false); reflexivity.
  - intros i j Hi Hj E. apply Nat2N.inj. apply N.bits_inj. intros m. rewrite <- (N2Nat.id m). destruct (Nat.lt_ge_cases (N.to_nat m) n) as [L|L].
    + assert (E' : nth (N.to_nat m) (bits neg n i) false = nth (N.to_nat m) (bits neg n j) false) by (rewrite E; reflexivity).
      rewrite !bits_nth in E' by exact L. destruct neg, (N.testbit (N.of_nat i) (N.of_nat (N.to_nat m))), (N.testbit (N.of_nat j) (N.of_nat (N.to_nat m))); cbn in E'; congruence.
    + rewrite !(bit_above n) by assumption. reflexivity.
Qed.

(** ** From the shown netlists to the specification *)
Section Analysis.
  Variables (e n0 : ed) (a : ana) (order : list (kind * string)) (w : work).
  Hypothesis HO : ok_setup e a.
  Hypothesis HC : collected a e order w.
  Hypothesis HN : nominal_netlist a e n0.
  Hypothesis HA : names_apart a e.

  Definition nominal : ed := add_dir ".meas runm PARAM {run}" (set_par "run" (VNum (inject_Z (-1))) n0).

  Lemma comp_dev_n0 : forall r q d, comp_dev a n0 r q d <-> comp_dev a e r q d.
  Proof. intros r q d. unfold comp_dev. destruct HN as (_ & E & _). rewrite E. reflexivity. Qed.
  Lemma par_dev_n0 : forall p d, par_dev a n0 p d <-> par_dev a e p d.
  Proof.
    intros p d. unfold par_dev. destruct HN as (_ & _ & E). split; intros (K & H); (split; [exact K|]); [rewrite <- E|rewrite E]; try exact H; apply aget_In; eauto.
  Qed.
  Lemma deviating_n0 : deviating a n0 order.
  Proof.
    destruct HC as (_ & _ & (A & B & C) & _). split; [exact A|]. split.
    - intros r. rewrite B. split; intros (q & d & H); exists q, d; apply comp_dev_n0; exact H.
    - intros p. rewrite C. split; intros (d & H); exists d; apply par_dev_n0; exact H.
  Qed.

  Lemma order_nth : forall j x, nth_error (snd w) j = Some x -> exists k, nth_error order j = Some (k, x).
  Proof.
    intros j x H. destruct HC as (S & _). rewrite S, nth_error_map in H. destruct (nth_error order j) as [[k y]|]; [|discriminate]. cbn in H. injection H as <-. eauto.
  Qed.
  Lemma in_order : forall x, In x (snd w) -> exists k, In (k, x) order.
  Proof. intros x H. apply In_nth_error in H. destruct H as (j & H). apply order_nth in H. destruct H as (k & H). exists k. eapply nth_error_In; exact H. Qed.
  Lemma entry_kind : forall k x y, In (k, x) order -> aget x (fst w) = Some y -> e_kind y = k.
  Proof.
    intros k x y HI Ey. destruct HC as (_ & _ & _ & C1 & C2). destruct k.
    - destruct (C1 x HI) as (q & d & _ & E). rewrite E in Ey. injection Ey as <-. reflexivity.
    - destruct (C2 x HI) as (v & d & _ & _ & _ & E). rewrite E in Ey. injection Ey as <-. reflexivity.
  Qed.
  Lemma H_ent : forall x, In x (snd w) -> exists y, aget x (fst w) = Some y.
  Proof.
    intros x H. destruct (in_order x H) as (k & HI). destruct HC as (_ & _ & _ & C1 & C2). destruct k.
    - destruct (C1 x HI) as (q & d & _ & E). eauto.
    - destruct (C2 x HI) as (v & d & _ & _ & _ & E). eauto.
  Qed.
  Lemma par_in : forall p, In (KPar, p) order -> In p (map fst (params a)).
  Proof. intros p HI. destruct HC as (_ & _ & _ & _ & C2). destruct (C2 p HI) as (v & d & (K & _) & _). apply aget_In. eauto. Qed.
  Lemma H_run : forall y, In "run" (snd w) -> aget "run" (fst w) = Some y -> e_kind y <> KPar.
  Proof.
    intros y HI Ey K. destruct (in_order _ HI) as (k & HK). rewrite (entry_kind k _ y HK Ey) in K. subst k.
    destruct (HA "run" (par_in _ HK)) as (N & _). apply N. reflexivity.
  Qed.
  Lemma present_nominal : present w nominal.
  Proof.
    intros x y HI Ey K. destruct (in_order _ HI) as (k & HK). rewrite (entry_kind k _ y HK Ey) in K. subst k. destruct HC as (_ & _ & _ & C1 & _).
    destruct (C1 x HK) as (q & d & CD & _). apply comp_dev_n0 in CD. cbn [read nominal add_dir set_par comps]. destruct CD as (-> & _). discriminate.
  Qed.

  Lemma comp_dev_fun : forall n r q d q' d', comp_dev a n r q d -> comp_dev a n r q' d' -> q = q' /\ d = d'.
  Proof.
    intros n r q d q' d' (A & _ & _ & B) (A' & _ & _ & B'). split; [congruence|]. destruct B as [B|(B & C)], B' as [B'|(B' & C')]; congruence.
  Qed.

  Lemma shown_varied : forall setting (want : nat -> value -> dev -> option value) run z s,
    (forall k v d kd, k < length order -> setting (Ent v d kd) (N.testbit run (N.of_nat k)) = want k v d \/ (kd = KComp /\ ~ real_dev d) \/ (kd = KPar /\ dtyp d <> DMinMax) \/ (kd = KComp /\ forall q, v <> VNum q)) ->
    shown setting w nominal run z s -> varied a n0 order want z s.
  Proof.
    intros setting want run z s HW (S1 & S2 & S3 & S4). destruct HC as (SW & ND & DV & C1 & C2). split; [|split; [|split; [|split; [|split]]]].
    - intros k r q d Hk CD. assert (HI : In (KComp, r) order) by (eapply nth_error_In; exact Hk). destruct (C1 r HI) as (q' & d' & CD' & E).
      apply comp_dev_n0 in CD. destruct (comp_dev_fun _ _ _ _ _ _ CD CD') as (<- & <-).
      assert (Hx : nth_error (snd w) k = Some r) by (rewrite SW, nth_error_map, Hk; reflexivity).
      specialize (S1 k r _ Hx E). cbn [e_kind read] in S1. rewrite S1.
      assert (Lk : k < length order) by (apply nth_error_Some; rewrite Hk; discriminate).
      destruct (HW k (VNum q) d KComp Lk) as [->|[(_ & K)|[(K & _)|(_ & K)]]]; [reflexivity|exfalso; apply K; apply CD|discriminate|exfalso; exact (K q eq_refl)].
    - intros k p v d Hk CD Ev. assert (HI : In (KPar, p) order) by (eapply nth_error_In; exact Hk). destruct (C2 p HI) as (v' & d' & (CD1 & _) & M & Ev' & E).
      assert (d' = d) by (destruct CD; congruence). subst d'.
      assert (v' = v). { destruct HN as (_ & _ & EP). rewrite EP in Ev by (apply par_in; exact HI). congruence. } subst v'.
      assert (Hx : nth_error (snd w) k = Some p) by (rewrite SW, nth_error_map, Hk; reflexivity).
      specialize (S1 k p _ Hx E). cbn [e_kind read] in S1. rewrite S1.
      assert (Lk : k < length order) by (apply nth_error_Some; rewrite Hk; discriminate).
      destruct (HW k v d KPar Lk) as [->|[(K & _)|[(_ & K)|(K & _)]]]; [reflexivity|discriminate|contradiction|discriminate].
    - intros r HI. specialize (S2 KComp r). cbn [read] in S2. rewrite S2; [reflexivity| |discriminate]. intros y HIn Ey K.
      destruct (in_order _ HIn) as (k & HK). rewrite (entry_kind k _ y HK Ey) in K. subst k. exact (HI HK).
    - intros p HI Np. specialize (S2 KPar p). cbn [read] in S2. rewrite S2.
      + cbn [nominal add_dir set_par pars]. apply aget_aset_other. exact Np.
      + intros y HIn Ey K. destruct (in_order _ HIn) as (k & HK). rewrite (entry_kind k _ y HK Ey) in K. subst k. exact (HI HK).
      + congruence.
    - exact S3.
    - rewrite S4. reflexivity.
  Qed.
End Analysis.

Lemma play_nominal : forall e n0 a els last, ok_setup e a -> play_all (instrs a) e = Some n0 ->
  exists a2, play (reset_netlist_ false (Ana (orig a) (cur a) (instrs a) (added a) (defaults a) (devices a) (params a) els (prepared a) last)) = Some a2 /\ cur a2 = n0.
Proof.
  intros e n0 a els last O HP. unfold play, reset_netlist_. cbn [added orig instrs cur]. rewrite (o_orig e a O), HP. eexists. split; [reflexivity|]. reflexivity.
Qed.

Lemma Forall2_nth : forall {A B} (P : A -> B -> Prop) l m i x, Forall2 P l m -> nth_error l i = Some x -> exists y, nth_error m i = Some y /\ P x y.
Proof. intros A B P l m i x H. revert i. induction H; intros [|i] E; try discriminate; cbn in *; [injection E as ->; eauto|eauto]. Qed.
Lemma Forall2_len : forall {A B} (P : A -> B -> Prop) l m, Forall2 P l m -> length m = length l.
Proof. induction 1; cbn; congruence. Qed.

Lemma wc_total : forall e a order w, collected a e order w -> forall x y b, In x (snd w) -> aget x (fst w) = Some y -> exists v, wc_value b y = Some v.
Proof.
  intros e a order w HC x y b HI Ey. destruct (in_order e a order w HC x HI) as (k & HK). destruct HC as (_ & _ & _ & C1 & C2). destruct k.
  - destruct (C1 x HK) as (q & d & CD & E). rewrite E in Ey. injection Ey as <-. unfold wc_value. cbn [e_dev e_val]. destruct (dtyp d); eauto.
  - destruct (C2 x HK) as (v & d & _ & M & _ & E). rewrite E in Ey. injection Ey as <-. unfold wc_value. cbn [e_dev e_val]. rewrite M. eauto.
Qed.
Lemma qs_total : forall e a order w, collected a e order w -> forall x y b, In x (snd w) -> aget x (fst w) = Some y -> exists v, qs_value y b = Some v.
Proof.
  intros e a order w HC x y b HI Ey. destruct (in_order e a order w HC x HI) as (k & HK). destruct HC as (_ & _ & _ & C1 & C2). destruct k.
  - destruct (C1 x HK) as (q & d & CD & E). rewrite E in Ey. injection Ey as <-. unfold qs_value. cbn [e_dev e_val]. destruct (dtyp d); eauto.
  - destruct (C2 x HK) as (v & d & _ & M & _ & E). rewrite E in Ey. injection Ey as <-. unfold qs_value. cbn [e_dev e_val]. rewrite M. eauto.
Qed.

Lemma pow_ge : forall n, n < 12 <-> (4096 <=? 2 ^ n) = false.
Proof.
  intros n. rewrite Nat.leb_gt. change 4096 with (2 ^ 12). split; intros H; [apply Nat.pow_lt_mono_r; lia|]. apply (Nat.pow_lt_mono_r_iff 2); [lia|exact H].
Qed.

Lemma wc_analysis : forall e n0 a order w, ok_setup e a -> collect a = Some w -> collected a e order w -> nominal_netlist a e n0 -> names_apart a e ->
  length order < 12 ->
  exists sims a', wc_run_analysis a = Some (nominal n0 :: sims, a') /\ length sims = 2 ^ length order /\
    (forall i, i < 2 ^ length order -> exists s, nth_error sims i = Some s /\
       varied a n0 order (fun k v d => extreme (nth k (bits true (length order) i) false) v d) (Z.of_nat i) s).
Proof.
  intros e n0 a order w O EC HC HN HA HL. unfold wc_run_analysis. rewrite EC. cbv zeta.
  pose proof HC as HC'. destruct HC' as (SW & ND & _).
  assert (HLen : length (snd w) = length order) by (rewrite SW; apply map_length). rewrite HLen.
  rewrite (proj1 (pow_ge _) HL). destruct HN as (HP & HN').
  destruct (play_nominal e n0 a (snd w) (2 ^ Z.of_nat (length order) - 1)%Z O HP) as (a2 & E2 & C2). rewrite E2, C2. fold (nominal n0).
  set (n := length order) in *. rewrite wc_runs_gen.
  assert (HN : nominal_netlist a e n0) by (split; assumption).
  destruct (gen_runs_spec (fun x b => wc_value b x) w ND (H_ent e a order w HC) (wc_total e a order w HC) (H_run e a order w HC HA)
              (map (fun r => (r, Z.of_N r)) (runs_upto (2 ^ n))) (2 ^ N.of_nat n - 1) (nominal n0) (nominal n0)) as (sims & e' & E & F).
  - eapply present_nominal; eassumption.
  - rewrite HLen. apply Forall_forall. intros rz H. apply in_map_iff in H. destruct H as (r & <- & H). unfold runs_upto in H. apply in_map_iff in H.
    destruct H as (i & <- & H). apply in_seq in H. cbn [fst]. rewrite <- pow_nat. lia.
  - rewrite HLen. assert (2 ^ N.of_nat n <> 0)%N by (apply N.pow_nonzero; lia). lia.
  - reflexivity.
  - reflexivity.
  - intros run z rest Eq j x y Ex _ ET. exfalso. unfold runs_upto in Eq. assert (run = 0%N).
    { destruct (2 ^ n) eqn:EP; [cbn in Eq; discriminate|]. cbn in Eq. congruence. } subst run.
    rewrite N.bits_0 in ET. assert (Lj : j < n) by (rewrite <- HLen; apply nth_error_Some; rewrite Ex; discriminate).
    replace (2 ^ N.of_nat n - 1)%N with (N.ones (N.of_nat n)) in ET by (rewrite N.ones_equiv; lia). rewrite N.ones_spec_low in ET by lia. discriminate.
  - rewrite E. exists sims. eexists. split; [reflexivity|]. split.
    { rewrite (Forall2_len _ _ _ F). unfold runs_upto. rewrite !map_length, seq_length. reflexivity. }
    intros i Hi. assert (Ei : nth_error (map (fun r => (r, Z.of_N r)) (runs_upto (2 ^ n))) i = Some (N.of_nat i, Z.of_nat i)).
    { unfold runs_upto. rewrite map_map, nth_error_map. assert (Es : nth_error (seq 0 (2 ^ n)) i = Some i).
      { rewrite nth_error_nth' with (d := 0) by (rewrite seq_length; exact Hi). rewrite seq_nth by exact Hi. reflexivity. } rewrite Es. cbn. rewrite nat_N_Z. reflexivity. }
    destruct (Forall2_nth _ _ _ _ _ F Ei) as (s & Es & Sh). exists s. split; [exact Es|]. cbn [fst snd] in Sh.
    refine (shown_varied e n0 a order w HC HN (fun x b => wc_value b x) _ _ _ s _ Sh).
    intros k v d kd Lk. rewrite bits_nth by exact Lk. unfold wc_value, extreme, low, high. cbn [e_dev e_val].
    destruct (N.testbit (N.of_nat i) (N.of_nat k)); cbn [xorb]; destruct (dtyp d) eqn:ED; destruct v as [q|t|nm t ix|nm lo hi ix]; try (left; reflexivity);
      (destruct kd; [right; right; right; split; [reflexivity|discriminate]|right; right; left; split; [reflexivity|congruence]]).
Qed.

Lemma wc_too_many : forall e a order w, collect a = Some w -> collected a e order w -> 12 <= length order ->
  exists a', wc_run_analysis a = Some ([], a') /\ cur a' = cur a.
Proof.
  intros e a order w EC HC HL. unfold wc_run_analysis. rewrite EC. cbv zeta. destruct HC as (SW & _).
  assert (HLen : length (snd w) = length order) by (rewrite SW; apply map_length). rewrite HLen.
  destruct (4096 <=? 2 ^ length order) eqn:E; [eexists; split; reflexivity|]. apply pow_ge in E. lia.
Qed.

Lemma bit_pow : forall i j, N.testbit (2 ^ N.of_nat i) (N.of_nat j) = Nat.eqb i j.
Proof. intros i j. rewrite N.pow2_bits_eqb. destruct (Nat.eqb_spec i j) as [->|N]; [apply N.eqb_refl|]. apply N.eqb_neq. lia. Qed.

Lemma qs_analysis : forall e n0 a order w, ok_setup e a -> collect a = Some w -> collected a e order w -> nominal_netlist a e n0 -> names_apart a e ->
  length order <= 4096 ->
  exists sims a', qs_run_analysis a = Some (nominal n0 :: sims, a') /\ length sims = length order /\
    (forall i, i < length order -> exists s, nth_error sims i = Some s /\ varied a n0 order (one_changed i) (Z.of_nat i) s).
Proof.
  intros e n0 a order w O EC HC HN HA HL. unfold qs_run_analysis. rewrite EC. cbv zeta.
  pose proof HC as HC'. destruct HC' as (SW & ND & _ & C1 & C2).
  assert (HLen : length (snd w) = length order) by (rewrite SW; apply map_length). rewrite HLen.
  destruct (Nat.ltb_spec 4096 (length order)) as [L|_]; [lia|]. pose proof HN as HN'. destruct HN' as (HP & HNc & HNp).
  destruct (play_nominal e n0 a (snd w) (last_run a) O HP) as (a2 & E2 & CU2). rewrite E2, CU2. fold (nominal n0).
  set (n := length order) in *. rewrite qs_runs_gen.
  destruct (gen_runs_spec qs_value w ND (H_ent e a order w HC) (qs_total e a order w HC) (H_run e a order w HC HA)
              (map (fun r => ((2 ^ N.of_nat r)%N, Z.of_nat r)) (seq 0 n)) 0 (nominal n0) (nominal n0)) as (sims & e' & E & F).
  - eapply present_nominal; eassumption.
  - rewrite HLen. apply Forall_forall. intros rz H. apply in_map_iff in H. destruct H as (i & <- & H). apply in_seq in H. cbn [fst]. apply N.pow_lt_mono_r; lia.
  - apply N.neq_0_lt_0. apply N.pow_nonzero. lia.
  - reflexivity.
  - reflexivity.
  - intros run z rest _ j x y Ex Ey _. rewrite N.bits_0. destruct (order_nth e a order w HC j x Ex) as (k & Hk). apply nth_error_In in Hk. destruct k.
    + destruct (C1 x Hk) as (q & d & CD & E). rewrite E in Ey. injection Ey as <-. cbn [e_kind read nominal add_dir set_par comps].
      apply (comp_dev_n0 e n0 a HN) in CD. destruct CD as (-> & _). unfold qs_value. cbn [e_dev e_val]. destruct (dtyp d); reflexivity.
    + destruct (C2 x Hk) as (v & d & CD & M & Ev & E). rewrite E in Ey. injection Ey as <-. cbn [e_kind read nominal add_dir set_par pars].
      destruct (HA x (par_in e a order w HC x Hk)) as (Nr & _). rewrite aget_aset_other by exact Nr. rewrite (HNp x (par_in e a order w HC x Hk)), Ev.
      unfold qs_value. cbn [e_dev e_val]. rewrite M. reflexivity.
  - rewrite E. exists sims. eexists. split; [reflexivity|]. split. { rewrite (Forall2_len _ _ _ F), map_length, seq_length. reflexivity. }
    intros i Hi. assert (Ei : nth_error (map (fun r => ((2 ^ N.of_nat r)%N, Z.of_nat r)) (seq 0 n)) i = Some ((2 ^ N.of_nat i)%N, Z.of_nat i)).
    { rewrite nth_error_map. rewrite nth_error_nth' with (d := 0) by (rewrite seq_length; exact Hi). rewrite seq_nth by exact Hi. reflexivity. }
    destruct (Forall2_nth _ _ _ _ _ F Ei) as (s & Es & Sh). exists s. split; [exact Es|]. cbn [fst snd] in Sh.
    refine (shown_varied e n0 a order w HC HN qs_value _ _ _ s _ Sh).
    intros k v d kd Lk. rewrite bit_pow. unfold qs_value, one_changed, high. cbn [e_dev e_val]. destruct (Nat.eqb i k).
    + destruct (dtyp d) eqn:ED; destruct v as [q|t|nm t ix|nm lo hi ix]; try (left; reflexivity);
      (destruct kd; [right; right; right; split; [reflexivity|discriminate]|right; right; left; split; [reflexivity|congruence]]).
    + destruct (dtyp d) eqn:ED; destruct v as [q|t|nm t ix|nm lo hi ix]; left; reflexivity.
Qed.
