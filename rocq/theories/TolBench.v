(** The test bench of the worst case analysis (C84). *)
From Coq Require Import String Ascii List Bool Arith ZArith NArith QArith Lia.
From Verif Require Import TolModel TolSpec TolBatch TolCorner TolCollect TolRuns.
Import ListNotations.
Local Open Scope string_scope. Local Open Scope nat_scope. Local Open Scope list_scope.

Definition fml (v : value) (d : dev) (i : nat) : value :=
  match dtyp d with DTol => VWc v (dmin d) i | DMinMax => VWc1 v (dmin d) (dmax d) i | DNone => v end.
Definition form (a : ana) (ri : string * nat) : string * value :=
  (fst ri, match value_and_dev a (fst ri) with Some (v, d) => fml v d (snd ri) | None => VText "" end).
Definition sets (l : list (string * value)) : list instr := map (fun rv => ISetComp (fst rv) (snd rv)) l.
Definition numbered (i : nat) (l : list string) : list (string * nat) := combine l (seq i (length l)).

Definition with_prep (a : ana) (e : ed) (is : list instr) (els : list string) : ana :=
  Ana (orig a) e (instrs a ++ is) (added a) (defaults a) (devices a) (params a) (elements a ++ els) (prepared a) (last_run a).

Lemma value_and_dev_ext : forall a b r, comps (cur a) = comps (cur b) -> devices a = devices b -> defaults a = defaults b -> value_and_dev a r = value_and_dev b r.
Proof. intros a b r A B C. unfold value_and_dev. rewrite A, B, C. reflexivity. Qed.
Lemma valid_ext : forall a b r, comps (cur a) = comps (cur b) -> devices a = devices b -> defaults a = defaults b -> valid a r = valid b r.
Proof. intros. unfold valid. rewrite (value_and_dev_ext a b) by assumption. reflexivity. Qed.

Lemma prep_components_spec : forall a0 rs a idx, comps (cur a) = comps (cur a0) -> devices a = devices a0 -> defaults a = defaults a0 ->
  (forall r, In r rs -> value_and_dev a0 r <> None) ->
  prep_components rs (a, idx) = Some (with_prep a (cur a) (sets (map (form a0) (numbered idx (filter (valid a0) rs)))) (filter (valid a0) rs),
                                      idx + length (filter (valid a0) rs)).
Proof.
  intros a0. induction rs as [|r rs IH]; intros a idx H1 H2 H3 HV.
  - cbn. unfold with_prep. rewrite !app_nil_r, Nat.add_0_r. destruct a; reflexivity.
  - cbn [prep_components filter]. unfold set_component_deviation. rewrite (value_and_dev_ext a a0 r H1 H2 H3).
    destruct (value_and_dev a0 r) as [[v d]|] eqn:E; [|exfalso; apply (HV r); [left; reflexivity|exact E]].
    assert (Hv : valid a0 r = negb (is_not_valid d)) by (unfold valid; rewrite E; reflexivity). rewrite Hv.
    destruct (is_not_valid d); cbn [negb].
    + apply IH; try assumption. intros x Hx. apply HV. right. exact Hx.
    + rewrite IH; try assumption; [|intros x Hx; apply HV; right; exact Hx]. unfold numbered. cbn [length seq combine map]. unfold form at 2. cbn [fst snd]. rewrite E.
      f_equal. f_equal; [|lia]. unfold with_prep, record, sets. cbn [orig cur instrs added defaults devices params elements prepared last_run map fst snd].
      rewrite <- !app_assoc. reflexivity.
Qed.

(** Parameters: set one after the other. *)
Definition put_pars (l : list (string * value)) (e : ed) : ed := fold_left (fun e pv => set_par (fst pv) (snd pv) e) l e.
Definition pform (a : ana) (pi : string * nat) : string * value :=
  (fst pi, match par_value_and_dev a (fst pi) with Some (v, d) => fml v d (snd pi) | None => VText "" end).
Lemma put_pars_comps : forall l e, comps (put_pars l e) = comps e /\ dirs (put_pars l e) = dirs e.
Proof. induction l as [|x l IH]; intros e; [split; reflexivity|]. change (put_pars (x :: l) e) with (put_pars l (set_par (fst x) (snd x) e)). destruct (IH (set_par (fst x) (snd x) e)) as (-> & ->). split; reflexivity. Qed.
Lemma put_pars_other : forall l e x, ~ In x (map fst l) -> aget x (pars (put_pars l e)) = aget x (pars e).
Proof. induction l as [|[p v] l IH]; intros e x H; [reflexivity|]. change (put_pars ((p, v) :: l) e) with (put_pars l (set_par p v e)). cbn in H. rewrite IH by tauto. cbn. apply aget_aset_other. intros ->. tauto. Qed.
Lemma put_pars_in : forall l e x v, NoDup (map fst l) -> In (x, v) l -> aget x (pars (put_pars l e)) = Some v.
Proof.
  induction l as [|[p u] l IH]; intros e x v ND H; [destruct H|]. change (put_pars ((p, u) :: l) e) with (put_pars l (set_par p u e)). cbn in ND, H. inversion ND; subst. destruct H as [H|H]; [|apply IH; assumption].
  injection H as -> ->. rewrite put_pars_other by assumption. cbn. apply aget_aset_same.
Qed.
Lemma numbered_fst : forall i l, map fst (numbered i l) = l.
Proof. intros i l. unfold numbered. revert i. induction l as [|x l IH]; intros i; [reflexivity|]. cbn. f_equal. apply IH. Qed.
Lemma numbered_nth : forall l i k x, nth_error l k = Some x -> In (x, i + k) (numbered i l).
Proof.
  unfold numbered. induction l as [|y l IH]; intros i [|k] x H; try discriminate; cbn in H |- *.
  - injection H as ->. left. f_equal. lia.
  - right. rewrite <- Nat.add_succ_comm. apply IH. exact H.
Qed.
Lemma form_fst : forall a l, map fst (map (form a) l) = map fst l. Proof. intros. rewrite map_map. reflexivity. Qed.
Lemma pform_fst : forall a l, map fst (map (pform a) l) = map fst l. Proof. intros. rewrite map_map. reflexivity. Qed.

Lemma prep_parameters_spec : forall a0 ps a idx, params a = params a0 -> (forall p, In p ps -> aget p (pars (cur a)) = aget p (pars (cur a0))) -> NoDup ps ->
  (forall p, In p ps -> exists v d, par_value_and_dev a0 p = Some (v, d) /\ dtyp d = DMinMax) ->
  prep_parameters ps (a, idx) = Some (with_prep a (put_pars (map (pform a0) (numbered idx ps)) (cur a)) [] ps, idx + length ps).
Proof.
  intros a0. induction ps as [|p ps IH]; intros a idx H1 H2 ND HV.
  - cbn. unfold with_prep. rewrite !app_nil_r, Nat.add_0_r. destruct a; reflexivity.
  - cbn [prep_parameters]. assert (EP : par_value_and_dev a p = par_value_and_dev a0 p).
    { unfold par_value_and_dev. rewrite H1, (H2 p (or_introl eq_refl)). reflexivity. } rewrite EP.
    destruct (HV p (or_introl eq_refl)) as (v & d & E & M). rewrite E, M. inversion ND as [|? ? NI ND']; subst. rewrite IH.
    + unfold numbered. cbn [length seq combine map]. unfold pform at 2. cbn [fst snd]. rewrite E. unfold fml. rewrite M. f_equal. f_equal; [|lia].
      unfold with_prep, put_pars. cbn [orig cur instrs added defaults devices params elements prepared last_run fold_left fst snd]. rewrite <- app_assoc. reflexivity.
    + exact H1.
    + intros q Hq. cbn [cur set_par pars]. rewrite aget_aset_other by (intros ->; contradiction). apply H2. right. exact Hq.
    + exact ND'.
    + intros q Hq. apply HV. right. exact Hq.
Qed.

Lemma play_app : forall l m e e', play_all l e = Some e' -> play_all (l ++ m) e = play_all m e'.
Proof. induction l as [|i l IH]; intros m e e' H; [cbn in H; injection H as ->; reflexivity|]. cbn in *. destruct (play_one e i); [apply IH; exact H|discriminate]. Qed.
Lemma play_sets : forall l e, (forall r, In r (map fst l) -> In r (map fst (comps e))) -> NoDup (map fst l) ->
  exists e', play_all (sets l) e = Some e' /\ pars e' = pars e /\ dirs e' = dirs e /\
    (forall r v, In (r, v) l -> aget r (comps e') = Some v) /\ (forall r, ~ In r (map fst l) -> aget r (comps e') = aget r (comps e)) /\
    map fst (comps e') = map fst (comps e).
Proof.
  induction l as [|[r v] l IH]; intros e HI ND.
  - exists e. cbn. repeat split; auto. intros r v [].
  - cbn [sets map play_all play_one fst snd]. unfold set_comp. pose proof (HI r (or_introl eq_refl)) as HR. pose proof HR as HR'. apply aget_In in HR'. destruct HR' as (u & ->).
    cbn in ND. inversion ND as [|? ? NI ND']; subst.
    destruct (IH (Ed (aset r v (comps e)) (pars e) (dirs e))) as (e' & A & B & C & D & E & F).
    { intros x Hx. cbn [comps]. rewrite aset_keys_same by exact HR. apply HI. right. exact Hx. }
    { exact ND'. }
    exists e'. split; [exact A|]. split; [exact B|]. split; [exact C|]. split; [|split].
    + intros x w [H|H]; [|apply D; exact H]. injection H as -> ->. rewrite E by exact NI. cbn. apply aget_aset_same.
    + intros x Hx. rewrite E by (intros K; apply Hx; right; exact K). cbn. apply aget_aset_other. intros ->. apply Hx. left. reflexivity.
    + rewrite F. cbn [comps]. apply aset_keys_same. exact HR.
Qed.

Lemma binary_bit : forall i k, binary (Z.of_nat i) k = if N.testbit (N.of_nat i) (N.of_nat k) then 1%Z else 0%Z.
Proof.
  intros i k. unfold binary, floor_div. rewrite Z.pow_add_r by lia. rewrite <- Z.div_div by (try apply Z.pow_nonzero; lia). change (2 ^ 1)%Z with 2%Z.
  pose proof (Z.div_mod (Z.of_nat i / 2 ^ Z.of_nat k) 2 ltac:(lia)) as D.
  assert (M : ((Z.of_nat i / 2 ^ Z.of_nat k) mod 2 = Z.b2z (N.testbit (N.of_nat i) (N.of_nat k)))%Z).
  { rewrite <- Z.testbit_spec' by lia. f_equal. rewrite <- !nat_N_Z. apply N2Z.inj_testbit. }
  destruct (N.testbit (N.of_nat i) (N.of_nat k)); cbn [Z.b2z] in M; lia.
Qed.
Lemma nneg : forall i, (Z.of_nat i <? 0)%Z = false. Proof. intros. apply Z.ltb_ge. lia. Qed.

Lemma fml_comp : forall q d k, real_dev d -> sim_value (-1) (fml (VNum q) d k) = Some q /\
  forall i n, k < n -> i < 2 ^ n -> exists x, sim_value (Z.of_nat i) (fml (VNum q) d k) = Some x /\ (x == if nth k (bits false n i) false then high q d else low q d)%Q.
Proof.
  intros q d k (R & _). unfold fml, high, low. destruct (dtyp d); [| |exfalso; apply R; reflexivity].
  - split; [reflexivity|]. intros i n Hk _. cbn [sim_value]. rewrite nneg, binary_bit, bits_nth by exact Hk. eexists. split; [reflexivity|].
    destruct (N.testbit (N.of_nat i) (N.of_nat k)); cbn; ring.
  - split; [reflexivity|]. intros i n Hk _. cbn [sim_value]. rewrite nneg, binary_bit, bits_nth by exact Hk. eexists. split; [reflexivity|].
    destruct (N.testbit (N.of_nat i) (N.of_nat k)); cbn; reflexivity.
Qed.
Lemma fml_par : forall v d k, dtyp d = DMinMax -> sim_value (-1) (fml v d k) = sim_value (-1) v /\
  forall i n, k < n -> i < 2 ^ n -> sim_value (Z.of_nat i) (fml v d k) = Some (if nth k (bits false n i) false then dmax d else dmin d).
Proof.
  intros v d k M. unfold fml. rewrite M. split; [reflexivity|]. intros i n Hk _. cbn [sim_value]. rewrite nneg, binary_bit, bits_nth by exact Hk.
  destruct (N.testbit (N.of_nat i) (N.of_nat k)); reflexivity.
Qed.

Lemma drop_first_app : forall x l m, ~ In x l -> drop_first x (l ++ x :: m) = l ++ m.
Proof.
  induction l as [|y l IH]; intros m H; cbn; [rewrite String.eqb_refl; reflexivity|]. destruct (String.eqb_spec y x) as [->|N]; [exfalso; apply H; left; reflexivity|].
  f_equal. apply IH. intros K. apply H. right. exact K.
Qed.
Lemma run_batches_spec : forall bs e, (forall b, In b bs -> ~ In (step_dir (fst b) (snd b)) (dirs e)) ->
  Forall2 (fun b s => s = Ed (comps e) (pars e) (dirs e ++ [step_dir (fst b) (snd b)])) bs (run_batches bs e).
Proof.
  induction bs as [|[lo hi] bs IH]; intros e H; [constructor|]. cbn [run_batches]. cbv zeta. constructor; [reflexivity|].
  assert (E : rem_dir (step_dir lo hi) (add_dir (step_dir lo hi) e) = e).
  { unfold rem_dir, add_dir. cbn [comps pars dirs]. rewrite drop_first_app by exact (H (lo, hi) (or_introl eq_refl)). rewrite app_nil_r. destruct e; reflexivity. }
  rewrite E. apply IH. intros b Hb. apply H. right. exact Hb.
Qed.

Lemma order_len : forall a, length (order_of a) = length (grp1 a) + length (params a) + length (grp2 a).
Proof. intros. unfold order_of. rewrite !app_length, !map_length. lia. Qed.
Lemma order_comp_nth : forall a k r, nth_error (order_of a) k = Some (KComp, r) ->
  nth_error (grp1 a) k = Some r \/ exists j, k = length (grp1 a) + length (params a) + j /\ nth_error (grp2 a) j = Some r.
Proof.
  intros a k r H. unfold order_of in H. destruct (Nat.lt_ge_cases k (length (grp1 a))) as [L|L].
  - rewrite nth_error_app1 in H by (rewrite map_length; exact L). rewrite nth_error_map in H. destruct (nth_error (grp1 a) k); [|discriminate]. left. cbn in H. congruence.
  - rewrite nth_error_app2 in H by (rewrite map_length; exact L). rewrite map_length in H. destruct (Nat.lt_ge_cases (k - length (grp1 a)) (length (params a))) as [M|M].
    + rewrite nth_error_app1 in H by (rewrite !map_length; exact M). rewrite nth_error_map in H. destruct (nth_error (map fst (params a)) _); discriminate.
    + rewrite nth_error_app2 in H by (rewrite !map_length; exact M). rewrite !map_length, nth_error_map in H. right. exists (k - length (grp1 a) - length (params a)). split; [lia|].
      destruct (nth_error (grp2 a) _); [|discriminate]. cbn in H. congruence.
Qed.
Lemma order_par_nth : forall a k p, nth_error (order_of a) k = Some (KPar, p) -> exists j, k = length (grp1 a) + j /\ nth_error (map fst (params a)) j = Some p.
Proof.
  intros a k r H. unfold order_of in H. destruct (Nat.lt_ge_cases k (length (grp1 a))) as [L|L].
  - rewrite nth_error_app1 in H by (rewrite map_length; exact L). rewrite nth_error_map in H. destruct (nth_error (grp1 a) k); discriminate.
  - rewrite nth_error_app2 in H by (rewrite map_length; exact L). rewrite map_length in H. destruct (Nat.lt_ge_cases (k - length (grp1 a)) (length (params a))) as [M|M].
    + rewrite nth_error_app1 in H by (rewrite !map_length; exact M). rewrite nth_error_map in H. exists (k - length (grp1 a)). split; [lia|].
      destruct (nth_error (map fst (params a)) _); [|discriminate]. cbn in H. congruence.
    + rewrite nth_error_app2 in H by (rewrite !map_length; exact M). rewrite !map_length, nth_error_map in H. destruct (nth_error (grp2 a) _); discriminate.
Qed.

Lemma bench_runs : forall e a w limit, ok_setup e a -> NoDup (map fst (comps e)) -> collect a = Some w -> collected a e (order_of a) w -> names_apart a e ->
  instrs a = [] -> (1 <= limit)%Z -> (forall lo hi, ~ In (step_dir lo hi) (dirs e)) ->
  exists a1 nets bs, wc_prepare a = Some a1 /\ run_testbench a1 limit = Some nets /\ batches (2 ^ Z.of_nat (length (order_of a)) - 1) limit = Some bs /\
    Forall2 (fun b s => test_bench a e (order_of a) (bits false (length (order_of a))) (fst b) (snd b) s) bs nets.
Proof.
  intros e a w limit O ND EC HC NA HI HL HS. set (n := length (order_of a)).
  assert (HP : forall p, In p (map fst (params a)) -> exists v d, par_value_and_dev a p = Some (v, d) /\ dtyp d = DMinMax).
  { intros p Hp. unfold par_value_and_dev. rewrite (o_cur e a O). pose proof (o_par e a O p Hp) as K. apply aget_In in K. destruct K as (v & ->).
    pose proof Hp as K. apply aget_In in K. destruct K as (d & K). rewrite K. exists v, d. split; [reflexivity|exact (o_mm e a O p d K)]. }
  pose proof HC as HC0. destruct HC0 as (SW & NDW & DV & C1 & C2).
  set (l1 := map (form a) (numbered 0 (grp1 a))). set (lp := map (pform a) (numbered (length (grp1 a)) (map fst (params a)))).
  set (l2 := map (form a) (numbered (length (grp1 a) + length (params a)) (grp2 a))).
  set (eb := set_par "run" (VNum (inject_Z (-1))) (add_dir (step_dir (-1) (2 ^ Z.of_nat n - 1)) (add_dir func_wc1 (add_dir func_wc (add_dir func_binary (put_pars lp e)))))).
  assert (EP : exists a1, wc_prepare a = Some a1 /\ instrs a1 = sets (l1 ++ l2) /\ cur a1 = eb /\ prepared a1 = true /\ last_run a1 = (2 ^ Z.of_nat n - 1)%Z /\ added a1 = false).
  { unfold wc_prepare. cbv zeta. set (a0 := Ana (orig a) (cur a) (instrs a) (added a) (defaults a) (devices a) (params a) [] (prepared a) (last_run a)).
    rewrite (prep_components_spec a (map fst (devices a)) a0 0); try reflexivity.
    2:{ intros r Hr. destruct (o_dev e a O r Hr). eapply value_known; eassumption. }
    fold (grp1 a). fold l1. cbn [plus].
    rewrite (prep_parameters_spec a (map fst (params a)) (with_prep a0 (cur a0) (sets l1) (grp1 a)) (length (grp1 a))); try reflexivity; [|exact (o_pnd e a O)|exact HP].
    cbn [cur with_prep a0]. fold lp.
    set (a2 := with_prep (with_prep a0 (cur a) (sets l1) (grp1 a)) (put_pars lp (cur a)) [] (map fst (params a))).
    cbn [fst]. assert (ED : default_refs a2 = default_refs a).
    { unfold default_refs, refs_with. cbn [a2 with_prep defaults devices cur a0]. rewrite (proj1 (put_pars_comps lp (cur a))). reflexivity. }
    rewrite ED. rewrite (prep_components_spec a (default_refs a) a2).
    2:{ cbn [a2 with_prep cur]. apply put_pars_comps. } 2:{ reflexivity. } 2:{ reflexivity. }
    2:{ intros r Hr. apply (default_refs_in e a r O) in Hr. destruct Hr as (A & _ & B). eapply value_known; eassumption. }
    rewrite map_length. fold (grp2 a). fold l2. eexists. split; [reflexivity|].
    cbn [instrs with_prep a2 a0 cur prepared last_run added]. rewrite HI, app_nil_r. cbn [app]. split; [unfold sets; rewrite map_app; reflexivity|].
    rewrite <- order_len. fold n. rewrite (o_cur e a O). split; [reflexivity|]. split; [reflexivity|]. split; [reflexivity|exact (o_added e a O)]. }
  destruct EP as (a1 & E1 & I1 & CU1 & P1 & L1 & A1). exists a1.
  assert (HL1 : map fst l1 = grp1 a) by (unfold l1; rewrite form_fst, numbered_fst; reflexivity).
  assert (HL2 : map fst l2 = grp2 a) by (unfold l2; rewrite form_fst, numbered_fst; reflexivity).
  assert (HLp : map fst lp = map fst (params a)) by (unfold lp; rewrite pform_fst, numbered_fst; reflexivity).
  assert (HndO : NoDup (grp1 a ++ map fst (params a) ++ grp2 a)).
  { rewrite SW in NDW. unfold order_of in NDW. rewrite !map_app, !map_snd_pair in NDW. exact NDW. }
  assert (HndC : NoDup (grp1 a ++ grp2 a)).
  { clear - HndO. induction (grp1 a) as [|x g IH]; cbn in *. { induction (map fst (params a)) as [|y l IH]; [exact HndO|]. cbn in HndO. inversion HndO; auto. }
    inversion HndO as [|? ? NI ND']; subst. constructor; [|apply IH; exact ND']. intros K. apply NI. rewrite !in_app_iff in *. tauto. }
  assert (HinC : forall r, In (KComp, r) (order_of a) <-> In r (grp1 a ++ grp2 a)).
  { intros r. unfold order_of. rewrite !in_app_iff, !in_map_iff. split.
    - intros [(x & E & H)|[(x & E & H)|(x & E & H)]]; [injection E as <-; auto|discriminate|injection E as <-; auto].
    - intros [H|H]; [left|right; right]; exists r; auto. }
  destruct (play_sets (l1 ++ l2) eb) as (e2 & EPl & PP & DD & IN & OUT & _).
  { intros r Hr. rewrite map_app, HL1, HL2 in Hr. apply HinC in Hr. destruct (C1 r Hr) as (q & d & CD & _). apply comp_dev_in in CD.
    cbn [eb set_par add_dir comps]. rewrite (proj1 (put_pars_comps lp e)). apply CD. }
  { rewrite map_app, HL1, HL2. exact HndC. }
  unfold run_testbench. rewrite P1. unfold play. rewrite A1, I1, CU1, EPl. cbn [last_run cur]. rewrite L1.
  assert (H2n : (1 <= 2 ^ Z.of_nat n)%Z) by (change 1%Z with (2 ^ 0)%Z; apply Z.pow_le_mono_r; lia).
  destruct (batches_spec (2 ^ Z.of_nat n - 1) limit) as (r & bs & EB & _); [lia|exact HL|]. rewrite EB. eexists. exists bs. split; [exact E1|]. split; [reflexivity|]. split; [reflexivity|].
  assert (HR : rem_dir (step_dir (-1) (2 ^ Z.of_nat n - 1)) e2 = Ed (comps e2) (pars e2) (dirs e ++ [func_binary; func_wc; func_wc1])).
  { unfold rem_dir. rewrite DD. cbn [eb set_par add_dir dirs]. rewrite (proj2 (put_pars_comps lp e)), <- !app_assoc. cbn [app].
    change [func_binary; func_wc; func_wc1; step_dir (-1) (2 ^ Z.of_nat n - 1)] with ([func_binary; func_wc; func_wc1] ++ [step_dir (-1) (2 ^ Z.of_nat n - 1)]).
    rewrite app_assoc. rewrite drop_first_app; [rewrite app_nil_r; reflexivity|]. rewrite in_app_iff. intros [K|K]; [exact (HS _ _ K)|]. cbn in K. intuition discriminate. }
  rewrite HR. assert (HF : Forall2 (fun b s => s = Ed (comps e2) (pars e2) ((dirs e ++ [func_binary; func_wc; func_wc1]) ++ [step_dir (fst b) (snd b)])) bs
    (run_batches bs (Ed (comps e2) (pars e2) (dirs e ++ [func_binary; func_wc; func_wc1])))).
  { apply (run_batches_spec bs (Ed (comps e2) (pars e2) (dirs e ++ [func_binary; func_wc; func_wc1]))). intros b _. cbn [dirs]. rewrite in_app_iff. intros [K|K]; [exact (HS _ _ K)|]. cbn in K. intuition discriminate. }
  assert (HTB : forall lo hi, test_bench a e (order_of a) (bits false n) lo hi (Ed (comps e2) (pars e2) ((dirs e ++ [func_binary; func_wc; func_wc1]) ++ [step_dir lo hi]))).
  2:{ clear -HF HTB. induction HF as [|b s bs ss Hb HF IH]; constructor; [subst s; apply HTB|exact IH]. }
  intros lo hi. split; [|split; [|split; [|split; [|split]]]]; cbn [comps pars dirs].
  - intros k r0 q d Hk CD. assert (Lk : k < n) by (unfold n; apply nth_error_Some; rewrite Hk; discriminate).
    assert (EV : aget r0 (comps e2) = Some (fml (VNum q) d k)).
    { apply IN. apply in_app_iff. pose proof (proj1 (comp_dev_iff e a r0 q d O) CD) as (V & _).
      assert (FE : form a (r0, k) = (r0, fml (VNum q) d k)) by (unfold form; cbn [fst snd]; rewrite V; reflexivity). rewrite <- FE.
      destruct (order_comp_nth a k r0 Hk) as [K|(j & -> & K)].
      - left. unfold l1. apply in_map. apply (numbered_nth _ 0 k r0 K).
      - right. unfold l2. apply in_map. apply (numbered_nth _ _ j r0 K). }
    exists (fml (VNum q) d k). split; [exact EV|]. destruct (fml_comp q d k) as (F1 & F2); [apply CD|]. split; [exact F1|]. intros i Hi. apply (F2 i n Lk Hi).
  - intros k p u d Hk (PD & _) Eu. assert (Lk : k < n) by (unfold n; apply nth_error_Some; rewrite Hk; discriminate).
    assert (Hp : In p (map fst (params a))) by (apply aget_In; eauto).
    assert (EV : aget p (pars e2) = Some (fml u d k)).
    { rewrite PP. cbn [eb set_par add_dir pars]. destruct (NA p Hp) as (Nr & _). rewrite aget_aset_other by exact Nr. apply put_pars_in. { rewrite HLp. exact (o_pnd e a O). }
      destruct (order_par_nth a k p Hk) as (j & -> & K).
      assert (FE : pform a (p, length (grp1 a) + j) = (p, fml u d (length (grp1 a) + j))).
      { unfold pform. cbn [fst snd]. unfold par_value_and_dev. rewrite (o_cur e a O), Eu, PD. reflexivity. }
      rewrite <- FE. unfold lp. apply in_map. apply numbered_nth. exact K. }
    exists (fml u d k). split; [exact EV|]. destruct (fml_par u d k (o_mm e a O p d PD)) as (F1 & F2). split; [exact F1|]. intros i Hi. apply (F2 i n Lk Hi).
  - intros r0 Hr. rewrite OUT. { cbn [eb set_par add_dir comps]. rewrite (proj1 (put_pars_comps lp e)). reflexivity. } rewrite map_app, HL1, HL2, <- HinC. exact Hr.
  - intros p Hp Np. rewrite PP. cbn [eb set_par add_dir pars]. rewrite aget_aset_other by exact Np. apply put_pars_other. rewrite HLp. intros K. apply Hp.
    unfold order_of. rewrite !in_app_iff. right. left. apply in_map. exact K.
  - rewrite PP. cbn [eb set_par pars]. apply aget_aset_same.
  - rewrite <- app_assoc. reflexivity.
Qed.
