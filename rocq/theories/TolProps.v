(** Tolerance analyses: C41-C44, C84-C92. *)
From Coq Require Import String Ascii List Bool Arith ZArith NArith QArith Qabs Lia Lqa.
From Verif Require Import TolModel TolSpec TolFastModel TolFastSpec TolBatch TolCorner TolCollect TolRuns TolBench TolSens TolFast TolFastRun.
Import ListNotations.
Local Open Scope string_scope. Local Open Scope nat_scope. Local Open Scope list_scope.

(** ** C41 Batches *)

Theorem C41_batches : forall last limit, (-1 <= last)%Z -> (1 <= limit)%Z ->
  exists r bs, batches last limit = Some bs /\
    flat_map batch_runs bs = all_runs last /\                                             (* every run once, in order *)
    (forall b, In b bs -> (1 <= batch_size b <= r)%Z) /\
    (Z.min limit (last + 2) <= r <= last + 2)%Z /\                                        (* the adjusted limit *)
    (forall s, (Z.min limit (last + 2) <= s < r)%Z -> ((last + 2) mod s = 1)%Z) /\        (* adjusted only to avoid a single run left over *)
    ((1 < limit)%Z -> (0 <= last)%Z -> forall b, In b bs -> (2 <= batch_size b)%Z).
Proof.
  intros last limit H1 H2. destruct (batches_spec last limit) as (r & bs & E & Eb & B & M & A); [lia|lia|].
  exists r, bs. split; [exact E|]. split; [rewrite Eb; apply batches_cover; lia|]. split.
  - intros b Hb. rewrite Eb in Hb. apply batches_in in Hb; [|lia]. destruct Hb as (k & F & G & S). unfold batch_size. lia.
  - split; [exact B|]. split; [exact A|]. intros L1 L2 b Hb. rewrite Eb in Hb. eapply no_single; [|exact M|exact Hb]. lia.
Qed.
Print Assumptions C41_batches.
Example C41_nonvacuous : batches 15 6 = Some [(-1, 4); (5, 10); (11, 15)]%Z. Proof. vm_compute. reflexivity. Qed.

(** ** The circuit of the examples *)
Definition ex_net : ed := Ed [("V1", VNum 10); ("R1", VNum 1000); ("R2", VNum 2000); ("XU1", VText "opamp")] [("gain", VNum 7)] [".op"].
Definition ex_ana : ana :=
  set_parameter_deviation "gain" 5 9 "uniform" (set_deviation "R2" 1900 2200 "uniform" (set_tolerance "R" (1 # 20) "uniform" (new_analysis ex_net))).
Lemma ex_setup : setup ex_net ex_ana.
Proof. unfold ex_ana. apply S_parameter; [|left; reflexivity]. apply S_deviation; [|cbn; tauto|reflexivity]. apply S_tolerance; [|left; cbn; tauto]. apply S_new. Qed.
Lemma ex_nodup : NoDup (map fst (comps ex_net)).
Proof. cbn. repeat constructor; cbn; intuition discriminate. Qed.
Lemma ex_nominal : nominal_netlist ex_ana ex_net ex_net.
Proof. split; [reflexivity|]. split; reflexivity. Qed.
Lemma ex_apart : names_apart ex_ana ex_net.
Proof. intros p [<-|[]]. cbn. intuition discriminate. Qed.
Lemma ex_order : order_of ex_ana = [(KComp, "R2"); (KPar, "gain"); (KComp, "R1")]. Proof. vm_compute. reflexivity. Qed.

(** The nominal run. *)
Lemma nominal_varied : forall e n a order w, ok_setup e a -> collected a e order w -> nominal_netlist a e n -> names_apart a e ->
  varied a n order (fun _ v _ => Some v) (-1) (nominal n).
Proof.
  intros e n a order w O C N A. destruct (deviating_n0 e n a order w C N) as (_ & _ & DP).
  split; [|split; [|split; [|split; [|split]]]].
  - intros k r q d _ (E & _). exact E.
  - intros k p v d Hk _ Ev. unfold nominal. cbn [pars add_dir set_par]. rewrite aget_aset_other; [exact Ev|].
    apply nth_error_In in Hk. apply DP in Hk. destruct Hk as (d' & Hd & _). apply (A p). apply aget_In. eauto.
  - reflexivity.
  - intros p _ Hp. unfold nominal. cbn [pars add_dir set_par]. apply aget_aset_other. exact Hp.
  - unfold nominal. cbn [pars add_dir set_par]. apply aget_aset_same.
  - reflexivity.
Qed.

(** ** C42 Every corner once *)

Theorem C42_every_corner : forall e a n, setup e a -> NoDup (map fst (comps e)) -> nominal_netlist a e n -> names_apart a e ->
  exists order, deviating a n order /\
    (length order < 12 ->
       exists nom sims a' up, wc_run_analysis a = Some (nom :: sims, a') /\
         varied a n order (fun _ v _ => Some v) (-1) nom /\
         length sims = 2 ^ length order /\ every_combination (length order) up /\
         forall i, i < 2 ^ length order -> exists s, nth_error sims i = Some s /\
           varied a n order (fun k v d => extreme (nth k (up i) false) v d) (Z.of_nat i) s) /\
    (12 <= length order -> exists a', wc_run_analysis a = Some ([], a') /\ cur a' = cur a).
Proof.
  intros e a n S ND N A. pose proof (setup_ok e a S) as O. destruct (collect_spec e a O ND A) as (w & EC & C).
  exists (order_of a). split; [exact (deviating_n0 e n a _ w C N)|]. split.
  - intros L. destruct (wc_analysis e n a (order_of a) w O EC C N A L) as (sims & a' & E & LS & H).
    exists (nominal n), sims, a', (bits true (length (order_of a))). split; [exact E|]. split; [eapply nominal_varied; eassumption|]. split; [exact LS|]. split; [apply every_bits|exact H].
  - intros L. exact (wc_too_many e a (order_of a) w EC C L).
Qed.
Print Assumptions C42_every_corner.
(** ... where the extremes are those the user gave: a tolerance t of a component, of its own or of its letter, makes it deviate by the
    fraction t of its value both ways; a minimum and a maximum are taken as they are. *)
Theorem C42_extremes : forall e a n ref t lo hi dist q, setup e a -> In ref (map fst (comps e)) -> aget ref (comps n) = Some (VNum q) -> head_is_any letters ref = true -> ~ In ref letters ->
  (~ (t == 0)%Q -> exists d, comp_dev (set_tolerance ref t dist a) n ref q d /\ (low q d == q * (1 - t))%Q /\ (high q d == q * (1 + t))%Q) /\
  (~ (t == 0)%Q -> aget ref (devices a) = None -> exists d, comp_dev (set_tolerance (letter_of ref) t dist a) n ref q d /\ (low q d == q * (1 - t))%Q /\ (high q d == q * (1 + t))%Q) /\
  (~ (lo == hi)%Q -> exists d, comp_dev (set_deviation ref lo hi dist a) n ref q d /\ low q d = lo /\ high q d = hi) /\
  (forall p v, aget p (pars n) = Some v -> exists d, par_dev (set_parameter_deviation p lo hi dist a) n p d /\ forall x, low x d = lo /\ high x d = hi).
Proof.
  intros e a n ref t lo hi dist q HS HR HV HH HL. assert (RT : ~ (t == 0)%Q -> real_dev (from_tolerance t dist)). { intros T. split; [discriminate|]. cbn. intros K. apply T. lra. }
  assert (EL : existsb (String.eqb ref) letters = false). { destruct (existsb (String.eqb ref) letters) eqn:E; [|reflexivity]. apply existsb_exists in E. destruct E as (x & X1 & X2). apply String.eqb_eq in X2. subst. contradiction. }
  assert (EC : existsb (String.eqb ref) (map fst (comps (cur a))) = true). { rewrite (o_cur e a (setup_ok e a HS)). apply existsb_exists. exists ref. split; [exact HR|apply String.eqb_refl]. }
  split; [|split; [|split]].
  - intros T. exists (from_tolerance t dist). split; [|split; cbn; ring]. split; [exact HV|]. split; [apply RT; exact T|]. split; [exact HH|]. left. unfold set_tolerance. rewrite EL, EC. apply aget_aset_same.
  - intros T HD. exists (from_tolerance t dist). split; [|split; cbn; ring]. split; [exact HV|]. split; [apply RT; exact T|]. split; [exact HH|]. right.
    assert (E1 : existsb (String.eqb (letter_of ref)) letters = true). { destruct ref as [|c r]; [discriminate|]. exact HH. }
    unfold set_tolerance. rewrite E1. split; [exact HD|apply aget_aset_same].
  - intros T. exists (from_min_max lo hi dist). split; [|split; reflexivity]. split; [exact HV|]. split; [split; [discriminate|exact T]|]. split; [exact HH|]. left. apply aget_aset_same.
  - intros p v Hp. exists (from_min_max lo hi dist). split; [|intros x; split; reflexivity]. split; [apply aget_aset_same|exists v; exact Hp].
Qed.
Print Assumptions C42_extremes.
Example C42_nonvacuous :
  setup ex_net ex_ana /\ NoDup (map fst (comps ex_net)) /\ nominal_netlist ex_ana ex_net ex_net /\ names_apart ex_ana ex_net /\
  exists sims a', wc_run_analysis ex_ana = Some (sims, a') /\ length sims = 9 /\
    option_map (fun s => (aget "R2" (comps s), aget "gain" (pars s))) (nth_error sims 2) = Some (Some (VNum 1900), Some (VNum 9)).
Proof.
  split; [exact ex_setup|]. split; [exact ex_nodup|]. split; [exact ex_nominal|]. split; [exact ex_apart|].
  eexists. eexists. split; [vm_compute; reflexivity|]. split; reflexivity.
Qed.

(** ** C43 Sensitivities; [data i] is the measurement of run i *)

Theorem C43_sensitivities : forall els data, NoDup els -> length data = 2 ^ length els ->
  let n := length els in let d := fun i => nth i data 0%Q in
  (exists k, k < n /\ ~ no_influence n d k) ->
  exists res, sensitivity_all els data = Some res /\ map fst res = els /\
    (fold_right Qplus 0 (map snd res) == 100)%Q /\
    (forall k r x, nth_error els k = Some r -> aget r res = Some x ->
       (0 <= x <= 100)%Q /\ (no_influence n d k -> (x == 0)%Q) /\
       (x * sum_to n (mean_change n d) == 100 * mean_change n d k)%Q).
Proof.
  intros els data ND HL n d (k0 & Hk0 & HI).
  assert (HP : (0 < sum_to n (mean_change n d))%Q).
  { destruct (Qlt_le_dec 0 (sum_to n (mean_change n d))) as [L|L]; [exact L|]. exfalso. apply HI. intros i Hi Hb.
    destruct (Qeq_dec (d i) (d (i + 2 ^ k0)%nat)) as [E|E]; [exact E|]. exfalso.
    pose proof (change_pos n d k0 i Hi Hb E) as P. pose proof (sum_to_ge n (mean_change n d) k0 (change_nonneg n d) Hk0) as G.
    apply (Qlt_irrefl 0). eapply Qlt_le_trans; [exact P|]. eapply Qle_trans; eassumption. }
  destruct (sens_all n els data ND eq_refl HL HP) as (res & E & F & V & T). exists res. split; [exact E|]. split; [exact F|]. split.
  - rewrite <- T. clear. induction (map snd res) as [|x l IH]; cbn; [reflexivity|]. rewrite IH. reflexivity.
  - intros k r x Hk Hx. destruct (V k r Hk) as (x' & Hx' & Ex). assert (x' = x) by congruence. subst x'. fold d in Ex.
    assert (Lk : k < n) by (apply nth_error_Some; rewrite Hk; discriminate).
    split; [|split].
    + pose proof (share_range (sum_to n (mean_change n d)) (mean_change n d k) (change_nonneg n d k) (sum_to_ge n _ k (change_nonneg n d) Lk) HP) as (A & B). rewrite Ex. split; assumption.
    + intros NI. rewrite Ex, (change_zero n d k NI). unfold Qdiv. ring.
    + rewrite Ex. field. intros Z. rewrite Z in HP. exact (Qlt_irrefl 0 HP).
Qed.
Print Assumptions C43_sensitivities.
Example C43_nonvacuous :
  exists res, sensitivity_all ["R1"; "R2"; "R3"] [1; 3; 2; 6; 1; 3; 2; 6]%Q = Some res /\
    (exists x, aget "R3" res = Some x /\ (x == 0)%Q) /\ (exists x, aget "R1" res = Some x /\ (x == 60)%Q).
Proof. eexists. split; [vm_compute; reflexivity|]. split; eexists; (split; [vm_compute; reflexivity|reflexivity]). Qed.

(** ** C44 Fast worst case *)

Theorem C44_fast_worst_case : forall e a n, setup e a -> NoDup (map fst (comps e)) -> nominal_netlist a e n -> names_apart a e ->
  exists order, deviating a n order /\
    forall f m, measured_by a n order f m -> monotone (length order) m ->
      exists cmin cmax minc maxc a', length cmin = length order /\ length cmax = length order /\
        fast_run_analysis f a = Some (Fast (m (repeat Nom (length order))) (m (corner cmin)) maxc (m (corner cmax)) minc, a') /\
        values_of a n order cmin minc /\ values_of a n order cmax maxc /\
        forall c, length c = length order -> (m (corner cmin) <= m (corner c))%Q /\ (m (corner c) <= m (corner cmax))%Q.
Proof.
  intros e a n S ND N A. pose proof (setup_ok e a S) as O. destruct (collect_spec e a O ND A) as (w & EC & C).
  exists (order_of a). set (order := order_of a) in *. split; [exact (deviating_n0 e n a _ w C N)|].
  intros f m HM MO. set (c0 := dir0 order m). assert (L0 : length c0 = length order) by apply dir0_len.
  assert (D : forall k s b, k < length order -> length s = length order ->
    (m (put_at k (side b) s) <= m (put_at k (side (nth k c0 false)) s))%Q /\ (m (put_at k (side (nth k (map negb c0) false)) s) <= m (put_at k (side b) s))%Q).
  { intros k s b Hk Hs. destruct (dir_mono order m MO k Hk) as (D1 & D2). fold c0 in D1, D2.
    assert (EN : nth k (map negb c0) false = negb (nth k c0 false)). { rewrite (nth_indep _ false (negb false)) by (rewrite map_length, L0; exact Hk). apply map_nth. } rewrite EN.
    destruct (nth k c0 false); cbn [negb side].
    - exact (rising_le _ _ _ b s (D1 eq_refl) Hs).
    - exact (falling_le _ _ _ b s (D2 eq_refl) Hs). }
  assert (GM : forall c, length c = length order -> (m (corner c) <= m (corner c0))%Q) by (apply hybrid; [exact L0|intros; apply D; assumption]).
  assert (Gm : forall c, length c = length order -> (m (corner (map negb c0)) <= m (corner c))%Q) by (apply hybrid_min; [rewrite map_length; exact L0|intros; apply D; assumption]).
  assert (FL : forall j (c : list bool), length (flip j c) = length c) by (intros; apply put_at_len).
  destruct (fast_spec e n a order w f m O EC C N HM) as (_ & H). destruct H as (c' & maxc & minc & a' & E & V1 & V2 & L' & _ & _ & U).
  { intros j Hj. apply GM. rewrite FL. exact L0. }
  fold c0 in E, V1, U. rewrite U in E, V2.
  2,3: intros j Hj; apply Gm; rewrite FL, map_length; exact L0.
  exists (map negb c0), c0, minc, maxc, a'. split; [rewrite map_length; exact L0|]. split; [exact L0|]. split; [exact E|]. split; [exact V2|]. split; [exact V1|].
  intros c Hc. split; [apply Gm|apply GM]; exact Hc.
Qed.
Print Assumptions C44_fast_worst_case.

(** A voltage divider with a gain: the measurement grows with R2 and the gain and falls with R1. *)
Definition num_of (v : option value) : Q := match v with Some (VNum q) => q | _ => 0%Q end.
Definition ex_measure (s : ed) : Q := (num_of (aget "gain" (pars s)) * 100 + num_of (aget "R2" (comps s)) - num_of (aget "R1" (comps s)))%Q.
Definition pick (t : wct) (lo nom hi : Q) : Q := match t with Nom => nom | Max => hi | Min => lo end.
Definition ex_m (s : list wct) : Q :=
  (pick (nth 1 s Nom) 5 7 9 * 100 + pick (nth 0 s Nom) 1900 2000 2200 - pick (nth 2 s Nom) (1000 * (1 - (1 # 20))) 1000 (1000 * (1 + (1 # 20))))%Q.
Example C44_nonvacuous :
  measured_by ex_ana ex_net (order_of ex_ana) ex_measure ex_m /\ monotone 3 ex_m /\
  exists r a', fast_run_analysis ex_measure ex_ana = Some (r, a') /\ (f_max r == 2150)%Q /\ (f_min r == 1350)%Q.
Proof.
  split; [|split].
  - intros s x _ (A & B & _). rewrite ex_order in A, B.
    assert (R2 : aget "R2" (comps x) = value_at (nth 0 s Nom) (VNum 2000) (Dev 1900 2200 DMinMax "uniform")).
    { apply (A 0 "R2" 2000%Q (Dev 1900 2200 DMinMax "uniform")); [reflexivity|]. split; [reflexivity|]. split; [split; discriminate|]. split; [reflexivity|]. left. reflexivity. }
    assert (R1 : aget "R1" (comps x) = value_at (nth 2 s Nom) (VNum 1000) (Dev (1 # 20) (- (1 # 20)) DTol "uniform")).
    { apply (A 2 "R1" 1000%Q (Dev (1 # 20) (- (1 # 20)) DTol "uniform")); [reflexivity|]. split; [reflexivity|]. split; [split; discriminate|]. split; [reflexivity|]. right. split; reflexivity. }
    assert (G : aget "gain" (pars x) = value_at (nth 1 s Nom) (VNum 7) (Dev 5 9 DMinMax "uniform")).
    { apply (B 1 "gain" (VNum 7) (Dev 5 9 DMinMax "uniform")); [reflexivity| |reflexivity]. split; [reflexivity|]. eexists. reflexivity. }
    unfold ex_measure, ex_m. rewrite R1, R2, G. destruct (nth 0 s Nom), (nth 1 s Nom), (nth 2 s Nom); reflexivity.
  - intros k Hk. destruct k as [|[|[|k]]]; [left|left|right|lia]; intros [|x [|y [|z [|? ?]]]] Hs; try discriminate Hs; cbn [put_at]; unfold ex_m; cbn [nth]; destruct x, y, z; split; vm_compute; reflexivity.
  - eexists. eexists. split; [vm_compute; reflexivity|]. split; reflexivity.
Qed.

(** ** C84 The test bench visits every corner *)

Theorem C84_test_bench : forall e a limit, setup e a -> NoDup (map fst (comps e)) -> names_apart a e -> instrs a = [] ->
  (forall lo hi, ~ In (step_dir lo hi) (dirs e)) -> (1 <= limit)%Z ->
  exists order up a1 bs nets, deviating a e order /\ every_combination (length order) up /\
    wc_prepare a = Some a1 /\ run_testbench a1 limit = Some nets /\
    flat_map batch_runs bs = all_runs (2 ^ Z.of_nat (length order) - 1) /\
    Forall2 (fun b s => test_bench a e order up (fst b) (snd b) s) bs nets.
Proof.
  intros e a limit S ND A HI HS HL. pose proof (setup_ok e a S) as O. destruct (collect_spec e a O ND A) as (w & EC & C).
  destruct (bench_runs e a w limit O ND EC C A HI HL HS) as (a1 & nets & bs & E1 & E2 & EB & F).
  exists (order_of a), (bits false (length (order_of a))), a1, bs, nets. split; [apply C|]. split; [apply every_bits|]. split; [exact E1|]. split; [exact E2|]. split; [|exact F].
  destruct (C41_batches (2 ^ Z.of_nat (length (order_of a)) - 1) limit) as (r & bs' & E & V & _); [|exact HL|congruence].
  pose proof (Z.pow_pos_nonneg 2 (Z.of_nat (length (order_of a))) ltac:(lia) ltac:(lia)). lia.
Qed.
Print Assumptions C84_test_bench.
Example C84_nonvacuous : instrs ex_ana = [] /\ (forall lo hi, ~ In (step_dir lo hi) (dirs ex_net)) /\
  exists a1 nets, wc_prepare ex_ana = Some a1 /\ run_testbench a1 4 = Some nets /\ length nets = 2.
Proof. split; [reflexivity|]. split; [intros lo hi [H|[]]; discriminate H|]. eexists. eexists. split; [vm_compute; reflexivity|]. split; [vm_compute; reflexivity|reflexivity]. Qed.

(** ** C89 Quick sensitivity analysis *)

Theorem C89_one_at_a_time : forall e a n, setup e a -> NoDup (map fst (comps e)) -> nominal_netlist a e n -> names_apart a e ->
  exists order, deviating a n order /\
    (length order <= 4096 ->
       exists nom sims a', qs_run_analysis a = Some (nom :: sims, a') /\
         varied a n order (fun _ v _ => Some v) (-1) nom /\ length sims = length order /\
         forall i, i < length order -> exists s, nth_error sims i = Some s /\ varied a n order (one_changed i) (Z.of_nat i) s).
Proof.
  intros e a n S ND N A. pose proof (setup_ok e a S) as O. destruct (collect_spec e a O ND A) as (w & EC & C).
  exists (order_of a). split; [exact (deviating_n0 e n a _ w C N)|]. intros L.
  destruct (qs_analysis e n a (order_of a) w O EC C N A L) as (sims & a' & E & LS & H).
  exists (nominal n), sims, a'. split; [exact E|]. split; [eapply nominal_varied; eassumption|]. split; [exact LS|exact H].
Qed.
Print Assumptions C89_one_at_a_time.
Theorem C89_percentages : forall nom data,
  let p := quick_sensitivity nom data in
  length p = length data /\ Forall (fun x => 0 <= x <= 100)%Q p /\
  ((exists x, In x data /\ ~ (x == nom)%Q) -> (fold_right Qplus 0 p == 100)%Q) /\
  (Forall (fun x => x == nom)%Q data -> Forall (fun x => x == 0)%Q p) /\
  (forall i j x y px py, nth_error data i = Some x -> nth_error data j = Some y -> nth_error p i = Some px -> nth_error p j = Some py ->
     (px * Qabs (y - nom) == py * Qabs (x - nom))%Q).
Proof.
  intros nom data p. set (errs := quick_errors nom data). set (t := qsum errs).
  assert (NN : Forall (fun x => 0 <= x)%Q errs). { unfold errs, quick_errors. apply Forall_forall. intros x Hx. apply in_map_iff in Hx. destruct Hx as (y & <- & _). apply Qabs_nonneg. }
  assert (T0 : (0 <= t)%Q) by (apply qsum_nonneg; exact NN).
  assert (EP : p = map (fun x => if Qeq_bool t 0 then 0 else x / t * 100)%Q errs) by reflexivity.
  assert (ES : forall l, fold_right Qplus 0%Q l = qsum l) by (induction l as [|x l IH]; cbn; [reflexivity|rewrite IH; reflexivity]).
  destruct (Qeq_bool t 0) eqn:Z.
  - apply Qeq_bool_iff in Z.
    assert (AZ : Forall (fun x => x == nom)%Q data).
    { apply Forall_forall. intros x Hx. assert (Ix : In (Qabs (x - nom)) errs) by (unfold errs, quick_errors; apply in_map with (f := fun y => Qabs (y - nom)); exact Hx).
      pose proof (qsum_ge errs _ NN Ix) as G. fold t in G. rewrite Z in G. pose proof (Qabs_nonneg (x - nom)) as G0. pose proof (Qle_Qabs (x - nom)) as Ga. pose proof (Qle_Qabs (- (x - nom))) as Gb. rewrite Qabs_opp in Gb. lra. }
    assert (PZ : Forall (fun x => x == 0)%Q p) by (rewrite EP; apply Forall_forall; intros x Hx; apply in_map_iff in Hx; destruct Hx as (y & <- & _); reflexivity).
    split; [rewrite EP, map_length; unfold errs, quick_errors; apply map_length|]. split; [|split; [|split]].
    + eapply Forall_impl; [|exact PZ]. intros x Hx. rewrite Hx. split; discriminate.
    + intros (x & Hx & Nx). exfalso. apply Nx. exact (proj1 (Forall_forall _ _) AZ x Hx).
    + intros _. exact PZ.
    + intros i j x y px py _ _ Hi Hj. pose proof (proj1 (Forall_forall _ _) PZ) as PF. rewrite (PF px) by (eapply nth_error_In; exact Hi). rewrite (PF py) by (eapply nth_error_In; exact Hj). ring.
  - assert (TP : (0 < t)%Q). { destruct (Qle_lt_or_eq _ _ T0) as [L|L]; [exact L|]. exfalso. symmetry in L. apply Qeq_bool_iff in L. congruence. }
    assert (TN : ~ (t == 0)%Q) by (intros K; rewrite K in TP; exact (Qlt_irrefl 0 TP)).
    split; [rewrite EP, map_length; unfold errs, quick_errors; apply map_length|]. split; [|split; [|split]].
    + rewrite EP. apply Forall_forall. intros x Hx. apply in_map_iff in Hx. destruct Hx as (y & <- & Hy). apply share_range; [exact (proj1 (Forall_forall _ _) NN y Hy)|apply qsum_ge; assumption|exact TP].
    + intros _. rewrite ES, EP, qsum_share by exact TN. fold t. field. exact TN.
    + intros AZ. exfalso. apply TN. unfold t. apply qsum_zero. unfold errs, quick_errors. apply Forall_forall. intros x Hx. apply in_map_iff in Hx. destruct Hx as (y & <- & Hy).
      rewrite (proj1 (Forall_forall _ _) AZ y Hy). setoid_replace (nom - nom)%Q with 0%Q by ring. reflexivity.
    + intros i j x y px py Hi Hj Pi Pj. rewrite EP in Pi, Pj. unfold errs, quick_errors in Pi, Pj. rewrite !nth_error_map in Pi, Pj. rewrite Hi in Pi. rewrite Hj in Pj. cbn [option_map] in Pi, Pj. assert (Ei : px = (Qabs (x - nom) / t * 100)%Q) by congruence. assert (Ej : py = (Qabs (y - nom) / t * 100)%Q) by congruence. rewrite Ei, Ej. generalize (Qabs (x - nom)) (Qabs (y - nom)). clearbody t. intros u v. field. exact TN.
Qed.
Print Assumptions C89_percentages.
Example C89_nonvacuous :
  (exists sims a', qs_run_analysis ex_ana = Some (sims, a') /\ map (fun s => aget "R1" (comps s)) (firstn 3 sims) = [Some (VNum 1000); Some (VNum 1000); Some (VNum 1000)] /\ length sims = 4) /\
  Forall2 Qeq (quick_sensitivity 10 [13; 9; 10]%Q) [75; 25; 0]%Q.
Proof. split; [eexists; eexists; split; [vm_compute; reflexivity|split; reflexivity]|]. repeat constructor. Qed.

(** ** C91 The fast search ends in local extremes, whatever the measurement *)

(** The direction assumed for each element: up if raising it, with the elements before it at their maximum, raises the measurement. *)
Definition assumed (n : nat) (m : list wct -> Q) (c : list bool) : Prop :=
  length c = n /\ forall k, k < n -> (nth k c false = true <-> (m (repeat Max k ++ repeat Nom (n - k)) < m (repeat Max (S k) ++ repeat Nom (n - S k)))%Q).
Lemma assumed_dir0 : forall order m, assumed (length order) m (dir0 order m).
Proof.
  intros order m. split; [apply dir0_len|]. intros k Hk. unfold dir0. rewrite nth_map_seq by exact Hk. fold (first_max order k). fold (first_max order (S k)).
  change (repeat Max k ++ repeat Nom (length order - k)) with (first_max order k). change (repeat Max (S k) ++ repeat Nom (length order - S k)) with (first_max order (S k)).
  generalize (m (first_max order (S k))) (m (first_max order k)). intros x y. rewrite negb_true_iff. split.
  - intros H. destruct (Qlt_le_dec y x) as [L|L]; [exact L|]. assert (K : Qle_bool (x - y) 0 = true) by (apply Qle_bool_iff; lra). congruence.
  - intros L. destruct (Qle_bool (x - y) 0) eqn:K; [|reflexivity]. apply Qle_bool_iff in K. lra.
Qed.
Lemma assumed_fun : forall n m c d, assumed n m c -> assumed n m d -> c = d.
Proof.
  intros n m c d (L1 & A) (L2 & B). apply nth_ext with (d := false) (d' := false); [congruence|]. intros k Hk. rewrite L1 in Hk.
  specialize (A k Hk). specialize (B k Hk). destruct (nth k c false), (nth k d false); try reflexivity; intuition congruence.
Qed.

Theorem C91_local_extremes : forall e a n, setup e a -> NoDup (map fst (comps e)) -> nominal_netlist a e n -> names_apart a e ->
  exists order, deviating a n order /\
    forall f m c, measured_by a n order f m -> assumed (length order) m c ->
      (forall j, j < length order -> (m (corner (flip j c)) <= m (corner c))%Q) ->
      exists cmin minc maxc a', length cmin = length order /\
        fast_run_analysis f a = Some (Fast (m (repeat Nom (length order))) (m (corner cmin)) maxc (m (corner c)) minc, a') /\
        values_of a n order cmin minc /\ values_of a n order c maxc /\
        (forall j, j < length order -> (m (corner cmin) <= m (corner (flip j cmin)))%Q) /\
        (m (corner cmin) <= m (corner (map negb c)))%Q.
Proof.
  intros e a n S ND N A. pose proof (setup_ok e a S) as O. destruct (collect_spec e a O ND A) as (w & EC & C).
  exists (order_of a). split; [exact (deviating_n0 e n a _ w C N)|]. intros f m c HM AC HB.
  rewrite (assumed_fun _ _ _ _ AC (assumed_dir0 (order_of a) m)) in *.
  destruct (fast_spec e n a (order_of a) w f m O EC C N HM) as (_ & H). destruct (H HB) as (c' & maxc & minc & a' & E & V1 & V2 & L' & M1 & M2 & _).
  exists c', minc, maxc, a'. split; [exact L'|]. split; [exact E|]. split; [exact V2|]. split; [exact V1|]. split; [exact M2|exact M1].
Qed.
Print Assumptions C91_local_extremes.

(** ** C88 A wrong direction *)

Theorem C88_wrong_direction_refuted : forall e a n, setup e a -> NoDup (map fst (comps e)) -> nominal_netlist a e n -> names_apart a e ->
  exists order, deviating a n order /\
    forall f m c j, measured_by a n order f m -> assumed (length order) m c -> j < length order ->
      (m (corner c) < m (corner (flip j c)))%Q -> fast_run_analysis f a = None.
Proof.
  intros e a n S ND N A. pose proof (setup_ok e a S) as O. destruct (collect_spec e a O ND A) as (w & EC & C).
  exists (order_of a). split; [exact (deviating_n0 e n a _ w C N)|]. intros f m c j HM AC Hj HB.
  rewrite (assumed_fun _ _ _ _ AC (assumed_dir0 (order_of a) m)) in *.
  apply (fast_spec e n a (order_of a) w f m O EC C N HM). exists j. auto.
Qed.
Print Assumptions C88_wrong_direction_refuted.
(** A product of two deviations: the first one seems to have no influence. *)
Example C88_nonvacuous :
  fast_run_analysis (fun s => (num_of (aget "R1" (comps s)) - 1000) * (num_of (aget "R2" (comps s)) - 2000))%Q ex_ana = None /\
  (exists r a', fast_run_analysis (fun s => (num_of (aget "R1" (comps s)) - 900) * (num_of (aget "R2" (comps s)) - 1000))%Q ex_ana = Some (r, a')).
Proof. split; [vm_compute; reflexivity|]. eexists. eexists. vm_compute. reflexivity. Qed.
Example C91_nonvacuous : exists c, assumed 3 ex_m c /\ forall j, j < 3 -> (ex_m (corner (flip j c)) <= ex_m (corner c))%Q.
Proof.
  exists [true; true; false]. split; [split; [reflexivity|]|]; intros j Hj; destruct j as [|[|[|j]]]; try lia; vm_compute; try (split; (reflexivity || discriminate)); try discriminate.
Qed.

(** ** C85 Deviations around other values than those of the nominal run *)

Definition one_r : ana := set_tolerance "R1" (1 # 10) "uniform" (new_analysis ex_net).
Definition r1_of (s : ed) : Q := Qred (num_of (aget "R1" (comps s))).
(** With a recorded value the corners still go around the value in the file; and a second analysis goes around the last corner of the first. *)
Theorem C85_nominal_values_refuted :
  (exists sims a', wc_run_analysis (record (ISetComp "R1" (VNum 5000)) one_r) = Some (sims, a') /\ map r1_of sims = [5000; 1100; 900]%Q) /\
  (exists sims a' sims' a'', wc_run_analysis one_r = Some (sims, a') /\ wc_run_analysis a' = Some (sims', a'') /\
     map r1_of sims = [1000; 1100; 900]%Q /\ map r1_of sims' = [1000; 990; 810]%Q).
Proof.
  split; [eexists; eexists; split; [vm_compute; reflexivity|vm_compute; reflexivity]|].
  eexists. eexists. eexists. eexists. split; [vm_compute; reflexivity|]. split; [vm_compute; reflexivity|]. split; vm_compute; reflexivity.
Qed.
Print Assumptions C85_nominal_values_refuted.

(** ** C86 A test bench that was not prepared *)

Lemma prep_components_cur : forall rs a i a' i', prep_components rs (a, i) = Some (a', i') -> cur a' = cur a.
Proof.
  induction rs as [|r rs IH]; cbn; intros a i a' i' H; [congruence|]. destruct (value_and_dev a r) as [[v d]|]; [|discriminate].
  destruct (is_not_valid d); apply IH in H; exact H.
Qed.
Lemma prep_parameters_comps : forall ps a i a' i', prep_parameters ps (a, i) = Some (a', i') -> comps (cur a') = comps (cur a).
Proof.
  induction ps as [|p ps IH]; cbn; intros a i a' i' H; [congruence|]. destruct (par_value_and_dev a p) as [[v d]|]; [|discriminate]. apply IH in H. cbn in H. rewrite H. destruct (dtyp d); reflexivity.
Qed.
Lemma run_batches_comps : forall bs x s, In s (run_batches bs x) -> comps s = comps x.
Proof. induction bs as [|[lo hi] bs IH]; cbn; intros x s H; [destruct H|]. destruct H as [<-|H]; [reflexivity|]. apply IH in H. exact H. Qed.
(** Every netlist handed to the simulator has the nominal component values, in all runs. *)
Theorem C86_unprepared_refuted : forall e a n limit nets, setup e a -> play_all (instrs a) e = Some n ->
  run_testbench a limit = Some nets -> forall s, In s nets -> comps s = comps n.
Proof.
  intros e a n limit nets S HP H s Hs.
  assert (Q : prepared a = false /\ orig a = e). { clear - S. induction S; cbn; auto; unfold set_tolerance; repeat destruct (existsb _ _); cbn; auto. }
  destruct Q as (Q1 & Q2). unfold run_testbench in H. rewrite Q1 in H. unfold play, reset_netlist_ in H. cbn [added instrs cur] in H. rewrite Q2, HP in H.
  cbn [orig defaults devices params elements prepared last_run andb] in H. rewrite Q1 in H.
  unfold wc_prepare in H. cbv zeta in H. cbn [orig defaults devices params elements prepared last_run cur instrs added] in H.
  destruct (prep_components _ _) as [[a1 i1]|] eqn:E1; [|discriminate]. destruct (prep_parameters _ _) as [[a2 i2]|] eqn:E2; [|discriminate].
  cbn [fst] in H. destruct (prep_components (default_refs a2) (a2, i2)) as [[a3 i3]|] eqn:E3; [|discriminate]. cbn [last_run cur] in H.
  destruct (batches _ _) as [bs|]; [|discriminate]. injection H as <-. apply run_batches_comps in Hs. cbn in Hs. rewrite Hs.
  rewrite (prep_components_cur _ _ _ _ _ E3), (prep_parameters_comps _ _ _ _ _ E2), (prep_components_cur _ _ _ _ _ E1). reflexivity.
Qed.
Print Assumptions C86_unprepared_refuted.
Example C86_nonvacuous : exists nets, run_testbench ex_ana 20 = Some nets /\ map (fun s => aget "R1" (comps s)) nets = [Some (VNum 1000)].
Proof. eexists. split; vm_compute; reflexivity. Qed.

(** ** C87 No influence at all *)

Theorem C87_insensitive_refuted : forall els data, NoDup els -> els <> [] -> length data = 2 ^ length els ->
  (forall k, k < length els -> no_influence (length els) (fun i => nth i data 0%Q) k) ->
  sensitivity_all els data = None /\ forall r, sensitivity_one els data r = None.
Proof. intros. eapply sens_fails; eauto. Qed.
Print Assumptions C87_insensitive_refuted.
Example C87_nonvacuous : sensitivity_all ["R1"; "R2"] [5; 5; 5; 5]%Q = None. Proof. vm_compute. reflexivity. Qed.

(** ** C90 The limit on the runs of a simulation *)

Theorem C90_limit_refuted : exists bs, batches 5 2 = Some bs /\ exists b, In b bs /\ batch_size b = 4%Z.
Proof. eexists. split; [vm_compute; reflexivity|]. eexists. split; [left; reflexivity|reflexivity]. Qed.
Print Assumptions C90_limit_refuted.

(** ** C92 A parameter with the name of a component *)

Definition same_net : ed := Ed [("R1", VNum 1000)] [("R1", VNum 7)] [].
Definition same_ana : ana := set_parameter_deviation "R1" 5 9 "uniform" (set_tolerance "R1" (1 # 10) "uniform" (new_analysis same_net)).
(** The component never deviates: its two extremes are in none of the runs. *)
Theorem C92_same_name_refuted :
  setup same_net same_ana /\
  exists sims a', wc_run_analysis same_ana = Some (sims, a') /\
    map r1_of sims = [1000; 1000; 1000; 1000; 1000]%Q /\
    map (fun s => num_of (aget "R1" (pars s))) sims = [7; 9; 5; 5; 5]%Q.
Proof.
  split; [apply S_parameter; [apply S_tolerance; [apply S_new|right; reflexivity]|left; reflexivity]|].
  eexists. eexists. split; [vm_compute; reflexivity|]. split; vm_compute; reflexivity.
Qed.
Print Assumptions C92_same_name_refuted.
