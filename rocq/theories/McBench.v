(** The test bench of the Monte Carlo analysis (C152). *)
From Coq Require Import String Ascii List Bool Arith ZArith QArith Qabs Lia Lqa Qpower.
From Verif Require Import PyStr EngModel EngSpec EngProofs TolModel TolSpec TolBatch TolCorner TolCollect TolRuns TolBench McModel McSpec McG McRun.
Import ListNotations.
Local Open Scope string_scope. Local Open Scope nat_scope. Local Open Scope list_scope.

(** ** tol_text drops nothing from 0.0001 to 1 *)
Lemma strip_zeros_last : forall s, strip_zeros s = [] \/ exists u c, strip_zeros s = u ++ [c] /\ c <> "0"%char /\ In c s.
Proof.
  intros s. unfold strip_zeros, rstrip_if. assert (G : forall t, lstrip_if (aeqb "0") t = [] \/ exists c u, lstrip_if (aeqb "0") t = c :: u /\ c <> "0"%char /\ In c t).
  { induction t as [|c t IH]; [left; reflexivity|]. cbn [lstrip_if]. destruct (aeqb "0" c) eqn:E.
    - destruct IH as [IH|(c' & u & IH & N & I)]; [left; exact IH|right; exists c', u; split; [exact IH|]; split; [exact N|right; exact I]].
    - right. exists c, t. split; [reflexivity|]. split; [|left; reflexivity]. intros ->. discriminate E. }
  destruct (G (rev s)) as [E|(c & u & E & N & I)]; rewrite E; [left; reflexivity|]. right. exists (rev u), c. split; [reflexivity|]. split; [exact N|]. apply in_rev. exact I.
Qed.
Lemma tol_text_keep : forall u c, c <> "0"%char -> c <> "."%char -> rstrip_if (aeqb ".") (rstrip_if (aeqb "0") (u ++ [c])) = u ++ [c].
Proof.
  intros u c N1 N2. unfold rstrip_if. rewrite rev_app_distr. cbn [rev app]. cbn [lstrip_if].
  destruct (aeqb "0" c) eqn:E1; [unfold aeqb in E1; apply Ascii.eqb_eq in E1; congruence|]. rewrite rev_involutive. cbn [lstrip_if].
  destruct (aeqb "." c) eqn:E2; [unfold aeqb in E2; apply Ascii.eqb_eq in E2; congruence|]. cbn [rev]. rewrite rev_involutive. reflexivity.
Qed.
Lemma tol_text_ok : forall t, (1 # 10000 <= t <= 1)%Q -> tol_text t = show_g t.
Proof.
  intros t (HL & HH). unfold tol_text, show_g. destruct (Qeq_bool t 0) eqn:E0; [apply Qeq_bool_iff in E0; lra|].
  destruct (g_parts (Qabs t)) as [N D] eqn:EP. assert (EN : Qltb t 0 = false) by (apply Qltb_ge; lra). rewrite EN. cbn [app].
  destruct (g_parts_ok (Qabs t) N D) as (BN & _ & UB & LB); [rewrite Qabs_pos by lra; lra|exact EP|].
  assert (HH' : (Qabs t <= 1)%Q) by (rewrite Qabs_pos by lra; exact HH). assert (HL' : (1 # 10000 <= Qabs t)%Q) by (rewrite Qabs_pos by lra; exact HL).
  specialize (UB 1%Q ltac:(exists 1%Z, 0%Z; split; [reflexivity|vm_compute; reflexivity]) HH'). specialize (LB (1 # 10000)%Q ltac:(exists 1%Z, (-4)%Z; split; [reflexivity|vm_compute; reflexivity]) HL').
  assert (HD : (D <= 0)%Z).
  { destruct (Z.le_gt_cases D 0) as [K|K]; [exact K|exfalso]. assert (X : (Qpower 10 (-4) <= Qpower 10 (D - 5))%Q) by (apply pow_le; lia).
    assert (Y : (inject_Z 100000 <= inject_Z N)%Q) by (rewrite <- Zle_Qle; lia). change (Qpower 10 (-4)) with (1 # 10000)%Q in X. change (inject_Z 100000) with 100000%Q in Y. nra. }
  assert (HD2 : (-4 <= D)%Z).
  { destruct (Z.le_gt_cases (-4) D) as [K|K]; [exact K|exfalso]. assert (X : (Qpower 10 (D - 5) <= Qpower 10 (-10))%Q) by (apply pow_le; lia).
    assert (Y : (inject_Z N <= inject_Z 999999)%Q) by (rewrite <- Zle_Qle; lia). assert (Z0 : (inject_Z 100000 <= inject_Z N)%Q) by (rewrite <- Zle_Qle; lia). change (Qpower 10 (-10)) with (1 # 10000000000)%Q in X. change (inject_Z 999999) with 999999%Q in Y. change (inject_Z 100000) with 100000%Q in Z0. pose proof (pw (D - 5)). nra. }
  unfold g_text. destruct (Z.ltb_spec D (-4)) as [K|_]; [lia|]. destruct (Z.leb_spec 6 D) as [K|_]; [lia|]. cbn [orb]. destruct (Z.leb_spec 0 D) as [K|K].
  - assert (D = 0%Z) by lia. subst D. change (Qpower 10 (0 - 5)) with (1 # 100000)%Q in UB. assert (N = 100000%Z).
    { assert (inject_Z N <= inject_Z 100000)%Q by (change (inject_Z 100000) with 100000%Q; nra). rewrite <- Zle_Qle in H. lia. }
    subst N. vm_compute. reflexivity.
  - destruct (strip_zeros_last (digits 6 N)) as [E|(u & c & E & N1 & I)].
    { apply strip_zeros_nil in E. rewrite number_digits in E by (simpl; lia). lia. }
    rewrite E. rewrite !app_assoc. apply tol_text_keep; [exact N1|]. pose proof (digits_all 6 N) as DA. rewrite forallb_forall in DA. specialize (DA c I). intros ->. discriminate DA.
Qed.

(** ** What is recorded *)
Definition needs_le (n m : needs) : Prop :=
  (n_utol n = true -> n_utol m = true) /\ (n_ntol n = true -> n_ntol m = true) /\ (n_urng n = true -> n_urng m = true) /\ (n_nrng n = true -> n_nrng m = true).
Lemma needs_refl : forall n, needs_le n n. Proof. intros n. unfold needs_le. tauto. Qed.
Lemma needs_trans : forall n m k, needs_le n m -> needs_le m k -> needs_le n k. Proof. unfold needs_le. intuition. Qed.
Definition formula (t : str) (d : dev) (s : string) (n : needs) : Prop :=
  match dtyp d with
  | DTol => (ddist d = "uniform" -> s = call_text "utol" [t; tol_text (dmin d)] /\ n_utol n = true) /\ (ddist d = "normal" -> s = call_text "ntol" [t; tol_text (dmin d)] /\ n_ntol n = true)
  | DMinMax => ddist d = "uniform" -> s = call_text "urng" [t; show_g ((dmax d + dmin d) / 2); show_g ((dmax d - dmin d) / 2)] /\ n_urng n = true
  | DNone => True
  end.
Lemma formula_le : forall t d s n m, needs_le n m -> formula t d s n -> formula t d s m.
Proof. intros t d s n m (A & B & C & _) F. unfold formula in *. destruct (dtyp d); intuition. Qed.

Lemma mc_component_cases : forall a n r v, head_is_any letters r = true -> aget r (comps (cur a)) = Some v ->
  (mc_component r (a, n) = Some (a, n) /\ forall q d, comp_has a (cur a) r q d -> ~ known d) \/
  (exists q d w n', comp_has a (cur a) r q d /\ known d /\ mc_component r (a, n) = Some (with_prep a (cur a) [ISetComp r (VText w)] [r], n') /\ needs_le n n' /\ formula (format_eng q) d w n').
Proof.
  intros a n r v HH EV. destruct (value_dev_cases a r v HH EV) as (d & ED & CD). unfold mc_component. rewrite ED. destruct CD as [(q & -> & CH)|(T & CN)].
  2:{ left. rewrite T. split; [reflexivity|]. intros q d' C. destruct (CN _ _ C). }
  assert (TN : dtyp d <> DNone) by apply CH. cbn [value_text].
  destruct (string_dec (ddist d) "uniform") as [U|U]; [right|destruct (string_dec (ddist d) "normal") as [M|M]; [right|left]].
  - rewrite U. cbn [String.eqb Ascii.eqb Bool.eqb]. destruct (dtyp d) eqn:T; [| |congruence];
      (eexists; eexists; eexists; eexists; split; [exact CH|]; split; [left; exact U|]; split; [reflexivity|]; split; [unfold needs_le; cbn; tauto|]; unfold formula; rewrite T; rewrite ?U; cbn).
    + split; intros X; [split; reflexivity|discriminate X].
    + intros _. split; reflexivity.
  - rewrite M. change (String.eqb "normal" "uniform") with false. change (String.eqb "normal" "normal") with true. cbv iota. destruct (dtyp d) eqn:T; [| |congruence];
      (eexists; eexists; eexists; eexists; split; [exact CH|]; split; [right; exact M|]; split; [reflexivity|]; split; [unfold needs_le; cbn; tauto|]; unfold formula; rewrite T; rewrite ?M; cbn).
    + split; intros X; [discriminate X|split; reflexivity].
    + intros X. discriminate X.
  - assert (NK : ~ known d) by (unfold known; tauto). split.
    + destruct (String.eqb_spec (ddist d) "uniform"); [contradiction|]. destruct (String.eqb_spec (ddist d) "normal"); [contradiction|]. destruct (dtyp d); reflexivity.
    + intros q' d' C. destruct (comp_has_unique _ _ _ _ _ _ _ CH C) as (_ & <-). exact NK.
Qed.
Lemma mc_components_spec : forall a0 rs a n, comps (cur a) = comps (cur a0) -> devices a = devices a0 -> defaults a = defaults a0 -> NoDup rs ->
  (forall r, In r rs -> head_is_any letters r = true /\ In r (map fst (comps (cur a0)))) ->
  exists l n', mc_components rs (a, n) = Some (with_prep a (cur a) (sets l) (map fst l), n') /\ needs_le n n' /\ incl (map fst l) rs /\ NoDup (map fst l) /\
    (forall r q d, In r rs -> comp_has a0 (cur a0) r q d -> known d -> exists w, In (r, VText w) l /\ formula (format_eng q) d w n') /\
    (forall r, (forall q d, comp_has a0 (cur a0) r q d -> ~ known d) -> ~ In r (map fst l)).
Proof.
  intros a0. induction rs as [|r rs IH]; intros a n H1 H2 H3 ND HR; cbn [mc_components].
  - exists [], n. split; [unfold with_prep; cbn; rewrite !app_nil_r; destruct a; reflexivity|]. split; [apply needs_refl|]. split; [intros x []|]. split; [constructor|]. split; [intros r q d []|intros r _ []].
  - inversion ND as [|? ? NI ND']; subst. destruct (HR r (or_introl eq_refl)) as (HH & HI). rewrite <- H1 in HI. apply aget_In in HI. destruct HI as (v & EV).
    assert (CE : forall x q d, comp_has a (cur a) x q d <-> comp_has a0 (cur a0) x q d) by (intros; unfold comp_has; rewrite H1, H2, H3; reflexivity).
    destruct (mc_component_cases a n r v HH EV) as [(E & NK)|(q & d & w & n1 & CH & K & E & L & F)]; rewrite E.
    + destruct (IH a n H1 H2 H3 ND' (fun x X => HR x (or_intror X))) as (l & n' & E' & L' & I' & N' & K' & U'). exists l, n'. split; [exact E'|]. split; [exact L'|]. split; [intros x X; right; apply I'; exact X|]. split; [exact N'|].
      split; [|exact U']. intros x q d [<-|X] C KD; [destruct (NK q d (proj2 (CE _ _ _) C) KD)|]. apply K'; assumption.
    + set (a1 := with_prep a (cur a) [ISetComp r (VText w)] [r]). destruct (IH a1 n1 H1 H2 H3 ND' (fun x X => HR x (or_intror X))) as (l & n' & E' & L' & I' & N' & K' & U').
      exists ((r, VText w) :: l), n'. split; [|split; [|split; [|split; [|split]]]].
      * rewrite E'. f_equal. f_equal. unfold a1, with_prep. cbn [orig cur instrs added defaults devices params elements prepared last_run map fst sets snd]. rewrite <- !app_assoc. reflexivity.
      * exact (needs_trans _ _ _ L L').
      * intros x [<-|X]; [left; reflexivity|right; apply I'; exact X].
      * cbn [map fst]. constructor; [|exact N']. intros X. apply NI, I', X.
      * intros x q' d' [<-|X] C KD.
        -- destruct (comp_has_unique _ _ _ _ _ _ _ (proj1 (CE _ _ _) CH) C) as (<- & <-). exists w. split; [left; reflexivity|]. exact (formula_le _ _ _ _ _ L' F).
        -- destruct (K' x q' d' X C KD) as (w' & W1 & W2). exists w'. split; [right; exact W1|exact W2].
      * intros x NX [<-|X]; [|exact (U' x NX X)]. exact (NX q d (proj1 (CE _ _ _) CH) K).
Qed.

(** The parameters. *)
Definition plain (v : value) : Prop := match v with VNum _ | VText _ => True | _ => False end.
Lemma mc_parameters_spec : forall a0 ps a n, (forall p, In p ps -> aget p (pars (cur a)) = aget p (pars (cur a0))) -> params a = params a0 -> NoDup ps ->
  (forall p, In p ps -> (exists v, aget p (pars (cur a0)) = Some v /\ plain v) /\ exists d, aget p (params a0) = Some d /\ dtyp d = DMinMax) ->
  exists l n', mc_parameters ps (a, n) = Some (with_prep a (put_pars l (cur a)) [] (map fst l), n') /\ needs_le n n' /\ map fst l = ps /\
    (forall p v d, In p ps -> aget p (pars (cur a0)) = Some v -> aget p (params a0) = Some d -> known d -> exists t w, value_text v = Some t /\ In (p, VText w) l /\ formula t d w n') /\
    (forall p v d, In p ps -> aget p (pars (cur a0)) = Some v -> aget p (params a0) = Some d -> ~ known d -> In (p, v) l).
Proof.
  intros a0. induction ps as [|p ps IH]; intros a n H1 H2 ND HR; cbn [mc_parameters].
  - exists [], n. split; [unfold with_prep; cbn; rewrite !app_nil_r; destruct a; reflexivity|]. split; [apply needs_refl|]. split; [reflexivity|]. split; [intros p v d []|intros p v d []].
  - inversion ND as [|? ? NI ND']; subst. destruct (HR p (or_introl eq_refl)) as ((v & EV & PV) & d & ED & HT).
    unfold mc_parameter at 1. unfold par_value_and_dev. rewrite (H1 p (or_introl eq_refl)), EV, H2, ED, HT. destruct (value_text v) as [t|] eqn:ET; [|destruct v; try discriminate ET; destruct PV].
    assert (STEP : exists w n1, (if String.eqb (ddist d) "uniform" then (VText (call_text "urng" [t; show_g ((dmax d + dmin d) / 2); show_g ((dmax d - dmin d) / 2)]), Needs (n_utol n) (n_ntol n) true (n_nrng n))
                else if String.eqb (ddist d) "normal" then (VText (call_text "nrng" [t; show_g ((dmax d + dmin d) / 2); show_g ((dmax d - dmin d) / 6)]), Needs (n_utol n) (n_ntol n) (n_urng n) true)
                else (v, n)) = (w, n1) /\ needs_le n n1 /\ (known d -> exists s, w = VText s /\ formula t d s n1) /\ (~ known d -> w = v)).
    { destruct (String.eqb_spec (ddist d) "uniform") as [U|U]; [|destruct (String.eqb_spec (ddist d) "normal") as [M|M]].
      - eexists. eexists. split; [reflexivity|]. split; [unfold needs_le; cbn; tauto|]. split; [|intros X; destruct X; left; exact U]. intros _. eexists. split; [reflexivity|]. unfold formula. rewrite HT. intros _. split; reflexivity.
      - eexists. eexists. split; [reflexivity|]. split; [unfold needs_le; cbn; tauto|]. split; [|intros X; destruct X; right; exact M]. intros _. eexists. split; [reflexivity|]. unfold formula. rewrite HT. intros X. congruence.
      - eexists. eexists. split; [reflexivity|]. split; [apply needs_refl|]. split; [intros [X|X]; congruence|reflexivity]. }
    destruct STEP as (w & n1 & EW & L & KW & UW). rewrite EW. fold (with_prep a (set_par p w (cur a)) [] [p]).
    match goal with |- exists l n', mc_parameters ps (?x, n1) = _ /\ _ => set (a1 := x) end.
    destruct (IH a1 n1) as (l & n' & E' & L' & M' & K' & U'); [|reflexivity|exact ND'|intros x X; apply HR; right; exact X|].
    { intros x X. cbn [a1 cur set_par pars]. rewrite aget_aset_other by (intros ->; contradiction). apply H1. right. exact X. }
    exists ((p, w) :: l), n'. split; [|split; [|split; [|split]]].
    + rewrite E'. f_equal. f_equal. unfold a1, with_prep. cbn [orig cur instrs added defaults devices params elements prepared last_run map fst]. rewrite H2, <- !app_assoc. reflexivity.
    + exact (needs_trans _ _ _ L L').
    + cbn [map fst]. rewrite M'. reflexivity.
    + intros x v' d' [<-|X] E1 E2 KD.
      * assert (v' = v) by congruence. assert (d' = d) by congruence. subst v' d'. destruct (KW KD) as (s & -> & F). exists t, s. split; [exact ET|]. split; [left; reflexivity|]. exact (formula_le _ _ _ _ _ L' F).
      * destruct (K' x v' d' X E1 E2 KD) as (t' & w' & W0 & W1 & W2). exists t', w'. split; [exact W0|]. split; [right; exact W1|exact W2].
    + intros x v' d' [<-|X] E1 E2 KD; [|right; apply (U' x v' d' X E1 E2 KD)]. assert (v' = v) by congruence. assert (d' = d) by congruence. subst v' d'. left. rewrite (UW KD). reflexivity.
Qed.

(** ** What the formulas mean *)
Lemma s2l_l2s' : forall x, s2l (l2s x) = x.
Proof. intros x. unfold s2l, l2s. apply list_ascii_of_string_of_list_ascii. Qed.
Lemma call2 : forall f x y, fcall2 f x y (call_text f [x; y]).
Proof. intros f x y. unfold fcall2, call_text. rewrite s2l_l2s'. cbn [commas]. rewrite <- app_assoc. reflexivity. Qed.
Lemma call3 : forall f x y z, fcall3 f x y z (call_text f [x; y; z]).
Proof. intros f x y z. unfold fcall3, call_text. rewrite s2l_l2s'. cbn [commas]. rewrite <- app_assoc. cbn [app]. rewrite <- app_assoc. reflexivity. Qed.
Lemma reads_g : forall v, six_digits v -> reads (show_g v) v.
Proof. intros v S. destruct (show_g_ok v) as (r & E & _ & X & _). exists r. auto. Qed.
Lemma reads_eng : forall v, six_digits v -> reads (format_eng v) v.
Proof. intros v S. destruct (format_parse v) as (r & E & _ & X). exists r. auto. Qed.
Definition is_lt (s : simulator) : bool := match s with LTspice => true | _ => false end.
Lemma formula_means : forall sim n fs pre post q d s, functions sim n = Some fs -> formula (format_eng q) d s n -> covered (is_lt sim) d -> short q d ->
  forall run w g, exists x, means (pre ++ fs ++ post) run w g s x /\ (x == deviated d q run w g)%Q.
Proof.
  intros sim n fs pre post q d s EF F (KN & CV) (SQ & ST & SM) run w g. assert (IN : forall f, In f fs -> In f (pre ++ fs ++ post)) by (intros f X; apply in_app_iff; right; apply in_app_iff; left; exact X).
  unfold deviated, low, high, formula in *. destruct CV as [T|(T & U & LT)]; rewrite T in *.
  - destruct (ST eq_refl) as (S6 & SB). destruct F as (FU & FN). destruct KN as [U|U].
    + destruct (FU U) as (-> & N). rewrite U. cbn [String.eqb Ascii.eqb Bool.eqb]. rewrite tol_text_ok by exact SB. eexists. split.
      * eapply M_utol; [|apply call2|apply reads_eng; exact SQ|apply reads_g; exact S6]. destruct sim; [left|right|discriminate EF]; apply IN; injection EF as <-; rewrite N; left; reflexivity.
      * destruct (run <? 0)%Z; [reflexivity|]. field.
    + destruct (FN U) as (-> & N). rewrite U. change (String.eqb "normal" "uniform") with false. cbv iota. rewrite tol_text_ok by exact SB. eexists. split.
      * eapply M_ntol; [|apply call2|apply reads_eng; exact SQ|apply reads_g; exact S6]. destruct sim; [left|right|discriminate EF]; apply IN; injection EF as <-; rewrite N; apply in_app_iff; right; left; reflexivity.
      * destruct (run <? 0)%Z; [reflexivity|]. field.
  - destruct (SM eq_refl) as (S1 & S2). destruct (F U) as (-> & N). rewrite U. cbn [String.eqb Ascii.eqb Bool.eqb]. eexists. split.
    + eapply M_urng; [|apply call3|apply reads_eng; exact SQ|apply reads_g; exact S1|apply reads_g; exact S2]. destruct sim; [|discriminate LT..]. apply IN. injection EF as <-. rewrite N. rewrite !in_app_iff. right. right. left. left. reflexivity.
    + destruct (run <? 0)%Z; [reflexivity|]. field.
Qed.
Lemma functions_func : forall sim n fs, functions sim n = Some fs -> Forall (fun f => exists t, f = ".func " ++ t)%string fs.
Proof.
  intros sim n fs E. destruct sim; [injection E as <-|injection E as <-|discriminate E]; destruct (n_utol n), (n_ntol n), (n_urng n), (n_nrng n); cbn [app]; repeat (apply Forall_cons; [eexists; reflexivity|]); apply Forall_nil.
Qed.
Lemma add_dirs : forall fs e, fold_left (fun e f => add_dir f e) fs e = Ed (comps e) (pars e) (dirs e ++ fs).
Proof. induction fs as [|f fs IH]; intros e; cbn [fold_left]; [rewrite app_nil_r; destruct e; reflexivity|]. rewrite IH. cbn [add_dir comps pars dirs]. rewrite <- app_assoc. reflexivity. Qed.

Lemma mc_bench_runs : forall e a sim N limit, setup e a -> NoDup (map fst (comps e)) -> instrs a = [] -> (sim = LTspice \/ sim = Qspice) -> (-1 <= N)%Z -> (1 <= limit)%Z ->
  (forall p, In p (map fst (params a)) -> p <> "run" /\ exists v, aget p (pars e) = Some v /\ plain v) -> (forall lo hi, ~ In (step_dir lo hi) (dirs e)) ->
  exists a1 nets bs, mc_prepare sim (Some N) a = Some a1 /\ mc_testbench sim limit a1 = Some nets /\ batches N limit = Some bs /\ flat_map batch_runs bs = all_runs N /\
    Forall2 (fun b s => mc_bench a e (is_lt sim) (fst b) (snd b) s) bs nets.
Proof.
  intros e a sim N limit HS ND HI HSIM HN HL HP HD. pose proof (setup_ok e a HS) as O. unfold mc_prepare. cbv zeta.
  set (a0 := Ana (orig a) (cur a) (instrs a) (added a) (defaults a) (devices a) (params a) [] (prepared a) (last_run a)).
  assert (EC : cur a0 = e) by exact (o_cur e a O).
  assert (AR : forall r, In r (all_refs a0) <-> head_is_any letters r = true /\ In r (map fst (comps e))) by (intros r; unfold all_refs; rewrite EC, filter_In; tauto).
  destruct (mc_components_spec a0 (all_refs a0) a0 (Needs false false false false)) as (l & n1 & E1 & L1 & I1 & N1 & K1 & U1); try reflexivity.
  { unfold all_refs. rewrite EC. apply NoDup_filter. exact ND. }
  { intros r R. rewrite EC. apply AR. exact R. }
  rewrite E1. cbn [fst]. change (params (with_prep a0 (cur a0) (sets l) (map fst l))) with (params a).
  destruct (mc_parameters_spec a0 (map fst (params a)) (with_prep a0 (cur a0) (sets l) (map fst l)) n1) as (lp & n2 & E2 & L2 & M2 & K2 & U2); try reflexivity.
  { exact (o_pnd e a O). }
  { intros p P. rewrite EC. split; [apply HP; exact P|]. apply aget_In in P. destruct P as (d & D). exists d. split; [exact D|exact (o_mm _ _ O _ _ D)]. }
  rewrite E2. destruct (functions sim n2) as [fs|] eqn:EF; [|destruct HSIM; subst sim; discriminate EF]. rewrite add_dirs.
  cbn [with_prep cur orig instrs added defaults devices params elements prepared last_run number_of_runs]. unfold a0 at 1 2 3 4 5 6 7 8 9. 
  eexists. 
  assert (BS := batches_spec N limit ltac:(lia) HL). destruct BS as (r & bs & EB & EBS & BR & _).
  assert (CV : flat_map batch_runs bs = all_runs N) by (rewrite EBS; apply batches_cover; lia).
  set (ep := put_pars lp e). destruct (put_pars_comps lp e) as (PC & PD). fold ep in PC, PD.
  set (eb := set_par "run" (VNum (inject_Z (-1))) (add_dir (step_dir (-1) N) (Ed (comps ep) (pars ep) (dirs ep ++ fs)))).
  destruct (play_sets l eb) as (e2 & EPl & PP & DD & IN & OUT & KEYS).
  { intros x X. cbn [eb set_par add_dir comps]. rewrite PC. apply (AR x). apply I1. exact X. }
  { exact N1. }
  assert (FF := functions_func sim n2 fs EF).
  assert (NS : forall lo hi, ~ In (step_dir lo hi) (dirs e ++ fs)).
  { intros lo hi X. apply in_app_iff in X. destruct X as [X|X]; [exact (HD lo hi X)|]. rewrite Forall_forall in FF. destruct (FF _ X) as (t & T). unfold step_dir in T. discriminate T. }
  assert (HR : rem_dir (step_dir (-1) N) e2 = Ed (comps e2) (pars e2) (dirs e ++ fs)).
  { unfold rem_dir. rewrite DD. cbn [eb set_par add_dir dirs]. rewrite PD. rewrite drop_first_app by apply NS. rewrite app_nil_r. reflexivity. }
  exists (run_batches bs (Ed (comps e2) (pars e2) (dirs e ++ fs))), bs. split; [reflexivity|]. split; [|split; [exact EB|split; [exact CV|]]].
  - unfold mc_testbench, play. cbn [prepared added instrs cur orig defaults devices params elements last_run]. change (added a0) with (added a). change (instrs a0) with (instrs a). rewrite (o_added e a O), HI. cbn [app]. rewrite app_nil_r.
    change (cur a0) with (cur a). rewrite (o_cur e a O). fold ep. fold eb. rewrite EPl. cbn [last_run cur]. rewrite EB, HR. reflexivity.
  - assert (HF := run_batches_spec bs (Ed (comps e2) (pars e2) (dirs e ++ fs)) (fun b _ => NS (fst b) (snd b))). cbn [comps pars dirs] in HF.
    assert (HTB : forall lo hi, mc_bench a e (is_lt sim) lo hi (Ed (comps e2) (pars e2) ((dirs e ++ fs) ++ [step_dir lo hi]))).
    2:{ clear -HF HTB. induction HF as [|b s bs ss Hb HF IH]; constructor; [subst s; apply HTB|exact IH]. }
    intros lo hi. rewrite <- app_assoc. split; [|split; [|split; [|split; [|split; [|split]]]]]; cbn [comps pars dirs].
    + intros x q d C CVR SH. assert (CX := C). destruct CX as (C1 & _ & C3 & _). destruct (K1 x q d) as (w & W1 & W2); [apply AR; split; [exact C3|apply aget_In; eauto]|unfold comp_has in *; rewrite EC; exact C|exact (proj1 CVR)|].
      exists w. split; [apply IN; exact W1|]. eapply formula_means; [exact EF|exact (formula_le _ _ _ _ _ L2 W2)|exact CVR|exact SH].
    + intros p q d D V CVR SH. assert (P : In p (map fst (params a))) by (apply aget_In; eauto). destruct (K2 p (VNum q) d P) as (t & w & W0 & W1 & W2); [rewrite EC; exact V|exact D|exact (proj1 CVR)|].
      injection W0 as <-. exists w. split; [|eapply formula_means; [exact EF|exact W2|exact CVR|exact SH]]. rewrite PP. cbn [eb set_par pars add_dir]. rewrite aget_aset_other by exact (proj1 (HP p P)). apply put_pars_in; [rewrite M2; exact (o_pnd e a O)|exact W1].
    + intros x X. rewrite OUT; [cbn [eb set_par add_dir comps]; rewrite PC; reflexivity|]. apply U1. intros q d C. apply (X q). unfold comp_has in *. rewrite EC in C. exact C.
    + intros p NR X. rewrite PP. cbn [eb set_par pars add_dir]. rewrite aget_aset_other by exact NR. destruct (in_dec string_dec p (map fst (params a))) as [P|P].
      * assert (P' := P). apply aget_In in P'. destruct P' as (d & D). destruct (HP p P) as (_ & v & V & _). rewrite V. apply put_pars_in; [rewrite M2; exact (o_pnd e a O)|]. apply (U2 p v d P); [rewrite EC; exact V|exact D|apply X; exact D].
      * apply put_pars_other. rewrite M2. exact P.
    + rewrite PP. cbn [eb set_par pars]. apply aget_aset_same.
    + rewrite KEYS. cbn [eb set_par add_dir comps]. rewrite PC. reflexivity.
    + exists fs. split; [reflexivity|exact FF].
Qed.
