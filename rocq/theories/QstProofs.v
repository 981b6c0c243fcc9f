(** The test bench of the quick sensitivity analysis. *)
From Coq Require Import String Ascii List Bool Arith ZArith QArith Qabs Lia Lqa Qpower.
From Verif Require Import PyStr EngModel EngSpec EngProofs TolModel TolSpec TolBatch TolCorner TolCollect TolRuns TolBench McModel McSpec McG McRun McBench QstModel QstSpec.
Import ListNotations.
Local Open Scope string_scope. Local Open Scope nat_scope. Local Open Scope list_scope.

Definition sform (use_min : bool) (q : Q) (d : dev) (k : nat) : string :=
  match dtyp d with
  | DTol => call_text "satol" [format_eng q; show_g (dmin d); dec k]
  | _ => call_text "sammx" [format_eng q; show_g (if use_min then dmin d else dmax d); dec k]
  end.
Lemma has_cases : forall a r v, head_is_any letters r = true -> aget r (comps (cur a)) = Some v ->
  exists d, value_and_dev a r = Some (v, d) /\ ((exists q, v = VNum q /\ comp_has a (cur a) r q d) \/ (dtyp d = DNone /\ forall q d', ~ comp_has a (cur a) r q d')).
Proof. intros a r v H E. exact (value_dev_cases a r v H E). Qed.

Lemma qst_components_spec : forall um a0 rs a no, comps (cur a) = comps (cur a0) -> devices a = devices a0 -> defaults a = defaults a0 -> NoDup rs ->
  (forall r, In r rs -> head_is_any letters r = true /\ In r (map fst (comps (cur a0)))) ->
  exists l, qst_components um rs (a, no) = Some (with_prep a (cur a) (sets l) (map fst l), no + length l) /\ NoDup (map fst l) /\
    (forall r, In r (map fst l) <-> In r rs /\ exists q d, comp_has a0 (cur a0) r q d) /\
    (forall k r q d, nth_error (map fst l) k = Some r -> comp_has a0 (cur a0) r q d -> In (r, VText (sform um q d (no + k))) l).
Proof.
  intros um a0. induction rs as [|r rs IH]; intros a no H1 H2 H3 ND HR; cbn [qst_components].
  - exists []. split; [unfold with_prep; cbn; rewrite !app_nil_r, Nat.add_0_r; destruct a; reflexivity|]. split; [constructor|]. split; [intros r; cbn; tauto|]. intros [|k] r q d E; discriminate E.
  - inversion ND as [|? ? NI ND']; subst. destruct (HR r (or_introl eq_refl)) as (HH & HI). rewrite <- H1 in HI. apply aget_In in HI. destruct HI as (v & EV).
    assert (CE : forall x q d, comp_has a (cur a) x q d <-> comp_has a0 (cur a0) x q d) by (intros; unfold comp_has; rewrite H1, H2, H3; reflexivity).
    destruct (has_cases a r v HH EV) as (d & ED & CASES). unfold qst_component at 1. rewrite ED.
    destruct CASES as [(q & -> & CH)|(T & CN)].
    + assert (TN : dtyp d <> DNone) by apply CH. cbn [value_text].
      set (a1 := with_prep a (cur a) [ISetComp r (VText (sform um q d no))] [r]).
      assert (EQ : match dtyp d with DNone => Some (a, no) | _ => let w := match dtyp d with DTol => call_text "satol" [format_eng q; show_g (dmin d); dec no] | _ => call_text "sammx" [format_eng q; show_g (if um then dmin d else dmax d); dec no] end in
          let a1 := record (ISetComp r (VText w)) a in Some (Ana (orig a1) (cur a1) (instrs a1) (added a1) (defaults a1) (devices a1) (params a1) (elements a1 ++ [r]) (prepared a1) (last_run a1), S no) end = Some (a1, S no)).
      { unfold a1, sform, with_prep, record. destruct (dtyp d); [reflexivity|reflexivity|contradiction]. }
      cbv zeta in EQ |- *. rewrite EQ. destruct (IH a1 (S no) H1 H2 H3 ND' (fun x X => HR x (or_intror X))) as (l & E' & N' & I' & K'). exists ((r, VText (sform um q d no)) :: l). split; [|split; [|split]].
      * rewrite E'. cbn [length]. rewrite <- Nat.add_succ_comm. f_equal. f_equal. unfold a1, with_prep. cbn [orig cur instrs added defaults devices params elements prepared last_run map fst sets snd]. rewrite <- !app_assoc. reflexivity.
      * cbn [map fst]. constructor; [|exact N']. intros X. apply NI. apply I' in X. tauto.
      * intros x. cbn [map fst]. split.
        -- intros [<-|X]; [split; [left; reflexivity|]; exists q, d; apply CE; exact CH|]. apply I' in X. split; [right; tauto|tauto].
        -- intros ([<-|X] & Y); [left; reflexivity|]. right. apply I'. tauto.
      * intros [|k] x q' d' E C; cbn [map fst nth_error] in E.
        -- injection E as <-. destruct (comp_has_unique _ _ _ _ _ _ _ (proj1 (CE _ _ _) CH) C) as (<- & <-). rewrite Nat.add_0_r. left. reflexivity.
        -- right. rewrite <- Nat.add_succ_comm. apply K'; assumption.
    + rewrite T. destruct (IH a no H1 H2 H3 ND' (fun x X => HR x (or_intror X))) as (l & E' & N' & I' & K'). exists l. split; [exact E'|]. split; [exact N'|]. split; [|exact K'].
      intros x. rewrite I'. split; [intros (X & Y); split; [right; exact X|exact Y]|]. intros ([<-|X] & q & d' & C); [destruct (CN q d' (proj2 (CE _ _ _) C))|]. split; [exact X|]. exists q, d'. exact C.
Qed.

Lemma reads_dec : forall k, reads (dec k) (inject_Z (Z.of_nat k)).
Proof.
  intros k. destruct (dec_digits k) as (D & N & NE). destruct (parse_suffix false (dec k) [] [] 0%Z NE) as (r & E & V); [rewrite app_nil_r; exact D|left; reflexivity|].
  unfold sg, dec_text in E. cbn [app] in E. rewrite !app_nil_r in E. exists r. split; [exact E|]. rewrite V. unfold sgn, dec_value. cbn [length]. rewrite app_nil_r, N. change (Qpower 10 (- Z.of_nat 0)) with 1%Q. change (Qpower 10 0) with 1%Q. ring.
Qed.
Lemma eq_run : forall run k, Qeq_bool (inject_Z run) (inject_Z (Z.of_nat k)) = Z.eqb run (Z.of_nat k).
Proof.
  intros run k. destruct (Z.eqb_spec run (Z.of_nat k)) as [->|N]; [apply Qeq_bool_iff; reflexivity|]. apply not_true_iff_false. intros E. apply Qeq_bool_iff in E. apply N. apply inject_Z_injective. exact E.
Qed.
Lemma sform_means : forall um q d k defs, dtyp d <> DNone -> six um q d -> In (func_satol um) defs -> ~ In (func_satol (negb um)) defs -> In func_sammx defs ->
  forall run, exists x, smeans defs run (sform um q d k) x /\ (x == if Z.eqb run (Z.of_nat k) then if um then low q d else high q d else q)%Q.
Proof.
  intros um q d k defs T (SQ & ST & SM) I1 I2 I3 run. unfold sform, low, high. destruct (dtyp d); [| |contradiction].
  - destruct um.
    + eexists. split; [eapply S_minus; [exact I1|exact I2|apply call3|apply reads_eng; exact SQ|apply reads_g; apply ST; reflexivity|apply reads_dec]|]. rewrite eq_run. destruct (Z.eqb run (Z.of_nat k)); ring.
    + eexists. split; [eapply S_plus; [exact I1|exact I2|apply call3|apply reads_eng; exact SQ|apply reads_g; apply ST; reflexivity|apply reads_dec]|]. rewrite eq_run. destruct (Z.eqb run (Z.of_nat k)); ring.
  - eexists. split; [eapply S_mmx; [exact I3|apply call3|apply reads_eng; exact SQ|apply reads_g; apply SM; reflexivity|apply reads_dec]|]. rewrite eq_run. destruct (Z.eqb run (Z.of_nat k)); [destruct um; reflexivity|reflexivity].
Qed.

Lemma qst_runs : forall um e a limit, setup e a -> NoDup (map fst (comps e)) -> instrs a = [] -> (1 <= limit)%Z ->
  (forall lo hi, ~ In (step_dir lo hi) (dirs e)) -> (forall b, ~ In (func_satol b) (dirs e)) ->
  exists a1 nets bs, qst_prepare um a = Some a1 /\ qst_testbench limit a1 = Some nets /\ flat_map batch_runs bs = all_runs (Z.of_nat (length (elements a1)) - 1) /\
    NoDup (elements a1) /\ (forall r, In r (elements a1) <-> exists q d, comp_has a e r q d) /\
    Forall2 (fun b s => one_at_a_time um a (elements a1) e (fst b) (snd b) s) bs nets.
Proof.
  intros um e a limit HS ND HI HL HD HF. pose proof (setup_ok e a HS) as O. unfold qst_prepare. cbv zeta.
  set (a0 := Ana (orig a) (cur a) (instrs a) (added a) (defaults a) (devices a) (params a) [] (prepared a) (last_run a)).
  assert (EC : cur a0 = e) by exact (o_cur e a O).
  assert (AR : forall r, In r (all_refs a0) <-> head_is_any letters r = true /\ In r (map fst (comps e))) by (intros r; unfold all_refs; rewrite EC, filter_In; tauto).
  destruct (qst_components_spec um a0 (all_refs a0) a0 0) as (l & E1 & N1 & I1 & K1); try reflexivity.
  { unfold all_refs. rewrite EC. apply NoDup_filter. exact ND. }
  { intros r R. rewrite EC. apply AR. exact R. }
  rewrite E1. cbn [with_prep cur orig instrs added defaults devices params elements prepared last_run app Nat.add].
  set (N := (Z.of_nat (length l) - 1)%Z). change (instrs a0) with (instrs a). change (cur a0) with (cur a). change (added a0) with (added a). change (elements a0) with (@nil string). cbn [app].
  change (orig a0) with (orig a). change (defaults a0) with (defaults a). change (devices a0) with (devices a). change (params a0) with (params a). rewrite (o_added e a O), HI. cbn [app]. rewrite (o_cur e a O). rewrite EC in I1, K1.
  assert (HN : (-1 <= N)%Z) by (unfold N; lia).
  set (eb := set_par "run" (VNum (inject_Z (-1))) (add_dir (step_dir (-1) N) (add_dir func_sammx (add_dir (func_satol um) e)))).
  set (a1 := Ana (orig a) eb (sets l) false (defaults a) (devices a) (params a) (map fst l) true N).
  destruct (batches_spec N limit ltac:(lia) HL) as (r0 & bs & EB & EBS & BR & _).
  assert (CV : flat_map batch_runs bs = all_runs N) by (rewrite EBS; apply batches_cover; lia).
  destruct (play_sets l eb) as (e2 & EPl & PP & DD & IN & OUT & KEYS).
  { intros x X. cbn [eb set_par add_dir comps]. apply I1 in X. apply (AR x). exact (proj1 X). }
  { exact N1. }
  set (fs := [func_satol um; func_sammx]).
  assert (NS : forall lo hi, ~ In (step_dir lo hi) (dirs e ++ fs)).
  { intros lo hi X. apply in_app_iff in X. destruct X as [X|X]; [exact (HD lo hi X)|]. cbn [fs In] in X. unfold step_dir, func_satol, func_sammx in X. destruct um, X as [X|[X|[]]]; discriminate X. }
  assert (HR : rem_dir (step_dir (-1) N) e2 = Ed (comps e2) (pars e2) (dirs e ++ fs)).
  { unfold rem_dir. rewrite DD. cbn [eb set_par add_dir dirs]. rewrite <- !app_assoc. cbn [app]. change (dirs e ++ [func_satol um; func_sammx; step_dir (-1) N]) with (dirs e ++ fs ++ [step_dir (-1) N]). rewrite app_assoc. rewrite drop_first_app by apply NS. rewrite app_nil_r. reflexivity. }
  exists a1, (run_batches bs (Ed (comps e2) (pars e2) (dirs e ++ fs))), bs. split; [reflexivity|]. split; [|split; [|split; [exact N1|split]]].
  - unfold qst_testbench, play. cbn [a1 prepared added instrs cur orig defaults devices params elements last_run]. rewrite EPl. cbn [last_run cur]. rewrite EB, HR. reflexivity.
  - rewrite CV. cbn [a1 elements]. rewrite map_length. reflexivity.
  - intros r. cbn [a1 elements]. rewrite I1. split; [intros (_ & X); exact X|]. intros (q & d & C). split; [|exists q, d; exact C]. apply AR. split; [apply C|]. apply aget_In. destruct C as (C & _). eauto.
  - assert (HFF := run_batches_spec bs (Ed (comps e2) (pars e2) (dirs e ++ fs)) (fun b _ => NS (fst b) (snd b))). cbn [comps pars dirs] in HFF.
    assert (HTB : forall lo hi, one_at_a_time um a (map fst l) e lo hi (Ed (comps e2) (pars e2) ((dirs e ++ fs) ++ [step_dir lo hi]))).
    2:{ clear -HFF HTB. cbn [a1 elements]. induction HFF as [|b s bs ss Hb HF IH]; constructor; [subst s; apply HTB|exact IH]. }
    intros lo hi. rewrite <- app_assoc. split; [|split; [|split; [|split; [|split]]]]; cbn [comps pars dirs].
    + intros k r q d E C SX. exists (sform um q d k). split; [apply IN; exact (K1 k r q d E C)|]. apply sform_means; [apply C|exact SX| | |].
      * apply in_app_iff. right. left. reflexivity.
      * rewrite !in_app_iff. intros [X|[X|X]]; [exact (HF _ X)| |]; cbn [fs In] in X; [destruct um, X as [X|[X|[]]]; discriminate X|]. destruct um, X as [X|[]]; discriminate X.
      * apply in_app_iff. right. right. left. reflexivity.
    + intros r X. rewrite OUT by exact X. reflexivity.
    + intros p NR. rewrite PP. cbn [eb set_par pars add_dir]. rewrite aget_aset_other by exact NR. reflexivity.
    + rewrite PP. cbn [eb set_par pars]. apply aget_aset_same.
    + rewrite KEYS. reflexivity.
    + exists fs. split; [reflexivity|]. unfold fs, func_satol, func_sammx. destruct um; repeat (apply Forall_cons; [eexists; reflexivity|]); apply Forall_nil.
Qed.
