(** Montecarlo.run_analysis. *)
From Coq Require Import String Ascii List Bool Arith ZArith QArith Qabs Lia Lqa.
From Verif Require Import PyStr EngModel EngSpec EngProofs TolModel TolSpec TolCorner TolCollect McModel McSpec McG.
Import ListNotations.
Local Open Scope string_scope. Local Open Scope nat_scope. Local Open Scope list_scope.

Lemma written_ok : forall v, rounded (written v) v /\ (forall h, six_digits h -> (v <= h)%Q -> (written v <= h)%Q) /\ (forall l, six_digits l -> (l <= v)%Q -> (l <= written v)%Q).
Proof.
  intros v. destruct (show_g_ok v) as (r & E & A & B & C & D). unfold written, scan_eng. rewrite E. cbn [option_map fst]. split; [split; assumption|]. split; assumption.
Qed.
Lemma close_eq : forall x y z, (y == z)%Q -> rounded x y -> rounded x z.
Proof.
  intros x y z E (A & B). split; [unfold close in *; rewrite <- E; exact A|]. intros (n & e & H & K). rewrite <- E. apply B. exists n, e. split; [exact H|]. rewrite E. exact K.
Qed.
Lemma drawn_ok : forall d q u g, (0 <= u <= 1)%Q -> dtyp d <> DNone -> known d ->
  exists x, get_sim_value u g (VNum q) d = Some (Some (VNum x)) /\ drawn d q u g x.
Proof.
  intros d q u g U T K. unfold get_sim_value, drawn, low, high.
  assert (BB : forall l h y, (y == l + (h - l) * u)%Q -> (six_digits l -> six_digits h -> between l h (written y))).
  { intros l h y Y L H. destruct (written_ok y) as (_ & A & B). unfold between. destruct (Qlt_le_dec h l) as [C|C]; [right|left]; split; (apply A || apply B); try assumption; nra. }
  destruct (dtyp d); [| |contradiction T; reflexivity].
  - destruct K as [K|K]; rewrite K; cbn [String.eqb Ascii.eqb Bool.eqb]; eexists; (split; [reflexivity|]); split; try discriminate; intros _.
    + split; [apply written_ok|]. apply BB. reflexivity.
    + eapply close_eq; [|apply written_ok]. field.
  - destruct K as [K|K]; rewrite K; cbn [String.eqb Ascii.eqb Bool.eqb]; eexists; (split; [reflexivity|]); split; try discriminate; intros _.
    + split; [apply written_ok|]. apply BB. reflexivity.
    + eapply close_eq; [|apply written_ok]. field.
Qed.
Lemma drawn_par : forall d v u g, (0 <= u <= 1)%Q -> dtyp d = DMinMax -> known d -> exists x, get_sim_value u g v d = Some (Some (VNum x)) /\ drawn d 0 u g x.
Proof.
  intros d v u g U T K. destruct (drawn_ok d 0 u g U) as (x & E & D); [rewrite T; discriminate|exact K|]. exists x. split; [|exact D]. rewrite <- E. unfold get_sim_value. rewrite T. reflexivity.
Qed.
Lemma unknown_same : forall d v u g, ~ known d -> get_sim_value u g v d = Some None.
Proof.
  intros d v u g K. unfold get_sim_value, known in *. destruct (String.eqb_spec (ddist d) "uniform"); [tauto|]. destruct (String.eqb_spec (ddist d) "normal"); [tauto|]. destruct (dtyp d); reflexivity.
Qed.
Lemma known_dec : forall d, known d \/ ~ known d.
Proof. intros d. unfold known. destruct (string_dec (ddist d) "uniform"); [tauto|]. destruct (string_dec (ddist d) "normal"); [tauto|]. right. intuition. Qed.

(** What value_and_dev gives. *)
Lemma value_dev_cases : forall a r v, head_is_any letters r = true -> aget r (comps (cur a)) = Some v ->
  exists d, value_and_dev a r = Some (v, d) /\ ((exists q, v = VNum q /\ comp_has a (cur a) r q d) \/ (dtyp d = DNone /\ forall q d', ~ comp_has a (cur a) r q d')).
Proof.
  intros a r v H E. unfold value_and_dev. rewrite H, E. cbn [negb]. destruct v as [q|s|x t i|x l h i].
  2-4: exists no_dev; split; [reflexivity|]; right; (split; [reflexivity|]); intros q d (X & _); congruence.
  eexists. split; [reflexivity|]. unfold comp_has. rewrite E. destruct (aget r (devices a)) as [d|] eqn:ED.
  - destruct (dtyp d) eqn:ET; [left; exists q; split; [reflexivity|]; split; [reflexivity|]; split; [congruence|]; auto..|].
    right. split; [reflexivity|]. intros q' d' (_ & T & _ & [X|(X & _)]); [|congruence]. injection X as <-. congruence.
  - destruct (aget (letter_of r) (defaults a)) as [d|] eqn:EL.
    + destruct (dtyp d) eqn:ET; [left; exists q; split; [reflexivity|]; split; [reflexivity|]; split; [congruence|]; auto..|].
      right. split; [reflexivity|]. intros q' d' (_ & T & _ & [X|(_ & X)]); [congruence|]. injection X as <-. congruence.
    + right. split; [reflexivity|]. intros q' d' (_ & T & _ & [X|(_ & X)]); congruence.
Qed.
Lemma comp_has_unique : forall a n r q d q' d', comp_has a n r q d -> comp_has a n r q' d' -> q = q' /\ d = d'.
Proof.
  intros a n r q d q' d' (A & _ & _ & B) (A' & _ & _ & B'). split; [congruence|]. destruct B as [B|(B1 & B)], B' as [B'|(B1' & B')]; congruence.
Qed.
Definition settings (a b : ana) : Prop := same_analysis a b.
Lemma settings_refl : forall a, settings a a. Proof. intros a. repeat split. Qed.
Lemma settings_trans : forall a b c, settings a b -> settings b c -> settings a c.
Proof. intros a b c (A & B & C & D & E) (A' & B' & C' & D' & E'). unfold settings, same_analysis. repeat split; congruence. Qed.
Lemma comp_has_settings : forall a b n r q d, settings a b -> comp_has a n r q d -> comp_has b n r q d.
Proof. intros a b n r q d (A & B & C & D & E) (X & Y & Z & W). unfold comp_has. rewrite <- C, <- D. auto. Qed.

Lemma vary_components_spec : forall uni gau rs a, (forall k r, (0 <= uni k r <= 1)%Q) -> NoDup rs ->
  (forall r, In r rs -> head_is_any letters r = true /\ In r (map fst (comps (cur a)))) ->
  exists a', vary_components uni gau rs a = Some a' /\ settings a' a /\ pars (cur a') = pars (cur a) /\ dirs (cur a') = dirs (cur a) /\
    map fst (comps (cur a')) = map fst (comps (cur a)) /\
    (forall r, ~ In r rs -> aget r (comps (cur a')) = aget r (comps (cur a))) /\
    (forall r, In r rs -> (forall q d, comp_has a (cur a) r q d -> ~ known d) -> aget r (comps (cur a')) = aget r (comps (cur a))) /\
    (forall r q d, In r rs -> comp_has a (cur a) r q d -> known d -> exists x, aget r (comps (cur a')) = Some (VNum x) /\ drawn d q (uni KComp r) (gau KComp r) x).
Proof.
  intros uni gau rs. induction rs as [|r rs IH]; intros a HU ND HR.
  - exists a. split; [reflexivity|]. split; [apply settings_refl|]. do 3 (split; [reflexivity|]). split; [reflexivity|]. split; [intros r []|intros r q d []].
  - inversion ND as [|? ? NI ND']; subst. cbn [vary_components]. destruct (HR r (or_introl eq_refl)) as (HH & HI). apply aget_In in HI. destruct HI as (v & EV).
    destruct (value_dev_cases a r v HH EV) as (d & ED & CD). rewrite ED.
    assert (CASES : (get_sim_value (uni KComp r) (gau KComp r) v d = Some None /\ forall q d', comp_has a (cur a) r q d' -> ~ known d') \/
                    (exists q x, comp_has a (cur a) r q d /\ get_sim_value (uni KComp r) (gau KComp r) v d = Some (Some (VNum x)) /\ drawn d q (uni KComp r) (gau KComp r) x)).
    { destruct CD as [(q & -> & CH)|(T & CN)].
      - destruct (known_dec d) as [K|K].
        + right. destruct (drawn_ok d q (uni KComp r) (gau KComp r) (HU KComp r) (proj1 (proj2 CH)) K) as (x & E & D). exists q, x. auto.
        + left. split; [apply unknown_same; exact K|]. intros q' d' CH'. destruct (comp_has_unique _ _ _ _ _ _ _ CH CH') as (_ & <-). exact K.
      - left. split; [unfold get_sim_value; rewrite T; reflexivity|]. intros q' d' CH'. destruct (CN _ _ CH'). }
    destruct CASES as [(G & NK)|(q & x & CH & G & DR)]; rewrite G.
    + destruct (IH a HU ND') as (a' & E & S & P & D & M & O & U & K); [intros y Y; apply HR; right; exact Y|]. exists a'. split; [exact E|]. split; [exact S|]. split; [exact P|]. split; [exact D|]. split; [exact M|].
      split; [intros y Y; apply O; intros Z; apply Y; right; exact Z|]. split.
      * intros y [<-|Y] N; [apply O; exact NI|]. apply U; assumption.
      * intros y q' d' [<-|Y] C K'; [destruct (NK _ _ C K')|]. apply K; assumption.
    + unfold set_comp. rewrite EV. set (a1 := with_cur (Ed (aset r (VNum x) (comps (cur a))) (pars (cur a)) (dirs (cur a))) a).
      assert (M1 : map fst (comps (cur a1)) = map fst (comps (cur a))) by (apply aset_keys_same; apply aget_In; eauto).
      assert (O1 : forall y, y <> r -> aget y (comps (cur a1)) = aget y (comps (cur a))) by (intros y Y; apply aget_aset_other; exact Y).
      assert (CH1 : forall y q' d', y <> r -> comp_has a1 (cur a1) y q' d' <-> comp_has a (cur a) y q' d') by (intros y q' d' Y; unfold comp_has; rewrite (O1 y Y); reflexivity).
      destruct (IH a1 HU ND') as (a' & E & S & P & D & M & O & U & K); [intros y Y; rewrite M1; apply HR; right; exact Y|]. exists a'. split; [exact E|]. split; [exact (settings_trans _ _ _ S (settings_refl a))|].
      split; [exact P|]. split; [exact D|]. split; [rewrite M; exact M1|].
      split; [intros y Y; rewrite O; [apply O1; intros ->; apply Y; left; reflexivity|intros Z; apply Y; right; exact Z]|]. split.
      * intros y [<-|Y] N; [|assert (y <> r) by (intros ->; contradiction); rewrite U; [apply O1; assumption|exact Y|intros q' d' C; apply N with q'; apply CH1; assumption]].
        destruct (known_dec d) as [K'|K']; [destruct (N _ _ CH K')|]. rewrite (unknown_same d v _ _ K') in G. discriminate G.
      * intros y q' d' [<-|Y] C K'.
        -- destruct (comp_has_unique _ _ _ _ _ _ _ CH C) as (-> & <-). exists x. split; [|exact DR]. rewrite O by exact NI. apply aget_aset_same.
        -- assert (y <> r) by (intros ->; contradiction). apply K; [exact Y|apply CH1; assumption|exact K'].
Qed.
Lemma vary_parameters_spec : forall uni gau ps a, (forall k r, (0 <= uni k r <= 1)%Q) -> NoDup ps ->
  (forall p, In p ps -> In p (map fst (pars (cur a))) /\ exists d, aget p (params a) = Some d /\ dtyp d = DMinMax) ->
  exists a', vary_parameters uni gau ps a = Some a' /\ settings a' a /\ comps (cur a') = comps (cur a) /\ dirs (cur a') = dirs (cur a) /\
    (forall p, ~ In p ps -> aget p (pars (cur a')) = aget p (pars (cur a))) /\
    (forall p d, In p ps -> aget p (params a) = Some d -> ~ known d -> aget p (pars (cur a')) = aget p (pars (cur a))) /\
    (forall p d, In p ps -> aget p (params a) = Some d -> known d -> exists x, aget p (pars (cur a')) = Some (VNum x) /\ drawn d 0 (uni KPar p) (gau KPar p) x).
Proof.
  intros uni gau ps. induction ps as [|p ps IH]; intros a HU ND HR.
  - exists a. split; [reflexivity|]. split; [apply settings_refl|]. do 2 (split; [reflexivity|]). split; [reflexivity|]. split; [intros p d []|intros p d []].
  - inversion ND as [|? ? NI ND']; subst. cbn [vary_parameters]. destruct (HR p (or_introl eq_refl)) as (HI & d & ED & HT). apply aget_In in HI. destruct HI as (v & EV).
    unfold par_value_and_dev at 1. rewrite EV, ED. destruct (known_dec d) as [KD|KD].
    + destruct (drawn_par d v (uni KPar p) (gau KPar p) (HU KPar p) HT KD) as (x & G & DR). rewrite G. set (a1 := with_cur (set_par p (VNum x) (cur a)) a).
      assert (O1 : forall y, y <> p -> aget y (pars (cur a1)) = aget y (pars (cur a))) by (intros y Y; apply aget_aset_other; exact Y).
      destruct (IH a1 HU ND') as (a' & E & S & P & D & O & U & K).
      { intros y Y. destruct (HR y (or_intror Y)) as (H1 & H2). split; [|exact H2]. apply aget_In. rewrite O1 by (intros ->; contradiction). apply aget_In. exact H1. }
      exists a'. split; [exact E|]. split; [exact (settings_trans _ _ _ S (settings_refl a))|]. split; [exact P|]. split; [exact D|].
      split; [intros y Y; rewrite O; [apply O1; intros ->; apply Y; left; reflexivity|intros Z; apply Y; right; exact Z]|]. split.
      * intros y d' [<-|Y] C N; [exfalso; apply N; congruence|]. rewrite (U y d' Y C N). apply O1. intros ->; contradiction.
      * intros y d' [<-|Y] C K'; [|apply K; assumption]. assert (d' = d) by congruence. subst d'. exists x. split; [|exact DR]. rewrite O by exact NI. apply aget_aset_same.
    + rewrite (unknown_same d v _ _ KD). destruct (IH a HU ND') as (a' & E & S & P & D & O & U & K); [intros y Y; apply HR; right; exact Y|]. exists a'. split; [exact E|]. split; [exact S|]. split; [exact P|]. split; [exact D|].
      split; [intros y Y; apply O; intros Z; apply Y; right; exact Z|]. split.
      * intros y d' [<-|Y] C N; [apply O; exact NI|]. apply (U y d' Y C N).
      * intros y d' [<-|Y] C K'; [exfalso; apply KD; congruence|]. apply K; assumption.
Qed.
(** Playing edits keeps the components and their order, and no parameter is lost. *)
Lemma play_all_keys : forall l e n, play_all l e = Some n -> map fst (comps n) = map fst (comps e) /\ forall p, In p (map fst (pars e)) -> In p (map fst (pars n)).
Proof.
  induction l as [|i l IH]; intros e n H; cbn [play_all] in H; [injection H as <-; split; [reflexivity|auto]|]. destruct (play_one e i) as [e1|] eqn:E; [|discriminate H]. destruct (IH _ _ H) as (A & B). clear IH.
  destruct i as [r v|p v|s|s]; cbn [play_one] in E.
  - unfold set_comp in E. destruct (aget r (comps e)) eqn:EG; [|discriminate E]. injection E as <-. cbn [comps pars] in *. split; [|exact B]. rewrite A. apply aset_keys_same. apply aget_In. eauto.
  - injection E as <-. cbn [comps pars set_par] in *. split; [exact A|]. intros x X. apply B. apply aset_keys_in. right. exact X.
  - injection E as <-. split; [exact A|exact B].
  - injection E as <-. split; [exact A|exact B].
Qed.
Lemma mc_run_spec : forall uni gau e a0 a n, (forall k r, (0 <= uni k r <= 1)%Q) -> setup e a0 -> NoDup (map fst (comps e)) -> same_analysis a a0 -> play_all (instrs a0) e = Some n ->
  exists a', mc_run uni gau a = Some a' /\ same_analysis a' a0 /\ random_netlist a0 n uni gau (cur a').
Proof.
  intros uni gau e a0 a n HU HS ND SA PL. pose proof (setup_ok e a0 HS) as O. destruct (play_all_keys _ _ _ PL) as (KC & KP).
  unfold mc_run. unfold play, reset_netlist_. cbn [added instrs cur orig]. assert (SA' := SA). destruct SA' as (A1 & A2 & A3 & A4 & A5). rewrite A1, A2, (o_orig _ _ O), PL. cbn [andb].
  remember (Ana _ n _ _ _ _ _ _ _ _) as a1 eqn:EA1. assert (S1 : settings a1 a0) by (subst a1; unfold settings, same_analysis; cbn; rewrite (o_orig _ _ O); auto). assert (EC : cur a1 = n) by (subst a1; reflexivity). clear EA1.
  assert (AR : forall r, In r (all_refs a1) <-> head_is_any letters r = true /\ In r (map fst (comps n))) by (intros r; unfold all_refs; rewrite EC, filter_In; tauto).
  destruct (vary_components_spec uni gau (all_refs a1) a1 HU) as (a2 & E2 & S2 & P2 & D2 & M2 & O2 & U2 & K2).
  { unfold all_refs. apply NoDup_filter. rewrite EC, KC. exact ND. }
  { intros r R. rewrite EC. apply AR. exact R. }
  rewrite E2. pose proof (settings_trans _ _ _ S2 S1) as S20. assert (EP : params a2 = params a0) by apply S20. rewrite EP.
  destruct (vary_parameters_spec uni gau (map fst (params a0)) a2 HU) as (a3 & E3 & S3 & C3 & D3 & O3 & U3 & K3).
  { exact (o_pnd _ _ O). }
  { intros p P. rewrite P2, EC, EP. split; [apply KP, (o_par _ _ O), P|]. apply aget_In in P. destruct P as (d & D). exists d. split; [exact D|exact (o_mm _ _ O _ _ D)]. }
  exists a3. split; [exact E3|]. split; [exact (settings_trans _ _ _ S3 S20)|]. rewrite EC in *.
  assert (CH : forall r q d, comp_has a0 n r q d <-> comp_has a1 n r q d) by (intros r q d; destruct S1 as (_ & _ & X & Y & _); unfold comp_has; rewrite X, Y; reflexivity).
  split; [|split; [|split; [|split; [|split]]]].
  - intros r q d C K. rewrite C3. apply K2; [|apply CH; exact C|exact K]. apply AR. destruct C as (C & _ & H & _). split; [exact H|]. apply aget_In. eauto.
  - intros p d P K. apply K3; [apply aget_In; eauto|rewrite EP; exact P|exact K].
  - intros r N. rewrite C3. destruct (in_dec string_dec r (all_refs a1)) as [R|R]; [|apply O2; exact R]. apply U2; [exact R|]. intros q d C. apply (N q). apply CH. exact C.
  - intros p N. rewrite <- P2. destruct (in_dec string_dec p (map fst (params a0))) as [R|R]; [|apply O3; exact R]. assert (R' := R). apply aget_In in R'. destruct R' as (d & D). apply (U3 p d); [exact R|rewrite EP; exact D|apply N; exact D].
  - rewrite C3. exact M2.
  - rewrite D3. exact D2.
Qed.
Lemma mc_runs_spec : forall uni gau e a0 n todo a, (forall i k r, (0 <= uni i k r <= 1)%Q) -> setup e a0 -> NoDup (map fst (comps e)) -> same_analysis a a0 -> play_all (instrs a0) e = Some n ->
  exists sims a', mc_runs uni gau todo a = Some (sims, a') /\ same_analysis a' a0 /\ Forall2 (fun i s => random_netlist a0 n (uni i) (gau i) s) todo sims.
Proof.
  intros uni gau e a0 n. induction todo as [|i todo IH]; intros a HU HS ND SA PL; cbn [mc_runs]; [exists [], a; split; [reflexivity|]; split; [exact SA|constructor]|].
  destruct (mc_run_spec (uni i) (gau i) e a0 a n (HU i) HS ND SA PL) as (a1 & E & S1 & R). rewrite E. destruct (IH a1 HU HS ND S1 PL) as (sims & a2 & E2 & S2 & F). rewrite E2. exists (cur a1 :: sims), a2. split; [reflexivity|]. split; [exact S2|]. constructor; assumption.
Qed.
