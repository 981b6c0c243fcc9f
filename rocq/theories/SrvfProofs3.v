From Coq Require Import String Ascii List Bool Arith ZArith Lia Permutation.
From Verif Require Import PyStr RunnerModel SimModel SimSpec SimProps SrvfModel ClnSpec SrvfSpec SrvfProofs SrvfProofs2.
From Verif Require ClnModel ClnProofs ClnProofs3 QCmpProofs3.
Import ListNotations.
Local Open Scope string_scope. Local Open Scope nat_scope. Local Open Scope list_scope.

Section Step.
Variables (m : sim) (out : str).
Notation job_inv := (job_inv m out). Notation inv := (inv m out). Notation file_of := (file_of out).
Ltac kept := match goal with |- SrvfProofs.job_inv _ _ _ _ _ _ => idtac end.

Lemma other_no : forall (l : list job) a t b u, l = a ++ t :: b -> NoDup (map j_no l) -> In u (a ++ b) -> j_no u <> j_no t.
Proof.
  intros l a t b u -> ND I E. rewrite map_app in ND. cbn [map] in ND. apply NoDup_remove_2 in ND. apply ND. rewrite <- E, <- map_app. apply in_map. exact I.
Qed.
(** One job is removed together with its files. *)
Lemma inv_erase : forall h v no l d, inv h v -> erase_run no (v_finished v) (v_disk v) = (l, d) ->
  inv h {| v_disk := d; v_sessions := v_sessions v; v_next := v_next v; v_runno := v_runno v; v_jobs := v_jobs v; v_finished := l |} /\
  (forall p, ~ run_file out p no -> d p = v_disk v p) /\ (forall t, In t l -> In t (v_finished v) /\ j_no t <> no).
Proof.
  intros h v no l d [J ND FR HI SE DO] E. destruct (erase_run_spec _ _ _ _ _ E) as [(-> & -> & H)|(a & t & b & F & N & -> & ->)].
  - split; [split; assumption|]. split; [reflexivity|]. intros t I. split; [exact I|apply H; exact I].
  - assert (KT : In t (known_jobs v)) by (unfold known_jobs; rewrite F; apply in_or_app; right; apply in_or_app; right; left; reflexivity).
    destruct (J t KT) as (JT & LT). destruct (erase_mine m out h _ _ t JT) as (E1 & E2). rewrite N in E1.
    assert (OT : forall u, In u (v_jobs v ++ a ++ b) -> j_no u <> no) by (intros u I; rewrite <- N; apply (other_no (known_jobs v) (v_jobs v ++ a) t b u); [unfold known_jobs; rewrite F, <- app_assoc; reflexivity|exact ND|rewrite <- app_assoc; exact I]).
    assert (INC : forall u, In u (v_jobs v ++ a ++ b) -> In u (known_jobs v)) by (intros u I; unfold known_jobs; rewrite F; apply in_app_or in I; apply in_or_app; destruct I as [I|I]; [left; exact I|right; apply in_app_or in I; apply in_or_app; destruct I; [left|right; right]; assumption]).
    split; [|split; [exact E1|]].
    + split; unfold known_jobs; cbn [v_disk v_sessions v_runno v_jobs v_finished].
      * intros u I. destruct (J u (INC u I)) as (JU & LU). split; [|exact LU]. apply (job_kept m out h h (v_disk v) _ (v_sessions v)); [exact JU|apply incl_refl| |reflexivity|reflexivity|intros s runs A B; exists runs; auto].
        intros p P. apply E1. intros Q. exact (OT u I (run_file_no out p _ _ P Q)).
      * unfold known_jobs in ND. rewrite F in ND. rewrite app_assoc, map_app in ND |- *. cbn [map] in ND. rewrite map_app. apply NoDup_remove_1 in ND. rewrite !map_app in *. exact ND.
      * intros p n P L. apply E2. exact (FR p n P L).
      * exact HI.
      * exact SE.
      * intros u I. apply DO. rewrite F. apply in_app_or in I. apply in_or_app. destruct I; [left|right; right]; assumption.
    + intros u I. split; [rewrite F; apply in_app_or in I; apply in_or_app; destruct I; [left|right; right]; assumption|]. apply OT. apply in_or_app. right. exact I.
Qed.
Lemma inv_close : forall h runs v l d, inv h v -> fold_left (fun ld n => erase_run n (fst ld) (snd ld)) runs (v_finished v, v_disk v) = (l, d) ->
  inv h {| v_disk := d; v_sessions := v_sessions v; v_next := v_next v; v_runno := v_runno v; v_jobs := v_jobs v; v_finished := l |} /\
  (forall p, (forall n, In n runs -> ~ run_file out p n) -> d p = v_disk v p).
Proof.
  intros h runs. induction runs as [|n runs IH]; intros v l d I E; cbn [fold_left] in E.
  - injection E as <- <-. split; [destruct I; split; assumption|reflexivity].
  - cbn [fst snd] in E. destruct (erase_run n (v_finished v) (v_disk v)) as (l1, d1) eqn:F. destruct (inv_erase h v n l1 d1 I F) as (I1 & K1 & _).
    destruct (IH _ l d I1 E) as (I2 & K2). cbn [v_disk v_sessions v_next v_runno v_jobs] in I2, K2. split; [exact I2|]. intros p P. rewrite K2, K1; [reflexivity|apply P; left; reflexivity|intros k J; apply P; right; exact J].
Qed.
Lemma hist_other : forall h e n, (match e with VWrite k _ _ | VEnd k _ => k <> n | _ => True end) -> (forall x, wrote (h ++ [e]) n x = wrote h n x) /\ returned (h ++ [e]) n = returned h n.
Proof.
  intros h e n H. split; [intros x; rewrite wrote_app|rewrite returned_app]; destruct e; try reflexivity; (destruct (Nat.eqb_spec no n) as [K|_]; [contradiction|reflexivity]).
Qed.
Lemma keep_sess : forall (A B : Type) (l : list (A * list B)) (k : B), forall s runs, In (s, runs) l -> In k runs -> exists runs', In (s, runs') l /\ In k runs'.
Proof. intros A B l k s runs I J. exists runs. auto. Qed.
Lemma run_like_dest : forall n circuit, (exists stem ext, circuit = stem ++ ext /\ stem <> [] /\ In ext (s2l ".qsch" :: netlists)) ->
  exists stem ext sf, circuit = stem ++ ext /\ In sf netlists /\ Path out (run_file_name n circuit) = file_of stem n sf.
Proof.
  intros n circuit (stem & ext & -> & N & I). destruct (ClnProofs.run_name n stem ext N I) as (sf & S1 & S2). exists stem, ext, sf. split; [reflexivity|]. split; [exact S1|]. rewrite S2. reflexivity.
Qed.
Theorem inv_step : forall h v e, inv h v -> allowed m out v e -> inv (h ++ [e]) (vstep m out v e).
Proof.
  intros h v e [J ND FR HI SE DO] AL.
  assert (INC : incl h (h ++ [e])) by (intros x I; apply in_or_app; left; exact I).
  assert (SAME : (match e with VWrite _ _ _ | VEnd _ _ => False | _ => True end) -> inv (h ++ [e]) v).
  { intros NE. assert (HO : forall n, (forall x, wrote (h ++ [e]) n x = wrote h n x) /\ returned (h ++ [e]) n = returned h n) by (intros n; apply hist_other; destruct e; tauto).
    split; try assumption.
    - intros t I. destruct (J t I) as (A & B). split; [|exact B]. apply (job_kept m out h (h ++ [e]) (v_disk v) (v_disk v) (v_sessions v)); [exact A|exact INC|reflexivity|apply HO|apply HO|apply keep_sess].
    - intros n L. destruct (HO n) as (H1 & H2). destruct (HI n L) as (A & B). split; [intros x; rewrite H1; apply A|rewrite H2; exact B]. }
  destruct e as [|s circuit files slot|no ext text|no ret| |s no|s|]; cbn [vstep allowed] in *.
  - (* VStart *) destruct (SAME I) as [J' ND' FR' HI' SE' DO']. split; cbn [v_disk v_sessions v_runno]; try assumption.
    + intros t K. destruct (J' t K) as (A & B). split; [|exact B]. apply (job_kept m out (h ++ [VStart]) (h ++ [VStart]) (v_disk v) (v_disk v) (v_sessions v)); [exact A|apply incl_refl|reflexivity|reflexivity|reflexivity|].
      intros s runs I1 I2. apply in_app_or in I1. destruct I1 as [I1|[E|[]]]; [exists runs; auto|]. injection E as <- <-. destruct I2.
    + intros s runs n I1 I2. apply in_app_or in I1. destruct I1 as [I1|[E|[]]]; [exact (SE' s runs n I1 I2)|]. injection E as <- <-. destruct I2.
  - (* VRun *) destruct AL as (CN & UP). destruct (session s (v_sessions v)) as [rs|] eqn:SS; [|exact (SAME I)]. set (n := S (v_runno v)). set (h' := h ++ [VRun s circuit files slot]) in *.
    assert (HO : forall k, (forall x, wrote h' k x = wrote h k x) /\ returned h' k = returned h k) by (intros k; apply hist_other; exact I).
    assert (EX : forall p k, run_file out p k -> extract out files (v_disk v) p = v_disk v p) by (intros p k P; apply extract_other; intros f F ->; exact (UP f k F P)).
    assert (HI' : forall k, n < k -> (forall x, wrote h' k x = None) /\ returned h' k = None) by (intros k L; destruct (HO k) as (H1 & H2); destruct (HI k ltac:(unfold n in L; lia)) as (A & B); split; [intros x; rewrite H1; apply A|rewrite H2; exact B]).
    destruct (extract out files (v_disk v) (Path out circuit)) as [c|] eqn:EC.
    2:{ split; unfold known_jobs; cbn [v_disk v_sessions v_runno v_jobs v_finished]; try assumption.
        - intros t K. destruct (J t K) as (A & B). split; [|unfold n; lia]. apply (job_kept m out h h' (v_disk v) _ (v_sessions v)); [exact A|exact INC|intros p P; exact (EX p _ P)|apply HO|apply HO|apply keep_sess].
        - intros p k P L. rewrite (EX p k P). apply (FR p k P). unfold n in L. lia.
        - intros s' runs k I1 I2. pose proof (SE s' runs k I1 I2). unfold n. lia. }
    destruct (run_like_dest n circuit CN) as (stem & ext & sf & EC' & SF & DE). rewrite DE. pose proof (net_ext sf SF) as SX.
    assert (DR : run_file out (file_of stem n sf) n) by (exists stem, sf; auto).
    set (d1 := vput (file_of stem n sf) (Some c) (extract out files (v_disk v))).
    assert (DO1 : forall p k, run_file out p k -> k <> n -> d1 p = v_disk v p) by (intros p k P K; unfold d1; rewrite vput_other; [exact (EX p k P)|]; intros ->; apply K; exact (run_file_no out _ _ _ P DR)).
    assert (DN : forall p, run_file out p n -> p <> file_of stem n sf -> d1 p = None) by (intros p P K; unfold d1; rewrite vput_other by exact K; rewrite (EX p n P); apply (FR p n P); unfold n; lia).
    assert (OLD : forall t sess', In t (known_jobs v) -> (forall s0 runs, In (s0, runs) sess' -> In (j_no t) runs -> exists runs', In (s0, runs') (v_sessions v) /\ In (j_no t) runs') -> job_inv h' d1 sess' t /\ j_no t <= n).
    { intros t sess' K Q. destruct (J t K) as (A & B). split; [|unfold n; lia]. apply (job_kept m out h h' (v_disk v) _ (v_sessions v)); [exact A|exact INC| |apply HO|apply HO|exact Q]. intros p P. apply (DO1 p _ P). unfold n. lia. }
    assert (FR' : forall p k, run_file out p k -> n < k -> d1 p = None) by (intros p k P L; rewrite (DO1 p k P) by lia; apply (FR p k P); unfold n in L; lia).
    destruct slot.
    + split; unfold known_jobs; cbn [v_disk v_sessions v_runno v_jobs v_finished]; try assumption.
      * intros t K. rewrite <- app_assoc in K. apply in_app_or in K. assert (Q0 : forall t, In t (known_jobs v) -> forall s0 runs, In (s0, runs) (add_run s n (v_sessions v)) -> In (j_no t) runs -> exists runs', In (s0, runs') (v_sessions v) /\ In (j_no t) runs').
        { intros u U s0 runs I1 I2. destruct (add_run_In _ _ _ _ _ I1) as [I3|(-> & r & I3 & ->)]; [exists runs; auto|]. exists r. split; [exact I3|]. apply in_app_or in I2. destruct I2 as [I2|[E|[]]]; [exact I2|]. destruct (J u U) as (_ & B). unfold n in E. lia. }
        destruct K as [K|[<- |K]]; [| |].
        1:{ assert (U : In t (known_jobs v)) by (unfold known_jobs; apply in_or_app; left; exact K). apply OLD; [exact U|apply Q0; exact U]. }
        2:{ assert (U : In t (known_jobs v)) by (unfold known_jobs; apply in_or_app; right; exact K). apply OLD; [exact U|apply Q0; exact U]. }
        split; [|cbn [j_no]; lia]. exists stem, sf, s, ext, files. cbn [j_no j_net j_end]. split; [exact SF|]. split; [reflexivity|]. split; [unfold h'; apply in_or_app; right; left; rewrite EC'; reflexivity|].
        split; [intros text T; unfold d1; rewrite vput_same; rewrite <- EC' in T; rewrite (extract_sent out files (v_disk v) circuit text T) in EC; symmetry; exact EC|].
        split; [|destruct (HI n ltac:(unfold n; lia)) as (W & RN); destruct (own_exts m) as (X1 & X2 & X3 & X4); repeat split].
        -- intros s' runs I1 I2. destruct (add_run_In _ _ _ _ _ I1) as [I3|(-> & r & I3 & ->)]; [|reflexivity]. pose proof (SE s' runs n I3 I2). unfold n in H. lia.
        -- intros e P. rewrite (proj1 (HO n)), W. cbn [option_map]. apply DN; [exists stem, e; split; [reflexivity|exact (prod_ext m sf e SF P)]|]. intros K. apply file_of_inj in K; [|exact (prod_ext m sf e SF P)|exact SX]. exact (prod_not_net m sf e SF P (proj2 (proj2 K))).
        -- apply DN; [exists stem, (s2l ".zip"); auto|]. intros K. apply file_of_inj in K; [|exact X4|exact SX]. exact (own_not_net m (s2l ".zip") sf ltac:(cbn; tauto) SF (proj2 (proj2 K))).
        -- apply DN; [exists stem, (s2l ".fail"); auto|]. intros K. apply file_of_inj in K; [|exact X3|exact SX]. exact (own_not_net m (s2l ".fail") sf ltac:(cbn; tauto) SF (proj2 (proj2 K))).
        -- rewrite (proj2 (HO n)). exact RN.
      * rewrite <- app_assoc. cbn [app]. rewrite map_app. cbn [map j_no]. unfold known_jobs in ND. rewrite map_app in ND. apply (Permutation_NoDup (l := n :: map j_no (v_jobs v) ++ map j_no (v_finished v))); [apply Permutation_middle|]. constructor; [|exact ND]. rewrite <- map_app. intros K. apply in_map_iff in K. destruct K as (t & E & K). destruct (J t K) as (_ & B). unfold n in E. lia.
      * intros s' runs k I1 I2. destruct (add_run_In _ _ _ _ _ I1) as [I3|(-> & r & I3 & ->)]; [pose proof (SE s' runs k I3 I2); unfold n; lia|]. apply in_app_or in I2. destruct I2 as [I2|[<- |[]]]; [pose proof (SE s r k I3 I2); unfold n; lia|lia].
    + rewrite app_nil_r. split; unfold known_jobs; cbn [v_disk v_sessions v_runno v_jobs v_finished]; try assumption.
      * intros t K. apply OLD; [exact K|apply keep_sess].
      * intros s' runs k I1 I2. pose proof (SE s' runs k I1 I2). unfold n. lia.
  - (* VWrite *) destruct AL as (t & stem & suffix & (T1 & T2 & T3) & T4 & T5 & T6 & T7).
    assert (KT : In t (known_jobs v)) by (unfold known_jobs; apply in_or_app; left; exact T1). destruct (J t KT) as (JT & LT).
    assert (FT : find (fun t => (j_no t =? no) && negb (jended t)) (v_jobs v) = Some t).
    { assert (NDJ : NoDup (map j_no (v_jobs v))) by (unfold known_jobs in ND; rewrite map_app in ND; exact (QCmpProofs3.NoDup_app_l _ _ _ ND)).
      clear - T1 T2 T3 NDJ. induction (v_jobs v) as [|u l IH]; [destruct T1|]. cbn [find]. cbn [map] in NDJ. inversion NDJ as [|? ? A B]; subst. destruct T1 as [-> |T1].
      - rewrite Nat.eqb_refl. unfold jended. rewrite T3. reflexivity.
      - destruct (Nat.eqb_spec (j_no u) (j_no t)) as [E|_]; [exfalso; apply A; rewrite E; apply in_map; exact T1|]. cbn [andb]. apply IH; assumption. }
    rewrite FT. set (h' := h ++ [VWrite no ext text]) in *. destruct JT as (b & sf & s & cx & files & SF & N & R & TX & Q & E). rewrite T3 in E. destruct E as (P & Z0 & F0 & RT). rewrite T2 in *.
    assert (SFX : suffix = sf /\ stem = b ++ under :: dec no).
    { rewrite N in T4. unfold SrvfSpec.file_of in T4. destruct (ClnProofs.net_split _ _ _ _ _ _ (ClnProofs.stem_ne b no) T5 SF T6 T4) as (_ & A & B). split; congruence. }
    destruct SFX as (-> & ->). rewrite N. rewrite (suffix_file out b no sf ext ltac:(apply in_or_app; left; exact SF)). pose proof (prod_ext m sf ext SF T7) as EXT. set (d1 := vput (file_of b no ext) (Some (Plain text)) (v_disk v)).
    assert (D1 : forall p k, run_file out p k -> k <> no -> d1 p = v_disk v p) by (intros p k PP K; unfold d1; apply vput_other; intros ->; apply K; apply (run_file_no out (file_of b no ext)); [exact PP|exists b, ext; auto]).
    assert (D2 : forall e, In e run_exts -> e <> ext -> d1 (file_of b no e) = v_disk v (file_of b no e)) by (intros e X K; unfold d1; apply vput_other; intros L; apply file_of_inj in L; [tauto|exact X|exact EXT]).
    destruct (own_exts m) as (X1 & X2 & X3 & X4).
    assert (PZ : forall e, In e [s2l ".zip"; s2l ".fail"] -> e <> ext).
    { intros e X ->. assert (H : forallb (fun m => forallb (fun sf => forallb (fun e => negb (existsb (str_eqb e) (products m sf))) [s2l ".zip"; s2l ".fail"]) netlists) [LTspice; NGspice; Qspice; Xyce] = true) by (vm_compute; reflexivity).
      rewrite forallb_forall in H. assert (M : In m [LTspice; NGspice; Qspice; Xyce]) by (destruct m; cbn; tauto). apply H in M. rewrite forallb_forall in M. apply M in SF. rewrite forallb_forall in SF. apply SF in X. apply negb_true_iff in X. rewrite <- not_true_iff_false in X. apply X. apply existsb_exists. exists ext. split; [exact T7|apply str_eqb_refl]. }
    split; unfold known_jobs; cbn [v_disk v_sessions v_runno v_jobs v_finished]; try assumption.
    + intros u U. destruct (J u U) as (JU & LU). split; [|exact LU]. destruct (Nat.eq_dec (j_no u) no) as [EU|NU].
      * assert (u = t) as -> by (clear - U KT ND EU T2; rewrite <- T2 in EU; fold (known_jobs v) in U; induction (known_jobs v) as [|x l IH]; [destruct U|]; cbn [map] in ND; inversion ND as [|? ? A B]; subst; destruct U as [-> |U], KT as [-> |K]; [reflexivity|exfalso; apply A; rewrite EU; apply in_map; exact K|exfalso; apply A; rewrite <- EU; apply in_map; exact U|apply IH; assumption]).
        exists b, sf, s, cx, files. rewrite T2, T3. split; [exact SF|]. split; [exact N|]. split; [apply INC; exact R|]. split; [intros tx K; rewrite N, D2; [rewrite <- N; apply TX; exact K|apply net_ext; exact SF|intros K'; exact (prod_not_net m sf ext SF T7 (eq_sym K'))]|]. split; [exact Q|].
        split; [|split; [rewrite D2; [exact Z0|exact X4|apply PZ; left; reflexivity]|split; [rewrite D2; [exact F0|exact X3|apply PZ; right; left; reflexivity]|unfold h'; rewrite returned_app; exact RT]]].
        intros e PE. unfold h'. rewrite wrote_app, Nat.eqb_refl. cbn [andb]. destruct (str_eqb ext e) eqn:K; [apply str_eqb_eq in K; subst e; unfold d1; apply vput_same|]. apply str_eqb_neq in K. rewrite D2; [apply P; exact PE|exact (prod_ext m sf e SF PE)|congruence].
      * destruct (hist_other h (VWrite no ext text) (j_no u) ltac:(cbn; congruence)) as (H1 & H2). apply (job_kept m out h h' (v_disk v) d1 (v_sessions v)); [exact JU|exact INC|intros p PP; exact (D1 p _ PP NU)|exact H1|exact H2|apply keep_sess].
    + intros p k PP L. rewrite (D1 p k PP) by lia. exact (FR p k PP L).
    + intros k L. destruct (hist_other h (VWrite no ext text) k ltac:(cbn; lia)) as (H1 & H2). destruct (HI k L) as (A & B). split; [intros x; unfold h'; rewrite H1; apply A|unfold h'; rewrite H2; exact B].
  - (* VEnd *) destruct AL as (t0 & T1 & T2 & T3). destruct (vfinish_in m no ret (v_jobs v) (v_disk v)) as (l, d) eqn:F. set (h' := h ++ [VEnd no ret]) in *.
    destruct (vfinish_in_spec _ _ _ _ _ _ _ F) as [(_ & _ & H)|(a & t & b & t' & EL & N & NE & -> & FT)]; [destruct (H t0 T1 T2 T3)|].
    assert (KT : In t (known_jobs v)) by (unfold known_jobs; rewrite EL; apply in_or_app; left; apply in_or_app; right; left; reflexivity). destruct (J t KT) as (JT & LT).
    destruct (finish_mine m out h _ _ t ret t' d JT NE FT) as (N' & NE' & D1 & D2 & JT'). rewrite N in *.
    assert (OT : forall u, In u (a ++ b ++ v_finished v) -> j_no u <> no) by (intros u U; rewrite <- N; apply (other_no (known_jobs v) a t (b ++ v_finished v) u); [unfold known_jobs; rewrite EL, <- app_assoc; reflexivity|exact ND|exact U]).
    split; unfold known_jobs; cbn [v_disk v_sessions v_runno v_jobs v_finished]; try assumption.
    + intros u U. rewrite <- app_assoc in U. cbn [app] in U. apply in_app_or in U. cbn [In] in U. assert (U' : u = t' \/ In u (a ++ b ++ v_finished v)) by (destruct U as [U|[U|U]]; [right; apply in_or_app; left; exact U|left; symmetry; exact U|right; apply in_or_app; right; exact U]).
      destruct U' as [-> |U']; [split; [exact JT'|rewrite N'; exact LT]|]. assert (UK : In u (known_jobs v)) by (unfold known_jobs; rewrite EL, <- app_assoc; cbn [app]; apply in_app_or in U'; apply in_or_app; destruct U' as [U'|U']; [left; exact U'|right; right; exact U']).
      destruct (J u UK) as (JU & LU). split; [|exact LU]. pose proof (OT u U') as NU. destruct (hist_other h (VEnd no ret) (j_no u) ltac:(cbn; congruence)) as (H1 & H2).
      apply (job_kept m out h h' (v_disk v) d (v_sessions v)); [exact JU|exact INC|intros p PP; apply D1; intros K; apply NU; exact (run_file_no out p _ _ PP K)|exact H1|exact H2|apply keep_sess].
    + unfold known_jobs in ND. rewrite EL in ND. rewrite <- app_assoc, map_app in ND |- *. cbn [app map] in *. rewrite N'. rewrite N in ND. exact ND.
    + intros p k PP L. destruct (D2 p (FR p k PP L)) as [K|K]; [exact K|]. pose proof (run_file_no out p _ _ PP K). lia.
    + intros k L. destruct (hist_other h (VEnd no ret) k ltac:(cbn; lia)) as (H1 & H2). destruct (HI k L) as (A & B). split; [intros x; unfold h'; rewrite H1; apply A|unfold h'; rewrite H2; exact B].
  - (* VCollect *) destruct (SAME I) as [J' ND' FR' HI' SE' DO'].
    assert (PM : Permutation (known_jobs v) (filter (fun t => negb (jended t)) (v_jobs v) ++ v_finished v ++ filter jended (v_jobs v))).
    { unfold known_jobs. rewrite (ClnProofs3.filter_both _ jended (v_jobs v)) at 1. rewrite <- app_assoc. apply Permutation_app_head. apply Permutation_app_comm. }
    split; unfold known_jobs; cbn [v_disk v_sessions v_runno v_jobs v_finished]; try assumption.
    + intros t K. apply J'. eapply Permutation_in; [apply Permutation_sym; exact PM|exact K].
    + eapply Permutation_NoDup; [apply Permutation_map; exact PM|exact ND'].
    + intros t K. apply in_app_or in K. destruct K as [K|K]; [apply DO'; exact K|]. apply filter_In in K. destruct K as (_ & K). unfold jended in K. destruct (j_end t); [discriminate|discriminate K].
  - (* VGet *) destruct (answer v s no); [|exact (SAME I)]. destruct (erase_run no (v_finished v) (v_disk v)) as (l, d) eqn:F. exact (proj1 (inv_erase _ v no l d (SAME I) F)).
  - (* VClose *) destruct (session s (v_sessions v)) as [runs|] eqn:SS; [|exact (SAME I)]. destruct (fold_left _ runs (v_finished v, v_disk v)) as (l, d) eqn:F. destruct (inv_close _ runs v l d (SAME I) F) as ([J' ND' FR' HI' SE' DO'] & _).
    unfold known_jobs in *. cbn [v_disk v_sessions v_runno v_jobs v_finished] in *. split; unfold known_jobs; cbn [v_disk v_sessions v_runno v_jobs v_finished]; try assumption.
    + intros t K. destruct (J' t K) as (A & B). split; [|exact B]. apply (job_kept m out (h ++ [VClose s]) (h ++ [VClose s]) d d (v_sessions v)); [exact A|apply incl_refl|reflexivity|reflexivity|reflexivity|].
      intros s0 r0 I1 I2. apply filter_In in I1. exists r0. split; [exact (proj1 I1)|exact I2].
    + intros s0 r0 n I1 I2. apply filter_In in I1. exact (SE' s0 r0 n (proj1 I1) I2).
  - destruct AL.
Qed.
Theorem reached_inv : forall d0 h v, (forall p n, run_file out p n -> d0 p = None) -> reached m out d0 h v -> inv h v.
Proof.
  intros d0 h v D R. induction R as [|h v e R IH AL]; [|apply inv_step; assumption].
  split; unfold known_jobs; cbn [started_on v_disk v_sessions v_runno v_jobs v_finished app map].
  - intros t [].
  - constructor.
  - intros p n P _. exact (D p n P).
  - intros n _. split; reflexivity.
  - intros s runs n [].
  - intros t [].
Qed.
End Step.
