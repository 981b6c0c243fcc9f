(** Proofs about collecting the deviating elements, and the run sequences of the analyses (C42, C89). *)
From Coq Require Import String Ascii List Bool Arith ZArith NArith QArith Lia.
From Verif Require Import TolModel TolSpec TolCorner.
Import ListNotations.
Local Open Scope string_scope. Local Open Scope nat_scope. Local Open Scope list_scope.

(** ** What the public methods establish *)
Record ok_setup (e : ed) (a : ana) : Prop := Ok {
  o_orig : orig a = e; o_cur : cur a = e; o_added : added a = false; o_keys : map fst (defaults a) = letters;
  o_dnd : NoDup (map fst (devices a)); o_pnd : NoDup (map fst (params a));
  o_dev : forall r, In r (map fst (devices a)) -> In r (map fst (comps e)) /\ head_is_any letters r = true;
  o_par : forall p, In p (map fst (params a)) -> In p (map fst (pars e));
  o_mm : forall p d, aget p (params a) = Some d -> dtyp d = DMinMax;
  o_prep : prepared a = false }.

Lemma aset_keys_same : forall {A} k (v : A) d, In k (map fst d) -> map fst (aset k v d) = map fst d.
Proof.
  induction d as [|[k' v'] d IH]; intros H; [destruct H|]. cbn in *. destruct (String.eqb_spec k k') as [->|N]; cbn; [reflexivity|]. rewrite IH; [reflexivity|].
  destruct H as [->|H]; [contradiction|exact H].
Qed.
Lemma existsb_In : forall r l, existsb (String.eqb r) l = true <-> In r l.
Proof. intros r l. rewrite existsb_exists. split; [intros (x & H & E); apply String.eqb_eq in E; subst; exact H|intros H; exists r; split; [exact H|apply String.eqb_refl]]. Qed.

Lemma setup_ok : forall e a, setup e a -> ok_setup e a.
Proof.
  intros e a H. induction H as [|ref t dist a H IH HR|ref lo hi dist a H IH HI HH|p lo hi dist a H IH HI|i a H IH].
  - constructor; cbn; try reflexivity; try constructor; try tauto. intros p d H; discriminate.
  - unfold set_tolerance. destruct IH. destruct (existsb (String.eqb ref) letters) eqn:EL.
    + apply existsb_In in EL. constructor; cbn; try assumption. rewrite aset_keys_same; [assumption|]. rewrite o_keys0. exact EL.
    + destruct (existsb (String.eqb ref) (map fst (comps (cur a)))) eqn:EC; [|constructor; assumption].
      apply existsb_In in EC. rewrite o_cur0 in EC. constructor; cbn; try assumption; [apply aset_NoDup; assumption|].
      intros r. rewrite aset_keys_in. intros [->|HI]; [|apply o_dev0; exact HI]. split; [exact EC|].
      destruct HR as [HL|HL]; [|exact HL]. apply existsb_In in HL. congruence.
  - destruct IH. constructor; cbn; try assumption; [apply aset_NoDup; assumption|]. intros r. rewrite aset_keys_in. intros [->|HJ]; [split; assumption|apply o_dev0; exact HJ].
  - destruct IH. constructor; cbn; try assumption; [apply aset_NoDup; assumption| |].
    + intros r. rewrite aset_keys_in. intros [->|HJ]; [exact HI|apply o_par0; exact HJ].
    + intros r d. destruct (string_dec r p) as [->|N]; [rewrite aget_aset_same; intros E; injection E as <-; reflexivity|rewrite aget_aset_other by exact N; apply o_mm0].
  - destruct IH. constructor; cbn; assumption.
Qed.

(** ** Collecting *)
Definition valid (a : ana) (r : string) : bool := match value_and_dev a r with Some (v, d) => negb (is_not_valid d) | None => false end.

Lemma add_components_spec : forall a rs w, (forall r, In r rs -> value_and_dev a r <> None) ->
  exists w', add_components a rs w = Some w' /\ snd w' = snd w ++ filter (valid a) rs /\
    (forall x, ~ In x (filter (valid a) rs) -> aget x (fst w') = aget x (fst w)) /\
    (forall x v d, In x (filter (valid a) rs) -> value_and_dev a x = Some (v, d) -> aget x (fst w') = Some (Ent v d KComp)).
Proof.
  intros a. induction rs as [|r rs IH]; intros w H.
  - exists w. cbn. rewrite app_nil_r. repeat split; auto. intros x v d [].
  - cbn [add_components filter]. unfold check_and_add. destruct (value_and_dev a r) as [[v d]|] eqn:E; [|exfalso; apply (H r); [left; reflexivity|exact E]].
    assert (HV : valid a r = negb (is_not_valid d)) by (unfold valid; rewrite E; reflexivity). rewrite HV. clear HV.
    destruct (is_not_valid d) eqn:EV; cbn [negb].
    + destruct (IH w) as (w' & A & B & C & D); [intros x Hx; apply H; right; exact Hx|]. exists w'. split; [exact A|]. split; [exact B|]. split; [exact C|exact D].
    + destruct (IH (aset r (Ent v d KComp) (fst w), snd w ++ [r])) as (w' & A & B & C & D); [intros x Hx; apply H; right; exact Hx|].
      exists w'. split; [exact A|]. cbn [fst snd] in *. split; [rewrite B, <- app_assoc; reflexivity|]. split.
      * intros x Hx. rewrite C; [|intros K; apply Hx; right; exact K]. apply aget_aset_other. intros ->. apply Hx. left. reflexivity.
      * intros x v' d' Hx Ex. destruct (in_dec string_dec x (filter (valid a) rs)) as [K|K]; [exact (D x v' d' K Ex)|].
        destruct Hx as [->|Hx]; [|contradiction]. rewrite C by exact K. rewrite aget_aset_same. congruence.
Qed.
Lemma add_parameters_spec : forall a ps w, (forall p, In p ps -> exists v d, par_value_and_dev a p = Some (v, d) /\ dtyp d = DMinMax) ->
  exists w', add_parameters a ps w = Some w' /\ snd w' = snd w ++ ps /\
    (forall x, ~ In x ps -> aget x (fst w') = aget x (fst w)) /\
    (forall x v d, In x ps -> par_value_and_dev a x = Some (v, d) -> aget x (fst w') = Some (Ent v d KPar)).
Proof.
  intros a. induction ps as [|p ps IH]; intros w H.
  - exists w. cbn. rewrite app_nil_r. repeat split; auto. intros x v d [].
  - cbn [add_parameters]. destruct (H p (or_introl eq_refl)) as (v & d & E & T). rewrite E, T.
    destruct (IH (aset p (Ent v d KPar) (fst w), snd w ++ [p])) as (w' & A & B & C & D); [intros x Hx; apply H; right; exact Hx|].
    exists w'. split; [exact A|]. cbn [fst snd] in *. split; [rewrite B, <- app_assoc; reflexivity|]. split.
    + intros x Hx. rewrite C; [|intros K; apply Hx; right; exact K]. apply aget_aset_other. intros ->. apply Hx. left. reflexivity.
    + intros x v' d' Hx Ex. destruct (in_dec string_dec x ps) as [K|K]; [exact (D x v' d' K Ex)|].
      destruct Hx as [->|Hx]; [|contradiction]. rewrite C by exact K. rewrite aget_aset_same. congruence.
Qed.

Lemma NoDup_app' : forall {A} (l m : list A), NoDup l -> NoDup m -> (forall x, In x l -> In x m -> False) -> NoDup (l ++ m).
Proof.
  induction l as [|x l IH]; intros m A1 B C; [exact B|]. inversion A1; subst. cbn. constructor.
  - rewrite in_app_iff. intros [K|K]; [contradiction|]. apply (C x); [left; reflexivity|exact K].
  - apply IH; try assumption. intros y Hy. apply C. right. exact Hy.
Qed.
Lemma NoDup_flat_map : forall {A B} (f : A -> list B) l, NoDup l -> (forall x, In x l -> NoDup (f x)) ->
  (forall x y z, In x l -> In y l -> In z (f x) -> In z (f y) -> x = y) -> NoDup (flat_map f l).
Proof.
  induction l as [|x l IH]; intros H1 H2 H3; [constructor|]. inversion H1; subst. cbn. apply NoDup_app'.
  - apply H2. left. reflexivity.
  - apply IH; [assumption|intros; apply H2; right; assumption|intros; eapply H3; eauto; right; assumption].
  - intros z Hz Hz'. apply in_flat_map in Hz'. destruct Hz' as (y & Hy & Hz'). assert (x = y) by (eapply H3; eauto; [left; reflexivity|right; exact Hy]). subst. contradiction.
Qed.

Definition letter_refs (a : ana) (k : string) : list string :=
  match k with
  | String c EmptyString => filter (fun r => negb (existsb (String.eqb r) (map fst (devices a)))) (refs_with c (cur a))
  | _ => []
  end.
Lemma default_refs_eq : forall a, default_refs a = flat_map (letter_refs a) (map fst (defaults a)).
Proof. intros a. unfold default_refs. induction (defaults a) as [|[k d] l IH]; [reflexivity|]. cbn [flat_map map fst]. rewrite IH. reflexivity. Qed.
Lemma letter_refs_in : forall a k r, In r (letter_refs a k) <-> (In r (map fst (comps (cur a))) /\ ~ In r (map fst (devices a)) /\ k = letter_of r /\ r <> EmptyString).
Proof.
  intros a k r. unfold letter_refs. destruct k as [|c [|c' k]].
  - split; [intros []|]. intros (_ & _ & K & N). destruct r; [contradiction|discriminate].
  - rewrite filter_In. unfold refs_with. rewrite filter_In, negb_true_iff. split.
    + intros ((A & B) & C). split; [exact A|]. split. { intros K. apply existsb_In in K. congruence. }
      destruct r as [|x r]; [discriminate|]. cbn in B. apply Ascii.eqb_eq in B. subst. split; [reflexivity|discriminate].
    + intros (A & B & C & D). destruct r as [|x r]; [contradiction|]. cbn in C. injection C as ->. split.
      * split; [exact A|]. cbn. apply Ascii.eqb_refl.
      * destruct (existsb (String.eqb (String x r)) (map fst (devices a))) eqn:E; [apply existsb_In in E; contradiction|reflexivity].
  - split; [intros []|]. intros (_ & _ & K & N). destruct r; discriminate.
Qed.
Lemma head_letter : forall r, head_is_any letters r = true <-> In (letter_of r) letters.
Proof.
  intros [|c r]; cbn [head_is_any letter_of]. { split; [discriminate|]. cbn. intuition discriminate. } apply existsb_In.
Qed.
Lemma default_refs_in : forall e a r, ok_setup e a ->
  (In r (default_refs a) <-> In r (map fst (comps e)) /\ ~ In r (map fst (devices a)) /\ head_is_any letters r = true).
Proof.
  intros e a r O. rewrite default_refs_eq, (o_keys e a O), in_flat_map, head_letter. split.
  - intros (k & Hk & Hr). apply letter_refs_in in Hr. rewrite (o_cur e a O) in Hr. destruct Hr as (A & B & -> & _). auto.
  - intros (A & B & C). exists (letter_of r). split; [exact C|]. apply letter_refs_in. rewrite (o_cur e a O). repeat split; auto.
    intros ->. cbn in C. intuition discriminate.
Qed.
Lemma default_refs_nd : forall e a, ok_setup e a -> NoDup (map fst (comps e)) -> NoDup (default_refs a).
Proof.
  intros e a O ND. rewrite default_refs_eq, (o_keys e a O). apply NoDup_flat_map.
  - unfold letters. repeat constructor; cbn; intuition discriminate.
  - intros k _. destruct k as [|c [|c' k]]; try constructor. cbn [letter_refs]. unfold refs_with. rewrite (o_cur e a O). repeat apply NoDup_filter. exact ND.
  - intros x y z _ _ Hx Hy. apply letter_refs_in in Hx, Hy. destruct Hx as (_ & _ & -> & _), Hy as (_ & _ & -> & _). reflexivity.
Qed.

Lemma not_valid_real : forall d, is_not_valid d = false <-> real_dev d.
Proof.
  intros d. unfold is_not_valid, real_dev. rewrite orb_false_iff. split.
  - intros (A & B). split; [intros E; rewrite E in B; discriminate|]. intros E. apply Qeq_bool_iff in E. congruence.
  - intros (A & B). split; [|destruct (dtyp d); [reflexivity|reflexivity|exfalso; apply A; reflexivity]]. destruct (Qeq_bool (dmin d) (dmax d)) eqn:E; [|reflexivity]. apply Qeq_bool_iff in E. contradiction.
Qed.
Lemma no_dev_not : ~ real_dev no_dev. Proof. intros (A & _). apply A. reflexivity. Qed.

(** [comp_dev] is what the code computes. *)
Lemma comp_dev_iff : forall e a r q d, ok_setup e a ->
  comp_dev a e r q d <-> (value_and_dev a r = Some (VNum q, d) /\ is_not_valid d = false).
Proof.
  intros e a r q d O. unfold comp_dev, value_and_dev. rewrite (o_cur e a O), not_valid_real. split.
  - intros (A & B & C & D). rewrite A, C. cbn [negb]. split; [|exact B]. destruct D as [D|(D & D')]; [rewrite D; reflexivity|rewrite D, D'; reflexivity].
  - destruct (head_is_any letters r) eqn:H; cbn [negb]; [|intros (K & _); discriminate].
    destruct (aget r (comps e)) as [v|] eqn:EV; [|intros (K & _); discriminate].
    destruct v as [q'|s|n t i|n lo hi i].
    + intros (K & B). injection K as -> K. split; [reflexivity|]. split; [exact B|]. split; [reflexivity|].
      destruct (aget r (devices a)) as [d'|] eqn:ED; [left; congruence|]. right. split; [reflexivity|].
      destruct (aget (letter_of r) (defaults a)) as [d'|]; [congruence|]. subst d. exfalso. exact (no_dev_not B).
    + intros (K & B). discriminate.
    + intros (K & B). discriminate.
    + intros (K & B). discriminate.
Qed.
Lemma value_known : forall e a r, ok_setup e a -> In r (map fst (comps e)) -> head_is_any letters r = true -> value_and_dev a r <> None.
Proof.
  intros e a r O H1 H2. unfold value_and_dev. rewrite H2, (o_cur e a O). cbn [negb]. apply aget_In in H1. destruct H1 as (v & ->). destruct v; discriminate.
Qed.
Lemma valid_comp : forall e a r, ok_setup e a -> valid a r = true <-> exists q d, comp_dev a e r q d.
Proof.
  intros e a r O. unfold valid. split.
  - destruct (value_and_dev a r) as [[v d]|] eqn:E; [|discriminate]. rewrite negb_true_iff. intros V.
    assert (exists q, v = VNum q) as (q & ->).
    { unfold value_and_dev in E. destruct (negb _); [discriminate|]. destruct (aget r (comps (cur a))) as [[q|s|n t i|n lo hi i]|]; try discriminate; injection E as <- <-; eauto; exfalso; apply not_valid_real in V; exact (no_dev_not V). }
    exists q, d. apply (comp_dev_iff e a r q d O). auto.
  - intros (q & d & H). apply (comp_dev_iff e a r q d O) in H. destruct H as (-> & ->). reflexivity.
Qed.
Lemma comp_dev_in : forall e a r q d, comp_dev a e r q d -> In r (map fst (comps e)) /\ head_is_any letters r = true.
Proof. intros e a r q d (A & _ & B & _). split; [apply aget_In; eauto|exact B]. Qed.

Lemma map_snd_pair : forall (k : kind) l, map snd (map (pair k) l) = l :> list string.
Proof. intros k l. rewrite map_map. cbn. apply map_id. Qed.

Definition collected (a : ana) (e : ed) (order : list (kind * string)) (w : work) : Prop :=
  snd w = map snd order /\ NoDup (snd w) /\ deviating a e order /\
  (forall r, In (KComp, r) order -> exists q d, comp_dev a e r q d /\ aget r (fst w) = Some (Ent (VNum q) d KComp)) /\
  (forall p, In (KPar, p) order -> exists v d, par_dev a e p d /\ dtyp d = DMinMax /\ aget p (pars e) = Some v /\ aget p (fst w) = Some (Ent v d KPar)).

Definition grp1 (a : ana) : list string := filter (valid a) (map fst (devices a)).
Definition grp2 (a : ana) : list string := filter (valid a) (default_refs a).
Definition order_of (a : ana) : list (kind * string) := map (pair KComp) (grp1 a) ++ map (pair KPar) (map fst (params a)) ++ map (pair KComp) (grp2 a).
Lemma collect_spec : forall e a, ok_setup e a -> NoDup (map fst (comps e)) -> names_apart a e ->
  exists w, collect a = Some w /\ collected a e (order_of a) w.
Proof.
  intros e a O ND NA. unfold collect.
  set (g1 := filter (valid a) (map fst (devices a))). set (ps := map fst (params a)). set (g2 := filter (valid a) (default_refs a)).
  destruct (add_components_spec a (map fst (devices a)) ([], [])) as (w1 & E1 & S1 & N1 & L1).
  { intros r Hr. destruct (o_dev e a O r Hr). eapply value_known; eassumption. }
  fold g1 in S1, N1, L1. cbn [fst snd app] in S1, N1. rewrite E1.
  assert (HP : forall p, In p ps -> exists v d, par_value_and_dev a p = Some (v, d) /\ dtyp d = DMinMax).
  { intros p Hp. unfold par_value_and_dev. rewrite (o_cur e a O). pose proof (o_par e a O p Hp) as K. apply aget_In in K. destruct K as (v & ->).
    pose proof Hp as K. apply aget_In in K. destruct K as (d & K). rewrite K. exists v, d. split; [reflexivity|exact (o_mm e a O p d K)]. }
  destruct (add_parameters_spec a ps w1 HP) as (w2 & E2 & S2 & N2 & L2). rewrite E2.
  destruct (add_components_spec a (default_refs a) w2) as (w3 & E3 & S3 & N3 & L3).
  { intros r Hr. apply (default_refs_in e a r O) in Hr. destruct Hr as (A & _ & B). eapply value_known; eassumption. }
  fold g2 in S3, N3, L3. rewrite E3.
  set (order := map (pair KComp) g1 ++ map (pair KPar) ps ++ map (pair KComp) g2).
  assert (HG1 : forall r, In r g1 <-> In r (map fst (devices a)) /\ exists q d, comp_dev a e r q d).
  { intros r. unfold g1. rewrite filter_In, (valid_comp e a r O). reflexivity. }
  assert (HG2 : forall r, In r g2 <-> ~ In r (map fst (devices a)) /\ exists q d, comp_dev a e r q d).
  { intros r. unfold g2. rewrite filter_In, (valid_comp e a r O), (default_refs_in e a r O). split; [tauto|]. intros (A & q & d & B).
    destruct (comp_dev_in e a r q d B). eauto 10. }
  assert (HC : forall r q d, comp_dev a e r q d -> ~ In r ps).
  { intros r q d H K. destruct (NA r K) as (_ & NC). apply NC. apply (comp_dev_in e a r q d H). }
  assert (HND : NoDup (g1 ++ ps ++ g2)).
  { apply NoDup_app'; [apply NoDup_filter, (o_dnd e a O)|apply NoDup_app'; [exact (o_pnd e a O)|apply NoDup_filter, (default_refs_nd e a O ND)|]|].
    - intros x Hx Hy. apply HG2 in Hy. destruct Hy as (_ & q & d & H). exact (HC x q d H Hx).
    - intros x Hx Hy. apply HG1 in Hx. destruct Hx as (I & q & d & H). apply in_app_iff in Hy. destruct Hy as [Hy|Hy]; [exact (HC x q d H Hy)|]. apply HG2 in Hy. tauto. }
  assert (HS : snd w3 = map snd order).
  { unfold order. rewrite S3, S2, S1, !map_app, !map_snd_pair. symmetry. apply app_assoc. }
  assert (HinC : forall r, In (KComp, r) order <-> In r g1 \/ In r g2).
  { intros r. unfold order. rewrite !in_app_iff, !in_map_iff. split.
    - intros [(x & E & H)|[(x & E & H)|(x & E & H)]]; [injection E as <-; auto|discriminate|injection E as <-; auto].
    - intros [H|H]; [left|right; right]; exists r; auto. }
  assert (HinP : forall p, In (KPar, p) order <-> In p ps).
  { intros p. unfold order. rewrite !in_app_iff, !in_map_iff. split.
    - intros [(x & E & H)|[(x & E & H)|(x & E & H)]]; [discriminate|injection E as <-; auto|discriminate].
    - intros H. right. left. exists p. auto. }
  exists w3. split; [reflexivity|]. change (order_of a) with order. split; [exact HS|]. split.
  { rewrite HS. unfold order. rewrite !map_app, !map_snd_pair. exact HND. }
  split; [split; [|split]|split].
  - assert (HM : NoDup (map snd order)) by (unfold order; rewrite !map_app, !map_snd_pair; exact HND). apply NoDup_map_inv in HM. exact HM.
  - intros r. rewrite HinC, HG1, HG2. destruct (in_dec string_dec r (map fst (devices a))); tauto.
  - intros p. rewrite HinP. unfold ps. split.
    + intros H. pose proof (o_par e a O p H) as K. apply aget_In in K. apply aget_In in H. destruct H as (d & H). exists d. split; [exact H|exact K].
    + intros (d & H & _). apply aget_In. eauto.
  - intros r HI. apply HinC in HI. assert (HD : exists q d, comp_dev a e r q d) by (destruct HI as [HI|HI]; [apply HG1 in HI|apply HG2 in HI]; tauto).
    destruct HD as (q & d & HD). exists q, d. split; [exact HD|]. pose proof (proj1 (comp_dev_iff e a r q d O) HD) as (V & _).
    destruct HI as [HI|HI]; [|exact (L3 r _ _ HI V)].
    rewrite N3. { rewrite N2 by exact (HC r q d HD). exact (L1 r _ _ HI V). }
    intros K. apply HG2 in K. apply HG1 in HI. tauto.
  - intros p HI. apply HinP in HI. destruct (HP p HI) as (v & d & V & M). exists v, d. pose proof V as V'. unfold par_value_and_dev in V'. rewrite (o_cur e a O) in V'.
    destruct (aget p (pars e)) as [v'|] eqn:Ev; [|discriminate]. destruct (aget p (params a)) as [d'|] eqn:Ed; [|discriminate]. injection V' as -> ->.
    split; [split; [exact Ed|eauto]|]. split; [exact M|]. split; [reflexivity|]. rewrite N3. { exact (L2 p v d HI V). }
    intros K. apply HG2 in K. destruct K as (_ & q' & d' & K). exact (HC p q' d' K HI).
Qed.
