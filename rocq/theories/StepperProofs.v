From Coq Require Import FinFun String List Bool Arith Lia.
From Verif Require Import StepperModel StepperSpec.
Import ListNotations.

Lemma target_eqb_eq a b : target_eqb a b = true <-> a = b.
Proof.
  destruct a as [w x], b as [w' y]. unfold target_eqb; simpl. rewrite andb_true_iff, String.eqb_eq.
  split.
  - intros [H ->]. destruct w, w'; try discriminate; reflexivity.
  - intros H; injection H as -> ->. split; [destruct w'; reflexivity|reflexivity].
Qed.

Definition reaches dims s s' := exists n, forall m, loop (n + m) dims s = loop m dims s'.

Lemma reaches_refl dims s : reaches dims s s.
Proof. exists 0; reflexivity. Qed.
Lemma reaches_trans dims a b c : reaches dims a b -> reaches dims b c -> reaches dims a c.
Proof.
  intros [n Hn] [k Hk]. exists (n + k). intros m.
  rewrite <- Nat.add_assoc, Hn. apply Hk.
Qed.
Lemma reaches_step dims a b : step dims a = Some b -> reaches dims a b.
Proof. intros H. exists 1. intros m. simpl. rewrite H. reflexivity. Qed.

Lemma with_combination_snoc dims d : forall n0 c v, length c = length dims ->
  with_combination n0 (dims ++ [d]) (c ++ [v]) = assign (with_combination n0 dims c) (d_target d) v.
Proof.
  induction dims as [|x dims IH]; intros n0 c v H; destruct c as [|y c]; try discriminate; [reflexivity|].
  simpl. apply IH. simpl in H; lia.
Qed.

Lemma set_nth_app {A} (l : list A) x y r : set_nth (l ++ x :: r) (length l) y = l ++ y :: r.
Proof. induction l as [|a l IH]; simpl; [reflexivity|]. rewrite IH; reflexivity. Qed.

Lemma Forall2_len {A B} (P : A -> B -> Prop) l r : Forall2 P l r -> length l = length r.
Proof. induction 1; simpl; congruence. Qed.

Definition pred_level (i : nat) : option nat := match i with O => None | S k => Some k end.

Lemma Forall2_app_inv {A B} (P : A -> B -> Prop) l1 l2 r1 r2 :
  Forall2 P l1 r1 -> Forall2 P l2 r2 -> Forall2 P (l1 ++ l2) (r1 ++ r2).
Proof. apply Forall2_app. Qed.

Lemma odometer n0 : forall post pre ip c netl rns,
  all_reiterable post -> length ip = length pre -> length c = length pre ->
  (forall t, ~ In t (map d_target post) -> netl t = with_combination n0 pre c t) ->
  exists netl' rs,
    reaches (pre ++ post)
      (St (Some (length pre)) (ip ++ map d_values post) netl rns)
      (St (pred_level (length pre)) (ip ++ map d_values post) netl' (rns ++ rs))
    /\ (forall t, ~ In t (map d_target post) -> netl' t = netl t)
    /\ Forall2 (fun c' r => same_netlist r (with_combination n0 (pre ++ post) (c ++ c')))
         (combinations post) rs.
Proof.
  induction post as [|d post IH]; intros pre ip c netl rns HR Hip Hc HA.
  - exists netl, [netl]. split; [|split].
    + apply reaches_step. unfold step. cbn [iter_no iters net runs].
      rewrite app_nil_r. rewrite (proj2 (nth_error_None pre (length pre))) by lia.
      unfold pred_level. reflexivity.
    + reflexivity.
    + constructor; [|constructor]. intros t. rewrite !app_nil_r. apply HA. intros [].
  - inversion HR as [|? ? Hd HR']; subst.
    (* inner induction over the remaining values of d *)
    enough (forall vs netl rns,
      (forall t, ~ In t (map d_target (d :: post)) -> netl t = with_combination n0 pre c t) ->
      exists netl' rs,
        reaches (pre ++ d :: post)
          (St (Some (length pre)) (ip ++ vs :: map d_values post) netl rns)
          (St (pred_level (length pre)) (ip ++ map d_values (d :: post)) netl' (rns ++ rs))
        /\ (forall t, ~ In t (map d_target (d :: post)) -> netl' t = netl t)
        /\ Forall2 (fun c' r => same_netlist r (with_combination n0 (pre ++ d :: post) (c ++ c')))
             (flat_map (fun v => map (cons v) (combinations post)) vs) rs) as Hin.
    { apply (Hin (d_values d) netl rns HA). }
    clear netl rns HA. intros vs.
    assert (nth_error (pre ++ d :: post) (length pre) = Some d) as Hnth.
    { rewrite nth_error_app2 by lia. rewrite Nat.sub_diag. reflexivity. }
    assert (forall vs', nth (length pre) (ip ++ vs' :: map d_values post) [] = vs') as Hnthi.
    { intros vs'. rewrite app_nth2 by lia. rewrite Hip, Nat.sub_diag. reflexivity. }
    induction vs as [|v vs IHv]; intros netl rns HA.
    + exists netl, []. split; [|split; [reflexivity|constructor]].
      apply reaches_step. unfold step. cbn [iter_no iters net runs].
      rewrite Hnth, Hnthi, Hd, app_nil_r. rewrite <- Hip at 2. rewrite set_nth_app. reflexivity.
    + (* assign, descend *)
      set (netl1 := assign netl (d_target d) v).
      assert (forall t, ~ In t (map d_target post) ->
              netl1 t = with_combination n0 (pre ++ [d]) (c ++ [v]) t) as HA1.
      { intros t Ht. rewrite with_combination_snoc by assumption. unfold netl1, assign.
        destruct (target_eqb t (d_target d)) eqn:E; [reflexivity|].
        apply HA. simpl. intros [C|C]; [|contradiction]. symmetry in C.
        apply target_eqb_eq in C. congruence. }
      destruct (IH (pre ++ [d]) (ip ++ [vs]) (c ++ [v]) netl1 rns HR'
                 ltac:(rewrite !app_length; simpl; lia) ltac:(rewrite !app_length; simpl; lia) HA1)
        as (netl2 & rs2 & R2 & K2 & F2).
      rewrite <- !app_assoc in R2. cbn [app] in R2.
      rewrite app_length in R2. cbn [length] in R2. rewrite Nat.add_1_r in R2.
      cbn [pred_level] in R2.
      assert (forall t, ~ In t (map d_target (d :: post)) -> netl2 t = with_combination n0 pre c t) as HA2.
      { intros t Ht. simpl in Ht. rewrite K2 by tauto. unfold netl1, assign.
        destruct (target_eqb t (d_target d)) eqn:E.
        - apply target_eqb_eq in E. exfalso; apply Ht; left; symmetry; assumption.
        - apply HA. simpl. assumption. }
      destruct (IHv netl2 (rns ++ rs2) HA2) as (netl3 & rs3 & R3 & K3 & F3).
      exists netl3, (rs2 ++ rs3). split; [|split].
      * eapply reaches_trans; [|eapply reaches_trans; [exact R2|]].
        -- apply reaches_step. unfold step. cbn [iter_no iters net runs].
           rewrite Hnth, Hnthi. rewrite <- Hip at 2. rewrite set_nth_app. reflexivity.
        -- rewrite <- app_assoc in R3. exact R3.
      * intros t Ht. rewrite K3, HA2, HA by assumption. reflexivity.
      * simpl. apply Forall2_app; [|assumption].
        clear - F2. revert rs2 F2. induction (combinations post) as [|x l IHl]; intros rs2 F2;
          inversion F2; subst; simpl; constructor.
        -- rewrite <- !app_assoc in *. assumption.
        -- apply IHl. assumption.
Qed.

Lemma run_all_correct dims n0 : all_reiterable dims ->
  exists n rs, (forall m, run_all (n + S m) dims n0 = Some rs)
    /\ Forall2 (fun c r => same_netlist r (with_combination n0 dims c)) (combinations dims) rs.
Proof.
  intros HR.
  destruct (odometer n0 dims [] [] [] n0 [] HR eq_refl eq_refl (fun _ _ => eq_refl))
    as (netl' & rs & [n Hn] & _ & F).
  exists n, rs. split; [|exact F].
  intros m. unfold run_all. simpl in Hn. rewrite Hn. reflexivity.
Qed.

Lemma combinations_length dims :
  length (combinations dims) = fold_right (fun d n => length (d_values d) * n) 1 dims.
Proof.
  induction dims as [|d dims IH]; simpl; [reflexivity|]. rewrite <- IH.
  induction (d_values d) as [|v vs IHv]; simpl; [reflexivity|].
  rewrite app_length, map_length, IHv. reflexivity.
Qed.

Lemma total_acc dims : (forall d, In d dims -> d_values d <> []) -> forall a,
  fold_left (fun total d => match length (d_values d) with O => total | l => total * l end)
            dims a
  = a * fold_right (fun d n => length (d_values d) * n) 1 dims.
Proof.
  induction dims as [|d dims IH]; intros H a; simpl; [lia|].
  rewrite IH by (intros; apply H; right; assumption).
  specialize (H d (or_introl eq_refl)). destruct (d_values d); [contradiction|]. simpl. lia.
Qed.

Lemma total_is_number_of_combinations dims : (forall d, In d dims -> d_values d <> []) ->
  total_number_of_simulations dims = length (combinations dims).
Proof.
  intros H. rewrite combinations_length. unfold total_number_of_simulations.
  rewrite (total_acc dims H 1). lia.
Qed.

Lemma loop_mono dims : forall f s r, loop f dims s = Some r -> forall k, loop (f + k) dims s = Some r.
Proof.
  induction f as [|f IH]; intros s r H k; [discriminate|]. simpl in *.
  destruct (step dims s); [apply IH; assumption|assumption].
Qed.

Lemma total_equals_runs dims n0 fuel rs :
  all_reiterable dims -> (forall d, In d dims -> d_values d <> []) ->
  run_all fuel dims n0 = Some rs -> length rs = total_number_of_simulations dims.
Proof.
  intros HR HN H. destruct (run_all_correct dims n0 HR) as (n & rs' & E & F).
  assert (rs = rs') as ->.
  { apply loop_mono with (k := n + 1) in H. specialize (E fuel).
    unfold run_all in E. replace (fuel + (n + 1)) with (n + S fuel) in H by lia. congruence. }
  rewrite total_is_number_of_combinations by assumption. symmetry. eapply Forall2_len; eassumption.
Qed.

(** The combinations are exactly the choice functions, without repetition when values are distinct. *)
Lemma combinations_In dims : forall c,
  In c (combinations dims) <-> Forall2 (fun v d => In v (d_values d)) c dims.
Proof.
  induction dims as [|d dims IH]; intros c; simpl.
  - split; [intros [<-|[]]; constructor|]. intros H; inversion H; auto.
  - rewrite in_flat_map. split.
    + intros (v & Hv & Hc). apply in_map_iff in Hc as (c' & <- & Hc'). constructor; [assumption|].
      apply IH; assumption.
    + intros H. inversion H as [|v d' c' ds Hv Hc']; subst. exists v. split; [assumption|].
      apply in_map, IH; assumption.
Qed.

Lemma NoDup_app_intro {A} (l r : list A) :
  NoDup l -> NoDup r -> (forall x, In x l -> ~ In x r) -> NoDup (l ++ r).
Proof.
  induction l as [|a l IH]; simpl; intros Hl Hr Hd; [assumption|].
  inversion Hl; subst. constructor.
  - rewrite in_app_iff. intros [H|H]; [contradiction|]. apply (Hd a); [left; reflexivity|assumption].
  - apply IH; [assumption|assumption|]. intros x Hx; apply Hd; right; assumption.
Qed.

Lemma combinations_NoDup dims : (forall d, In d dims -> NoDup (d_values d)) -> NoDup (combinations dims).
Proof.
  induction dims as [|d dims IH]; intros H; simpl.
  - repeat constructor. intros [].
  - assert (NoDup (combinations dims)) as Hc by (apply IH; intros; apply H; right; assumption).
    specialize (H d (or_introl eq_refl)).
    induction (d_values d) as [|v vs IHv]; simpl; [constructor|].
    inversion H; subst. apply NoDup_app_intro.
    + apply FinFun.Injective_map_NoDup; [|assumption]. intros a b E; injection E; auto.
    + apply IHv; assumption.
    + intros x Hx Hy. apply in_map_iff in Hx as (c & <- & _).
      apply in_flat_map in Hy as (v' & Hv' & Hy). apply in_map_iff in Hy as (c' & E & _).
      injection E as E _. subst. contradiction.
Qed.

(** Targets of a combination. *)
Lemma with_combination_other dims : forall n0 c t, ~ In t (map d_target dims) ->
  with_combination n0 dims c t = n0 t.
Proof.
  induction dims as [|d dims IH]; intros n0 c t H; [reflexivity|].
  destruct c as [|v c]; [reflexivity|]. simpl in *. rewrite IH by tauto. unfold assign.
  destruct (target_eqb t (d_target d)) eqn:E; [|reflexivity].
  apply target_eqb_eq in E. exfalso; apply H; left; symmetry; assumption.
Qed.

Lemma with_combination_lookup dims : NoDup (map d_target dims) -> forall n0 c i d v,
  nth_error dims i = Some d -> nth_error c i = Some v ->
  with_combination n0 dims c (d_target d) = Some v.
Proof.
  induction dims as [|x dims IH]; intros ND n0 c i d v Hd Hv; [destruct i; discriminate|].
  inversion ND; subst. destruct c as [|y c]; [destruct i; discriminate|].
  destruct i as [|i]; simpl in *.
  - injection Hd as ->; injection Hv as ->. rewrite with_combination_other by assumption.
    unfold assign. replace (target_eqb (d_target d) (d_target d)) with true; [reflexivity|].
    symmetry; apply target_eqb_eq; reflexivity.
  - eapply IH; eassumption.
Qed.
