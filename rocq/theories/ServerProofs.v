From Coq Require Import List Bool Arith Lia Permutation.
From Verif Require Import ServerModel ServerSpec.
Import ListNotations.

Lemma NoDup_map_filter : forall {A B} (g : A -> B) (f : A -> bool) l, NoDup (map g l) -> NoDup (map g (filter f l)).
Proof.
  intros A B g f l. induction l as [|e l IH]; simpl; intros H; [constructor|].
  inversion H; subst. destruct (f e); simpl; [|apply IH; assumption].
  constructor; [|apply IH; assumption]. intros G. apply H2. apply in_map_iff in G.
  destruct G as [x [Ex Hx]]. apply filter_In in Hx. apply in_map_iff. exists x. split; [exact Ex|apply Hx].
Qed.

Lemma memb_In : forall n l, memb n l = true <-> In n l.
Proof.
  intros n l. unfold memb. rewrite existsb_exists. split.
  - intros [x [Hx E]]. apply Nat.eqb_eq in E. subst. exact Hx.
  - intros H. exists n. split; [exact H|apply Nat.eqb_refl].
Qed.
Lemma memb_not_In : forall n l, memb n l = false <-> ~ In n l.
Proof. intros n l. rewrite <- memb_In. destruct (memb n l); split; congruence. Qed.

Lemma lookup_In : forall s l v, lookup s l = Some v -> In (s, v) l.
Proof.
  intros s l. induction l as [|[k w] l IH]; simpl; intros v H; [discriminate|].
  destruct (Nat.eqb k s) eqn:E.
  - apply Nat.eqb_eq in E. injection H as <-. subst. left. reflexivity.
  - right. apply IH. exact H.
Qed.
Lemma lookup_None : forall s l, lookup s l = None <-> ~ In s (map fst l).
Proof.
  intros s l. induction l as [|[k w] l IH]; simpl; [split; [intros _ []|reflexivity]|].
  destruct (Nat.eqb k s) eqn:E.
  - apply Nat.eqb_eq in E. split; [discriminate|]. intros H. exfalso. apply H. left. exact E.
  - apply Nat.eqb_neq in E. rewrite IH. split; intros H; [intros [G|G]; [contradiction|exact (H G)]|].
    intros G. apply H. right. exact G.
Qed.

Lemma lookup_append : forall s n l s', lookup s' (append_run s n l) =
  if Nat.eqb s s' then match lookup s l with Some v => Some (v ++ [n]) | None => None end
  else lookup s' l.
Proof.
  intros s n l s'. induction l as [|[k w] l IH]; simpl.
  - destruct (Nat.eqb s s'); reflexivity.
  - destruct (Nat.eqb k s) eqn:E; simpl.
    + apply Nat.eqb_eq in E. subst k. destruct (Nat.eqb s s'); reflexivity.
    + rewrite IH. destruct (Nat.eqb s s') eqn:E2; [|reflexivity].
      apply Nat.eqb_eq in E2. subst s'. rewrite E. reflexivity.
Qed.
Lemma append_keys : forall s n l, map fst (append_run s n l) = map fst l.
Proof.
  intros s n l. induction l as [|[k w] l IH]; simpl; [reflexivity|].
  destruct (Nat.eqb k s); simpl; [reflexivity|]. rewrite IH. reflexivity.
Qed.
Lemma lookup_drop : forall s l s', lookup s' (drop_session s l) =
  if Nat.eqb s s' then None else lookup s' l.
Proof.
  intros s l s'. unfold drop_session. induction l as [|[k w] l IH]; simpl.
  - destruct (Nat.eqb s s'); reflexivity.
  - destruct (Nat.eqb k s) eqn:E; simpl.
    + rewrite IH. apply Nat.eqb_eq in E. subst k. destruct (Nat.eqb s s'); reflexivity.
    + rewrite IH. destruct (Nat.eqb s s') eqn:E2; [|reflexivity].
      apply Nat.eqb_eq in E2. subst s'. rewrite E. reflexivity.
Qed.

Lemma erase_In : forall n l m z, m <> n -> (In (m, z) (erase n l) <-> In (m, z) l).
Proof.
  intros n l m z Hm. induction l as [|[k w] l IH]; simpl; [tauto|].
  destruct (Nat.eqb k n) eqn:E.
  - apply Nat.eqb_eq in E. subst k. split; [auto|]. intros [G|G]; [congruence|exact G].
  - simpl. rewrite IH. tauto.
Qed.
Lemma erase_incl : forall n l e, In e (erase n l) -> In e l.
Proof.
  intros n l e. induction l as [|x l IH]; simpl; [auto|].
  destruct (Nat.eqb (fst x) n); simpl; [auto|]. intros [H|H]; auto.
Qed.
Lemma erase_gone : forall n l, NoDup (map fst l) -> ~ In n (map fst (erase n l)).
Proof.
  intros n l. induction l as [|[k w] l IH]; simpl; intros H; [auto|].
  inversion H; subst. destruct (Nat.eqb k n) eqn:E.
  - apply Nat.eqb_eq in E. subst. assumption.
  - simpl. intros [G|G]; [apply Nat.eqb_neq in E; contradiction|]. apply IH; assumption.
Qed.
Lemma erase_NoDup : forall n l, NoDup (map fst l) -> NoDup (map fst (erase n l)).
Proof.
  intros n l. induction l as [|[k w] l IH]; simpl; intros H; [exact H|].
  inversion H; subst. destruct (Nat.eqb k n); [assumption|]. simpl. constructor; [|apply IH; assumption].
  intros G. apply in_map_iff in G. destruct G as [e [Ee Ge]]. apply erase_incl in Ge.
  apply H2. apply in_map_iff. exists e. split; assumption.
Qed.

Definition erase_all (runs : list nat) (l : list (nat * option archive)) :=
  fold_left (fun f n => erase n f) runs l.

Lemma erase_all_In : forall runs l m z, ~ In m runs -> (In (m, z) (erase_all runs l) <-> In (m, z) l).
Proof.
  induction runs as [|n runs IH]; intros l m z H; simpl; [tauto|].
  unfold erase_all in *. simpl. rewrite IH by (intros G; apply H; right; exact G).
  apply erase_In. intros ->. apply H. left. reflexivity.
Qed.
Lemma erase_all_incl : forall runs l e, In e (erase_all runs l) -> In e l.
Proof.
  induction runs as [|n runs IH]; intros l e; simpl; [auto|]. intros H.
  apply IH in H. apply erase_incl in H. exact H.
Qed.
Lemma erase_all_NoDup : forall runs l, NoDup (map fst l) -> NoDup (map fst (erase_all runs l)).
Proof.
  induction runs as [|n runs IH]; intros l H; simpl; [exact H|]. apply IH. apply erase_NoDup. exact H.
Qed.
Lemma erase_all_gone : forall runs l n, NoDup (map fst l) -> In n runs -> ~ In n (map fst (erase_all runs l)).
Proof.
  induction runs as [|m runs IH]; intros l n H Hi; [destruct Hi|]. simpl.
  destruct Hi as [->|Hi].
  - intros G. apply in_map_iff in G. destruct G as [e [Ee Ge]]. apply erase_all_incl in Ge.
    apply (erase_gone n l H). apply in_map_iff. exists e. split; assumption.
  - apply IH; [apply erase_NoDup; exact H|exact Hi].
Qed.

Lemma find_zip_In : forall n l a, find_zip n l = Some a -> In (n, Some a) l.
Proof.
  intros n l a. induction l as [|[m z] l IH]; simpl; intros H; [discriminate|].
  destruct (Nat.eqb n m) eqn:E.
  - apply Nat.eqb_eq in E. subst m. destruct z as [b|].
    + injection H as <-. left. reflexivity.
    + right. apply IH. exact H.
  - right. apply IH. exact H.
Qed.
Lemma find_zip_In_inv : forall n l a, NoDup (map fst l) -> In (n, Some a) l -> find_zip n l = Some a.
Proof.
  intros n l a. induction l as [|[m z] l IH]; simpl; intros H Hi; [destruct Hi|].
  inversion H as [|? ? Hn Hl]; subst. destruct Hi as [Hi|Hi].
  - injection Hi as -> ->. rewrite Nat.eqb_refl. reflexivity.
  - destruct (Nat.eqb n m) eqn:E.
    + exfalso. apply Nat.eqb_eq in E. subst m. apply Hn. apply in_map_iff. exists (n, Some a).
      split; [reflexivity|exact Hi].
    + apply IH; assumption.
Qed.

(** * The server invariant *)
Record SInv (v : server) (h : history) : Prop := MkSInv {
  s_keys : NoDup (map fst (sessions v));
  s_used : forall s, In s (map fst (sessions v)) -> In s (used v);
  s_used_h : forall s, In s (used v) <-> In (OpStart s, RNone) h;
  s_open : forall s, In s (map fst (sessions v)) <-> is_open h s;
  s_closed_used : forall s, In (OpClose s, RBool true) h -> In s (used v);
  s_owner_used : forall n s, owner h n s -> In s (used v);
  s_runs : forall s runs, lookup s (sessions v) = Some runs -> forall n, In n runs <-> owner h n s;
  s_owner_le : forall n s, owner h n s -> n <= next_run v;
  s_owner_uniq : forall n s s', owner h n s -> owner h n s' -> s = s';
  s_pend_le : forall n, In n (pending v) -> n <= next_run v;
  s_pend_owner : forall n, In n (pending v) -> exists s, owner h n s;
  s_fin_nodup : NoDup (map fst (finished v));
  s_fin_le : forall n z, In (n, z) (finished v) -> n <= next_run v;
  s_fin_ended : forall n z, In (n, z) (finished v) -> ended h n z;
  s_ended_not_pend : forall n z, ended h n z -> ~ In n (pending v);
  s_ended_uniq : forall n z z', ended h n z -> ended h n z' -> z = z';
  s_ended_le : forall n z, ended h n z -> n <= next_run v;
  s_deliv : forall n, delivered h n -> ~ In n (map fst (finished v)) /\ exists z, ended h n z;
  s_deliv_own : forall s n a, In (OpGet s n, RFiles a) h -> owner h n s /\ ended h n (Some a);
  s_deliv_once : NoDup (deliveries h);
  s_avail : forall n z s, owner h n s -> ended h n z -> ~ delivered h n -> is_open h s -> In (n, z) (finished v);
  s_status_own : forall s l n, In (OpStatus s, RStatus l) h -> In n l -> owner h n s }.

Ltac in_snoc H := apply in_app_or in H; destruct H as [H|[H|[]]].

Lemma snoc_In : forall (h : history) e x, In x (h ++ [e]) <-> In x h \/ x = e.
Proof.
  intros h e x. rewrite in_app_iff. simpl. split; intros [H|H]; auto.
  destruct H as [H|[]]. auto.
Qed.

(** An event that is not of the kinds counted in the invariant. *)
Definition neutral (e : op * resp) : Prop :=
  match e with
  | (OpStart _, _) => False | (OpRun _ _, RRun _) => False | (OpFinish _ _, _) => False
  | (OpGet _ _, RFiles _) => False | (OpClose _, RBool true) => False
  | (OpStatus _, RStatus (_ :: _)) => False | _ => True
  end.

Lemma deliveries_app : forall a b, deliveries (a ++ b) = deliveries a ++ deliveries b.
Proof. intros a b. apply flat_map_app. Qed.

Lemma In_deliveries : forall h n, In n (deliveries h) <-> delivered h n.
Proof.
  intros h n. unfold deliveries, delivered. rewrite in_flat_map. split.
  - intros [[o r] [Hi He]]. destruct o; try destruct He. destruct r; try destruct He as [He|[]]; try contradiction.
    subst. exists s, a. exact Hi.
  - intros [s [a Hi]]. exists (OpGet s n, RFiles a). split; [exact Hi|left; reflexivity].
Qed.

Lemma sinv_neutral : forall v h e, SInv v h -> neutral e -> SInv v (h ++ [e]).
Proof.
  intros v h [o r] H Hn.
  assert (forall n s, owner (h ++ [(o, r)]) n s <-> owner h n s) as EO.
  { intros n s. unfold owner. rewrite snoc_In. split; [|auto]. intros [G|G]; [exact G|].
    injection G as <- <-. destruct Hn. }
  assert (forall n z, ended (h ++ [(o, r)]) n z <-> ended h n z) as EE.
  { intros n z. unfold ended. rewrite snoc_In. split; [|auto]. intros [G|G]; [exact G|].
    injection G as <- <-. destruct Hn. }
  assert (forall s, In (OpStart s, RNone) (h ++ [(o, r)]) <-> In (OpStart s, RNone) h) as ES.
  { intros s. rewrite snoc_In. split; [|auto]. intros [G|G]; [exact G|].
    injection G as <- <-. destruct Hn. }
  assert (forall s, In (OpClose s, RBool true) (h ++ [(o, r)]) <-> In (OpClose s, RBool true) h) as EC.
  { intros s. rewrite snoc_In. split; [|auto]. intros [G|G]; [exact G|].
    injection G as <- <-. destruct Hn. }
  assert (forall s n a, In (OpGet s n, RFiles a) (h ++ [(o, r)]) <-> In (OpGet s n, RFiles a) h) as EG.
  { intros s n a. rewrite snoc_In. split; [|auto]. intros [G|G]; [exact G|].
    injection G as <- <-. destruct Hn. }
  assert (forall n, delivered (h ++ [(o, r)]) n <-> delivered h n) as ED.
  { intros n. unfold delivered. split; intros [s [a G]]; exists s, a; apply EG; exact G. }
  assert (forall s, is_open (h ++ [(o, r)]) s <-> is_open h s) as EI.
  { intros s. unfold is_open. rewrite ES, EC. tauto. }
  destruct H. constructor; try assumption.
  - intros s. rewrite ES. apply s_used_h0.
  - intros s. rewrite EI. apply s_open0.
  - intros s. rewrite EC. apply s_closed_used0.
  - intros n s. rewrite EO. apply s_owner_used0.
  - intros s runs Hl n. rewrite EO. apply s_runs0. exact Hl.
  - intros n s. rewrite EO. apply s_owner_le0.
  - intros n s s'. rewrite !EO. apply s_owner_uniq0.
  - intros n Hi. destruct (s_pend_owner0 n Hi) as [s Hs]. exists s. apply EO. exact Hs.
  - intros n z Hi. apply EE. apply s_fin_ended0. exact Hi.
  - intros n z. rewrite EE. apply s_ended_not_pend0.
  - intros n z z'. rewrite !EE. apply s_ended_uniq0.
  - intros n z. rewrite EE. apply s_ended_le0.
  - intros n. rewrite ED. intros Hd. destruct (s_deliv0 n Hd) as [A [z B]]. split; [exact A|].
    exists z. apply EE. exact B.
  - intros s n a. rewrite EG, EO, EE. apply s_deliv_own0.
  - rewrite deliveries_app. simpl.
    destruct o; simpl; rewrite ?app_nil_r; try assumption.
    destruct r; simpl; rewrite ?app_nil_r; try assumption. destruct Hn.
  - intros n z s. rewrite EO, EE, ED, EI. apply s_avail0.
  - intros s l n. rewrite snoc_In, EO. intros [G|G] Hi; [apply (s_status_own0 s l n G Hi)|].
    injection G as <- <-. destruct l; [destruct Hi|destruct Hn].
Qed.

Lemma sinv_step : forall v h o v' r, SInv v h -> sstep v o = Some (v', r) -> SInv v' (h ++ [(o, r)]).
Proof.
  intros v h o v' r H Hs. pose proof H as Hsave.
  destruct o as [s|s acc|n z|s|s n|s]; simpl in Hs.
  - (* start *)
    destruct (memb s (used v)) eqn:Eu; [discriminate|]. apply memb_not_In in Eu.
    injection Hs as <- <-.
    assert (forall n s', owner (h ++ [(OpStart s, RNone)]) n s' <-> owner h n s') as EO.
    { intros n s'. unfold owner. rewrite snoc_In. split; [|auto]. intros [G|G]; [exact G|discriminate]. }
    assert (forall n z, ended (h ++ [(OpStart s, RNone)]) n z <-> ended h n z) as EE.
    { intros n z. unfold ended. rewrite snoc_In. split; [|auto]. intros [G|G]; [exact G|discriminate]. }
    assert (forall s' n a, In (OpGet s' n, RFiles a) (h ++ [(OpStart s, RNone)]) <-> In (OpGet s' n, RFiles a) h) as EG.
    { intros s' n a. rewrite snoc_In. split; [|auto]. intros [G|G]; [exact G|discriminate]. }
    assert (forall n, delivered (h ++ [(OpStart s, RNone)]) n <-> delivered h n) as ED.
    { intros n. unfold delivered. split; intros [s' [a G]]; exists s', a; apply EG; exact G. }
    assert (forall s', In (OpStart s', RNone) (h ++ [(OpStart s, RNone)]) <-> s' = s \/ In (OpStart s', RNone) h) as ES.
    { intros s'. rewrite snoc_In. split; intros [G|G]; auto.
      - left. injection G as ->. reflexivity.
      - right. subst. reflexivity. }
    assert (forall s', In (OpClose s', RBool true) (h ++ [(OpStart s, RNone)]) <-> In (OpClose s', RBool true) h) as EC.
    { intros s'. rewrite snoc_In. split; [|auto]. intros [G|G]; [exact G|discriminate]. }
    destruct H. constructor; simpl.
    + constructor; [|assumption]. intros G. apply Eu. apply s_used0. exact G.
    + intros s' [G|G]; [left; exact G|right; apply s_used0; exact G].
    + intros s'. rewrite ES, <- s_used_h0. split; intros [G|G]; auto.
    + intros s'. unfold is_open. rewrite ES, EC. split.
      * intros [<-|G].
        -- split; [left; reflexivity|]. intros G. apply Eu. apply s_closed_used0. exact G.
        -- apply s_open0 in G. destruct G as [G1 G2]. split; [right; exact G1|exact G2].
      * intros [[->|G1] G2]; [left; reflexivity|]. right. apply s_open0. split; assumption.
    + intros s'. rewrite EC. intros G. right. apply s_closed_used0. exact G.
    + intros n s'. rewrite EO. intros G. right. eapply s_owner_used0. exact G.
    + intros s' runs. destruct (Nat.eqb s s') eqn:E.
      * intros G n. injection G as <-. apply Nat.eqb_eq in E. subst s'. rewrite EO. split; [intros []|].
        intros G. exfalso. apply Eu. eapply s_owner_used0. exact G.
      * intros G n. rewrite EO. apply s_runs0. exact G.
    + intros n s'. rewrite EO. apply s_owner_le0.
    + intros n s1 s2. rewrite !EO. apply s_owner_uniq0.
    + assumption.
    + intros n Hi. destruct (s_pend_owner0 n Hi) as [s' Hs']. exists s'. apply EO. exact Hs'.
    + assumption.
    + assumption.
    + intros n z Hi. apply EE. apply s_fin_ended0. exact Hi.
    + intros n z. rewrite EE. apply s_ended_not_pend0.
    + intros n z z'. rewrite !EE. apply s_ended_uniq0.
    + intros n z. rewrite EE. apply s_ended_le0.
    + intros n. rewrite ED. intros Hd. destruct (s_deliv0 n Hd) as [A [z B]]. split; [exact A|].
      exists z. apply EE. exact B.
    + intros s' n a. rewrite EG, EO, EE. apply s_deliv_own0.
    + rewrite deliveries_app. simpl. rewrite app_nil_r. assumption.
    + intros n z s'. rewrite EO, EE, ED. intros Ho He Hd [Hp1 Hp2]. rewrite ES in Hp1. rewrite EC in Hp2.
      apply (s_avail0 n z s' Ho He Hd). split; [|exact Hp2].
      destruct Hp1 as [->|Hp1]; [|exact Hp1]. exfalso. apply Eu. eapply s_owner_used0. exact Ho.
    + intros s' l n. rewrite snoc_In, EO. intros [G|G] Hi; [apply (s_status_own0 s' l n G Hi)|discriminate].
  - (* run *)
    destruct (lookup s (sessions v)) as [runs|] eqn:El.
    2:{ injection Hs as <- <-. apply sinv_neutral; [exact H|exact I]. }
    destruct acc.
    2:{ injection Hs as <- <-. apply sinv_neutral; [|exact I]. destruct H. constructor; simpl; try assumption.
        - intros n s' G. specialize (s_owner_le0 n s' G). lia.
        - intros n G. specialize (s_pend_le0 n G). lia.
        - intros n z G. specialize (s_fin_le0 n z G). lia.
        - intros n z G. specialize (s_ended_le0 n z G). lia. }
    injection Hs as <- <-. set (m := S (next_run v)) in *.
    assert (forall n s', owner (h ++ [(OpRun s true, RRun m)]) n s' <-> owner h n s' \/ (n = m /\ s' = s)) as EO.
    { intros n s'. unfold owner. rewrite snoc_In. split.
      - intros [G|G]; [left; exact G|]. injection G as -> ->. right. split; reflexivity.
      - intros [G|[-> ->]]; [left; exact G|right; reflexivity]. }
    assert (forall n z, ended (h ++ [(OpRun s true, RRun m)]) n z <-> ended h n z) as EE.
    { intros n z. unfold ended. rewrite snoc_In. split; [|auto]. intros [G|G]; [exact G|discriminate]. }
    assert (forall s' n a, In (OpGet s' n, RFiles a) (h ++ [(OpRun s true, RRun m)]) <-> In (OpGet s' n, RFiles a) h) as EG.
    { intros s' n a. rewrite snoc_In. split; [|auto]. intros [G|G]; [exact G|discriminate]. }
    assert (forall n, delivered (h ++ [(OpRun s true, RRun m)]) n <-> delivered h n) as ED.
    { intros n. unfold delivered. split; intros [s' [a G]]; exists s', a; apply EG; exact G. }
    assert (forall s', In (OpStart s', RNone) (h ++ [(OpRun s true, RRun m)]) <-> In (OpStart s', RNone) h) as ES.
    { intros s'. rewrite snoc_In. split; [|auto]. intros [G|G]; [exact G|discriminate]. }
    assert (forall s', In (OpClose s', RBool true) (h ++ [(OpRun s true, RRun m)]) <-> In (OpClose s', RBool true) h) as EC.
    { intros s'. rewrite snoc_In. split; [|auto]. intros [G|G]; [exact G|discriminate]. }
    assert (In s (map fst (sessions v))) as Hs_in.
    { destruct (in_dec Nat.eq_dec s (map fst (sessions v))) as [G|G]; [exact G|].
      apply lookup_None in G. congruence. }
    destruct H. constructor; simpl.
    + rewrite append_keys. assumption.
    + rewrite append_keys. assumption.
    + intros s'. rewrite ES. apply s_used_h0.
    + intros s'. rewrite append_keys. unfold is_open. rewrite ES, EC. apply s_open0.
    + intros s'. rewrite EC. apply s_closed_used0.
    + intros n s'. rewrite EO. intros [G|[-> ->]]; [eapply s_owner_used0; exact G|]. apply s_used0. exact Hs_in.
    + intros s' rs. rewrite lookup_append. destruct (Nat.eqb s s') eqn:E.
      * apply Nat.eqb_eq in E. subst s'. rewrite El. intros G n. injection G as <-.
        rewrite in_app_iff, EO, (s_runs0 s runs El n). simpl. split.
        -- intros [G|[G|[]]]; [left; exact G|right; auto].
        -- intros [G|[G _]]; [left; exact G|right; left; congruence].
      * intros G n. rewrite EO, (s_runs0 s' rs G n). split; [auto|].
        intros [K|[_ K]]; [exact K|]. subst s'. rewrite Nat.eqb_refl in E. discriminate.
    + intros n s'. rewrite EO. intros [G|[-> _]]; [|unfold m; lia]. specialize (s_owner_le0 n s' G). unfold m. lia.
    + intros n s1 s2. rewrite !EO. intros [G1|[G1 G1']] [G2|[G2 G2']].
      * eapply s_owner_uniq0; eassumption.
      * exfalso. specialize (s_owner_le0 n s1 G1). unfold m in G2. lia.
      * exfalso. specialize (s_owner_le0 n s2 G2). unfold m in G1. lia.
      * congruence.
    + intros n [G|G]; [unfold m in *; lia|]. specialize (s_pend_le0 n G). unfold m. lia.
    + intros n [G|G].
      * exists s. apply EO. right. split; [congruence|reflexivity].
      * destruct (s_pend_owner0 n G) as [s' Hs']. exists s'. apply EO. left. exact Hs'.
    + assumption.
    + intros n z G. specialize (s_fin_le0 n z G). unfold m. lia.
    + intros n z Hi. apply EE. apply s_fin_ended0. exact Hi.
    + intros n z. rewrite EE. intros G [K|K].
      * specialize (s_ended_le0 n z G). unfold m in K. lia.
      * exact (s_ended_not_pend0 n z G K).
    + intros n z z'. rewrite !EE. apply s_ended_uniq0.
    + intros n z. rewrite EE. intros G. specialize (s_ended_le0 n z G). unfold m. lia.
    + intros n. rewrite ED. intros Hd. destruct (s_deliv0 n Hd) as [A [z B]]. split; [exact A|].
      exists z. apply EE. exact B.
    + intros s' n a. rewrite EG, EO, EE. intros G. destruct (s_deliv_own0 s' n a G) as [A B].
      split; [left; exact A|exact B].
    + rewrite deliveries_app. simpl. rewrite app_nil_r. assumption.
    + intros n z s'. rewrite EO, EE, ED. unfold is_open. rewrite ES, EC. intros [Ho|[-> ->]] He Hd Hp.
      * apply (s_avail0 n z s' Ho He Hd Hp).
      * exfalso. specialize (s_ended_le0 m z He). unfold m in s_ended_le0. lia.
    + intros s' l n. rewrite snoc_In, EO. intros [G|G] Hi; [left; apply (s_status_own0 s' l n G Hi)|discriminate].
  - (* finish *)
    destruct (memb n (pending v)) eqn:Ep; [|discriminate]. apply memb_In in Ep. injection Hs as <- <-.
    assert (forall m s', owner (h ++ [(OpFinish n z, RNone)]) m s' <-> owner h m s') as EO.
    { intros m s'. unfold owner. rewrite snoc_In. split; [|auto]. intros [G|G]; [exact G|discriminate]. }
    assert (forall m y, ended (h ++ [(OpFinish n z, RNone)]) m y <-> ended h m y \/ (m = n /\ y = z)) as EE.
    { intros m y. unfold ended. rewrite snoc_In. split.
      - intros [G|G]; [left; exact G|]. injection G as -> ->. auto.
      - intros [G|[-> ->]]; auto. }
    assert (forall s' m a, In (OpGet s' m, RFiles a) (h ++ [(OpFinish n z, RNone)]) <-> In (OpGet s' m, RFiles a) h) as EG.
    { intros s' m a. rewrite snoc_In. split; [|auto]. intros [G|G]; [exact G|discriminate]. }
    assert (forall m, delivered (h ++ [(OpFinish n z, RNone)]) m <-> delivered h m) as ED.
    { intros m. unfold delivered. split; intros [s' [a G]]; exists s', a; apply EG; exact G. }
    assert (forall s', In (OpStart s', RNone) (h ++ [(OpFinish n z, RNone)]) <-> In (OpStart s', RNone) h) as ES.
    { intros s'. rewrite snoc_In. split; [|auto]. intros [G|G]; [exact G|discriminate]. }
    assert (forall s', In (OpClose s', RBool true) (h ++ [(OpFinish n z, RNone)]) <-> In (OpClose s', RBool true) h) as EC.
    { intros s'. rewrite snoc_In. split; [|auto]. intros [G|G]; [exact G|discriminate]. }
    destruct H. constructor; simpl; try assumption.
    + intros s'. rewrite ES. apply s_used_h0.
    + intros s'. unfold is_open. rewrite ES, EC. apply s_open0.
    + intros s'. rewrite EC. apply s_closed_used0.
    + intros m s'. rewrite EO. apply s_owner_used0.
    + intros s' rs Hl m. rewrite EO. apply s_runs0. exact Hl.
    + intros m s'. rewrite EO. apply s_owner_le0.
    + intros m s1 s2. rewrite !EO. apply s_owner_uniq0.
    + intros m Hi. apply filter_In in Hi. apply s_pend_le0. apply Hi.
    + intros m Hi. apply filter_In in Hi. destruct (s_pend_owner0 m (proj1 Hi)) as [s' Hs']. exists s'. apply EO. exact Hs'.
    + rewrite map_app. simpl. apply (Permutation_NoDup (l := n :: map fst (finished v))).
      * apply Permutation_cons_append.
      * constructor; [|assumption]. intros G. apply in_map_iff in G. destruct G as [[k y] [Ek Gk]].
        simpl in Ek. subst k. exact (s_ended_not_pend0 n y (s_fin_ended0 n y Gk) Ep).
    + intros m y Hi. apply in_app_or in Hi. destruct Hi as [Hi|[Hi|[]]]; [eapply s_fin_le0; exact Hi|].
      injection Hi as <- <-. apply s_pend_le0. exact Ep.
    + intros m y Hi. apply EE. apply in_app_or in Hi. destruct Hi as [Hi|[Hi|[]]].
      * left. apply s_fin_ended0. exact Hi.
      * injection Hi as <- <-. right. split; reflexivity.
    + intros m y. rewrite EE. intros [G|[-> _]] K; apply filter_In in K; destruct K as [K1 K2].
      * exact (s_ended_not_pend0 m y G K1).
      * rewrite Nat.eqb_refl in K2. discriminate.
    + intros m y y'. rewrite !EE. intros [G1|[G1 G1']] [G2|[G2 G2']].
      * eapply s_ended_uniq0; eassumption.
      * subst m. exfalso. exact (s_ended_not_pend0 n y G1 Ep).
      * subst m. exfalso. exact (s_ended_not_pend0 n y' G2 Ep).
      * congruence.
    + intros m y. rewrite EE. intros [G|[-> _]]; [eapply s_ended_le0; exact G|apply s_pend_le0; exact Ep].
    + intros m. rewrite ED. intros Hd. destruct (s_deliv0 m Hd) as [A [y B]]. split.
      * rewrite map_app. intros G. apply in_app_or in G. destruct G as [G|[G|[]]]; [exact (A G)|].
        simpl in G. subst m. exact (s_ended_not_pend0 n y B Ep).
      * exists y. apply EE. left. exact B.
    + intros s' m a. rewrite EG, EO, EE. intros G. destruct (s_deliv_own0 s' m a G) as [A B]. split; [exact A|left; exact B].
    + rewrite deliveries_app. simpl. rewrite app_nil_r. assumption.
    + intros m y s'. rewrite EO, EE, ED. unfold is_open. rewrite ES, EC. intros Ho [He|[-> ->]] Hd Hp; apply in_or_app.
      * left. apply (s_avail0 m y s' Ho He Hd Hp).
      * right. left. reflexivity.
    + intros s' l m. rewrite snoc_In, EO. intros [G|G] Hi; [apply (s_status_own0 s' l m G Hi)|discriminate].
  - (* status *)
    destruct (finished v) as [|e0 l0] eqn:Ef.
    { injection Hs as <- <-. apply sinv_neutral; [exact H|exact I]. }
    destruct (lookup s (sessions v)) as [runs|] eqn:El.
    2:{ injection Hs as <- <-. apply sinv_neutral; [exact H|exact I]. }
    rewrite <- Ef in Hs. injection Hs as <- <-.
    set (lst := filter (fun n => memb n runs) (map fst (finished v))).
    assert (forall n, In n lst -> owner h n s) as Hlst.
    { intros n Hn. unfold lst in Hn. apply filter_In in Hn. destruct Hn as [_ Hn]. apply memb_In in Hn.
      apply (s_runs _ _ H s runs El). exact Hn. }
    assert (forall n s', owner (h ++ [(OpStatus s, RStatus lst)]) n s' <-> owner h n s') as EO.
    { intros n s'. unfold owner. rewrite snoc_In. split; [|auto]. intros [G|G]; [exact G|discriminate]. }
    assert (forall n z, ended (h ++ [(OpStatus s, RStatus lst)]) n z <-> ended h n z) as EE.
    { intros n z. unfold ended. rewrite snoc_In. split; [|auto]. intros [G|G]; [exact G|discriminate]. }
    assert (forall s' n a, In (OpGet s' n, RFiles a) (h ++ [(OpStatus s, RStatus lst)]) <-> In (OpGet s' n, RFiles a) h) as EG.
    { intros s' n a. rewrite snoc_In. split; [|auto]. intros [G|G]; [exact G|discriminate]. }
    assert (forall n, delivered (h ++ [(OpStatus s, RStatus lst)]) n <-> delivered h n) as ED.
    { intros n. unfold delivered. split; intros [s' [a G]]; exists s', a; apply EG; exact G. }
    assert (forall s', In (OpStart s', RNone) (h ++ [(OpStatus s, RStatus lst)]) <-> In (OpStart s', RNone) h) as ES.
    { intros s'. rewrite snoc_In. split; [|auto]. intros [G|G]; [exact G|discriminate]. }
    assert (forall s', In (OpClose s', RBool true) (h ++ [(OpStatus s, RStatus lst)]) <-> In (OpClose s', RBool true) h) as EC.
    { intros s'. rewrite snoc_In. split; [|auto]. intros [G|G]; [exact G|discriminate]. }
    destruct H. constructor; try assumption.
    + intros s'. rewrite ES. apply s_used_h0.
    + intros s'. unfold is_open. rewrite ES, EC. apply s_open0.
    + intros s'. rewrite EC. apply s_closed_used0.
    + intros n s'. rewrite EO. apply s_owner_used0.
    + intros s' rs Hl n. rewrite EO. apply s_runs0. exact Hl.
    + intros n s'. rewrite EO. apply s_owner_le0.
    + intros n s1 s2. rewrite !EO. apply s_owner_uniq0.
    + intros n Hi. destruct (s_pend_owner0 n Hi) as [s' Hs']. exists s'. apply EO. exact Hs'.
    + intros n z Hi. apply EE. apply s_fin_ended0. exact Hi.
    + intros n z. rewrite EE. apply s_ended_not_pend0.
    + intros n z z'. rewrite !EE. apply s_ended_uniq0.
    + intros n z. rewrite EE. apply s_ended_le0.
    + intros n. rewrite ED. intros Hd. destruct (s_deliv0 n Hd) as [A [z B]]. split; [exact A|].
      exists z. apply EE. exact B.
    + intros s' n a. rewrite EG, EO, EE. apply s_deliv_own0.
    + rewrite deliveries_app. simpl. rewrite app_nil_r. assumption.
    + intros n z s'. rewrite EO, EE, ED. unfold is_open. rewrite ES, EC. apply s_avail0.
    + intros s' l n. rewrite snoc_In, EO. intros [G|G] Hi; [apply (s_status_own0 s' l n G Hi)|].
      injection G as -> ->. apply Hlst. exact Hi.
  - (* get *)
    destruct (lookup s (sessions v)) as [runs|] eqn:El.
    2:{ injection Hs as <- <-. apply sinv_neutral; [exact H|exact I]. }
    destruct (memb n runs) eqn:Em.
    2:{ injection Hs as <- <-. apply sinv_neutral; [exact H|exact I]. }
    destruct (find_zip n (finished v)) as [a|] eqn:Ez.
    2:{ injection Hs as <- <-. apply sinv_neutral; [exact H|exact I]. }
    injection Hs as <- <-. apply memb_In in Em. apply find_zip_In in Ez.
    assert (owner h n s) as Hown. { apply (s_runs _ _ H s runs El). exact Em. }
    assert (ended h n (Some a)) as Hend. { apply (s_fin_ended _ _ H). exact Ez. }
    assert (~ delivered h n) as Hnd.
    { intros G. destruct (s_deliv _ _ H n G) as [G1 _]. apply G1. apply in_map_iff.
      exists (n, Some a). split; [reflexivity|exact Ez]. }
    assert (forall m s', owner (h ++ [(OpGet s n, RFiles a)]) m s' <-> owner h m s') as EO.
    { intros m s'. unfold owner. rewrite snoc_In. split; [|auto]. intros [G|G]; [exact G|discriminate]. }
    assert (forall m z, ended (h ++ [(OpGet s n, RFiles a)]) m z <-> ended h m z) as EE.
    { intros m z. unfold ended. rewrite snoc_In. split; [|auto]. intros [G|G]; [exact G|discriminate]. }
    assert (forall m, delivered (h ++ [(OpGet s n, RFiles a)]) m <-> delivered h m \/ m = n) as ED.
    { intros m. rewrite <- !In_deliveries, deliveries_app, in_app_iff. simpl. split.
      - intros [G|[G|[]]]; [left; exact G|right; congruence].
      - intros [G|G]; [left; exact G|right; left; congruence]. }
    assert (forall s', In (OpStart s', RNone) (h ++ [(OpGet s n, RFiles a)]) <-> In (OpStart s', RNone) h) as ES.
    { intros s'. rewrite snoc_In. split; [|auto]. intros [G|G]; [exact G|discriminate]. }
    assert (forall s', In (OpClose s', RBool true) (h ++ [(OpGet s n, RFiles a)]) <-> In (OpClose s', RBool true) h) as EC.
    { intros s'. rewrite snoc_In. split; [|auto]. intros [G|G]; [exact G|discriminate]. }
    destruct H. constructor; simpl; try assumption.
    + intros s'. rewrite ES. apply s_used_h0.
    + intros s'. unfold is_open. rewrite ES, EC. apply s_open0.
    + intros s'. rewrite EC. apply s_closed_used0.
    + intros m s'. rewrite EO. apply s_owner_used0.
    + intros s' rs Hl m. rewrite EO. apply s_runs0. exact Hl.
    + intros m s'. rewrite EO. apply s_owner_le0.
    + intros m s1 s2. rewrite !EO. apply s_owner_uniq0.
    + intros m Hi. destruct (s_pend_owner0 m Hi) as [s' Hs']. exists s'. apply EO. exact Hs'.
    + apply erase_NoDup. assumption.
    + intros m z Hi. apply erase_incl in Hi. eapply s_fin_le0. exact Hi.
    + intros m z Hi. apply erase_incl in Hi. apply EE. apply s_fin_ended0. exact Hi.
    + intros m z. rewrite EE. apply s_ended_not_pend0.
    + intros m z z'. rewrite !EE. apply s_ended_uniq0.
    + intros m z. rewrite EE. apply s_ended_le0.
    + intros m. rewrite ED. intros [Hd| ->].
      * destruct (s_deliv0 m Hd) as [A [z B]]. split.
        -- intros G. apply A. apply in_map_iff in G. destruct G as [e [Ee Ge]]. apply erase_incl in Ge.
           apply in_map_iff. exists e. split; assumption.
        -- exists z. apply EE. exact B.
      * split; [apply erase_gone; assumption|]. exists (Some a). apply EE. exact Hend.
    + intros s' m b. rewrite snoc_In, EO, EE. intros [G|G]; [apply (s_deliv_own0 s' m b G)|].
      injection G as -> -> ->. split; assumption.
    + rewrite deliveries_app. simpl. apply (Permutation_NoDup (l := n :: deliveries h)).
      * apply Permutation_cons_append.
      * constructor; [|assumption]. rewrite In_deliveries. exact Hnd.
    + intros m z s'. rewrite EO, EE, ED. unfold is_open. rewrite ES, EC. intros Ho He Hd Hp.
      apply erase_In.
      * intros ->. apply Hd. right. reflexivity.
      * apply (s_avail0 m z s' Ho He); [|exact Hp]. intros G. apply Hd. left. exact G.
    + intros s' l m. rewrite snoc_In, EO. intros [G|G] Hi; [apply (s_status_own0 s' l m G Hi)|discriminate].
  - (* close *)
    destruct (lookup s (sessions v)) as [runs|] eqn:El.
    2:{ injection Hs as <- <-. apply sinv_neutral; [exact H|exact I]. }
    injection Hs as <- <-. fold (erase_all runs (finished v)).
    assert (forall m s', owner (h ++ [(OpClose s, RBool true)]) m s' <-> owner h m s') as EO.
    { intros m s'. unfold owner. rewrite snoc_In. split; [|auto]. intros [G|G]; [exact G|discriminate]. }
    assert (forall m z, ended (h ++ [(OpClose s, RBool true)]) m z <-> ended h m z) as EE.
    { intros m z. unfold ended. rewrite snoc_In. split; [|auto]. intros [G|G]; [exact G|discriminate]. }
    assert (forall s' n a, In (OpGet s' n, RFiles a) (h ++ [(OpClose s, RBool true)]) <-> In (OpGet s' n, RFiles a) h) as EG.
    { intros s' n a. rewrite snoc_In. split; [|auto]. intros [G|G]; [exact G|discriminate]. }
    assert (forall n, delivered (h ++ [(OpClose s, RBool true)]) n <-> delivered h n) as ED.
    { intros n. unfold delivered. split; intros [s' [a G]]; exists s', a; apply EG; exact G. }
    assert (forall s', In (OpStart s', RNone) (h ++ [(OpClose s, RBool true)]) <-> In (OpStart s', RNone) h) as ES.
    { intros s'. rewrite snoc_In. split; [|auto]. intros [G|G]; [exact G|discriminate]. }
    assert (forall s', In (OpClose s', RBool true) (h ++ [(OpClose s, RBool true)]) <-> In (OpClose s', RBool true) h \/ s' = s) as EC.
    { intros s'. rewrite snoc_In. split; intros [G|G]; auto.
      - right. injection G as ->. reflexivity.
      - right. subst. reflexivity. }
    assert (forall x, In x (map fst (drop_session s (sessions v))) <-> In x (map fst (sessions v)) /\ x <> s) as EK.
    { intros x. unfold drop_session. rewrite !in_map_iff. split.
      - intros [e [Ee He]]. apply filter_In in He. destruct He as [He1 He2]. split.
        + exists e. split; assumption.
        + intros ->. apply negb_true_iff in He2. apply Nat.eqb_neq in He2. exact (He2 Ee).
      - intros [[e [Ee He]] Hne]. exists e. split; [exact Ee|]. apply filter_In. split; [exact He|].
        apply negb_true_iff. apply Nat.eqb_neq. intros G. apply Hne. exact (eq_trans (eq_sym Ee) G). }
    destruct H. constructor; simpl; try assumption.
    + unfold drop_session. apply NoDup_map_filter. assumption.
    + intros s' G. apply EK in G. apply s_used0. apply G.
    + intros s'. rewrite ES. apply s_used_h0.
    + intros s'. rewrite EK. unfold is_open. rewrite ES, EC, s_open0. unfold is_open. split.
      * intros [[A B] C]. split; [exact A|]. intros [D|D]; [exact (B D)|exact (C D)].
      * intros [A B]. split; [split; [exact A|intros D; apply B; left; exact D]|intros D; apply B; right; exact D].
    + intros s'. rewrite EC. intros [G|G]; [apply s_closed_used0; exact G|]. subst s'. apply s_used0.
      destruct (in_dec Nat.eq_dec s (map fst (sessions v))) as [K|K]; [exact K|].
      apply lookup_None in K. congruence.
    + intros m s'. rewrite EO. apply s_owner_used0.
    + intros s' rs. rewrite lookup_drop. destruct (Nat.eqb s s'); [discriminate|]. intros Hl m.
      rewrite EO. apply s_runs0. exact Hl.
    + intros m s'. rewrite EO. apply s_owner_le0.
    + intros m s1 s2. rewrite !EO. apply s_owner_uniq0.
    + intros m Hi. destruct (s_pend_owner0 m Hi) as [s' Hs']. exists s'. apply EO. exact Hs'.
    + apply erase_all_NoDup. assumption.
    + intros m z Hi. apply erase_all_incl in Hi. eapply s_fin_le0. exact Hi.
    + intros m z Hi. apply erase_all_incl in Hi. apply EE. apply s_fin_ended0. exact Hi.
    + intros m z. rewrite EE. apply s_ended_not_pend0.
    + intros m z z'. rewrite !EE. apply s_ended_uniq0.
    + intros m z. rewrite EE. apply s_ended_le0.
    + intros m. rewrite ED. intros Hd. destruct (s_deliv0 m Hd) as [A [z B]]. split.
      * intros G. apply A. apply in_map_iff in G. destruct G as [e [Ee Ge]]. apply erase_all_incl in Ge.
        apply in_map_iff. exists e. split; assumption.
      * exists z. apply EE. exact B.
    + intros s' m b. rewrite EG, EO, EE. apply s_deliv_own0.
    + rewrite deliveries_app. simpl. rewrite app_nil_r. assumption.
    + intros m z s'. rewrite EO, EE, ED. unfold is_open. rewrite ES, EC. intros Ho He Hd [Hp1 Hp2].
      apply erase_all_In.
      * intros G. apply Hp2. right. apply (s_runs0 s runs El) in G. eapply s_owner_uniq0; eassumption.
      * apply (s_avail0 m z s' Ho He Hd). split; [exact Hp1|]. intros G. apply Hp2. left. exact G.
    + intros s' l m. rewrite snoc_In, EO. intros [G|G] Hi; [apply (s_status_own0 s' l m G Hi)|discriminate].
Qed.

Lemma sinv0 : SInv server0 [].
Proof.
  constructor; simpl; unfold owner, ended, delivered, is_open; simpl;
    try (constructor; fail); try (intros; tauto); try (intros; discriminate); try (intros; firstorder; fail).
Qed.

Lemma sexec_inv : forall os v h v' h', SInv v h -> sexec v os = Some (v', h') -> SInv v' (h ++ h').
Proof.
  induction os as [|o os IH]; intros v h v' h' H Hx; simpl in Hx.
  - injection Hx as <- <-. rewrite app_nil_r. exact H.
  - destruct (sstep v o) as [[v1 r]|] eqn:Es; [|discriminate].
    destruct (sexec v1 os) as [[v2 h2]|] eqn:Ex; [|discriminate]. injection Hx as <- <-.
    change ((o, r) :: h2) with ([(o, r)] ++ h2). rewrite app_assoc. apply (IH v1); [|exact Ex].
    eapply sinv_step; eassumption.
Qed.

Lemma reach_sinv : forall os v h, sexec server0 os = Some (v, h) -> SInv v h.
Proof. intros os v h H. change h with ([] ++ h). eapply sexec_inv; [apply sinv0|exact H]. Qed.

(** * C15 *)
Lemma get_own : forall os v h s n a, sexec server0 os = Some (v, h) -> In (OpGet s n, RFiles a) h ->
  owner h n s /\ ended h n (Some a).
Proof. intros os v h s n a H. apply (s_deliv_own _ _ (reach_sinv _ _ _ H)). Qed.

Lemma status_own : forall os v h s l n, sexec server0 os = Some (v, h) -> In (OpStatus s, RStatus l) h ->
  In n l -> owner h n s.
Proof. intros os v h s l n H. apply (s_status_own _ _ (reach_sinv _ _ _ H)). Qed.

Lemma one_owner : forall os v h n s s', sexec server0 os = Some (v, h) -> owner h n s -> owner h n s' -> s = s'.
Proof. intros os v h n s s' H. apply (s_owner_uniq _ _ (reach_sinv _ _ _ H)). Qed.

Lemma frame_others : forall os v h s o v' r, sexec server0 os = Some (v, h) -> request_of s o ->
  sstep v o = Some (v', r) ->
  (forall m z, ~ owner h m s -> (In (m, z) (finished v') <-> In (m, z) (finished v))) /\
  (forall s', s' <> s -> lookup s' (sessions v') = lookup s' (sessions v)) /\
  (forall m, ~ owner h m s -> m <= next_run v -> (In m (pending v') <-> In m (pending v))).
Proof.
  intros os v h s o v' r H Hr Hs. pose proof (reach_sinv _ _ _ H) as HI.
  destruct o as [t|t acc|n z|t|t n|t]; simpl in Hr; try contradiction; subst t; simpl in Hs.
  - destruct (lookup s (sessions v)) as [runs|] eqn:El; [destruct acc|]; injection Hs as <- <-; simpl.
    + split; [tauto|]. split.
      * intros s' Hne. rewrite lookup_append. destruct (Nat.eqb s s') eqn:E; [|reflexivity].
        apply Nat.eqb_eq in E. congruence.
      * intros m _ Hm. split; [|auto]. intros [G|G]; [lia|exact G].
    + split; [tauto|]. split; [reflexivity|tauto].
    + split; [tauto|]. split; [reflexivity|tauto].
  - destruct (finished v) eqn:Ef; [|destruct (lookup s (sessions v))]; injection Hs as <- <-; rewrite ?Ef;
      (split; [tauto|]; split; [reflexivity|tauto]).
  - destruct (lookup s (sessions v)) as [runs|] eqn:El; [|injection Hs as <- <-; split; [tauto|split; [reflexivity|tauto]]].
    destruct (memb n runs) eqn:Em; [|injection Hs as <- <-; split; [tauto|split; [reflexivity|tauto]]].
    destruct (find_zip n (finished v)) as [a|]; [|injection Hs as <- <-; split; [tauto|split; [reflexivity|tauto]]].
    injection Hs as <- <-. simpl. split; [|split; [reflexivity|tauto]].
    intros m z Hm. apply erase_In. intros ->. apply Hm. apply (s_runs _ _ HI s runs El). apply memb_In. exact Em.
  - destruct (lookup s (sessions v)) as [runs|] eqn:El; [|injection Hs as <- <-; split; [tauto|split; [reflexivity|tauto]]].
    injection Hs as <- <-. simpl. fold (erase_all runs (finished v)). split; [|split; [|tauto]].
    + intros m z Hm. apply erase_all_In. intros G. apply Hm. apply (s_runs _ _ HI s runs El). exact G.
    + intros s' Hne. rewrite lookup_drop. destruct (Nat.eqb s s') eqn:E; [|reflexivity].
      apply Nat.eqb_eq in E. congruence.
Qed.

Lemma unknown_refused : forall os v h s o v' r, sexec server0 os = Some (v, h) -> request_of s o ->
  ~ is_open h s -> sstep v o = Some (v', r) -> v' = v /\ refusal r.
Proof.
  intros os v h s o v' r H Hr Hn Hs. pose proof (reach_sinv _ _ _ H) as HI.
  assert (lookup s (sessions v) = None) as El.
  { apply lookup_None. intros G. apply Hn. apply (s_open _ _ HI). exact G. }
  unfold refusal.
  destruct o as [t|t acc|n z|t|t n|t]; simpl in Hr; try contradiction; subst t; simpl in Hs; rewrite El in Hs.
  - injection Hs as <- <-. tauto.
  - destruct (finished v); injection Hs as <- <-; tauto.
  - injection Hs as <- <-. tauto.
  - injection Hs as <- <-. tauto.
Qed.

(** * C16 *)
Lemma delivered_once : forall os v h, sexec server0 os = Some (v, h) -> NoDup (deliveries h).
Proof. intros os v h H. exact (s_deliv_once _ _ (reach_sinv _ _ _ H)). Qed.

Lemma sexec_app : forall os1 os2 v v' h, sexec v (os1 ++ os2) = Some (v', h) ->
  exists v1 h1 h2, sexec v os1 = Some (v1, h1) /\ sexec v1 os2 = Some (v', h2) /\ h = h1 ++ h2.
Proof.
  induction os1 as [|o os1 IH]; intros os2 v v' h H; simpl in H.
  - exists v, [], h. repeat split. exact H.
  - destruct (sstep v o) as [[v1 r]|] eqn:E; [|discriminate].
    destruct (sexec v1 (os1 ++ os2)) as [[v2 h2]|] eqn:Ex; [|discriminate]. injection H as <- <-.
    destruct (IH _ _ _ _ Ex) as (v3 & h3 & h4 & A & B & C). exists v3, ((o, r) :: h3), h4.
    simpl. rewrite E, A. subst h2. repeat split. exact B.
Qed.

Lemma status_not_delivered : forall os v h s v' l n, sexec server0 os = Some (v, h) ->
  sstep v (OpStatus s) = Some (v', RStatus l) -> In n l -> ~ delivered h n.
Proof.
  intros os v h s v' l n H Hs Hi Hd. pose proof (reach_sinv _ _ _ H) as HI.
  destruct (s_deliv _ _ HI n Hd) as [Hf _]. simpl in Hs.
  destruct (finished v) as [|e0 l0] eqn:Ef; [injection Hs as <- <-; destruct Hi|].
  destruct (lookup s (sessions v)) as [runs|]; [|discriminate]. rewrite <- Ef in Hs.
  injection Hs as <- <-. apply filter_In in Hi. apply Hf. rewrite <- Ef. apply Hi.
Qed.

Lemma status_complete : forall os v h s n z, sexec server0 os = Some (v, h) ->
  is_open h s -> owner h n s -> ended h n z -> ~ delivered h n ->
  exists l, sstep v (OpStatus s) = Some (v, RStatus l) /\ In n l.
Proof.
  intros os v h s n z H Ho Hw He Hd. pose proof (reach_sinv _ _ _ H) as HI.
  pose proof (s_avail _ _ HI n z s Hw He Hd Ho) as Hf.
  apply (s_open _ _ HI) in Ho. simpl.
  destruct (lookup s (sessions v)) as [runs|] eqn:El.
  2:{ apply lookup_None in El. contradiction. }
  destruct (finished v) as [|e0 l0] eqn:Ef; [destruct Hf|]. rewrite <- Ef in *.
  eexists. split; [reflexivity|]. apply filter_In. split.
  - apply in_map_iff. exists (n, z). split; [reflexivity|exact Hf].
  - apply memb_In. apply (s_runs _ _ HI s runs El). exact Hw.
Qed.

Lemma get_available : forall os v h s n a, sexec server0 os = Some (v, h) ->
  is_open h s -> owner h n s -> ended h n (Some a) -> ~ delivered h n ->
  exists v', sstep v (OpGet s n) = Some (v', RFiles a).
Proof.
  intros os v h s n a H Ho Hw He Hd. pose proof (reach_sinv _ _ _ H) as HI.
  pose proof (s_avail _ _ HI n _ s Hw He Hd Ho) as Hf.
  apply (s_open _ _ HI) in Ho. simpl.
  destruct (lookup s (sessions v)) as [runs|] eqn:El.
  2:{ apply lookup_None in El. contradiction. }
  assert (memb n runs = true) as Em. { apply memb_In. apply (s_runs _ _ HI s runs El). exact Hw. }
  rewrite Em, (find_zip_In_inv _ _ _ (s_fin_nodup _ _ HI) Hf). eexists. reflexivity.
Qed.

(** * C57 *)
Lemma close_discards : forall os v h s v', sexec server0 os = Some (v, h) ->
  sstep v (OpClose s) = Some (v', RBool true) ->
  forall n z, owner h n s -> ~ In (n, z) (finished v').
Proof.
  intros os v h s v' H Hs n z Ho Hi. pose proof (reach_sinv _ _ _ H) as HI. simpl in Hs.
  destruct (lookup s (sessions v)) as [runs|] eqn:El; [|discriminate]. injection Hs as <-.
  simpl in Hi. fold (erase_all runs (finished v)) in Hi.
  apply (erase_all_gone runs (finished v) n).
  - apply (s_fin_nodup _ _ HI).
  - apply (s_runs _ _ HI s runs El). exact Ho.
  - apply in_map_iff. exists (n, z). split; [reflexivity|exact Hi].
Qed.

(** * C17 *)
Record JInv (me : sid) (ls : list jlabel) (os : list jout) (due : option nat) (j : joint) : Prop := {
  ji_reach : exists osv h, sexec server0 osv = Some (jserver j, h);
  ji_mine : lookup me (sessions (jserver j)) = Some (runs_of os);
  ji_started : forall x, In x (started (jclient j)) <->
    exists n, x = Some n /\ In n (runs_of os) /\ ~ In n (jobs_returned os);
  ji_stored : stored (jclient j) = match due with None => [] | Some n => [n] end;
  ji_once : NoDup (jobs_returned os);
  ji_incl : incl (jobs_returned os) (runs_of os);
  ji_fin : forall n z, In n (runs_of os) -> In (n, z) (finished (jserver j)) ->
    z <> None /\ (In n (jobs_returned os) -> due = Some n);
  ji_due : forall n, due = Some n -> In n (jobs_returned os) /\ exists a, In (n, Some a) (finished (jserver j));
  ji_ended : forall n z, In n (runs_of os) -> ~ In n (jobs_returned os) -> In (JOther (OpFinish n z)) ls ->
    In n (map fst (finished (jserver j)));
  ji_le : forall n z, In (JOther (OpFinish n z)) ls -> n <= next_run (jserver j);
  ji_ret : forall n, In n (jobs_returned os) -> ~ In n (pending (jserver j)) }.

Lemma runs_of_snoc : forall os o, runs_of (os ++ [o]) = runs_of os ++ match o with JRan (Some n) => [n] | _ => [] end.
Proof. intros. unfold runs_of. rewrite flat_map_app. simpl. rewrite app_nil_r. reflexivity. Qed.
Lemma jobs_snoc : forall os o, jobs_returned (os ++ [o]) = jobs_returned os ++ match o with JReturned n => [n] | _ => [] end.
Proof. intros. unfold jobs_returned. rewrite flat_map_app. simpl. rewrite app_nil_r. reflexivity. Qed.

Lemma sexec_snoc : forall os v v1 h o v2 r, sexec v os = Some (v1, h) -> sstep v1 o = Some (v2, r) ->
  sexec v (os ++ [o]) = Some (v2, h ++ [(o, r)]).
Proof.
  induction os as [|x os IH]; intros v v1 h o v2 r H Hs; simpl in *.
  - injection H as <- <-. rewrite Hs. reflexivity.
  - destruct (sstep v x) as [[v' r']|]; [|discriminate].
    destruct (sexec v' os) as [[v'' h'']|] eqn:E; [|discriminate]. injection H as <- <-.
    rewrite (IH _ _ _ _ _ _ E Hs). reflexivity.
Qed.

(** An operation that is not a request of [me] leaves the runs of [me] alone. *)
Lemma other_frame : forall v me o v' r runs, (exists osv h, sexec server0 osv = Some (v, h)) ->
  lookup me (sessions v) = Some runs -> ~ request_of me o -> sstep v o = Some (v', r) ->
  lookup me (sessions v') = Some runs /\ next_run v <= next_run v' /\
  (forall m z, In m runs -> (In (m, z) (finished v') <-> In (m, z) (finished v) \/ o = OpFinish m z)) /\
  (forall m z, o = OpFinish m z -> In m (pending v)) /\
  (forall m, In m runs -> In m (pending v') -> In m (pending v)).
Proof.
  intros v me o v' r runs (osv & h & Hx) Hl Hn Hs.
  pose proof (reach_sinv _ _ _ Hx) as HI.
  destruct o as [t|t acc|n z|t|t n|t].
  - simpl in Hs. destruct (memb t (used v)) eqn:Em; [discriminate|]. injection Hs as <- <-. simpl.
    destruct (Nat.eqb t me) eqn:E.
    + exfalso. apply Nat.eqb_eq in E. subst t. apply memb_not_In in Em. apply Em. apply (s_used _ _ HI).
      apply in_map_iff. exists (me, runs). split; [reflexivity|]. apply lookup_In. exact Hl.
    + split; [exact Hl|]. split; [lia|]. split; [|split; [intros; discriminate|tauto]].
      intros m z _. split; [tauto|]. intros [G|G]; [exact G|discriminate].
  - assert (t <> me) as Hne by (intros ->; apply Hn; reflexivity).
    assert (next_run v <= next_run v') as Hle.
    { simpl in Hs. destruct (lookup t (sessions v)); [destruct acc|]; injection Hs as <- <-; simpl; lia. }
    destruct (frame_others _ _ _ _ _ _ _ Hx (eq_refl : request_of t (OpRun t acc)) Hs) as (A & B & C).
    rewrite B by congruence. split; [exact Hl|]. split; [exact Hle|].
    assert (forall m, In m runs -> ~ owner h m t) as Hno.
    { intros m Hm G. apply Hne. eapply (s_owner_uniq _ _ HI); [exact G|]. apply (s_runs _ _ HI _ _ Hl). exact Hm. }
    split; [|split; [intros; discriminate|]].
    2:{ intros m Hm. apply C; [apply Hno; exact Hm|]. apply (s_owner_le _ _ HI m me).
        apply (s_runs _ _ HI _ _ Hl). exact Hm. }
    intros m z Hm. rewrite A.
    + split; [tauto|]. intros [G|G]; [exact G|discriminate].
    + apply Hno. exact Hm.
  - simpl in Hs. destruct (memb n (pending v)) eqn:Em; [|discriminate]. injection Hs as <- <-. simpl.
    split; [exact Hl|]. split; [lia|]. split.
    + intros m z' _. rewrite in_app_iff. simpl. split.
      * intros [G|[G|[]]]; [left; exact G|right; injection G as -> ->; reflexivity].
      * intros [G|G]; [left; exact G|right; left; injection G as -> ->; reflexivity].
    + split; [intros m z' G; injection G as -> ->; apply memb_In; exact Em|].
      intros m _ G. apply filter_In in G. apply G.
  - assert (t <> me) as Hne by (intros ->; apply Hn; reflexivity).
    destruct (frame_others _ _ _ _ _ _ _ Hx (eq_refl : request_of t (OpStatus t)) Hs) as (A & B & C).
    assert (v' = v) as ->.
    { simpl in Hs. destruct (finished v); [|destruct (lookup t (sessions v))]; injection Hs as <- <-; reflexivity. }
    split; [exact Hl|]. split; [lia|]. split; [|split; [intros; discriminate|tauto]].
    intros m z _. split; [tauto|]. intros [G|G]; [exact G|discriminate].
  - assert (t <> me) as Hne by (intros ->; apply Hn; reflexivity).
    assert (next_run v <= next_run v') as Hle.
    { simpl in Hs. destruct (lookup t (sessions v)); [destruct (memb n l); [destruct (find_zip n (finished v))|]|];
        injection Hs as <- <-; simpl; lia. }
    destruct (frame_others _ _ _ _ _ _ _ Hx (eq_refl : request_of t (OpGet t n)) Hs) as (A & B & C).
    rewrite B by congruence. split; [exact Hl|]. split; [exact Hle|].
    assert (forall m, In m runs -> ~ owner h m t) as Hno.
    { intros m Hm G. apply Hne. eapply (s_owner_uniq _ _ HI); [exact G|]. apply (s_runs _ _ HI _ _ Hl). exact Hm. }
    split; [|split; [intros; discriminate|]].
    2:{ intros m Hm. apply C; [apply Hno; exact Hm|]. apply (s_owner_le _ _ HI m me).
        apply (s_runs _ _ HI _ _ Hl). exact Hm. }
    intros m z Hm. rewrite A.
    + split; [tauto|]. intros [G|G]; [exact G|discriminate].
    + apply Hno. exact Hm.
  - assert (t <> me) as Hne by (intros ->; apply Hn; reflexivity).
    assert (next_run v <= next_run v') as Hle.
    { simpl in Hs. destruct (lookup t (sessions v)); injection Hs as <- <-; simpl; lia. }
    destruct (frame_others _ _ _ _ _ _ _ Hx (eq_refl : request_of t (OpClose t)) Hs) as (A & B & C).
    rewrite B by congruence. split; [exact Hl|]. split; [exact Hle|].
    assert (forall m, In m runs -> ~ owner h m t) as Hno.
    { intros m Hm G. apply Hne. eapply (s_owner_uniq _ _ HI); [exact G|]. apply (s_runs _ _ HI _ _ Hl). exact Hm. }
    split; [|split; [intros; discriminate|]].
    2:{ intros m Hm. apply C; [apply Hno; exact Hm|]. apply (s_owner_le _ _ HI m me).
        apply (s_runs _ _ HI _ _ Hl). exact Hm. }
    intros m z Hm. rewrite A.
    + split; [tauto|]. intros [G|G]; [exact G|discriminate].
    + apply Hno. exact Hm.
Qed.

Definition polite1 (mine : list nat) (due : option nat) (l : jlabel) (o : jout) : Prop :=
  match l with
  | JOther (OpFinish n z) => In n mine -> z <> None
  | JOther _ => True
  | JRun a => a = true
  | JNext => due = None
  | JGet n => due = Some n
  end.
Definition due_after (due : option nat) (l : jlabel) (o : jout) : option nat :=
  match l with
  | JNext => match o with JReturned n => Some n | _ => None end
  | JGet _ => None
  | _ => due
  end.

Lemma polite_cons : forall mine due l ls o os, polite mine due (l :: ls) (o :: os) ->
  polite1 mine due l o /\
  polite (mine ++ match l, o with JRun _, JRan (Some n) => [n] | _, _ => [] end) (due_after due l o) ls os.
Proof.
  intros mine due l ls o os H. destruct l as [op|a| |n]; simpl in *.
  - rewrite app_nil_r. destruct op; simpl in *; auto.
  - destruct H as [A B]. split; [exact A|]. destruct o as [[n|]| | | | | | ]; rewrite ?app_nil_r; exact B.
  - rewrite app_nil_r. destruct H as [-> B]. split; [reflexivity|]. destruct o; exact B.
  - rewrite app_nil_r. exact H.
Qed.

Lemma opt_eqb_eq : forall a b, opt_eqb a b = true <-> a = b.
Proof.
  intros [x|] [y|]; simpl; split; intros H; try discriminate; try reflexivity.
  - apply Nat.eqb_eq in H. congruence.
  - injection H as ->. apply Nat.eqb_refl.
Qed.

Lemma jinv_step : forall me ls os due j l j' o, JInv me ls os due j -> jstep me j l = Some (j', o) ->
  polite1 (runs_of os) due l o ->
  JInv me (ls ++ [l]) (os ++ [o]) (due_after due l o) j' /\
  o <> JFailed /\ o <> JData None /\
  (o = JStopped -> incl (runs_of os) (jobs_returned os)) /\
  (o = JAsleep -> forall n z, In n (runs_of os) -> ~ In n (jobs_returned os) -> ~ In (JOther (OpFinish n z)) ls) /\
  (match l, o with JRun _, JRan (Some n) => [n] | _, _ => [] end = match o with JRan (Some n) => [n] | _ => [] end).
Proof.
  intros me ls os due j l j' o H Hs Hp. destruct H as [Hr Hm Hst Hso Hon Hin Hfi Hdu Hen Hle Hret].
  destruct l as [op|a| |n].
  - (* others *)
    assert (~ request_of me op /\ exists v' r, sstep (jserver j) op = Some (v', r) /\ j' = Joint v' (jclient j) /\ o = JQuiet)
      as (Hnr & v' & r & Ev & -> & ->).
    { simpl in Hs. destruct op as [t|t acc|n z|t|t n|t];
        try (destruct (Nat.eqb t me) eqn:Et; [discriminate|]; apply Nat.eqb_neq in Et);
        match type of Hs with context [sstep ?v ?x] => destruct (sstep v x) as [[v' r]|] end; try discriminate;
        injection Hs as <- <-; (split; [simpl; tauto || congruence|]); exists v', r; repeat split. }
    destruct (other_frame _ _ _ _ _ _ Hr Hm Hnr Ev) as (A & B & C & D & E).
    split.
    2:{ repeat split; try discriminate. }
    simpl. constructor; rewrite ?runs_of_snoc, ?jobs_snoc, ?app_nil_r; simpl; try assumption.
    + destruct Hr as (osv & h & Hx). exists (osv ++ [op]), (h ++ [(op, r)]). eapply sexec_snoc; eassumption.
    + intros m z Hmr Hi. apply C in Hi; [|exact Hmr]. destruct Hi as [Hi| ->]; [apply (Hfi m z Hmr Hi)|].
      split; [apply (Hp Hmr)|]. intros G. exfalso. apply (Hret m G). apply (D m z). reflexivity.
    + intros m Hd. destruct (Hdu m Hd) as [X [b Y]]. split; [exact X|]. exists b. apply C; [apply Hin; exact X|]. left. exact Y.
    + intros m z Hmr Hnr' Hi. apply in_app_or in Hi. destruct Hi as [Hi|[Hi|[]]].
      * specialize (Hen m z Hmr Hnr' Hi). apply in_map_iff in Hen. destruct Hen as [[m' z'] [Em' Hf]]. simpl in Em'. subst m'.
        apply in_map_iff. exists (m, z'). split; [reflexivity|]. apply C; [exact Hmr|]. left. exact Hf.
      * injection Hi as ->. apply in_map_iff. exists (m, z). split; [reflexivity|]. apply C; [exact Hmr|]. right. reflexivity.
    + intros m z Hi. apply in_app_or in Hi. destruct Hi as [Hi|[Hi|[]]].
      * specialize (Hle m z Hi). lia.
      * injection Hi as ->. specialize (D m z eq_refl). destruct Hr as (osv & h & Hx).
        pose proof (s_pend_le _ _ (reach_sinv _ _ _ Hx) m D). lia.
    + intros m G G'. apply (Hret m G). apply E; [apply Hin; exact G|exact G'].
  - (* run *)
    simpl in Hp. subst a. unfold jstep in Hs.
    assert (sstep (jserver j) (OpRun me true) = Some (Server (append_run me (S (next_run (jserver j))) (sessions (jserver j)))
       (S (next_run (jserver j)) :: pending (jserver j)) (finished (jserver j)) (S (next_run (jserver j))) (used (jserver j)),
       RRun (S (next_run (jserver j))))) as Ev by (simpl; rewrite Hm; reflexivity).
    rewrite Ev in Hs. injection Hs as <- <-.
    set (n := S (next_run (jserver j))) in *.
    assert (~ In n (runs_of os)) as Hfresh.
    { intros G. destruct Hr as (osv & h & Hx). pose proof (reach_sinv _ _ _ Hx) as HI.
      apply (s_runs _ _ HI _ _ Hm) in G. apply (s_owner_le _ _ HI) in G. unfold n in G. lia. }
    split.
    2:{ repeat split; try discriminate. }
    simpl. constructor; rewrite ?runs_of_snoc, ?jobs_snoc, ?app_nil_r; simpl; try assumption.
    + destruct Hr as (osv & h & Hx). eexists. eexists. eapply sexec_snoc; [exact Hx|exact Ev].
    + rewrite lookup_append, Nat.eqb_refl, Hm. reflexivity.
    + intros x. unfold put. destruct (existsb (opt_eqb (Some n)) (started (jclient j))) eqn:Ee.
      * exfalso. apply existsb_exists in Ee. destruct Ee as [y [Hy Ey]]. apply opt_eqb_eq in Ey. subst y.
        apply Hst in Hy. destruct Hy as [m [Em [G _]]]. injection Em as <-. exact (Hfresh G).
      * rewrite in_app_iff, Hst. simpl. split.
        -- intros [[m (X & Y & Z)]|[<-|[]]].
           ++ exists m. split; [exact X|]. split; [apply in_or_app; left; exact Y|exact Z].
           ++ exists n. split; [reflexivity|]. split; [apply in_or_app; right; left; reflexivity|].
              intros G. apply Hfresh. apply Hin. exact G.
        -- intros [m (-> & Y & Z)]. apply in_app_or in Y. destruct Y as [Y|[<-|[]]].
           ++ left. exists m. auto.
           ++ right. left. reflexivity.
    + intros m G. apply in_or_app. left. apply Hin. exact G.
    + intros m z G Hi. apply in_app_or in G. destruct G as [G|[<-|[]]]; [apply (Hfi m z G Hi)|].
      exfalso. destruct Hr as (osv & h & Hx). pose proof (s_fin_le _ _ (reach_sinv _ _ _ Hx) _ _ Hi). unfold n in *. lia.
    + intros m z G Hnr' Hi. apply in_app_or in Hi. destruct Hi as [Hi|[Hi|[]]]; [|discriminate].
      apply in_app_or in G. destruct G as [G|[<-|[]]]; [apply (Hen m z G Hnr' Hi)|].
      specialize (Hle _ _ Hi). unfold n in Hle. lia.
    + intros m z Hi. apply in_app_or in Hi. destruct Hi as [Hi|[Hi|[]]]; [|discriminate].
      specialize (Hle _ _ Hi). unfold n. lia.
    + intros m G [G'|G']; [|exact (Hret m G G')]. subst m. apply Hfresh. apply Hin. exact G.
  - (* next *)
    simpl in Hp. subst due. unfold jstep in Hs. destruct (started (jclient j)) as [|x0 st0] eqn:Est.
    + injection Hs as <- <-. split.
      2:{ split; [discriminate|]. split; [discriminate|]. split; [|split; [discriminate|reflexivity]].
          intros _ m Hmr. destruct (in_dec Nat.eq_dec m (jobs_returned os)) as [G|G]; [exact G|].
          exfalso. assert (In (Some m) []) as []. apply Hst. exists m. auto. }
      simpl. constructor; rewrite ?runs_of_snoc, ?jobs_snoc, ?app_nil_r; simpl; try assumption.
      * rewrite Est. exact Hst.
      * intros m z G Hnr' Hi. apply in_app_or in Hi. destruct Hi as [Hi|[Hi|[]]]; [|discriminate]. apply (Hen m z G Hnr' Hi).
      * intros m z Hi. apply in_app_or in Hi. destruct Hi as [Hi|[Hi|[]]]; [|discriminate]. apply (Hle m z Hi).
    + assert (exists l, sstep (jserver j) (OpStatus me) = Some (jserver j, RStatus l) /\
                forall m, In m l <-> In m (runs_of os) /\ In m (map fst (finished (jserver j)))) as (l & Ev & Hl).
      { simpl. destruct (finished (jserver j)) eqn:Ef.
        - exists []. split; [reflexivity|]. simpl. tauto.
        - rewrite Hm. eexists. split; [reflexivity|]. intros m. rewrite filter_In, memb_In. simpl. tauto. }
      rewrite Ev in Hs. unfold client_next in Hs. rewrite Est in Hs. destruct l as [|n l].
      * injection Hs as <- <-. split.
        2:{ split; [discriminate|]. split; [discriminate|]. split; [discriminate|]. split; [|reflexivity].
            intros _ m z Hmr Hnr' Hi. assert (In m []) as []. apply Hl. split; [exact Hmr|]. apply (Hen m z Hmr Hnr' Hi). }
        simpl. constructor; rewrite ?runs_of_snoc, ?jobs_snoc, ?app_nil_r; simpl; try assumption.
        -- rewrite Est. exact Hst.
        -- intros m z G Hnr' Hi. apply in_app_or in Hi. destruct Hi as [Hi|[Hi|[]]]; [|discriminate]. apply (Hen m z G Hnr' Hi).
        -- intros m z Hi. apply in_app_or in Hi. destruct Hi as [Hi|[Hi|[]]]; [|discriminate]. apply (Hle m z Hi).
      * destruct (proj1 (Hl n) (or_introl eq_refl)) as [Hnm Hnf].
        apply in_map_iff in Hnf. destruct Hnf as [[n' z] [En Hnf]]. simpl in En. subst n'.
        destruct (Hfi n z Hnm Hnf) as [Hz Hd].
        assert (~ In n (jobs_returned os)) as Hnr by (intros G; discriminate (Hd G)).
        rewrite <- Est in Hs.
        destruct (existsb (opt_eqb (Some n)) (started (jclient j))) eqn:Ee.
        2:{ exfalso. assert (In (Some n) (started (jclient j))) as G.
            { rewrite Est. apply Hst. exists n. auto. }
            assert (existsb (opt_eqb (Some n)) (started (jclient j)) = true) as G2; [|congruence].
            apply existsb_exists. exists (Some n). split; [exact G|]. apply opt_eqb_eq. reflexivity. }
        injection Hs as <- <-. split.
        2:{ repeat split; discriminate. }
        cbn [due_after]. constructor; rewrite ?runs_of_snoc, ?jobs_snoc, ?app_nil_r;
          cbn [jserver jclient started stored returned]; try assumption.
        -- intros x. rewrite filter_In, Est, Hst. split.
           ++ intros [[m (-> & Y & Z)] Hx]. exists m. split; [reflexivity|]. split; [exact Y|].
              intros G. apply in_app_or in G. destruct G as [G|[<-|[]]]; [exact (Z G)|].
              simpl in Hx. rewrite Nat.eqb_refl in Hx. discriminate.
           ++ intros [m (-> & Y & Z)]. split.
              ** exists m. split; [reflexivity|]. split; [exact Y|]. intros G. apply Z. apply in_or_app. left. exact G.
              ** apply negb_true_iff. destruct (opt_eqb (Some n) (Some m)) eqn:E; [|exact E].
                 apply opt_eqb_eq in E. injection E as <-. exfalso. apply Z. apply in_or_app. right. left. reflexivity.
        -- rewrite Hso. reflexivity.
        -- apply (Permutation_NoDup (l := n :: jobs_returned os)); [apply Permutation_cons_append|].
           constructor; assumption.
        -- intros m G. apply in_app_or in G. destruct G as [G|[<-|[]]]; [apply Hin; exact G|exact Hnm].
        -- intros m z' G Hi. destruct (Hfi m z' G Hi) as [X Y]. split; [exact X|].
           intros G'. apply in_app_or in G'. destruct G' as [G'|[<-|[]]]; [discriminate (Y G')|reflexivity].
        -- intros m Hdm. injection Hdm as <-. split; [apply in_or_app; right; left; reflexivity|]. destruct z as [b|]; [exists b; exact Hnf|contradiction].
        -- intros m z' G Hnr' Hi. apply in_app_or in Hi. destruct Hi as [Hi|[Hi|[]]]; [|discriminate].
           apply (Hen m z' G); [|exact Hi]. intros X. apply Hnr'. apply in_or_app. left. exact X.
        -- intros m z' Hi. apply in_app_or in Hi. destruct Hi as [Hi|[Hi|[]]]; [|discriminate]. apply (Hle m z' Hi).
        -- intros m G. apply in_app_or in G. destruct G as [G|[<-|[]]]; [apply Hret; exact G|].
           destruct Hr as (osv & h & Hx). pose proof (reach_sinv _ _ _ Hx) as HI.
           apply (s_ended_not_pend _ _ HI n z). apply (s_fin_ended _ _ HI). exact Hnf.
  - (* get *)
    simpl in Hp. subst due. destruct (Hdu n eq_refl) as [Hnret [b Hnf]]. pose proof (Hin n Hnret) as Hnm.
    assert (sstep (jserver j) (OpGet me n) = Some (Server (sessions (jserver j)) (pending (jserver j))
      (erase n (finished (jserver j))) (next_run (jserver j)) (used (jserver j)), RFiles b)) as Ev.
    { destruct Hr as (osv & h & Hx). simpl. rewrite Hm, (proj2 (memb_In n _) Hnm).
      rewrite (find_zip_In_inv _ _ _ (s_fin_nodup _ _ (reach_sinv _ _ _ Hx)) Hnf). reflexivity. }
    unfold jstep in Hs. rewrite Ev in Hs. unfold client_got in Hs. rewrite Hso in Hs. simpl in Hs.
    rewrite Nat.eqb_refl in Hs. simpl in Hs. injection Hs as <- <-. split.
    2:{ repeat split; discriminate. }
    cbn [due_after]. constructor; rewrite ?runs_of_snoc, ?jobs_snoc, ?app_nil_r;
      cbn [jserver jclient started stored returned sessions pending finished next_run used]; try assumption.
    + destruct Hr as (osv & h & Hx). eexists. eexists. eapply sexec_snoc; [exact Hx|exact Ev].
    + reflexivity.
    + intros m z G Hi. pose proof (erase_incl _ _ _ Hi) as Hi'. destruct (Hfi m z G Hi') as [X Y]. split; [exact X|].
      intros G'. exfalso. specialize (Y G'). injection Y as <-. destruct Hr as (osv & h & Hx).
      apply (erase_gone n (finished (jserver j))); [apply (s_fin_nodup _ _ (reach_sinv _ _ _ Hx))|].
      apply in_map_iff. exists (n, z). split; [reflexivity|exact Hi].
    + intros m G. discriminate.
    + intros m z G Hnr' Hi. apply in_app_or in Hi. destruct Hi as [Hi|[Hi|[]]]; [|discriminate].
      specialize (Hen m z G Hnr' Hi). apply in_map_iff in Hen. destruct Hen as [[m' z'] [Em Hf]]. simpl in Em. subst m'.
      apply in_map_iff. exists (m, z'). split; [reflexivity|]. apply erase_In; [|exact Hf].
      intros ->. apply Hnr'. exact Hnret.
    + intros m z Hi. apply in_app_or in Hi. destruct Hi as [Hi|[Hi|[]]]; [|discriminate]. apply (Hle m z Hi).
Qed.

Lemma list_eq_nil_or_snoc : forall {A : Type} (l : list A), l = [] \/ exists l' x, l = l' ++ [x].
Proof.
  intros A l. destruct (rev l) as [|x r] eqn:E.
  - left. rewrite <- (rev_involutive l), E. reflexivity.
  - right. exists (rev r), x. rewrite <- (rev_involutive l), E. reflexivity.
Qed.

Lemma list_snoc_inv : forall (A : Type) (a b c : list A) (x y : A), a ++ [x] = b ++ y :: c ->
  (c = [] /\ x = y /\ b = a) \/ exists c', c = c' ++ [x] /\ a = b ++ y :: c'.
Proof.
  intros A a b c x y H. destruct (list_eq_nil_or_snoc c) as [->|(c' & z & ->)].
  - left. apply app_inj_tail in H. destruct H as [-> ->]. auto.
  - right. exists c'. change (b ++ y :: c' ++ [z]) with (b ++ (y :: c') ++ [z]) in H. rewrite app_assoc in H.
    apply app_inj_tail in H. destruct H as [-> ->]. auto.
Qed.

Lemma jexec_good : forall me ls j j' os pls pos due, JInv me pls pos due j -> length pls = length pos ->
  good_iteration pls pos ->
  jexec me j ls = Some (j', os) -> polite (runs_of pos) due ls os ->
  good_iteration (pls ++ ls) (pos ++ os).
Proof.
  intros me ls. induction ls as [|l ls IH]; intros j j' os pls pos due HI Hlen Hg Hx Hp; simpl in Hx.
  - injection Hx as <- <-. rewrite !app_nil_r. exact Hg.
  - destruct (jstep me j l) as [[j1 o]|] eqn:Es; [|discriminate].
    destruct (jexec me j1 ls) as [[j2 os2]|] eqn:Ex; [|discriminate]. injection Hx as <- <-.
    apply polite_cons in Hp. destruct Hp as [Hp1 Hp2].
    destruct (jinv_step _ _ _ _ _ _ _ _ HI Es Hp1) as (HI' & A & B & C & D & E).
    rewrite E, <- runs_of_snoc in Hp2.
    replace (pls ++ l :: ls) with ((pls ++ [l]) ++ ls) by (rewrite <- app_assoc; reflexivity).
    replace (pos ++ o :: os2) with ((pos ++ [o]) ++ os2) by (rewrite <- app_assoc; reflexivity).
    apply (IH j1 j2 os2 (pls ++ [l]) (pos ++ [o]) (due_after due l o)); try assumption.
    + rewrite !app_length. simpl. lia.
    + destruct Hg as [G1 G2 G3 G4 G5 G6]. constructor.
      * intros G. apply in_app_or in G. destruct G as [G|[G|[]]]; [exact (G1 G)|congruence].
      * intros G. apply in_app_or in G. destruct G as [G|[G|[]]]; [exact (G2 G)|congruence].
      * apply (ji_once _ _ _ _ _ HI').
      * apply (ji_incl _ _ _ _ _ HI').
      * intros os1 os' Eo. destruct (list_snoc_inv _ _ _ _ _ _ Eo) as [(-> & -> & ->)|(os'' & -> & Eo')].
        -- apply C. reflexivity.
        -- apply (G5 os1 os''). exact Eo'.
      * intros ls1 l0 ls' os1 os' El Eo Hle n z Hr Hn.
        destruct (list_snoc_inv _ _ _ _ _ _ Eo) as [(-> & -> & ->)|(os'' & -> & Eo')].
        -- destruct (list_snoc_inv _ _ _ _ _ _ El) as [(_ & -> & ->)|(ls'' & -> & El')].
           ++ apply D; [reflexivity|assumption|assumption].
           ++ exfalso. subst pls. rewrite app_length in Hlen. simpl in Hlen. lia.
        -- destruct (list_snoc_inv _ _ _ _ _ _ El) as [(_ & -> & ->)|(ls'' & -> & El')].
           ++ exfalso. subst pos. rewrite app_length in Hlen. simpl in Hlen. lia.
           ++ apply (G6 ls1 l0 ls'' os1 os'' El' Eo' Hle n z Hr Hn).
Qed.

Lemma client_good : forall osv v h me j0 ls j os, sexec server0 osv = Some (v, h) ->
  connected me v = Some j0 -> jexec me j0 ls = Some (j, os) -> polite [] None ls os -> good_iteration ls os.
Proof.
  intros osv v h me j0 ls j os Hx Hc Hj Hp. unfold connected in Hc.
  destruct (sstep v (OpStart me)) as [[v' r]|] eqn:Es; [|discriminate]. injection Hc as <-.
  change ls with ([] ++ ls). change os with ([] ++ os).
  eapply jexec_good; [| |  |exact Hj|exact Hp]; [|reflexivity|].
  - constructor; simpl; try tauto; try (constructor; fail); try (intros; tauto); try (intros; discriminate).
    + exists (osv ++ [OpStart me]), (h ++ [(OpStart me, r)]). eapply sexec_snoc; eassumption.
    + simpl in Es. destruct (memb me (used v)); [discriminate|]. injection Es as <- <-. simpl.
      rewrite Nat.eqb_refl. reflexivity.
    + intros x. split; [intros []|]. intros [n [_ [[] _]]].
    + intros x [].
  - constructor; simpl; try tauto; try (constructor; fail).
    + intros x [].
    + intros os1 os2 E. destruct os1; discriminate.
    + intros ls1 l ls2 os1 os2 E. destruct ls1; discriminate.
Qed.

(** A result of a closed session is never removed. *)
Lemma orphan_stays : forall os v h n z s os' v' h', sexec server0 os = Some (v, h) -> sexec v os' = Some (v', h') ->
  owner h n s -> In (OpClose s, RBool true) h -> In (n, z) (finished v) -> In (n, z) (finished v').
Proof.
  intros os v h n z s os'. revert os v h. induction os' as [|o os' IH]; intros os v h v' h' Hx Hx' Ho Hc Hi; simpl in Hx'.
  - injection Hx' as <- <-. exact Hi.
  - destruct (sstep v o) as [[v1 r]|] eqn:Es; [|discriminate].
    destruct (sexec v1 os') as [[v2 h2]|] eqn:Ex; [|discriminate]. injection Hx' as <- <-.
    apply (IH (os ++ [o]) v1 (h ++ [(o, r)]) v2 h2).
    + eapply sexec_snoc; eassumption.
    + exact Ex.
    + unfold owner. apply in_or_app. left. exact Ho.
    + apply in_or_app. left. exact Hc.
    + pose proof (reach_sinv _ _ _ Hx) as HI.
      assert (lookup s (sessions v) = None) as El.
      { apply lookup_None. intros G. apply (s_open _ _ HI) in G. exact (proj2 G Hc). }
      destruct o as [t|t acc|m z'|t|t m|t].
      * simpl in Es. destruct (memb t (used v)); [discriminate|]. injection Es as <- <-. exact Hi.
      * simpl in Es. destruct (lookup t (sessions v)); [destruct acc|]; injection Es as <- <-; exact Hi.
      * simpl in Es. destruct (memb m (pending v)); [|discriminate]. injection Es as <- <-. simpl.
        apply in_or_app. left. exact Hi.
      * simpl in Es. destruct (finished v) eqn:Ef; [|destruct (lookup t (sessions v))]; injection Es as <- <-;
          rewrite Ef; exact Hi.
      * destruct (Nat.eq_dec t s) as [->|Hne].
        -- simpl in Es. rewrite El in Es. injection Es as <- <-. exact Hi.
        -- destruct (frame_others _ _ _ _ _ _ _ Hx (eq_refl : request_of t (OpGet t m)) Es) as (A & _ & _).
           apply A; [|exact Hi]. intros G. apply Hne. eapply (s_owner_uniq _ _ HI); eassumption.
      * destruct (Nat.eq_dec t s) as [->|Hne].
        -- simpl in Es. rewrite El in Es. injection Es as <- <-. exact Hi.
        -- destruct (frame_others _ _ _ _ _ _ _ Hx (eq_refl : request_of t (OpClose t)) Es) as (A & _ & _).
           apply A; [|exact Hi]. intros G. apply Hne. eapply (s_owner_uniq _ _ HI); eassumption.
Qed.
