(** Opening the converted schematic. *)
From Coq Require Import String Ascii List Bool Arith ZArith Lia.
From Verif Require Import PyStr EngModel StepsModel StepsProofs QTagModel QTagSpec QTagProofs QEdModel AscModel AscSpec AscProofs2 AscProofs9 AsyModel AsySpec AsyProofs2 AsyProofs3 AsyProofs4 AsyProofs5.
Import ListNotations.
Local Open Scope string_scope. Local Open Scope nat_scope. Local Open Scope list_scope.

Definition vals (d : list (str * QEdModel.comp)) : list (str * str) := map (fun e => (fst e, c_value (snd e))) d.
Definition put_all (ps : list (str * str)) (d : list (str * str)) : list (str * str) := fold_left (fun d e => dset (fst e) (snd e) d) ps d.
Lemma vals_dset : forall k i v d, vals (dset k (QEdModel.Comp i v) d) = dset k v (vals d).
Proof. intros k i v d. induction d as [|[a b] d IH]; [reflexivity|]. cbn [dset vals map fst snd]. destruct (str_eqb a k); [reflexivity|]. unfold vals in *. cbn [map fst snd]. rewrite IH. reflexivity. Qed.
Lemma load_comps_ok : forall l ps, Forall2 (fun u p => ref_value u = Some p) (filter (head_is COMPONENT) l) ps ->
  forall i d, exists d', load_comps i l d = Some d' /\ vals d' = put_all ps (vals d).
Proof.
  induction l as [|t l IH]; intros ps F i d; cbn [filter] in F.
  - inversion F; subst. exists d. split; reflexivity.
  - cbn [load_comps]. destruct (head_is COMPONENT t) eqn:H.
    + inversion F as [|u [a v] us qs E F']; subst. rewrite E. destruct (IH qs F' (S i) (dset a (QEdModel.Comp i v) d)) as (d' & A & B). exists d'. split; [exact A|]. rewrite B, vals_dset. reflexivity.
    + apply IH. exact F.
Qed.
Lemma dget_vals : forall d k, option_map c_value (dget k d) = dget k (vals d).
Proof. intros d k. unfold dget. induction d as [|[a b] d IH]; [reflexivity|]. cbn [find vals map fst]. destruct (str_eqb a k); [reflexivity|exact IH]. Qed.
Lemma vals_keys : forall d, map fst (vals d) = map fst d.
Proof. intros d. unfold vals. rewrite map_map. reflexivity. Qed.
Lemma keys_dget : forall (d : list (str * str)) k, In k (map fst d) <-> dget k d <> None.
Proof.
  intros d k. unfold dget. induction d as [|[a b] d IH]; [split; [intros []|intros H; contradiction]|]. cbn [map In find fst]. destruct (str_eqb a k) eqn:E.
  - apply str_eqb_eq in E. split; [intros _; discriminate|auto].
  - apply str_eqb_neq in E. rewrite <- IH. tauto.
Qed.

Section Lib.
Variable lib : str -> option symfile.
Theorem reopen_ok : forall f t path, NoDup (map s_ref (symbols (f_items f))) -> converted lib f t ->
  (forall s m, In s (symbols (f_items f)) -> lib (s_name s) = Some m -> 2 <= length (s_texts m)) ->
  exists ed, QEdModel.load path t = Some ed /\
    (forall r, In r (QEdModel.get_components ed) <-> exists s, In s (symbols (f_items f)) /\ s_ref s = r /\ first_like f s s) /\
    (forall s, In s (symbols (f_items f)) -> first_like f s s -> ~ In ":"%char (s_ref s) -> QEdModel.get_component_value (s_ref s) ed = Some (value_text s)).
Proof.
  intros f t path ND [_ CC _ _ _ _ _ _] TX. set (sy := symbols (f_items f)) in *.
  assert (PS : exists ps, Forall2 (fun u p => ref_value u = Some p) (filter (head_is COMPONENT) (kids t)) ps /\ Forall2 (fun s p => exists s0, first_like f s s0 /\ p = (s_ref s0, value_text s0)) sy ps).
  { change (get_items (s2l "component") t) with (filter (head_is COMPONENT) (kids t)) in CC. clear ND. revert CC TX. generalize (filter (head_is COMPONENT) (kids t)). generalize sy. intros l us F.
    induction F as [|s u l us (_ & _ & y & s0 & m & GY & FL & LM & SD) F IH]; intros TX; [exists []; split; constructor|].
    destruct IH as (ps & A & B); [intros s' m' I'; apply TX; right; exact I'|]. exists ((s_ref s0, value_text s0) :: ps). split; constructor; [|exact A| |exact B].
    - unfold ref_value, symbol_of. change SYMBOL with (s2l "symbol"). rewrite GY. cbn [nth_error]. pose proof (sd_texts _ _ _ SD) as ST. pose proof (TX s m (or_introl eq_refl) LM) as L2.
      destruct (s_texts m) as [|t1 [|t2 tl]]; [cbn in L2; lia|cbn in L2; lia|]. cbn [combine] in ST. inversion ST as [|x1 u1 xs us1 (E1 & _) ST1]; subst. inversion ST1 as [|x2 u2 xs2 us2 (E2 & _) ST2]; subst.
      change TEXT with (s2l "text"). match goal with H : _ = get_items (s2l "text") y |- _ => rewrite <- H end. cbn [snd] in E1, E2. rewrite E1, E2. reflexivity.
    - exists s0. split; [exact FL|reflexivity]. }
  destruct PS as (ps & F1 & F2). destruct (load_comps_ok _ _ F1 0 []) as (d & LD & VD). change (vals []) with (@nil (str * str)) in VD.
  unfold QEdModel.load. rewrite LD. cbn [option_map]. eexists. split; [reflexivity|].
  assert (FF : forall s s0, first_like f s s0 -> In s0 sy /\ first_like f s0 s0).
  { intros s s0 H. pose proof (find_some _ _ H) as (A & B). split; [exact A|]. unfold first_like in *. apply str_eqb_eq in B. rewrite B. exact H. }
  assert (UN : forall s s', In s sy -> In s' sy -> s_ref s = s_ref s' -> s = s').
  { clear -ND. intros s s' A B E. revert ND A B E. generalize sy. intros l. induction l as [|x l IH]; intros ND A B E; [destruct A|]. cbn [map] in ND. apply NoDup_cons_iff in ND. destruct ND as (N & ND). destruct A as [<- |A], B as [<- |B].
    - reflexivity.
    - exfalso. apply N. rewrite E. apply in_map. exact B.
    - exfalso. apply N. rewrite <- E. apply in_map. exact A.
    - apply IH; assumption. }
  assert (IN1 : forall s, In s sy -> first_like f s s -> In (s_ref s, value_text s) ps).
  { intros s I FS. clear -F2 I FS. induction F2 as [|x p l ps (s0 & FL & E) F IH]; [destruct I|]. destruct I as [-> |I]; [|right; exact (IH I)]. left. unfold first_like in *. assert (s0 = s) by congruence. subst. reflexivity. }
  assert (IN2 : forall p, In p ps -> exists s0, In s0 sy /\ first_like f s0 s0 /\ p = (s_ref s0, value_text s0)).
  { intros p I. assert (X : exists s s0, first_like f s s0 /\ p = (s_ref s0, value_text s0)) by (clear -F2 I; induction F2 as [|x q l ps (s0 & FL & E) F IH]; [destruct I|]; destruct I as [-> |I]; [exists x, s0; auto|exact (IH I)]).
    destruct X as (s & s0 & FL & ->). destruct (FF s s0 FL). exists s0. auto. }
  assert (DG : forall s, In s sy -> first_like f s s -> dget (s_ref s) (vals d) = Some (value_text s)).
  { intros s I FS. rewrite VD. unfold put_all. rewrite dget_fold. destruct (find _ (rev ps)) as [e|] eqn:FD.
    - apply find_some in FD. destruct FD as (A & B). apply in_rev in A. apply str_eqb_eq in B. destruct (IN2 e A) as (s0 & I0 & _ & ->). cbn [fst snd] in *. rewrite (UN s0 s I0 I B). reflexivity.
    - exfalso. pose proof (find_none _ _ FD (s_ref s, value_text s)) as K. rewrite <- in_rev in K. specialize (K (IN1 s I FS)). cbn [fst] in K. rewrite str_eqb_refl in K. discriminate. }
  split.
  - intros r. unfold QEdModel.get_components. cbn [q_comps]. rewrite <- vals_keys, keys_dget. split.
    + intros H. rewrite VD in H. unfold put_all in H. rewrite dget_fold in H. destruct (find _ (rev ps)) as [e|] eqn:FD; [|exfalso; apply H; reflexivity]. apply find_some in FD. destruct FD as (A & B). apply in_rev in A. apply str_eqb_eq in B.
      destruct (IN2 e A) as (s0 & I0 & FS & ->). exists s0. auto.
    + intros (s & I & <- & FS). rewrite (DG s I FS). discriminate.
  - intros s I FS NC. unfold QEdModel.get_component_value, QEdModel.get_component. change COLON with ":"%char; rewrite (proj2 (mem_c_not_In _ _) NC). cbn [q_comps]. rewrite dget_vals. apply DG; assumption.
Qed.
End Lib.
