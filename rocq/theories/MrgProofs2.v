(** Histories of aligned merges (MrgModel). *)
From Coq Require Import String Ascii List Bool Arith QArith Qabs Lqa Lia Sorted.
From Verif Require Import PyStr EngModel StepsSpec MrgModel MrgSpec MrgProofs.
Import ListNotations.
Local Open Scope nat_scope. Local Open Scope list_scope.

Lemma num_type_ok : forall flags ty, number_type flags ty <-> num_type flags = ty.
Proof.
  intros flags ty. split.
  - intros [(p & q & -> & K & A & B)|(-> & A & B)].
    + induction p as [|f p IH]; cbn [app num_type].
      * destruct K as [-> | ->]; reflexivity.
      * cbn [In] in A, B. destruct (str_eqb f (s2l "real")) eqn:E1; [apply str_eqb_eq in E1; tauto|].
        destruct (str_eqb f (s2l "complex")) eqn:E2; [apply str_eqb_eq in E2; tauto|]. cbn [orb]. apply IH; tauto.
    + induction flags as [|f p IH]; cbn [num_type]; [reflexivity|].
      cbn [In] in A, B. destruct (str_eqb f (s2l "real")) eqn:E1; [apply str_eqb_eq in E1; tauto|].
      destruct (str_eqb f (s2l "complex")) eqn:E2; [apply str_eqb_eq in E2; tauto|]. cbn [orb]. apply IH; tauto.
  - intros <-. induction flags as [|f p IH]; cbn [num_type].
    + right. repeat split; intros [].
    + destruct (str_eqb f (s2l "real")) eqn:E1; cbn [orb].
      * left. exists [], p. apply str_eqb_eq in E1. repeat split; [left; exact E1|intros []|intros []].
      * destruct (str_eqb f (s2l "complex")) eqn:E2; cbn [orb].
        -- left. exists [], p. apply str_eqb_eq in E2. repeat split; [right; exact E2|intros []|intros []].
        -- apply str_eqb_neq in E1. apply str_eqb_neq in E2.
           destruct IH as [(a & q & H1 & K & A & B)|(K & A & B)].
           ++ left. exists (f :: a), q. split; [cbn [app]; f_equal; exact H1|]. split; [exact K|]. split; intros [H|H]; tauto.
           ++ right. split; [exact K|]. split; intros [H|H]; tauto.
Qed.

Section Src.
Variable srcs : nat -> source.

Lemma import_ok : forall l k r imp nm, Forall (fun x => exists t, has_trace (srcs k) 0 x t) l ->
  exists nm', import_all srcs k r l imp nm = Some (imp ++ map (fun n => (k, n)) l, nm') /\
    (forall k' n', ~ In (k', n') (map (fun n => (k, n)) l) -> nm' k' n' = nm k' n') /\
    (NoDup l -> forall n, In n l -> nm' k n = rename r n).
Proof.
  induction l as [|x l IH]; intros k r imp nm F; cbn [import_all map].
  - exists nm. rewrite app_nil_r. split; [reflexivity|]. split; [reflexivity|]. intros _ n [].
  - inversion F as [|x' l' (t & T & _) F']; subst. rewrite T.
    destruct (IH k r (imp ++ [(k, x)]) (set_name nm k x (rename r x)) F') as (nm' & -> & N1 & N2).
    exists nm'. rewrite <- app_assoc. split; [reflexivity|]. split.
    + intros k' n' H. cbn [In] in H. rewrite N1 by tauto. unfold set_name.
      destruct (Nat.eqb_spec k' k) as [E|E]; [|reflexivity]. destruct (str_eqb n' x) eqn:X; [|reflexivity].
      apply str_eqb_eq in X. subst. exfalso. apply H. left. reflexivity.
    + intros ND n H. inversion ND as [|x' l' NI ND']; subst. destruct H as [<- | H]; [|exact (N2 ND' n H)].
      rewrite N1.
      * unfold set_name. rewrite Nat.eqb_refl, str_eqb_refl. reflexivity.
      * intros H. apply in_map_iff in H. destruct H as (y & E & H). injection E as ->. contradiction.
Qed.

(** What is known of the state between two aligned calls. *)
Definition cur (w : writer) : list Q :=
  match w_new w, w_traces w with [], ax :: _ => t_data ax | l, _ => l end.
Record inv (ax : trc) (ts : list trc) (ty : str) (n : nat) (w : writer) : Prop := Inv {
  i_traces : w_traces w = ax :: ts; i_ty : w_num w = ty;
  i_inc : increasing (cur w); i_len : n < length (cur w);
  i_ax : forall z, In z (cur w) -> (z <= last (t_data ax) 0)%Q;
  i_imp : Forall (fun kn => (exists t, has_trace (srcs (fst kn)) 0 (snd kn) t) /\ increasing (st_wave (s_ax (srcs (fst kn))) 0) /\
            2 <= length (st_wave (s_ax (srcs (fst kn))) 0) /\
            forall z, In z (cur w) -> (z <= last (st_wave (s_ax (srcs (fst kn))) 0) 0)%Q) (w_imp w);
  i_none : w_imp w = [] <-> w_new w = [] }.

Lemma call_ok : forall ax ts ty n w nm c, inv ax ts ty (S n) w -> 1 <= n -> aligned srcs (S n) ty (t_what ax) c ->
  exists w' nm', add_traces srcs c (w, nm) = Some (w', nm') /\ inv ax ts ty n w' /\
    w_imp w' = w_imp w ++ map (fun x => (c_src c, x)) (c_names c) /\
    (w_fwd w', w_log w', w_plot w') = (w_fwd w, w_log w, w_plot w) /\
    (forall k' n', ~ In (k', n') (map (fun x => (c_src c, x)) (c_names c)) -> nm' k' n' = nm k' n') /\
    (NoDup (c_names c) -> forall x, In x (c_names c) -> nm' (c_src c) x = rename (c_ren c) x).
Proof.
  intros ax ts ty n w nm c I N1 (AL & EP & ST & MS & (K1 & K2) & SP & LN & F).
  destruct I as [I1 I2 I3 I4 I5 I6 I7]. unfold add_traces. rewrite I1, I2.
  apply num_type_ok in K1. rewrite K1, str_eqb_refl, K2, str_eqb_refl. cbn [negb].
  assert (c_names c = [] \/ exists x l, c_names c = x :: l) as [Z|(x & l & Z)] by (destruct (c_names c); eauto).
  - rewrite Z. exists w, nm. split; [reflexivity|]. split; [|cbn [map]; rewrite app_nil_r; repeat split; intros; contradiction].
    split; try assumption. lia.
  - rewrite Z. rewrite <- Z. unfold add_data. rewrite I1, AL. cbn [orb].
    assert (Qltb 0 (c_minstep c) = false) as M0.
    { unfold Qltb. apply negb_false_iff. apply Qle_bool_iff. lra. }
    rewrite M0.
    destruct (import_ok (c_names c) (c_src c) (c_ren c) (w_imp w) nm F) as (nm' & -> & HN1 & HN2).
    rewrite ST.
    match goal with |- context [merged _ ?m _] => assert (m = cur w) as EM by (unfold cur; rewrite I1; destruct (w_new w); reflexivity) end.
    rewrite EM. set (other := st_wave (s_ax (srcs (c_src c))) 0) in *.
    set (new := merged (c_err c) (cur w) other).
    assert (n < length new) as LNEW.
    { pose proof (merge_len (c_err c) EP (length (cur w) + length other) (cur w) other (le_n _)) as ML.
      unfold new, merged. cbn [length] in *. lia. }
    assert (new <> []) as NE by (intros E; rewrite E in LNEW; cbn in LNEW; lia).
    assert (forall z, In z new -> (z < last (cur w) 0)%Q /\ (z < last other 0)%Q) as HI.
    { intros z HZ. apply (merge_hi (c_err c) EP _ _ _ 0%Q I3 SP z HZ). }
    assert (forall z, In z new -> exists y, In y (cur w) /\ (z < y)%Q) as HC.
    { intros z HZ. destruct (cur w) as [|q qs] eqn:EC; [cbn in I4; lia|]. exists (last (q :: qs) 0%Q).
      split; [apply last_in|]. apply HI. exact HZ. }
    eexists; exists nm'. split; [reflexivity|].
    split; [|split; [reflexivity|split; [reflexivity|split; [exact HN1|exact HN2]]]].
    match goal with |- inv _ _ _ _ ?w' => assert (cur w' = new) as CN end.
    { unfold cur. cbn [w_new w_traces]. fold new. destruct new; [contradiction|reflexivity]. }
    split; try rewrite CN.
    + first [reflexivity|exact I1].
    + first [reflexivity|exact I2].
    + apply (merge_inc _ EP); assumption.
    + exact LNEW.
    + intros z HZ. destruct (HC z HZ) as (y & Y & L). specialize (I5 y Y). lra.
    + cbn [w_imp]. apply Forall_app. split.
      * eapply Forall_impl; [|exact I6]. cbn beta. intros kn (A1 & A2 & A3 & A4).
        split; [exact A1|]. split; [exact A2|]. split; [exact A3|]. intros z HZ.
        destruct (HC z HZ) as (y & Y & L). specialize (A4 y Y). lra.
      * apply Forall_forall. intros kn HK. apply in_map_iff in HK. destruct HK as (y & <- & Y). cbn [fst snd].
        rewrite Forall_forall in F. split; [exact (F y Y)|]. fold other.
        split; [exact (spaced_inc _ EP _ SP)|]. split; [lia|]. intros z HZ. destruct (HI z HZ) as (_ & L). lra.
    + cbn [w_imp w_new]. fold new. rewrite Z. cbn [map].
      split; [intros E; destruct (w_imp w); discriminate|intros E; contradiction].
Qed.

Lemma calls_ok : forall cs ax ts ty n w nm, inv ax ts ty (S n) w -> length cs <= n -> 1 <= n - length cs ->
  Forall (aligned srcs (S n) ty (t_what ax)) cs ->
  exists w' nm', add_calls srcs cs (w, nm) = Some (w', nm') /\ inv ax ts ty (S n - length cs) w' /\
    w_imp w' = w_imp w ++ map fst (wanted cs) /\
    (w_fwd w', w_log w', w_plot w') = (w_fwd w, w_log w, w_plot w) /\
    (forall k' n', ~ In (k', n') (map fst (wanted cs)) -> nm' k' n' = nm k' n') /\
    (NoDup (map fst (wanted cs)) -> forall k x r, In (k, x, r) (wanted cs) -> nm' k x = rename r x).
Proof.
  induction cs as [|c cs IH]; intros ax ts ty n w nm I L1 L2 F; cbn [add_calls].
  - exists w, nm. cbn. rewrite app_nil_r. split; [reflexivity|]. split; [exact I|]. repeat split; intros; contradiction.
  - inversion F as [|c' cs' FC FR]; subst. cbn [length] in *.
    destruct (call_ok ax ts ty n w nm c I ltac:(lia) FC) as (w1 & nm1 & -> & I1 & W1 & P1 & N1 & N2).
    destruct n as [|n]; [lia|].
    destruct (IH ax ts ty n w1 nm1 I1 ltac:(lia) ltac:(lia)) as (w' & nm' & -> & I' & W' & P' & M1 & M2).
    { eapply Forall_impl; [|exact FR]. intros c' (B1 & B2 & B3 & B4 & B5 & B6 & B7 & B8).
      repeat (split; [assumption|]). split; [lia|assumption]. }
    assert (map fst (wanted (c :: cs)) = map (fun x => (c_src c, x)) (c_names c) ++ map fst (wanted cs)) as WC.
    { unfold wanted. cbn [flat_map]. rewrite map_app. f_equal. rewrite map_map. reflexivity. }
    exists w', nm'. split; [reflexivity|]. split; [exact I'|]. split; [rewrite W', W1, WC, app_assoc; reflexivity|].
    split; [rewrite P', P1; reflexivity|]. split.
    + intros k' n' H. rewrite WC, in_app_iff in H. rewrite M1 by tauto. apply N1. tauto.
    + rewrite WC. intros ND k x r H. unfold wanted in H. cbn [flat_map] in H. apply in_app_iff in H.
      assert (NoDup (map (fun x => (c_src c, x)) (c_names c)) /\ NoDup (map fst (wanted cs)) /\
              forall q, In q (map (fun x => (c_src c, x)) (c_names c)) -> ~ In q (map fst (wanted cs))) as (D1 & D2 & D3).
      { revert ND. generalize (map (fun x => (c_src c, x)) (c_names c)). clear.
        induction l as [|q l IHl]; intros ND; [split; [constructor|]; split; [exact ND|intros q []]|].
        cbn [app] in ND. inversion ND as [|q' l' NI ND']; subst. destruct (IHl ND') as (E1 & E2 & E3).
        rewrite in_app_iff in NI. split; [constructor; [tauto|exact E1]|]. split; [exact E2|].
        intros q' [<- | H]; [tauto|exact (E3 q' H)]. }
      destruct H as [H|H].
      * apply in_map_iff in H. destruct H as (y & E & Y). injection E as <- <- <-.
        assert (In (c_src c, y) (map (fun x => (c_src c, x)) (c_names c))) as HY by (apply in_map_iff; eauto).
        rewrite (M1 _ _ (D3 _ HY)). apply N2; [|exact Y]. exact (NoDup_map_inv _ _ D1).
      * apply M2; [exact D2|exact H].
Qed.

Lemma traces_ok : forall axis ts l, Forall (fun t => length (t_data t) = length axis) l -> 2 <= length axis -> increasing axis ->
  increasing ts -> (forall z, In z ts -> (z <= last axis 0)%Q) ->
  exists l', interp_traces axis ts l = Some l' /\
    Forall2 (fun t t' => t_name t' = t_name t /\ t_what t' = t_what t /\ t_num t' = t_num t /\
                         resampled axis (t_data t) ts (t_data t')) l l'.
Proof.
  induction l as [|t l IH]; intros F L IA IT UB; cbn [interp_traces]; [exists []; split; [reflexivity|constructor]|].
  inversion F as [|t' l' FT FL]; subst.
  destruct (interpolate_ok axis (t_data t) ts FT L IA IT UB) as (ys & -> & R).
  destruct (IH FL L IA IT UB) as (l' & -> & F2). eexists. split; [reflexivity|]. constructor; [|exact F2].
  cbn. repeat split; try reflexivity; apply R.
Qed.

Lemma imports_ok : forall nm ts l, increasing ts ->
  Forall (fun kn => (exists t, has_trace (srcs (fst kn)) 0 (snd kn) t) /\ increasing (st_wave (s_ax (srcs (fst kn))) 0) /\
            2 <= length (st_wave (s_ax (srcs (fst kn))) 0) /\
            forall z, In z ts -> (z <= last (st_wave (s_ax (srcs (fst kn))) 0) 0)%Q) l ->
  exists l', interp_imports srcs nm ts l = Some l' /\
    Forall2 (fun kn t' => exists t, has_trace (srcs (fst kn)) 0 (snd kn) t /\ t_name t' = nm (fst kn) (snd kn) /\
                t_num t' = st_num t /\ (ordinary (t_name t') -> t_what t' = st_what t) /\
                resampled (st_wave (s_ax (srcs (fst kn))) 0) (st_wave t 0) ts (t_data t')) l l'.
Proof.
  induction l as [|[k n] l IH]; intros IT F; cbn [interp_imports]; [exists []; split; [reflexivity|constructor]|].
  inversion F as [|t' l' ((t & T1 & T2) & IA & L & UB) FL]; subst. cbn [fst snd] in *. rewrite T1.
  destruct (interpolate_ok _ (st_wave t 0) ts T2 L IA IT UB) as (ys & -> & R).
  destruct (IH IT FL) as (l' & -> & F2). eexists. split; [reflexivity|]. constructor; [|exact F2].
  exists t. cbn [fst snd]. split; [split; assumption|]. cbn. repeat split; try reflexivity; try apply R.
  intros (O1 & O2). apply str_eqb_neq in O1. apply str_eqb_neq in O2. rewrite O1, O2. reflexivity.
Qed.
End Src.
