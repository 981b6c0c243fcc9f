(** Proofs about the fast worst case search (C44, C88, C91). *)
From Coq Require Import String Ascii List Bool Arith ZArith NArith QArith Lia Permutation.
From Verif Require Import TolModel TolFastModel TolSpec TolFastSpec TolCorner TolCollect TolRuns TolSens.
Import ListNotations.
Local Open Scope string_scope. Local Open Scope nat_scope. Local Open Scope list_scope.

Lemma put_at_len : forall {A} k (x : A) l, length (put_at k x l) = length l.
Proof. induction k as [|k IH]; intros x [|y l]; cbn; auto. Qed.
Lemma put_at_same : forall {A} k (x d : A) l, k < length l -> nth k (put_at k x l) d = x.
Proof. induction k as [|k IH]; intros x d [|y l] H; cbn in *; try lia; auto. apply IH. lia. Qed.
Lemma put_at_other : forall {A} k j (x d : A) l, j <> k -> nth j (put_at k x l) d = nth j l d.
Proof. induction k as [|k IH]; intros [|j] x d [|y l] H; cbn; try lia; auto. Qed.
Lemma put_at_twice : forall {A} k (x y : A) l, put_at k x (put_at k y l) = put_at k x l.
Proof. induction k as [|k IH]; intros x y [|z l]; cbn; auto. f_equal. apply IH. Qed.
Lemma put_at_id : forall {A} k (d : A) l, put_at k (nth k l d) l = l.
Proof. induction k as [|k IH]; intros d [|y l]; cbn; auto. f_equal. apply IH. Qed.
Lemma put_at_map : forall {A B} (f : A -> B) k x l, map f (put_at k x l) = put_at k (f x) (map f l).
Proof. induction k as [|k IH]; intros x [|y l]; cbn; auto. f_equal. apply IH. Qed.

Section Fast.
  Variables (e n0 : ed) (a : ana) (order : list (kind * string)) (w : work) (f : ed -> Q) (m : list wct -> Q).
  Hypothesis HO : ok_setup e a.
  Hypothesis HC : collected a e order w.
  Hypothesis HN : nominal_netlist a e n0.
  Hypothesis HM : measured_by a n0 order f m.
  Let n := length order.
  Let els := snd w.

  Lemma els_len : length els = n. Proof. unfold els, n. destruct HC as (S & _). rewrite S. apply map_length. Qed.
  Lemma els_nd : NoDup els. Proof. apply HC. Qed.
  Lemma els_nth : forall k r, nth_error els k = Some r -> exists kd, nth_error order k = Some (kd, r).
  Proof. intros. eapply order_nth; eassumption. Qed.

  (** The entry of element k. *)
  Lemma entry_at : forall k kd r, nth_error order k = Some (kd, r) -> exists y, aget r (fst w) = Some y /\ e_kind y = kd /\
    (forall t, exists v, value_change (e_val y) (e_dev y) t = Some v /\ value_at t (e_val y) (e_dev y) = Some v) /\
    (kd = KComp -> aget r (comps n0) <> None).
  Proof.
    intros k kd r Hk. apply nth_error_In in Hk. destruct HC as (_ & _ & _ & C1 & C2). destruct kd.
    - destruct (C1 r Hk) as (q & d & CD & E). exists (Ent (VNum q) d KComp). split; [exact E|]. split; [reflexivity|]. split.
      + intros t. cbn [e_val e_dev]. pose proof CD as (_ & (RD & _) & _). unfold value_change, value_at, extreme, high, low. destruct t, (dtyp d); eauto; exfalso; apply RD; reflexivity.
      + intros _. apply (comp_dev_n0 e n0 a HN) in CD. destruct CD as (-> & _). discriminate.
    - destruct (C2 r Hk) as (v & d & CD & M & Ev & E). exists (Ent v d KPar). split; [exact E|]. split; [reflexivity|]. split; [|discriminate].
      intros t. cbn [e_val e_dev]. unfold value_change, value_at, extreme. rewrite M. destruct t; eauto. destruct v; eauto. destruct v; eauto.
  Qed.

  (** Netlist [x] shows setting [s]. *)
  Definition shows (s : list wct) (x : ed) : Prop :=
    (forall k kd r y, nth_error order k = Some (kd, r) -> aget r (fst w) = Some y -> read kd r x = value_at (nth k s Nom) (e_val y) (e_dev y)) /\
    (forall kd r, ~ In (kd, r) order -> read kd r x = read kd r n0) /\ dirs x = dirs n0.
  Lemma shows_setting : forall s x, shows s x -> at_setting a n0 order s x.
  Proof.
    intros s x (A & B & D). destruct HC as (SW & ND & DV & C1 & C2). split; [|split; [|split; [|split]]].
    - intros k r q d Hk CD. destruct (C1 r (nth_error_In _ _ Hk)) as (q' & d' & CD' & E). apply (comp_dev_n0 e n0 a HN) in CD.
      destruct (comp_dev_fun a _ _ _ _ _ _ CD CD') as (<- & <-). exact (A k KComp r _ Hk E).
    - intros k p v d Hk CD Ev. pose proof (nth_error_In _ _ Hk) as HI. destruct (C2 p HI) as (v' & d' & (CD1 & _) & M & Ev' & E).
      assert (d' = d) by (destruct CD; congruence). subst d'.
      assert (v' = v). { destruct HN as (_ & _ & EP). rewrite EP in Ev by (apply aget_In; eauto). congruence. } subst v'. exact (A k KPar p _ Hk E).
    - intros r Hr. exact (B KComp r Hr).
    - intros p Hp. exact (B KPar p Hp).
    - exact D.
  Qed.
  Lemma shows_m : forall s x, length s = n -> shows s x -> f x = m s.
  Proof. intros s x HL H. apply HM; [exact HL|apply shows_setting; exact H]. Qed.
  Lemma shows_nominal : shows (repeat Nom n) n0.
  Proof.
    destruct HC as (SW & ND & DV & C1 & C2). split; [|split; reflexivity]. intros k kd r y Hk Ey.
    assert (EN : nth k (repeat Nom n) Nom = Nom) by (clear; generalize n; intros j; revert k; induction j; intros [|k]; cbn; auto). rewrite EN. cbn [value_at]. destruct kd; cbn [read].
    - destruct (C1 r (nth_error_In _ _ Hk)) as (q & d & CD & E). rewrite E in Ey. injection Ey as <-. cbn. apply (comp_dev_n0 e n0 a HN) in CD. apply CD.
    - pose proof (nth_error_In _ _ Hk) as HI. destruct (C2 r HI) as (v & d & (CD1 & _) & M & Ev & E). rewrite E in Ey. injection Ey as <-. cbn. destruct HN as (_ & _ & EP). rewrite EP by (apply aget_In; eauto). exact Ev.
  Qed.

  Lemma order_snd_inj : forall j k kd kd' r, nth_error order j = Some (kd, r) -> nth_error order k = Some (kd', r) -> j = k /\ kd = kd'.
  Proof.
    intros j k kd kd' r A B. destruct HC as (SW & ND & _). assert (j = k).
    { eapply NoDup_nth_error; [exact ND| |]; [apply nth_error_Some|]; rewrite SW, ?nth_error_map, A; [discriminate|]. rewrite B. reflexivity. }
    subst k. split; congruence.
  Qed.
  Lemma set_shows : forall k r t s x, nth_error els k = Some r -> length s = n -> shows s x ->
    exists x', set_ref_to w r t x = Some x' /\ shows (put_at k t s) x'.
  Proof.
    intros k r t s x Hk HL (A & B & D). destruct (els_nth k r Hk) as (kd & Ho). destruct (entry_at k kd r Ho) as (y & Ey & Ek & V & P).
    destruct (V t) as (v & V1 & V2). unfold set_ref_to. rewrite Ey, V1, Ek.
    destruct (put_spec kd r v x) as (x' & E1 & R1 & O1 & D1).
    { intros ->. cbn [read]. intros K. specialize (A k KComp r y Ho Ey). cbn [read] in A. rewrite K in A. destruct (V (nth k s Nom)) as (v' & _ & V'). rewrite V' in A. discriminate. }
    exists x'. split; [exact E1|]. split; [|split].
    - intros j kd' r' y' Hj Ey'. destruct (string_dec r' r) as [->|Nr].
      + destruct (order_snd_inj _ _ _ _ _ Hj Ho) as (-> & ->). rewrite put_at_same by (rewrite HL; apply nth_error_Some; unfold n; rewrite Ho; discriminate).
        rewrite Ey in Ey'. injection Ey' as <-. rewrite R1, V2. reflexivity.
      + rewrite O1 by congruence. rewrite put_at_other by (intros ->; congruence). exact (A j kd' r' y' Hj Ey').
    - intros kd' r' Hn. rewrite O1; [apply B; exact Hn|]. intros Eq. injection Eq as -> ->. apply Hn. eapply nth_error_In. exact Ho.
    - congruence.
  Qed.

  (** ** Dictionaries of directions *)
  Definition dict (c : list bool) : list (string * bool) := combine els c.
  Lemma dict_get : forall c k r, length c = n -> nth_error els k = Some r -> aget r (dict c) = Some (nth k c false).
  Proof.
    unfold dict. intros c k r HL. pose proof els_nd as ND. pose proof els_len as EL. assert (length els = length c) by lia. clear HL EL. revert c k H ND. induction els as [|x l IH]; intros c k H ND Hk; [destruct k; discriminate|].
    destruct c as [|b c]; [discriminate|]. inversion ND as [|? ? NI ND']; subst. destruct k as [|k]; cbn in *.
    - injection Hk as ->. rewrite String.eqb_refl. reflexivity.
    - destruct (String.eqb_spec r x) as [->|]; [exfalso; apply NI; eapply nth_error_In; exact Hk|]. apply IH; auto.
  Qed.
  Lemma dict_set : forall c k r b, length c = n -> nth_error els k = Some r -> aset r b (dict c) = dict (put_at k b c).
  Proof.
    unfold dict. intros c k r b HL. pose proof els_nd as ND. pose proof els_len as EL. assert (length els = length c) by lia. clear HL EL. revert c k H ND. induction els as [|x l IH]; intros c k H ND Hk; [destruct k; discriminate|].
    destruct c as [|b' c]; [discriminate|]. inversion ND as [|? ? NI ND']; subst. destruct k as [|k]; cbn in *.
    - injection Hk as ->. rewrite String.eqb_refl. reflexivity.
    - destruct (String.eqb_spec r x) as [->|]; [exfalso; apply NI; eapply nth_error_In; exact Hk|]. f_equal. apply IH; auto.
  Qed.
  Lemma side_corner : forall k b c, put_at k (side b) (corner c) = corner (put_at k b c).
  Proof. intros. unfold corner. rewrite put_at_map. reflexivity. Qed.
  Lemma corner_len : forall c, length (corner c) = length c. Proof. intros. apply map_length. Qed.

  (** ** First phase: one element after the other to its maximum *)
  Definition first_max (k : nat) : list wct := repeat Max k ++ repeat Nom (n - k).
  Lemma first_max_len : forall k, k <= n -> length (first_max k) = n.
  Proof. intros. unfold first_max. rewrite app_length, !repeat_length. lia. Qed.
  Lemma first_max_step : forall k, k < n -> put_at k Max (first_max k) = first_max (S k).
  Proof.
    intros k Hk. unfold first_max. replace (n - k) with (S (n - S k)) by lia. cbn [repeat]. generalize (n - S k). intros j. clear.
    induction k as [|k IH]; [reflexivity|]. cbn [repeat app put_at]. f_equal. exact IH.
  Qed.
  Lemma first_max_nom : forall k, k < n -> put_at k Nom (first_max k) = first_max k.
  Proof.
    intros k Hk. unfold first_max. replace (n - k) with (S (n - S k)) by lia. cbn [repeat]. generalize (n - S k). intros j. clear.
    induction k as [|k IH]; [reflexivity|]. cbn [repeat app put_at]. f_equal. exact IH.
  Qed.
  Lemma raise_spec : forall rest k x, skipn k els = rest -> k <= n -> shows (first_max k) x ->
    exists x', raise_all f w rest x = Some (map (fun j => m (first_max (S j))) (seq k (n - k)), x') /\ shows (first_max n) x'.
  Proof.
    induction rest as [|r rest IH]; intros k x HS HK Sx.
    - assert (n <= k). { pose proof (skipn_length k els) as L. rewrite HS, els_len in L. cbn in L. lia. } assert (k = n) by lia. subst k. rewrite Nat.sub_diag. exists x. split; [reflexivity|exact Sx].
    - assert (Hr : nth_error els k = Some r /\ skipn (S k) els = rest).
      { clear -HS. revert k HS. induction els as [|y l IH]; intros k HS; [destruct k; discriminate|]. destruct k; cbn in *; [injection HS as -> ->; auto|]. apply IH. exact HS. }
      destruct Hr as (Hr & HS'). assert (Lk : k < n) by (rewrite <- els_len; apply nth_error_Some; rewrite Hr; discriminate).
      cbn [raise_all]. destruct (set_shows k r Max (first_max k) x Hr (first_max_len k HK) Sx) as (x1 & E1 & S1). rewrite E1. rewrite first_max_step in S1 by exact Lk.
      destruct (IH (S k) x1 HS' Lk S1) as (x' & E & S'). rewrite E. exists x'. split; [|exact S']. replace (n - k) with (S (n - S k)) by lia. cbn [seq map].
      rewrite (shows_m (first_max (S k)) x1) by (try exact S1; apply first_max_len; lia). reflexivity.
  Qed.
  Definition dir0 : list bool := map (fun j => negb (Qle_bool (m (first_max (S j)) - m (first_max j)) 0)) (seq 0 n).
  Lemma dir0_len : length dir0 = n. Proof. unfold dir0. rewrite map_length, seq_length. reflexivity. Qed.
  Lemma skip_cons : forall k (l : list string), k < length l -> exists r, nth_error l k = Some r /\ skipn k l = r :: skipn (S k) l.
  Proof. induction k as [|k IH]; intros [|y l] H; cbn in H; try lia; [exists y; auto|]. destruct (IH l) as (r & A & B); [lia|]. exists r. auto. Qed.
  Lemma signs_spec : forall j k d, j = n - k -> k <= n -> (forall i r, k <= i -> nth_error els i = Some r -> aget r d = None) ->
    signs (skipn k els) (m (first_max k)) (map (fun j => m (first_max (S j))) (seq k j)) d =
      d ++ combine (skipn k els) (map (fun j => negb (Qle_bool (m (first_max (S j)) - m (first_max j)) 0)) (seq k j)).
  Proof.
    induction j as [|j IH]; intros k d Ej Hk Hd.
    - replace (skipn k els) with (@nil string) by (symmetry; apply skipn_all2; rewrite els_len; lia). cbn. rewrite app_nil_r. reflexivity.
    - destruct (skip_cons k els) as (r & Hr & ->); [rewrite els_len; lia|]. cbn [seq map signs combine]. rewrite IH; [|lia|lia|].
      + set (b := negb _). assert (EA : aset r b d = d ++ [(r, b)]).
        { pose proof (Hd k r (le_n k) Hr) as Nd. clear - Nd. induction d as [|[q v] d IH]; [reflexivity|]. cbn in *. destruct (String.eqb_spec r q) as [->|]; [discriminate|]. rewrite IH; auto. }
        rewrite EA, <- app_assoc. reflexivity.
      + intros i r' Hi Hr'. rewrite aget_aset_other; [apply (Hd i); [lia|exact Hr']|]. intros ->. pose proof els_nd as ND. assert (i = k); [|lia].
        eapply NoDup_nth_error; [exact ND|apply nth_error_Some; rewrite Hr'; discriminate|congruence].
  Qed.

  (** ** The other phases *)
  Lemma lower_spec : forall c1 k s x, k + length c1 = n -> length s = n -> shows s x ->
    exists x', lower_some w (combine (skipn k els) c1) x = Some (negb (forallb (fun b => b) c1), x') /\
      shows (firstn k s ++ map (fun bt : bool * wct => if fst bt then snd bt else Min) (combine c1 (skipn k s))) x'.
  Proof.
    induction c1 as [|b c1 IH]; intros k s x HK HL Sx.
    - cbn in HK. rewrite Nat.add_0_r in HK. subst k. exists x. rewrite combine_nil. cbn. split; [reflexivity|]. rewrite app_nil_r, <- HL, firstn_all. exact Sx.
    - cbn [length] in HK. destruct (skip_cons k els) as (r & Hr & ->); [rewrite els_len; lia|]. cbn [combine lower_some].
      assert (Hs : exists t, nth_error s k = Some t /\ skipn k s = t :: skipn (S k) s /\ firstn (S k) s = firstn k s ++ [t]).
      { clear -HK HL. revert k HK HL. generalize n as nn. intros nn k HK HL. assert (HLt : k < length s) by lia. clear - HLt. revert k HLt. induction s as [|t s IH]; intros [|k] H; cbn in H; try lia.
        - exists t. auto. - destruct (IH k) as (t' & A & B & C); [lia|]. exists t'. split; [exact A|]. split; [exact B|]. change (t :: firstn (S k) s = (t :: firstn k s) ++ [t']). rewrite C. reflexivity. }
      destruct Hs as (t & Ht & Hsk & Hfs). rewrite Hsk. cbn [combine map fst snd]. destruct b.
      + destruct (IH (S k) s x) as (x' & E & S'); [lia|exact HL|exact Sx|]. exists x'. split; [cbn [forallb]; exact E|]. rewrite Hfs, <- app_assoc in S'. exact S'.
      + destruct (set_shows k r Min s x Hr HL Sx) as (x1 & E1 & S1). rewrite E1. destruct (IH (S k) (put_at k Min s) x1) as (x' & E & S'); [lia|rewrite put_at_len; exact HL|exact S1|].
        rewrite E. exists x'. cbn [forallb negb andb]. split; [reflexivity|].
        assert (F1 : firstn (S k) (put_at k Min s) = firstn k s ++ [Min] /\ skipn (S k) (put_at k Min s) = skipn (S k) s).
        { clear - Ht. revert k Ht. induction s as [|u s IH]; intros [|k] Ht; try discriminate; [split; reflexivity|]. cbn in Ht. destruct (IH k Ht) as (A & B). cbn [put_at]. split; [cbn [firstn app]; f_equal; exact A|exact B]. }
        destruct F1 as (F1 & F2). rewrite F1, F2, <- app_assoc in S'. exact S'.
  Qed.

  Lemma skip_next : forall k r rest, skipn k els = r :: rest -> nth_error els k = Some r /\ skipn (S k) els = rest /\ k < n.
  Proof.
    intros k r rest H. assert (L : k < n). { rewrite <- els_len. destruct (Nat.lt_ge_cases k (length els)) as [L|L]; [exact L|]. rewrite skipn_all2 in H by exact L. discriminate. }
    destruct (skip_cons k els) as (r' & A & B); [rewrite els_len; exact L|]. rewrite B in H. assert (r' = r /\ skipn (S k) els = rest) as (-> & ->) by (split; congruence). auto.
  Qed.

  (** The check of the maximum: passes if no single change is higher, and fails otherwise. *)
  Lemma check_max_spec : forall c maxv, length c = n -> forall rest k x, skipn k els = rest -> shows (corner c) x ->
    ((forall j, k <= j < n -> (m (corner (flip j c)) <= maxv)%Q) -> exists x', check_max f w rest (dict c) maxv x = Some x' /\ shows (corner c) x') /\
    ((exists j, k <= j < n /\ (maxv < m (corner (flip j c)))%Q) -> check_max f w rest (dict c) maxv x = None).
  Proof.
    intros c maxv HL. induction rest as [|r rest IH]; intros k x HS Sx.
    - cbn [check_max]. split; [intros _; exists x; auto|]. intros (j & Hj & _). exfalso. pose proof (skipn_length k els) as L. rewrite HS, els_len in L. cbn in L. lia.
    - destruct (skip_next k r rest HS) as (Hr & HS' & Lk). cbn [check_max]. rewrite (dict_get c k r HL Hr).
      destruct (set_shows k r (side (negb (nth k c false))) (corner c) x Hr) as (x1 & E1 & S1); [rewrite corner_len; exact HL|exact Sx|]. rewrite E1.
      rewrite side_corner in S1. fold (flip k c) in S1.
      assert (EM : f x1 = m (corner (flip k c))) by (apply shows_m; [unfold flip; rewrite corner_len, put_at_len; exact HL|exact S1]). rewrite EM.
      destruct (set_shows k r (side (nth k c false)) (corner (flip k c)) x1 Hr) as (x2 & E2 & S2); [unfold flip; rewrite corner_len, put_at_len; exact HL|exact S1|].
      rewrite side_corner in S2. unfold flip in S2. rewrite put_at_twice, put_at_id in S2.
      destruct (IH (S k) x2 HS' S2) as (IA & IB). split.
      + intros H. assert (Q1 : Qle_bool (m (corner (flip k c))) maxv = true) by (apply Qle_bool_iff, H; lia). rewrite Q1. cbn [negb]. rewrite E2. apply IA. intros j Hj. apply H. lia.
      + intros (j & Hj & HB). destruct (Qle_bool (m (corner (flip k c))) maxv) eqn:Q1; cbn [negb]; [|reflexivity]. rewrite E2. apply IB. exists j. split; [|exact HB].
        assert (j <> k); [|lia]. intros ->. apply Qle_bool_iff in Q1. apply (Qlt_irrefl maxv). eapply Qlt_le_trans; eassumption.
  Qed.

  Lemma set_all_spec : forall c, length c = n -> forall rest k s x, skipn k els = rest -> length s = n -> shows s x ->
    exists x', set_all w rest (dict c) x = Some x' /\ shows (firstn k s ++ skipn k (corner c)) x'.
  Proof.
    intros c HL. induction rest as [|r rest IH]; intros k s x HS HLs Sx.
    - exists x. split; [reflexivity|]. assert (n <= k). { pose proof (skipn_length k els) as L. rewrite HS, els_len in L. cbn in L. lia. }
      rewrite firstn_all2 by lia. rewrite skipn_all2 by (rewrite corner_len; lia). rewrite app_nil_r. exact Sx.
    - destruct (skip_next k r rest HS) as (Hr & HS' & Lk). cbn [set_all]. rewrite (dict_get c k r HL Hr).
      destruct (set_shows k r (side (nth k c false)) s x Hr HLs Sx) as (x1 & E1 & S1). rewrite E1.
      destruct (IH (S k) (put_at k (side (nth k c false)) s) x1 HS') as (x' & E & S'); [rewrite put_at_len; exact HLs|exact S1|].
      exists x'. split; [exact E|]. assert (F : firstn (S k) (put_at k (side (nth k c false)) s) ++ skipn (S k) (corner c) = firstn k s ++ skipn k (corner c)); [|rewrite F in S'; exact S'].
      assert (Ls : k < length s) by lia. assert (Lc : k < length c) by lia. clear - Ls Lc. revert s c Ls Lc. induction k as [|k IH]; intros [|t s] [|b c] H1 H2; cbn in H1, H2; try lia; [reflexivity|].
      cbn [put_at firstn app corner map skipn nth]. f_equal. apply IH; lia.
  Qed.

  (** All corners, and how many of them are below a value. *)
  Fixpoint corners (j : nat) : list (list bool) := match j with O => [[]] | S i => map (cons true) (corners i) ++ map (cons false) (corners i) end.
  Lemma corners_len : forall j, length (corners j) = 2 ^ j.
  Proof. induction j as [|j IH]; [reflexivity|]. cbn [corners]. rewrite app_length, !map_length, IH, Nat.pow_succ_r'. lia. Qed.
  Lemma corners_in : forall j c, length c = j -> In c (corners j).
  Proof. induction j as [|j IH]; intros [|b c] H; try discriminate; [left; reflexivity|]. cbn. apply in_app_iff. injection H as H. destruct b; [left|right]; apply in_map; apply IH; exact H. Qed.
  Definition below (v : Q) : nat := length (filter (fun c => negb (Qle_bool v (m (corner c)))) (corners n)).
  Lemma below_less : forall v c, length c = n -> (m (corner c) < v)%Q -> below (m (corner c)) < below v.
  Proof.
    intros v c HL HV. unfold below. pose proof (corners_in n c HL) as HI.
    assert (HD : forall x, (m (corner x) < m (corner c))%Q -> (m (corner x) < v)%Q) by (intros x Hx; eapply Qlt_trans; eassumption).
    assert (HB : forall u x, negb (Qle_bool u (m (corner x))) = true <-> (m (corner x) < u)%Q).
    { intros u x. rewrite negb_true_iff. split; [intros H; destruct (Qlt_le_dec (m (corner x)) u) as [L|L]; [exact L|]; apply Qle_bool_iff in L; congruence|].
      intros H. destruct (Qle_bool u (m (corner x))) eqn:E; [|reflexivity]. apply Qle_bool_iff in E. exfalso. apply (Qlt_irrefl u). eapply Qle_lt_trans; eassumption. }
    assert (HC0 : negb (Qle_bool (m (corner c)) (m (corner c))) = false) by (destruct (negb _) eqn:E; [apply HB in E; exfalso; exact (Qlt_irrefl _ E)|reflexivity]).
    assert (HCv : negb (Qle_bool v (m (corner c))) = true) by (apply HB; exact HV).
    revert HI. induction (corners n) as [|y l IH]; intros HI; [destruct HI|]. cbn [filter].
    assert (HLe : forall l, length (filter (fun c0 => negb (Qle_bool (m (corner c)) (m (corner c0)))) l) <= length (filter (fun c0 => negb (Qle_bool v (m (corner c0)))) l)).
    { clear IH HI l y. induction l as [|z l IH]; [apply le_n|]. cbn [filter]. destruct (negb (Qle_bool (m (corner c)) (m (corner z)))) eqn:E1.
      - apply HB in E1. apply HD in E1. apply HB in E1. rewrite E1. cbn. lia.
      - destruct (negb (Qle_bool v (m (corner z)))); cbn; lia. }
    destruct HI as [->|HI].
    - rewrite HC0, HCv. cbn. specialize (HLe l). lia.
    - specialize (IH HI). destruct (negb (Qle_bool (m (corner c)) (m (corner y)))) eqn:E1.
      + apply HB in E1. apply HD in E1. apply HB in E1. rewrite E1. cbn. lia.
      + destruct (negb (Qle_bool v (m (corner y)))); cbn; lia.
  Qed.
  Lemma below_max : forall v, below v <= 2 ^ n.
  Proof. intros v. unfold below. rewrite <- corners_len. generalize (corners n). intros l. induction l as [|c l IH]; [apply le_n|]. cbn [filter]. destruct (negb _); cbn; lia. Qed.

  Lemma check_min_spec : forall fuel rest k c x, skipn k els = rest -> k <= n -> length c = n -> shows (corner c) x ->
    below (m (corner c)) * S n + (n - k) < fuel ->
    (forall j, j < k -> (m (corner c) <= m (corner (flip j c)))%Q) ->
    exists c' x', check_min f fuel w els rest (dict c) (m (corner c)) x = Some (dict c', m (corner c'), x') /\ length c' = n /\ shows (corner c') x' /\
      (m (corner c') <= m (corner c))%Q /\ (forall j, j < n -> (m (corner c') <= m (corner (flip j c')))%Q) /\
      ((forall j, j < n -> (m (corner c) <= m (corner (flip j c)))%Q) -> c' = c).
  Proof.
    induction fuel as [|fu IH]; intros rest k c x HS Hk HL Sx HF HB; [lia|]. cbn [check_min]. destruct rest as [|r rest].
    - exists c, x. assert (n <= k). { pose proof (skipn_length k els) as L. rewrite HS, els_len in L. cbn in L. lia. }
      split; [reflexivity|]. split; [exact HL|]. split; [exact Sx|]. split; [apply Qle_refl|]. split; [|reflexivity]. intros j Hj. apply HB. lia.
    - destruct (skip_next k r rest HS) as (Hr & HS' & Lk). rewrite (dict_get c k r HL Hr).
      destruct (set_shows k r (side (negb (nth k c false))) (corner c) x Hr) as (x1 & E1 & S1); [rewrite corner_len; exact HL|exact Sx|]. rewrite E1.
      rewrite side_corner in S1. fold (flip k c) in S1. assert (HLf : length (flip k c) = n) by (unfold flip; rewrite put_at_len; exact HL).
      assert (EM : f x1 = m (corner (flip k c))) by (apply shows_m; [rewrite corner_len; exact HLf|exact S1]). rewrite EM.
      destruct (Qle_bool (m (corner c)) (m (corner (flip k c)))) eqn:Q1; cbn [negb].
      + destruct (set_shows k r (side (nth k c false)) (corner (flip k c)) x1 Hr) as (x2 & E2 & S2); [rewrite corner_len; exact HLf|exact S1|].
        rewrite side_corner in S2. unfold flip in S2. rewrite put_at_twice, put_at_id in S2. rewrite E2. apply (IH rest (S k) c x2 HS'); auto; try lia.
        intros j Hj. destruct (Nat.eq_dec j k) as [->|]; [apply Qle_bool_iff; exact Q1|apply HB; lia].
      + assert (LT : (m (corner (flip k c)) < m (corner c))%Q). { destruct (Qlt_le_dec (m (corner (flip k c))) (m (corner c))) as [L|L]; [exact L|]. apply Qle_bool_iff in L. congruence. }
        destruct (set_shows k r (side (negb (nth k c false))) (corner (flip k c)) x1 Hr) as (x2 & E2 & S2); [rewrite corner_len; exact HLf|exact S1|].
        rewrite side_corner in S2. unfold flip in S2 at 1. rewrite put_at_twice in S2. fold (flip k c) in S2. rewrite E2. rewrite (dict_set c k r _ HL Hr). fold (flip k c).
        pose proof (below_less _ _ HLf LT) as BL.
        destruct (IH els 0 (flip k c) x2) as (c' & x' & E & L' & S' & M' & A' & _); [reflexivity|lia|exact HLf|exact S2|nia|intros j Hj; lia|].
        exists c', x'. split; [exact E|]. split; [exact L'|]. split; [exact S'|]. split; [eapply Qle_trans; [exact M'|apply Qlt_le_weak; exact LT]|]. split; [exact A'|].
        intros H. exfalso. specialize (H k Lk). apply Qle_bool_iff in H. congruence.
  Qed.

  Lemma comp_values_spec : forall c, length c = n -> forall rest k d, skipn k els = rest -> (forall i r, k <= i -> nth_error els i = Some r -> aget r d = None) ->
    exists res, comp_values w rest (dict c) d = Some res /\ map fst res = map fst d ++ rest /\
      (forall r, ~ In r rest -> aget r res = aget r d) /\
      (forall j r y, k <= j -> nth_error els j = Some r -> aget r (fst w) = Some y -> aget r res = value_at (side (nth j c false)) (e_val y) (e_dev y)).
  Proof.
    intros c HL. induction rest as [|r rest IH]; intros k d HS Hd.
    - exists d. split; [reflexivity|]. split; [rewrite app_nil_r; reflexivity|]. split; [reflexivity|]. intros j r y Hj Hr _. exfalso.
      pose proof (skipn_length k els) as L. rewrite HS in L. cbn in L. assert (j < length els) by (apply nth_error_Some; rewrite Hr; discriminate). lia.
    - destruct (skip_next k r rest HS) as (Hr & HS' & Lk). cbn [comp_values]. destruct (els_nth k r Hr) as (kd & Ho). destruct (entry_at k kd r Ho) as (y & Ey & Ek & V & _).
      rewrite Ey, (dict_get c k r HL Hr). destruct (V (side (nth k c false))) as (v & V1 & V2). rewrite V1.
      assert (NDk : forall i, nth_error els i = Some r -> i = k). { intros i Hi. eapply NoDup_nth_error; [exact els_nd|apply nth_error_Some; rewrite Hi; discriminate|congruence]. }
      assert (NIr : ~ In r rest). { rewrite <- HS'. intros K. apply In_nth_error in K. destruct K as (i & K). assert (K' : nth_error els (S k + i) = Some r) by (rewrite <- K; clear; generalize els as l; generalize (S k) as p; induction p as [|p IH]; intros l; [reflexivity|destruct l; [destruct i; reflexivity|apply IH]]). apply NDk in K'. lia. }
      destruct (IH (S k) (aset r v d) HS') as (res & E & K & A & B).
      { intros i r' Hi Hr'. rewrite aget_aset_other; [apply (Hd i); [lia|exact Hr']|]. intros ->. apply NDk in Hr'. lia. }
      exists res. split; [exact E|]. split; [|split].
      + rewrite K. assert (EA : map fst (aset r v d) = map fst d ++ [r]).
        { pose proof (Hd k r (le_n k) Hr) as Nd. clear - Nd. induction d as [|[q u] d IH]; [reflexivity|]. cbn in *. destruct (String.eqb_spec r q) as [->|]; [discriminate|]. cbn. rewrite IH; auto. }
        rewrite EA, <- app_assoc. reflexivity.
      + intros r' Hn. rewrite A by (intros H; apply Hn; right; exact H). apply aget_aset_other. intros ->. apply Hn. left. reflexivity.
      + intros j r' y' Hj Hr' Ey'. destruct (Nat.eq_dec j k) as [->|Nj].
        * assert (r' = r) by congruence. subst r'. rewrite A by exact NIr. rewrite aget_aset_same. rewrite Ey in Ey'. injection Ey' as <-. symmetry. exact V2.
        * apply (B j r' y'); [lia|exact Hr'|exact Ey'].
  Qed.
  Lemma values_of_spec : forall c, length c = n -> exists res, comp_values w els (dict c) [] = Some res /\ values_of a n0 order c res.
  Proof.
    intros c HL. destruct (comp_values_spec c HL els 0 []) as (res & E & K & _ & B); [reflexivity|reflexivity|]. exists res. split; [exact E|].
    assert (HS : forall b, value_at (side b) = extreme b) by (intros [|]; reflexivity).
    destruct HC as (SW & ND & DV & C1 & C2). split; [|split].
    - intros k r q d Hk CD. destruct (C1 r (nth_error_In _ _ Hk)) as (q' & d' & CD' & Ee). apply (comp_dev_n0 e n0 a HN) in CD.
      destruct (comp_dev_fun a _ _ _ _ _ _ CD CD') as (<- & <-). rewrite (B k r _ (Nat.le_0_l k)) with (2 := Ee); [rewrite HS; reflexivity|]. unfold els. rewrite SW, nth_error_map, Hk. reflexivity.
    - intros k p v d Hk CD Ev. pose proof (nth_error_In _ _ Hk) as HI. destruct (C2 p HI) as (v' & d' & (CD1 & _) & M & Ev' & Ee).
      assert (d' = d) by (destruct CD; congruence). subst d'.
      assert (v' = v). { destruct HN as (_ & _ & EP). rewrite EP in Ev by (apply aget_In; eauto). congruence. } subst v'.
      rewrite (B k p _ (Nat.le_0_l k)) with (2 := Ee); [rewrite HS; reflexivity|]. unfold els. rewrite SW, nth_error_map, Hk. reflexivity.
    - rewrite K. cbn. unfold els. exact SW.
  Qed.
End Fast.
