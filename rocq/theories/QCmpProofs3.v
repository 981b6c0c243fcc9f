(** Proofs about the parameters of QSPICE components: the calls. *)
From Coq Require Import String Ascii List Bool Arith ZArith Lia.
From Verif Require Import PyStr EngModel EngProofs StepsModel Regex RegexProofs CompModel CompProofs UpdatesModel QTagModel QTagSpec QTagProofs QEdModel QEdSpec
  ParModel ParSpec ParLine ParLine2 QEdProofs QEdProofs2 QEdProofs3 QParProofs QCmpModel QCmpSpec QCmpProofs QCmpProofs2.
Import ListNotations.
Local Open Scope string_scope. Local Open Scope nat_scope. Local Open Scope list_scope.

Definition pairs (l : list entry) : list (str * str) := map (fun e => (e_par e, e_val e)) l.
Lemma settings_app : forall a b, settings_of (a ++ b) = settings_of a ++ settings_of b.
Proof. intros a b. unfold settings_of. rewrite flat_map_app, map_app. reflexivity. Qed.
Lemma settings_cons : forall x b, settings_of (x :: b) = pairs (entries_of x) ++ settings_of b.
Proof. intros x b. unfold settings_of. cbn [flat_map]. rewrite map_app. reflexivity. Qed.
Lemma value_app : forall n a b, value_in n (a ++ b) = match value_in n a with Some v => Some v | None => value_in n b end.
Proof. intros n a b. unfold value_in. induction a as [|[k v] a IH]; [reflexivity|]. cbn [app find fst]. destruct (str_eqb k n); [reflexivity|exact IH]. Qed.
Lemma value_none : forall n a, value_in n a = None <-> ~ In n (map fst a).
Proof.
  intros n a. unfold value_in. induction a as [|[k v] a IH]; cbn [find fst map]; [split; [intros _ []|reflexivity]|].
  destruct (str_eqb k n) eqn:E.
  - apply str_eqb_eq in E. subst k. split; [discriminate|intros K; exfalso; apply K; left; reflexivity].
  - apply str_eqb_neq in E. rewrite IH. split; [intros K [C|C]; [congruence|contradiction]|intros K C; apply K; right; exact C].
Qed.
Lemma value_mid : forall n k v a b, value_in n (a ++ (k, v) :: b) = match value_in n a with Some w => Some w | None => if str_eqb k n then Some v else value_in n b end.
Proof. intros n k v a b. rewrite value_app. destruct (value_in n a); [reflexivity|]. unfold value_in. cbn [find fst]. destruct (str_eqb k n); reflexivity. Qed.
Lemma pget_pset : forall k k' v d, pget k (pset k' v d) = if pkey_eqb k' k then Some v else pget k d.
Proof.
  assert (RF : forall k, pkey_eqb k k = true) by (intros [s|n]; cbn; [apply str_eqb_refl|apply Nat.eqb_refl]).
  assert (EQ : forall a b, pkey_eqb a b = true -> a = b).
  { intros [s|n] [t|m] H; cbn in H; try discriminate; [apply str_eqb_eq in H|apply Nat.eqb_eq in H]; subst; reflexivity. }
  intros k k' v. induction d as [|[a x] d IH]; unfold pget in *; cbn [pset find fst].
  - destruct (pkey_eqb k' k); reflexivity.
  - destruct (pkey_eqb a k') eqn:A; cbn [find fst].
    + apply EQ in A. subst a. destruct (pkey_eqb k' k); reflexivity.
    + destruct (pkey_eqb a k) eqn:B; [|exact IH]. apply EQ in B. subst a. destruct (pkey_eqb k' k) eqn:C; [|reflexivity]. apply EQ in C. subst k'. rewrite RF in A. discriminate.
Qed.

(** ** get_parameters *)
Lemma fold_pset : forall l d n, NoDup (map e_par l) ->
  pget (PName n) (fold_left (fun d e => pset (PName (e_par e)) (e_val e) d) l d) = match value_in n (pairs l) with Some v => Some v | None => pget (PName n) d end.
Proof.
  induction l as [|e l IH]; intros d n ND; [reflexivity|]. inversion ND as [|? ? NI ND']; subst. cbn [fold_left]. rewrite IH by exact ND'. rewrite pget_pset. cbn [pkey_eqb].
  unfold value_in, pairs. cbn [map find fst]. fold (pairs l). destruct (str_eqb (e_par e) n) eqn:E; [|reflexivity].
  apply str_eqb_eq in E. assert (value_in n (pairs l) = None) as V; [|unfold value_in in V; rewrite V; reflexivity].
  apply value_none. unfold pairs. rewrite map_map. cbn [fst]. rewrite <- E. exact NI.
Qed.
Lemma fold_pset_num : forall l d n, pget (PNum n) (fold_left (fun d e => pset (PName (e_par e)) (e_val e) d) l d) = pget (PNum n) d.
Proof. induction l as [|e l IH]; intros d n; [reflexivity|]. cbn [fold_left]. rewrite IH, pget_pset. reflexivity. Qed.
Lemma settings_names : forall xs, map fst (settings_of xs) = map e_par (flat_map entries_of xs).
Proof. intros xs. unfold settings_of. rewrite map_map. reflexivity. Qed.
Definition text_is (st : nat -> tag) (i : nat) (x : ctext) : Prop := text_of (st i) = Some (ctext_str x) /\ ctext_ok x.
Lemma NoDup_app_l : forall A (a b : list A), NoDup (a ++ b) -> NoDup a.
Proof. induction a as [|x a IH]; intros b H; [constructor|]. inversion H as [|? ? N H']; subst. constructor; [intros K; apply N; apply in_or_app; left; exact K|exact (IH b H')]. Qed.
Lemma NoDup_app_r : forall A (a b : list A), NoDup (a ++ b) -> NoDup b.
Proof. induction a as [|x a IH]; intros b H; [exact H|]. inversion H; subst. apply IH. assumption. Qed.
Lemma get_lines_ok : forall st ids xs, Forall2 (text_is st) ids xs -> NoDup (map fst (settings_of xs)) -> forall i d, exists d',
  get_lines i (map st ids) d = Some d' /\ (forall n, pget (PName n) d' = match value_in n (settings_of xs) with Some v => Some v | None => pget (PName n) d end) /\
  (forall m, pget (PNum m) d' = if m <? i then pget (PNum m) d else match nth_error xs (m - i) with Some x => Some (ctext_str x) | None => pget (PNum m) d end).
Proof.
  intros st ids xs F. induction F as [|j x ids xs (T & O) F IH]; intros ND i d; cbn [map get_lines].
  - exists d. split; [reflexivity|]. split; [reflexivity|]. intros m. destruct (m <? i); [reflexivity|]. destruct (m - i); reflexivity.
  - rewrite T, put_line by exact O. rewrite settings_cons, map_app in ND.
    destruct (IH (NoDup_app_r _ _ _ ND) (S i) (pset (PNum i) (ctext_str x) (fold_left (fun d e => pset (PName (e_par e)) (e_val e) d) (entries_of x) d))) as (d' & E & A & B).
    exists d'. split; [exact E|]. split.
    + intros n. rewrite A, pget_pset. cbn [pkey_eqb]. rewrite fold_pset.
      2:{ apply NoDup_app_l in ND. unfold pairs in ND. rewrite map_map in ND. exact ND. }
      rewrite settings_cons, value_app. destruct (value_in n (settings_of xs)) eqn:V; [|destruct (value_in n (pairs (entries_of x))); reflexivity].
      assert (In n (map fst (settings_of xs))) as IN.
      { destruct (in_dec (list_eq_dec ascii_dec) n (map fst (settings_of xs))) as [K|K]; [exact K|]. apply value_none in K. congruence. }
      assert (value_in n (pairs (entries_of x)) = None) as ->; [|reflexivity]. apply value_none. intros K.
      clear - ND IN K. induction (map fst (pairs (entries_of x))) as [|a l IHl]; [destruct K|]. cbn in ND. inversion ND as [|? ? N ND']; subst.
      destruct K as [-> |K]; [apply N; apply in_or_app; right; exact IN|exact (IHl ND' K)].
    + intros m. rewrite B, pget_pset, fold_pset_num. cbn [pkey_eqb]. destruct (m <? i) eqn:L.
      * apply Nat.ltb_lt in L. assert (m <? S i = true) as -> by (apply Nat.ltb_lt; lia). assert (i =? m = false) as -> by (apply Nat.eqb_neq; lia). reflexivity.
      * apply Nat.ltb_ge in L. destruct (Nat.eq_dec m i) as [-> |N].
        -- assert (i <? S i = true) as -> by (apply Nat.ltb_lt; lia). rewrite Nat.eqb_refl, Nat.sub_diag. reflexivity.
        -- assert (m <? S i = false) as -> by (apply Nat.ltb_ge; lia). assert (i =? m = false) as -> by (apply Nat.eqb_neq; lia).
           replace (m - i) with (S (m - S i)) by lia. reflexivity.
Qed.

(** ** One keyword argument *)
Definition hit (st : nat -> tag) (k : str) (i : nat) : Prop := exists s, text_of (st i) = Some s /\ line_hit k s <> None.
Record inv (y : sym) (r0 v0 : nat) (vs : str) (cids tids : list nat) (xs : list ctext) (todo : str -> Prop) : Prop := Inv {
  i_perm : y_perm y = Inform;
  i_ids : text_ids y = r0 :: v0 :: tids;
  i_ok : sym_ok y;
  i_w : sym_writable y;
  i_v : text_of (y_store y v0) = Some vs /\ plain_text vs;
  i_f2 : Forall2 (text_is (y_store y)) tids xs;
  i_nd : NoDup (map fst (settings_of xs));
  i_c : forall i, In i cids -> i < y_next y /\ i <> v0 /\ i <> r0 /\ exists x, text_is (y_store y) i x;
  i_same : forall k, todo k -> forall i, hit (y_store y) k i -> (In i cids <-> In i tids) }.

Lemma find_setting_ok : forall st k ids, (forall i, In i ids -> exists s, text_of (st i) = Some s) ->
  match find_setting st k ids with
  | None => False
  | Some None => forall i, In i ids -> ~ hit st k i
  | Some (Some (i, s, x)) => In i ids /\ text_of (st i) = Some s /\ line_hit k s = Some x
  end.
Proof.
  intros st k. induction ids as [|i ids IH]; intros H; cbn [find_setting]; [intros i []|].
  destruct (H i (or_introl eq_refl)) as (s & E). rewrite E. destruct (line_hit k s) as [x|] eqn:L.
  - split; [left; reflexivity|]. split; [exact E|exact L].
  - specialize (IH (fun j J => H j (or_intror J))). destruct (find_setting st k ids) as [[[[j s'] x]|]|]; [|intros j [<- |J]|exact IH].
    + destruct IH as (A & B). split; [right; exact A|exact B].
    + intros (s' & E' & N). rewrite E in E'. injection E' as <-. rewrite L in N. apply N. reflexivity.
    + exact (IH j J).
Qed.
Lemma hit_names : forall st k i x, text_is st i x -> (hit st k i <-> In k (map e_par (entries_of x))).
Proof.
  intros st k i x (T & O). pose proof (hit_spec k x O) as S. split.
  - intros (s & E & N). rewrite T in E. injection E as <-. destruct (line_hit k (ctext_str x)) as [[[b q] c]|]; [|contradiction].
    destruct S as (l & t & a & e & b' & -> & -> & _ & E & _). cbn [entries_of]. rewrite map_app. apply in_or_app. right. left. exact E.
  - intros K. exists (ctext_str x). split; [exact T|]. intros N. rewrite N in S. apply in_map_iff in K. destruct K as (e & E & I). exact (S e I E).
Qed.
Lemma f2_mid : forall A B (P : A -> B -> Prop) l m x, Forall2 P l m -> In x l -> exists l1 l2 m1 z m2, l = l1 ++ x :: l2 /\ m = m1 ++ z :: m2 /\ Forall2 P l1 m1 /\ P x z /\ Forall2 P l2 m2.
Proof.
  intros A B P l m x F. induction F as [|a b l m H F IH]; intros I; [destruct I|]. destruct I as [-> |I].
  - exists [], l, [], b, m. split; [reflexivity|]. split; [reflexivity|]. split; [constructor|]. split; assumption.
  - destruct (IH I) as (l1 & l2 & m1 & z & m2 & -> & -> & F1 & H1 & F2). exists (a :: l1), l2, (b :: m1), z, m2. split; [reflexivity|]. split; [reflexivity|]. split; [constructor; assumption|]. split; assumption.
Qed.
Lemma f2_other : forall st st' ids xs, Forall2 (text_is st) ids xs -> (forall j, In j ids -> st' j = st j) -> Forall2 (text_is st') ids xs.
Proof. intros st st' ids xs F H. induction F as [|i x ids xs (T & O) F IH]; constructor; [split; [rewrite H by (left; reflexivity); exact T|exact O]|]. apply IH. intros j J. apply H. right. exact J. Qed.
Lemma ids_nodup : forall y, sym_ok y -> NoDup (text_ids y).
Proof. intros y (O & _). apply NoDup_filter. exact O. Qed.


Lemma set_one_ok : forall y r0 v0 vs cids tids xs (todo : str -> Prop) k val, inv y r0 v0 vs cids tids xs todo -> todo k -> cname k ->
  (match val with Some v => cvalue v | None => True end) ->
  exists y' tids' xs', set_one (v0 :: cids) k val y = Some y' /\ inv y' r0 v0 vs cids tids' xs' (fun k' => todo k' /\ k' <> k) /\
    others y' = others y /\ y_store y' r0 = y_store y r0 /\ y_store y' v0 = y_store y v0 /\
    (forall n, value_in n (settings_of xs') = if str_eqb k n then val else value_in n (settings_of xs)).
Proof.
  intros y r0 v0 vs cids tids xs todo k val [PM ID OK W (VT & VP) F2 ND IC IS] TD KN VV.
  assert (NDI : NoDup (r0 :: v0 :: tids)) by (rewrite <- ID; apply ids_nodup; exact OK).
  assert (FV : find_setting (y_store y) k (v0 :: cids) = find_setting (y_store y) k cids).
  { cbn [find_setting]. rewrite VT. assert (line_hit k vs = None) as ->; [|reflexivity]. unfold line_hit. change any_setting with R0. rewrite free_none by exact VP. reflexivity. }
  unfold set_one. rewrite FV. clear FV.
  pose proof (find_setting_ok (y_store y) k cids) as FS. destruct (find_setting (y_store y) k cids) as [[[[i s] [[b e] c]]|]|].
  3:{ exfalso. apply FS. intros i I. destruct (IC i I) as (_ & _ & _ & x & T & _). exists (ctext_str x). exact T. }
  - destruct FS as (CI & TI & LH). { intros i' I. destruct (IC i' I) as (_ & _ & _ & x & T & _). exists (ctext_str x). exact T. }
    assert (In i tids) as II by (apply (IS k TD i); [exists s; split; [exact TI|rewrite LH; discriminate]|exact CI]).
    destruct (f2_mid _ _ _ _ _ _ F2 II) as (u1 & u2 & x1 & x & x2 & -> & -> & FA & (TX & OX) & FB).
    rewrite TI in TX. injection TX as ->. pose proof (hit_spec k x OX) as HS. rewrite LH in HS. destruct HS as (l & t & a & en & bn & -> & -> & PRE & NM & EB & EQ & CP).
    assert (IT : In i (text_ids y)) by (rewrite ID; right; right; exact II).
    assert (NDT : NoDup (u1 ++ i :: u2)) by (inversion NDI as [|? ? _ N2]; subst; inversion N2; subst; assumption).
    assert (NU : forall j, In j u1 \/ In j u2 -> j <> i).
    { intros j J ->. apply NoDup_remove_2 in NDT. apply NDT. apply in_or_app. exact J. }
    assert (IR : i <> r0 /\ i <> v0).
    { inversion NDI as [|? ? N1 N2]; subst. inversion N2 as [|? ? N3 N4]; subst. split; intros ->; [apply N1; right|apply N3]; apply in_or_app; right; left; reflexivity. }
    assert (NPRE : ~ In k (map fst (settings_of x1)) /\ ~ In k (map fst (settings_of x2)) /\ ~ In k (map e_par a) /\ ~ In k (map e_par bn) /\ NoDup (map e_par (a ++ bn) )).
    { rewrite settings_app, settings_cons in ND. cbn [entries_of] in ND. unfold pairs in ND. rewrite !map_app in ND. rewrite map_map in ND. cbn [map fst] in ND. rewrite NM in ND.
      rewrite map_map in ND. cbn [fst] in ND. change (map (fun x => e_par x)) with (map e_par) in ND. rewrite <- !app_assoc in ND. cbn [app] in ND. rewrite app_assoc in ND.
      pose proof (NoDup_remove_2 _ _ _ ND) as N. pose proof (NoDup_remove_1 _ _ _ ND) as N'.
      rewrite !in_app_iff in N. rewrite map_app. rewrite <- app_assoc in N'. apply NoDup_app_r in N'. rewrite app_assoc in N'. apply NoDup_app_l in N'. tauto. }
    destruct NPRE as (NP1 & NP2 & NP3 & NP4 & NDab).
    destruct val as [v|].
    + rewrite CP, EQ. rewrite replaced_text. set (x' := Pars (a ++ new_val v en :: bn) t).
      assert (OX' : ctext_ok x') by (apply new_val_ok; assumption).
      destruct (set_possible (ctext_str x') _ _ TI) as (t' & ST). rewrite ST. cbn [option_map].
      destruct (put_symbol y i t' _ OK W IT ST (pars_good _ _ OX') (pars_hex _ _ OX')) as (P1 & P2 & P3 & P4 & P5).
      eexists. exists (u1 ++ i :: u2), (x1 ++ x' :: x2). split; [reflexivity|].
      assert (STO : forall j, j <> i -> y_store (put_y y i t') j = y_store y j) by (intros j J; cbn; apply Nat.eqb_neq in J; rewrite J; reflexivity).
      assert (STI : y_store (put_y y i t') i = t') by (cbn; rewrite Nat.eqb_refl; reflexivity).
      assert (TXI : text_is (y_store (put_y y i t')) i x') by (split; [rewrite STI; exact P5|exact OX']).
      split; [|split; [exact P4|split; [apply STO; apply not_eq_sym; apply IR|split; [apply STO; apply not_eq_sym; apply IR|]]]].
      * constructor.
        -- exact PM.
        -- transitivity (text_ids y); [exact P3|exact ID].
        -- exact P1.
        -- exact P2.
        -- split; [|exact VP]. cbn [note y_store]. rewrite STO by (apply not_eq_sym; apply IR). exact VT.
        -- apply Forall2_app; [|constructor; [exact TXI|]]; (eapply f2_other; [eassumption|intros j J; apply STO; apply NU; tauto]).
        -- replace (map fst (settings_of (x1 ++ x' :: x2))) with (map fst (settings_of (x1 ++ Pars (a ++ en :: bn) t :: x2))); [exact ND|].
           rewrite !settings_app, !settings_cons. unfold x', pairs. cbn [entries_of]. rewrite !map_app. cbn [map]. reflexivity.
        -- intros j J. destruct (IC j J) as (J1 & J2 & J3 & xj & J4). split; [exact J1|]. split; [exact J2|]. split; [exact J3|].
           destruct (Nat.eq_dec j i) as [-> |NJ]; [exists x'; exact TXI|]. exists xj. destruct J4 as (J4 & J5). split; [|exact J5]. change (y_store (note (put_y y i t') k (VStr (l2s v)) UpUpdateComponentParameter) j) with (y_store (put_y y i t') j). rewrite STO by exact NJ. exact J4.
        -- intros k' (T1 & T2) j HJ. apply (IS k' T1 j). destruct (Nat.eq_dec j i) as [-> |NJ].
           ++ apply (hit_names (y_store y) k' i _ (conj TI OX)). apply (hit_names _ k' i x' TXI) in HJ. revert HJ. unfold x'. cbn [entries_of]. rewrite !map_app. cbn [map]. exact (fun z => z).
           ++ destruct HJ as (sj & HJ & NJ2). exists sj. split; [|exact NJ2]. rewrite <- HJ. cbn [note y_store]. rewrite STO by exact NJ. reflexivity.
      * intros n. rewrite !settings_app, !settings_cons. unfold x', pairs. cbn [entries_of]. rewrite !map_app. cbn [map]. cbn [new_val e_par e_val]. rewrite NM.
        rewrite <- !app_assoc. cbn [app]. rewrite !(app_assoc (settings_of x1)), !value_mid. destruct (str_eqb k n) eqn:KNE; [|reflexivity].
        apply str_eqb_eq in KNE. subst n. rewrite value_app. rewrite (proj2 (value_none k (settings_of x1))) by exact NP1.
        rewrite (proj2 (value_none k (map _ a))); [reflexivity|]. rewrite map_map. exact NP3.
    + assert (XN : forall k', k' <> k -> (In k' (map e_par (entries_of (cut_entry a en bn t))) <-> In k' (map e_par (entries_of (Pars (a ++ en :: bn) t))))).
      { intros k' NK. pose proof (cut_entries a en bn t) as CE. apply (f_equal (map fst)) in CE. rewrite !map_map in CE. cbn [fst] in CE. change (map (fun x => e_par x)) with (map e_par) in CE. rewrite CE.
        cbn [entries_of]. rewrite !map_app. cbn [map]. rewrite !in_app_iff. cbn [In]. rewrite NM. split; [tauto|]. intros [K|[K|K]]; [tauto|congruence|tauto]. }
      destruct (e - b =? length (ctext_str (Pars (a ++ en :: bn) t))) eqn:WH.
      * apply Nat.eqb_eq in WH.
        assert (a = [] /\ bn = []) as (-> & ->).
        { rewrite EB, EQ in WH. cbn [ctext_str] in WH. fold (entries_text (a ++ en :: bn)) in WH. rewrite entries_app in WH. change (entries_text (en :: bn)) with (entry_text en ++ entries_text bn) in WH.
          rewrite !app_length in WH. pose proof (entries_long a). pose proof (entries_long bn). assert (length (e_sep en) <= length (entry_text en)) by (unfold entry_text; rewrite app_length; lia).
          split; [destruct a|destruct bn]; try reflexivity; cbn [length] in *; lia. }
        destruct (drop_symbol y i OK W IT) as (items & w1 & w2 & DI & D1 & D2 & D3 & D4 & D5). rewrite DI. cbn [option_map].
        assert (w1 = r0 :: v0 :: u1 /\ w2 = u2) as (-> & ->).
        { rewrite ID in D1. assert (forall (p q p' q' : list nat), p ++ i :: q = p' ++ i :: q' -> ~ In i p -> ~ In i p' -> p = p' /\ q = q') as CUT.
          { clear. induction p as [|z p IH]; intros q [|z' p'] q' E N1 N2; cbn in E.
            - injection E as E2. split; [reflexivity|exact E2].
            - injection E as E1 E2. exfalso. apply N2. left. symmetry. exact E1.
            - injection E as E1 E2. exfalso. apply N1. left. exact E1.
            - injection E as E1 E2. destruct (IH q p' q' E2) as (-> & ->); [intros K; apply N1; right; exact K|intros K; apply N2; right; exact K|]. subst z'. split; reflexivity. }
          pose proof (ids_nodup y OK) as NDY. rewrite ID in NDY. rewrite D1 in NDY.
          destruct (CUT (r0 :: v0 :: u1) u2 w1 w2 D1) as (A1 & A2).
          - intros [K|[K|K]]; [destruct IR; congruence|destruct IR; congruence|exact (NU i (or_introl K) eq_refl)].
          - apply NoDup_remove_2 in NDY. intros K. apply NDY. apply in_or_app. left. exact K.
          - split; symmetry; assumption. }
        eexists. exists (u1 ++ u2), (x1 ++ x2). split; [reflexivity|]. split; [|split; [exact D5|split; [reflexivity|split; [reflexivity|]]]].
        -- constructor.
           ++ exact PM.
           ++ exact D2.
           ++ exact D3.
           ++ exact D4.
           ++ split; assumption.
           ++ apply Forall2_app; assumption.
           ++ rewrite settings_app, settings_cons, !map_app in ND. rewrite settings_app, map_app. rewrite app_assoc in ND.
              clear - ND. cbn [entries_of app map] in ND. unfold pairs in ND. cbn in ND. rewrite <- app_assoc in ND. cbn [app] in ND. apply NoDup_remove_1 in ND. exact ND.
           ++ intros j J. exact (IC j J).
           ++ intros k' (T1 & T2) j HJ. rewrite (IS k' T1 j HJ). rewrite !in_app_iff. cbn [In]. split; [intros [K|[K|K]]; [tauto| |tauto]|tauto]. subst j.
              exfalso. apply (hit_names (y_store y) k' i _ (conj TI OX)) in HJ. cbn in HJ. destruct HJ as [HJ|[]]. congruence.
        -- intros n. rewrite !settings_app, settings_cons. unfold pairs. cbn [entries_of app map]. rewrite NM. rewrite value_mid, value_app. destruct (str_eqb k n) eqn:KNE; [|reflexivity].
           apply str_eqb_eq in KNE. subst n. rewrite (proj2 (value_none k (settings_of x1))) by exact NP1. apply value_none. exact NP2.
      * rewrite EB, EQ, cut_text. set (x' := cut_entry a en bn t) in *.
        assert (OX' : ctext_ok x') by (apply cut_ok; assumption).
        assert (PX : exists l' t', x' = Pars l' t') by (unfold x', cut_entry; destruct bn; eexists; eexists; reflexivity). destruct PX as (l' & tt & PX).
        destruct (set_possible (ctext_str x') _ _ TI) as (t' & ST). rewrite ST. cbn [option_map].
        assert (GX : good_text (ctext_str x')) by (rewrite PX in *; apply pars_good; exact OX').
        assert (HX : startswith (s2l "0x") (ctext_str x') = false) by (rewrite PX in *; apply pars_hex; exact OX').
        destruct (put_symbol y i t' _ OK W IT ST GX HX) as (P1 & P2 & P3 & P4 & P5).
        eexists. exists (u1 ++ i :: u2), (x1 ++ x' :: x2). split; [reflexivity|].
        assert (STO : forall j, j <> i -> y_store (put_y y i t') j = y_store y j) by (intros j J; cbn; apply Nat.eqb_neq in J; rewrite J; reflexivity).
        assert (STI : y_store (put_y y i t') i = t') by (cbn; rewrite Nat.eqb_refl; reflexivity).
        assert (TXI : text_is (y_store (put_y y i t')) i x') by (split; [rewrite STI; exact P5|exact OX']).
        split; [|split; [exact P4|split; [apply STO; apply not_eq_sym; apply IR|split; [apply STO; apply not_eq_sym; apply IR|]]]].
        -- constructor.
           ++ exact PM.
           ++ transitivity (text_ids y); [exact P3|exact ID].
           ++ exact P1.
           ++ exact P2.
           ++ split; [|exact VP]. cbn [note y_store]. rewrite STO by (apply not_eq_sym; apply IR). exact VT.
           ++ apply Forall2_app; [|constructor; [exact TXI|]]; (eapply f2_other; [eassumption|intros j J; apply STO; apply NU; tauto]).
           ++ rewrite settings_app, settings_cons, !map_app in *. unfold x', pairs in *. rewrite cut_entries. cbn [entries_of] in ND.
              rewrite !map_app in *. cbn [map fst] in ND. rewrite <- !app_assoc in *. cbn [app] in ND. rewrite app_assoc in ND. apply NoDup_remove_1 in ND. rewrite <- app_assoc in ND. exact ND.
           ++ intros j J. destruct (IC j J) as (J1 & J2 & J3 & xj & J4). split; [exact J1|]. split; [exact J2|]. split; [exact J3|].
              destruct (Nat.eq_dec j i) as [-> |NJ]; [exists x'; exact TXI|]. exists xj. destruct J4 as (J4 & J5). split; [|exact J5]. change (y_store (note (put_y y i t') k VNone UpDeleteComponentParameter) j) with (y_store (put_y y i t') j). rewrite STO by exact NJ. exact J4.
           ++ intros k' (T1 & T2) j HJ. apply (IS k' T1 j). destruct (Nat.eq_dec j i) as [-> |NJ].
              ** apply (hit_names (y_store y) k' i _ (conj TI OX)). apply (hit_names _ k' i x' TXI) in HJ. apply XN; assumption.
              ** destruct HJ as (sj & HJ & NJ2). exists sj. split; [|exact NJ2]. rewrite <- HJ. cbn [note y_store]. rewrite STO by exact NJ. reflexivity.
        -- intros n. rewrite !settings_app, !settings_cons. unfold x', pairs. rewrite cut_entries. cbn [entries_of]. rewrite !map_app. cbn [map]. rewrite NM.
           rewrite <- !app_assoc. cbn [app]. rewrite !(app_assoc (settings_of x1)), value_mid, value_app. destruct (str_eqb k n) eqn:KNE; [|reflexivity].
           apply str_eqb_eq in KNE. subst n. rewrite value_app. rewrite (proj2 (value_none k (settings_of x1))) by exact NP1.
           rewrite (proj2 (value_none k (map _ a))) by (rewrite map_map; exact NP3). rewrite value_app. rewrite (proj2 (value_none k (map _ bn))) by (rewrite map_map; exact NP4). apply value_none. exact NP2.
  - assert (NH : ~ In k (map fst (settings_of xs))).
    { intros K. rewrite settings_names in K. apply in_map_iff in K. destruct K as (e & E & I). apply in_flat_map in I. destruct I as (x & IX & IE).
      apply in_split in IX. destruct IX as (m1 & m2 & ->).
      assert (exists i, In i tids /\ text_is (y_store y) i x) as (i & II & TX).
      { clear - F2. apply Forall2_app_inv_r in F2. destruct F2 as (a & b & _ & F & ->). inversion F; subst. eexists. split; [apply in_or_app; right; left; reflexivity|assumption]. }
      assert (hit (y_store y) k i) as HI by (apply (hit_names _ k i x TX); apply in_map_iff; exists e; split; assumption).
      refine (FS _ i _ HI). { intros i' I'. destruct (IC i' I') as (_ & _ & _ & z & T & _). exists (ctext_str z). exact T. } apply (IS k TD i HI). exact II. }
    destruct val as [v|].
    + destruct (xy_ok y OK) as (px & py & XY). rewrite XY. pose proof (new_pars k v KN VV) as OX. set (x' := Pars [{| e_sep := []; e_par := k; e_b1 := []; e_b2 := []; e_val := v |}] []) in *.
      assert (ctext_str x' = k ++ s2l "=" ++ v) as TX by (unfold x', ctext_str, entry_text; cbn [map concat e_sep e_par e_b1 e_b2 e_val app]; rewrite !app_nil_r; reflexivity).
      pose proof (pars_good _ _ OX) as GX. fold x' in GX. rewrite TX in GX. destruct (new_param_tag px py _ GX) as (t & r & PA & P1 & P2 & P3 & P4 & P5). rewrite PA.
      destruct (new_symbol y t OK W P1 P2 P3 (ex_intro _ px (ex_intro _ py P5))) as (Q1 & Q2 & Q3 & Q4).
      eexists. exists (tids ++ [y_next y]), (xs ++ [x']). split; [reflexivity|].
      assert (STO : forall j, j < y_next y -> (if j =? y_next y then t else y_store y j) = y_store y j) by (intros j J; assert (j =? y_next y = false) as -> by (apply Nat.eqb_neq; lia); reflexivity).
      assert (LT0 : forall j, In j (text_ids y) -> j < y_next y) by (intros j J; apply OK; apply text_item; exact J). rewrite ID in LT0.
      split; [|split; [exact Q4|split; [|split]]].
      * constructor.
        -- exact PM.
        -- cbn [note]. etransitivity; [exact Q3|]. rewrite ID. reflexivity.
        -- exact Q1.
        -- exact Q2.
        -- split; [|exact VP]. cbn [note with_y y_store]. rewrite STO by (apply LT0; right; left; reflexivity). exact VT.
        -- apply Forall2_app.
           ++ eapply f2_other; [exact F2|]. intros j J. cbn [note with_y y_store]. apply STO. apply LT0. right. right. exact J.
           ++ constructor; [|constructor]. split; [|exact OX]. cbn [note with_y y_store]. rewrite Nat.eqb_refl, TX. exact P4.
        -- rewrite settings_app, map_app. unfold x'. cbn. apply NoDup_Add with (a := k) (l := map fst (settings_of xs)); [|split; assumption].
           rewrite <- (app_nil_r (map fst (settings_of xs))) at 1. apply Add_app.
        -- intros j J. destruct (IC j J) as (J1 & J2 & J3 & xj & J4 & J5). cbn [note with_y y_next]. split; [lia|]. split; [exact J2|]. split; [exact J3|]. exists xj. split; [|exact J5]. cbn [note with_y y_store]. rewrite STO by exact J1. exact J4.
        -- intros k' (T1 & T2) j HJ. rewrite in_app_iff. cbn [In]. destruct (Nat.eq_dec j (y_next y)) as [-> |NJ].
           ++ exfalso. destruct HJ as (s & HJ & NS). cbn [note with_y y_store] in HJ. rewrite Nat.eqb_refl, P4 in HJ. assert (s = ctext_str x') as -> by congruence.
              pose proof (hit_spec k' x' OX) as HS. destruct (line_hit k' (ctext_str x')) as [[[b0 q] c0]|]; [|contradiction].
              destruct HS as (l & tt & a & e & b' & EX & -> & _ & EN & _). unfold x' in EX. injection EX as EX _. destruct a as [|z a]; [injection EX as <- _; cbn in EN; congruence|destruct a; discriminate].
           ++ assert (hit (y_store y) k' j) as HJ'.
              { destruct HJ as (s & HJ & NS). exists s. split; [|exact NS]. rewrite <- HJ. cbn [note with_y y_store]. apply Nat.eqb_neq in NJ. rewrite NJ. reflexivity. }
              rewrite (IS k' T1 j HJ'). split; [tauto|]. intros [K|[K|[]]]; [exact K|congruence].
      * cbn [note with_y y_store]. apply STO. apply LT0. left. reflexivity.
      * cbn [note with_y y_store]. apply STO. apply LT0. right. left. reflexivity.
      * intros n. rewrite settings_app, value_app. unfold x', settings_of. cbn [flat_map entries_of app map]. fold (settings_of xs). unfold value_in at 2. cbn [find fst e_par].
        destruct (str_eqb k n) eqn:KNE; [|destruct (value_in n (settings_of xs)); reflexivity]. apply str_eqb_eq in KNE. subst n. rewrite (proj2 (value_none k (settings_of xs))) by exact NH. reflexivity.
    + exists y, tids, xs. split; [reflexivity|]. split; [|split; [reflexivity|split; [reflexivity|split; [reflexivity|]]]].
      * constructor; try assumption; [split; assumption|]. intros k' (T1 & _). exact (IS k' T1).
      * intros n. destruct (str_eqb k n) eqn:KNE; [|reflexivity]. apply str_eqb_eq in KNE. subst n. apply value_none. exact NH.
Qed.

(** ** Calls *)
Lemma set_each_ok : forall kw y r0 v0 vs cids tids xs (todo : str -> Prop), inv y r0 v0 vs cids tids xs todo -> (forall k, In k (map fst kw) -> todo k) -> call_ok kw ->
  exists y' tids' xs', set_each (v0 :: cids) kw y = Some y' /\ inv y' r0 v0 vs cids tids' xs' (fun k => todo k /\ ~ In k (map fst kw)) /\
    others y' = others y /\ y_store y' r0 = y_store y r0 /\ y_store y' v0 = y_store y v0 /\
    (forall n, value_in n (settings_of xs') = match asked n kw with Some v => v | None => value_in n (settings_of xs) end).
Proof.
  induction kw as [|[k val] kw IH]; intros y r0 v0 vs cids tids xs todo I T (N & F); cbn [set_each].
  - exists y, tids, xs. split; [reflexivity|]. split; [|split; [reflexivity|split; [reflexivity|split; reflexivity]]]. destruct I. constructor; try assumption. intros k (K & _). exact (i_same0 k K).
  - cbn [map fst] in N. inversion N as [|? ? NI ND]; subst. inversion F as [|? ? (F1 & F2) FR]; subst. cbn [fst snd] in F1, F2.
    destruct (set_one_ok y r0 v0 vs cids tids xs todo k val I (T k (or_introl eq_refl)) F1 F2) as (y1 & t1 & x1 & E1 & I1 & O1 & R1 & V1 & A1).
    rewrite E1. destruct (IH y1 r0 v0 vs cids t1 x1 _ I1) as (y2 & t2 & x2 & E2 & I2 & O2 & R2 & V2 & A2); [|split; assumption|].
    + intros k' K'. split; [apply T; right; exact K'|]. intros ->. contradiction.
    + exists y2, t2, x2. split; [exact E2|]. split; [|split; [congruence|split; [congruence|split; [congruence|]]]].
      * destruct I2. constructor; try assumption. intros k' (K1 & K2). cbn [map fst In] in K2. apply i_same0. split; [split; [exact K1|intros ->; apply K2; left; reflexivity]|intros K; apply K2; right; exact K].
      * intros n. rewrite A2, A1. unfold asked. cbn [find fst]. destruct (str_eqb k n) eqn:KN; [|reflexivity]. apply str_eqb_eq in KN. subst n.
        assert (find (fun e : str * option str => str_eqb (fst e) k) kw = None) as ->; [|reflexivity].
        destruct (find _ kw) as [[k' v']|] eqn:FD; [|reflexivity]. apply find_some in FD. destruct FD as (FI & FE). cbn [fst] in FE. apply str_eqb_eq in FE. subst k'.
        exfalso. apply NI. apply in_map_iff. exists (k, v'). split; [reflexivity|exact FI].
Qed.
Definition state (y : sym) (r v : str) (xs : list ctext) : Prop :=
  y_perm y = Inform /\ sym_ok y /\ sym_writable y /\ texts_are y (r :: v :: map ctext_str xs) /\ Forall ctext_ok xs /\ NoDup (map fst (settings_of xs)).
Lemma texts_f2 : forall st ids l, map (fun i => text_of (st i)) ids = map Some (map ctext_str l) -> Forall ctext_ok l -> Forall2 (text_is st) ids l.
Proof.
  intros st. induction ids as [|i ids IH]; intros [|x l] E F; try discriminate; [constructor|]. cbn [map] in E. injection E as E1 E2. inversion F; subst.
  constructor; [split; assumption|apply IH; assumption].
Qed.
Lemma f2_texts : forall st ids l, Forall2 (text_is st) ids l -> map (fun i => text_of (st i)) ids = map Some (map ctext_str l) /\ Forall ctext_ok l.
Proof. intros st ids l F. induction F as [|i x ids l (T & O) F (IH1 & IH2)]; [split; [reflexivity|constructor]|]. cbn [map]. rewrite T, IH1. split; [reflexivity|constructor; assumption]. Qed.
Lemma state_ids : forall y r v xs, state y r v xs -> exists r0 v0 tids, text_ids y = r0 :: v0 :: tids /\ text_of (y_store y r0) = Some r /\ text_of (y_store y v0) = Some v /\ Forall2 (text_is (y_store y)) tids xs.
Proof.
  intros y r v xs (_ & _ & _ & T & F & _). unfold texts_are in T. destruct (text_ids y) as [|r0 [|v0 tids]]; try discriminate. cbn [map] in T. injection T as T1 T2 T3.
  exists r0, v0, tids. split; [reflexivity|]. split; [exact T1|]. split; [exact T2|]. apply texts_f2; assumption.
Qed.
Lemma set_call_ok : forall kw y r v xs, state y r v xs -> plain_text v -> call_ok kw ->
  exists y' xs', set_parameters kw y = Some y' /\ state y' r v xs' /\ others y' = others y /\
    (forall n, value_in n (settings_of xs') = match asked n kw with Some w => w | None => value_in n (settings_of xs) end).
Proof.
  intros kw y r v xs ST PV CK. pose proof ST as (PM & OK & W & _ & _ & ND). destruct (state_ids _ _ _ _ ST) as (r0 & v0 & tids & ID & TR & TV & F2).
  pose proof (ids_nodup y OK) as NI. rewrite ID in NI. inversion NI as [|? ? N1 N2]; subst. inversion N2 as [|? ? N3 N4]; subst.
  assert (inv y r0 v0 v tids tids xs (fun _ => True)) as I.
  { constructor; try assumption; [split; assumption| |intros; tauto]. intros i II. split; [apply OK; apply text_item; rewrite ID; right; right; exact II|].
    split; [intros ->; contradiction|]. split; [intros ->; apply N1; right; exact II|].
    destruct (f2_mid _ _ _ _ _ _ F2 II) as (_ & _ & _ & z & _ & _ & _ & _ & Z & _). exists z. exact Z. }
  unfold set_parameters. rewrite PM, ID. cbn [skipn].
  destruct (set_each_ok kw y r0 v0 v tids tids xs _ I (fun _ _ => Logic.I) CK) as (y' & t' & x' & E & I' & O & R & V & A).
  exists y', x'. split; [exact E|]. split; [|split; [exact O|exact A]]. destruct I' as [J1 J2 J3 J4 J5 J6 J7 _ _]. destruct (f2_texts _ _ _ J6) as (K1 & K2).
  split; [exact J1|]. split; [exact J3|]. split; [exact J4|]. split; [|split; assumption]. unfold texts_are. rewrite J2. cbn [map]. rewrite K1, R, V, TR, TV. reflexivity.
Qed.
Lemma set_calls_ok : forall calls y r v xs, state y r v xs -> plain_text v -> Forall call_ok calls ->
  exists y' xs', set_calls calls y = Some y' /\ state y' r v xs' /\ others y' = others y /\
    (forall n, value_in n (settings_of xs') = after_calls n calls (value_in n (settings_of xs))).
Proof.
  induction calls as [|kw calls IH]; intros y r v xs ST PV CK; cbn [set_calls after_calls].
  - exists y, xs. split; [reflexivity|]. split; [exact ST|]. split; reflexivity.
  - inversion CK as [|? ? C1 C2]; subst. destruct (set_call_ok kw y r v xs ST PV C1) as (y1 & x1 & E1 & S1 & O1 & A1). rewrite E1.
    destruct (IH y1 r v x1 S1 PV C2) as (y2 & x2 & E2 & S2 & O2 & A2). exists y2, x2. split; [exact E2|]. split; [exact S2|]. split; [congruence|].
    intros n. rewrite A2, A1. reflexivity.
Qed.
Lemma get_ok : forall y r v xs, state y r v xs -> exists d, get_parameters y = Some d /\ (forall n, pget (PName n) d = value_in n (settings_of xs)) /\
  (forall m, pget (PNum m) d = if m <? 2 then None else option_map ctext_str (nth_error xs (m - 2))).
Proof.
  intros y r v xs ST. destruct (state_ids _ _ _ _ ST) as (r0 & v0 & tids & ID & _ & _ & F2). destruct ST as (_ & _ & _ & _ & _ & ND).
  unfold get_parameters. rewrite ID. cbn [map skipn]. destruct (get_lines_ok _ _ _ F2 ND 2 []) as (d & E & A & B). exists d. split; [exact E|]. split.
  - intros n. rewrite A. destruct (value_in n (settings_of xs)); reflexivity.
  - intros m. rewrite B. destruct (m <? 2); [reflexivity|]. destruct (nth_error xs (m - 2)); reflexivity.
Qed.
