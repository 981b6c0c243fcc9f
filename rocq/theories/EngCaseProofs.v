(** Letter case in engineering notation. *)
From Coq Require Import String Ascii List Bool Arith ZArith QArith Lia.
From Verif Require Import PyStr EngModel EngSpec EngProofs.
Import ListNotations.
Local Open Scope string_scope.
Local Open Scope list_scope.

Definition all_chars : list ascii := map ascii_of_nat (seq 0 256).
Lemma all_chars_all : forall c, In c all_chars.
Proof.
  intros c. unfold all_chars. rewrite <- (ascii_nat_embedding c). apply in_map. apply in_seq.
  pose proof (nat_ascii_bounded c). lia.
Qed.
Lemma sweep1 : forall f : ascii -> bool, forallb f all_chars = true -> forall c, f c = true.
Proof. intros f H c. rewrite forallb_forall in H. apply H. apply all_chars_all. Qed.
Lemma variants : forall c, c = upper_c c \/ c = lower_c (upper_c c).
Proof.
  intros c. assert (aeqb c (upper_c c) || aeqb c (lower_c (upper_c c)) = true) as H.
  { revert c. apply sweep1. vm_cast_no_check (eq_refl true). }
  apply orb_true_iff in H. rewrite !aeqb_eq in H. exact H.
Qed.
Definition mf (c : ascii) : bool := aeqb (upper_c c) "M" || aeqb (upper_c c) "F".
Lemma sweep : forall f : ascii -> ascii -> bool,
  forallb (fun c => f c c && (mf c || (f c (upper_c c) && f c (lower_c (upper_c c))))) all_chars = true ->
  forall c c', other_case c c' -> f c c' = true.
Proof.
  intros f H c c' R. pose proof (sweep1 _ H c) as G. cbv beta in G. apply andb_true_iff in G. destruct G as [G1 G2].
  destruct R as [<-|(E & N1 & N2)]; [exact G1|]. unfold mf in G2. apply aeqb_neq in N1. apply aeqb_neq in N2. rewrite N1, N2 in G2.
  apply andb_true_iff in G2. destruct G2 as [G2 G3].
  destruct (variants c') as [V|V]; rewrite <- E in V; rewrite V; assumption.
Qed.
Ltac by_sweep f := intros c c' R; apply (sweep f ltac:(vm_cast_no_check (eq_refl true)) c c') in R; cbv beta in R.

Definition resp (f : ascii -> bool) : Prop := forall c c', other_case c c' -> f c = f c'.
Definition rigid (f : ascii -> bool) : Prop := forall c c', other_case c c' -> f c = true -> c = c'.

Lemma span_resp : forall f s s', resp f -> same_but_case s s' ->
  same_but_case (fst (span f s)) (fst (span f s')) /\ same_but_case (snd (span f s)) (snd (span f s')).
Proof.
  intros f s s' Hf H. induction H as [|c c' s s' Hc H IH]; simpl; [split; constructor|].
  rewrite <- (Hf c c' Hc). destruct (f c).
  - destruct (span f s), (span f s'). simpl in *. destruct IH as [A B]. split; [constructor; assumption|exact B].
  - split; [constructor|constructor; assumption].
Qed.
Lemma span_fst : forall f s, forallb f (fst (span f s)) = true.
Proof. intros f s. induction s as [|c s IH]; simpl; [reflexivity|]. destruct (f c) eqn:E; [|reflexivity].
  destruct (span f s). simpl in *. rewrite E. exact IH. Qed.
Lemma rigid_eq : forall f s s', rigid f -> same_but_case s s' -> forallb f s = true -> s = s'.
Proof.
  intros f s s' Hf H. induction H as [|c c' s s' Hc H IH]; simpl; [reflexivity|].
  rewrite andb_true_iff. intros [A B]. f_equal; [exact (Hf c c' Hc A)|exact (IH B)].
Qed.
Lemma span_rigid : forall f s s', resp f -> rigid f -> same_but_case s s' ->
  exists u r r', span f s = (u, r) /\ span f s' = (u, r') /\ same_but_case r r' /\ forallb f u = true.
Proof.
  intros f s s' Hf Hr H. pose proof (span_resp f s s' Hf H) as [A B]. pose proof (span_fst f s) as F.
  destruct (span f s) as [u r], (span f s') as [u' r']. simpl in *. exists u, r, r'.
  rewrite <- (rigid_eq f u u' Hr A F). auto.
Qed.
Lemma lstrip_resp : forall f s s', resp f -> same_but_case s s' -> same_but_case (lstrip_if f s) (lstrip_if f s').
Proof.
  intros f s s' Hf H. induction H as [|c c' s s' Hc H IH]; simpl; [constructor|].
  rewrite <- (Hf c c' Hc). destruct (f c); [exact IH|constructor; assumption].
Qed.
Lemma sbc_rev : forall s s', same_but_case s s' -> same_but_case (rev s) (rev s').
Proof.
  intros s s' H. induction H as [|c c' s s' Hc H IH]; simpl; [constructor|].
  apply Forall2_app; [exact IH|constructor; [exact Hc|constructor]].
Qed.
Lemma resp_space : resp is_space.
Proof. by_sweep (fun c c' => Bool.eqb (is_space c) (is_space c')). apply eqb_prop. exact R. Qed.
Lemma strip_resp : forall s s', same_but_case s s' -> same_but_case (strip s) (strip s').
Proof.
  intros s s' H. unfold strip, strip_if, rstrip_if. apply sbc_rev, lstrip_resp; [exact resp_space|].
  apply sbc_rev, lstrip_resp; [exact resp_space|exact H].
Qed.
Lemma resp_digit : resp is_digit.
Proof. by_sweep (fun c c' => Bool.eqb (is_digit c) (is_digit c')). apply eqb_prop. exact R. Qed.
Lemma rigid_digit : rigid is_digit.
Proof. by_sweep (fun c c' => implb (is_digit c) (aeqb c c')). intros E. rewrite E in R. apply aeqb_eq. exact R. Qed.
Lemma resp_num : resp (fun c => mem_c c (s2l "0123456789.+-")).
Proof. by_sweep (fun c c' => Bool.eqb (mem_c c (s2l "0123456789.+-")) (mem_c c' (s2l "0123456789.+-"))). apply eqb_prop. exact R. Qed.
Lemma rigid_num : rigid (fun c => mem_c c (s2l "0123456789.+-")).
Proof. by_sweep (fun c c' => implb (mem_c c (s2l "0123456789.+-")) (aeqb c c')). intros E. rewrite E in R. apply aeqb_eq. exact R. Qed.
Lemma resp_blank : resp (fun c => mem_c c [" "%char; "009"%char]).
Proof. by_sweep (fun c c' => Bool.eqb (mem_c c [" "%char; "009"%char]) (mem_c c' [" "%char; "009"%char])). apply eqb_prop. exact R. Qed.
Lemma up_resp : forall c c', other_case c c' -> upper_c c = upper_c c'.
Proof. intros c c' [->|[H _]]; [reflexivity|exact H]. Qed.
Lemma eq_resp : forall k, forallb (fun c => Bool.eqb (aeqb c k) (aeqb c k) && (mf c || (Bool.eqb (aeqb c k) (aeqb (upper_c c) k) && Bool.eqb (aeqb c k) (aeqb (lower_c (upper_c c)) k)))) all_chars = true ->
  forall c c', other_case c c' -> aeqb c k = aeqb c' k.
Proof. intros k H c c' R. apply eqb_prop. exact (sweep (fun c c' => Bool.eqb (aeqb c k) (aeqb c' k)) H c c' R). Qed.

Lemma signed_resp : forall s s', same_but_case s s' ->
  exists b r r', signed s = (b, r) /\ signed s' = (b, r') /\ same_but_case r r'.
Proof.
  intros s s' H. destruct H as [|c c' s s' Hc H]; simpl.
  - exists false, [], []. repeat split. constructor.
  - rewrite <- (eq_resp "-" ltac:(vm_cast_no_check (eq_refl true)) c c' Hc), <- (eq_resp "+" ltac:(vm_cast_no_check (eq_refl true)) c c' Hc).
    destruct (aeqb c "-"); [exists true, s, s'; auto|]. destruct (aeqb c "+"); [exists false, s, s'; auto|].
    exists false, (c :: s), (c' :: s'). repeat split. constructor; assumption.
Qed.
Lemma fraction_resp : forall s s', same_but_case s s' ->
  exists u r r', fraction s = (u, r) /\ fraction s' = (u, r') /\ same_but_case r r'.
Proof.
  intros s s' H. destruct H as [|c c' s s' Hc H]; simpl.
  - exists [], [], []. repeat split. constructor.
  - rewrite <- (eq_resp "." ltac:(vm_cast_no_check (eq_refl true)) c c' Hc). destruct (aeqb c ".").
    + destruct (span_rigid is_digit s s' resp_digit rigid_digit H) as (u & r & r' & A & B & C & _). exists u, r, r'. auto.
    + exists [], (c :: s), (c' :: s'). repeat split. constructor; assumption.
Qed.
Lemma pyfloat_resp : forall s s', same_but_case s s' -> pyfloat s = pyfloat s'.
Proof.
  intros s s' H. unfold pyfloat. destruct (signed_resp s s' H) as (neg & s1 & s1' & -> & -> & H1).
  destruct (span_rigid is_digit s1 s1' resp_digit rigid_digit H1) as (a & r & r' & -> & -> & H2 & _).
  destruct (fraction_resp r r' H2) as (b & r2 & r2' & -> & -> & H3).
  destruct (a ++ b); [reflexivity|]. destruct H3 as [|e e' r3 r3' He H3]; [reflexivity|].
  rewrite <- (up_resp e e' He). destruct (aeqb (upper_c e) "E"); [|reflexivity].
  destruct (signed_resp r3 r3' H3) as (en & r4 & r4' & -> & -> & H4).
  destruct (span_rigid is_digit r4 r4' resp_digit rigid_digit H4) as (x & r5 & r5' & -> & -> & H5 & _).
  destruct x; [reflexivity|]. destruct H5; reflexivity.
Qed.
Lemma mult_resp : forall c c', other_case c c' -> mult c = mult c'.
Proof.
  pose (g := fun c c' => match mult c, mult c' with
    | Some q, Some q' => Z.eqb (Qnum q) (Qnum q') && Pos.eqb (Qden q) (Qden q') | None, None => true | _, _ => false end).
  assert (forall c c', other_case c c' -> g c c' = true) as G by (apply sweep; vm_cast_no_check (eq_refl true)).
  intros c c' R. specialize (G c c' R). unfold g in G. destruct (mult c) as [[n d]|], (mult c') as [[n' d']|]; try discriminate; [|reflexivity].
  apply andb_true_iff in G. destruct G as [A B]. apply Z.eqb_eq in A. apply Pos.eqb_eq in B. simpl in A, B. congruence.
Qed.
Lemma upper_resp : forall s s', same_but_case s s' -> upper s = upper s'.
Proof. intros s s' H. induction H as [|c c' s s' Hc H IH]; [reflexivity|]. cbn [upper map]. f_equal; [apply up_resp; exact Hc|exact IH]. Qed.
Lemma skipn_resp : forall n s s', same_but_case s s' -> same_but_case (skipn n s) (skipn n s').
Proof. induction n as [|n IH]; intros s s' H; [exact H|]. destruct H; simpl; [constructor|apply IH; assumption]. Qed.

Lemma sbc_refl : forall s, same_but_case s s.
Proof. induction s as [|c s IH]; constructor; [left; reflexivity|exact IH]. Qed.

(** the exponent scan, once the text holds no further letter E *)
Lemma count_e_app : forall a b, count_e (a ++ b) = (count_e a + count_e b)%nat.
Proof. intros a b. unfold count_e. rewrite filter_app, app_length. reflexivity. Qed.
Lemma span_split : forall f s u r, span f s = (u, r) -> s = u ++ r.
Proof.
  intros f s. induction s as [|c s IH]; intros u r H; simpl in H; [injection H as <- <-; reflexivity|].
  destruct (f c); [|injection H as <- <-; reflexivity]. destruct (span f s) as [a b]. injection H as <- <-.
  simpl. f_equal. apply IH. reflexivity.
Qed.
Lemma lstrip_suffix : forall f s, exists p, s = p ++ lstrip_if f s.
Proof.
  intros f s. induction s as [|c s [p IH]]; [exists []; reflexivity|]. simpl. destruct (f c); [|exists []; reflexivity].
  exists (c :: p). simpl. f_equal. exact IH.
Qed.
Lemma strip_infix : forall s, exists p q, s = p ++ strip s ++ q.
Proof.
  intros s. unfold strip, strip_if, rstrip_if. destruct (lstrip_suffix is_space s) as [p E].
  destruct (lstrip_suffix is_space (rev (lstrip_if is_space s))) as [q Eq].
  exists p, (rev q). rewrite E at 1. f_equal. apply (f_equal (@rev ascii)) in Eq. rewrite rev_involutive, rev_app_distr in Eq. exact Eq.
Qed.
Definition xf (c : ascii) : bool := mem_c c (s2l "0123456789E+-").
Lemma exp_span : forall r r', same_but_case r r' -> count_e r = 0%nat ->
  exists x t t', span xf r = (x, t) /\ span xf r' = (x, t') /\ same_but_case t t'.
Proof.
  intros r r' H. induction H as [|c c' r r' Hc H IH]; intros E.
  - exists [], [], []. repeat split. constructor.
  - unfold count_e in E. cbn [filter] in E. destruct (aeqb (upper_c c) "E") eqn:Ee; [discriminate|].
    destruct (IH E) as (x & t & t' & A & B & C). cbn [span].
    assert (xf c = xf c') as Q.
    { apply (sweep (fun c c' => aeqb (upper_c c) "E" || Bool.eqb (xf c) (xf c')) ltac:(vm_cast_no_check (eq_refl true))) in Hc.
      rewrite Ee in Hc. apply eqb_prop. exact Hc. }
    assert (xf c = true -> c = c') as Q'.
    { intros F. apply (sweep (fun c c' => aeqb (upper_c c) "E" || implb (xf c) (aeqb c c')) ltac:(vm_cast_no_check (eq_refl true))) in Hc.
      rewrite Ee, F in Hc. apply aeqb_eq. exact Hc. }
    rewrite <- Q. destruct (xf c).
    + rewrite A, B, <- (Q' eq_refl). exists (c :: x), t, t'. auto.
    + exists [], (c :: r), (c' :: r'). repeat split. constructor; assumption.
Qed.

Theorem scan_case : forall s s', same_but_case s s' -> (count_e s <= 1)%nat -> scan_eng s = scan_eng s'.
Proof.
  intros s s' H Hc. unfold scan_eng, parse_value.
  destruct (strip_infix s) as (p & q & Es). rewrite Es, !count_e_app in Hc. clear Es.
  pose proof (strip_resp s s' H) as H0. set (v := strip s) in *. set (v' := strip s') in *. clearbody v v'.
  destruct (span_rigid _ v v' resp_num rigid_num H0) as (num & r & r' & E1 & -> & H1 & _). rewrite E1.
  apply span_split in E1. subst v. rewrite count_e_app in Hc.
  destruct num as [|n0 num]; [reflexivity|].
  destruct H1 as [|e e' r1 r1' He H1]; [reflexivity|].
  rewrite <- (up_resp e e' He). destruct (aeqb (upper_c e) "E") eqn:Ee.
  - change (e :: r1) with ([e] ++ r1) in Hc. rewrite count_e_app in Hc. unfold count_e at 3 in Hc. cbn [filter] in Hc. rewrite Ee in Hc. simpl in Hc.
    destruct (exp_span r1 r1' H1 ltac:(lia)) as (x & t & t' & A & B & C). unfold xf in A, B. rewrite A, B.
    assert (pyfloat ((n0 :: num) ++ e :: x) = pyfloat ((n0 :: num) ++ e' :: x)) as ->; [|destruct (pyfloat _); reflexivity].
    apply pyfloat_resp. apply Forall2_app; [apply sbc_refl|constructor; [exact He|apply sbc_refl]].
  - pose proof (lstrip_resp _ (e :: r1) (e' :: r1') resp_blank (Forall2_cons _ _ He H1)) as H2.
    set (r0 := lstrip_if _ (e :: r1)) in *. set (r0' := lstrip_if _ (e' :: r1')) in *. clearbody r0 r0'.
    assert (exists mlt un un' rest rest', same_but_case rest rest' /\
      match r0 with
      | c :: r2 => match mult c with
                   | Some x => if startswith (s2l "MEG") (upper r0) then (x, [], skipn 3 r0) else (x, [], r2)
                   | None => if aeqb (upper_c c) "R" then (1%Q, s2l "ohm", r2) else (1%Q, [], r0) end
      | [] => (1%Q, [], []) end = (mlt, un, rest) /\
      match r0' with
      | c :: r2 => match mult c with
                   | Some x => if startswith (s2l "MEG") (upper r0') then (x, [], skipn 3 r0') else (x, [], r2)
                   | None => if aeqb (upper_c c) "R" then (1%Q, s2l "ohm", r2) else (1%Q, [], r0') end
      | [] => (1%Q, [], []) end = (mlt, un', rest')) as (mlt & un & un' & rest & rest' & H3 & -> & ->).
    { rewrite <- (upper_resp r0 r0' H2). pose proof (skipn_resp 3 r0 r0' H2) as H3.
      set (b := startswith (s2l "MEG") (upper r0)). clearbody b.
      destruct H2 as [|c c' r2 r2' Hcc H2]; [exists 1%Q, [], [], [], []; repeat split; constructor|].
      rewrite <- (mult_resp c c' Hcc), <- (up_resp c c' Hcc). destruct (mult c) as [x|].
      - destruct b; [exists x, [], [], (skipn 3 (c :: r2)), (skipn 3 (c' :: r2')); auto|exists x, [], [], r2, r2'; auto].
      - destruct (aeqb (upper_c c) "R"); [exists 1%Q, (s2l "ohm"), (s2l "ohm"), r2, r2'; auto|].
        exists 1%Q, [], [], (c :: r2), (c' :: r2'). repeat split. constructor; assumption. }
    destruct (span_rigid is_digit rest rest' resp_digit rigid_digit H3) as (suf & t & t' & -> & -> & _ & _).
    destruct (pyfloat _); reflexivity.
Qed.
