From Coq Require Import String Ascii List Bool Arith Lia QArith ZArith Lqa.
From Verif Require Import PyStr StepsModel StepsSpec StepsProofs LogModel LogSpec.
Import ListNotations.
Local Open Scope string_scope.
Local Open Scope nat_scope.
Local Open Scope list_scope.

Section PieceInd.
Variable P : piece -> Prop.
Hypothesis HW : forall s, P (Word s).
Hypothesis HG : forall b l, Forall P l -> P (Group b l).
Hypothesis HB : forall c, P (Blank c).
Hypothesis HC : forall c, P (Comma c).
Fixpoint piece_ind' (p : piece) : P p :=
  match p with
  | Word s => HW s
  | Group b l => HG b l ((fix all (l : list piece) : Forall P l :=
                            match l with [] => Forall_nil P | q :: l' => Forall_cons q (piece_ind' q) (all l') end) l)
  | Blank c => HB c
  | Comma c => HC c
  end.
End PieceInd.

Lemma group_ok : forall b l, piece_ok (Group b l) <-> line_ok l.
Proof.
  intros b l. unfold line_ok. simpl.
  assert (forall l, (fix all (l : list piece) : Prop := match l with [] => True | q :: l' => piece_ok q /\ all l' end) l <-> Forall piece_ok l) as E.
  { induction l0 as [|q l0 IH]; split; intros H; try constructor; simpl in *; try tauto; inversion H; subst; tauto. }
  rewrite E. reflexivity.
Qed.

Lemma aeqb_sym : forall x y, aeqb x y = aeqb y x.
Proof. intros. unfold aeqb. apply Ascii.eqb_sym. Qed.

Lemma bracket_false : forall c, bracket_char c = false -> closer c = None /\ forall p, bracket_char p = true -> aeqb c p = false.
Proof.
  intros c H. split.
  - unfold bracket_char in H. repeat (apply orb_false_iff in H; destruct H as [H ?]). unfold closer.
    rewrite H, H4, H3. reflexivity.
  - intros p Hp. apply aeqb_neq. intros ->. congruence.
Qed.

Lemma blank_not_bracket : forall c, is_blank c = true -> bracket_char c = false /\ is_comma c = false.
Proof.
  intros c H. unfold is_blank in H. rewrite !orb_true_iff in H.
  destruct H as [[[H|H]|H]|H]; apply aeqb_eq in H; subst c; split; reflexivity.
Qed.
Lemma comma_not_bracket : forall c, is_comma c = true -> bracket_char c = false /\ is_blank c = false.
Proof.
  intros c H. unfold is_comma in H. rewrite !orb_true_iff in H.
  destruct H as [H|H]; apply aeqb_eq in H; subst c; split; reflexivity.
Qed.

Section S.
Context {V : Type} (conv : str -> V).
Notation loop := (split_loop conv).

Lemma inside_chars : forall inner w q st cur vals rest, Forall (fun c => bracket_char c = false) w -> bracket_char q = true ->
  loop inner (q :: st) cur vals (w ++ rest) = loop inner (q :: st) (cur ++ w) vals rest.
Proof.
  intros inner w. induction w as [|c w IH]; intros q st cur vals rest H Hq; simpl; [rewrite app_nil_r; reflexivity|].
  inversion H as [|? ? Hc Hw]; subst. destruct (bracket_false c Hc) as [-> Hn]. rewrite (Hn q Hq).
  rewrite IH by assumption. rewrite <- app_assoc. reflexivity.
Qed.

Definition inside_P (p : piece) : Prop := piece_ok p -> forall inner q st cur vals rest, bracket_char q = true ->
  loop inner (q :: st) cur vals (piece_text p ++ rest) = loop inner (q :: st) (cur ++ piece_text p) vals rest.

Lemma inside_list : forall l, Forall inside_P l -> Forall piece_ok l ->
  forall inner q st cur vals rest, bracket_char q = true ->
  loop inner (q :: st) cur vals (line_text l ++ rest) = loop inner (q :: st) (cur ++ line_text l) vals rest.
Proof.
  intros l H. induction H as [|p l Hp Hl IH]; intros Ho inner q st cur vals rest Hq.
  - simpl. rewrite app_nil_r. reflexivity.
  - inversion Ho; subst. unfold line_text in *. simpl. rewrite <- app_assoc, Hp by assumption. rewrite IH by assumption.
    rewrite <- app_assoc. reflexivity.
Qed.

Lemma close_bracket : forall b, bracket_char (close_c b) = true /\ closer (close_c b) = None /\ closer (open_c b) = Some (close_c b).
Proof. intros []; repeat split. Qed.

Lemma inside_piece : forall p, inside_P p.
Proof.
  induction p as [s|b l IH|c|c] using piece_ind'; intros Ho inner q st cur vals rest Hq.
  - destruct Ho as [_ Hs]. apply inside_chars; [|exact Hq]. eapply Forall_impl; [|exact Hs]. intros c (_ & _ & H). exact H.
  - apply group_ok in Ho. destruct Ho as [_ Ho]. destruct (close_bracket b) as (B1 & B2 & B3).
    change (piece_text (Group b l)) with (open_c b :: line_text l ++ [close_c b]).
    simpl. rewrite B3. rewrite <- app_assoc. rewrite inside_list by assumption. simpl. rewrite B2, aeqb_refl.
    f_equal. rewrite <- !app_assoc. reflexivity.
  - simpl in Ho. apply (inside_chars inner [c] q); [|exact Hq]. constructor; [apply blank_not_bracket; exact Ho|constructor].
  - simpl in Ho. apply (inside_chars inner [c] q); [|exact Hq]. constructor; [apply comma_not_bracket; exact Ho|constructor].
Qed.

Lemma top_word : forall inner w cur vals rest, Forall word_char w ->
  loop inner [] cur vals (w ++ rest) = loop inner [] (cur ++ w) vals rest.
Proof.
  intros inner w. induction w as [|c w IH]; intros cur vals rest H; simpl; [rewrite app_nil_r; reflexivity|].
  inversion H as [|? ? (H1 & H2 & H3) Hw]; subst. destruct (bracket_false c H3) as [-> _]. rewrite H1, H2.
  rewrite IH by assumption. rewrite <- app_assoc. reflexivity.
Qed.

Lemma top_line : forall inner l, Forall piece_ok l ->
  (forall b g, In (Group b g) l -> inner (line_text g) = Some (line_values conv g)) ->
  (separated l -> forall vals, loop inner [] [] vals (line_text l) = Some (vals ++ fields_with conv (group_val conv) false l)) /\
  (forall w, w <> [] -> Forall word_char w -> separated (Word w :: l) -> forall vals,
     loop inner [] w vals (line_text l) = Some (vals ++ VText (conv w) :: fields_with conv (group_val conv) true l)).
Proof.
  intros inner l. induction l as [|p l IH]; intros Ho Hg.
  - split.
    + intros _ vals. simpl. rewrite app_nil_r. reflexivity.
    + intros w Hw _ _ vals. simpl. destruct w; [contradiction|]. reflexivity.
  - inversion Ho as [|? ? Hp Hl]; subst.
    destruct (IH Hl (fun b g G => Hg b g (or_intror G))) as [IHA IHB].
    assert (forall c : ascii, c :: line_text l = [c] ++ line_text l) as Cs by reflexivity.
    split.
    + intros Hs vals. destruct p as [s|b g|c|c]; unfold line_text; simpl; fold (line_text l).
      * destruct Hp as [Hn Hw]. rewrite top_word by exact Hw. simpl. apply IHB; assumption.
      * apply group_ok in Hp. destruct (close_bracket b) as (B1 & B2 & B3). rewrite B3.
        change (concat (map piece_text g)) with (line_text g).
        change (split_loop conv inner [close_c b] [open_c b] vals ((line_text g ++ [close_c b]) ++ line_text l) =
                Some (vals ++ group_val conv (Group b g) :: fields_with conv (group_val conv) false l)).
        rewrite <- app_assoc.
        rewrite inside_list; [|apply Forall_forall; intros; apply inside_piece|apply Hp|exact B1].
        simpl. rewrite B2, aeqb_refl. simpl tl. rewrite (Hg b g (or_introl eq_refl)).
        rewrite IHA by (destruct Hs as [_ Hs]; exact Hs). rewrite <- app_assoc. f_equal.
      * simpl in Hp. destruct (blank_not_bracket c Hp) as [Hb _]. destruct (bracket_false c Hb) as [-> _]. rewrite Hp.
        apply IHA. apply Hs.
      * simpl in Hp. destruct (comma_not_bracket c Hp) as [Hb Hc]. destruct (bracket_false c Hb) as [-> _]. rewrite Hc, Hp.
        rewrite IHA by apply Hs. rewrite <- app_assoc. reflexivity.
    + intros w Hn Hw Hs vals. destruct Hs as [H1 Hs]. destruct p as [s|b g|c|c]; [contradiction|contradiction| |];
        unfold line_text; simpl; fold (line_text l); simpl in Hp.
      * destruct (blank_not_bracket c Hp) as [Hb _]. destruct (bracket_false c Hb) as [-> _]. rewrite Hp.
        destruct w; [contradiction|]. rewrite IHA by apply Hs. rewrite <- app_assoc. reflexivity.
      * destruct (comma_not_bracket c Hp) as [Hb Hc]. destruct (bracket_false c Hb) as [-> _]. rewrite Hc, Hp.
        destruct w; [contradiction|]. rewrite IHA by apply Hs. rewrite <- app_assoc. reflexivity.
Qed.

Lemma line_text_nil : forall l, Forall piece_ok l -> line_text l = [] -> l = [].
Proof.
  intros [|p l] H E; [reflexivity|]. inversion H as [|? ? Hp _]; subst. unfold line_text in E. simpl in E.
  destruct p as [s|b g|c|c]; simpl in E; try discriminate. destruct Hp as [Hn _]. destruct s; [contradiction|discriminate].
Qed.

Lemma group_shorter : forall b g l, In (Group b g) l -> length (line_text g) < length (line_text l).
Proof.
  intros b g l. induction l as [|p l IH]; intros H; [destruct H|]. unfold line_text in *. simpl. rewrite app_length.
  destruct H as [->|H]; [|specialize (IH H); lia]. simpl. rewrite app_length. simpl. lia.
Qed.

Lemma split_fuel_ok : forall f l, length (line_text l) < f -> line_ok l ->
  split_fuel conv f (line_text l) = Some (line_values conv l).
Proof.
  induction f as [|f IH]; intros l Hf [Hs Ho]; [lia|]. simpl.
  destruct (line_text l) as [|c t] eqn:E.
  - apply line_text_nil in E; [|exact Ho]. subst. reflexivity.
  - rewrite <- E. assert (l <> []) as Hn by (intros ->; discriminate).
    destruct (top_line (split_fuel conv f) l Ho) as [A _].
    + intros b g G. apply IH.
      * pose proof (group_shorter b g l G). rewrite E in H. simpl in *. lia.
      * rewrite Forall_forall in Ho. apply (group_ok b). apply Ho. exact G.
    + rewrite A by exact Hs. destruct l; [contradiction|]. reflexivity.
Qed.

Theorem split_line_ok : forall l, line_ok l -> split_line conv (line_text l) = Some (line_values conv l).
Proof. intros l H. apply split_fuel_ok; [lia|exact H]. Qed.
End S.

Section Unclosed.
Context {V : Type} (conv : str -> V).
Lemma top_prefix : forall inner l, Forall piece_ok l -> forall cur vals rest,
  split_loop conv inner [] cur vals (line_text l ++ rest) = None \/
  exists cur' vals', split_loop conv inner [] cur vals (line_text l ++ rest) = split_loop conv inner [] cur' vals' rest.
Proof.
  intros inner l. induction l as [|p l IH]; intros Ho cur vals rest; [right; exists cur, vals; reflexivity|].
  inversion Ho as [|? ? Hp Hl]; subst. specialize (IH Hl).
  unfold line_text. simpl. fold (line_text l). rewrite <- app_assoc. destruct p as [s|b g|c|c].
  - destruct Hp as [_ Hw]. simpl. rewrite top_word by exact Hw. apply IH.
  - apply group_ok in Hp. destruct (close_bracket b) as (B1 & B2 & B3).
    change (piece_text (Group b g)) with (open_c b :: line_text g ++ [close_c b]).
    simpl. rewrite B3. rewrite <- app_assoc.
    rewrite inside_list; [|apply Forall_forall; intros; apply inside_piece|apply Hp|exact B1].
    simpl. rewrite B2, aeqb_refl. destruct (inner _); [apply IH|left; reflexivity].
  - simpl in Hp. destruct (blank_not_bracket c Hp) as [Hb _]. simpl. destruct (bracket_false c Hb) as [-> _]. rewrite Hp. apply IH.
  - simpl in Hp. destruct (comma_not_bracket c Hp) as [Hb Hc]. simpl. destruct (bracket_false c Hb) as [-> _]. rewrite Hc, Hp. apply IH.
Qed.

Theorem unclosed_rejected : forall l b g, Forall piece_ok l -> Forall piece_ok g ->
  split_line conv (line_text l ++ open_c b :: line_text g) = None.
Proof.
  intros l b g Hl Hg. unfold split_line. simpl.
  destruct (line_text l ++ open_c b :: line_text g) as [|c t] eqn:E; [destruct (line_text l); discriminate|]. rewrite <- E.
  destruct (close_bracket b) as (B1 & B2 & B3).
  match goal with |- split_loop conv ?inner _ _ _ _ = _ => destruct (top_prefix inner l Hl [] [] (open_c b :: line_text g)) as [->|(cur & vals & ->)] end;
    [reflexivity|].
  simpl. rewrite B3. rewrite <- (app_nil_r (line_text g)).
  rewrite inside_list; [|apply Forall_forall; intros; apply inside_piece|exact Hg|exact B1]. reflexivity.
Qed.
End Unclosed.

(** * Conditions *)
From Coq Require Import Sorting.Sorted.
Section Cond.
Context {V : Type} (veqb : V -> V -> bool) (conv : V -> V).

Lemma indices_In : forall v l i j, In j (indices_eq veqb v i l) <-> exists k x, j = i + k /\ nth_error l k = Some x /\ veqb x v = true.
Proof.
  intros v l. induction l as [|a l IH]; intros i j; simpl.
  - split; [intros []|]. intros (k & x & _ & H & _). destruct k; discriminate.
  - destruct (veqb a v) eqn:E; simpl; rewrite IH; split.
    + intros [<-|(k & x & -> & H)]; [exists 0, a; rewrite Nat.add_0_r; auto|exists (S k), x; split; [lia|exact H]].
    + intros (k & x & -> & H & Hv). destruct k; [left; lia|right]. exists k, x. split; [lia|auto].
    + intros (k & x & -> & H). exists (S k), x. split; [lia|exact H].
    + intros (k & x & -> & H & Hv). destruct k; [simpl in H; injection H as <-; congruence|]. exists k, x. split; [lia|auto].
Qed.

Lemma indices_sorted : forall v l i, StronglySorted lt (indices_eq veqb v i l).
Proof.
  intros v l. induction l as [|a l IH]; intros i; simpl; [constructor|].
  destruct (veqb a v); [|apply IH]. constructor; [apply IH|]. apply Forall_forall. intros j H. apply indices_In in H.
  destruct H as (k & x & -> & _). lia.
Qed.

Lemma filter_sorted : forall f (l : list nat), StronglySorted lt l -> StronglySorted lt (filter f l).
Proof.
  intros f l H. induction H as [|a l H IH F]; simpl; [constructor|]. destruct (f a); [|exact IH].
  constructor; [exact IH|]. rewrite Forall_forall in *. intros x Hx. apply filter_In in Hx. apply F. apply Hx.
Qed.

Definition holds (d : logdata V) (i : nat) (pv : str * V) : Prop :=
  exists c x, column_of d (fst pv) = Some c /\ nth_error c i = Some x /\ veqb x (conv (snd pv)) = true.

Lemma steps_equal_spec : forall (d : logdata V) p v,
  match steps_equal veqb conv d p v with
  | None => column_of d p = None
  | Some s => column_of d p <> None /\ StronglySorted lt s /\ forall i, In i s <-> holds d i (p, v)
  end.
Proof.
  intros d p v. unfold steps_equal, column_of, holds. simpl.
  assert (forall c i, In i (indices_eq veqb (conv v) 0 c) <->
            exists c0 x, Some c = Some c0 /\ nth_error c0 i = Some x /\ veqb x (conv v) = true) as E.
  { intros c i. rewrite indices_In. split.
    - intros (k & x & -> & H). exists c, x. split; [reflexivity|exact H].
    - intros (c0 & x & H0 & H). injection H0 as <-. exists i, x. split; [reflexivity|exact H]. }
  unfold column_of. simpl.
  destruct (dget (lower p) (stepset d)) as [c|].
  - split; [discriminate|]. split; [apply indices_sorted|]. apply E.
  - destruct (dget (lower p) (dataset d)) as [c|]; [|reflexivity].
    split; [discriminate|]. split; [apply indices_sorted|]. apply E.
Qed.

Lemma existsb_In : forall i s, existsb (Nat.eqb i) s = true <-> In i s.
Proof.
  intros i s. rewrite existsb_exists. split; [intros (x & H & E); apply Nat.eqb_eq in E; subst; exact H|].
  intros H. exists i. split; [exact H|apply Nat.eqb_refl].
Qed.

Lemma conditions_some : forall (d : logdata V) conds cur, StronglySorted lt cur ->
  (forall pv, In pv conds -> column_of d (fst pv) <> None) ->
  exists s, conditions_loop veqb conv d conds (Some cur) = Some (Some s) /\ StronglySorted lt s /\
  forall i, In i s <-> In i cur /\ forall pv, In pv conds -> holds d i pv.
Proof.
  intros d conds. induction conds as [|[p v] conds IH]; intros cur Hc Hk; simpl.
  - exists cur. split; [reflexivity|]. split; [exact Hc|]. intros i. split; [intros H; split; [exact H|intros ? []]|tauto].
  - pose proof (steps_equal_spec d p v) as S. destruct (steps_equal veqb conv d p v) as [s|].
    + destruct S as (_ & Ss & Si).
      destruct (IH (filter (fun i => existsb (Nat.eqb i) s) cur)) as (s' & E & Hs' & Hi).
      * apply filter_sorted. exact Hc.
      * intros pv H. apply Hk. right. exact H.
      * exists s'. split; [exact E|]. split; [exact Hs'|]. intros i. rewrite Hi, filter_In, existsb_In, Si. split.
        -- intros [[H1 H2] H3]. split; [exact H1|]. intros pv [<-|H]; auto.
        -- intros [H1 H2]. split; [split; [exact H1|apply H2; left; reflexivity]|]. intros pv H. apply H2. right. exact H.
    + exfalso. apply (Hk (p, v)); [left; reflexivity|exact S].
Qed.

Theorem conditions_spec : forall (d : logdata V) conds, conds <> [] ->
  (forall pv, In pv conds -> column_of d (fst pv) <> None) ->
  exists s, steps_with_conditions veqb conv d conds = Some (Some s) /\ StronglySorted lt s /\
  forall i, In i s <-> forall pv, In pv conds -> holds d i pv.
Proof.
  intros d [|[p v] conds] Hne Hk; [contradiction|]. unfold steps_with_conditions. simpl.
  pose proof (steps_equal_spec d p v) as S. destruct (steps_equal veqb conv d p v) as [s|].
  - destruct S as (_ & Ss & Si).
    destruct (conditions_some d conds s Ss) as (s' & E & Hs' & Hi).
    + intros pv H. apply Hk. right. exact H.
    + exists s'. split; [exact E|]. split; [exact Hs'|]. intros i. rewrite Hi, Si. split.
      * intros [H1 H2] pv [<-|H]; auto.
      * intros H. split; [apply H; left; reflexivity|]. intros pv G. apply H. right. exact G.
  - exfalso. apply (Hk (p, v)); [left; reflexivity|exact S].
Qed.

Theorem conditions_unknown : forall (d : logdata V) conds, (exists pv, In pv conds /\ column_of d (fst pv) = None) ->
  steps_with_conditions veqb conv d conds = None.
Proof.
  intros d conds. unfold steps_with_conditions. generalize (@None (list nat)).
  induction conds as [|[p v] conds IH]; intros cur (pv & H & E); [destruct H|]. simpl.
  pose proof (steps_equal_spec d p v) as S. destruct (steps_equal veqb conv d p v) as [s|]; [|reflexivity].
  apply IH. destruct H as [<-|H]; [destruct S as [S _]; contradiction|]. eauto.
Qed.

Lemma sorted_single : forall (s : list nat) i, StronglySorted lt s -> (forall j, In j s <-> j = i) -> s = [i].
Proof.
  intros s i Hs H. destruct s as [|a s]; [exfalso; apply (proj2 (H i) eq_refl)|].
  assert (a = i) as -> by (apply H; left; reflexivity). destruct s as [|b s]; [reflexivity|].
  assert (b = i) as -> by (apply H; right; left; reflexivity). inversion Hs as [|? ? _ F]; subst. inversion F; subst. lia.
Qed.

Theorem measure_where : forall (d : logdata V) m conds col i x, conds <> [] ->
  find_name m (dataset d) = Some col ->
  (forall pv, In pv conds -> column_of d (fst pv) <> None) ->
  (forall j, (forall pv, In pv conds -> holds d j pv) <-> j = i) ->
  nth_error col i = Some x ->
  get_measure_value_where veqb conv d m conds = Some x.
Proof.
  intros d m conds col i x Hne Hm Hk Hu Hx. unfold get_measure_value_where. rewrite Hm.
  destruct (conditions_spec d conds Hne Hk) as (s & -> & Hs & Hi).
  rewrite (sorted_single s i Hs); [exact Hx|]. intros j. rewrite Hi. apply Hu.
Qed.

Theorem measure_ambiguous : forall (d : logdata V) m conds x, conds <> [] ->
  (forall pv, In pv conds -> column_of d (fst pv) <> None) ->
  get_measure_value_where veqb conv d m conds = Some x ->
  exists col i, find_name m (dataset d) = Some col /\ nth_error col i = Some x /\
    forall j, (forall pv, In pv conds -> holds d j pv) <-> j = i.
Proof.
  intros d m conds x Hne Hk. unfold get_measure_value_where. destruct (find_name m (dataset d)) as [col|]; [|discriminate].
  destruct (conditions_spec d conds Hne Hk) as (s & -> & Hs & Hi).
  destruct s as [|a [|b s]]; try discriminate. intros H. exists col, a. split; [reflexivity|]. split; [exact H|].
  intros j. rewrite <- Hi. simpl. split; [intros [->|[]]; reflexivity|auto].
Qed.
End Cond.

(** * Statistics *)
Local Open Scope Q_scope.
Lemma fold_max : forall r x, let m := fold_left (fun m y => if Qle_bool y m then m else y) r x in
  In m (x :: r) /\ forall y, In y (x :: r) -> y <= m.
Proof.
  induction r as [|a r IH]; intros x; simpl.
  - split; [left; reflexivity|]. intros y [->|[]]. apply Qle_refl.
  - destruct (Qle_bool a x) eqn:E.
    + destruct (IH x) as [H1 H2]. split.
      * destruct H1 as [H1|H1]; [left; exact H1|right; right; exact H1].
      * intros y [->|[->|H]]; [apply H2; left; reflexivity| |apply H2; right; exact H].
        apply Qle_bool_iff in E. eapply Qle_trans; [exact E|]. apply H2. left. reflexivity.
    + destruct (IH a) as [H1 H2]. split.
      * destruct H1 as [H1|H1]; [right; left; exact H1|right; right; exact H1].
      * intros y [->|[->|H]]; [|apply H2; left; reflexivity|apply H2; right; exact H].
        eapply Qle_trans; [|apply H2; left; reflexivity].
        apply Qnot_lt_le. intros G. apply Qlt_le_weak in G. apply Qle_bool_iff in G. congruence.
Qed.
Lemma fold_min : forall r x, let m := fold_left (fun m y => if Qle_bool m y then m else y) r x in
  In m (x :: r) /\ forall y, In y (x :: r) -> m <= y.
Proof.
  induction r as [|a r IH]; intros x; simpl.
  - split; [left; reflexivity|]. intros y [->|[]]. apply Qle_refl.
  - destruct (Qle_bool x a) eqn:E.
    + destruct (IH x) as [H1 H2]. split.
      * destruct H1 as [H1|H1]; [left; exact H1|right; right; exact H1].
      * intros y [->|[->|H]]; [apply H2; left; reflexivity| |apply H2; right; exact H].
        apply Qle_bool_iff in E. eapply Qle_trans; [|exact E]. apply H2. left. reflexivity.
    + destruct (IH a) as [H1 H2]. split.
      * destruct H1 as [H1|H1]; [right; left; exact H1|right; right; exact H1].
      * intros y [->|[->|H]]; [|apply H2; left; reflexivity|apply H2; right; exact H].
        eapply Qle_trans; [apply H2; left; reflexivity|].
        apply Qnot_lt_le. intros G. apply Qlt_le_weak in G. apply Qle_bool_iff in G. congruence.
Qed.
Lemma fold_sum : forall l a, fold_left Qplus l a == a + qsum l.
Proof. induction l; intros b; simpl; [ring|]. rewrite IHl. ring. Qed.

Definition picked (col : list Q) (s : steps_arg) (l : list Q) : Prop :=
  match s with
  | AllSteps => l = col
  | OneStep i => False
  | Steps is => Forall2 (fun i x => nth_error col i = Some x) is l
  end.

Lemma map_opt_Forall2 : forall A B (f : A -> option B) l r, Forall2 (fun a b => f a = Some b) l r <-> map_opt f l = Some r.
Proof.
  intros A B f l. induction l as [|a l IH]; intros r; simpl.
  - split; [intros H; inversion H; reflexivity|intros H; injection H as <-; constructor].
  - split.
    + intros H. inversion H as [|? b ? r' Ha Hr]; subst. rewrite Ha. apply IH in Hr. rewrite Hr. reflexivity.
    + destruct (f a) eqn:E; [|discriminate]. destruct (map_opt f l) eqn:E2; [|discriminate].
      intros H. injection H as <-. constructor; [exact E|]. apply IH. reflexivity.
Qed.

Lemma values_at_picked : forall d m col s l, dget (lower m) (dataset d) = Some col -> picked col s l ->
  values_at d m s = Some (GotList l).
Proof.
  intros d m col s l Hc Hp. unfold values_at. rewrite Hc. destruct s; simpl in Hp.
  - subst. reflexivity.
  - contradiction.
  - apply map_opt_Forall2 in Hp. rewrite Hp. reflexivity.
Qed.

Theorem stats : forall d m col s l, dget (lower m) (dataset d) = Some col -> picked col s l -> l <> [] ->
  (exists q, max_value d m s = Some q /\ is_max q l) /\
  (exists q, min_value d m s = Some q /\ is_min q l) /\
  (exists q, avg_value d m s = Some q /\ q * inject_Z (Z.of_nat (length l)) == qsum l).
Proof.
  intros d m col s l Hc Hp Hl. unfold max_value, min_value, avg_value. rewrite (values_at_picked d m col s l Hc Hp). simpl.
  destruct l as [|x r]; [contradiction|]. split; [|split].
  - eexists. split; [reflexivity|]. destruct (fold_max r x) as [H1 H2]. split; [|exact H2]. eexists. split; [exact H1|reflexivity].
  - eexists. split; [reflexivity|]. destruct (fold_min r x) as [H1 H2]. split; [|exact H2]. eexists. split; [exact H1|reflexivity].
  - eexists. split; [reflexivity|]. change (fold_left Qplus r (0 + x)) with (fold_left Qplus (x :: r) 0). rewrite fold_sum.
    field. intros E. change 0 with (inject_Z 0) in E. rewrite inject_Z_injective in E. simpl in E. lia.
Qed.

(** * Reading a log *)
Local Close Scope Q_scope.
Local Open Scope nat_scope.

Lemma lstrip_keep : forall f s, (forall c, In c s -> f c = false) -> lstrip_if f s = s.
Proof. intros f [|c s] H; [reflexivity|]. simpl. rewrite (H c (or_introl eq_refl)). reflexivity. Qed.

Lemma strip_nl : forall t, ~ In NLC t -> ~ In "013"%char t -> strip_if is_nl (t ++ [NLC]) = t.
Proof.
  intros t H1 H2.
  assert (forall c, In c t -> is_nl c = false) as H.
  { intros c Hc. unfold is_nl. apply orb_false_iff. split; apply aeqb_neq; intros ->; contradiction. }
  unfold strip_if, rstrip_if. destruct t as [|c t]; [reflexivity|].
  replace (lstrip_if is_nl ((c :: t) ++ [NLC])) with ((c :: t) ++ [NLC]).
  - rewrite rev_app_distr. change (rev [NLC] ++ rev (c :: t)) with (NLC :: rev (c :: t)). unfold lstrip_if at 1. fold lstrip_if.
    change (is_nl NLC) with true. cbv iota. rewrite lstrip_keep; [apply rev_involutive|].
    intros x Hx. apply H. apply in_rev. exact Hx.
  - simpl. rewrite (H c (or_introl eq_refl)). reflexivity.
Qed.

Lemma join_tab_no : forall c l, c <> TABC -> Forall (fun s => ~ In c s) l -> ~ In c (join_tab l).
Proof.
  intros c l Hc. induction l as [|x l IH]; intros F; [intros []|]. inversion F as [|? ? Hx Hl]; subst.
  destruct l as [|y l]; [exact Hx|].
  change (join_tab (x :: y :: l)) with (x ++ [TABC] ++ join_tab (y :: l)). intros G. apply in_app_or in G.
  destruct G as [G|[G|G]]; [contradiction|congruence|apply (IH Hl); exact G].
Qed.

Lemma split_join_tab : forall x l, Forall (fun s => ~ In TABC s) (x :: l) -> split_on TABC (join_tab (x :: l)) = x :: l.
Proof.
  intros x l. revert x. induction l as [|y l IH]; intros x F; inversion F as [|? ? Hx Hl]; subst.
  - apply split_on_plain. exact Hx.
  - change (join_tab (x :: y :: l)) with (x ++ TABC :: join_tab (y :: l)). rewrite split_on_cons by exact Hx.
    rewrite IH by exact Hl. reflexivity.
Qed.

Section Tables.
Context {V : Type} (conv : str -> V) (is_int : str -> bool).

Definition conv_rows (t : table) : list (list V) := map (fun r => map conv (snd r)) (tb_rows t).

Lemma name_line : forall t st, cell (tb_name t) ->
  meas_line conv is_int (s2l "Measurement: " ++ tb_name t ++ [NLC]) st =
  match m_name st with
  | Some (_ :: _) =>
      match m_rows st with
      | [] => Some (MState (Some (tb_name t)) [] [] (m_data st))
      | _ => match store 0 (m_headers st) (m_rows st) (m_data st) with
             | Some d => Some (MState (Some (tb_name t)) [] [] d)
             | None => None
             end
      end
  | _ => Some (MState (Some (tb_name t)) (m_headers st) (m_rows st) (m_data st))
  end.
Proof.
  intros t st (H1 & H2 & H3). unfold meas_line. rewrite app_assoc. rewrite strip_nl.
  - reflexivity.
  - intros G. apply in_app_or in G. destruct G as [G|G]; [|contradiction].
    vm_compute in G. repeat (destruct G as [G|G]; [discriminate|]). exact G.
  - intros G. apply in_app_or in G. destruct G as [G|G]; [|contradiction].
    vm_compute in G. repeat (destruct G as [G|G]; [discriminate|]). exact G.
Qed.

Lemma cells_no : forall l, Forall cell l -> ~ In NLC (join_tab l) /\ ~ In "013"%char (join_tab l) /\ Forall (fun s => ~ In TABC s) l.
Proof.
  intros l F. split; [|split].
  - apply join_tab_no; [discriminate|]. eapply Forall_impl; [|exact F]. intros s (A & B & C). exact B.
  - apply join_tab_no; [discriminate|]. eapply Forall_impl; [|exact F]. intros s (A & B & C). exact C.
  - eapply Forall_impl; [|exact F]. intros s (A & B & C). exact A.
Qed.

Lemma titles_eq : forall t, header_titles (tb_name t) (fst (tb_title t) :: snd (tb_title t) :: tb_cols t) = titles t.
Proof.
  intros t. unfold header_titles, titles. destruct (tb_cols t) as [|c1 [|c2 r]]; cbn [nth_error].
  - reflexivity.
  - destruct (str_eqb c1 (s2l "FROM") || str_eqb c1 (s2l "at")); reflexivity.
  - destruct (str_eqb c1 (s2l "FROM") || str_eqb c1 (s2l "at")); cbn [set_nth upd nth_error];
      destruct (str_eqb c2 (s2l "TO")); reflexivity.
Qed.

Lemma rows_lines : forall t n h rs pre d, 
  Forall (fun r => is_int (fst r) = true /\ cell (fst r) /\ Forall cell (snd r) /\
                   length (snd r) = S (length (tb_cols t)) /\
                   startswith (s2l "Measurement: ") (join_tab (fst r :: snd r)) = false) rs ->
  forall rest,
  meas_lines conv is_int (map (fun r => join_tab (fst r :: snd r) ++ [NLC]) rs ++ rest) (MState (Some n) h pre d) =
  meas_lines conv is_int rest (MState (Some n) h (pre ++ map (fun r => map conv (snd r)) rs) d).
Proof.
  intros t n h rs. induction rs as [|r rs IH]; intros pre d F rest; [simpl; rewrite app_nil_r; reflexivity|].
  inversion F as [|? ? (H1 & H2 & H3 & H4 & H5) Hf]; subst. cbn [map app meas_lines].
  destruct (cells_no (fst r :: snd r)) as (C1 & C2 & C3); [constructor; assumption|].
  unfold meas_line at 1. cbv zeta. rewrite strip_nl by assumption. rewrite H5. rewrite split_join_tab by exact C3.
  destruct (snd r) as [|v vs] eqn:E; [discriminate|]. cbn [length Nat.leb]. rewrite H1. cbn [m_name m_headers m_rows m_data].
  rewrite IH by exact Hf. rewrite <- app_assoc. rewrite <- E. reflexivity.
Qed.

Lemma table_block : forall t, table_ok is_int t -> forall st rest,
  (exists st', meas_line conv is_int (s2l "Measurement: " ++ tb_name t ++ [NLC]) st = Some st' /\ m_name st' = Some (tb_name t)) ->
  meas_lines conv is_int (table_lines t ++ rest) st =
  match meas_line conv is_int (s2l "Measurement: " ++ tb_name t ++ [NLC]) st with
  | Some st' => meas_lines conv is_int rest (MState (Some (tb_name t)) (titles t) (conv_rows t) (m_data st'))
  | None => None
  end.
Proof.
  intros t (T1 & T2 & T3 & T4 & T5 & T6 & T7 & T8 & T9) st rest (st' & E & En). unfold table_lines. cbn [app meas_lines].
  change (s2l "Measurement: " ++ tb_name t ++ [NLC]) with (s2l "Measurement: " ++ (tb_name t ++ [NLC])) in *.
  rewrite E.
  assert (meas_line conv is_int (join_tab (fst (tb_title t) :: snd (tb_title t) :: tb_cols t) ++ [NLC]) st' =
          Some (MState (Some (tb_name t)) (titles t) [] (m_data st'))) as Et.
  { destruct (cells_no (fst (tb_title t) :: snd (tb_title t) :: tb_cols t)) as (C1 & C2 & C3); [repeat constructor; try assumption; apply T3 || apply T4|].
    unfold meas_line. cbv zeta. rewrite strip_nl by assumption. rewrite T7. rewrite split_join_tab by exact C3.
    cbn [length Nat.leb]. rewrite T6, En. rewrite titles_eq. reflexivity. }
  rewrite Et. rewrite (rows_lines t) by exact T9. reflexivity.
Qed.

(** storing *)
Definition is_col (rows : list (list V)) (k : nat) (col : list V) : Prop := Forall2 (fun r x => nth_error r k = Some x) rows col.

Lemma col_exists : forall (rows : list (list V)) k, Forall (fun r => k < length r) rows -> exists col, map_opt (fun r => nth_error r k) rows = Some col.
Proof.
  intros rows k F. induction F as [|r rows Hr F (col & IH)]; [exists []; reflexivity|]. simpl.
  destruct (nth_error r k) as [x|] eqn:E; [|apply nth_error_None in E; lia]. rewrite IH. eauto.
Qed.

Lemma store_spec : forall hs k (rows : list (list V)) d, Forall (fun r => k + length hs <= length r) rows -> NoDup (map lower hs) ->
  exists d', store k hs rows d = Some d' /\
   (forall j h, nth_error hs j = Some h -> exists col, dget (lower h) d' = Some col /\ is_col rows (k + j) col) /\
   (forall key, ~ In key (map lower hs) -> dget key d' = dget key d).
Proof.
  induction hs as [|h hs IH]; intros k rows d F N; simpl.
  - exists d. split; [reflexivity|]. split; [intros j h H; destruct j; discriminate|reflexivity].
  - inversion N as [|? ? Nh Nt]; subst.
    destruct (col_exists rows k) as (col & Hc).
    { eapply Forall_impl; [|exact F]. intros r Hr. simpl in Hr. lia. }
    rewrite Hc. destruct (IH (S k) rows (dset (lower h) col d)) as (d' & E & H1 & H2).
    { eapply Forall_impl; [|exact F]. intros r Hr. simpl in Hr. lia. } { exact Nt. }
    exists d'. split; [exact E|]. split.
    + intros j h' Hj. destruct j; simpl in Hj.
      * injection Hj as <-. exists col. split; [rewrite H2 by exact Nh; rewrite dget_dset, str_eqb_refl; reflexivity|].
        rewrite Nat.add_0_r. apply map_opt_Forall2. exact Hc.
      * destruct (H1 j h' Hj) as (c & Hd & Hi). exists c. split; [exact Hd|]. replace (k + S j) with (S k + j) by lia. exact Hi.
    + intros key Hk. rewrite H2 by (intros G; apply Hk; right; exact G). rewrite dget_dset.
      destruct (str_eqb (lower h) key) eqn:Eq; [|reflexivity]. apply str_eqb_eq in Eq. exfalso. apply Hk. left. exact Eq.
Qed.

Lemma titles_length : forall t, length (titles t) = S (length (tb_cols t)).
Proof. intros t. unfold titles. destruct (tb_cols t) as [|? [|? ?]]; reflexivity. Qed.

Lemma store_table : forall t d, table_ok is_int t -> NoDup (map lower (titles t)) ->
  exists d', store 0 (titles t) (conv_rows t) d = Some d' /\
   (forall j h, nth_error (titles t) j = Some h -> exists col, dget (lower h) d' = Some col /\ is_col (conv_rows t) j col) /\
   (forall key, ~ In key (map lower (titles t)) -> dget key d' = dget key d).
Proof.
  intros t d (T1 & T2 & T3 & T4 & T5 & T6 & T7 & T8 & T9) N. apply store_spec; [|exact N].
  unfold conv_rows. apply Forall_forall. intros r Hr. apply in_map_iff in Hr. destruct Hr as (x & <- & Hx).
  rewrite Forall_forall in T9. destruct (T9 x Hx) as (_ & _ & _ & L & _). rewrite map_length, titles_length. lia.
Qed.

Definition has_table (d : columns V) (t : table) : Prop :=
  forall j h, nth_error (titles t) j = Some h -> exists col, dget (lower h) d = Some col /\ is_col (conv_rows t) j col.

Definition all_titles (ts : list table) : list str := concat (map (fun t => map lower (titles t)) ts).

Lemma NoDup_app_inv : forall A (a b : list A), NoDup (a ++ b) -> NoDup a /\ NoDup b /\ forall x, In x a -> ~ In x b.
Proof.
  intros A a b. induction a as [|x a IH]; simpl; intros H; [repeat split; [constructor|exact H|intros ? []]|].
  inversion H as [|? ? Hn Hd]; subst. destruct (IH Hd) as (H1 & H2 & H3). repeat split.
  - constructor; [|exact H1]. intros G. apply Hn. apply in_or_app. left. exact G.
  - exact H2.
  - intros y [<-|Hy] G; [apply Hn; apply in_or_app; right; exact G|exact (H3 y Hy G)].
Qed.

Lemma tables_from : forall ts t d, Forall (table_ok is_int) (t :: ts) -> NoDup (all_titles (t :: ts)) ->
  exists st, meas_lines conv is_int (concat (map table_lines ts)) (MState (Some (tb_name t)) (titles t) (conv_rows t) d) = Some st /\
  exists d', (match m_rows st with [] => Some (m_data st) | _ => store 0 (m_headers st) (m_rows st) (m_data st) end) = Some d' /\
  Forall (has_table d') (t :: ts) /\ forall key, ~ In key (all_titles (t :: ts)) -> dget key d' = dget key d.
Proof.
  induction ts as [|t2 ts IH]; intros t d F N.
  - simpl. eexists. split; [reflexivity|]. inversion F as [|? ? Ht _]; subst.
    destruct (store_table t d Ht) as (d' & E & H1 & H2). { unfold all_titles in N. cbn [map concat] in N. rewrite app_nil_r in N. exact N. }
    exists d'. simpl. split.
    + destruct (conv_rows t) as [|r rs] eqn:Er; [|exact E].
      exfalso. destruct Ht as (_ & _ & _ & _ & _ & _ & _ & T8 & _). apply T8. unfold conv_rows in Er. destruct (tb_rows t); [reflexivity|discriminate].
    + split; [constructor; [exact H1|constructor]|]. intros key Hk. apply H2. unfold all_titles in Hk. cbn [map concat] in Hk. rewrite app_nil_r in Hk. exact Hk.
  - inversion F as [|? ? Ht F2]; subst. unfold all_titles in N. cbn [map concat] in N.
    destruct (NoDup_app_inv _ _ _ N) as (N1 & N2 & N3).
    destruct (store_table t d Ht N1) as (d1 & E & H1 & H2).
    assert (conv_rows t <> []) as Hr.
    { destruct Ht as (_ & _ & _ & _ & _ & _ & _ & T8 & _). unfold conv_rows. destruct (tb_rows t); [contradiction|discriminate]. }
    assert (tb_name t <> []) as Hn by apply Ht.
    inversion F2 as [|? ? Ht2 F3]; subst.
    destruct (IH t2 d1 F2 N2) as (st & Es & d' & Ed & Hh & Hk).
    exists st. split.
    + cbn [map concat]. assert (meas_line conv is_int (s2l "Measurement: " ++ tb_name t2 ++ [NLC]) (MState (Some (tb_name t)) (titles t) (conv_rows t) d)
              = Some (MState (Some (tb_name t2)) [] [] d1)) as Em.
      { rewrite name_line by apply Ht2. cbn [m_name m_rows m_headers m_data]. destruct (tb_name t); [contradiction|].
        destruct (conv_rows t); [contradiction|]. rewrite E. reflexivity. }
      rewrite table_block; [|exact Ht2|eexists; split; [exact Em|reflexivity]]. rewrite Em. exact Es.
    + exists d'. split; [exact Ed|]. split.
      * constructor; [|exact Hh]. intros j h Hj. destruct (H1 j h Hj) as (col & Hc & Hi). exists col. split; [|exact Hi].
        rewrite Hk; [exact Hc|]. apply N3. apply in_map. apply nth_error_In in Hj. exact Hj.
      * intros key Hkey. rewrite Hk, H2; [reflexivity| |]; intros G; apply Hkey; unfold all_titles; cbn [map concat]; apply in_or_app; [left|right]; exact G.
Qed.

Lemma read_tables_ok : forall ts d, Forall (table_ok is_int) ts -> NoDup (all_titles ts) ->
  exists d', read_tables conv is_int (concat (map table_lines ts)) d = Some d' /\ Forall (has_table d') ts /\
  forall key, ~ In key (all_titles ts) -> dget key d' = dget key d.
Proof.
  intros [|t ts] d F N.
  - exists d. split; [reflexivity|]. split; [constructor|reflexivity].
  - destruct (tables_from ts t d F N) as (st & Es & d' & Ed & Hh & Hk). exists d'. unfold read_tables.
    inversion F as [|? ? Ht F2]; subst.
    cbn [map concat].
    assert (meas_line conv is_int (s2l "Measurement: " ++ tb_name t ++ [NLC]) (MState None [] [] d)
              = Some (MState (Some (tb_name t)) [] [] d)) as Em by (rewrite name_line by apply Ht; reflexivity).
    rewrite table_block; [|exact Ht|eexists; split; [exact Em|reflexivity]]. rewrite Em. cbn [m_data]. rewrite Es. split; [exact Ed|auto].
Qed.

(** steps *)
Definition add1 (s : columns V) (kv : str * str) : columns V :=
  let k := lower (fst kv) in
  dset k (match dget k s with Some (x :: l) => (x :: l) ++ [conv (snd kv)] | _ => [conv (snd kv)] end) s.

Lemma add_items_ok : forall l s, Forall (fun kv : str * str => plain (fst kv) /\ plain (snd kv)) l ->
  add_items conv (map item l) s = Some (fold_left add1 l s).
Proof.
  intros l. induction l as [|[k v] l IH]; intros s F; [reflexivity|]. inversion F as [|? ? [Hk Hv] Hf]; subst. simpl in *.
  change (item (k, v)) with (k ++ "="%char :: v).
  replace (mem_c "=" (k ++ "="%char :: v)) with true.
  - cbn [negb]. rewrite split_on_cons by (apply plain_no; auto). rewrite split_on_plain by (apply plain_no; auto).
    rewrite IH by exact Hf. reflexivity.
  - symmetry. apply mem_c_In. apply in_or_app. right. left. reflexivity.
Qed.

Lemma items_cell : forall c l, c <> " "%char -> c <> "="%char -> Forall (fun kv : str * str => ~ In c (fst kv) /\ ~ In c (snd kv)) l -> ~ In c (items_text l).
Proof.
  intros c l H1 H2. induction l as [|[k v] l IH]; intros F; [intros []|]. inversion F as [|? ? [Hk Hv] Hf]; subst. simpl in Hk, Hv.
  specialize (IH Hf). destruct l as [|kv l].
  - simpl. intros G. apply in_app_or in G. destruct G as [G|[G|G]]; [contradiction|congruence|contradiction].
  - change (items_text ((k, v) :: kv :: l)) with (k ++ ["="%char] ++ v ++ [" "%char] ++ items_text (kv :: l)).
    rewrite !in_app_iff. remember (items_text (kv :: l)) as it. simpl In. intuition congruence.
Qed.

Lemma step_line_tokens : forall l, Forall (fun kv => plain (fst kv) /\ plain (snd kv) /\ cell (fst kv) /\ cell (snd kv)) l ->
  tl (split_on " " (strip_if is_nl (step_text l))) = match l with [] => [[]] | _ => map item l end.
Proof.
  intros l F. unfold step_text.
  assert (~ In NLC (items_text l) /\ ~ In "013"%char (items_text l)) as [C1 C2].
  { split; (apply items_cell; [discriminate|discriminate|]); eapply Forall_impl; try exact F; intros kv (_ & _ & (_ & A & B) & (_ & C & D)); auto. }
  change "010"%char with NLC. rewrite app_assoc. rewrite strip_nl.
  - change (s2l ".step ") with (s2l ".step" ++ [" "%char]). rewrite <- app_assoc. simpl ([" "%char] ++ items_text l).
    rewrite split_on_cons by (intros G; vm_compute in G; repeat (destruct G as [G|G]; [discriminate|]); exact G).
    cbn [tl]. destruct l as [|kv l]; [reflexivity|]. apply items_split; [discriminate|].
    eapply Forall_impl; [|exact F]. intros x (A & B & _). split; assumption.
  - intros G. apply in_app_or in G. destruct G as [G|G]; [|contradiction]. vm_compute in G. repeat (destruct G as [G|G]; [discriminate|]). exact G.
  - intros G. apply in_app_or in G. destruct G as [G|G]; [|contradiction]. vm_compute in G. repeat (destruct G as [G|G]; [discriminate|]). exact G.
Qed.

Lemma read_steps_ok : forall log s rest, Forall step_section_ok log ->
  read_steps conv (map log_text log ++ rest) s = read_steps conv rest (fold_left add1 (concat (step_table log)) s).
Proof.
  induction log as [|x log IH]; intros s rest F; [reflexivity|]. inversion F as [|? ? Hx Hf]; subst.
  destruct x as [l|o]; simpl map; simpl app; cbn [read_steps].
  - change (startswith (s2l ".step") (step_text l)) with true. cbv iota. rewrite step_line_tokens by exact Hx.
    assert (add_items conv match l with [] => [[]] | _ => map item l end s = Some (fold_left add1 l s)) as ->.
    { destruct l; [reflexivity|]. apply add_items_ok. eapply Forall_impl; [|exact Hx]. intros kv (A & B & _). auto. }
    simpl. rewrite fold_left_app. apply IH. exact Hf.
  - destruct Hx as [-> ->]. simpl. apply IH. exact Hf.
Qed.

Lemma add1_all : forall l s k, dget k s <> Some [] ->
  dget k (fold_left add1 l s) =
  match map (fun kv => conv (snd kv)) (filter (fun kv => str_eqb (lower (fst kv)) k) l) with
  | [] => dget k s
  | vs => Some (match dget k s with Some c => c | None => [] end ++ vs)
  end.
Proof.
  induction l as [|kv l IH]; intros s k Hs; [reflexivity|]. simpl.
  assert (dget k (add1 s kv) <> Some []) as Ha.
  { unfold add1. rewrite dget_dset. destruct (str_eqb (lower (fst kv)) k); [|exact Hs].
    cbv zeta. intros G. injection G as G. destruct (dget (lower (fst kv)) s) as [[|y c]|]; discriminate G. }
  rewrite IH by exact Ha. unfold add1. rewrite dget_dset. destruct (str_eqb (lower (fst kv)) k) eqn:E.
  - apply str_eqb_eq in E. rewrite E. simpl.
    destruct (dget k s) as [[|x c]|] eqn:Ed; [congruence| |].
    + destruct (map _ (filter _ l)); [reflexivity|]. f_equal. simpl. rewrite <- app_assoc. reflexivity.
    + destruct (map _ (filter _ l)); reflexivity.
  - reflexivity.
Qed.

Theorem read_log_ok : forall log ts, Forall step_section_ok log -> Forall (table_ok is_int) ts -> NoDup (all_titles ts) ->
  exists d, read_log conv is_int (map log_text log ++ concat (map table_lines ts)) = Some d /\
  (forall k, dget (lower k) (stepset d) = match step_values k log with [] => None | vs => Some (map conv vs) end) /\
  Forall (has_table (dataset d)) ts /\
  (forall key, ~ In key (all_titles ts) -> dget key (dataset d) = None).
Proof.
  intros log ts Fl Ft N. unfold read_log. rewrite read_steps_ok by exact Fl.
  destruct (read_tables_ok ts [] Ft N) as (d & E & Hh & Hk).
  assert (forall s, read_steps conv (concat (map table_lines ts)) s = Some (s, concat (map table_lines ts))) as Er.
  { intros s. destruct ts as [|t ts']; [reflexivity|]. reflexivity. }
  rewrite Er, E. eexists. split; [reflexivity|]. cbn [stepset dataset]. split; [|split; [exact Hh|intros key G; rewrite Hk by exact G; reflexivity]].
  intros k. rewrite add1_all by discriminate. unfold step_values.
  rewrite <- (map_map snd conv). destruct (filter _ _); reflexivity.
Qed.
End Tables.
