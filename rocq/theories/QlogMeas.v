From Coq Require Import String Ascii List Bool Arith Lia.
From Verif Require Import PyStr Regex RegexProofs RegexInv RegexMore StepsModel StepsSpec StepsProofs LogModel LogSpec LogProofs CompProofs QlogModel QlogSpec QlogProofs.
Import ListNotations.
Local Open Scope string_scope. Local Open Scope nat_scope. Local Open Scope list_scope.

(** ** The line of a measurement *)
Lemma name_words : forall n, name_text n -> n <> [] /\ forallb is_word n = true.
Proof.
  intros n (A & B). split; [exact A|]. apply forallb_forall. intros c C. destruct (B c C) as [H|[H|[H|H]]]; unfold is_word, alpha; [rewrite H|rewrite H|rewrite H|subst c; reflexivity]; rewrite ?orb_true_r; reflexivity.
Qed.
Lemma kind_words : forall k, In k kinds -> k <> [] /\ forallb is_word k = true.
Proof. intros k K. cbn in K. repeat (destruct K as [<-|K]; [split; [discriminate|reflexivity]|]). destruct K. Qed.
Lemma meas_match : forall a b r, a <> [] /\ forallb is_word a = true -> b <> [] /\ forallb is_word b = true -> ~ In Regex.NLc r ->
  let l := s2l ".meas " ++ a ++ s2l " " ++ b ++ s2l " " ++ r ++ [Regex.NLc] in
  exists e c, re_match meas_re l = Some (e, c) /\ group 1 l c = Some a /\ group 2 l c = Some b.
Proof.
  intros a b r (A1 & A2) (B1 & B2) R l. unfold re_match, meas_re.
  set (g1 := (6, 6 + length a)). set (p2 := 6 + length a + 1). set (g2 := (p2, p2 + length b)). set (p3 := p2 + length b + 1). set (g3 := (p3, p3 + length r)).
  exists (p3 + length r), [(3, g3); (2, g2); (1, g1)]. split.
  - unfold l. rewrite m_lits. cbn [app]. rewrite m_seqs_cons, m_grp. apply m_plus_run; [exact A1|exact A2|reflexivity|].
    change (lits " " ++ Grp 2 word1 :: lits " " ++ [Grp 3 dots; Eol]) with (lits " " ++ (Grp 2 word1 :: (lits " " ++ [Grp 3 dots; Eol]))). rewrite m_lits.
    rewrite m_seqs_cons, m_grp. apply m_plus_run; [exact B1|exact B2|reflexivity|]. rewrite m_lits. rewrite m_seqs_cons, m_grp. apply star_dots; [exact R|]. reflexivity.
  - unfold group. cbn [cap Nat.eqb option_map]. split; f_equal; unfold l, g1, g2.
    + eapply (slice_at _ (s2l ".meas ") a); reflexivity.
    + eapply (slice_at _ (s2l ".meas " ++ a ++ s2l " ") b); [rewrite <- !app_assoc; reflexivity| |reflexivity]. unfold p2. rewrite !app_length. change (length (s2l ".meas ")) with 6. change (length (s2l " ")) with 1. lia.
Qed.
Lemma meas_no_match : forall l, ~ (exists t, l = s2l ".meas " ++ t) -> re_match meas_re l = None.
Proof.
  intros l NM. destruct (re_match meas_re l) as [[e c]|] eqn:E; [|reflexivity]. destruct NM. apply re_match_reach in E. destruct E as (s' & E). unfold meas_re in E.
  destruct (reach_lits _ _ _ _ _ _ E) as (s3 & T3 & _). exists s3. exact T3.
Qed.
Lemma sim_type_kinds : forall t, sim_type t = true <-> In t kinds.
Proof.
  intros t. unfold sim_type. rewrite existsb_exists. split.
  - intros (x & X & E). apply str_eqb_eq in E. subst x. exact X.
  - intros X. exists t. split; [exact X|apply str_eqb_refl].
Qed.

Section Meas.
Context {V : Type} (conv : str -> V).
Lemma head_line : forall stepped h st, head_ok h -> qmeas_line conv stepped (head_text h) st =
  Some (QMeas (Some (match h with Typed _ n _ => n | Untyped n _ _ => n end)) None (q_data st) (q_count st)).
Proof.
  intros stepped h st H. unfold qmeas_line. destruct h as [k n r|n w r]; cbn [head_text head_ok] in *; change ["010"%char] with [Regex.NLc].
  - destruct H as (K & N & R). destruct (meas_match k n r (kind_words k K) (name_words n N) R) as (e & c & E & G1 & G2). cbv zeta in *. rewrite E, G1, G2.
    rewrite (proj2 (sim_type_kinds k) K). reflexivity.
  - destruct H as (N & K & W & R). destruct (meas_match n w r (name_words n N) (name_words w W) R) as (e & c & E & G1 & G2). cbv zeta in *. rewrite E, G1, G2.
    destruct (sim_type n) eqn:S; [destruct (K (proj1 (sim_type_kinds n) S))|reflexivity].
Qed.

(** ** Rows *)
Lemma fields_blank : forall (pv : piece -> val V) l b c, fields_with conv pv b (l ++ [Blank c]) = fields_with conv pv b l.
Proof. intros pv l. induction l as [|p l IH]; intros b c; [reflexivity|]. cbn [app fields_with]. destruct p; rewrite ?IH; reflexivity. Qed.
Lemma row_values : forall r, line_ok r -> r <> [] -> split_line conv (row_text r) = Some (line_values conv r).
Proof.
  intros r (S & F) NE. assert (E : row_text r = line_text (r ++ [Blank NLC])) by (unfold row_text, line_text; rewrite map_app, concat_app; cbn; reflexivity). rewrite E, split_line_ok.
  - destruct r as [|p r]; [congruence|]. unfold line_values. cbn [app]. rewrite <- (fields_blank (group_val conv) (p :: r) false NLC). reflexivity.
  - split; [|apply Forall_app; split; [exact F|constructor; [reflexivity|constructor]]]. clear F E NE. induction r as [|p r IH]; [cbn; auto|]. destruct S as (S1 & S2). cbn [app separated]. split; [|apply IH; exact S2]. destruct p, r; cbn [app] in *; auto.
Qed.
Lemma len_values : forall r, length (line_values conv r) = length (line_values (fun s => s) r).
Proof.
  intros r. unfold line_values. destruct r as [|p r]; [reflexivity|]. generalize (p :: r) as l. intros l. 
  assert (G : forall (W : Type) (f : str -> W) (pv : piece -> val W) l b, length (fields_with f pv b l) = length (fields_with (fun _ => tt) (fun _ => VNone) b l)).
  { intros W f pv l0. induction l0 as [|q l0 IH]; intros b; [reflexivity|]. cbn [fields_with]. destruct q; cbn [length]; rewrite ?IH; try reflexivity. destruct b; cbn [length]; rewrite IH; reflexivity. }
  rewrite (G V conv), (G str (fun s => s)). reflexivity.
Qed.

(** the columns hold the rows read so far *)
Definition holds (hs : list str) (rows : list (list (val V))) (d : columns (val V)) : Prop :=
  forall j h, nth_error hs j = Some h -> exists col, dget (lower h) d = Some col /\ Forall2 (fun r x => nth_error r j = Some x) rows col.

Lemma append_row_ok : forall hs k vals (d : columns (val V)), NoDup (map lower hs) -> (forall h, In h hs -> dget (lower h) d <> None) -> k + length hs <= length vals ->
  exists d', append_row k hs vals d = Some d' /\
    (forall j h, nth_error hs j = Some h -> exists col v, dget (lower h) d = Some col /\ nth_error vals (k + j) = Some v /\ dget (lower h) d' = Some (col ++ [v])) /\
    (forall key, ~ In key (map lower hs) -> dget key d' = dget key d).
Proof.
  induction hs as [|t hs IH]; intros k vals d ND EX LE.
  - exists d. split; [reflexivity|]. split; [|reflexivity]. intros j h H. destruct j; discriminate H.
  - cbn [map] in ND. inversion ND as [|? ? NI ND']; subst. cbn [append_row length] in *. destruct (dget (lower t) d) as [col|] eqn:D; [|destruct (EX t (or_introl eq_refl) D)].
    destruct (nth_error vals k) as [v|] eqn:EV; [|apply nth_error_None in EV; lia].
    destruct (IH (S k) vals (dset (lower t) (col ++ [v]) d) ND') as (d' & E & A & B).
    { intros h H. rewrite dget_dset. destruct (str_eqb (lower t) (lower h)); [discriminate|]. apply EX. right. exact H. }
    { lia. }
    exists d'. split; [exact E|]. split.
    + intros [|j] h H; cbn [nth_error] in H.
      * injection H as <-. exists col, v. split; [exact D|]. split; [rewrite Nat.add_0_r; exact EV|]. rewrite (B _ NI), dget_dset, str_eqb_refl. reflexivity.
      * destruct (A j h H) as (c2 & v2 & D2 & V2 & R2). exists c2, v2. rewrite dget_dset in D2. destruct (str_eqb (lower t) (lower h)) eqn:EE.
        { apply str_eqb_eq in EE. exfalso. apply NI. rewrite EE. apply in_map. eapply nth_error_In. exact H. }
        split; [exact D2|]. split; [rewrite <- V2; f_equal; lia|exact R2].
    + intros key K. rewrite B by (intros G; apply K; right; exact G). rewrite dget_dset. destruct (str_eqb (lower t) key) eqn:EE; [|reflexivity]. apply str_eqb_eq in EE. exfalso. apply K. left. exact EE.
Qed.
Lemma append_holds : forall hs vals rows (d : columns (val V)), NoDup (map lower hs) -> holds hs rows d -> length hs <= length vals ->
  exists d', append_row 0 hs vals d = Some d' /\ holds hs (rows ++ [vals]) d' /\ (forall key, ~ In key (map lower hs) -> dget key d' = dget key d).
Proof.
  intros hs vals rows d ND H LE. destruct (append_row_ok hs 0 vals d ND) as (d' & E & A & B); [|exact LE|].
  - intros h HI. apply In_nth_error in HI. destruct HI as (j & HI). destruct (H j h HI) as (col & D & _). congruence.
  - exists d'. split; [exact E|]. split; [|exact B]. intros j h HI. destruct (A j h HI) as (col & v & D & EV & R). destruct (H j h HI) as (col' & D' & F). assert (col' = col) by congruence. subst col'.
    exists (col ++ [v]). split; [exact R|]. apply Forall2_app; [exact F|]. constructor; [exact EV|constructor].
Qed.
Lemma reset_ok : forall hs (d : columns (val V)) key, dget key (fold_left (fun d t => dset (lower t) [] d) hs d) = if existsb (fun t => str_eqb (lower t) key) hs then Some [] else dget key d.
Proof.
  induction hs as [|t hs IH]; intros d key; [reflexivity|]. cbn [fold_left existsb]. rewrite IH, dget_dset. destruct (str_eqb (lower t) key); cbn [orb]; [|reflexivity]. destruct (existsb _ hs); reflexivity.
Qed.

(** the titles *)
Definition titles_w (stepped : bool) (name : str) (w : nat) : list str := if stepped then s2l "step" :: map (numbered name) (seq 0 (w - 1)) else map (numbered name) (seq 0 w).
Lemma num_titles : forall name n, map (numbered name) (seq 0 (S n)) = name :: map (fun i => name ++ s2l "_" ++ dec i) (seq 1 n).
Proof. intros name n. cbn [seq map numbered]. f_equal. apply map_ext_in. intros i I. apply in_seq in I. destruct i; [lia|reflexivity]. Qed.
Lemma qheaders_ok : forall (stepped : bool) name w, (if stepped then 2 else 1) <= w -> qheaders stepped name w = Some (titles_w stepped name w).
Proof.
  intros stepped name w H. unfold qheaders, titles_w. destruct stepped; (destruct w as [|w]; [lia|]).
  - cbn [Nat.sub]. rewrite Nat.sub_0_r. destruct w as [|w]; [lia|]. rewrite num_titles. cbn [seq map upd option_map]. reflexivity.
  - rewrite num_titles. cbn [seq map upd option_map]. reflexivity.
Qed.
Lemma numbered_inj : forall name i j, lower (numbered name i) = lower (numbered name j) -> i = j.
Proof.
  assert (LA : forall a b, lower (a ++ b) = lower a ++ lower b) by (intros; unfold lower; apply map_app).
  assert (LD : forall n, lower (dec n) = dec n).
  { intros n. unfold lower. rewrite <- (map_id (dec n)) at 2. apply map_ext_in. intros c C. pose proof (dec_digits n) as D. rewrite forallb_forall in D. specialize (D c C). destruct c as [[] [] [] [] [] [] [] []]; try reflexivity; discriminate D. }
  intros name i j. destruct i as [|i], j as [|j]; cbn [numbered]; rewrite ?LA; intros H; [reflexivity| | |].
  - rewrite <- app_nil_r in H at 1. apply app_inv_head in H. discriminate H.
  - symmetry in H. rewrite <- app_nil_r in H at 1. apply app_inv_head in H. discriminate H.
  - apply app_inv_head in H. rewrite !LD in H. change (lower (s2l "_")) with (s2l "_") in H. apply app_inv_head in H. apply dec_inj in H. exact H.
Qed.
Lemma titles_nodup : forall (stepped : bool) name w, (stepped = true -> forall j, j < w - 1 -> lower (numbered name j) <> s2l "step") -> NoDup (map lower (titles_w stepped name w)).
Proof.
  intros stepped name w NS. assert (N : forall a n, NoDup (map lower (map (numbered name) (seq a n)))).
  { intros a n. revert a. induction n as [|n IH]; intros a; [constructor|]. cbn [seq map]. constructor; [|apply IH]. intros H. rewrite map_map in H. apply in_map_iff in H. destruct H as (i & E & I). apply numbered_inj in E. apply in_seq in I. lia. }
  unfold titles_w. destruct stepped; [|apply N]. cbn [map]. constructor; [|apply N]. intros H. rewrite map_map in H. apply in_map_iff in H. destruct H as (i & E & I). apply in_seq in I. apply (NS eq_refl i); [lia|exact E].
Qed.

Lemma rows_ok : forall stepped name hs rows prev d n rest, NoDup (map lower hs) -> holds hs prev d ->
  Forall (fun r => line_ok r /\ r <> [] /\ ~ (exists t, row_text r = s2l ".meas " ++ t) /\ length hs <= length (line_values conv r)) rows ->
  exists d', qmeas_lines conv stepped (map row_text rows ++ rest) (QMeas (Some name) (Some hs) d n) = qmeas_lines conv stepped rest (QMeas (Some name) (Some hs) d' (n + length rows)) /\
    holds hs (prev ++ map (line_values conv) rows) d' /\ (forall key, ~ In key (map lower hs) -> dget key d' = dget key d).
Proof.
  intros stepped name hs rows. induction rows as [|r rows IH]; intros prev d n rest ND H F.
  - exists d. split; [cbn; rewrite Nat.add_0_r; reflexivity|]. split; [cbn; rewrite app_nil_r; exact H|reflexivity].
  - inversion F as [|? ? (A & B & C & L) F']; subst. destruct (append_holds hs (line_values conv r) prev d ND H L) as (d1 & E1 & H1 & K1).
    destruct (IH (prev ++ [line_values conv r]) d1 (S n) rest ND H1 F') as (d2 & E2 & H2 & K2). exists d2. split.
    + cbn [map app qmeas_lines]. unfold qmeas_line at 1. rewrite meas_no_match by exact C. cbn [q_name q_headers q_data q_count]. rewrite row_values by assumption. rewrite E1. cbn [option_map]. rewrite E2. cbn [length]. f_equal. f_equal. lia.
    + split; [cbn [map]; rewrite <- app_assoc in H2; exact H2|]. intros key K. rewrite K2, K1 by exact K. reflexivity.
Qed.

Lemma block_ok : forall (stepped : bool) w m st rest, qmeasure_ok w m -> (if stepped then 2 else 1) <= w -> (stepped = true -> forall j, j < w - 1 -> lower (numbered (qm_name m) j) <> s2l "step") ->
  exists st', qmeas_lines conv stepped (qmeasure_lines m ++ rest) st = qmeas_lines conv stepped rest st' /\ q_count st' = q_count st + length (qm_rows m) /\
    (qm_rows m <> [] -> holds (titles_w stepped (qm_name m) w) (map (line_values conv) (qm_rows m)) (q_data st')) /\
    (forall key, qm_rows m = [] \/ ~ In key (map lower (titles_w stepped (qm_name m) w)) -> dget key (q_data st') = dget key (q_data st)).
Proof.
  intros stepped w m st rest (HO & F) HW NS. unfold qmeasure_lines. cbn [app qmeas_lines]. rewrite head_line by exact HO.
  replace (match qm_head m with Typed _ n _ | Untyped n _ _ => n end) with (qm_name m) by (unfold qm_name; destruct (qm_head m); reflexivity).
  destruct (qm_rows m) as [|r rows] eqn:ER.
  - eexists. split; [reflexivity|]. cbn [q_count q_data length]. split; [lia|]. split; [congruence|reflexivity].
  - inversion F as [|? ? (A & B & C & L) F']; subst. cbn [map app qmeas_lines]. unfold qmeas_line at 1. rewrite meas_no_match by exact C. cbn [q_name q_headers q_data q_count]. rewrite row_values by assumption.
    rewrite len_values. rewrite qheaders_ok by exact HW. cbn [option_map]. set (w := length (line_values (fun s : str => s) r)) in *. set (hs := titles_w stepped (qm_name m) w) in *.
    assert (ND : NoDup (map lower hs)) by (apply titles_nodup; exact NS).
    assert (LH : length hs = w) by (unfold hs, titles_w; destruct stepped; cbn [length]; rewrite map_length, seq_length; lia).
    set (d0 := fold_left (fun d t => dset (lower t) [] d) hs (q_data st)).
    assert (H0 : holds hs [] d0).
    { intros j h J. exists []. split; [|constructor]. unfold d0. rewrite reset_ok. assert (E : existsb (fun t => str_eqb (lower t) (lower h)) hs = true) by (apply existsb_exists; exists h; split; [eapply nth_error_In; exact J|apply str_eqb_refl]). rewrite E. reflexivity. }
    destruct (append_holds hs (line_values conv r) [] d0 ND H0) as (d1 & E1 & H1 & K1); [rewrite len_values, LH; unfold w; apply le_n|].
    rewrite E1. cbn [option_map].
    destruct (rows_ok stepped (qm_name m) hs rows ([] ++ [line_values conv r]) d1 (S (q_count st)) rest ND H1) as (d2 & E2 & H2 & K2).
    { eapply Forall_impl; [|exact F']. intros q (Q1 & Q2 & Q3 & Q4). split; [exact Q1|]. split; [exact Q2|]. split; [exact Q3|]. rewrite len_values, LH, Q4. apply le_n. }
    rewrite E2. eexists. split; [reflexivity|]. cbn [q_count q_data length]. split; [lia|]. split; [intros _; exact H2|].
    intros key [K|K]; [discriminate K|]. rewrite K2, K1 by exact K. unfold d0. rewrite reset_ok. destruct (existsb _ hs) eqn:EX; [|reflexivity]. apply existsb_exists in EX. destruct EX as (t & T & ET). apply str_eqb_eq in ET. subst key. exfalso. apply K. apply in_map. exact T.
Qed.

Lemma column_of_rows : forall m x col, Forall2 (fun (r : list (val V)) y => nth_error r x = Some y) (map (line_values conv) (qm_rows m)) col -> column_is conv m x col.
Proof.
  intros m x. unfold column_is. generalize (qm_rows m) as rows. induction rows as [|r rows IH]; intros col F; inversion F; subst; constructor; [assumption|apply IH; assumption].
Qed.
Lemma blocks_ok : forall (stepped : bool) wms st, Forall (fun wm => qmeasure_ok (fst wm) (snd wm) /\ (if stepped then 2 else 1) <= fst wm) wms ->
  NoDup (flat_map (qtitles stepped) wms) -> (stepped = true -> ~ In (s2l "step") (flat_map (qtitles stepped) wms)) ->
  exists st', qmeas_lines conv stepped (flat_map (fun wm => qmeasure_lines (snd wm)) wms) st = Some st' /\
    q_count st' = q_count st + list_sum (map (fun wm => length (qm_rows (snd wm))) wms) /\
    Forall (fun wm => forall j, j < fst wm - (if stepped then 1 else 0) -> qm_rows (snd wm) <> [] -> exists col, dget (lower (numbered (qm_name (snd wm)) j)) (q_data st') = Some col /\ column_is conv (snd wm) (if stepped then S j else j) col) wms /\
    (stepped = true -> forall a wm b, wms = a ++ wm :: b -> qm_rows (snd wm) <> [] -> Forall (fun wm => qm_rows (snd wm) = []) b -> exists col, dget (s2l "step") (q_data st') = Some col /\ column_is conv (snd wm) 0 col) /\
    (forall key, ~ In key (flat_map (qtitles stepped) wms) -> (stepped = true -> key <> s2l "step" \/ Forall (fun wm => qm_rows (snd wm) = []) wms) -> dget key (q_data st') = dget key (q_data st)).
Proof.
  intros stepped wms. induction wms as [|[w m] wms IH]; intros st F ND NS.
  - exists st. split; [reflexivity|]. cbn. split; [lia|]. split; [constructor|]. split; [|reflexivity]. intros _ a wm b E. destruct a; discriminate E.
  - inversion F as [|? ? (OK & HW) F']; subst. cbn [fst snd] in *. cbn [flat_map] in *. apply NoDup_app_inv in ND. destruct ND as (N1 & N2 & N3).
    assert (TI : forall key, In key (map lower (titles_w stepped (qm_name m) w)) -> qm_rows m <> [] -> (stepped = true /\ key = s2l "step") \/ In key (qtitles stepped (w, m))).
    { intros key K NR. unfold qtitles. cbn [fst snd]. destruct (qm_rows m); [congruence|]. unfold titles_w in K. destruct stepped.
      - cbn [map] in K. destruct K as [<-|K]; [left; auto|right]. rewrite map_map in K. exact K.
      - right. rewrite map_map in K. rewrite Nat.sub_0_r. exact K. }
    destruct (qm_rows m) as [|r0 rs] eqn:ER.
    + (* no rows: only the name is read *)
      unfold qmeasure_lines at 1. cbn [snd]. rewrite ER. cbn [map app qmeas_lines]. rewrite head_line by (apply OK).
      destruct (IH (QMeas (Some (match qm_head m with Typed _ n _ | Untyped n _ _ => n end)) None (q_data st) (q_count st)) F' N2) as (st' & E & C & H1 & H2 & H3); [intros S G; apply (NS S); apply in_or_app; right; exact G|].
      exists st'. split; [exact E|]. split; [cbn [q_count] in C; rewrite C; unfold list_sum; cbn [map fold_right snd]; rewrite ER; cbn [length]; lia|].
      split; [constructor; [cbn [snd]; intros j _ G; congruence|exact H1]|]. split.
      * intros S [|x a] wm b EQ NR FB; injection EQ as <- EQ; [cbn [snd] in NR; congruence|]. apply (H2 S a wm b EQ NR FB).
      * intros key K1 K2. rewrite H3; [reflexivity|intros G; apply K1; apply in_or_app; right; exact G|]. intros S. destruct (K2 S) as [G|G]; [left; exact G|right]. inversion G; assumption.
    + assert (NR : qm_rows m <> []) by congruence. rewrite <- ER in *. 
      destruct (block_ok stepped w m st (flat_map (fun wm => qmeasure_lines (snd wm)) wms) OK HW) as (st1 & E1 & C1 & H1 & K1).
      { intros S j J G. apply (NS S). apply in_or_app. left. unfold qtitles. cbn [fst snd]. destruct (qm_rows m); [congruence|]. rewrite S. rewrite <- G. apply in_map_iff. exists j. split; [reflexivity|apply in_seq; lia]. }
      specialize (H1 NR).
      destruct (IH st1 F' N2) as (st' & E & C & A1 & A2 & A3); [intros S G; apply (NS S); apply in_or_app; right; exact G|].
      exists st'. split; [cbn [snd]; rewrite E1; exact E|]. split; [rewrite C, C1; unfold list_sum; cbn [map fold_right snd]; lia|].
      assert (CI : forall j x col, Forall2 (fun (r : list (val V)) y => nth_error r x = Some y) (map (line_values conv) (qm_rows m)) col -> j = x -> column_is conv m j col).
      { intros j x col FF ->. apply column_of_rows. exact FF. }
      split; [constructor; [|exact A1]|split].
      * cbn [fst snd]. intros j J _. 
        assert (NT : nth_error (titles_w stepped (qm_name m) w) (if stepped then S j else j) = Some (numbered (qm_name m) j)).
        { unfold titles_w. destruct stepped; cbn [nth_error]; rewrite nth_error_map; (replace (nth_error (seq 0 _) j) with (Some j); [reflexivity|]); symmetry; rewrite (nth_error_nth' _ 0) by (rewrite seq_length; lia); rewrite seq_nth by lia; reflexivity. }
        destruct (H1 _ _ NT) as (col & D & FF). exists col. split; [|eapply CI; [exact FF|reflexivity]]. rewrite A3; [exact D| |].
        { apply N3. unfold qtitles. cbn [fst snd]. destruct (qm_rows m); [congruence|]. apply in_map_iff. exists j. split; [reflexivity|apply in_seq; lia]. }
        { intros S. left. intros G. apply (NS S). apply in_or_app. left. unfold qtitles. cbn [fst snd]. destruct (qm_rows m); [congruence|]. rewrite <- G. apply in_map_iff. exists j. split; [reflexivity|apply in_seq; lia]. }
      * intros S [|x a] wm b EQ NRw FB; injection EQ as <- EQ; [|apply (A2 S a wm b EQ NRw FB)]. subst b. cbn [snd] in *.
        destruct (H1 0 (s2l "step")) as (col & D & FF); [unfold titles_w; rewrite S; reflexivity|]. exists col. split; [|eapply CI; [exact FF|reflexivity]]. change (lower (s2l "step")) with (s2l "step") in D. rewrite A3; [exact D| |].
        { intros G. apply (NS S). apply in_or_app. right. exact G. }
        { intros _. right. exact FB. }
      * intros key KN KS. rewrite A3, K1; [reflexivity| |intros G; apply KN; apply in_or_app; right; exact G|].
        { right. intros G. destruct (TI key G NR) as [(S & ->)|G']; [|apply KN; apply in_or_app; left; exact G']. destruct (KS S) as [G1|G1]; [congruence|]. inversion G1 as [|? ? X Y]; subst. cbn [snd] in X. congruence. }
        { intros S. destruct (KS S) as [G|G]; [left; exact G|right]. inversion G; assumption. }
Qed.
End Meas.
