From Coq Require Import String Ascii List Bool Arith Lia.
From Verif Require Import PyStr Regex RegexProofs RegexInv RegexMore StepsModel StepsSpec StepsProofs LogModel LogSpec LogProofs CompFam CompModel CompProofs QlogModel QlogProofs LtlogModel LtlogSpec LtlogProofs.
Import ListNotations.
Local Open Scope string_scope. Local Open Scope nat_scope. Local Open Scope list_scope.

(** ** Lines that are not measurements *)
Lemma no_mline : forall u c r, forallb is_word u = true -> is_word c = false -> c <> ":"%char -> c <> "="%char -> re_match mline_re (u ++ c :: r) = None.
Proof.
  intros u c r HU HC N1 N2. destruct (re_match mline_re (u ++ c :: r)) as [[e q]|] eqn:E; [exfalso|reflexivity]. apply re_match_reach in E. destruct E as (s' & E). unfold mline_re in E.
  destruct (reach_seqs_cons _ _ _ _ E) as ([[p1 s1] c1] & A & B). apply (proj1 (reach_grp _ _ _ _ _ _)) in A. destruct A as (p2 & s2 & c2 & A & EA). injection EA as -> -> ->.
  unfold word1 in A. apply (proj1 (reach_plus_run _ _ _ _ _)) in A. destruct A as (w & t & EW & NW & HW & ET). injection ET as -> -> ->.
  assert (S : exists d t', t = d :: t' /\ is_word d = false /\ (d = ":"%char \/ d = "="%char)).
  { destruct (reach_seqs_cons _ _ _ _ B) as ([[p3 s3] c3] & A & B2). apply (proj1 (reach_opt _ _ _)) in A. destruct A as [A|A].
    - destruct (reach_seqs_cons _ _ _ _ A) as (y & A1 & _). unfold lit in A1. apply (proj1 (reach_chr _ _ _ _ _)) in A1. destruct A1 as (d & t' & -> & D & _). apply aeqb_eq in D. subst d. exists ":"%char, t'. auto.
    - injection A as -> -> ->. destruct (reach_seqs_cons _ _ _ _ B2) as (y & A1 & _). unfold lit in A1. apply (proj1 (reach_chr _ _ _ _ _)) in A1. destruct A1 as (d & t' & -> & D & _). apply aeqb_eq in D. subst d. exists "="%char, t'. auto. }
  destruct S as (d & t' & -> & D & DD). destruct (cut_class is_word u (c :: r) w (d :: t') EW HU HW HC D) as (_ & K). injection K as K _. subst d. destruct DD; congruence.
Qed.
Lemma no_mline_noeq : forall l, ~ In "="%char l -> re_match mline_re l = None.
Proof.
  intros l H. destruct (re_match mline_re l) as [[e q]|] eqn:E; [exfalso|reflexivity]. apply re_match_reach in E. destruct E as (s' & E). unfold mline_re in E.
  destruct (reach_seqs_cons _ _ _ _ E) as ([[p1 s1] c1] & A & B). destruct (reach_text _ _ _ A) as (u1 & T1 & _). unfold st_text in T1. cbn [fst snd] in T1.
  destruct (reach_seqs_cons _ _ _ _ B) as ([[p2 s2] c2] & A2 & B2). destruct (reach_text _ _ _ A2) as (u2 & T2 & _). unfold st_text in T2. cbn [fst snd] in T2.
  destruct (reach_seqs_cons _ _ _ _ B2) as (y & A3 & _). unfold lit in A3. apply (proj1 (reach_chr _ _ _ _ _)) in A3. destruct A3 as (d & t' & -> & D & _). apply aeqb_eq in D. subst d. apply H. rewrite T1, T2. apply in_or_app. right. apply in_or_app. right. left. reflexivity.
Qed.

Section Reader.
Context {V F N : Type} (conv : str -> V) (tofloat : str -> option F) (toint : str -> option N) (fl : str -> F) (it : str -> N).
Notation lstate := (@lstate V F N).
Notation measure_line := (@measure_line V F N conv).
Notation first_loop := (@first_loop V F N conv tofloat toint).
Notation main_line := (@main_line V F N conv tofloat).

Lemma measure_none : forall l (st : lstate), re_match mline_re l = None -> measure_line l st = st.
Proof. intros l st H. unfold measure_line. destruct (l_count st); [|reflexivity]. rewrite H. reflexivity. Qed.

Definition put (d : columns V) (kv : str * str) : columns V := dset (lower (fst kv)) [conv (snd kv)] d.
Lemma measure_effect : forall x (st : lstate), l_count st = 0 -> measure_ok x ->
  measure_line (measure_text x) st = LState (l_mode st) (l_signal st) (l_periods st) (l_dc st) (l_steps st) (l_count st) (fold_left put (measure_cells x) (l_data st)) (S (l_measures st)) (l_fourier st).
Proof.
  intros x st C H. unfold measure_line. rewrite C. destruct (measure_match x H) as (e & E). cbv zeta in E. rewrite E.
  set (q := length (e_name x) + length (expr_text (e_expr x))) in *.
  set (cs := tail_caps (e_tail x) (q + 1 + length (e_value x)) ++ [(2, (q + 1, q + 1 + length (e_value x))); (1, (0, length (e_name x)))]).
  assert (T : measure_text x = e_name x ++ expr_text (e_expr x) ++ s2l "=" ++ e_value x ++ tail_text (e_tail x) ++ [NLC]) by (unfold measure_text; destruct (e_expr x) as [[? ?]|]; reflexivity).
  assert (G1 : group 1 (measure_text x) cs = Some (e_name x)).
  { unfold group, cs. assert (K : cap 1 (tail_caps (e_tail x) (q + 1 + length (e_value x)) ++ [(2, (q + 1, q + 1 + length (e_value x))); (1, (0, length (e_name x)))]) = Some (0, length (e_name x))) by (destruct (e_tail x); reflexivity). rewrite K. cbn [option_map]. f_equal. eapply (slice_at _ [] (e_name x)); [rewrite T; reflexivity|reflexivity|reflexivity]. }
  assert (G2 : group 2 (measure_text x) cs = Some (e_value x)).
  { unfold group, cs. assert (K : cap 2 (tail_caps (e_tail x) (q + 1 + length (e_value x)) ++ [(2, (q + 1, q + 1 + length (e_value x))); (1, (0, length (e_name x)))]) = Some (q + 1, q + 1 + length (e_value x))) by (destruct (e_tail x); reflexivity). rewrite K. cbn [option_map]. f_equal.
    eapply (slice_at _ (e_name x ++ expr_text (e_expr x) ++ s2l "=") (e_value x)); [rewrite T, <- !app_assoc; reflexivity| |reflexivity]. rewrite !app_length. change (length (s2l "=")) with 1. unfold q. lia. }
  rewrite G1, G2. f_equal. change (fun d kv => dset (lower (fst kv)) [conv (snd kv)] d) with put. f_equal.
  assert (P1 : length (s2l " ") = 1) by reflexivity.
  unfold measure_cells, group, cs. destruct (e_tail x) as [|f a w b|w a] eqn:ET; cbn [tail_caps app cap Nat.eqb option_map mline_items].
  - reflexivity.
  - destruct H as (_ & _ & _ & _ & HT). rewrite ET in HT. destruct HT as (_ & (NA & _) & _ & (NB & _)).
    assert (SA : forall p1, p1 = q + 1 + length (e_value x) + (2 + length f) -> Regex.slice (measure_text x) (p1, p1 + length a) = a).
    { intros p1 ->. eapply (slice_at _ (e_name x ++ expr_text (e_expr x) ++ s2l "=" ++ e_value x ++ s2l " " ++ f ++ s2l " ") a); [rewrite T; cbn [tail_text]; rewrite <- !app_assoc; reflexivity| |reflexivity]. rewrite !app_length, P1. change (length (s2l "=")) with 1. unfold q. lia. }
    assert (SB : forall p1, p1 = q + 1 + length (e_value x) + (2 + length f) + length a + (2 + length w) -> Regex.slice (measure_text x) (p1, p1 + length b) = b).
    { intros p1 ->. eapply (slice_at _ (e_name x ++ expr_text (e_expr x) ++ s2l "=" ++ e_value x ++ s2l " " ++ f ++ s2l " " ++ a ++ s2l " " ++ w ++ s2l " ") b); [rewrite T; cbn [tail_text]; rewrite <- !app_assoc; reflexivity| |reflexivity]. rewrite !app_length, P1. change (length (s2l "=")) with 1. unfold q. lia. }
    rewrite SA by reflexivity. rewrite SB by reflexivity. destruct a; [congruence|]. reflexivity.
  - destruct H as (_ & _ & _ & _ & HT). rewrite ET in HT. destruct HT as (_ & (NA & _)).
    assert (SA : forall p1, p1 = q + 1 + length (e_value x) + (2 + length w) -> Regex.slice (measure_text x) (p1, p1 + length a) = a).
    { intros p1 ->. eapply (slice_at _ (e_name x ++ expr_text (e_expr x) ++ s2l "=" ++ e_value x ++ s2l " " ++ w ++ s2l " ") a); [rewrite T; cbn [tail_text]; rewrite <- !app_assoc; reflexivity| |reflexivity]. rewrite !app_length, P1. change (length (s2l "=")) with 1. unfold q. lia. }
    rewrite SA by reflexivity. destruct a; [congruence|]. reflexivity.
Qed.

Lemma starts : forall k t, startswith k (k ++ t) = true.
Proof. induction k as [|a k IH]; intros t; [reflexivity|]. cbn [app startswith]. rewrite aeqb_refl. exact (IH t). Qed.
Lemma starts_inv : forall k l, startswith k l = true -> exists t, l = k ++ t.
Proof. induction k as [|a k IH]; intros l H; [exists l; reflexivity|]. destruct l as [|b l]; [discriminate H|]. cbn [startswith] in H. apply andb_true_iff in H. destruct H as (A & B). apply aeqb_eq in A. subst b. destruct (IH l B) as (t & ->). exists t. reflexivity. Qed.
(** the name is not one of the keywords *)
Lemma not_key : forall u c v name sep rest, forallb is_word u = true -> is_word c = false -> forallb is_word name = true -> is_word sep = false ->
  (name <> u \/ sep <> c) -> startswith (u ++ c :: v) (name ++ sep :: rest) = false.
Proof.
  clear conv tofloat toint fl it. intros u c v name sep rest HU HC HN HS NE. destruct (startswith (u ++ c :: v) (name ++ sep :: rest)) eqn:E; [exfalso|reflexivity]. apply starts_inv in E. destruct E as (t & E). rewrite <- app_assoc in E. cbn [app] in E.
  destruct (cut_class is_word name (sep :: rest) u (c :: v ++ t) E HN HU HS HC) as (-> & K). injection K as -> _. tauto.
Qed.
Lemma not_harm : forall k name sep rest, forallb is_word k = true -> forallb is_word name = true -> is_word sep = false -> startswith k name = false -> startswith k (name ++ sep :: rest) = false.
Proof.
  clear conv tofloat toint fl it. induction k as [|a k IH]; intros name sep rest HK HN HS H; [discriminate H|]. cbn [forallb] in HK. apply andb_true_iff in HK. destruct HK as (A & HK). destruct name as [|b name]; cbn [app startswith].
  - destruct (aeqb a sep) eqn:E; [apply aeqb_eq in E; subst sep; congruence|reflexivity].
  - cbn [startswith] in H. cbn [forallb] in HN. apply andb_true_iff in HN. destruct HN as (B & HN). destruct (aeqb a b); [|reflexivity]. cbn [andb] in *. apply IH; assumption.
Qed.
Lemma measure_keys : forall x, measure_ok x -> Forall (fun k => startswith k (measure_text x) = false) keywords.
Proof.
  clear conv tofloat toint fl it. intros x ((NN & HN) & HH & HE & _ & _).
  assert (T : exists sep rest, measure_text x = e_name x ++ sep :: rest /\ is_word sep = false /\ ((sep = ":"%char /\ e_name x <> s2l "Measurement") \/ sep = "="%char)).
  { unfold measure_text. destruct (e_expr x) as [[g e]|]; [exists ":"%char|exists "="%char]; eexists; (split; [cbn [app]; reflexivity|]); (split; [reflexivity|]); [left; split; [reflexivity|]|right; reflexivity]. destruct HE as (HM & _). exact HM. }
  destruct T as (sep & rest & -> & HS & D).
  assert (ND : sep <> "-"%char /\ sep <> " "%char) by (destruct D as [(-> & _)| ->]; split; discriminate).
  unfold keywords. repeat apply Forall_cons; try apply Forall_nil.
  - apply (not_key (s2l "N") "-" (s2l "Period")); try reflexivity; try assumption. tauto.
  - apply (not_key (s2l "Fourier") " " (s2l "components of")); try reflexivity; try assumption. tauto.
  - apply (not_key (s2l "DC") " " (s2l "component:")); try reflexivity; try assumption. tauto.
  - apply not_harm; try assumption; reflexivity.
  - apply (not_key [] "." (s2l "step")); try reflexivity; try assumption. left. exact NN.
  - apply (not_key (s2l "Measurement") ":" []); try reflexivity; try assumption. destruct D as [(-> & M)| ->]; [left; exact M|right; discriminate].
Qed.
(** a line without a keyword is only looked at for a measurement *)
Lemma text_line : forall l (st : lstate), Forall (fun k => startswith k l = false) keywords -> l_mode st = Main -> main_line l st = Some (measure_line l st) /\ startswith (s2l "Measurement:") l = false.
Proof.
  intros l st H M. unfold keywords in H. cbn [map] in H. repeat match goal with H : Forall _ (_ :: _) |- _ => inversion H; clear H; subst end.
  split; [|assumption]. unfold main_line. destruct (str_eqb (strip l) []); [reflexivity|]. repeat match goal with H : startswith _ _ = false |- _ => rewrite H; clear H end. reflexivity.
Qed.
Lemma loop_main : forall l ls (st st' : lstate), l_mode st = Main -> startswith (s2l "Measurement:") l = false -> main_line l st = Some st' -> first_loop (l :: ls) st = first_loop ls st'.
Proof. intros l ls st st' M K E. cbn [LtlogModel.first_loop]. rewrite M, K, E. reflexivity. Qed.
Lemma nonblank : forall c s, is_space c = false -> str_eqb (strip (c :: s)) [] = false.
Proof.
  intros c s H. apply str_eqb_neq. intros E. unfold strip, strip_if in E. cbn [lstrip_if] in E. rewrite H in E. unfold rstrip_if in E. cbn [rev] in E.
  assert (K : forall t, lstrip_if is_space (t ++ [c]) <> []) by (induction t as [|a t IH]; cbn [app lstrip_if]; [rewrite H; discriminate|]; destruct (is_space a); [exact IH|discriminate]).
  apply (K (rev s)). rewrite <- (rev_involutive (lstrip_if _ _)), E. reflexivity.
Qed.

(** ** Analyses *)
Lemma word_strip : forall s, word s -> strip s = s.
Proof.
  intros s (NS & H). unfold strip, strip_if, rstrip_if. rewrite (lstrip_keep is_space s); [|intros c C; rewrite Forall_forall in H; exact (H c C)]. rewrite lstrip_keep; [apply rev_involutive|]. intros c C. apply in_rev in C. rewrite Forall_forall in H. exact (H c C).
Qed.
Lemma word_no : forall c s, is_space c = true -> word s -> ~ In c s.
Proof. intros c s C (_ & H) I. rewrite Forall_forall in H. specialize (H c I). congruence. Qed.
Lemma strip_line : forall k s, ~ In NLC (s2l k) -> ~ In "013"%char (s2l k) -> ~ In NLC s -> ~ In "013"%char s -> strip_if is_nl (s2l k ++ s ++ [NLC]) = s2l k ++ s.
Proof. intros k s A B C D. rewrite app_assoc. apply strip_nl; rewrite in_app_iff; tauto. Qed.
Ltac notin := vm_compute; intuition discriminate.

Lemma last_split_one : forall c a b, ~ In c a -> ~ In c b -> last_split c (a ++ c :: b) = b.
Proof. intros c a b A B. unfold last_split. rewrite split_on_cons by exact A. rewrite split_on_plain by exact B. reflexivity. Qed.
Lemma line_periods : forall t (st : lstate), l_mode st = Main -> (t = s2l "all" \/ number tofloat fl t) -> ~ In "="%char t ->
  main_line (s2l "N-Period=" ++ t ++ [NLC]) st = Some (LState (l_mode st) (l_signal st) (if str_eqb t (s2l "all") then AllPeriods else Periods (fl t)) (l_dc st) (l_steps st) (l_count st) (l_data st) (l_measures st) (l_fourier st)).
Proof.
  intros t st M H NE. assert (W : word t) by (destruct H as [->|(W & _)]; [split; [discriminate|repeat constructor]|exact W]).
  unfold main_line. change (s2l "N-Period=" ++ t ++ [NLC]) with ("N"%char :: s2l "-Period=" ++ t ++ [NLC]) at 1. rewrite nonblank by reflexivity.
  change (startswith (s2l "N-Period") (s2l "N-Period=" ++ t ++ [NLC])) with true. cbv iota. rewrite strip_line; [|notin|notin|apply word_no; [reflexivity|exact W]|apply word_no; [reflexivity|exact W]].
  change (s2l "N-Period=" ++ t) with (s2l "N-Period" ++ "="%char :: t). rewrite last_split_one; [|notin|exact NE]. rewrite word_strip by exact W.
  destruct (str_eqb t (s2l "all")) eqn:E.
  - f_equal. apply measure_none. apply (no_mline (s2l "N") "-"); try reflexivity; discriminate.
  - destruct H as [->|(_ & H)]; [discriminate E|]. rewrite H. cbn [option_map]. f_equal. apply measure_none. apply (no_mline (s2l "N") "-"); try reflexivity; discriminate.
Qed.
Lemma after_no : forall s cur, ~ In " "%char s -> after_last (s2l " of ") s cur 0 = cur ++ s.
Proof.
  induction s as [|a s IH]; intros cur H; cbn [after_last]; [rewrite app_nil_r; reflexivity|]. assert (E : startswith (s2l " of ") (a :: s) = false).
  { change (s2l " of ") with (" "%char :: s2l "of "). cbn [startswith]. destruct (aeqb " " a) eqn:E; [|reflexivity]. apply aeqb_eq in E. subst a. destruct H. left. reflexivity. }
  rewrite E, IH by (intros I; apply H; right; exact I). rewrite <- app_assoc. reflexivity.
Qed.
Lemma last_of : forall s, ~ In " "%char s -> last_piece (s2l " of ") (s2l "Fourier components of " ++ s) = s.
Proof.
  intros s H. unfold last_piece. change (s2l "Fourier components of ") with (s2l "Fourier components" ++ s2l " of ").
  change (after_last (s2l " of ") ((s2l "Fourier components" ++ s2l " of ") ++ s) [] 0) with (after_last (s2l " of ") s [] 0). apply after_no. exact H.
Qed.
Lemma line_signal : forall t (st : lstate), l_mode st = Main -> word t ->
  main_line (s2l "Fourier components of " ++ t ++ [NLC]) st = Some (LState (l_mode st) (Some t) (l_periods st) (l_dc st) (l_steps st) (l_count st) (l_data st) (l_measures st) (l_fourier st)).
Proof.
  intros t st M W. unfold main_line. change (s2l "Fourier components of " ++ t ++ [NLC]) with ("F"%char :: s2l "ourier components of " ++ t ++ [NLC]) at 1. rewrite nonblank by reflexivity.
  change (startswith (s2l "N-Period") (s2l "Fourier components of " ++ t ++ [NLC])) with false. change (startswith (s2l "Fourier components of") (s2l "Fourier components of " ++ t ++ [NLC])) with true. cbv iota zeta.
  rewrite strip_line; [|notin|notin|apply word_no; [reflexivity|exact W]|apply word_no; [reflexivity|exact W]]. f_equal. rewrite measure_none by (apply (no_mline (s2l "Fourier") " "); try reflexivity; discriminate).
  rewrite last_of by (apply word_no; [reflexivity|exact W]). rewrite word_strip by exact W. reflexivity.
Qed.
Lemma line_dc : forall t (st : lstate), l_mode st = Main -> number tofloat fl t -> ~ In ":"%char t ->
  main_line (s2l "DC component:" ++ t ++ [NLC]) st = Some (LState (l_mode st) (l_signal st) (l_periods st) (Some (fl t)) (l_steps st) (l_count st) (l_data st) (l_measures st) (l_fourier st)).
Proof.
  intros t st M (W & H) NE. unfold main_line. change (s2l "DC component:" ++ t ++ [NLC]) with ("D"%char :: s2l "C component:" ++ t ++ [NLC]) at 1. rewrite nonblank by reflexivity.
  change (startswith (s2l "N-Period") (s2l "DC component:" ++ t ++ [NLC])) with false. change (startswith (s2l "Fourier components of") (s2l "DC component:" ++ t ++ [NLC])) with false. change (startswith (s2l "DC component:") (s2l "DC component:" ++ t ++ [NLC])) with true. cbv iota zeta.
  rewrite strip_line; [|notin|notin|apply word_no; [reflexivity|exact W]|apply word_no; [reflexivity|exact W]].
  change (s2l "DC component:" ++ t) with (s2l "DC component" ++ ":"%char :: t). rewrite last_split_one; [|notin|exact NE]. rewrite word_strip by exact W. rewrite H. f_equal. apply measure_none. apply (no_mline (s2l "DC") " "); try reflexivity; discriminate.
Qed.
Lemma line_empty : forall l (st : lstate), Forall (fun c => is_space c = true) l -> l_mode st = Main -> main_line l st = Some st /\ startswith (s2l "Measurement:") l = false.
Proof.
  intros l st H M. assert (NW : forall k c, is_space c = false -> startswith (c :: k) l = false).
  { intros k c C. destruct l as [|a l]; [reflexivity|]. cbn [startswith]. destruct (aeqb c a) eqn:E; [|reflexivity]. apply aeqb_eq in E. subst a. inversion H; congruence. }
  split; [|apply NW; reflexivity]. unfold main_line. 
  assert (E : strip l = []). { unfold strip, strip_if, rstrip_if. assert (Z : lstrip_if is_space l = []) by (clear - H; induction H as [|c l C H IH]; [reflexivity|]; cbn [lstrip_if]; rewrite C; exact IH). rewrite Z. reflexivity. }
  rewrite E. change (str_eqb [] []) with true. cbv iota. f_equal. apply measure_none. apply no_mline_noeq. intros I. rewrite Forall_forall in H. specialize (H _ I). discriminate H.
Qed.

(** ** The table of harmonics *)
Lemma rstrip_degree : forall s, (forall u, s <> u ++ ["176"%char]) -> rstrip_if (aeqb degree) (s ++ ["176"%char]) = s.
Proof.
  intros s H. unfold rstrip_if. rewrite rev_app_distr. cbn [rev app lstrip_if]. change (aeqb degree "176") with true. cbv iota. destruct (rev s) as [|c t] eqn:E.
  - apply (f_equal (@rev ascii)) in E. rewrite rev_involutive in E. subst s. reflexivity.
  - assert (K : aeqb degree c = false). { apply aeqb_neq. intros <-. apply (H (rev t)). rewrite <- (rev_involutive s), E. reflexivity. }
    cbn [lstrip_if]. rewrite K, <- E. apply rev_involutive.
Qed.
Lemma blank_fb : forall g, blank g -> forallb is_space g = true.
Proof. intros g (H & _). apply forallb_forall. rewrite Forall_forall in H. exact H. Qed.
Lemma row_words : forall w1 w2 w3 w4 w5 w6 g0 g1 g2 g3 g4 g5 g6, Forall word [w1; w2; w3; w4; w5; w6] -> blank g0 -> Forall (fun g => g <> [] /\ blank g) [g1; g2; g3; g4; g5] -> blank g6 ->
  words (g0 ++ w1 ++ g1 ++ w2 ++ g2 ++ w3 ++ g3 ++ w4 ++ g4 ++ w5 ++ g5 ++ w6 ++ g6) = [w1; w2; w3; w4; w5; w6].
Proof.
  intros w1 w2 w3 w4 w5 w6 g0 g1 g2 g3 g4 g5 g6 FW B0 FG B6. unfold words. rewrite words_blank by (apply blank_fb; exact B0).
  repeat match goal with H : Forall _ (_ :: _) |- _ => inversion H; clear H; subst end.
  repeat match goal with H : word ?w |- _ => destruct H as (? & ?) end. repeat match goal with H : _ <> [] /\ blank ?g |- _ => destruct H as (? & H); apply blank_fb in H end. apply blank_fb in B6.
  repeat match goal with H : Forall (fun c => is_space c = false) ?w |- _ => rewrite Forall_forall in H end.
  do 5 (rewrite words_cur by assumption; cbn [app]; rewrite words_flush by assumption; f_equal). rewrite words_cur by assumption. cbn [app]. destruct g6 as [|c g6].
  - cbn [words_]. destruct w6; [congruence|reflexivity].
  - rewrite <- (app_nil_r (c :: g6)). rewrite words_flush; [reflexivity|assumption|discriminate|exact B6].
Qed.
Lemma word_degree : forall s, word s -> word (s ++ ["176"%char]).
Proof. intros s (A & B). split; [destruct s; discriminate|]. apply Forall_app. split; [exact B|]. repeat constructor. Qed.
Definition set_mode (mo : mode) (st : lstate) : lstate := LState mo (l_signal st) (l_periods st) (l_dc st) (l_steps st) (l_count st) (l_data st) (l_measures st) (l_fourier st).
Lemma table_row : forall r phd thd rows (st : lstate), hrow_ok tofloat toint fl it r -> table_line tofloat toint (hrow_text r) phd thd rows st = Some (set_mode (Table phd thd (rows ++ [hrow_value fl it r])) st).
Proof.
  intros [gs n f co no ph nph en] phd thd rows st H. unfold hrow_ok in H. cbn [r_gaps r_number r_freq r_comp r_norm r_phase r_nphase r_end] in H. destruct gs as [[[[[g0 g1] g2] g3] g4] g5]. destruct H as (B0 & FG & BE & WN & IN & FN & FD & NT & NP).
  set (body := g0 ++ n ++ g1 ++ f ++ g2 ++ co ++ g3 ++ no ++ g4 ++ (ph ++ ["176"%char]) ++ g5 ++ (nph ++ ["176"%char]) ++ en).
  assert (FW : Forall word [n; f; co; no; ph ++ ["176"%char]; nph ++ ["176"%char]]).
  { repeat match goal with H : Forall (number _ _) (_ :: _) |- _ => inversion H; clear H; subst end. repeat match goal with H : number _ _ _ |- _ => destruct H as (? & ?) end. repeat (constructor; try assumption; try (apply word_degree; assumption)). }
  assert (T : hrow_text (HRow (g0, g1, g2, g3, g4, g5) n f co no ph nph en) = body ++ [NLC]) by (unfold hrow_text, body; cbn [r_gaps r_number r_freq r_comp r_norm r_phase r_nphase r_end]; rewrite <- !app_assoc; reflexivity).
  assert (NO : ~ In NLC body /\ ~ In "013"%char body).
  { assert (NW : forall c w, is_space c = true -> word w -> ~ In c w) by (intros; apply word_no; assumption).
    assert (FG2 : Forall blank [g0; g1; g2; g3; g4; g5; en]). { inversion FG as [|? ? (? & ?) F1]; subst. inversion F1 as [|? ? (? & ?) F2]; subst. inversion F2 as [|? ? (? & ?) F3]; subst. inversion F3 as [|? ? (? & ?) F4]; subst. inversion F4 as [|? ? (? & ?) F5]; subst. repeat (constructor; [assumption|]). constructor. }
    rewrite Forall_forall in FG2, FW. unfold body.
    assert (G : forall c, is_space c = true -> (forall g, In g [g0; g1; g2; g3; g4; g5; en] -> ~ In c g) -> ~ In c (g0 ++ n ++ g1 ++ f ++ g2 ++ co ++ g3 ++ no ++ g4 ++ (ph ++ ["176"%char]) ++ g5 ++ (nph ++ ["176"%char]) ++ en)).
    { intros c C HG I. rewrite !(in_app_iff g0), !(in_app_iff n), (in_app_iff g1), (in_app_iff f), (in_app_iff g2), (in_app_iff co), (in_app_iff g3), (in_app_iff no), (in_app_iff g4), (in_app_iff (ph ++ _)), (in_app_iff g5), (in_app_iff (nph ++ _)) in I.
      repeat (destruct I as [I|I]; [first [apply (HG _) in I; [exact I|cbn; tauto] | (eapply (NW c); [exact C| |exact I]; apply FW; cbn; tauto)]|]). apply (HG en) in I; [exact I|cbn; tauto]. }
    split; apply G; try reflexivity; intros g I; apply FG2; exact I. }
  unfold table_line. rewrite T, strip_nl by apply NO.
  assert (HD : exists c t, body = c :: t /\ c <> "T"%char /\ c <> "P"%char).
  { unfold body. destruct g0 as [|c g0].
    - destruct WN as (NE & _). destruct n as [|c n]; [congruence|]. cbn [app]. exists c. eexists. split; [reflexivity|]. split; intros ->; [apply NT|apply NP]; reflexivity.
    - cbn [app]. exists c. eexists. split; [reflexivity|]. destruct B0 as (B0 & _). inversion B0; subst. split; intros ->; discriminate. }
  destruct HD as (c & t & EB & CT & CP).
  assert (S1 : startswith (s2l "Total Harmonic") body = false) by (rewrite EB; change (s2l "Total Harmonic") with ("T"%char :: s2l "otal Harmonic"); cbn [startswith]; destruct (aeqb "T" c) eqn:E; [apply aeqb_eq in E; congruence|reflexivity]).
  assert (S2 : startswith (s2l "Partial Harmonic") body = false) by (rewrite EB; change (s2l "Partial Harmonic") with ("P"%char :: s2l "artial Harmonic"); cbn [startswith]; destruct (aeqb "P" c) eqn:E; [apply aeqb_eq in E; congruence|reflexivity]).
  rewrite S1, S2.
  assert (FL : from_line tofloat toint body = Some (hrow_value fl it (HRow (g0, g1, g2, g3, g4, g5) n f co no ph nph en))).
  { unfold from_line, body. rewrite row_words by assumption. repeat match goal with H : Forall (number _ _) (_ :: _) |- _ => inversion H; clear H; subst end. repeat match goal with H : number _ _ _ |- _ => destruct H as (? & ?) end.
    inversion FD as [|? ? D1 FD2]; subst. inversion FD2 as [|? ? D2 _]; subst. rewrite (rstrip_degree ph D1), (rstrip_degree nph D2). rewrite IN. repeat match goal with H : tofloat _ = Some _ |- _ => rewrite H; clear H end. reflexivity. }
  rewrite FL. rewrite EB. reflexivity.
Qed.
Lemma search_skip : forall pre p s, Forall (fun c => is_digit c = false) pre -> search_from percent_re p (pre ++ s) = search_from percent_re (p + length pre) s.
Proof.
  induction pre as [|a pre IH]; intros p s H; cbn [app length]; [rewrite Nat.add_0_r; reflexivity|]. inversion H; subst. cbn [search_from].
  assert (E : m percent_re p (a :: pre ++ s) [] (fun p' _ c => Some (p', c)) = None) by (unfold percent_re; rewrite m_seqs_cons; unfold digits1; apply m_plus_no; assumption). rewrite E. rewrite IH by assumption. f_equal. lia.
Qed.
Lemma percent_ok : forall t p, Forall (fun c => is_digit c = false) (s2l t) -> pct_ok tofloat fl p -> percent tofloat (s2l t ++ p_before p ++ pct_number p ++ p_after p) = Some (fl (pct_number p)).
Proof.
  intros t [be i fr af] HT (HB & (NI & HI) & (NF & HF) & HA & _ & _ & E). unfold pct_number in *. cbn [p_before p_int p_frac p_after] in *.
  unfold percent, re_search. rewrite app_assoc. rewrite search_skip by (apply Forall_app; split; assumption). cbn [Nat.add].
  set (b := length (s2l t ++ be)).
  assert (M : m percent_re b ((i ++ s2l "." ++ fr) ++ af) [] (fun p' _ c => Some (p', c)) = Some (b + length (i ++ s2l "." ++ fr), [])).
  { unfold percent_re. rewrite m_seqs_cons. unfold digits1. rewrite <- !app_assoc. apply m_plus_run; [exact NI|exact HI|reflexivity|]. rewrite m_seqs_cons. change (s2l "." ++ fr ++ af) with ("."%char :: fr ++ af). rewrite m_chr_ok by reflexivity. cbn [seqs]. apply m_plus_run; [exact NF|exact HF|destruct af; [exact I|exact HA]|]. do 2 f_equal. rewrite !app_length. change (length (s2l ".")) with 1. lia. }
  destruct ((i ++ s2l "." ++ fr) ++ af) as [|x y] eqn:EX; [destruct i; [congruence|discriminate EX]|]. cbn [search_from]. rewrite M. rewrite <- EX.
  assert (S : Regex.slice ((s2l t ++ be) ++ (i ++ s2l "." ++ fr) ++ af) (b, b + length (i ++ s2l "." ++ fr)) = i ++ s2l "." ++ fr) by (eapply slice_at; [reflexivity|reflexivity|reflexivity]). rewrite S. exact E.
Qed.
Lemma pct_no : forall t p, ~ In NLC (s2l t) -> ~ In "013"%char (s2l t) -> pct_ok tofloat fl p -> strip_if is_nl (pct_text t p) = s2l t ++ p_before p ++ pct_number p ++ p_after p.
Proof.
  intros t p A B (HB & (NI & HI) & (NF & HF) & HA & C & D & _). unfold pct_text.
  replace (s2l t ++ p_before p ++ pct_number p ++ p_after p ++ [NLC]) with (s2l t ++ (p_before p ++ pct_number p ++ p_after p) ++ [NLC]) by (rewrite <- !app_assoc; reflexivity).
  assert (DG : forall c, is_digit c = false -> c <> "."%char -> ~ In c (pct_number p)).
  { intros c X Y I. unfold pct_number in I. rewrite !in_app_iff in I. destruct I as [I|[I|I]]; [|destruct I as [<-|[]]; congruence|]; [rewrite forallb_forall in HI; specialize (HI _ I)|rewrite forallb_forall in HF; specialize (HF _ I)]; congruence. }
  rewrite in_app_iff in C, D. apply strip_line; try assumption; rewrite !in_app_iff; intros I; [pose proof (DG NLC eq_refl ltac:(discriminate))|pose proof (DG "013"%char eq_refl ltac:(discriminate))]; tauto.
Qed.
Lemma nodig : forall t, forallb (fun c => negb (is_digit c)) t = true -> Forall (fun c => is_digit c = false) t.
Proof. intros t H. apply Forall_forall. intros c C. rewrite forallb_forall in H. apply negb_true_iff. exact (H c C). Qed.
Lemma table_phd : forall p phd thd rows (st : lstate), pct_ok tofloat fl p -> table_line tofloat toint (pct_text "Partial Harmonic Distortion:" p) phd thd rows st = Some (set_mode (Table (Some (fl (pct_number p))) thd rows) st).
Proof.
  intros p phd thd rows st H. unfold table_line. rewrite (pct_no "Partial Harmonic Distortion:" p); [|notin|notin|exact H].
  change (startswith (s2l "Total Harmonic") (s2l "Partial Harmonic Distortion:" ++ p_before p ++ pct_number p ++ p_after p)) with false. change (startswith (s2l "Partial Harmonic") (s2l "Partial Harmonic Distortion:" ++ p_before p ++ pct_number p ++ p_after p)) with true. cbv iota zeta.
  rewrite percent_ok; [reflexivity|apply nodig; reflexivity|exact H].
Qed.
Lemma table_thd : forall p phd thd rows (st : lstate), pct_ok tofloat fl p -> table_line tofloat toint (pct_text "Total Harmonic Distortion:" p) phd thd rows st = Some (set_mode (Table phd (Some (fl (pct_number p))) rows) st).
Proof.
  intros p phd thd rows st H. unfold table_line. rewrite (pct_no "Total Harmonic Distortion:" p); [|notin|notin|exact H].
  change (startswith (s2l "Total Harmonic") (s2l "Total Harmonic Distortion:" ++ p_before p ++ pct_number p ++ p_after p)) with true. cbv iota zeta.
  rewrite percent_ok; [reflexivity|apply nodig; reflexivity|exact H].
Qed.
Lemma rows_loop : forall rs rest phd thd acc (st : lstate), Forall (hrow_ok tofloat toint fl it) rs -> l_mode st = Table phd thd acc ->
  first_loop (map hrow_text rs ++ rest) st = first_loop rest (set_mode (Table phd thd (acc ++ map (hrow_value fl it) rs)) st).
Proof.
  induction rs as [|r rs IH]; intros rest phd thd acc st H M; cbn [map app].
  - rewrite app_nil_r. f_equal. destruct st. cbn in *. subst. reflexivity.
  - inversion H; subst. cbn [LtlogModel.first_loop]. rewrite M, table_row by assumption. rewrite (IH rest phd thd (acc ++ [hrow_value fl it r])) by (try assumption; reflexivity). rewrite <- app_assoc. reflexivity.
Qed.
Lemma block_loop : forall b rest (st : lstate), block_ok tofloat toint fl it b -> l_mode st = Main ->
  exists st', first_loop (block_lines b ++ rest) st = first_loop rest st' /\ l_mode st' = Main /\ l_steps st' = l_steps st /\ l_count st' = l_count st /\ l_data st' = l_data st /\
    l_fourier st' = fadd (Some (b_signal b)) (block_value fl it (l_count st) b) (l_fourier st).
Proof.
  intros b rest st (HP & NE & WS & HD & NC & FE & FR & H1 & H2) M. unfold block_lines. rewrite <- app_assoc. cbn [app].
  erewrite loop_main; [|exact M|reflexivity|apply line_periods; assumption].
  erewrite loop_main; [|exact M|reflexivity|apply line_signal; [exact M|assumption]].
  erewrite loop_main; [|exact M|reflexivity|apply line_dc; [exact M|assumption|assumption]]. cbn [l_mode l_signal l_periods l_dc l_steps l_count l_data l_measures l_fourier].
  match goal with |- context [first_loop _ ?s] => set (st1 := s) end.
  assert (M1 : l_mode st1 = Main) by exact M.
  assert (EM : forall es tail, Forall (fun l => Forall (fun c => is_space c = true) l) es -> first_loop (es ++ tail) st1 = first_loop tail st1).
  { induction es as [|e es IH]; intros tail X; [reflexivity|]. inversion X; subst. cbn [app]. destruct (line_empty e st1) as (A & B); [assumption|exact M1|]. erewrite loop_main; [apply IH; assumption|exact M1|exact B|exact A]. }
  rewrite <- !app_assoc. rewrite EM by exact FE. cbn [app].
  assert (HL : main_line (s2l "Harmonic" ++ b_title b) st1 = Some (set_mode Skip st1)).
  { unfold LtlogModel.main_line. change (s2l "Harmonic" ++ b_title b) with ("H"%char :: s2l "armonic" ++ b_title b) at 1. rewrite nonblank by reflexivity. reflexivity. }
  match goal with |- context [first_loop (?h :: _) st1] => change h with (s2l "Harmonic" ++ b_title b) end.
  erewrite loop_main; [|exact M1|reflexivity|exact HL]. cbn [LtlogModel.first_loop l_mode set_mode l_signal l_periods l_dc l_steps l_count l_data l_measures l_fourier].
  rewrite <- ?app_assoc. rewrite (rows_loop (b_rows b) _ None None []) by (try exact FR; reflexivity). cbn [app].
  match goal with |- context [first_loop _ ?s] => set (st2 := s) end.
  assert (P : first_loop (opt_line (pct_text "Partial Harmonic Distortion:") (b_phd b) ++ opt_line (pct_text "Total Harmonic Distortion:") (b_thd b) ++ [NLC] :: rest) st2 =
     first_loop ([NLC] :: rest) (set_mode (Table (option_map (fun p => fl (pct_number p)) (b_phd b)) (option_map (fun p => fl (pct_number p)) (b_thd b)) (map (hrow_value fl it) (b_rows b))) st2)).
  { destruct (b_phd b) as [p1|]; destruct (b_thd b) as [p2|]; cbn [opt_line app option_map]; cbn [LtlogModel.first_loop l_mode st2 set_mode].
    - rewrite table_phd by exact H1. cbn [l_mode set_mode]. rewrite table_thd by exact H2. reflexivity.
    - rewrite table_phd by exact H1. reflexivity.
    - rewrite table_thd by exact H2. reflexivity.
    - reflexivity. }
  assert (Q : forall x, (opt_line (pct_text "Partial Harmonic Distortion:") (b_phd b) ++ opt_line (pct_text "Total Harmonic Distortion:") (b_thd b) ++ [[NLC]]) ++ x = opt_line (pct_text "Partial Harmonic Distortion:") (b_phd b) ++ opt_line (pct_text "Total Harmonic Distortion:") (b_thd b) ++ [NLC] :: x) by (intros x; rewrite <- !app_assoc; reflexivity).
  match goal with |- context [first_loop ?x st2] => replace x with (opt_line (pct_text "Partial Harmonic Distortion:") (b_phd b) ++ opt_line (pct_text "Total Harmonic Distortion:") (b_thd b) ++ [NLC] :: rest) by reflexivity end.
  rewrite P. eexists. split; [cbn [LtlogModel.first_loop l_mode set_mode]; reflexivity|]. cbn. repeat split; reflexivity.
Qed.

(** ** The whole first loop *)
Lemma loop_items : forall log rest (st : lstate), l_mode st = Main -> log_ok tofloat toint fl it (negb (l_count st =? 0)) log ->
  exists st', first_loop (flat_map item_lines log ++ rest) st = first_loop rest st' /\ l_mode st' = Main /\
    l_steps st' = fold_left (add1 conv) (concat (log_steps log)) (l_steps st) /\ l_count st' = l_count st + length (log_steps log) /\
    l_data st' = fold_left put (log_cells log) (l_data st) /\
    l_fourier st' = fold_left (fun d f => fadd (f_signal f) f d) (log_analyses fl it (l_count st) log) (l_fourier st).
Proof.
  induction log as [|x log IH]; intros rest st M H.
  - exists st. cbn. rewrite Nat.add_0_r. auto 10.
  - cbn [flat_map]. rewrite <- app_assoc. destruct x as [x|b|l|l]; cbn [log_ok item_lines] in *.
    + destruct H as (C & OK & H). apply negb_false_iff in C. apply Nat.eqb_eq in C. destruct (text_line (measure_text x) st (measure_keys x OK) M) as (A & B). cbn [app]. erewrite loop_main; [|exact M|exact B|exact A]. rewrite measure_effect by assumption.
      match goal with |- context [first_loop _ ?s] => destruct (IH rest s) as (st' & E & R) end; [exact M|exact H|]. exists st'. split; [exact E|]. destruct R as (R1 & R2 & R3 & R4 & R5). cbn in R2, R3, R4, R5. unfold log_cells. cbn [flat_map log_steps log_analyses app]. rewrite fold_left_app. auto.
    + destruct H as (OK & H). destruct (block_loop b (flat_map item_lines log ++ rest) st OK M) as (s1 & E1 & M1 & S1 & C1 & D1 & F1). rewrite E1. destruct (IH rest s1 M1) as (st' & E & R1 & R2 & R3 & R4 & R5); [rewrite C1; exact H|]. exists st'. rewrite E. rewrite S1, C1, D1, F1 in *. split; [reflexivity|]. auto.
    + destruct H as (NL & OK & H). cbn [app].
      assert (A : main_line (step_text l) st = Some (LState (l_mode st) (l_signal st) (l_periods st) (l_dc st) (fold_left (add1 conv) l (l_steps st)) (S (l_count st)) (l_data st) (l_measures st) (l_fourier st))).
      { unfold LtlogModel.main_line, step_text. change (s2l ".step " ++ items_text l ++ ["010"%char]) with ("."%char :: s2l "step " ++ items_text l ++ ["010"%char]) at 1. rewrite nonblank by reflexivity. fold (step_text l).
        change (startswith (s2l "N-Period") (step_text l)) with false. change (startswith (s2l "Fourier components of") (step_text l)) with false. change (startswith (s2l "DC component:") (step_text l)) with false. change (startswith (s2l "Harmonic") (step_text l)) with false. change (startswith (s2l ".step") (step_text l)) with true. cbv iota zeta.
        rewrite (step_line_tokens conv (fun _ => true) l OK). destruct l as [|kv l]; [congruence|]. rewrite (add_items_ok conv) by (eapply Forall_impl; [|exact OK]; intros y (Y1 & Y2 & _); auto).
        assert (VS : valid_step (map StepsProofs.item (kv :: l)) = true). { unfold valid_step. cbn [map existsb]. assert (X : mem_c "=" (StepsProofs.item kv) = true) by (apply mem_c_In; destruct kv; unfold StepsProofs.item; apply in_or_app; right; left; reflexivity). rewrite X. reflexivity. }
        rewrite VS. reflexivity. }
      erewrite loop_main; [|exact M|reflexivity|exact A].
      match goal with |- context [first_loop _ ?s] => destruct (IH rest s) as (st' & E & R) end; [exact M|exact H|]. exists st'. split; [exact E|]. destruct R as (R1 & R2 & R3 & R4 & R5). cbn in R2, R3, R4, R5. unfold log_steps. cbn [flat_map app concat length log_analyses]. fold (log_steps log). rewrite fold_left_app. repeat split; try assumption. lia.
    + destruct H as (K & E0 & H). cbn [app]. destruct (text_line l st K M) as (A & B). erewrite loop_main; [|exact M|exact B|exact A].
      assert (Z : measure_line l st = st). { destruct E0 as [E0|E0]; [|apply measure_none; apply no_mline_noeq; exact E0]. unfold LtlogModel.measure_line. destruct (l_count st); [discriminate E0|reflexivity]. }
      rewrite Z. destruct (IH rest st M H) as (st' & E & R). exists st'. split; [exact E|]. exact R.
Qed.
End Reader.
