From Coq Require Import String Ascii List Bool Arith Lia.
From Verif Require Import PyStr Regex RegexProofs RegexInv RegexMore StepsModel StepsSpec StepsProofs LogModel LogSpec LogProofs CompFam CompModel CompProofs QlogModel QlogProofs LtlogModel LtlogSpec.
Import ListNotations.
Local Open Scope string_scope. Local Open Scope nat_scope. Local Open Scope list_scope.

(** ** Greedy repetition, going back *)
Lemma star_none : forall (R : Type) f c (k : @kont R) s fuel p, length s <= fuel ->
  (forall v s', s = v ++ s' -> forallb f v = true -> k (p + length v) s' c = None) -> star (m (Chr f)) true fuel p s c k = None.
Proof.
  induction s as [|a s IH]; intros fuel p L H.
  - assert (K : k p [] c = None) by (specialize (H [] [] eq_refl eq_refl); cbn in H; rewrite Nat.add_0_r in H; exact H). destruct fuel; cbn [star m]; exact K.
  - assert (K : k p (a :: s) c = None) by (specialize (H [] (a :: s) eq_refl eq_refl); cbn in H; rewrite Nat.add_0_r in H; exact H).
    destruct fuel as [|fuel]; [exact K|]. cbn [star m]. destruct (f a) eqn:A; [|exact K]. cbn [length]. destruct (Nat.ltb_spec (length s) (S (length s))); [|lia].
    rewrite IH; [exact K|cbn in L; lia|]. intros v s' -> B. specialize (H (a :: v) s' eq_refl). cbn [forallb length] in H. rewrite A, B in H. specialize (H eq_refl). rewrite <- H. f_equal. lia.
Qed.
Lemma m_star_back : forall (R : Type) f u s p c (k : @kont R) x, forallb f u = true -> k (p + length u) s c = Some x ->
  (forall v s', s = v ++ s' -> v <> [] -> forallb f v = true -> k (p + length u + length v) s' c = None) -> m (Star true (Chr f)) p (u ++ s) c k = Some x.
Proof.
  intros R f u s p c k x FU K H. change (m (Star true (Chr f)) p (u ++ s) c k) with (star (m (Chr f)) true (length (u ++ s)) p (u ++ s) c k).
  assert (G : forall fuel, length (u ++ s) <= fuel -> star (m (Chr f)) true fuel p (u ++ s) c k = Some x); [|apply G; apply le_n].
  revert p K H. induction u as [|a u IH]; intros p K H fuel L.
  - cbn [app length] in *. rewrite Nat.add_0_r in K, H. destruct fuel as [|fuel]; [exact K|]. destruct s as [|a s]; [exact K|]. cbn [star m]. destruct (f a) eqn:A; [|exact K].
    cbn [length]. destruct (Nat.ltb_spec (length s) (S (length s))); [|lia]. assert (Z : star (m (Chr f)) true fuel (S p) s c k = None) by (apply star_none; [cbn in L; lia|]; intros v s' -> B; specialize (H (a :: v) s' eq_refl); cbn [forallb length] in H; rewrite A, B in H; rewrite <- H; [f_equal; lia|discriminate|reflexivity]). cbn [m] in Z. match goal with |- match ?t with _ => _ end = _ => change t with (star (m (Chr f)) true fuel (S p) s c k) end. cbn [m]. rewrite Z. exact K.
  - cbn [forallb] in FU. apply andb_true_iff in FU. destruct FU as (A & FU). destruct fuel as [|fuel]; [cbn in L; lia|]. cbn [app star m]. rewrite A. cbn [length]. destruct (Nat.ltb_spec (length (u ++ s)) (S (length (u ++ s)))); [|lia].
    rewrite IH; [reflexivity|exact FU| | |cbn in L; lia].
    + rewrite <- K. f_equal. cbn [length]. lia.
    + intros v s' E NV B. rewrite <- (H v s' E NV B). f_equal. cbn [length]. lia.
Qed.

(** ** Characters *)
Lemma value_like_eq : forall c, value_char c = value_like c.
Proof. assert (S : forallb (fun n => Bool.eqb (value_char (ascii_of_nat n)) (value_like (ascii_of_nat n))) (seq 0 256) = true) by (vm_cast_no_check (eq_refl true)).
  intros c. rewrite forallb_forall in S. rewrite <- (ascii_nat_embedding c). apply eqb_prop. apply S. apply in_seq. pose proof (nat_ascii_bounded c). lia. Qed.
Lemma limit_like_eq : forall c, limit_char c = limit_like c.
Proof. assert (S : forallb (fun n => Bool.eqb (limit_char (ascii_of_nat n)) (limit_like (ascii_of_nat n))) (seq 0 256) = true) by (vm_cast_no_check (eq_refl true)).
  intros c. rewrite forallb_forall in S. rewrite <- (ascii_nat_embedding c). apply eqb_prop. apply S. apply in_seq. pose proof (nat_ascii_bounded c). lia. Qed.
Lemma all_like : forall (f g : ascii -> bool) (s : str), (forall c, f c = g c) -> forallb g s = true -> forallb f s = true.
Proof. intros f g s E H. apply forallb_forall. intros c C. rewrite E. rewrite forallb_forall in H. exact (H c C). Qed.
Lemma no_eq : forall (f : ascii -> bool) (s : str), f "="%char = false -> forallb f s = true -> ~ In "="%char s.
Proof. intros f s F H I. rewrite forallb_forall in H. specialize (H _ I). congruence. Qed.

(** literals in any case *)
Lemma m_ilits : forall (R : Type) t w l p s c (k : @kont R), upper w = upper (s2l t) -> m (seqs (ilits t ++ l)) p (w ++ s) c k = m (seqs l) (p + length w) s c k.
Proof.
  intros R t w l p s c k H. unfold ilits. revert w p H. generalize (s2l t) as l0. induction l0 as [|a l0 IH]; intros w p H; destruct w as [|b w]; try discriminate H; [cbn; rewrite Nat.add_0_r; reflexivity|].
  cbn in H. injection H as E H. cbn [map app]. rewrite m_seqs_cons. unfold ichar at 1. rewrite m_chr_ok by (apply aeqb_eq; exact E). rewrite IH by exact H. cbn [length]. f_equal. lia.
Qed.

(** ** A line with a measurement *)
Lemma name_char : forall c, is_word c = true -> negb (is_space c) = true.
Proof. apply (imp_sweep is_word (fun c => negb (is_space c))). vm_cast_no_check (eq_refl true). Qed.
Definition tail_caps (t : mtail) (p : nat) : caps :=
  match t with
  | NoTail => []
  | Interval f a w b => [(4, (p + (2 + length f) + length a + (2 + length w), p + (2 + length f) + length a + (2 + length w) + length b)); (3, (p + (2 + length f), p + (2 + length f) + length a))]
  | Point w a => [(5, (p + (2 + length w), p + (2 + length w) + length a))]
  end.
Lemma upper_app' : forall a b, upper (a ++ b) = upper a ++ upper b.
Proof. intros a b. unfold upper. apply map_app. Qed.
Lemma around : forall w, length (s2l " " ++ w ++ s2l " ") = 2 + length w.
Proof. intros w. rewrite !app_length. change (length (s2l " ")) with 1. lia. Qed.
Lemma kw_upper : forall t w, upper w = s2l t -> upper (s2l " " ++ w ++ s2l " ") = s2l " " ++ s2l t ++ s2l " ".
Proof. intros t w H. rewrite !upper_app', H. reflexivity. Qed.
Lemma tail_match : forall t p c, tail_ok t -> m (Opt (Alt interval_re point_re)) p (tail_text t ++ [NLC]) c fin = Some (p + length (tail_text t), tail_caps t p ++ c).
Proof.
  intros t p c H. destruct t as [|f a w b|w a]; cbn [tail_text tail_caps].
  - cbn [app length]. rewrite Nat.add_0_r. reflexivity.
  - destruct H as (HF & (NA & HA) & HT & (NB & HB)). apply m_opt_yes. cbn [m].
    assert (E : m interval_re p ((s2l " " ++ f ++ s2l " ") ++ a ++ (s2l " " ++ w ++ s2l " ") ++ b ++ [NLC]) c fin =
                Some (p + length (s2l " " ++ f ++ s2l " " ++ a ++ s2l " " ++ w ++ s2l " " ++ b), tail_caps (Interval f a w b) p ++ c)).
    { unfold interval_re. rewrite m_ilits by (rewrite (kw_upper "FROM") by exact HF; reflexivity). rewrite around. cbn [app]. rewrite m_seqs_cons, m_grp.
      apply m_star_all; [apply (all_like _ _ _ limit_like_eq); exact HA|reflexivity|].
      change (" "%char :: w ++ s2l " " ++ b ++ [NLC]) with (s2l " " ++ w ++ s2l " " ++ b ++ [NLC]). 
      match goal with |- m _ ?q _ _ _ = _ => replace ((s2l " " ++ w ++ s2l " ") ++ b ++ [NLC]) with ((s2l " " ++ w ++ s2l " ") ++ (b ++ [NLC])) by reflexivity end.
      rewrite m_ilits by (rewrite (kw_upper "TO") by exact HT; reflexivity). rewrite around. cbn [seqs]. rewrite m_grp. apply m_star_all; [apply (all_like _ _ _ limit_like_eq); exact HB|reflexivity|].
      unfold fin. cbn [tail_caps app]. rewrite !app_length. cbn [length s2l]. change (length (s2l " ")) with 1. do 2 f_equal; try lia. }
    match goal with |- context [m interval_re p ?s c fin] => replace s with ((s2l " " ++ f ++ s2l " ") ++ a ++ (s2l " " ++ w ++ s2l " ") ++ b ++ [NLC]) by (rewrite <- !app_assoc; reflexivity) end.
    rewrite E. reflexivity.
  - destruct H as (HT & (NA & HA)). apply m_opt_yes. cbn [m].
    assert (Z : m interval_re p ((s2l " " ++ w ++ s2l " " ++ a) ++ [NLC]) c fin = None).
    { destruct w as [|x w]; [discriminate HT|]. cbn in HT. injection HT as HX HT. unfold interval_re. change (ilits " FROM ") with ([ichar " "; ichar "F"] ++ ilits "ROM "). rewrite <- app_assoc. cbn [app]. rewrite m_seqs_cons.
      change (s2l " ") with [" "%char] at 1. cbn [app]. unfold ichar at 1. rewrite m_chr_ok by reflexivity. rewrite m_seqs_cons. unfold ichar at 1. apply m_chr_no. rewrite HX. reflexivity. }
    rewrite Z.
    assert (E : m point_re p ((s2l " " ++ w ++ s2l " ") ++ a ++ [NLC]) c fin = Some (p + length (s2l " " ++ w ++ s2l " " ++ a), tail_caps (Point w a) p ++ c)).
    { unfold point_re. rewrite m_ilits by (rewrite (kw_upper "AT") by exact HT; reflexivity). rewrite around. cbn [seqs]. rewrite m_grp. apply m_star_all; [apply (all_like _ _ _ limit_like_eq); exact HA|reflexivity|].
      unfold fin. cbn [tail_caps app]. rewrite !app_length. change (length (s2l " ")) with 1. do 2 f_equal; lia. }
    match goal with |- context [m point_re p ?s c fin] => replace s with ((s2l " " ++ w ++ s2l " ") ++ a ++ [NLC]) by (rewrite <- !app_assoc; reflexivity) end.
    exact E.
Qed.
Definition from_eq : list re := [lit "="; Grp 2 (Plus (Chr value_char)); Opt (Alt interval_re point_re)].
Lemma tail_stop : forall t, match tail_text t ++ [NLC] with z :: _ => value_char z = false | [] => True end.
Proof. intros [| |]; reflexivity. Qed.
Lemma value_match : forall v t p c, all_of value_like v -> tail_ok t ->
  m (seqs from_eq) p (s2l "=" ++ v ++ tail_text t ++ [NLC]) c fin = Some (p + 1 + length v + length (tail_text t), tail_caps t (p + 1 + length v) ++ (2, (p + 1, p + 1 + length v)) :: c).
Proof.
  intros v t p c (NV & HV) HT. unfold from_eq. rewrite m_seqs_cons. change (s2l "=") with ["="%char]. cbn [app]. unfold lit. rewrite m_chr_ok by reflexivity. rewrite m_seqs_cons, m_grp. replace (S p) with (p + 1) by lia.
  apply m_plus_run; [exact NV|apply (all_like _ _ _ value_like_eq); exact HV|apply tail_stop|]. cbn [seqs]. apply tail_match. exact HT.
Qed.
Lemma no_value : forall s p c, ~ In "="%char s -> m (seqs from_eq) p s c (R:=nat * caps) fin = None.
Proof. intros [|a s] p c H; [reflexivity|]. unfold from_eq. rewrite m_seqs_cons. unfold lit. apply m_chr_no. apply aeqb_neq. intros ->. apply H. left. reflexivity. Qed.
Lemma tail_noeq : forall t, tail_ok t -> ~ In "="%char (tail_text t).
Proof.
  assert (U : forall w k, upper w = s2l k -> ~ In "="%char (s2l k) -> ~ In "="%char w).
  { intros w k E N I. apply N. rewrite <- E. unfold upper. apply in_map_iff. exists "="%char. split; [reflexivity|exact I]. }
  intros [|f a w b|w a] H; cbn [tail_text].
  - intros [].
  - destruct H as (HF & (_ & HA) & HT & (_ & HB)). rewrite !in_app_iff. intros X.
    assert (~ In "="%char f) by (apply (U f "FROM" HF); vm_compute; intuition discriminate). assert (~ In "="%char w) by (apply (U w "TO" HT); vm_compute; intuition discriminate).
    pose proof (no_eq limit_like a eq_refl HA). pose proof (no_eq limit_like b eq_refl HB). assert (~ In "="%char (s2l " ")) by (vm_compute; intuition discriminate). tauto.
  - destruct H as (HT & (_ & HA)). rewrite !in_app_iff. intros X. assert (~ In "="%char w) by (apply (U w "AT" HT); vm_compute; intuition discriminate). pose proof (no_eq limit_like a eq_refl HA). assert (~ In "="%char (s2l " ")) by (vm_compute; intuition discriminate). tauto.
Qed.
Definition expr_text (o : option (str * str)) : str := match o with Some (gap, e) => s2l ":" ++ gap ++ e | None => [] end.
Lemma measure_match : forall x, measure_ok x -> let n := length (e_name x) in let q := n + length (expr_text (e_expr x)) in
  exists e, re_match mline_re (measure_text x) = Some (e, tail_caps (e_tail x) (q + 1 + length (e_value x)) ++ [(2, (q + 1, q + 1 + length (e_value x))); (1, (0, n))]).
Proof.
  intros x ((NN & HN) & _ & HE & HV & HT) n q. exists (q + 1 + length (e_value x) + length (tail_text (e_tail x))). unfold re_match, mline_re, measure_text. change (fun p _ c => Some (p, c)) with fin.
  rewrite m_seqs_cons, m_grp. unfold word1. 
  apply m_plus_run; [exact NN|exact HN| |].
  - destruct (e_expr x) as [[gap e]|]; reflexivity.
  - rewrite m_seqs_cons. fold from_eq. unfold q. destruct (e_expr x) as [[gap e]|]; cbn [expr_text].
    + destruct HE as (_ & (NG & HG) & NLG & NLE & HD). apply m_opt_yes. rewrite m_seqs_cons. rewrite <- !app_assoc. change (s2l ":") with [":"%char] at 1. cbn [app]. unfold lit at 1. rewrite m_chr_ok by reflexivity.
      rewrite m_seqs_cons. apply m_sp1_all; [exact NG|exact HG|destruct e; [reflexivity|exact HD]|]. cbn [seqs]. unfold dots. apply m_star_back.
      * apply forallb_forall. intros y Y. unfold not_nl. apply negb_true_iff. apply aeqb_neq. intros ->. exact (NLE Y).
      * change (seqs [lit "="; Grp 2 (Plus (Chr value_char)); Opt (Alt interval_re point_re)]) with (seqs from_eq). change ("="%char :: e_value x ++ tail_text (e_tail x) ++ [NLC]) with (s2l "=" ++ e_value x ++ tail_text (e_tail x) ++ [NLC]).
        rewrite value_match by assumption. rewrite !app_length. change (length (s2l ":")) with 1. assert (Q : forall a b, a = b -> Some (a + 1 + length (e_value x) + length (tail_text (e_tail x)), tail_caps (e_tail x) (a + 1 + length (e_value x)) ++ [(2, (a + 1, a + 1 + length (e_value x))); (1, (0, 0 + length (e_name x)))]) = Some (b + 1 + length (e_value x) + length (tail_text (e_tail x)), tail_caps (e_tail x) (b + 1 + length (e_value x)) ++ [(2, (b + 1, b + 1 + length (e_value x))); (1, (0, n))])) by (intros a b ->; reflexivity). apply Q. unfold n. lia.
      * intros v s' E N0 _. change (seqs [lit "="; Grp 2 (Plus (Chr value_char)); Opt (Alt interval_re point_re)]) with (seqs from_eq). apply no_value. destruct v as [|b v]; [congruence|]. injection E as _ E. intros I.
        assert (J : In "="%char (e_value x ++ tail_text (e_tail x) ++ [NLC])) by (rewrite E; apply in_or_app; right; exact I). rewrite !in_app_iff in J. pose proof (no_eq value_like _ eq_refl (proj2 HV)). pose proof (tail_noeq _ HT). destruct J as [J|[J|[J|[]]]]; [tauto|tauto|discriminate J].
    + rewrite m_opt_no by reflexivity. change (seqs [lit "="; Grp 2 (Plus (Chr value_char)); Opt (Alt interval_re point_re)]) with (seqs from_eq). rewrite app_nil_l. rewrite value_match by assumption. cbn [length]. rewrite Nat.add_0_r. reflexivity.
Qed.
