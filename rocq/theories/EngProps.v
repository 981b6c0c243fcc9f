(** Properties C38-C39: engineering notation (spicelib/utils/float_unit.py). *)
From Coq Require Import String Ascii List Bool Arith ZArith QArith Qabs.
From Verif Require Import PyStr EngModel EngSpec EngProofs EngCaseProofs.
Import ListNotations.
Local Open Scope string_scope.
Local Open Scope list_scope.

(** Every number printed by format_eng is read back, completely, as a number with the same six significant
    digits; exactly the same number if it had no more than those. *)
Theorem C38_print_then_read : forall v : Q, exists r,
  parse_value (format_eng v) = Some (r, []) /\ scan_eng (format_eng v) = Some r /\ close r v /\ (six_digits v -> (r == v)%Q).
Proof.
  intros v. destruct (format_parse v) as (r & E & C & S). exists r. unfold scan_eng. rewrite E. repeat split; assumption.
Qed.
Print Assumptions C38_print_then_read.
Example C38_nonvacuous : six_digits (47 # 1000000000000) /\ format_eng (47 # 1000000000000) = s2l "47p" /\
  format_eng (-2200000) = s2l "-2.2Meg" /\ format_eng (2 # 3) = s2l "666.667m" /\ format_eng (6 # 10000000000000000000) = s2l "6.000000E-19".
Proof. split; [exists 47%Z, (-12)%Z; split; reflexivity|]. repeat split; vm_compute; reflexivity. Qed.

(** The case of letters other than M and F does not matter, in texts with at most one letter E. *)
Theorem C39_letter_case : forall s s', same_but_case s s' -> (count_e s <= 1)%nat -> scan_eng s = scan_eng s'.
Proof. exact scan_case. Qed.
Print Assumptions C39_letter_case.
Example C39_nonvacuous : same_but_case (s2l "2Meg") (s2l "2MEG") /\ same_but_case (s2l "4K7 ohm") (s2l "4k7 OHm") /\
  exists q, scan_eng (s2l "4K7 ohm") = Some q /\ (q == 4700)%Q.
Proof.
  split; [|split; [|eexists; split; vm_compute; reflexivity]];
  cbv -[other_case]; repeat (constructor; [first [left; reflexivity | right; split; [reflexivity|split; discriminate]]|]); constructor.
Qed.

(** Case does matter for M and F: a lower case meg is a milli, an upper case F is no femto; a second letter e
    in the exponent turns a number with a unit into an error. *)
Theorem C138_mega_milli_refuted :
  (exists q, scan_eng (s2l "2Meg") = Some q /\ (q == 2000000)%Q) /\
  (exists q, scan_eng (s2l "2meg") = Some q /\ (q == 2 # 1000)%Q) /\
  (exists q, scan_eng (s2l "1f") = Some q /\ (q == 1 # 1000000000000000)%Q) /\
  (exists q, scan_eng (s2l "1F") = Some q /\ (q == 1)%Q) /\
  (exists q, scan_eng (s2l "1e3e") = Some q /\ (q == 1000)%Q) /\ scan_eng (s2l "1e3E") = None.
Proof. repeat split; try (eexists; split; [vm_compute; reflexivity|vm_compute; reflexivity]). Qed.
Print Assumptions C138_mega_milli_refuted.

Lemma strip_around : forall b1 t b2, (forall c, In c (b1 ++ b2) -> is_space c = true) -> stops is_space t -> stops is_space (rev t) -> t <> [] -> strip (b1 ++ t ++ b2) = t.
Proof.
  intros b1 t b2 Hb H1 H2 Hn. assert (forall f u (v : str), (forall c, In c u -> f c = true) -> lstrip_if f (u ++ v) = lstrip_if f v) as L.
  { intros f u v. induction u as [|c u IH]; intros H; [reflexivity|]. cbn [app lstrip_if]. rewrite (H c (or_introl eq_refl)). apply IH. intros d Hd. apply H. right. exact Hd. }
  unfold strip, strip_if, rstrip_if. rewrite L by (intros c Hc; apply Hb; apply in_or_app; left; exact Hc).
  assert (lstrip_if is_space (t ++ b2) = t ++ b2) as ->. { destruct t as [|c t]; [contradiction|]. cbn [app lstrip_if]. simpl in H1. rewrite H1. reflexivity. }
  rewrite rev_app_distr, L by (intros c Hc; apply Hb; apply in_or_app; right; apply in_rev; exact Hc).
  destruct (rev t) as [|c r] eqn:E; [exfalso; apply Hn; rewrite <- (rev_involutive t), E; reflexivity|]. cbn [lstrip_if]. simpl in H2. rewrite H2, <- E. apply rev_involutive.
Qed.
Lemma after_scale : forall x e (b u : str), In (x, e) scales -> unit_ok u -> forallb is_digit b = true -> forall num, num <> [] -> forallb (fun c => mem_c c (s2l "0123456789.+-")) num = true ->
  strip (num ++ s2l x ++ b ++ u) = num ++ s2l x ++ b ++ u ->
  parse_value (num ++ s2l x ++ b ++ u) = match pyfloat (match b with [] => num | _ => num ++ "."%char :: b end) with Some q => Some ((q * Qpower 10 e)%Q, u) | None => None end.
Proof.
  intros x e b u Hx Hu Hb num Hn Hnum Hst. unfold parse_value. rewrite Hst.
  assert (span (fun c => mem_c c (s2l "0123456789.+-")) (num ++ s2l x ++ b ++ u) = (num, s2l x ++ b ++ u)) as ->.
  { apply span_app; [exact Hnum|]. repeat (destruct Hx as [Hx|Hx]; [injection Hx as <- <-; reflexivity|]). destruct Hx. }
  destruct num as [|c0 t0] eqn:E; [contradiction|]. rewrite <- E.
  assert (span is_digit (b ++ u) = (b, u)) as Sb. { apply span_app; [exact Hb|]. destruct Hu as [H _]. destruct u; [exact I|exact (proj1 H)]. }
  assert (lstrip_if (fun c => mem_c c [" "%char; "009"%char]) u = u) as Lu.
  { destruct Hu as [H _]. destruct u as [|c u]; [reflexivity|]. destruct H as [_ H]. cbn [lstrip_if mem_c existsb]. destruct (aeqb c " ") eqn:E1; [apply aeqb_eq in E1; subst; discriminate H|]. destruct (aeqb c "009") eqn:E2; [apply aeqb_eq in E2; subst; discriminate H|]. reflexivity. }
  assert (match u with [] => @nil ascii | _ :: _ => u end = u) as Mu by (destruct u; reflexivity).
  assert (exists c y, s2l x ++ b ++ u = c :: y /\ aeqb (upper_c c) "E" = false) as (c & y & Ec & Ee).
  { clear - Hx. repeat (destruct Hx as [Hx|Hx]; [injection Hx as <- <-; eexists _, _; split; [reflexivity|reflexivity]|]). destruct Hx. }
  rewrite Ec, Ee. rewrite <- Ec. clear c y Ec Ee.
  match goal with |- match ?m with (p, q) => _ end = _ => assert (m = (Qpower 10 e, @nil ascii, b ++ u)) as -> end.
  { clear - Hx. revert Hx. generalize (b ++ u). intros y Hx. repeat (destruct Hx as [Hx|Hx]; [injection Hx as <- <-; reflexivity|]). destruct Hx. }
  rewrite Sb, Lu, Mu. reflexivity.
Qed.
Lemma decimal_value : forall a b, decimal a b = dec_value a b.
Proof. reflexivity. Qed.
(** Property C79: a decimal number followed by a scale factor and a unit denotes the number times the factor, and its unit is the text
    after it, also when the factor stands in place of the decimal point; blanks around it do not count. *)
Theorem C79_scaled_numbers : forall neg a b x e u b1 b2, a <> [] -> forallb is_digit (a ++ b) = true -> In (x, e) scales -> unit_ok u ->
  (forall c, In c (b1 ++ b2) -> is_space c = true) ->
  (exists r, parse_value (b1 ++ (minus neg ++ a ++ point b ++ s2l x ++ u) ++ b2) = Some (r, u) /\ (r == (if neg then - decimal a b else decimal a b) * Qpower 10 e)%Q) /\
  (b <> [] -> exists r, parse_value (b1 ++ (minus neg ++ a ++ s2l x ++ b ++ u) ++ b2) = Some (r, u) /\ (r == (if neg then - decimal a b else decimal a b) * Qpower 10 e)%Q).
Proof.
  intros neg a b x e u b1 b2 Ha Hd Hx Hu Hb. pose proof (numchars_text neg a b Hd) as N1.
  assert (forallb is_digit a = true /\ forallb is_digit b = true) as [Da Db] by (rewrite forallb_app in Hd; apply andb_true_iff; exact Hd).
  assert (forallb (fun c => mem_c c (s2l "0123456789.+-")) (minus neg ++ a) = true) as N2 by (rewrite forallb_app, (numchars_digits a Da); destruct neg; reflexivity).
  assert (exists c z, s2l x = z ++ [c] /\ is_space c = false) as (c & z & Ez & Ec). { clear - Hx. repeat (destruct Hx as [Hx|Hx]; [injection Hx as <- <-; first [exists "G"%char, (s2l "ME"); split; reflexivity | exists "g"%char, (s2l "Me"); split; reflexivity | eexists _, []; split; reflexivity]|]). destruct Hx. }
  assert (forall num d, num <> [] -> forallb (fun c => mem_c c (s2l "0123456789.+-")) num = true -> forallb is_digit d = true ->
            parse_value (b1 ++ (num ++ s2l x ++ d ++ u) ++ b2) = parse_value (num ++ s2l x ++ d ++ u) /\ strip (num ++ s2l x ++ d ++ u) = num ++ s2l x ++ d ++ u) as ST.
  { intros num d Hn Hc Hdd. assert (stops is_space (num ++ s2l x ++ d ++ u)) as S1. { destruct num as [|h t]; [contradiction|]. cbn [forallb] in Hc. apply andb_true_iff in Hc. cbn [app]. apply not_space_numchar. exact (proj1 Hc). }
    assert (stops is_space (rev (num ++ s2l x ++ d ++ u))) as S2.
    { rewrite !rev_app_distr. destruct Hu as [_ Hu]. destruct (rev u) as [|h t]; [|exact Hu]. cbn [app]. destruct (rev d) as [|h t] eqn:E.
      - cbn [app]. rewrite Ez, rev_app_distr. exact Ec.
      - assert (In h d) as Hh by (apply in_rev; rewrite E; left; reflexivity). rewrite forallb_forall in Hdd. cbn [app]. specialize (Hdd h Hh). unfold stops. clear - Hdd. apply digit_cases in Hdd. repeat (destruct Hdd as [<-|Hdd]; [reflexivity|]). destruct Hdd. }
    assert (num ++ s2l x ++ d ++ u <> []) as Hne by (destruct num; [contradiction|discriminate]).
    pose proof (strip_around b1 _ b2 Hb S1 S2 Hne) as Q1. pose proof (strip_around [] _ [] (fun c (H : In c ([] ++ [])) => match H with end) S1 S2 Hne) as Q2. cbn [app] in Q2. rewrite app_nil_r in Q2. split; [|exact Q2].
    unfold parse_value. rewrite Q1, Q2. reflexivity. }
  split.
  - replace (minus neg ++ a ++ point b ++ s2l x ++ u) with ((sg neg ++ dec_text a b) ++ s2l x ++ [] ++ u) by (unfold dec_text, point, minus, sg; destruct b; rewrite <- ?app_assoc; reflexivity).
    assert (sg neg ++ dec_text a b <> []) as Hn by (destruct neg; [discriminate|destruct a; [contradiction|discriminate]]).
    destruct (ST _ [] Hn N1 eq_refl) as [-> S]. rewrite (after_scale x e [] u Hx Hu eq_refl _ Hn N1 S).
    pose proof (pyfloat_dec neg a b [] Ha Hd I I) as P. rewrite app_nil_r in P. rewrite P. eexists. split; [reflexivity|]. destruct neg; reflexivity.
  - intros Nb. replace (minus neg ++ a ++ s2l x ++ b ++ u) with ((minus neg ++ a) ++ s2l x ++ b ++ u) by (symmetry; apply app_assoc).
    assert (minus neg ++ a <> []) as Hn by (destruct neg; [discriminate|destruct a; [contradiction|discriminate]]).
    destruct (ST _ b Hn N2 Db) as [-> S]. rewrite (after_scale x e b u Hx Hu Db _ Hn N2 S).
    pose proof (pyfloat_dec neg a b [] Ha Hd I I) as P. rewrite app_nil_r in P. unfold dec_text in P. destruct b as [|h t0] eqn:E; [contradiction|]. assert (pyfloat ((minus neg ++ a) ++ "."%char :: h :: t0) = Some (sgn neg (dec_value a (h :: t0)))) as P' by (rewrite <- P; f_equal; symmetry; apply app_assoc). cbv iota. rewrite P'.
    eexists. split; [reflexivity|]. destruct neg; reflexivity.
Qed.
Print Assumptions C79_scaled_numbers.
Example C79_nonvacuous : In ("k", 3%Z) scales /\ unit_ok (s2l "ohm") /\
  option_map (fun r => (Qred (fst r), l2s (snd r))) (parse_value (s2l " 4k7ohm ")) = Some (4700%Q, "ohm") /\ option_map (fun r => (Qred (fst r), l2s (snd r))) (parse_value (s2l "-2.5%")) = Some ((-1 # 40)%Q, "").
Proof. split; [cbn; tauto|]. split; [split; [split|]; reflexivity|]. split; vm_compute; reflexivity. Qed.
