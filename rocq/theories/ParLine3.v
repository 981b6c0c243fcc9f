(** Proofs for the parameters of a netlist: changing a .PARAM line. *)
From Coq Require Import String Ascii List Bool Arith ZArith Lia.
From Verif Require Import PyStr EngModel EngProofs EngCaseProofs PTokModel PTokSpec PTokProofs Regex RegexProofs RegexInv RegexMore CompModel CompSpec CompMatch CompFam CompProofs CompRewrite CompSelf CompProps
  SepModel UpdatesModel NetModel NetSpec NetProofs EditModel EditSpec EditProofs NetProps CmdSpec CmdProofs CmdProps ParModel ParSpec ParLine ParLine2.
Import ListNotations.
Local Open Scope string_scope.
Local Open Scope nat_scope.
Local Open Scope list_scope.

Lemma unit_no_space : forall c, unit_like c = true -> negb (is_space c) = true.
Proof. apply imp_sweep. vm_cast_no_check (eq_refl true). Qed.
Lemma digit_no_space : forall c, digit_like c = true -> negb (is_space c) = true.
Proof. apply imp_sweep. vm_cast_no_check (eq_refl true). Qed.
Lemma value_last : forall v, par_value v -> exists r c, v = r ++ [c] /\ is_space c = false.
Proof.
  intros v [s _ _|s _ _|d u N D U]; [exists ("{"%char :: s), "}"%char; auto|exists (quote :: s), quote; auto|].
  destruct (exists_last (l := d ++ u)) as (r & c & E); [destruct d; [contradiction|discriminate]|]. exists r, c. split; [exact E|]. apply negb_true_iff.
  assert (In c (d ++ u)) as I by (rewrite E; apply in_or_app; right; left; reflexivity). apply in_app_or in I. rewrite forallb_forall in D, U. destruct I as [I|I]; [apply digit_no_space; apply D; exact I|apply unit_no_space; apply U; exact I].
Qed.
Lemma value_strip : forall v, par_value v -> strip v = v.
Proof.
  intros v H. destruct (value_first v H) as (c & r & E & B). apply value_not_sep in B. apply negb_true_iff in B. apply orb_false_iff in B. destruct B as [B _]. rewrite E, strip_rstrip by exact B. rewrite <- E.
  destruct (value_last v H) as (q & z & -> & Z). rewrite rstrip_cons by exact Z. reflexivity.
Qed.
Lemma insert_mid_value : forall A0 y O x r v, strip v = v -> v <> [] ->
  exists post, (post = [] \/ post = [" "%char] /\ x <> " "%char) /\
    insert_section ((A0 ++ [y]) ++ O ++ x :: r) (Z.of_nat (length (A0 ++ [y]))) (Z.of_nat (length (A0 ++ [y]) + length O)) v =
    Some (strip ((A0 ++ [y]) ++ (if aeqb y " " then [] else [" "%char]) ++ v ++ post ++ x :: r)).
Proof.
  intros A0 y O x r v Hs Hn. unfold insert_section. destruct ((A0 ++ [y]) ++ O ++ x :: r) as [|l0 ls] eqn:El; [destruct A0; discriminate El|]. rewrite <- El. clear l0 ls El.
  destruct v as [|s0 sr] eqn:Ev; [contradiction|]. rewrite <- Ev in *. clear s0 sr Ev. rewrite Hs.
  assert ((if (0 <? Z.of_nat (length (A0 ++ [y])))%Z then option_map (fun c => negb (aeqb c " ")) (char_at ((A0 ++ [y]) ++ O ++ x :: r) (Z.of_nat (length (A0 ++ [y])) - 1)) else Some false) = Some (negb (aeqb y " "))) as ->.
  { rewrite app_length. cbn [length]. assert (0 <? Z.of_nat (length A0 + 1) = true)%Z as -> by (apply Z.ltb_lt; lia). replace (Z.of_nat (length A0 + 1) - 1)%Z with (Z.of_nat (length A0)) by lia. rewrite <- app_assoc. cbn [app].
    rewrite char_at_mid by reflexivity. reflexivity. }
  assert ((if (Z.of_nat (length (A0 ++ [y]) + length O) <? Z.of_nat (length ((A0 ++ [y]) ++ O ++ x :: r)))%Z then option_map (fun c => negb (aeqb c " ")) (char_at ((A0 ++ [y]) ++ O ++ x :: r) (Z.of_nat (length (A0 ++ [y]) + length O))) else Some false) = Some (negb (aeqb x " "))) as ->.
  { assert (Z.of_nat (length (A0 ++ [y]) + length O) <? Z.of_nat (length ((A0 ++ [y]) ++ O ++ x :: r)) = true)%Z as -> by (apply Z.ltb_lt; rewrite (app_length (A0 ++ [y])), (app_length O); cbn [length]; lia).
    rewrite app_assoc with (l := A0 ++ [y]). rewrite char_at_mid by (rewrite (app_length (A0 ++ [y])); reflexivity). reflexivity. }
  set (s2 := if negb (aeqb y " ") then " "%char :: v else v).
  exists (if negb (aeqb x " ") && (1 <? length s2) then [" "%char] else []). split.
  { destruct (aeqb x " ") eqn:X; cbn [negb andb]; [left; reflexivity|]. destruct (1 <? length s2); [right; split; [reflexivity|apply aeqb_neq; exact X]|left; reflexivity]. }
  f_equal. f_equal. rewrite !norm_nat. rewrite !(app_length (A0 ++ [y])), (app_length O).
  replace (Nat.min (length (A0 ++ [y])) (length (A0 ++ [y]) + (length O + length (x :: r)))) with (length (A0 ++ [y])) by lia. rewrite firstn_app, firstn_all, Nat.sub_diag. cbn [firstn]. rewrite app_nil_r.
  replace (Nat.min (length (A0 ++ [y]) + length O) (length (A0 ++ [y]) + (length O + length (x :: r)))) with (length ((A0 ++ [y]) ++ O)) by (rewrite (app_length (A0 ++ [y])); lia).
  rewrite app_assoc with (l := A0 ++ [y]) (m := O), skipn_app, skipn_all, Nat.sub_diag. cbn [skipn app]. f_equal. unfold s2.
  destruct (aeqb y " "); cbn [negb]; destruct (negb (aeqb x " ") && _); cbn [app]; rewrite <- ?app_assoc; reflexivity.
Qed.

Lemma rstrip_after : forall a t, (exists r c, a = r ++ [c] /\ is_space c = false) -> rstrip (a ++ t) = a ++ rstrip t.
Proof. intros a t (r & c & -> & C). rewrite <- !app_assoc. cbn [app]. apply rstrip_cons. exact C. Qed.
Lemma entries_last : forall l, Forall entry_ok l -> l <> [] -> exists r c, entries_text l = r ++ [c] /\ is_space c = false.
Proof.
  intros l H N. destruct (exists_last N) as (l0 & e & ->). apply Forall_app in H. destruct H as [_ H]. inversion H as [|? ? (_ & _ & _ & _ & _ & HV) _]; subst. destruct (value_last _ HV) as (r & c & E & C).
  exists (entries_text l0 ++ e_sep e ++ e_par e ++ e_b1 e ++ "="%char :: e_b2 e ++ r), c. split; [|exact C]. unfold entries_text. rewrite map_app, concat_app. cbn [map concat]. rewrite app_nil_r. unfold entry_text at 2. rewrite E.
  rewrite <- !app_assoc. cbn [app]. rewrite <- !app_assoc. reflexivity.
Qed.
Lemma on_entry_first : forall n f a e b, existsb (same_name n) a = false -> same_name n e = true -> on_entry n f (a ++ e :: b) = a ++ f e :: b.
Proof.
  intros n f a e b. induction a as [|x a IH]; intros A S; [cbn [app on_entry]; rewrite S; reflexivity|]. cbn [existsb] in A. apply orb_false_iff in A. destruct A as [X A]. cbn [app on_entry]. rewrite X. f_equal. apply IH; assumption.
Qed.
Lemma rstrip_spaces : forall t, match t with [] => True | c :: _ => c = " "%char end -> (forall c, In c (rstrip t) -> In c t) /\ match rstrip t with [] => True | c :: _ => c = " "%char end.
Proof.
  intros t H. destruct (rstrip_prefix t) as (k & E). split.
  - intros c Hc. rewrite E. apply in_or_app. left. exact Hc.
  - destruct (rstrip t) as [|c r]; [exact I|]. rewrite E in H. exact H.
Qed.
Lemma entries_app : forall a b, entries_text (a ++ b) = entries_text a ++ entries_text b.
Proof. intros a b. unfold entries_text. rewrite map_app, concat_app. reflexivity. Qed.
Theorem set_line_text : forall p n v a e b, pline_ok p -> par_value v -> l_pars p = a ++ e :: b -> existsb (same_name n) a = false -> same_name n e = true ->
  let s := length (l_lead p ++ l_word p) + length (entries_text a) + length (entry_text e) in
  insert_section (full (pline_text p)) (Z.of_nat (s - length (e_val e))) (Z.of_nat s) v = Some (pline_text (set_line n v p)).
Proof.
  intros p n v a e b HP HV EL A S s. pose proof HP as (HL & HW & HE & HF & HT & HT2). assert (HE2 := HE). rewrite EL in HE2. apply Forall_app in HE2. destruct HE2 as [HEa HE2]. inversion HE2 as [|? ? HEe HEb]; subst.
  pose proof HEe as (S1 & S2 & HN & B1 & B2 & V0).
  set (X := l_lead p ++ l_word p ++ entries_text a ++ e_sep e ++ e_par e ++ e_b1 e ++ "="%char :: e_b2 e).
  assert (exists A0 y, X = A0 ++ [y] /\ (if aeqb y " " then [] else [" "%char]) = (match e_b2 e with [] => [" "%char] | _ => [] end)) as (A0 & y & EX & EY).
  { destruct (e_b2 e) as [|c b2] eqn:E2.
    - exists (l_lead p ++ l_word p ++ entries_text a ++ e_sep e ++ e_par e ++ e_b1 e), "="%char. split; [|reflexivity]. unfold X. rewrite ?E2. rewrite <- ?app_assoc. reflexivity.
    - destruct (exists_last (l := c :: b2)) as (b' & z & Ez); [discriminate|]. rewrite Ez in *. exists (l_lead p ++ l_word p ++ entries_text a ++ e_sep e ++ e_par e ++ e_b1 e ++ "="%char :: b'), z. split.
      + unfold X. rewrite Ez. rewrite <- ?app_assoc. cbn [app]. rewrite <- ?app_assoc. reflexivity.
      + rewrite (B2 z) by (apply in_or_app; right; left; reflexivity). destruct b'; reflexivity. }
  assert (exists x r, entries_text b ++ l_tail p ++ [NL] = x :: r /\ (x <> " "%char -> b = [] /\ l_tail p = [] /\ x = NL /\ r = [])) as (x & r & ER & EX2).
  { destruct b as [|e' b].
    - destruct (l_tail p) as [|c t]; [exists NL, []; auto|]. exists c, (t ++ [NL]). split; [reflexivity|]. intros N. contradiction.
    - inversion HEb as [|? ? (T1 & T2 & _) _]; subst. destruct (e_sep e') as [|c t] eqn:Es; [contradiction|]. exists " "%char. eexists. split; [|intros N; contradiction N; reflexivity].
      unfold entries_text. cbn [map concat]. unfold entry_text at 1. rewrite Es. cbn [app]. rewrite (T1 c (or_introl eq_refl)). reflexivity. }
  assert (full (pline_text p) = X ++ e_val e ++ entries_text b ++ l_tail p ++ [NL]) as ET.
  { rewrite cut_text, EL, entries_app. change (entries_text (e :: b)) with (entry_text e ++ entries_text b). unfold X, entry_text. rewrite <- !app_assoc. cbn [app]. rewrite <- !app_assoc. reflexivity. }
  assert (s - length (e_val e) = length (A0 ++ [y])) as L1. { rewrite <- EX. unfold s, X, entry_text. repeat (rewrite ?app_length; cbn [length]). lia. }
  assert (s = length (A0 ++ [y]) + length (e_val e)) as L2. { rewrite <- EX. unfold s, X, entry_text. repeat (rewrite ?app_length; cbn [length]). lia. }
  rewrite L1, L2, ET, EX, ER. destruct (insert_mid_value A0 y (e_val e) x r v (value_strip v HV)) as (post & HP1 & ->); [destruct (value_first v HV) as (? & ? & -> & _); discriminate|]. f_equal.
  rewrite <- EX, EY, <- ER. clear EX EY L1 L2 A0 y.
  unfold pline_text. cbn [set_line l_lead l_word l_pars l_tail app]. rewrite EL, on_entry_first by assumption.
  set (e' := put_value v e). destruct (word_shape _ HW) as (q & EW & _ & NS & _).
  assert (X ++ match e_b2 e with [] => [" "%char] | _ :: _ => [] end ++ v ++ post ++ entries_text b ++ l_tail p ++ [NL] = l_lead p ++ l_word p ++ (entries_text a ++ entry_text e') ++ post ++ entries_text b ++ l_tail p ++ [NL]) as ->.
  { unfold X, e', entry_text. cbn [put_value e_sep e_par e_b1 e_b2 e_val]. destruct (e_b2 e); rewrite <- !app_assoc; cbn [app]; rewrite <- ?app_assoc; reflexivity. }
  rewrite strip_words.
  - f_equal. rewrite rstrip_after.
    + assert (concat (map entry_text (a ++ e' :: b)) ++ rstrip (l_tail p) = entries_text a ++ entry_text e' ++ entries_text b ++ rstrip (l_tail p)) as ->.
      { fold (entries_text (a ++ e' :: b)). rewrite entries_app. change (entries_text (e' :: b)) with (entry_text e' ++ entries_text b). rewrite <- !app_assoc. reflexivity. }
      rewrite <- app_assoc. do 2 f_equal. destruct HP1 as [-> | [-> NX]].
      * cbn [app]. destruct b as [|e2 b]; [cbn [entries_text map concat app]; apply (rstrip_full (l_tail p))|]. rewrite rstrip_after by (apply entries_last; [exact HEb|discriminate]). f_equal. apply (rstrip_full (l_tail p)).
      * destruct (EX2 NX) as (-> & -> & _ & _). reflexivity.
    + destruct (value_last v HV) as (r2 & c & E & C). exists (entries_text a ++ e_sep e' ++ e_par e' ++ e_b1 e' ++ "="%char :: e_b2 e' ++ r2), c. split; [|exact C].
      unfold entry_text. change (e_val e') with v. rewrite E. rewrite <- !app_assoc. cbn [app]. rewrite <- !app_assoc. reflexivity.
  - intros c Hc. left. apply HL. exact Hc.
  - intros c Hc. rewrite forallb_forall in NS. apply negb_true_iff. apply NS. exact Hc.
  - rewrite EW. discriminate.
Qed.
Lemma put_ok : forall v e, par_value v -> entry_ok e -> entry_ok (put_value v e).
Proof.
  intros v e HV (H1 & H2 & H3 & H4 & H5 & H6). unfold entry_ok. cbn [put_value e_sep e_par e_b1 e_b2 e_val]. split; [exact H1|]. split; [exact H2|]. split; [exact H3|]. split; [exact H4|]. split; [|exact HV].
  destruct (e_b2 e); [intros c [<-|[]]; reflexivity|exact H5].
Qed.
Theorem set_line_ok : forall p n v, pline_ok p -> par_value v -> pline_ok (set_line n v p).
Proof.
  intros p n v (HL & HW & HE & HF & HT & HT2) HV. unfold pline_ok. cbn [set_line l_lead l_word l_pars l_tail]. destruct (rstrip_spaces _ HT2) as [T1 T2].
  split; [intros c []|]. split; [exact HW|]. split; [|split; [|split; [intros c Hc; apply HT, T1; exact Hc|exact T2]]].
  - clear - HE HV. induction HE as [|e l H1 H2 IH]; [constructor|]. cbn [on_entry]. destruct (same_name n e); constructor; auto. apply put_ok; assumption.
  - destruct (l_pars p) as [|e l]; [exact I|]. cbn [on_entry]. destruct (same_name n e); exact HF.
Qed.
Theorem new_line_ok : forall n v, par_name_ok n -> par_value v -> match n with c :: _ => begins_value c = false | [] => True end -> pline_ok (new_line n v).
Proof.
  intros n v HN HV HF. unfold pline_ok. cbn [new_line l_lead l_word l_pars l_tail]. split; [intros c []|]. split; [reflexivity|]. split; [|split; [exact HF|split; [|reflexivity]]].
  - constructor; [|constructor]. unfold entry_ok. cbn [e_sep e_par e_b1 e_b2 e_val]. split; [intros c [<-|[]]; reflexivity|]. split; [discriminate|]. split; [exact HN|]. split; [intros c []|]. split; [intros c []|exact HV].
  - assert (forallb (fun c => negb (begins_value c) && negb (aeqb c NL)) (s2l "  ; Batch instruction") = true) as K by reflexivity. intros c Hc. rewrite forallb_forall in K. specialize (K c Hc). apply andb_true_iff in K. destruct K as [K1 K2].
    apply negb_true_iff in K1. apply negb_true_iff in K2. split; [exact K1|]. apply aeqb_neq. exact K2.
Qed.

(** removing *)
Lemma settable_nl : forall t z, t ++ [NL] = z -> settable z -> settable t.
Proof.
  intros t z <- (b1 & c & b2 & v & y & E & H). destruct (exists_last (l := v :: y)) as (y0 & l & EL); [discriminate|].
  replace (b1 ++ c :: b2 ++ v :: y) with ((b1 ++ c :: b2 ++ y0) ++ [l]) in E by (rewrite EL, <- !app_assoc; cbn [app]; rewrite <- !app_assoc; reflexivity). apply app_inj_tail in E. destruct E as [E <-].
  destruct y0 as [|v' y0]; [injection EL as EL _; destruct H as (_ & _ & _ & V); rewrite EL in V; discriminate V|]. injection EL as <- _. exists b1, c, b2, v, y0. auto.
Qed.
Lemma settable_setting : forall n x w t, upper w = upper n -> settable t -> setting_at n x (x ++ w ++ t).
Proof.
  intros n x w t U (b1 & c & b2 & v & y & -> & B1 & C & B2 & V). exists w, b1, c, b2, v, y. rewrite forallb_forall in B1, B2. repeat split; auto.
Qed.
Lemma drop_first : forall n a e b t, existsb (same_name n) a = false -> same_name n e = true ->
  drop_entry n (a ++ e :: b) t = match b with
                                 | [] => (a, e_sep e ++ t)
                                 | x :: r => (a ++ {| e_sep := e_sep e ++ e_sep x; e_par := e_par x; e_b1 := e_b1 x; e_b2 := e_b2 x; e_val := e_val x |} :: r, t)
                                 end.
Proof.
  intros n a e b t. induction a as [|x a IH]; intros A S; [cbn [app drop_entry]; rewrite S; destruct b; reflexivity|]. cbn [existsb] in A. apply orb_false_iff in A. destruct A as [X A]. cbn [app drop_entry]. rewrite X, IH by assumption. destruct b; reflexivity.
Qed.
Definition dropped (n : str) (p : pline) : pline := let (l, t) := drop_entry n (l_pars p) (l_tail p) in {| l_lead := l_lead p; l_word := l_word p; l_pars := l; l_tail := t |}.
Theorem drop_line_ok : forall n p, pline_ok p -> existsb (same_name n) (l_pars p) = true -> first_ok (fst (drop_entry n (l_pars p) (l_tail p))) -> pline_ok (dropped n p).
Proof.
  intros n p (HL & HW & HE & HF & HT & HT2) HX HF2. apply existsb_exists in HX. destruct HX as (e0 & I0 & S0).
  assert (exists a e b, l_pars p = a ++ e :: b /\ existsb (same_name n) a = false /\ same_name n e = true) as (a & e & b & EL & A & S).
  { clear - I0 S0. induction (l_pars p) as [|x l IH]; [destruct I0|]. destruct (same_name n x) eqn:X; [exists [], x, l; auto|]. destruct I0 as [->|I0]; [congruence|]. destruct (IH I0) as (a & e & b & -> & A & S). exists (x :: a), e, b. cbn [existsb]. rewrite X, A. auto. }
  unfold dropped. rewrite EL in *. rewrite drop_first in * by assumption. apply Forall_app in HE. destruct HE as [HEa HE]. inversion HE as [|? ? HEe HEb]; subst. destruct HEe as (S1 & S2 & _).
  destruct b as [|x r]; cbn [fst] in HF2; unfold pline_ok; cbn [l_lead l_word l_pars l_tail].
  - split; [exact HL|]. split; [exact HW|]. split; [exact HEa|]. split; [exact HF2|]. split.
    + intros c Hc. apply in_app_or in Hc. destruct Hc as [Hc|Hc]; [rewrite (S1 c Hc); split; [reflexivity|discriminate]|apply HT; exact Hc].
    + destruct (e_sep e) as [|c s]; [contradiction|]. apply S1. left. reflexivity.
  - split; [exact HL|]. split; [exact HW|]. split; [|split; [exact HF2|split; [exact HT|exact HT2]]]. apply Forall_app. split; [exact HEa|]. inversion HEb as [|? ? (T1 & T2 & T3) HEr]; subst. constructor; [|exact HEr].
    unfold entry_ok. cbn [e_sep e_par e_b1 e_b2 e_val]. split; [|split; [|exact T3]].
    + intros c Hc. apply in_app_or in Hc. destruct Hc as [Hc|Hc]; [apply S1|apply T1]; exact Hc.
    + destruct (e_sep e); [contradiction|discriminate].
Qed.
Theorem drop_line_text : forall n p, pline_ok p -> par_name_ok n -> existsb (same_name n) (l_pars p) = true -> set_once n p ->
  sub_empty (setting_re (ilit n)) (full (pline_text p)) = full (pline_text (dropped n p)).
Proof.
  intros n p HP HN HX HO. pose proof HP as (HL & HW & HE & HF & HT & HT2). apply existsb_exists in HX. destruct HX as (e0 & I0 & S0).
  assert (exists a e b, l_pars p = a ++ e :: b /\ existsb (same_name n) a = false /\ same_name n e = true) as (a & e & b & EL & A & S).
  { clear - I0 S0. induction (l_pars p) as [|x l IH]; [destruct I0|]. destruct (same_name n x) eqn:X; [exists [], x, l; auto|]. destruct I0 as [->|I0]; [congruence|]. destruct (IH I0) as (a & e & b & -> & A & S). exists (x :: a), e, b. cbn [existsb]. rewrite X, A. auto. }
  clear e0 I0 S0. assert (HE2 := HE). rewrite EL in HE2. apply Forall_app in HE2. destruct HE2 as [HEa HE2]. inversion HE2 as [|? ? HEe HEb]; subst.
  pose proof S as SU. unfold same_name in SU. apply str_eqb_eq in SU.
  set (X := l_lead p ++ l_word p ++ entries_text a ++ e_sep e). set (Y := entries_text b ++ l_tail p ++ [NL]).
  assert (full (pline_text p) = X ++ body e ++ Y) as ET.
  { rewrite cut_text, EL, entries_app. change (entries_text (e :: b)) with (entry_text e ++ entries_text b). unfold X, Y. rewrite entry_body, <- !app_assoc. reflexivity. }
  assert (forall x w t, full (pline_text p) = x ++ w ++ t -> upper w = upper n -> settable t -> setting_at n x (pline_text p)) as TR.
  { intros x w t E U ST. destruct (exists_last (l := t)) as (t0 & z & Et); [intros ->; destruct ST as (b1 & ? & ? & ? & ? & E0 & _); destruct b1; discriminate E0|].
    assert (pline_text p = x ++ w ++ t0 /\ z = NL) as [E1 E2]. { unfold full in E. rewrite Et, !app_assoc in E. apply app_inj_tail in E. rewrite <- app_assoc in E. destruct E; auto. }
    subst z. rewrite E1. apply settable_setting; [exact U|]. apply (settable_nl t0 t); [symmetry; exact Et|exact ST]. }
  assert (settable (e_b1 e ++ "="%char :: e_b2 e ++ e_val e ++ Y)) as SE.
  { destruct HEe as (_ & _ & _ & B1 & B2 & V). destruct (value_first _ V) as (v & r & EV & BV). exists (e_b1 e), "="%char, (e_b2 e), v, (r ++ Y). rewrite EV. split; [reflexivity|]. split; [apply space_run; exact B1|]. split; [left; reflexivity|]. split; [apply space_run; exact B2|exact BV]. }
  assert (setting_at n X (pline_text p)) as SX. { apply (TR X (e_par e) (e_b1 e ++ "="%char :: e_b2 e ++ e_val e ++ Y)); [|exact SU|exact SE]. rewrite ET. unfold body. rewrite <- !app_assoc. cbn [app]. rewrite <- !app_assoc. reflexivity. }
  assert (forall x y q, full (pline_text p) = x ++ y -> x <> X -> m (setting_re (ilit n)) q y [] fin = None) as NM.
  { intros x y q E NX. apply no_match; [apply lit_gids|]. intros w t c -> R ST. apply NX. apply HO; [|exact SX]. apply (TR x w t); [exact E|eapply lit_reach; [reflexivity|exact R]|exact ST]. }
  destruct (setting_match (ilit n) e (length X) Y HEe) as (c & M & CN & CV); [unfold Y; apply entries_stop; [exact HEb|apply tail_stops; exact HT2]|apply lit_taken; exact SU|].
  assert (find_all (length (full (pline_text p))) (setting_re (ilit n)) 0 (full (pline_text p)) = [(length X, length X + length (body e), c)]) as FA.
  { assert (length (full (pline_text p)) <> 0) as NZ by (unfold full; rewrite app_length; cbn [length]; lia). destruct (length (full (pline_text p))) as [|f] eqn:EF; [contradiction|]. clear EF NZ. rewrite ET at 1.
    rewrite find_skip.
    - cbn [find_all Nat.add]. rewrite (search_hit _ _ _ _ _ M). replace (length X + length (body e) - length X) with (length (body e)) by lia. rewrite skipn_app, skipn_all, Nat.sub_diag. cbn [skipn app]. f_equal.
      destruct f; cbn [find_all].
      + rewrite search_none; [reflexivity|]. intros x y E. apply (NM (X ++ body e ++ x) y); [rewrite ET, E, <- !app_assoc; reflexivity|]. intros G. rewrite <- (app_nil_r X) in G at 2. apply app_inv_head in G. unfold body in G.
        destruct HEe as (_ & _ & (NE & _) & _). destruct (e_par e); [contradiction|discriminate G].
      + rewrite search_none; [reflexivity|]. intros x y E. apply (NM (X ++ body e ++ x) y); [rewrite ET, E, <- !app_assoc; reflexivity|]. intros G. rewrite <- (app_nil_r X) in G at 2. apply app_inv_head in G. unfold body in G.
        destruct HEe as (_ & _ & (NE & _) & _). destruct (e_par e); [contradiction|discriminate G].
    - apply search_skip. intros x y E N. apply (NM x (y ++ body e ++ Y)); [rewrite ET, E, <- app_assoc; reflexivity|]. intros ->. rewrite <- (app_nil_r X) in E at 1. apply app_inv_head in E. subst y. contradiction N. reflexivity. }
  unfold sub_empty, finditer. rewrite FA. cbn [cut_out]. rewrite ET. unfold slice. cbn [fst snd skipn]. rewrite Nat.sub_0_r, firstn_app, firstn_all, Nat.sub_diag. cbn [firstn]. rewrite app_nil_r.
  replace (length X + length (body e)) with (length (X ++ body e)) by (rewrite app_length; reflexivity). rewrite app_assoc, skipn_app, skipn_all, Nat.sub_diag. cbn [skipn app].
  unfold dropped. rewrite EL, drop_first by assumption. rewrite cut_text. unfold X, Y. destruct b as [|x r]; cbn [l_lead l_word l_pars l_tail].
  - unfold entries_text at 2. cbn [map concat app]. rewrite <- !app_assoc. reflexivity.
  - rewrite entries_app. match goal with |- context [entries_text ({| e_sep := ?s; e_par := ?q; e_b1 := ?b1; e_b2 := ?b2; e_val := ?v |} :: r)] =>
      change (entries_text ({| e_sep := s; e_par := q; e_b1 := b1; e_b2 := b2; e_val := v |} :: r)) with ((s ++ q ++ b1 ++ "="%char :: b2 ++ v) ++ entries_text r) end.
    change (entries_text (x :: r)) with ((e_sep x ++ e_par x ++ e_b1 x ++ "="%char :: e_b2 x ++ e_val x) ++ entries_text r). rewrite <- !app_assoc. reflexivity.
Qed.
