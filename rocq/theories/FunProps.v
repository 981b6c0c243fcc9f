(** Properties of quantities with units (C292-C298). *)
From Coq Require Import String Ascii List Bool Arith ZArith QArith Qround Qabs Lia Lqa Qpower.
From Verif Require Import PyStr StepsModel EngModel EngSpec EngProofs EngProps FunModel FunSpec FunProofs.
Import ListNotations.
Local Open Scope string_scope. Local Open Scope nat_scope. Local Open Scope list_scope.

(** A quantity made of a text is printed as that text until it is cleaned or given a unit; then, and always when it was
    made of a number, it is printed as the number in engineering notation followed by the sign of its unit. *)
Theorem C292_printed_text : forall s unit x, of_text s unit = Some x ->
  show x = strip s /\ show (clean x) = format_eng (f_val x) ++ sign (f_unit x) /\ f_val (clean x) = f_val x /\ f_unit (clean x) = f_unit x /\
  (forall name y, set_unit name x = Some y -> f_val y = f_val x /\ show y = format_eng (f_val x) ++ sign (f_unit y)).
Proof.
  intros s unit x H. unfold of_text in H. destruct (parse_value s) as [[q u0]|] eqn:P; [|discriminate].
  assert (strip s <> []) as NE by (intros Z; unfold parse_value in P; rewrite Z in P; discriminate P).
  assert (exists w, x = Fu q (Some (strip s)) w) as (w & ->).
  { destruct u0; [injection H as <-; eexists; reflexivity|]. destruct (_ && _); [discriminate|]. injection H as <-. eexists. reflexivity. }
  split; [unfold show; cbn [f_text]; destruct (strip s); [contradiction|reflexivity]|]. split; [reflexivity|]. split; [reflexivity|]. split; [reflexivity|].
  intros name y E. unfold set_unit in E. destruct (dget name units); [injection E as <-; split; reflexivity|].
  destruct (find _ units) as [[k v]|]; [injection E as <-; split; reflexivity|discriminate].
Qed.
Print Assumptions C292_printed_text.
Theorem C292_printed_number : forall q unit, show (of_number q unit) = format_eng q ++ sign (f_unit (of_number q unit)).
Proof. reflexivity. Qed.
Print Assumptions C292_printed_number.
Example C292_nonvacuous : exists x, of_text (s2l " 4k7 ") (s2l "V") = Some x /\ l2s (show x) = "4k7" /\ l2s (show (clean x)) = "4.7kV" /\
  option_map (fun y => l2s (show y)) (set_unit (s2l "Ampere") x) = Some "4.7kA".
Proof. eexists. split; [vm_compute; reflexivity|]. repeat split; vm_compute; reflexivity. Qed.

Lemma readable_head : forall u, In u readable_units -> unit_head (sign u) /\ lookup_unit (sign u) = u /\ (sign u = [] -> u = NoUnit).
Proof.
  intros u H. repeat (destruct H as [<- |H]; [split; [split; [first [exact I|repeat split; vm_compute; congruence]|vm_compute; first [exact I|reflexivity]]|split; [reflexivity|first [reflexivity|discriminate]]]|]). destruct H.
Qed.
Lemma close_eq : forall a b v, (a == b)%Q -> close b v -> close a v.
Proof. intros a b v E H. unfold close in *. rewrite E. exact H. Qed.
(** Printing a number with a unit and reading the text gives the number back to six digits, with its unit. *)
Theorem C293_unit_read_back : forall v name, In (f_unit (of_number v name)) readable_units ->
  exists x, of_text (show (of_number v name)) [] = Some x /\ f_unit x = f_unit (of_number v name) /\ close (f_val x) v /\ (six_digits v -> (f_val x == v)%Q).
Proof.
  intros v name H. set (u := f_unit (of_number v name)) in *. change (show (of_number v name)) with (format_eng v ++ sign u).
  destruct (readable_head u H) as (UH & LU & NU). destruct (format_shape v) as (num & rest & FE & SH & _).
  destruct (format_parse v) as (r & P & C & S6). rewrite FE in P |- *. rewrite <- app_assoc.
  destruct (parse_with_unit num rest (sign u) r SH UH P) as (r' & P' & E).
  unfold of_text. rewrite P'. destruct (sign u) as [|c t] eqn:SG.
  - eexists. split; [reflexivity|]. cbn [f_unit f_val]. split; [rewrite (NU eq_refl); reflexivity|]. split; [exact (close_eq _ _ _ E C)|intros K; rewrite E; exact (S6 K)].
  - cbn [str_eqb negb andb]. eexists. split; [reflexivity|]. cbn [f_unit f_val]. split; [exact LU|]. split; [exact (close_eq _ _ _ E C)|intros K; rewrite E; exact (S6 K)].
Qed.
Print Assumptions C293_unit_read_back.
Example C293_nonvacuous : In (f_unit (of_number (47 # 10) (s2l "R"))) readable_units /\ l2s (show (of_number (4700 # 1) (s2l "R"))) = "4.7kohm".
Proof. split; [cbn; tauto|vm_compute; reflexivity]. Qed.

Lemma parse_after : forall num c w, num <> [] -> forallb numch num = true -> numch c = false -> strip (num ++ c :: w) = num ++ c :: w -> parse_value (num ++ c :: w) = after num (c :: w).
Proof.
  intros num c w NE NF C ST. unfold parse_value. rewrite ST.
  assert (span (fun c => mem_c c (s2l "0123456789.+-")) (num ++ c :: w) = (num, c :: w)) as -> by (apply span_app; [exact NF|exact C]).
  destruct num; [contradiction|reflexivity].
Qed.
Lemma parse_num : forall num q, num <> [] -> forallb numch num = true -> parse_value num = Some (q, []) -> pyfloat num = Some q.
Proof.
  intros num q NE NF P. unfold parse_value in P.
  assert (strip num = num) as ST.
  { apply strip_id; [destruct num as [|c t]; [contradiction|]; cbn [stops]; apply (numch_not_space _ NF); left; reflexivity|].
    destruct (rev num) as [|c t] eqn:R; [exact I|]. cbn [stops]. apply (numch_not_space _ NF). apply in_rev. rewrite R. left. reflexivity. }
  rewrite ST in P. assert (span (fun c => mem_c c (s2l "0123456789.+-")) num = (num, [])) as E.
  { rewrite <- (app_nil_r num) at 1. apply span_app; [exact NF|exact I]. }
  rewrite E in P. destruct num; [contradiction|]. destruct (pyfloat _); [injection P as <-; reflexivity|discriminate].
Qed.
(** The text of a number between 1 and 1000 has no scale factor, so the unit's sign follows the digits. *)
Lemma plain_text : forall v, (1 <= Qabs v)%Q -> (Qabs v < 1000)%Q -> exists num r, format_eng v = num /\ num <> [] /\ forallb numch num = true /\
  pyfloat num = Some r /\ close r v.
Proof.
  intros v L U. destruct (format_shape v) as (num & rest & FE & (NE & NF & _) & Z). rewrite (Z L U), app_nil_r in FE.
  destruct (format_parse v) as (r & P & C & _). rewrite FE in P. exists num, r. split; [exact FE|]. split; [exact NE|]. split; [exact NF|]. split; [exact (parse_num _ _ NE NF P)|exact C].
Qed.
Lemma plain_strip : forall num w, num <> [] -> forallb numch num = true -> stops is_space (rev w) -> strip (num ++ w) = num ++ w.
Proof.
  intros num w NE NF R. apply strip_id; [destruct num as [|c t]; [contradiction|]; cbn [app stops]; apply (numch_not_space _ NF); left; reflexivity|].
  rewrite rev_app_distr. destruct (rev w); [|exact R]. cbn [app]. destruct (rev num) as [|c t] eqn:E; [exact I|]. cbn [stops]. apply (numch_not_space _ NF). apply in_rev. rewrite E. left. reflexivity.
Qed.
(** A number with the unit volts or amperes r.m.s. or degrees comes back as a number without unit. *)
Theorem C294_unit_lost_refuted : forall v u, In u [Degrees; VrmsU; ArmsU] ->
  exists x, of_text (show (Fu v None u)) [] = Some x /\ f_unit x = NoUnit /\ close (f_val x) v.
Proof.
  intros v u H. change (show (Fu v None u)) with (format_eng v ++ sign u).
  assert (unit_head (sign u) /\ lookup_unit (sign u) = NoUnit /\ sign u <> []) as (UH & LU & NU).
  { repeat (destruct H as [<- |H]; [split; [split; [repeat split; vm_compute; congruence|vm_compute; reflexivity]|split; [reflexivity|discriminate]]|]). destruct H. }
  destruct (format_shape v) as (num & rest & FE & SH & _).
  destruct (format_parse v) as (r & P & C & _). rewrite FE in P |- *. rewrite <- app_assoc.
  destruct (parse_with_unit num rest (sign u) r SH UH P) as (r' & P' & E).
  unfold of_text. rewrite P'. destruct (sign u) as [|c t] eqn:SG; [contradiction|]. cbn [str_eqb negb andb].
  eexists. split; [reflexivity|]. split; [exact LU|exact (close_eq _ _ _ E C)].
Qed.
Print Assumptions C294_unit_lost_refuted.
(** 1 to 1000 kelvin, per cent, ppm come back multiplied by 1000, 1/100, 1e-12, without unit; radians come back without unit. *)
Theorem C294_number_changed_refuted : forall v, (1 <= Qabs v)%Q -> (Qabs v < 1000)%Q ->
  (exists r x, close r v /\ of_text (show (of_number v (s2l "K"))) [] = Some x /\ (f_val x == r * 1000)%Q /\ f_unit x = NoUnit) /\
  (exists r x, close r v /\ of_text (show (of_number v (s2l "%"))) [] = Some x /\ (f_val x == r / 100)%Q /\ f_unit x = NoUnit) /\
  (exists r x, close r v /\ of_text (show (Fu v None Ppm)) [] = Some x /\ (f_val x == r / 1000000000000)%Q /\ f_unit x = NoUnit) /\
  (exists r x, close r v /\ of_text (show (of_number v (s2l "RAD"))) [] = Some x /\ (f_val x == r)%Q /\ f_unit x = NoUnit).
Proof.
  intros v L U. destruct (plain_text v L U) as (num & r & FE & NE & NF & PF & C).
  assert (forall c w m q, numch c = false -> stops is_space (rev (c :: w)) -> aeqb (upper_c c) "E" = false -> mem_c c [" "%char; "009"%char] = false -> mult c = Some m ->
    startswith (s2l "MEG") (upper (c :: w)) = false -> clear_of w -> lookup_unit w = NoUnit -> (m == q)%Q ->
    exists x, of_text (num ++ c :: w) [] = Some x /\ (f_val x == r * q)%Q /\ f_unit x = NoUnit) as G.
  { intros c w m q H1 H2 H3 H4 H5 H6 H7 H8 H9. unfold of_text. rewrite (parse_after num c w NE NF H1 (plain_strip _ _ NE NF H2)).
    rewrite (one_char c m w num H3 H4 H5 H6 H7), PF. destruct w; cbn [str_eqb negb andb]; eexists; (split; [reflexivity|]); cbn [f_val f_unit];
    (split; [rewrite H9; reflexivity|first [reflexivity|exact H8]]). }
  unfold of_number, show. cbn [f_text f_val f_unit]. rewrite FE.
  split; [|split; [|split]].
  - destruct (G "K"%char [] (Qpower 10 3) 1000%Q) as (x & A & B & D); try reflexivity; [split; [exact I|split; [reflexivity|exact I]]|]. exists r, x. repeat split; assumption.
  - destruct (G "%"%char [] (Qpower 10 (-2)) (1 # 100)%Q) as (x & A & B & D); try reflexivity; [split; [exact I|split; [reflexivity|exact I]]|]. exists r, x. repeat split; assumption.
  - destruct (G "p"%char (s2l "pm") (Qpower 10 (-12)) (1 # 1000000000000)%Q) as (x & A & B & D); try reflexivity; [split; [reflexivity|split; [reflexivity|discriminate]]|]. exists r, x. repeat split; assumption.
  - exists r. change (sign (lookup_unit (s2l "RAD"))) with ("r"%char :: s2l "ad"). unfold of_text. rewrite (parse_after num "r" (s2l "ad") NE NF eq_refl (plain_strip num ("r"%char :: s2l "ad") NE NF eq_refl)).
    assert (after num ("r"%char :: s2l "ad") = Some ((r * 1)%Q, s2l "ad")) as ->.
    { transitivity (match pyfloat num with Some q => Some ((q * 1)%Q, s2l "ad") | None => None end); [reflexivity|rewrite PF; reflexivity]. }
    cbn [str_eqb negb andb]. eexists. split; [exact C|]. split; [reflexivity|]. split; [cbn [f_val]; ring|reflexivity].
Qed.
Print Assumptions C294_number_changed_refuted.
Example C294_nonvacuous : l2s (show (of_number 300 (s2l "K"))) = "300K" /\
  option_map (fun x => (Qred (f_val x), f_unit x)) (of_text (s2l "300K") []) = Some (300000%Q, NoUnit).
Proof. split; vm_compute; reflexivity. Qed.

(** Setting a unit by its symbol, its singular or its plural name gives that unit, for all units but the r.m.s. ones and ppm;
    the number is kept; any other name is refused. *)
Theorem C295_unit_by_name : forall x name,
  (forall u, In (name, u) units -> exists y, set_unit name x = Some y /\ f_unit y = u /\ f_val y = f_val x) /\
  (forall u, ~ In u [NoUnit; Ppm; VrmsU; ArmsU] -> name = one_name u \/ name = many_name u ->
     exists y, set_unit name x = Some y /\ f_unit y = u /\ f_val y = f_val x) /\
  ((forall u, ~ In (name, u) units) -> (forall u, In u (map snd units) -> name <> one_name u /\ name <> many_name u) -> set_unit name x = None).
Proof.
  intros x name. split; [|split].
  - intros u H. repeat (destruct H as [H|H]; [injection H as <- <-; eexists; split; [reflexivity|split; reflexivity]|]). destruct H.
  - intros u NI [-> | ->]; destruct u; try (exfalso; apply NI; cbn; tauto); (eexists; split; [reflexivity|split; reflexivity]).
  - intros N1 N2. unfold set_unit. 
    assert (dget name units = None) as ->.
    { destruct (dget name units) as [u|] eqn:D; [|reflexivity]. exfalso. apply (N1 u). clear N1 N2. revert D. generalize units. intros l. induction l as [|[k w] l IH]; [discriminate|].
      unfold dget. cbn [find fst]. destruct (str_eqb k name) eqn:E; [intros D; injection D as <-; apply str_eqb_eq in E; subst; left; reflexivity|]. intros D. right. apply IH. exact D. }
    destruct (find _ units) as [[k w]|] eqn:F; [|reflexivity]. exfalso. apply find_some in F as (I & F). cbn [snd] in F.
    destruct (N2 w (in_map snd _ _ I)) as (A & B). apply orb_true_iff in F as [F|F]; apply str_eqb_eq in F; congruence.
Qed.
Print Assumptions C295_unit_by_name.
Example C295_nonvacuous : option_map f_unit (set_unit (s2l "Henries") (of_number 1 [])) = Some Henry /\ option_map f_unit (set_unit (s2l "R") (of_number 1 [])) = Some Ohm /\
  set_unit (s2l "Tesla") (of_number 1 []) = None.
Proof. repeat split; vm_compute; reflexivity. Qed.

(** A reading in amperes r.m.s. (unit ARMS) is printed, and named, as volts r.m.s.; "ppm", the name of a unit, is refused. *)
Theorem C296_rms_names_refuted : forall q x,
  show (of_number q (s2l "ARMS")) = format_eng q ++ s2l "Vrms" /\ show (of_number q (s2l "ARMS")) = show (of_number q (s2l "VRMS")) /\
  unit_long (of_number q (s2l "ARMS")) = unit_long (of_number q (s2l "VRMS")) /\ one_name Ppm = s2l "ppm" /\
  (exists y, set_unit (s2l "Vrms") x = Some y /\ f_unit y = ArmsU) /\ set_unit (s2l "Arms") x = None /\ set_unit (s2l "ppm") x = None.
Proof.
  intros q x. split; [reflexivity|]. split; [reflexivity|]. split; [reflexivity|]. split; [reflexivity|]. split; [eexists; split; reflexivity|]. split; reflexivity.
Qed.
Print Assumptions C296_rms_names_refuted.
Example C296_nonvacuous : l2s (show (of_number 2 (s2l "ARMS"))) = "2Vrms".
Proof. vm_compute. reflexivity. Qed.

(** The result of an operation is the right number but has no unit, even when both numbers have the same; equality does not look at units. *)
Theorem C297_units_ignored_refuted : forall x y,
  (f_val (add x y) == f_val x + f_val y)%Q /\ f_unit (add x y) = NoUnit /\ (f_val (sub x y) == f_val x - f_val y)%Q /\ f_unit (sub x y) = NoUnit /\
  (f_val (mul x y) == f_val x * f_val y)%Q /\ f_unit (mul x y) = NoUnit /\
  (forall z, div x y = Some z -> ~ (f_val y == 0)%Q /\ (f_val z * f_val y == f_val x)%Q /\ f_unit z = NoUnit) /\
  (forall u, eq_number x (f_val (Fu (f_val x) None u)) = true).
Proof.
  intros x y. repeat (split; [reflexivity|]). split.
  - intros z H. unfold div in H. destruct (Qeq_bool (f_val y) 0) eqn:E; [discriminate|]. injection H as <-.
    assert (~ (f_val y == 0)%Q) as NZ by (intros K; apply Qeq_bool_iff in K; congruence).
    split; [exact NZ|]. split; [cbn [of_number f_val]; field; exact NZ|reflexivity].
  - intros u. unfold eq_number. cbn [f_val]. apply Qeq_bool_iff. reflexivity.
Qed.
Print Assumptions C297_units_ignored_refuted.
Example C297_nonvacuous : l2s (show (add (of_number 1 (s2l "V")) (of_number 2 (s2l "V")))) = "3".
Proof. vm_compute. reflexivity. Qed.

(** A quantity equals a text exactly if the text is a number with the same value, whatever the units and the scale factors. *)
Theorem C298_equal_to_text : forall x s, eq_text x s = true <-> exists q u, parse_value s = Some (q, u) /\ (f_val x == q)%Q.
Proof.
  intros x s. unfold eq_text, of_text. destruct (parse_value s) as [[q u]|].
  - assert (exists y, (match u with [] => Some (Fu q (Some (strip s)) (lookup_unit [])) | _ => if negb (str_eqb [] []) && negb (str_eqb [] u) then None else Some (Fu q (Some (strip s)) (lookup_unit u)) end) = Some y /\ f_val y = q) as (y & -> & V).
    { destruct u; eexists; (split; [reflexivity|reflexivity]). }
    rewrite V. split; [intros H; apply Qeq_bool_iff in H; exists q, u; split; [reflexivity|exact H]|]. intros (q' & u' & E & H). injection E as <- <-. apply Qeq_bool_iff. exact H.
  - split; [discriminate|]. intros (q' & u' & E & _). discriminate.
Qed.
Print Assumptions C298_equal_to_text.
Example C298_nonvacuous : eq_text (of_number 4700 (s2l "R")) (s2l "4.7k") = true /\ eq_text (of_number 4700 (s2l "R")) (s2l "4k8") = false.
Proof. split; vm_compute; reflexivity. Qed.
