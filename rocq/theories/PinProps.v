(** C230-C234: where the pins of QSPICE components are.  The real numbers of the standard library are used: see Print Assumptions. *)
From Coq Require Import String Ascii List Bool Arith ZArith Reals Lra Lia.
From Verif Require Import PyStr QTagModel QTagSpec QEdModel AscModel AscSpec QNetModel QNetSpec AsyModel AsySpec AsyProps PinModel PinSpec PinProofs.
Import ListNotations.
Local Open Scope string_scope. Local Open Scope list_scope. Local Open Scope Z_scope.

(** C230: the trigonometry comes to the exact turn for pins on QSPICE's grid; different pins are at different places; other orientations fail. *)
Theorem C230_grid_pins : (forall p o q, on_hundreds q -> pin_place p o q = exact_place p o q) /\
  (forall p o q q' a, exact_place p o q = Some a -> exact_place p o q' = Some a -> q = q') /\
  (forall p o q, pin_place p o q = None <-> ~ 0 <= o <= 15).
Proof.
  split; [exact place_exact|]. split.
  - intros p o [x y] [x' y'] a. unfold exact_place. destruct ((0 <=? o) && (o <=? 15)) eqn:E; [|discriminate]. intros H H'. rewrite <- H in H'. clear H a.
    assert (I8 : forall k, turn8 k (x', y') = turn8 k (x, y) -> (x, y) = (x', y')).
    { intros k. unfold turn8, quarter, diagonal. destruct (Z.odd k), (k <? 2), (k <? 4), (k <? 6); cbn [fst snd]; intros K; injection K; intros; f_equal; lia. }
    injection H' as H1 H2. unfold turn in *. destruct (o <? 8).
    + apply (I8 o). rewrite (surjective_pairing (turn8 o (x', y'))), (surjective_pairing (turn8 o (x, y))). f_equal; lia.
    + apply (I8 (o - 8)). unfold mirror in *. cbn [fst snd] in *. rewrite (surjective_pairing (turn8 (o - 8) (x', y'))), (surjective_pairing (turn8 (o - 8) (x, y))). f_equal; lia.
  - intros p o q. unfold pin_place. destruct ((0 <=? o) && (o <=? 7)) eqn:E1; [|destruct ((8 <=? o) && (o <=? 15)) eqn:E2].
    + apply andb_true_iff in E1. rewrite !Z.leb_le in E1. split; [discriminate|lia].
    + apply andb_true_iff in E2. rewrite !Z.leb_le in E2. split; [discriminate|lia].
    + apply andb_false_iff in E1, E2. rewrite !Z.leb_gt in *. split; [lia|reflexivity].
Qed.
Print Assumptions C230_grid_pins.
Example C230_nonvacuous : on_hundreds (300, -200) /\ exact_place (1000, 0) 1 (300, -200) = Some (1500, 100) /\ exact_place (1000, 0) 14 (300, -200) = Some (1200, -300).
Proof. split; [|split; reflexivity]. split; [split; reflexivity|cbn [fst snd]; lia]. Qed.

(** C231: the pin of a turned component is where QSPICE draws it, on the grid or not.  The turned coordinates are rounded to multiples of 100:
    all pins less than 50 from the origin of the symbol in both directions are taken to be at the place of the component. *)
Theorem C231_off_grid_refuted : forall p o x y, 0 <= o <= 15 -> Z.even o = true -> Z.abs x < 50 -> Z.abs y < 50 -> pin_place p o (x, y) = Some p.
Proof.
  intros p o x y O E X Y.
  assert (R0 : forall m, Z.abs m < 50 -> round100 (IZR m) = 0).
  { intros m M. apply round100_near; [reflexivity|]. rewrite Rminus_0_r, <- abs_IZR. apply IZR_lt. exact M. }
  assert (R8 : forall k, 0 <= k <= 7 -> Z.odd k = false -> round100 (hypot (x, y) k * cos (atan2 (IZR y) (IZR x) + radians (IZR (k * 45))))%R = 0 /\ round100 (hypot (x, y) k * sin (atan2 (IZR y) (IZR x) + radians (IZR (k * 45))))%R = 0).
  { intros k K OD. pose proof (turned_coords x y k K) as (A & B). cbv zeta in A, B. rewrite OD in A, B. rewrite Rmult_1_l in A, B. rewrite A, B. split; apply R0;
    (unfold turn8; rewrite OD; unfold quarter; destruct (k <? 2), (k <? 4), (k <? 6); cbn [fst snd]; lia). }
  assert (OD : Z.odd o = false) by (rewrite <- Z.negb_even, E; reflexivity).
  unfold pin_place. cbn [fst snd]. destruct ((0 <=? o) && (o <=? 7)) eqn:E1.
  - apply andb_true_iff in E1. rewrite !Z.leb_le in E1. destruct (R8 o E1 OD) as (-> & ->). destruct p as [a b]. cbn [fst snd]. f_equal. f_equal; lia.
  - assert ((8 <=? o) && (o <=? 15) = true) as -> by (apply andb_false_iff in E1; apply andb_true_iff; rewrite !Z.leb_gt in *; rewrite !Z.leb_le; lia).
    assert (O8 : Z.odd (o - 8) = false) by (rewrite Z.odd_sub, OD; reflexivity).
    assert (HO : hypot (x, y) o = hypot (x, y) (o - 8)) by (unfold hypot; rewrite OD, O8; reflexivity).
    assert (K : 0 <= o - 8 <= 7) by (apply andb_false_iff in E1; rewrite !Z.leb_gt in *; lia).
    rewrite HO. destruct (R8 (o - 8) K O8) as (-> & ->). destruct p as [a b]. cbn [fst snd]. f_equal. f_equal; lia.
Qed.
Print Assumptions C231_off_grid_refuted.
(** Both ends of a small symbol. *)
Example C231_nonvacuous : pin_place (500, 500) 0 (0, 40) = Some (500, 500) /\ pin_place (500, 500) 0 (0, -40) = Some (500, 500) /\ exact_place (500, 500) 0 (0, 40) <> exact_place (500, 500) 0 (0, -40).
Proof. split; [|split; [|discriminate]]; apply C231_off_grid_refuted; try reflexivity; lia. Qed.

(** C232: with all pins on the grid the nodes of the components are those of the exact places, to which C187 (the nodes are those of the labels
    and wires at the places) applies. *)
Definition pins_on_grid (t : tag) : Prop := forall u y k q, In u (children "component" t) -> In y (children "symbol" u) -> In k (children "pin" y) ->
  get_attr 1 k = Some (APair [fst q; snd q]) -> on_hundreds q.
Theorem C232_exact_nodes : forall t, pins_on_grid t -> component_nets pin_place t = component_nets exact_place t.
Proof.
  intros t G. unfold component_nets.
  assert (MO : forall A B (f g : A -> option B) l, (forall x, In x l -> f x = g x) -> map_opt f l = map_opt g l).
  { intros A B f g l. induction l as [|x l IH]; intros H; [reflexivity|]. cbn [map_opt]. rewrite (H x (or_introl eq_refl)), IH by (intros z I; apply H; right; exact I). reflexivity. }
  assert (map_opt (comp_of pin_place) (get_items COMPONENT t) = map_opt (comp_of exact_place) (get_items COMPONENT t)) as ->; [|reflexivity].
  apply MO. intros u IU. unfold comp_of. destruct (ref_value u) as [[[|c r] v]|]; try reflexivity. destruct (pair_attr 1 u) as [p|]; [|reflexivity]. destruct (get_attr 2 u) as [[| | |]|]; try reflexivity. destruct (get_attr 3 u); [|reflexivity].
  destruct (symbol_of u) as [y|] eqn:SY; [|reflexivity]. f_equal. apply MO. intros k IK. unfold pin_of. destruct (pair_attr 1 k) as [q|] eqn:PA; [|reflexivity].
  rewrite place_exact; [reflexivity|]. apply (G u y k q).
  - exact IU.
  - unfold symbol_of in SY. change (children "symbol" u) with (get_items SYMBOL u). exact (nth_error_In _ _ SY).
  - exact IK.
  - unfold pair_attr in PA. destruct (get_attr 1 k) as [[| |[|x1 [|x2 [|]]]|]|]; try discriminate PA. injection PA as <-. reflexivity.
Qed.
Print Assumptions C232_exact_nodes.

(** A schematic with a label and a wire at the pins of a turned resistor. *)
Definition turned_r : tag :=
  let num z := show_int z in let pt x y := ("("%char :: num x ++ ","%char :: num y ++ [")"%char]) in
  let q s := (DQ :: s2l s ++ [DQ]) in let zero := s2l "0" in
  Tag [s2l "schematic"]
    [Tag [s2l "component"; pt 1000 0; s2l "2"; zero]
       [Tag [s2l "symbol"; s2l "R"]
          [Tag [s2l "type:"; s2l "R"] [];
           Tag [s2l "text"; pt 100 150; s2l "1"; zero; zero; zero; zero; zero; q "R1"] [];
           Tag [s2l "text"; pt 100 (-150); s2l "1"; zero; zero; zero; zero; zero; q "1k"] [];
           Tag [s2l "pin"; pt 0 200; pt 0 0; s2l "1"; zero; zero; zero; zero; q "+"] [];
           Tag [s2l "pin"; pt 0 (-200); pt 0 0; s2l "1"; zero; zero; zero; zero; q "-"] []]];
     Tag [s2l "net"; pt 800 0; s2l "1"; zero; zero; q "out"] [];
     Tag [s2l "wire"; pt 1200 0; pt 1500 0; q "GND"] []].
Example C232_nonvacuous : pins_on_grid turned_r /\ component_nets pin_place turned_r = Some [(s2l "R1", [s2l "out"; s2l "0"])].
Proof.
  assert (G : pins_on_grid turned_r).
  { intros u y k q IU IY IK. vm_compute in IU. destruct IU as [<- |[]]. vm_compute in IY. destruct IY as [<- |[]]. vm_compute in IK. destruct IK as [<- |[<- |[]]];
    (match goal with |- ?a = _ -> _ => let v := eval vm_compute in a in change a with v end; destruct q as [a b]; cbn [fst snd]; intros K; injection K as <- <-; split; [split; reflexivity|cbn [fst snd]; lia]). }
  split; [exact G|]. rewrite (C232_exact_nodes _ G). vm_compute. reflexivity.
Qed.

(** C233: a converted schematic: every pin is exactly where it was, so that it touches what it touched before (C219). *)
Theorem C233_converted_pins : forall lib f t, converted lib f t ->
  (forall s, In s (symbols (f_items f)) -> on_grid (s_x s, s_y s)) ->
  (forall s m p, In s (symbols (f_items f)) -> lib (s_name s) = Some m -> In p (s_pins m) -> on_sixteens (p_x p, p_y p)) ->
  Forall2 (fun s u => exists q k y m, at_point 1 u q /\ get_attr 2 u = Some (AInt k) /\ get_items (s2l "symbol") u = [y] /\ lib (s_name s) = Some m /\
      Forall2 (fun p v => exists r, at_point 1 v r /\ on_grid (lt_place (s_x s, s_y s) (s_rot s) (p_x p, p_y p)) /\
                 pin_place q k r = Some (exactly (lt_place (s_x s, s_y s) (s_rot s) (p_x p, p_y p)))) (s_pins m) (get_items (s2l "pin") y))
    (symbols (f_items f)) (get_items (s2l "component") t).
Proof.
  intros lib f t [_ CC _ _ _ _ _ _] GS GP. revert CC GS GP. generalize (symbols (f_items f)), (get_items (s2l "component") t). intros ss us CC. induction CC as [|s u ss us ((q & AQ & MQ) & (k & IK & AK) & y & s0 & m & IY & _ & LM & SD) F IH]; intros GS GP; [constructor|].
  constructor; [|apply IH; [intros s' I; apply GS; right; exact I|intros s' m' p I; apply GP; right; exact I]]. clear IH F.
  exists q, k, y, m. split; [exact AQ|]. split; [exact AK|]. split; [exact IY|]. split; [exact LM|].
  assert (GQ := GS s (or_introl eq_refl)). assert (Q : q = exactly (s_x s, s_y s)) by (apply (proj1 C219_on_the_grid); [exact GQ|left; exact MQ]).
  assert (GP' := fun p => GP s m p (or_introl eq_refl) LM). clear GS GP. destruct SD as [_ _ _ _ _ _ SP _]. revert SP GP'. generalize (s_pins m), (get_items (s2l "pin") y). intros ps vs SP. induction SP as [|p v ps vs (_ & r & AR & MR) F IH]; intros GP; [constructor|].
  constructor; [|apply IH; intros p' I; apply GP; right; exact I]. clear IH F. exists r. split; [exact AR|].
  destruct (GP p (or_introl eq_refl)) as ((PX & PY) & BX & BY). cbn [fst snd] in *. set (x := p_x p) in *. set (z := p_y p) in *. clearbody x z.
  assert (D16 : forall a, a mod 16 = 0 -> a = 16 * (a / 16)) by (intros a M; pose proof (Z.div_mod a 16 ltac:(lia)); lia).
  apply D16 in PX, PY. set (i := x / 16) in *. set (j := z / 16) in *. clearbody i j. subst x z.
  assert (M4 : forall a, (16 * a) mod 4 = 0) by (intros a; replace (16 * a) with (4 * a * 4) by ring; apply Z.mod_mul; lia).
  assert (D4 : forall a, 16 * a / 4 = 4 * a) by (intros a; replace (16 * a) with (4 * a * 4) by ring; apply Z.div_mul; lia).
  assert (R : r = (100 * i, - 100 * j)).
  { rewrite (proj1 C219_on_the_grid (16 * i, 16 * j) r); [unfold exactly; cbn [fst snd]; rewrite !D4; f_equal; lia|split; cbn [fst snd]; apply M4|right; exact MR]. }
  destruct GQ as (G1 & G2). cbn [fst snd] in G1, G2. set (a := s_x s) in *. set (b := s_y s) in *. clearbody a b.
  assert (E4 : forall c, c mod 4 = 0 -> c = 4 * (c / 4)) by (intros c M; pose proof (Z.div_mod c 4 ltac:(lia)); lia). apply E4 in G1, G2. set (c := a / 4) in *. set (d := b / 4) in *. clearbody c d. subst a b.
  assert (C4 : forall e g, (4 * e + 16 * g) / 4 = e + 4 * g) by (intros e g; replace (4 * e + 16 * g) with ((e + 4 * g) * 4) by ring; apply Z.div_mul; lia).
  assert (C5 : forall e g, (4 * e + - (16 * g)) / 4 = e - 4 * g) by (intros e g; replace (4 * e + - (16 * g)) with ((e - 4 * g) * 4) by ring; apply Z.div_mul; lia).
  assert (F4 : forall e g, (4 * e + 16 * g) mod 4 = 0) by (intros e g; replace (4 * e + 16 * g) with ((e + 4 * g) * 4) by ring; apply Z.mod_mul; lia).
  assert (F5 : forall e g, (4 * e + - (16 * g)) mod 4 = 0) by (intros e g; replace (4 * e + - (16 * g)) with ((e - 4 * g) * 4) by ring; apply Z.mod_mul; lia).
  assert (D1 : forall e, 4 * e / 4 = e) by (intros e; rewrite Z.mul_comm; apply Z.div_mul; lia).
  assert (H100 : on_hundreds r). { rewrite R. split; [split; cbn [fst snd]; [rewrite Z.mul_comm; apply Z.mod_mul; lia|replace (- 100 * j) with (- j * 100) by ring; apply Z.mod_mul; lia]|cbn [fst snd]; lia]. }
  rewrite (place_exact _ _ _ H100), R, Q. clear Q R H100 MQ MR AQ AR. unfold exactly. cbn [fst snd]. rewrite !D1.
  unfold turns in IK. repeat (destruct IK as [IK|IK]; [injection IK as <- <-; cbn [fst snd]; split; [split; cbn -[Z.modulo Z.mul Z.add Z.opp]; first [apply F4|apply F5]|
    unfold exact_place, turn; try change (8 - 8) with 0; try change (14 - 8) with 6; try change (12 - 8) with 4; try change (10 - 8) with 2; lazy -[Z.div Z.mul Z.add Z.opp]; rewrite ?C4, ?C5; f_equal; f_equal; lia]|]). destruct IK.
Qed.
Print Assumptions C233_converted_pins.
Example C233_nonvacuous : can_convert stock AscProps.rc /\
  (forall s, In s (symbols (f_items AscProps.rc)) -> on_grid (s_x s, s_y s) /\ s_rot s = s2l "R90" /\ lt_place (s_x s, s_y s) (s_rot s) (16, 96) = (s_x s - 96, s_y s + 16)) /\
  (forall p, In p (s_pins res_sym) -> on_sixteens (p_x p, p_y p)) /\ length (symbols (f_items AscProps.rc)) = 1%nat /\ length (s_pins res_sym) = 2%nat.
Proof.
  split; [exact rc_converts|]. split; [intros s [<- |[]]; split; [split; reflexivity|split; reflexivity]|]. split; [|split; reflexivity].
  intros p I. cbn in I. destruct I as [<- |[<- |[]]]; (split; [split; reflexivity|cbn; lia]).
Qed.
