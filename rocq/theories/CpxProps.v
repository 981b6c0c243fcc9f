(** C248-C254: complex values in log files. *)
From Coq Require Import String Ascii List Bool Arith ZArith QArith Qreals Reals Lra Lia.
From Verif Require Import PyStr SimProps StepsModel StepsProofs EngModel EngProofs QTagModel QTagProofs PinModel RawModel CpxModel CpxSpec CpxProofs.
From Verif Require CompFam ColProofs.
Import ListNotations.
Local Open Scope string_scope. Local Open Scope nat_scope. Local Open Scope list_scope.

Lemma read_polar : forall x y t, good_numeral x -> good_numeral y -> forall db : bool,
  let s := "("%char :: show x ++ (if db then s2l "dB" else []) ++ ","%char :: show y ++ degree :: ")"%char :: t in
  let m := if db then Rpower 10 (value_of x / 20) else value_of x in
  try_convert s = VComplex (m * cos (PI * value_of y / 180)) (m * sin (PI * value_of y / 180)) s.
Proof.
  intros x y t GX GY db s m. unfold try_convert. destruct (open_no_number (tl s)) as (A & B). change ("("%char :: tl s) with s in A, B. rewrite A, B. unfold s at 1. unfold ltcomplex. rewrite aeqb_refl.
  assert (M : mag_part (show x ++ (if db then s2l "dB" else []) ++ ","%char :: show y ++ degree :: ")"%char :: t) = Some (show x, db, show y ++ degree :: ")"%char :: t)) by (destruct db; [exact (proj1 (mag_num _ (show_chars x GX) _))|exact (proj2 (mag_num _ (show_chars x GX) _))]).
  rewrite M, (proj1 (ph_num _ (show_chars y GY) t)), (float_show x GX), (float_show y GY). destruct db; reflexivity.
Qed.

Lemma read_cart : forall x y t, good_numeral x -> good_numeral y ->
  let s := "("%char :: show x ++ ","%char :: show y ++ ")"%char :: t in try_convert s = VComplex (value_of x) (value_of y) s.
Proof.
  intros x y t GX GY s. unfold try_convert. destruct (open_no_number (tl s)) as (A & B). change ("("%char :: tl s) with s in A, B. rewrite A, B. unfold s at 1. unfold ltcomplex. rewrite aeqb_refl.
  rewrite (proj2 (mag_num _ (show_chars x GX) _)), (proj2 (ph_num _ (show_chars y GY) t)), (float_show x GX), (float_show y GY). reflexivity.
Qed.

(** C248: a complex value written with dB and degrees is read with that gain and that phase. *)
Theorem C248_db_and_degrees : forall x y, good_numeral x -> good_numeral y -> (-180 < value_of y <= 180)%R ->
  exists re im, try_convert (s2l "(" ++ show x ++ s2l "dB," ++ show y ++ [degree] ++ s2l ")") = VComplex re im (s2l "(" ++ show x ++ s2l "dB," ++ show y ++ [degree] ++ s2l ")") /\
    mag re im = Rpower 10 (value_of x / 20) /\ mag_db re im = Some (value_of x) /\ ph re im = value_of y.
Proof.
  intros x y GX GY B. pose proof (read_polar x y [] GX GY true) as R. cbv zeta iota in R. set (m := Rpower 10 (value_of x / 20)) in *. set (t := (PI * value_of y / 180)%R) in *. exists (m * cos t)%R, (m * sin t)%R. split; [exact R|].
  assert (M : (0 < m)%R) by (unfold m, Rpower; apply exp_pos). assert (T : (- PI < t <= PI)%R) by (unfold t; pose proof PI_RGT_0; split; nra). destruct (polar m t M T) as (E1 & E2). split; [exact E1|]. split.
  - unfold mag_db. rewrite E1. destruct (Rlt_dec 0 m) as [_|N]; [|contradiction]. f_equal. apply db_back.
  - unfold ph. rewrite E2. unfold t. field. apply PI_neq0.
Qed.
Print Assumptions C248_db_and_degrees.
Definition minus_3 : numeral := {| neg := true; whole := s2l "3"; frac := s2l "0103"; expo := None |}.
Definition tiny : numeral := {| neg := false; whole := s2l "1"; frac := s2l "5"; expo := Some (true, s2l "05") |}.
Lemma good_3 : good_numeral minus_3 /\ good_numeral tiny.
Proof. split; (split; [discriminate|]; split; [reflexivity|]; split; [reflexivity|]); [exact I|split; [discriminate|reflexivity]]. Qed.
Example C248_nonvacuous : good_numeral minus_3 /\ good_numeral tiny /\ show minus_3 = s2l "-3.0103" /\ show tiny = s2l "1.5e-05" /\ (-180 < value_of tiny <= 180)%R.
Proof.
  split; [exact (proj1 good_3)|]. split; [exact (proj2 good_3)|]. split; [reflexivity|]. split; [reflexivity|].
  assert (E : value_of tiny = Q2R (15 # 1000000)%Q) by (unfold value_of; apply Qeq_eqR; reflexivity). rewrite E. unfold Q2R. cbn [Qnum Qden]. lra.
Qed.

(** C249: with magnitude and degrees, and with real and imaginary part. *)
Theorem C249_other_forms : forall x y, good_numeral x -> good_numeral y ->
  (let s := s2l "(" ++ show x ++ s2l "," ++ show y ++ s2l ")" in try_convert s = VComplex (value_of x) (value_of y) s) /\
  (let s := s2l "(" ++ show x ++ s2l "," ++ show y ++ [degree] ++ s2l ")" in (0 < value_of x)%R -> (-180 < value_of y <= 180)%R -> exists re im, try_convert s = VComplex re im s /\ mag re im = value_of x /\ ph re im = value_of y).
Proof.
  intros x y GX GY. split; cbv zeta.
  - exact (read_cart x y [] GX GY).
  - intros P B. pose proof (read_polar x y [] GX GY false) as R. cbv zeta iota in R. set (t := (PI * value_of y / 180)%R) in *. exists (value_of x * cos t)%R, (value_of x * sin t)%R. split; [exact R|].
    assert (T : (- PI < t <= PI)%R) by (unfold t; pose proof PI_RGT_0; split; nra). destruct (polar (value_of x) t P T) as (E1 & E2). split; [exact E1|]. unfold ph. rewrite E2. unfold t. field. apply PI_neq0.
Qed.
Print Assumptions C249_other_forms.
Example C249_nonvacuous : (0 < value_of tiny)%R.
Proof. assert (E : value_of tiny = Q2R (15 # 1000000)%Q) by (unfold value_of; apply Qeq_eqR; reflexivity). rewrite E. unfold Q2R. cbn [Qnum Qden]. lra. Qed.

(** C250: whole numbers are read as such, other numerals as their values, words as texts without the blanks around. *)
Theorem C250_whole_numbers : forall z, try_convert (show_int z) = VInt z.
Proof. intros z. unfold try_convert. rewrite py_int_show. reflexivity. Qed.
Print Assumptions C250_whole_numbers.
Theorem C250_numerals : forall x, good_numeral x -> no_integer x -> try_convert (show x) = VFloat (value_of x).
Proof.
  intros x G NI. unfold try_convert. rewrite (float_show x G).
  assert (H : py_int (show x) = None); [|rewrite H; reflexivity]. unfold py_int. rewrite (strip_num _ (show_chars x G)). destruct G as (A & B & C & D).
  assert (K : forall ds a acc sep, forallb is_digit a = true -> (match ds with [] => False | c :: _ => is_digit c = false /\ aeqb c "_" = false end) -> int_digits acc sep (a ++ ds) = None).
  { intros ds. induction a as [|c a IH]; intros acc sep F N.
    - cbn [app]. destruct ds as [|c ds]; [destruct N|]. destruct N as (N1 & N2). cbn [int_digits]. rewrite N1, N2. reflexivity.
    - cbn [forallb] in F. apply andb_true_iff in F. cbn [app int_digits]. rewrite (proj1 F). apply IH; [exact (proj2 F)|exact N]. }
  destruct x as [n a b ex]. unfold show, no_integer in *. cbn [neg whole frac expo] in *.
  set (tail := (match b with [] => [] | _ => "."%char :: b end) ++ (match ex with Some (n0, e) => "e"%char :: (if n0 then "-"%char else "+"%char) :: e | None => [] end)).
  assert (TL : match tail with [] => False | c :: _ => is_digit c = false /\ aeqb c "_" = false end) by (unfold tail; destruct b as [|c b]; [|cbn; auto]; destruct ex as [(n0, e)|]; [cbn; auto|destruct NI as [NI|NI]; contradiction]).
  destruct a as [|c a]; [contradiction|]. destruct n; cbn [app].
  - rewrite aeqb_refl. rewrite (K tail (c :: a) 0%Z false B TL : int_digits 0 false (c :: a ++ tail) = None). reflexivity.
  - pose proof B as B'. cbn [forallb] in B'. apply andb_true_iff in B'. destruct (digit_cases c (proj1 B')) as [<- |X]; [exact (K tail _ 0%Z false B TL)|]. repeat (destruct X as [<- |X]; [exact (K tail _ 0%Z false B TL)|]). destruct X.
Qed.
Print Assumptions C250_numerals.
Theorem C250_words : forall c r, is_alpha c = true -> ~ In (lower_c c) (s2l "in") -> forallb (fun x => negb (is_space x)) (c :: r) = true ->
  forall b1 b2, Forall (fun x => is_space x = true) b1 -> Forall (fun x => is_space x = true) b2 -> try_convert (b1 ++ (c :: r) ++ b2) = VText (c :: r).
Proof.
  intros c r AL _ NS b1 b2 S1 S2. assert (SP : strip (b1 ++ (c :: r) ++ b2) = c :: r).
  { rewrite strip_around by assumption. rewrite forallb_forall in NS. apply strip_id; apply stops_all; intros x I; [|apply in_rev in I]; apply negb_true_iff; apply NS; exact I. }
  pose proof (CompFam.imp_sweep is_alpha (fun c => negb (is_digit c) && negb (mem_c c (s2l "+-._("))) ltac:(vm_compute; reflexivity) c AL) as X. apply andb_true_iff in X. destruct X as (X1 & X2). apply negb_true_iff in X1, X2. apply mem_c_not_In in X2.
  assert (N : forall k, In k (s2l "+-._(") -> aeqb c k = false) by (intros k K; destruct (aeqb c k) eqn:E; [apply aeqb_eq in E; subst k; contradiction|reflexivity]).
  set (s := b1 ++ (c :: r) ++ b2) in *. unfold try_convert. unfold py_int, py_float. rewrite SP. rewrite (N "-"%char), (N "+"%char) by (vm_compute; tauto). cbn [int_digits]. rewrite X1, (N "_"%char) by (vm_compute; tauto). cbn [andb].
  unfold pyfloat. cbn [signed]. rewrite (N "-"%char), (N "+"%char) by (vm_compute; tauto). cbn [span]. rewrite X1. cbn [fraction]. rewrite (N "."%char) by (vm_compute; tauto). cbn [app option_map].
  assert (L : ltcomplex s = None); [|rewrite L; reflexivity]. unfold s. clear s SP. destruct b1 as [|k b1]; cbn [app ltcomplex]; [rewrite (N "("%char) by (vm_compute; tauto); reflexivity|].
  inversion S1 as [|? ? K _]; subst. destruct (aeqb k "(") eqn:E; [apply aeqb_eq in E; subst k; discriminate K|reflexivity].
Qed.
Print Assumptions C250_words.
Example C250_nonvacuous : try_convert (s2l " FAILED ") = VText (s2l "FAILED") /\ try_convert (s2l "-17") = VInt (-17) /\ no_integer tiny.
Proof. split; [apply (C250_words "F"%char (s2l "AILED") eq_refl ltac:(vm_compute; intuition discriminate) eq_refl (s2l " ") (s2l " ")); repeat constructor|]. split; [exact (C250_whole_numbers (-17))|left; discriminate]. Qed.

(** C251: the columns added: for every column of complex values its magnitudes and its phases, in the order of the values; the other columns
    stay. *)
Definition complex_column (col : list value) : Prop := col <> [] /\ forall v, In v col -> exists re im t, v = VComplex re im t.
Definition not_complex (col : list value) : Prop := match col with VComplex _ _ _ :: _ => False | _ => True end.
Definition magnitudes (col : list value) : list value := map (fun v => match v with VComplex re im _ => VFloat (mag re im) | x => x end) col.
Definition phases (col : list value) : list value := map (fun v => match v with VComplex re im _ => VFloat (ph re im) | x => x end) col.
Lemma all_of_complex : forall f col, (forall v, In v col -> exists re im t, v = VComplex re im t) -> all_of (as_complex f) col = Some (map (fun v => match v with VComplex re im _ => VFloat (f re im) | x => x end) col).
Proof. intros f. induction col as [|v col IH]; intros H; [reflexivity|]. cbn [all_of map]. rewrite IH by (intros u U; apply H; right; exact U). destruct (H v (or_introl eq_refl)) as (re & im & t & ->). reflexivity. Qed.
Lemma mag_ph_names : forall a b : str, a ++ s2l "_mag" <> b ++ s2l "_ph".
Proof. intros a b E. apply (f_equal (@rev ascii)) in E. rewrite !rev_app_distr in E. discriminate E. Qed.
Lemma In_dget : forall W (d : list (str * W)) k v, NoDup (map fst d) -> In (k, v) d -> dget k d = Some v.
Proof.
  intros W. induction d as [|(a, x) d IH]; intros k v ND I; [destruct I|]. inversion ND as [|? ? NI ND']; subst. unfold dget. cbn [find fst]. destruct I as [I|I].
  - injection I as -> ->. rewrite str_eqb_refl. reflexivity.
  - destruct (str_eqb a k) eqn:E; [|apply (IH k v); assumption]. apply str_eqb_eq in E. subst a. exfalso. apply NI. apply in_map_iff. exists (k, v). split; [reflexivity|exact I].
Qed.
Theorem C251_columns : forall d, NoDup (map fst d) -> (forall k col, In (k, col) d -> complex_column col \/ not_complex col) ->
  (forall k col, In (k, col) d -> complex_column col -> ~ In (k ++ s2l "_mag") (map fst d) /\ ~ In (k ++ s2l "_ph") (map fst d)) ->
  exists d', split_columns d = Some d' /\ (forall k col, In (k, col) d -> dget k d' = Some col) /\
    (forall k col, In (k, col) d -> complex_column col -> dget (k ++ s2l "_mag") d' = Some (magnitudes col) /\ dget (k ++ s2l "_ph") d' = Some (phases col)) /\
    (forall k, dget k d' <> None -> In k (map fst d) \/ exists k0 col, In (k0, col) d /\ complex_column col /\ (k = k0 ++ s2l "_mag" \/ k = k0 ++ s2l "_ph")).
Proof.
  intros d ND CO NN.
  assert (G : forall done rest d1, d = done ++ rest -> (forall k col, In (k, col) d -> dget k d1 = Some col) ->
    (forall k col, In (k, col) done -> complex_column col -> dget (k ++ s2l "_mag") d1 = Some (magnitudes col) /\ dget (k ++ s2l "_ph") d1 = Some (phases col)) ->
    (forall k, dget k d1 <> None -> In k (map fst d) \/ exists k0 col, In (k0, col) d /\ complex_column col /\ (k = k0 ++ s2l "_mag" \/ k = k0 ++ s2l "_ph")) ->
    exists d', fold_left (fun acc param => match acc with Some d => split_one d param | None => None end) (map fst rest) (Some d1) = Some d' /\ (forall k col, In (k, col) d -> dget k d' = Some col) /\
      (forall k col, In (k, col) d -> complex_column col -> dget (k ++ s2l "_mag") d' = Some (magnitudes col) /\ dget (k ++ s2l "_ph") d' = Some (phases col)) /\
      (forall k, dget k d' <> None -> In k (map fst d) \/ exists k0 col, In (k0, col) d /\ complex_column col /\ (k = k0 ++ s2l "_mag" \/ k = k0 ++ s2l "_ph"))).
  { intros done rest. revert done. induction rest as [|(p, col) rest IH]; intros done d1 E D1 D2 D3.
    - rewrite app_nil_r in E. subst done. exists d1. split; [reflexivity|]. split; [exact D1|]. split; [exact D2|exact D3].
    - assert (I : In (p, col) d) by (rewrite E; apply in_or_app; right; left; reflexivity). assert (E' : d = (done ++ [(p, col)]) ++ rest) by (rewrite <- app_assoc; exact E). cbn [map fold_left fst].
      assert (DONE : forall d2, (forall k c, In (k, c) d -> dget k d2 = Some c) -> (forall k, k <> p ++ s2l "_mag" -> k <> p ++ s2l "_ph" -> dget k d2 = dget k d1) -> (complex_column col -> dget (p ++ s2l "_mag") d2 = Some (magnitudes col) /\ dget (p ++ s2l "_ph") d2 = Some (phases col)) ->
         (not_complex col -> d2 = d1) -> (forall k c, In (k, c) (done ++ [(p, col)]) -> complex_column c -> dget (k ++ s2l "_mag") d2 = Some (magnitudes c) /\ dget (k ++ s2l "_ph") d2 = Some (phases c))).
      { intros d2 H1 H2 H3 _ k c K C. apply in_app_or in K. destruct K as [K|[K|[]]]; [|injection K as <- <-; apply H3; exact C].
        assert (KP : k <> p). { intros ->. rewrite E in ND. rewrite map_app in ND. cbn [map fst] in ND. apply NoDup_remove_2 in ND. apply ND. apply in_or_app. left. apply in_map_iff. exists (p, c). split; [reflexivity|exact K]. }
        destruct (D2 k c K C) as (A & B). rewrite !H2; [split; assumption| | | |]; intros K'; try (apply app_inv_tail in K'; contradiction); [symmetry in K'|]; exact (mag_ph_names _ _ K'). }
      destruct (CO p col I) as [C|C].
      + destruct C as (C1 & C2). assert (SO : split_one d1 p = Some (dset (p ++ s2l "_ph") (phases col) (dset (p ++ s2l "_mag") (magnitudes col) d1))).
        { unfold split_one. rewrite (D1 p col I). destruct col as [|v col]; [contradiction|]. destruct (C2 v (or_introl eq_refl)) as (re & im & t & EV). rewrite EV at 1. cbn [is_complex]. rewrite (all_of_complex mag _ C2). rewrite dget_dset.
          assert (str_eqb (p ++ s2l "_mag") p = false) as NE.
          { apply str_eqb_neq. intros K. apply (f_equal (@length ascii)) in K. rewrite app_length in K. change (length (s2l "_mag")) with 4 in K. lia. }
          assert (str_eqb p (p ++ s2l "_mag") = false) as NE'.
          { apply str_eqb_neq. intros K. symmetry in K. apply str_eqb_neq in NE. contradiction. }
          rewrite ?NE, ?NE', (D1 p _ I), (all_of_complex ph _ C2). reflexivity. }
        rewrite SO. set (d2 := dset (p ++ s2l "_ph") (phases col) (dset (p ++ s2l "_mag") (magnitudes col) d1)) in *. destruct (NN p col I (conj C1 C2)) as (N1 & N2).
        assert (GET : forall k, dget k d2 = if str_eqb (p ++ s2l "_ph") k then Some (phases col) else if str_eqb (p ++ s2l "_mag") k then Some (magnitudes col) else dget k d1).
        { intros k. unfold d2. rewrite !dget_dset. reflexivity. }
        assert (H2 : forall k, k <> p ++ s2l "_mag" -> k <> p ++ s2l "_ph" -> dget k d2 = dget k d1) by (intros k A B; rewrite GET, (proj2 (str_eqb_neq _ _) (fun X => B (eq_sym X))), (proj2 (str_eqb_neq _ _) (fun X => A (eq_sym X))); reflexivity).
        assert (H1 : forall k c, In (k, c) d -> dget k d2 = Some c) by (intros k c K; rewrite H2; [exact (D1 k c K)|intros -> ; apply N1; apply in_map_iff; eexists; split; [|exact K]; reflexivity|intros ->; apply N2; apply in_map_iff; eexists; split; [|exact K]; reflexivity]).
        apply (IH (done ++ [(p, col)]) d2 E' H1).
        * apply DONE; [exact H1|exact H2| |intros NC; destruct col as [|v col]; [contradiction|]; destruct (C2 v (or_introl eq_refl)) as (re & im & t & ->); destruct NC].
          intros _. rewrite !GET, !str_eqb_refl. rewrite (proj2 (str_eqb_neq _ _) (fun X => mag_ph_names p p (eq_sym X))). split; reflexivity.
        * intros k K. rewrite GET in K. destruct (str_eqb (p ++ s2l "_ph") k) eqn:K1; [apply str_eqb_eq in K1; symmetry in K1; right; exists p, col; split; [exact I|]; split; [split; assumption|right; exact K1]|]. destruct (str_eqb (p ++ s2l "_mag") k) eqn:K2; [apply str_eqb_eq in K2; symmetry in K2; right; exists p, col; split; [exact I|]; split; [split; assumption|left; exact K2]|]. apply D3. exact K.
      + assert (SO : split_one d1 p = Some d1) by (unfold split_one; rewrite (D1 p col I); destruct col as [|v col]; [reflexivity|]; destruct v; try reflexivity; destruct C). rewrite SO. apply (IH (done ++ [(p, col)]) d1 E' D1); [|exact D3].
        apply DONE; [exact D1|reflexivity| |reflexivity]. intros (C1 & C2). destruct col as [|v col]; [contradiction|]. destruct (C2 v (or_introl eq_refl)) as (re & im & t & ->). destruct C. }
  apply (G [] d d eq_refl).
  - intros k col I. apply In_dget; assumption.
  - intros k col [].
  - intros k K. left. destruct (dget k d) as [c|] eqn:E; [|contradiction]. apply ColProofs.dget_In' in E. apply in_map_iff. exists (k, c). split; [reflexivity|exact E].
Qed.
Print Assumptions C251_columns.
Example C251_nonvacuous : complex_column [VComplex 1 0 (s2l "(1,0)"); VComplex 0 1 (s2l "(0,1)")] /\ not_complex [VInt 3].
Proof. split; [split; [discriminate|]; intros v [<- |[<- |[]]]; eexists; eexists; eexists; reflexivity|exact I]. Qed.

(** C252: no measurement is lost by that.  A measurement with the name of an added column is. *)
Theorem C252_replaced_refuted : forall k re im t col, option_map (dget (k ++ s2l "_mag")) (split_columns [(k, [VComplex re im t]); (k ++ s2l "_mag", VInt 7 :: col)]) = Some (Some [VFloat (mag re im)]).
Proof.
  intros k re im t col. assert (NE : str_eqb (k ++ s2l "_mag") k = false) by (apply str_eqb_neq; intros K; apply (f_equal (@length ascii)) in K; rewrite app_length in K; change (length (s2l "_mag")) with 4 in K; lia). assert (NE' : str_eqb k (k ++ s2l "_mag") = false) by (apply str_eqb_neq; intros K; symmetry in K; apply str_eqb_neq in NE; contradiction).
  assert (NP : str_eqb (k ++ s2l "_ph") (k ++ s2l "_mag") = false) by (apply str_eqb_neq; intros K; symmetry in K; exact (mag_ph_names _ _ K)). assert (NP' : str_eqb (k ++ s2l "_mag") (k ++ s2l "_ph") = false) by (apply str_eqb_neq; exact (mag_ph_names _ _)).
  unfold split_columns. cbn [map fst fold_left]. set (d := [(k, [VComplex re im t]); (k ++ s2l "_mag", VInt 7 :: col)]).
  assert (D0 : dget k d = Some [VComplex re im t]) by (unfold d, dget; cbn [find fst]; rewrite str_eqb_refl; reflexivity).
  assert (S1 : split_one d k = Some (dset (k ++ s2l "_ph") [VFloat (ph re im)] (dset (k ++ s2l "_mag") [VFloat (mag re im)] d))) by (unfold split_one; rewrite D0; cbn [is_complex all_of as_complex]; rewrite dget_dset, ?NE, ?NE', D0; reflexivity). rewrite S1.
  set (d2 := dset (k ++ s2l "_ph") [VFloat (ph re im)] (dset (k ++ s2l "_mag") [VFloat (mag re im)] d)). assert (D2 : dget (k ++ s2l "_mag") d2 = Some [VFloat (mag re im)]) by (unfold d2; rewrite !dget_dset, ?NP, ?NP', str_eqb_refl; reflexivity).
  assert (S2 : split_one d2 (k ++ s2l "_mag") = Some d2) by (unfold split_one; rewrite D2; reflexivity). rewrite S2. cbn [option_map]. rewrite D2. reflexivity.
Qed.
Print Assumptions C252_replaced_refuted.

(** C253: the columns can be split although a measurement failed in some step.  They cannot: the call raises. *)
Theorem C253_failed_refuted : forall k re im t a b, split_columns [(k, VComplex re im t :: a ++ VText (s2l "FAILED") :: b)] = None.
Proof.
  intros k re im t a b. assert (H : forall f l r, all_of (as_complex f) (l ++ VText (s2l "FAILED") :: r) = None) by (intros f; induction l as [|v l IH]; intros r; [reflexivity|]; cbn [app all_of]; rewrite IH; destruct (as_complex f v); reflexivity).
  unfold split_columns. cbn [map fst fold_left]. unfold split_one, dget. cbn [find fst]. rewrite str_eqb_refl. cbn [is_complex all_of as_complex]. rewrite H. reflexivity.
Qed.
Print Assumptions C253_failed_refuted.

(** C254: a text that is no number is kept as it is.  What stands behind the closing parenthesis is dropped from the value. *)
Theorem C254_trailing_refuted : forall x y t, good_numeral x -> good_numeral y -> let s := s2l "(" ++ show x ++ s2l "," ++ show y ++ s2l ")" ++ t in try_convert s = VComplex (value_of x) (value_of y) s.
Proof.
  intros x y t GX GY. exact (read_cart x y t GX GY).
Qed.
Print Assumptions C254_trailing_refuted.
Example C254_nonvacuous : good_numeral minus_3 /\ good_numeral tiny.
Proof. exact good_3. Qed.
