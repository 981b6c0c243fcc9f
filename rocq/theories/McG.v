(** "%g": the text is read back as the number rounded to six digits. *)
From Coq Require Import String Ascii List Bool Arith ZArith QArith Qabs Lia Lqa Qround Qpower.
From Verif Require Import PyStr EngModel EngSpec EngProofs TolModel McModel.
Import ListNotations.
Local Open Scope string_scope. Local Open Scope nat_scope. Local Open Scope list_scope.

Lemma pw : forall k, (0 < Qpower 10 k)%Q. Proof. intros k. apply Qpower_0_lt. lra. Qed.
Lemma pw_inv : forall t, (Qpower 10 t * Qpower 10 (- t) == 1)%Q.
Proof. intros t. rewrite <- Qpower_plus by discriminate. rewrite Z.add_opp_diag_r. reflexivity. Qed.
Lemma six_grid : forall n k, (Z.abs n < 1000000)%Z -> (100000 <= inject_Z n * Qpower 10 k)%Q -> exists m, (inject_Z n * Qpower 10 k == inject_Z m)%Q.
Proof.
  intros n k Hn H. assert (0 <= k)%Z as Hk.
  { destruct (Z.le_gt_cases 0 k) as [G|G]; [exact G|]. exfalso.
    assert (Qpower 10 k <= 1 # 10)%Q as P1 by (apply Qle_trans with (Qpower 10 (-1)); [apply pow_le; lia|apply Qle_refl]).
    pose proof (pw k) as P0. assert (inject_Z n <= inject_Z 999999)%Q as P2 by (rewrite <- Zle_Qle; lia). change (inject_Z 999999) with (999999 # 1)%Q in P2.
    assert (0 < inject_Z n)%Q by nra. nra. }
  exists (n * 10 ^ k)%Z. rewrite inject_Z_mult, Zpower_Qpower by exact Hk. reflexivity.
Qed.
Lemma g_parts_ok : forall a N D, (0 < a)%Q -> g_parts a = (N, D) ->
  (100000 <= N < 1000000)%Z /\ good 6 (inject_Z N * Qpower 10 (D - 5)) a /\
  (forall h, six_digits h -> (a <= h)%Q -> (inject_Z N * Qpower 10 (D - 5) <= h)%Q) /\ (forall l, six_digits l -> (l <= a)%Q -> (l <= inject_Z N * Qpower 10 (D - 5))%Q).
Proof.
  intros a N D Ha E. unfold g_parts in E. destruct (log_floor_spec 10 ltac:(lia) a Ha) as (Hl & Hu). set (D0 := log_floor 10 a) in *. change (inject_Z 10) with 10%Q in Hl, Hu.
  set (t := (5 - D0)%Z) in *. pose proof (pw t) as Pt. pose proof (pw (- t)) as Pm. pose proof (pw_inv t) as Inv.
  assert (L1 : (inject_Z 100000 <= a * Qpower 10 t)%Q).
  { apply Qle_trans with (Qpower 10 D0 * Qpower 10 t)%Q; [|apply Qmult_le_compat_r; [exact Hl|lra]].
    rewrite <- Qpower_plus by discriminate. replace (D0 + t)%Z with 5%Z by (unfold t; lia). apply Qle_refl. }
  assert (U1 : (a * Qpower 10 t < inject_Z 1000000)%Q).
  { apply Qlt_le_trans with (Qpower 10 (D0 + 1) * Qpower 10 t)%Q; [apply Qmult_lt_r; [exact Pt|exact Hu]|].
    rewrite <- Qpower_plus by discriminate. replace (D0 + 1 + t)%Z with 6%Z by (unfold t; lia). apply Qle_refl. }
  destruct (round_good 6 t a) as (B & G); [simpl; lia|exact Ha|exact L1|exact U1|]. change (Z.of_nat 6) with 6%Z in B. change (10 ^ (6 - 1))%Z with 100000%Z in B. change (10 ^ 6)%Z with 1000000%Z in B.
  set (N0 := round_he (a * Qpower 10 t)) in *.
  assert (EV : (inject_Z N * Qpower 10 (D - 5) == inject_Z N0 * Qpower 10 (- t))%Q /\ (100000 <= N < 1000000)%Z).
  { destruct (Z.eqb_spec N0 1000000) as [K|K]; injection E as <- <-.
    - split; [|lia]. rewrite K. replace (D0 + 1 - 5)%Z with (1 + - t)%Z by (unfold t; lia). rewrite (Qpower_plus _ 1) by discriminate. rewrite Qmult_assoc. reflexivity.
    - split; [|lia]. replace (D0 - 5)%Z with (- t)%Z by (unfold t; lia). reflexivity. }
  destruct EV as (EV & BN). split; [exact BN|]. split.
  { destruct G as (G1 & G2). split; [rewrite EV; exact G1|]. intros K. rewrite EV. apply G2. exact K. }
  assert (EB : forall x, (x == x * Qpower 10 t * Qpower 10 (- t))%Q) by (intros x; rewrite <- Qmult_assoc, Inv; ring).
  split.
  - intros h (n & e & Hn & Eh) Hh. rewrite EV, (EB h). apply Qmult_le_compat_r; [|lra]. assert (Hz : (a * Qpower 10 t <= h * Qpower 10 t)%Q) by (apply Qmult_le_compat_r; [exact Hh|lra]).
    destruct (Qlt_le_dec (h * Qpower 10 t) 1000000) as [K|K].
    + destruct (six_grid n (e + t) Hn) as (m & Em).
      { rewrite Qpower_plus by discriminate. rewrite Qmult_assoc, <- Eh. change (inject_Z 100000) with 100000%Q in L1. lra. }
      assert (Ez : (h * Qpower 10 t == inject_Z m)%Q) by (rewrite Eh, <- Em, Qpower_plus by discriminate; ring). rewrite Ez in Hz |- *. rewrite <- Zle_Qle. apply (round_he_bounds _ 100000 m L1 Hz).
    + apply Qle_trans with 1000000%Q; [|exact K]. change 1000000%Q with (inject_Z 1000000). rewrite <- Zle_Qle. lia.
  - intros l (n & e & Hn & El) Hh. rewrite EV, (EB l). apply Qmult_le_compat_r; [|lra]. assert (Hz : (l * Qpower 10 t <= a * Qpower 10 t)%Q) by (apply Qmult_le_compat_r; [exact Hh|lra]).
    destruct (Qlt_le_dec (l * Qpower 10 t) 100000) as [K|K].
    + apply Qle_trans with 100000%Q; [lra|]. change 100000%Q with (inject_Z 100000). rewrite <- Zle_Qle. lia.
    + destruct (six_grid n (e + t) Hn) as (m & Em).
      { rewrite Qpower_plus by discriminate. rewrite Qmult_assoc, <- El. exact K. }
      assert (Ez : (l * Qpower 10 t == inject_Z m)%Q) by (rewrite El, <- Em, Qpower_plus by discriminate; ring). rewrite Ez in Hz |- *. rewrite <- Zle_Qle. apply (round_he_bounds _ m 1000000 Hz). apply Qlt_le_weak. exact U1.
Qed.
(** Reading the three forms. *)
Lemma parse_exp : forall neg a b D, a <> [] -> forallb is_digit (a ++ b) = true ->
  parse_value (sg neg ++ dec_text a b ++ g_exponent D) = Some ((sgn neg (dec_value a b) * Qpower 10 D)%Q, []).
Proof.
  intros neg a b D Ha Hd. set (dn := dec (Z.abs_nat D)). set (ex := match dn with [_] => "0"%char :: dn | _ => dn end).
  set (sc := if (D <? 0)%Z then "-"%char else "+"%char). change (g_exponent D) with ("e"%char :: sc :: ex).
  destruct (dec_digits (Z.abs_nat D)) as (Dd & Dn & Dz). fold dn in Dd, Dn, Dz.
  assert (forallb is_digit ex = true /\ number ex = Z.abs D /\ ex <> []) as (Xd & Xn & Xz).
  { unfold ex. rewrite Zabs2Nat.id_abs in Dn. destruct dn as [|c [|c' l]]; [contradiction| |].
    - repeat split; [exact Dd|exact Dn|discriminate].
    - repeat split; [exact Dd|exact Dn|discriminate]. }
  assert (pyfloat (sg neg ++ dec_text a b ++ "e"%char :: sc :: ex) = Some (sgn neg (dec_value a b) * Qpower 10 D)%Q) as Hf.
  { rewrite pyfloat_dec; [|exact Ha|exact Hd|reflexivity|reflexivity].
    change (aeqb (upper_c "e") "E") with true. cbv iota.
    assert (signed (sc :: ex) = ((D <? 0)%Z, ex)) as -> by (unfold sc; destruct (D <? 0)%Z; reflexivity).
    pose proof (span_app is_digit ex [] Xd I) as Sp. rewrite app_nil_r in Sp. rewrite Sp.
    destruct ex as [|x0 ex0]; [contradiction|]. rewrite Xn. f_equal. f_equal. f_equal.
    destruct (Z.ltb_spec D 0); lia. }
  pose proof (numchars_text neg a b Hd) as Hn.
  assert (sg neg ++ dec_text a b <> []) as Hne by (destruct neg; [discriminate|]; destruct a; [contradiction|discriminate]).
  assert (strip (sg neg ++ dec_text a b ++ "e"%char :: sc :: ex) = sg neg ++ dec_text a b ++ "e"%char :: sc :: ex) as Hst.
  { apply strip_id.
    - rewrite app_assoc. destruct (sg neg ++ dec_text a b) as [|c t]; [contradiction|]. simpl.
      cbn [forallb] in Hn. apply andb_true_iff in Hn. apply not_space_numchar. exact (proj1 Hn).
    - rewrite app_assoc, rev_app_distr. change ("e"%char :: sc :: ex) with (["e"%char; sc] ++ ex). rewrite rev_app_distr.
      destruct (rev ex) as [|c t] eqn:Er.
      + exfalso. apply Xz. rewrite <- (rev_involutive ex), Er. reflexivity.
      + simpl. assert (In c ex) as Hc by (apply in_rev; rewrite Er; left; reflexivity).
        rewrite forallb_forall in Xd. specialize (Xd c Hc). apply digit_cases in Xd.
        repeat (destruct Xd as [<-|Xd]; [reflexivity|]). destruct Xd. }
  unfold parse_value. rewrite Hst, app_assoc, span_app; [|exact Hn|reflexivity].
  rewrite app_assoc in Hf.
  destruct (sg neg ++ dec_text a b) as [|c0 t0] eqn:E0; [contradiction|].
  cbv beta iota. change (aeqb (upper_c "e") "E") with true. cbv iota.
  assert (span (fun c => mem_c c (s2l "0123456789E+-")) (sc :: ex) = (sc :: ex, [])) as ->.
  { rewrite <- (app_nil_r (sc :: ex)) at 1. apply span_app; [|exact I]. cbn [forallb]. apply andb_true_iff.
    split; [unfold sc; destruct (D <? 0)%Z; reflexivity|]. rewrite forallb_forall in Xd |- *. intros c Hc. specialize (Xd c Hc).
    apply digit_cases in Xd. apply mem_c_In. change (s2l "0123456789E+-") with (s2l "0123456789" ++ s2l "E+-"). apply in_or_app. left. exact Xd. }
  rewrite Hf. reflexivity.
Qed.
Lemma small_text : forall N k, exists b, s2l "0." ++ repeat "0"%char k ++ strip_zeros (digits 6 N) = dec_text ["0"%char] b \/ strip_zeros (digits 6 N) = [].
Proof.
  intros N k. destruct (strip_zeros (digits 6 N)) as [|c r]; [exists []; right; reflexivity|]. exists (repeat "0"%char k ++ c :: r). left. unfold dec_text. change (s2l "0.") with ["0"%char; "."%char].
  destruct (repeat "0"%char k ++ c :: r) eqn:E; [destruct (repeat "0"%char k); discriminate E|]. reflexivity.
Qed.
Lemma strip_zeros_nil : forall s, strip_zeros s = [] -> number s = 0%Z.
Proof. intros s H. destruct (strip_zeros_app s) as (k & E). rewrite H in E. cbn [app] in E. rewrite E. apply number_zeros. Qed.
Lemma g_text_ok : forall neg N D, (100000 <= N < 1000000)%Z -> exists r, parse_value (sg neg ++ g_text N D) = Some (r, []) /\ (r == sgn neg (inject_Z N * Qpower 10 (D - 5)))%Q.
Proof.
  intros neg N D HN. assert (HN' : (0 <= N < 10 ^ Z.of_nat 6)%Z) by (simpl; lia). unfold g_text. destruct (Z.ltb_spec D (-4)) as [L|L]; [|destruct (Z.leb_spec 6 D) as [L2|L2]]; cbn [orb].
  3: destruct (Z.leb_spec 0 D) as [L3|L3].
  1,2: destruct (with_point_ok 1 6 N) as (a & b & Et & Hne & Hd & Ev); [lia|lia|exact HN'|]; rewrite Et, parse_exp by assumption; eexists; (split; [reflexivity|]);
    replace (D - 5)%Z with (-5 + D)%Z by lia; destruct neg; cbn [sgn]; rewrite Ev, Qpower_plus by discriminate; change (- Z.of_nat (6 - 1))%Z with (-5)%Z; ring.
  - destruct (with_point_ok (Z.to_nat D + 1) 6 N) as (a & b & Et & Hne & Hd & Ev); [lia|lia|exact HN'|]. rewrite Et. destruct (parse_suffix neg a b [] 0 Hne Hd) as (r & Ep & Er); [cbn; tauto|].
    rewrite app_nil_r in Ep. exists r. split; [exact Ep|]. rewrite Er. change (Qpower 10 0) with 1%Q. replace (- Z.of_nat (6 - (Z.to_nat D + 1)))%Z with (D - 5)%Z in Ev by lia. destruct neg; cbn [sgn]; rewrite Ev; ring.
  - destruct (strip_zeros_app (digits 6 N)) as (k & Ek). set (b := repeat "0"%char (Z.to_nat (- D - 1)) ++ strip_zeros (digits 6 N)).
    assert (Et : s2l "0." ++ b = dec_text ["0"%char] b).
    { unfold dec_text. change (s2l "0.") with ["0"%char; "."%char]. destruct b eqn:Eb; [|reflexivity]. exfalso. unfold b in Eb. apply app_eq_nil in Eb. destruct Eb as (_ & Eb). apply strip_zeros_nil in Eb. rewrite number_digits in Eb by exact HN'. lia. }
    rewrite Et. assert (Hd : forallb is_digit (["0"%char] ++ b) = true).
    { pose proof (digits_all 6 N) as DA. rewrite Ek, forallb_app in DA. apply andb_true_iff in DA. unfold b. rewrite !forallb_app, (proj1 DA), andb_true_r. cbn [forallb]. change (is_digit "0") with true. cbn [andb].
      clear. induction (Z.to_nat (- D - 1)); [reflexivity|exact IHn]. }
    destruct (parse_suffix neg ["0"%char] b [] 0) as (r & Ep & Er); [discriminate|exact Hd|cbn; tauto|]. rewrite app_nil_r in Ep. exists r. split; [exact Ep|]. rewrite Er. change (Qpower 10 0) with 1%Q.
    assert (Ev : (dec_value ["0"%char] b == inject_Z N * Qpower 10 (D - 5))%Q).
    { rewrite <- (dec_value_zeros _ b k). unfold b. rewrite <- app_assoc, <- Ek. unfold dec_value. rewrite !number_app, number_zeros, number_digits by exact HN'. change (number ["0"%char]) with 0%Z.
      rewrite !app_length, repeat_length, digits_len. replace (- Z.of_nat (Z.to_nat (- D - 1) + 6))%Z with (D - 5)%Z by lia. replace (0 * 10 ^ Z.of_nat (Z.to_nat (- D - 1) + 6) + (0 * 10 ^ Z.of_nat 6 + N))%Z with N by lia. reflexivity. }
    destruct neg; cbn [sgn]; rewrite Ev; ring.
Qed.
Lemma six_opp : forall x, six_digits x -> six_digits (- x).
Proof. intros x (n & e & H & E). exists (- n)%Z, e. split; [lia|]. rewrite E, inject_Z_opp. ring. Qed.
Lemma show_g_ok : forall v, exists r, parse_value (show_g v) = Some (r, []) /\ close r v /\ (six_digits v -> (r == v)%Q) /\
  (forall h, six_digits h -> (v <= h)%Q -> (r <= h)%Q) /\ (forall l, six_digits l -> (l <= v)%Q -> (l <= r)%Q).
Proof.
  intros v. unfold show_g. destruct (Qeq_bool v 0) eqn:E0.
  { apply Qeq_bool_iff in E0. exists 0%Q. split; [reflexivity|]. split; [unfold close; rewrite E0; vm_compute; discriminate|]. split; [intros _; symmetry; exact E0|]. split; intros x _ X; lra. }
  assert (~ (v == 0)%Q) as Hv by (intros G; apply Qeq_bool_iff in G; congruence). pose proof (Qabs_nz_pos v Hv) as Ha. destruct (g_parts (Qabs v)) as [N D] eqn:EP. fold (sg (Qltb v 0)).
  destruct (g_parts_ok _ _ _ Ha EP) as (BN & G & UB & LB). destruct (g_text_ok (Qltb v 0) N D BN) as (r & Ep & Er). exists r. split; [exact Ep|].
  assert (CC : close r v /\ (six_digits v -> (r == v)%Q)). { apply (good_close 6 v (inject_Z N * Qpower 10 (D - 5)) r (Qabs v) 0); [simpl; lia|exact Hv|exact G|change (Qpower 10 0) with 1%Q; ring|]. rewrite Er. change (Qpower 10 0) with 1%Q. ring. }
  split; [exact (proj1 CC)|]. split; [exact (proj2 CC)|].
  destruct (Qltb v 0) eqn:EN; cbn [sgn] in Er.
  - apply Qltb_lt in EN. split; intros x SX X; rewrite Er.
    + assert (XX : (- x <= Qabs v)%Q) by (rewrite Qabs_neg by lra; lra). specialize (LB (- x)%Q (six_opp _ SX) XX). lra.
    + assert (XX : (Qabs v <= - x)%Q) by (rewrite Qabs_neg by lra; lra). specialize (UB (- x)%Q (six_opp _ SX) XX). lra.
  - apply Qltb_ge in EN. split; intros x SX X; rewrite Er; [apply UB|apply LB]; try assumption; rewrite Qabs_pos by lra; exact X.
Qed.
