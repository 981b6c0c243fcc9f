(** Proofs about quantities with units. *)
From Coq Require Import String Ascii List Bool Arith ZArith QArith Qround Qabs Lia Lqa Qpower.
From Verif Require Import PyStr StepsModel EngModel EngSpec EngProofs EngProps FunModel FunSpec.
Import ListNotations.
Local Open Scope string_scope. Local Open Scope nat_scope. Local Open Scope list_scope.

Definition numch (c : ascii) : bool := mem_c c (s2l "0123456789.+-").
Definition expch (c : ascii) : bool := mem_c c (s2l "0123456789E+-").
(** The texts format_eng writes: a number, then nothing, a scale factor, or an exponent. *)
Definition eng_shape (num rest : str) : Prop :=
  num <> [] /\ forallb numch num = true /\ ((exists e, In (rest, e) suffixes) \/ exists x, rest = "E"%char :: x /\ forallb expch x = true).
Lemma digits_numch : forall s, forallb is_digit s = true -> forallb numch s = true.
Proof. exact numchars_digits. Qed.
Lemma digits_expch : forall s, forallb is_digit s = true -> forallb expch s = true.
Proof.
  intros s H. rewrite forallb_forall in *. intros c I. specialize (H c I). apply digit_cases in H.
  repeat (destruct H as [<- |H]; [reflexivity|]). destruct H.
Qed.
Lemma forallb_firstn : forall A (f : A -> bool) n l, forallb f l = true -> forallb f (firstn n l) = true /\ forallb f (skipn n l) = true.
Proof. intros A f n l H. rewrite <- (firstn_skipn n l), forallb_app in H. apply andb_true_iff in H. exact H. Qed.
Lemma fmt_E_shape : forall q, exists num x, fmt_E q = num ++ "E"%char :: x /\ num <> [] /\ forallb numch num = true /\ forallb expch x = true.
Proof.
  intros q. unfold fmt_E. cbv zeta. destruct (if (_ =? 10000000)%Z then _ else _) as [N D]. set (ds := digits 7 N).
  exists (firstn 1 ds ++ ["."%char] ++ skipn 1 ds). eexists.
  split; [rewrite <- !app_assoc; cbn [app]; reflexivity|].
  destruct (forallb_firstn _ is_digit 1 ds (digits_all 7 N)) as (F1 & F2).
  split; [destruct (firstn 1 ds); discriminate|]. split.
  - rewrite forallb_app. rewrite (digits_numch _ F1). cbn [app forallb andb]. rewrite (digits_numch _ F2). reflexivity.
  - cbn [forallb]. assert (expch (if (D <? 0)%Z then "-"%char else "+"%char) = true) as -> by (destruct (D <? 0)%Z; reflexivity). cbn [andb].
    apply digits_expch. destruct (dec_digits (Z.abs_nat D)) as (A & _ & _). destruct (dec (Z.abs_nat D)) as [|a [|b r]]; [reflexivity| |exact A].
    cbn [forallb] in *. exact A.
Qed.
Lemma format_shape : forall v, exists num rest, format_eng v = num ++ rest /\ eng_shape num rest /\ ((1 <= Qabs v)%Q -> (Qabs v < 1000)%Q -> rest = []).
Proof.
  intros v. unfold format_eng. destruct (Qeq_bool v 0) eqn:E0.
  { exists (s2l "0"), []. split; [reflexivity|]. split; [split; [discriminate|split; [reflexivity|left; exists 0%Z; left; reflexivity]]|reflexivity]. }
  assert (~ (v == 0)%Q) as Hv by (intros G; apply Qeq_bool_iff in G; congruence).
  pose proof (Qabs_nz_pos v Hv) as Ha. set (a := Qabs v) in *. cbv zeta.
  destruct (log_floor_spec 1000 ltac:(lia) a Ha) as (Hl & Hu). set (e := log_floor 1000 a) in *.
  change (inject_Z 1000) with 1000%Q in Hl, Hu. fold (sg (Qltb v 0)). clearbody e.
  assert ((1 <= a)%Q -> (a < 1000)%Q -> e = 0%Z) as EZ.
  { intros L U. destruct (Z.lt_trichotomy e 0) as [N|[N|N]]; [|exact N|]; exfalso.
    - assert (Qpower 1000 (e + 1) <= 1)%Q as P; [|lra]. rewrite pow1000. change 1%Q with (Qpower 10 0). apply pow_le. lia.
    - assert (1000 <= Qpower 1000 e)%Q as P; [|lra]. rewrite pow1000. change 1000%Q with (Qpower 10 3). apply pow_le. lia. }
  assert (forall x k, In (x, k) suffixes -> k = (3 * e)%Z -> (e = 0%Z -> x = []) -> exists num rest, sg (Qltb v 0) ++ fmt_g (a * Qpower 1000 (- e)) ++ x = num ++ rest /\ eng_shape num rest /\ ((1 <= a)%Q -> (a < 1000)%Q -> rest = [])) as S.
  { intros x k Hx Hk HZ. set (q := (a * Qpower 1000 (- e))%Q).
    assert (0 < Qpower 1000 (- e))%Q as Pe by (apply Qpower_0_lt; lra).
    assert (Qpower 1000 e * Qpower 1000 (- e) == 1)%Q as Inv by (rewrite <- Qpower_plus by discriminate; rewrite Z.add_opp_diag_r; reflexivity).
    assert (1 <= q)%Q as H1 by (unfold q; rewrite <- Inv; apply Qmult_le_compat_r; [exact Hl|lra]).
    assert (q < 1000)%Q as H2.
    { unfold q. apply Qlt_le_trans with (Qpower 1000 (e + 1) * Qpower 1000 (- e))%Q; [apply Qmult_lt_r; assumption|].
      rewrite <- Qpower_plus by discriminate. replace (e + 1 + - e)%Z with 1%Z by lia. apply Qle_refl. }
    destruct (fmt_g_ok q H1 H2) as (u & w & Et & Hne & Hd & _). rewrite Et. exists (sg (Qltb v 0) ++ dec_text u w), x.
    split; [apply app_assoc|]. split.
    - split; [destruct (Qltb v 0); [discriminate|destruct u; [contradiction|discriminate]]|]. split; [apply numchars_text; exact Hd|left; exists k; exact Hx].
    - intros L U. apply HZ. apply EZ; assumption. }
  assert (~ ((1 <= a)%Q /\ (a < 1000)%Q) -> exists num rest, sg (Qltb v 0) ++ fmt_E a = num ++ rest /\ eng_shape num rest /\ ((1 <= a)%Q -> (a < 1000)%Q -> rest = [])) as SE.
  { intros NO. destruct (fmt_E_shape a) as (num & x & E & N & F & X). rewrite E. exists (sg (Qltb v 0) ++ num), ("E"%char :: x).
    split; [apply app_assoc|]. split.
    - split; [destruct (sg (Qltb v 0)); [exact N|discriminate]|]. split; [rewrite forallb_app, F; destruct (Qltb v 0); reflexivity|right; exists x; split; [reflexivity|exact X]].
    - intros L U. exfalso. apply NO. split; assumption. }
  destruct (Z.eqb_spec e 0) as [E|NZ]; [eapply (S [] 0%Z); [simpl; tauto|lia|reflexivity]|].
  repeat match goal with
  | |- context [(e =? ?z)%Z] => destruct (Z.eqb_spec e z) as [E|_]; [eapply S; [simpl; tauto|lia|intros K; rewrite K in E; discriminate]|]
  end.
  apply SE. intros (L & U). apply NZ. apply EZ; assumption.
Qed.

(** A unit that is not mistaken for something else. *)
Definition unit_head (u : str) : Prop :=
  match u with
  | [] => True
  | c :: _ => numch c = false /\ expch c = false /\ is_space c = false /\ mult c = None /\ upper_c c <> "R"%char /\ upper_c c <> "E"%char
  end /\ match rev u with [] => True | c :: _ => is_space c = false end.
Lemma unit_head_ok : forall u, unit_head u -> unit_ok u.
Proof.
  intros u (H & R). split; [|exact R]. destruct u as [|c u]; [exact I|]. destruct H as (H1 & H2 & H3 & _). split; [|exact H3].
  destruct (is_digit c) eqn:E; [|reflexivity]. exfalso. apply digit_cases in E. repeat (destruct E as [<- |E]; [discriminate H1|]). destruct E.
Qed.
Lemma numch_not_space : forall s, forallb numch s = true -> forall c, In c s -> is_space c = false.
Proof. intros s H c I. rewrite forallb_forall in H. apply not_space_numchar. exact (H c I). Qed.
Lemma strip_with_unit : forall num rest u, eng_shape num rest -> unit_head u -> strip (num ++ rest ++ u) = num ++ rest ++ u.
Proof.
  intros num rest u (NE & NF & R) (_ & UR). apply strip_id.
  - destruct num as [|c num]; [contradiction|]. cbn [app stops]. cbn [forallb] in NF. apply andb_true_iff in NF as (NF & _). apply not_space_numchar. exact NF.
  - rewrite !rev_app_distr. destruct (rev u) as [|c r]; [|exact UR]. cbn [app].
    assert (forall c, In c rest -> is_space c = false) as RS.
    { destruct R as [(e & R)|(x & -> & X)].
      - intros d I. repeat (destruct R as [R|R]; [injection R as <- <-; cbn in I; repeat (destruct I as [<- |I]; [reflexivity|]); destruct I|]). destruct R.
      - intros d [<- |I]; [reflexivity|]. rewrite forallb_forall in X. specialize (X d I). unfold expch in X. apply mem_c_In in X.
        repeat (destruct X as [<- |X]; [reflexivity|]). destruct X. }
    destruct (rev rest) as [|c r] eqn:ER.
    + cbn [app]. destruct (rev num) as [|c r] eqn:EN; [exact I|]. cbn [stops]. apply (numch_not_space num NF). apply in_rev. rewrite EN. left. reflexivity.
    + cbn [app stops]. apply RS. apply in_rev. rewrite ER. left. reflexivity.
Qed.
Lemma blank_free : forall u, unit_head u -> lstrip_if (fun c => mem_c c [" "%char; "009"%char]) u = u.
Proof.
  intros [|c u] (H & _); [reflexivity|]. destruct H as (_ & _ & H & _). cbn [lstrip_if mem_c existsb]. destruct (aeqb c " ") eqn:E1; [apply aeqb_eq in E1; subst; discriminate H|].
  destruct (aeqb c "009") eqn:E2; [apply aeqb_eq in E2; subst; discriminate H|]. reflexivity.
Qed.
Lemma not_aeqb : forall a b, a <> b -> aeqb a b = false.
Proof. intros a b H. apply aeqb_neq. exact H. Qed.
(** What parse_value does after the number. *)
Definition after (nn r : str) : option (Q * str) :=
        match r with
        | e :: r1 => if aeqb (upper_c e) "E" then
            let '(x, r2) := span (fun c => mem_c c (s2l "0123456789E+-")) r1 in
            let u := lstrip_if (fun c => mem_c c [" "%char; "009"%char]) r2 in
            match pyfloat (nn ++ e :: x) with Some q => Some (q, u) | None => None end
          else
            let r0 := lstrip_if (fun c => mem_c c [" "%char; "009"%char]) r in
            let '(mlt, unit, rest0) :=
              match r0 with
              | c :: r2 =>
                  match mult c with
                  | Some x => if startswith (s2l "MEG") (upper r0) then (x, [], skipn 3 r0) else (x, [], r2)
                  | None => if aeqb (upper_c c) "R" then (1%Q, s2l "ohm", r2) else (1%Q, [], r0)
                  end
              | [] => (1%Q, [], [])
              end in
            let '(suf, rest0) := span is_digit rest0 in
            let rest0 := lstrip_if (fun c => mem_c c [" "%char; "009"%char]) rest0 in
            let unit := match rest0 with [] => unit | _ => rest0 end in
            match pyfloat (match suf with [] => nn | _ => nn ++ "."%char :: suf end) with
            | Some q => Some ((q * mlt)%Q, unit)
            | None => None
            end
        | [] => match pyfloat nn with Some q => Some (q, []) | None => None end
        end.
Definition clear_of (w : str) : Prop :=
  stops is_digit w /\ lstrip_if (fun c => mem_c c [" "%char; "009"%char]) w = w /\ match w with [] => True | c :: _ => upper_c c <> "E"%char end.
Lemma span_stop : forall w, stops is_digit w -> span is_digit w = ([], w).
Proof. intros [|c w] K; [reflexivity|cbn [span]; cbn [stops] in K; rewrite K; reflexivity]. Qed.
Lemma one_char : forall c x w nn, aeqb (upper_c c) "E" = false -> mem_c c [" "%char; "009"%char] = false -> mult c = Some x ->
  startswith (s2l "MEG") (upper (c :: w)) = false -> clear_of w ->
  after nn (c :: w) = match pyfloat nn with Some q => Some ((q * x)%Q, w) | None => None end.
Proof.
  intros c x w nn E B M G (S0 & L & _). unfold after. rewrite E. cbn [lstrip_if]. rewrite B. cbv zeta. rewrite M, G.
  rewrite (span_stop w S0). rewrite L. destruct w; reflexivity.
Qed.
Lemma meg_chars : forall nn w, clear_of w ->
  after nn ("M"%char :: "e"%char :: "g"%char :: w) = match pyfloat nn with Some q => Some ((q * Qpower 10 6)%Q, w) | None => None end.
Proof.
  intros nn w (S0 & L & _). unfold after. set (M := "M"%char) at 1. change (aeqb (upper_c M) "E") with false. subst M. cbv iota.
  replace (lstrip_if (fun c => mem_c c [" "%char; "009"%char]) ("M"%char :: "e"%char :: "g"%char :: w)) with ("M"%char :: "e"%char :: "g"%char :: w) by reflexivity.
  cbv zeta. replace (mult "M") with (Some (Qpower 10 6)) by reflexivity. cbv iota.
  replace (startswith (s2l "MEG") (upper ("M"%char :: "e"%char :: "g"%char :: w))) with true by (symmetry; cbn [upper map]; change (s2l "MEG") with ["M"%char; "E"%char; "G"%char]; cbn [startswith]; reflexivity).
  cbn [skipn]. rewrite (span_stop w S0). rewrite L. destruct w; reflexivity.
Qed.
Lemma after_suffix : forall rest e nn, In (rest, e) (tl suffixes) -> exists m, forall w, clear_of w ->
  after nn (rest ++ w) = match pyfloat nn with Some q => Some ((q * m)%Q, w) | None => None end.
Proof.
  intros rest e nn R.
  repeat (destruct R as [R|R]; [injection R as <- <-; eexists; intros w W;
    match goal with |- context [s2l ?x ++ w] => let l := eval vm_compute in (s2l x) in change (s2l x) with l end; cbn [app];
    first [apply one_char; [reflexivity|reflexivity|reflexivity|first [reflexivity|destruct W as (_ & _ & W); destruct w as [|c w]; [reflexivity|
             cbn [upper map startswith]; change (s2l "MEG") with ["M"%char; "E"%char; "G"%char]; cbn [startswith];
             rewrite (proj2 (aeqb_neq "E" (upper_c c)) (fun K => W (eq_sym K))); reflexivity]]|exact W]
          |apply meg_chars; exact W]|]).
  destruct R.
Qed.
(** The number is read as without the unit. *)
Lemma parse_with_unit : forall num rest u r, eng_shape num rest -> unit_head u -> parse_value (num ++ rest) = Some (r, []) ->
  exists r', parse_value (num ++ rest ++ u) = Some (r', u) /\ (r' == r)%Q.
Proof.
  intros num rest u r SH UH P. pose proof (strip_with_unit num rest u SH UH) as ST. assert (unit_head []) as U0 by (split; exact I).
  pose proof (strip_with_unit num rest [] SH U0) as ST0. rewrite app_nil_r in ST0. pose proof SH as (NE & NF & R). pose proof (blank_free u UH) as BL.
  assert (match u with [] => @nil ascii | _ => u end = u) as UU by (destruct u; reflexivity).
  assert (stops is_digit u) as SD by (pose proof (unit_head_ok u UH) as (K & _); destruct u; [exact I|exact (proj1 K)]).
  unfold parse_value in *. rewrite ST. rewrite ST0 in P.
  destruct R as [(e & R)|(x & -> & X)].
  - assert (span (fun c => mem_c c (s2l "0123456789.+-")) (num ++ rest) = (num, rest)) as E0.
    { apply span_app; [exact NF|]. clear - R. repeat (destruct R as [R|R]; [injection R as <- <-; first [exact I|reflexivity]|]). destruct R. }
    assert (span (fun c => mem_c c (s2l "0123456789.+-")) (num ++ rest ++ u) = (num, rest ++ u)) as E1.
    { apply span_app; [exact NF|]. clear - R UH. destruct R as [R|R].
      - injection R as <- <-. cbn [app]. destruct UH as (H & _). destruct u; [exact I|exact (proj1 H)].
      - repeat (destruct R as [R|R]; [injection R as <- <-; reflexivity|]). destruct R. }
    rewrite E0 in P. rewrite E1. clear E0 E1 ST ST0. destruct num as [|c0 num]; [contradiction|]. set (nn := c0 :: num) in *.
    destruct R as [R|R].
    + injection R as <- <-. cbn [app]. destruct (pyfloat nn) as [q|] eqn:PF; [|discriminate P]. injection P as <-. destruct u as [|c u]; [exists q; split; [reflexivity|reflexivity]|].
      destruct UH as ((H1 & H2 & H3 & H4 & H5 & H6) & _). rewrite (not_aeqb _ _ H6). rewrite BL. rewrite H4. rewrite (not_aeqb _ _ H5).
      assert (span is_digit (c :: u) = ([], c :: u)) as -> by (cbn [span]; cbn [stops] in SD; rewrite SD; reflexivity).
      rewrite BL. rewrite PF. eexists. split; [reflexivity|]. ring.
    + destruct (after_suffix rest e nn R) as (m & M). assert (clear_of []) as C0 by (split; [exact I|split; [reflexivity|exact I]]).
      assert (clear_of u) as C1 by (split; [exact SD|split; [exact BL|]]; destruct UH as (H & _); destruct u; [exact I|exact (proj2 (proj2 (proj2 (proj2 (proj2 H)))))]).
      change (after nn rest = Some (r, [])) in P. 
      match goal with |- exists r', ?e = _ /\ _ => change (exists r', after nn (rest ++ u) = Some (r', u) /\ (r' == r)%Q) end.
      rewrite <- (app_nil_r rest) in P. rewrite (M [] C0) in P. rewrite (M u C1). destruct (pyfloat nn) as [q|]; [|discriminate]. injection P as <-. eexists. split; [reflexivity|reflexivity].
  - assert (span (fun c => mem_c c (s2l "0123456789.+-")) (num ++ "E"%char :: x) = (num, "E"%char :: x)) as E0 by (apply span_app; [exact NF|reflexivity]).
    assert (span (fun c => mem_c c (s2l "0123456789.+-")) (num ++ ("E"%char :: x) ++ u) = (num, "E"%char :: x ++ u)) as E1 by (apply span_app; [exact NF|reflexivity]).
    rewrite E0 in P. rewrite E1. clear E0 E1 ST ST0. destruct num as [|c0 num]; [contradiction|]. set (nn := c0 :: num) in *.
    assert (span (fun c => mem_c c (s2l "0123456789E+-")) x = (x, [])) as S0.
    { rewrite <- (app_nil_r x) at 1. apply span_app; [exact X|exact I]. }
    assert (span (fun c => mem_c c (s2l "0123456789E+-")) (x ++ u) = (x, u)) as S1.
    { apply span_app; [exact X|]. destruct UH as (H & _). destruct u; [exact I|exact (proj1 (proj2 H))]. }
    change (aeqb (upper_c "E") "E") with true in *. rewrite S0 in P. rewrite S1. cbv iota in *. rewrite BL. destruct (pyfloat (nn ++ "E"%char :: x)) as [q|]; [|discriminate].
    injection P as <-. exists q. split; reflexivity.
Qed.
