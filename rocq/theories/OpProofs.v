From Coq Require Import String Ascii List Bool Arith Lia.
From Verif Require Import PyStr Regex RegexProofs RegexInv RegexMore StepsModel StepsProofs LogModel LogProofs CompProofs QlogModel QlogProofs OpModel OpSpec.
Import ListNotations.
Local Open Scope string_scope. Local Open Scope nat_scope. Local Open Scope list_scope.

Lemma spaces_forallb : forall s, spaces_only s <-> forallb is_space s = true.
Proof. intros s. unfold spaces_only. rewrite Forall_forall, forallb_forall. reflexivity. Qed.

(** ** Titles *)
Lemma cut_spaces_end : forall (a b : str) x y u v, a ++ x :: u = b ++ y :: v -> is_space x = false -> is_space y = false -> forallb is_space u = true -> forallb is_space v = true -> a ++ [x] = b ++ [y].
Proof.
  intros a b x y u v E X Y U W. assert (R : rev u ++ x :: rev a = rev v ++ y :: rev b).
  { apply (f_equal (@rev ascii)) in E. rewrite !rev_app_distr in E. cbn [rev] in E. rewrite <- !app_assoc in E. exact E. }
  clear E.
  assert (forallb is_space (rev u) = true) as RU by (rewrite forallb_forall in *; intros c C; apply in_rev in C; apply U; exact C).
  assert (forallb is_space (rev v) = true) as RV by (rewrite forallb_forall in *; intros c C; apply in_rev in C; apply W; exact C).
  clear U W. revert RU RV R. generalize (rev u) (rev v). intros p. induction p as [|c p IH]; intros [|d q] RU RV R; cbn [app] in R.
  - injection R as -> R. apply (f_equal (@rev ascii)) in R. rewrite !rev_involutive in R. subst. reflexivity.
  - injection R as -> R. cbn in RV. rewrite X in RV. discriminate RV.
  - injection R as -> R. cbn in RU. rewrite Y in RU. discriminate RU.
  - injection R as -> R. cbn [forallb] in RU, RV. apply andb_true_iff in RU, RV. apply (IH q); tauto.
Qed.
Lemma reach_title : forall l y, reach title_re (0, l, []) y -> exists u1 g u2 s', l = u1 ++ s2l "--- " ++ g ++ s2l " ---" ++ u2 ++ s' /\ forallb is_space u1 = true /\ forallb is_space u2 = true /\ at_eol s' = true /\ ~ In Regex.NLc g /\ cap 1 (snd y) = Some (length u1 + 4, length u1 + 4 + length g).
Proof.
  intros l y H. unfold title_re in H. cbn [app] in H. destruct (reach_seqs_cons _ _ _ _ H) as (z1 & A1 & B1). apply (proj1 (reach_star_chr _ _ _ _ _ _)) in A1. destruct A1 as (u1 & s1 & -> & U1 & ->).
  change (lits "--- " ++ Grp 1 dots :: lits " ---" ++ [sp0; Eol]) with (lits "--- " ++ (Grp 1 dots :: (lits " ---" ++ [sp0; Eol]))) in B1. destruct (reach_lits _ _ _ _ _ _ B1) as (s2 & -> & B2).
  destruct (reach_seqs_cons _ _ _ _ B2) as (z3 & A3 & B3). apply (proj1 (reach_grp _ _ _ _ _ _)) in A3. destruct A3 as (pz & sz & cz & A3 & E3). unfold dots in A3. apply (proj1 (reach_star_chr _ _ _ _ _ _)) in A3. destruct A3 as (g & s3 & -> & G & Ez). injection Ez as -> -> ->. subst z3.
  destruct (reach_lits _ _ _ _ _ _ B3) as (s4 & -> & B4). destruct (reach_seqs_cons _ _ _ _ B4) as (z5 & A5 & B5). apply (proj1 (reach_star_chr _ _ _ _ _ _)) in A5. destruct A5 as (u2 & s5 & -> & U2 & ->).
  cbn [seqs] in B5. apply (proj1 (reach_eol _ _ _ _)) in B5. destruct B5 as (EOL & ->). exists u1, g, u2, s5. split; [reflexivity|]. split; [exact U1|]. split; [exact U2|]. split; [exact EOL|]. split.
  - intros I. rewrite forallb_forall in G. specialize (G _ I). discriminate G.
  - cbn [snd cap Nat.eqb]. reflexivity.
Qed.
Lemma title_match : forall pad t post, spaces_only pad -> spaces_only post -> ~ In "010"%char t ->
  exists e c, re_match title_re (pad ++ s2l "--- " ++ t ++ s2l " ---" ++ post ++ ["010"%char]) = Some (e, c) /\ Regex.group 1 (pad ++ s2l "--- " ++ t ++ s2l " ---" ++ post ++ ["010"%char]) c = Some t.
Proof.
  intros pad t post HP HQ NT. set (l := pad ++ s2l "--- " ++ t ++ s2l " ---" ++ post ++ ["010"%char]). apply spaces_forallb in HP, HQ.
  assert (EX : exists e c, re_match title_re l = Some (e, c)).
  { eapply (re_match_exists title_re l). unfold title_re, l. cbn [app]. eapply R_seq; [apply (proj2 (reach_star_chr _ _ _ _ _ _)); exists pad, (s2l "--- " ++ t ++ s2l " ---" ++ post ++ ["010"%char]); split; [reflexivity|split; [exact HP|reflexivity]]|].
    do 4 (eapply R_seq; [apply R_chr; reflexivity|]). eapply R_seq.
    { apply (proj2 (reach_grp _ _ _ _ _ _)). do 3 eexists. split; [apply (proj2 (reach_star_chr _ _ _ _ _ _)); exists t, (s2l " ---" ++ post ++ ["010"%char]); split; [reflexivity|split; [|reflexivity]]; apply forallb_forall; intros c C; unfold not_nl; apply negb_true_iff, aeqb_neq; intros ->; exact (NT C)|reflexivity]. }
    do 4 (eapply R_seq; [apply R_chr; reflexivity|]). eapply R_seq; [apply (proj2 (reach_star_chr _ _ _ _ _ _)); exists post, ["010"%char]; split; [reflexivity|split; [exact HQ|reflexivity]]|]. apply (proj2 (reach_eol _ _ _ _)). split; reflexivity. }
  destruct EX as (e & c & E). exists e, c. split; [exact E|]. apply re_match_reach in E. destruct E as (s' & E). destruct (reach_title _ _ E) as (u1 & g & u2 & s2 & L & U1 & U2 & EOL & NG & C). cbn [snd] in C.
  assert (S2 : forallb is_space s2 = true) by (destruct s2 as [|x [|? ?]]; [reflexivity| |discriminate EOL]; cbn in EOL; apply aeqb_eq in EOL; subst x; reflexivity).
  assert (CUT : u1 = pad /\ t = g).
  { unfold l in L. assert (P : pad = u1 /\ s2l "--- " ++ t ++ s2l " ---" ++ post ++ ["010"%char] = s2l "--- " ++ g ++ s2l " ---" ++ u2 ++ s2).
    { apply (cut_class is_space _ _ _ _ L HP U1); reflexivity. }
    destruct P as (-> & P). split; [reflexivity|]. apply app_inv_head in P.
    assert (Q : (t ++ s2l " --") ++ ["-"%char] = (g ++ s2l " --") ++ ["-"%char]).
    { apply cut_spaces_end with (u := post ++ ["010"%char]) (v := u2 ++ s2); [|reflexivity|reflexivity|rewrite forallb_app, HQ; reflexivity|rewrite forallb_app, U2, S2; reflexivity]. rewrite <- !app_assoc. exact P. }
    apply app_inv_tail in Q. apply app_inv_tail in Q. exact Q. }
  destruct CUT as (-> & <-). unfold Regex.group. rewrite C. cbn [option_map]. f_equal. apply (slice_at _ (pad ++ s2l "--- ") t (s2l " ---" ++ post ++ ["010"%char])); [unfold l; rewrite <- !app_assoc; reflexivity|rewrite app_length; reflexivity|reflexivity].
Qed.
Lemma no_title : forall l, match l with c :: _ => is_space c = false /\ c <> "-"%char | [] => True end -> re_match title_re l = None.
Proof.
  intros l H. destruct (re_match title_re l) as [[e c]|] eqn:E; [|reflexivity]. exfalso. apply re_match_reach in E. destruct E as (s' & E). destruct (reach_title _ _ E) as (u1 & g & u2 & s2 & -> & U1 & _).
  destruct u1 as [|x u1]; cbn [app] in H; [destruct H as (_ & H); apply H; reflexivity|]. cbn in U1. destruct H as (H & _). rewrite H in U1. discriminate U1.
Qed.
Lemma blank_no_title : forall l, spaces_only l -> re_match title_re l = None.
Proof.
  intros l H. destruct (re_match title_re l) as [[e c]|] eqn:E; [|reflexivity]. exfalso. apply re_match_reach in E. destruct E as (s' & E). destruct (reach_title _ _ E) as (u1 & g & u2 & s2 & -> & _).
  unfold spaces_only in H. rewrite Forall_forall in H. assert (K : is_space "-" = true) by (apply H; apply in_or_app; right; apply in_or_app; left; left; reflexivity). discriminate K.
Qed.

(** ** Fields *)
Lemma ws_skip : forall g c s, spaces_only g -> is_space c = false -> ws_fields true [] (g ++ c :: s) = ws_fields false [c] s.
Proof. intros g c s G C. induction G as [|x g X G IH]; cbn [app ws_fields]; [rewrite C; reflexivity|]. rewrite X. exact IH. Qed.
Lemma ws_word : forall w cur s, Forall (fun c => is_space c = false) w -> ws_fields false cur (w ++ s) = ws_fields false (cur ++ w) s.
Proof. intros w. induction w as [|x w IH]; intros cur s F; [rewrite app_nil_r; reflexivity|]. inversion F as [|? ? X F']; subst. cbn [app ws_fields]. rewrite X, IH by exact F'. rewrite <- app_assoc. reflexivity. Qed.
Lemma ws_row : forall r cur, row_ok r -> ws_fields false cur (concat (map (fun gf => fst gf ++ snd gf) r)) = cur :: fields r.
Proof.
  intros r. induction r as [|[g f] r IH]; intros cur F; [reflexivity|]. inversion F as [|? ? (NG & G & NF & FF) F']; subst. cbn [fst snd] in *. cbn [map concat fst snd fields]. destruct g as [|x g]; [congruence|]. inversion G as [|? ? X G']; subst.
  destruct f as [|c f]; [congruence|]. inversion FF as [|? ? C FF']; subst. rewrite <- app_assoc. cbn [app ws_fields]. rewrite X. f_equal. change ((c :: f) ++ concat (map (fun gf => fst gf ++ snd gf) r)) with (c :: f ++ concat (map (fun gf => fst gf ++ snd gf) r)). rewrite ws_skip by assumption. rewrite ws_word by assumption. cbn [app]. rewrite IH by exact F'. reflexivity.
Qed.
Lemma rstrip_keep : forall (f : ascii -> bool) t x, f x = false -> rstrip_if f ((t ++ [x]) ++ ["010"%char]) = if f "010"%char then t ++ [x] else (t ++ [x]) ++ ["010"%char].
Proof.
  intros f t x X. unfold rstrip_if. rewrite rev_app_distr. cbn [rev app lstrip_if]. destruct (f "010"%char); [|cbn [rev]; rewrite rev_involutive; reflexivity]. rewrite rev_app_distr. cbn [rev app lstrip_if]. rewrite X. cbn [rev]. rewrite rev_involutive. reflexivity.
Qed.
Lemma row_end : forall first r, first <> [] -> Forall (fun c => is_space c = false) first -> row_ok r -> exists t x, first ++ concat (map (fun gf => fst gf ++ snd gf) r) = t ++ [x] /\ is_space x = false.
Proof.
  intros first r NF FF R. assert (L : forall w : str, w <> [] -> Forall (fun c => is_space c = false) w -> forall p, exists t x, p ++ w = t ++ [x] /\ is_space x = false).
  { intros w N F p. destruct (exists_last N) as (a & x & ->). exists (p ++ a), x. split; [apply app_assoc|]. rewrite Forall_forall in F. apply F. apply in_or_app. right. left. reflexivity. }
  destruct r as [|gf r] using rev_ind; [cbn [map concat]; rewrite app_nil_r; apply (L first NF FF [])|]. apply Forall_app in R. destruct R as (_ & R). inversion R as [|? ? (_ & _ & N & F) _]; subst. rewrite map_app, concat_app. cbn [map concat]. rewrite app_nil_r, !app_assoc. apply L; assumption.
Qed.
Lemma nl_space : forall x, is_space x = false -> is_nl x = false.
Proof. intros x H. unfold is_nl. apply orb_false_iff. split; apply aeqb_neq; intros ->; discriminate H. Qed.
Lemma row_split : forall first r, first <> [] -> Forall (fun c => is_space c = false) first -> row_ok r -> ws_split (rstrip_if is_nl (row_line first r)) = first :: fields r.
Proof.
  intros first r N F R. unfold row_line. rewrite app_assoc. destruct (row_end first r N F R) as (t & x & E & X). rewrite E, rstrip_keep by (apply nl_space; exact X). change (is_nl "010") with true. cbv iota. rewrite <- E. unfold ws_split. rewrite ws_word by exact F. cbn [app]. apply ws_row. exact R.
Qed.

Section Reader.
Context {V : Type} (conv : str -> V).
Notation dev_t := (str * list (str * V))%type.
Lemma dset_fresh : forall (W : Type) k (v : W) d, ~ In k (map fst d) -> dset k v d = d ++ [(k, v)].
Proof.
  intros W k v d. induction d as [|[x w] d IH]; intros N; [reflexivity|]. cbn [dset app]. destruct (str_eqb x k) eqn:E; [apply str_eqb_eq in E; exfalso; apply N; left; exact E|]. rewrite IH; [reflexivity|]. intros H. apply N. right. exact H.
Qed.
Lemma dset_mid : forall (W : Type) k (v w : W) a b, ~ In k (map fst a) -> dset k v (a ++ (k, w) :: b) = a ++ (k, v) :: b.
Proof.
  intros W k v w a b. induction a as [|[x u] a IH]; intros N; cbn [app dset]; [rewrite str_eqb_refl; reflexivity|]. destruct (str_eqb x k) eqn:E; [apply str_eqb_eq in E; exfalso; apply N; left; exact E|]. rewrite IH; [reflexivity|]. intros H. apply N. right. exact H.
Qed.
Lemma dget_mid : forall (W : Type) k (w : W) a b, ~ In k (map fst a) -> dget k (a ++ (k, w) :: b) = Some w.
Proof.
  intros W k w a b N. unfold dget. induction a as [|[x u] a IH]; cbn [app find fst]; [rewrite str_eqb_refl; reflexivity|]. destruct (str_eqb x k) eqn:E; [apply str_eqb_eq in E; exfalso; apply N; left; exact E|]. apply IH. intros H. apply N. right. exact H.
Qed.

(** the dictionary while the last kind [w] is being read *)
Lemma devices_ok : forall devs (d : list (str * list dev_t)) w sec, ~ In w (map fst d) -> NoDup (map fst sec ++ devs) ->
  new_devices (d ++ [(w, sec)]) w devs = Some (d ++ [(w, sec ++ map (fun x => (x, [])) devs)]).
Proof.
  induction devs as [|x devs IH]; intros d w sec NW ND; [cbn; rewrite app_nil_r; reflexivity|]. cbn [new_devices map]. rewrite dget_mid by exact NW. rewrite dset_mid by exact NW. rewrite dset_fresh.
  - rewrite IH; [rewrite <- app_assoc; reflexivity|exact NW|]. rewrite map_app. cbn [map fst]. rewrite <- app_assoc. exact ND.
  - intros H. apply NoDup_remove_2 in ND. apply ND. apply in_or_app. left. exact H.
Qed.
Definition with_value (param : str) (dv : dev_t * str) : dev_t := (fst (fst dv), snd (fst dv) ++ [(param, conv (snd dv))]).
Lemma values_ok : forall (cur : list dev_t) vals d w sec param, ~ In w (map fst d) -> NoDup (map fst sec ++ map fst cur) -> length vals = length cur ->
  Forall (fun x => ~ In param (map fst (snd x))) cur ->
  set_values conv (d ++ [(w, sec ++ cur)]) w param (map fst cur) vals = Some (d ++ [(w, sec ++ map (with_value param) (combine cur vals))]).
Proof.
  induction cur as [|[x ps] cur IH]; intros [|v vals] d w sec param NW ND L F; try discriminate L; [reflexivity|]. cbn [map fst snd set_values combine] in *. inversion F as [|? ? NP F']; subst. cbn [snd] in NP.
  assert (NX : ~ In x (map fst sec)) by (intros H; apply NoDup_remove_2 in ND; apply ND; apply in_or_app; left; exact H).
  unfold set_value. rewrite dget_mid by exact NW. rewrite dget_mid by exact NX. rewrite (dset_mid _ w) by exact NW. rewrite dset_mid by exact NX. rewrite dset_fresh by exact NP.
  change (sec ++ (x, ps ++ [(param, conv v)]) :: cur) with (sec ++ [(x, ps ++ [(param, conv v)])] ++ cur). rewrite app_assoc. rewrite IH; [|exact NW| |injection L as L; exact L|exact F'].
  - cbn [combine map]. rewrite <- app_assoc. reflexivity.
  - rewrite map_app. cbn [map fst]. rewrite <- app_assoc. exact ND.
Qed.

Lemma empty_lines : forall ls rest st, Forall spaces_only ls -> op_lines conv (ls ++ rest) st = op_lines conv rest st.
Proof.
  intros ls rest st F. induction F as [|l ls L F IH]; [reflexivity|]. cbn [app op_lines]. unfold op_line. rewrite blank_no_title by exact L.
  assert (S : spaces_only (rstrip_if is_nl l)).
  { unfold spaces_only in *. rewrite Forall_forall in *. intros c C. apply L. unfold rstrip_if in C. apply in_rev in C. assert (K : forall s, In c (lstrip_if is_nl s) -> In c s) by (induction s as [|y s IHs]; intros H; [exact H|]; cbn [lstrip_if] in H; destruct (is_nl y); [right; apply IHs; exact H|exact H]). apply K in C. apply in_rev in C. exact C. }
  assert (W : ws_split (rstrip_if is_nl l) = [[]] \/ exists r, ws_split (rstrip_if is_nl l) = [] :: r).
  { unfold ws_split. destruct (rstrip_if is_nl l) as [|c s]; [left; reflexivity|right]. inversion S; subst. cbn [ws_fields]. rewrite H1. eexists. reflexivity. }
  destruct W as [-> | (r & ->)]; [exact IH|]. destruct r; [exact IH|]. cbn [ends_colon rev orb]. exact IH.
Qed.
Lemma colon_end : forall name, ends_colon (name ++ s2l ":") = true.
Proof. intros name. unfold ends_colon. rewrite rev_app_distr. reflexivity. Qed.
Lemma strip_colon : forall name, (forall n, name <> n ++ s2l ":") -> rstrip_if is_colon name = name /\ rstrip_if is_colon (name ++ s2l ":") = name.
Proof.
  intros name H. assert (A : rstrip_if is_colon name = name).
  { unfold rstrip_if. destruct (rev name) as [|c r] eqn:E; [apply (f_equal (@rev ascii)) in E; rewrite rev_involutive in E; subst; reflexivity|]. cbn [lstrip_if]. assert (C : is_colon c = false).
    { apply aeqb_neq. intros ->. apply (f_equal (@rev ascii)) in E. rewrite rev_involutive in E. cbn [rev] in E. exact (H _ E). }
    rewrite C. apply (f_equal (@rev ascii)) in E. rewrite rev_involutive in E. symmetry. exact E. }
  split; [exact A|]. unfold rstrip_if in *. rewrite rev_app_distr. cbn [s2l rev app lstrip_if]. change (rev (s2l ":") ++ rev name) with (":"%char :: rev name). cbn [lstrip_if]. exact A.
Qed.
Definition qname (q : str * bool * row) : str := fst (fst q).
Definition table_of (names : list str) (qs : list (str * bool * row)) : list dev_t :=
  map (fun i => (nth i names [], map (fun q => (qname q, conv (nth i (fields (snd q)) []))) qs)) (seq 0 (length names)).
Lemma combine_seq : forall (names vals : list str) (f : nat -> list (str * V)) p b, length vals = length names ->
  map (with_value p) (combine (map (fun i => (nth i names [], f (b + i))) (seq 0 (length names))) vals) = map (fun i => (nth i names [], f (b + i) ++ [(p, conv (nth i vals []))])) (seq 0 (length names)).
Proof.
  induction names as [|n names IH]; intros [|v vals] f p b L; try discriminate L; [reflexivity|]. cbn [length seq map combine nth]. unfold with_value at 1. cbn [fst snd]. f_equal.
  rewrite <- seq_shift, !map_map. specialize (IH vals f p (S b)). rewrite (map_ext (fun i => (nth (S i) (n :: names) [], f (b + S i))) (fun i => (nth i names [], f (S b + i)))) by (intros i; cbn [nth]; do 2 f_equal; lia).
  rewrite IH by (injection L as L; exact L). apply map_ext. intros i. cbn [nth]. do 3 f_equal. lia.
Qed.
Definition q_ok (n : nat) (q : str * bool * row) : Prop := let '(name, colon, r) := q in field name /\ name <> s2l "Name" /\ hd_error name <> Some "-"%char /\ (forall n, name <> n ++ s2l ":") /\ (colon = true \/ name = s2l "Gmb") /\ row_ok r /\ length r = n.
Definition q_line (q : str * bool * row) : str := row_line (fst (fst q) ++ (if snd (fst q) then s2l ":" else [])) (snd q).
Lemma map_fst_table : forall names qs, map fst (table_of names qs) = names.
Proof. intros names qs. unfold table_of. rewrite map_map. cbn [fst]. induction names as [|n names IH]; [reflexivity|]. cbn [length seq map nth]. f_equal. rewrite <- seq_shift, map_map. exact IH. Qed.
Lemma quantities_ok : forall qs names done rest d w sec, ~ In (lower w) (map fst d) -> NoDup (map fst sec ++ names) -> names <> [] -> NoDup (map qname (done ++ qs)) -> Forall (q_ok (length names)) qs ->
  op_lines conv (map q_line qs ++ rest) (OpState (Some w) names (d ++ [(lower w, sec ++ table_of names done)])) = op_lines conv rest (OpState (Some w) names (d ++ [(lower w, sec ++ table_of names (done ++ qs))])).
Proof.
  induction qs as [|[[name colon] r] qs IH]; intros names done rest d w sec NW ND NN NQ F; [rewrite app_nil_r; reflexivity|]. inversion F as [|? ? QO F']; subst. unfold q_ok in QO. destruct QO as ((NE & NS) & NNm & NH & NC & CG & RO & LR).
  cbn [map app op_lines]. set (first := (name ++ (if colon then s2l ":" else [])) : str).
  assert (FI : first <> [] /\ Forall (fun c => is_space c = false) first) by (unfold first; split; [destruct name; [congruence|discriminate]|apply Forall_app; split; [exact NS|destruct colon; repeat constructor]]).
  destruct FI as (F1 & F2). unfold op_line at 1. change (q_line (name, colon, r)) with (row_line first r).
  rewrite no_title.
  2: { unfold row_line, first. destruct name as [|c name]; [congruence|]. cbn [app]. inversion NS; subst. split; [assumption|]. intros ->. apply NH. reflexivity. }
  rewrite row_split by assumption.
  assert (LF : length (fields r) = length names) by (unfold fields; rewrite map_length; exact LR).
  destruct (fields r) as [|v0 vs] eqn:EF; [destruct names; [congruence|discriminate LF]|].
  assert (C1 : ends_colon first || str_eqb first (s2l "Gmb") = true).
  { unfold first. destruct colon; [rewrite colon_end; reflexivity|]. destruct CG as [CG|CG]; [discriminate CG|]. rewrite CG, app_nil_r. reflexivity. }
  rewrite C1. assert (C2 : str_eqb first (s2l "Name:") = false).
  { apply str_eqb_neq. unfold first. intros E. destruct colon; [|rewrite app_nil_r in E; apply (NC (s2l "Name")); rewrite E; reflexivity]. change (s2l "Name:") with (s2l "Name" ++ s2l ":") in E. apply app_inv_tail in E. exact (NNm E). }
  rewrite C2. cbn [o_devs o_where o_data].
  assert (C3 : (0 <? length names) && (length ((first :: v0 :: vs) : list str) =? length names + 1) = true).
  { apply andb_true_iff. split; [apply Nat.ltb_lt; destruct names; [congruence|cbn; lia]|]. apply Nat.eqb_eq. clear - LF. rewrite Nat.add_1_r. exact (f_equal S LF). }
  match goal with |- context [if (0 <? ?a) && ?b then _ else _] => replace ((0 <? a) && b) with true by (symmetry; exact C3) end. assert (RS : rstrip_if is_colon first = name) by (unfold first; destruct (strip_colon name NC) as (A & B); destruct colon; [exact B|rewrite app_nil_r; exact A]).
  rewrite RS. assert (NP : Forall (fun x => ~ In name (map fst (snd x))) (table_of names done)).
  { apply Forall_forall. intros x X. unfold table_of in X. apply in_map_iff in X. destruct X as (i & <- & _). cbn [snd]. rewrite map_map. cbn [fst]. intros H. rewrite map_app in NQ. cbn [map] in NQ. apply NoDup_remove_2 in NQ. apply NQ. apply in_or_app. left. exact H. }
  pose proof (values_ok (table_of names done) (v0 :: vs) d (lower w) sec name NW) as VO. rewrite map_fst_table in VO. rewrite VO; [|exact ND|rewrite LF; unfold table_of; rewrite map_length, seq_length; reflexivity|exact NP]. cbn [option_map].
  assert (TE : map (with_value name) (combine (table_of names done) (v0 :: vs)) = table_of names (done ++ [(name, colon, r)])).
  { pose proof (combine_seq names (v0 :: vs) (fun i => map (fun q => (qname q, conv (nth i (fields (snd q)) []))) done) name 0 LF) as CS. cbn [plus] in CS. unfold table_of at 1. rewrite CS. clear CS. unfold table_of. apply map_ext. intros i. f_equal. rewrite map_app. cbn [map qname fst snd]. rewrite EF. reflexivity. }
  rewrite TE. rewrite (IH names (done ++ [(name, colon, r)])); [rewrite <- app_assoc; reflexivity|exact NW|exact ND|exact NN|rewrite <- app_assoc; exact NQ|exact F'].
Qed.
Lemma table_nil : forall names, table_of names [] = map (fun x => (x, [])) names.
Proof. induction names as [|n names IH]; [reflexivity|]. unfold table_of in *. cbn [length seq map nth]. f_equal. rewrite <- seq_shift, map_map. exact IH. Qed.
Lemma group_ok_lines : forall g rest d w sec devs, group_ok g -> ~ In (lower w) (map fst d) -> NoDup (map fst sec ++ fields (g_names g)) ->
  op_lines conv (group_lines g ++ rest) (OpState (Some w) devs (d ++ [(lower w, sec)])) = op_lines conv rest (OpState (Some w) (fields (g_names g)) (d ++ [(lower w, sec ++ group_table conv g)])).
Proof.
  intros g rest d w sec devs (GE & GN & GR & GD & GQ & GF) NW ND. unfold group_lines. rewrite <- app_assoc. rewrite empty_lines by exact GE. cbn [app op_lines]. unfold op_line at 1. rewrite no_title by (split; [reflexivity|discriminate]). rewrite row_split; [|discriminate|repeat constructor|exact GR].
  destruct (fields (g_names g)) as [|n0 ns] eqn:EN; [unfold fields in EN; apply map_eq_nil in EN; congruence|]. change (ends_colon (s2l "Name:") || str_eqb (s2l "Name:") (s2l "Gmb")) with true. change (str_eqb (s2l "Name:") (s2l "Name:")) with true. cbv iota. cbn [o_where o_data]. rewrite <- EN. rewrite <- EN in ND, GD.
  rewrite devices_ok by assumption. cbn [option_map]. rewrite <- table_nil. change (map (fun q : str * bool * row => row_line (fst (fst q) ++ (if snd (fst q) then s2l ":" else [])) (snd q)) (g_quantities g)) with (map q_line (g_quantities g)). pose proof (quantities_ok (g_quantities g) (fields (g_names g)) [] rest d w sec NW ND) as Q. 
  assert (LN : length (fields (g_names g)) = length (g_names g)) by (unfold fields; apply map_length).
  rewrite Q; [|rewrite EN; discriminate|exact GQ|rewrite LN; exact GF]. unfold group_table, table_of. rewrite LN. reflexivity.
Qed.
Lemma groups_ok_lines : forall gs rest d w sec devs, Forall group_ok gs -> ~ In (lower w) (map fst d) -> NoDup (map fst sec ++ flat_map (fun g => fields (g_names g)) gs) ->
  exists devs', op_lines conv (flat_map group_lines gs ++ rest) (OpState (Some w) devs (d ++ [(lower w, sec)])) = op_lines conv rest (OpState (Some w) devs' (d ++ [(lower w, sec ++ flat_map (group_table conv) gs)])).
Proof.
  induction gs as [|g gs IH]; intros rest d w sec devs F NW ND; [exists devs; cbn [flat_map app]; rewrite app_nil_r; reflexivity|]. inversion F as [|? ? G F']; subst. cbn [flat_map] in *. rewrite <- app_assoc.
  rewrite app_assoc in ND. assert (ND1 : NoDup (map fst sec ++ fields (g_names g))) by (apply NoDup_app_inv in ND; apply ND). rewrite group_ok_lines by assumption.
  destruct (IH rest d w (sec ++ group_table conv g) (fields (g_names g)) F' NW) as (devs' & E).
  { rewrite map_app. assert (E : map fst (group_table conv g) = fields (g_names g)) by (rewrite <- (map_fst_table (fields (g_names g)) (g_quantities g)); unfold group_table, table_of, fields; rewrite map_length; reflexivity). match goal with |- NoDup ((_ ++ ?x) ++ _) => replace x with (fields (g_names g)) by (symmetry; exact E) end. exact ND. }
  exists devs'. rewrite E, <- app_assoc. reflexivity.
Qed.
Lemma kinds_ok_lines : forall ks rest d w devs, Forall kind_ok ks -> NoDup (map fst d ++ map (fun k => lower (k_title k)) ks) ->
  exists w' devs', op_lines conv (flat_map kind_lines ks ++ rest) (OpState w devs d) = op_lines conv rest (OpState w' devs' (d ++ map (kind_table conv) ks)).
Proof.
  induction ks as [|k ks IH]; intros rest d w devs F ND; [exists w, devs; cbn [flat_map map app]; rewrite app_nil_r; reflexivity|]. inversion F as [|? ? (KE & KB & KA & KT & KG & KD) F']; subst. cbn [flat_map map] in *. unfold kind_lines at 1. rewrite <- !app_assoc. rewrite empty_lines by exact KE. cbn [app op_lines]. unfold op_line at 1.
  destruct (title_match (k_before k) (k_title k) (k_after k) KB KA KT) as (e & c & E & G). rewrite E, G. cbn [o_devs o_data].
  assert (NW : ~ In (lower (k_title k)) (map fst d)) by (intros H; apply NoDup_remove_2 in ND; apply ND; apply in_or_app; left; exact H).
  rewrite dset_fresh by exact NW. destruct (groups_ok_lines (k_groups k) (flat_map kind_lines ks ++ rest) d (k_title k) [] devs KG NW KD) as (devs' & E1). rewrite E1. cbn [app].
  destruct (IH rest (d ++ [(lower (k_title k), flat_map (group_table conv) (k_groups k))]) (Some (k_title k)) devs' F') as (w2 & devs2 & E2); [rewrite map_app; cbn [map fst]; rewrite <- app_assoc; exact ND|].
  exists w2, devs2. etransitivity; [exact E2|]. rewrite <- app_assoc. reflexivity.
Qed.
End Reader.
