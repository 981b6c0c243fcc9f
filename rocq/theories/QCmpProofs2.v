(** Proofs about the parameters of QSPICE components: the tags. *)
From Coq Require Import String Ascii List Bool Arith ZArith Lia.
From Verif Require Import PyStr EngModel EngProofs StepsModel Regex RegexProofs CompModel CompProofs UpdatesModel QTagModel QTagSpec QTagProofs QEdModel QEdSpec
  ParModel ParSpec ParLine ParLine2 QEdProofs QEdProofs2 QEdProofs3 QParProofs QCmpModel QCmpSpec QCmpProofs.
Import ListNotations.
Local Open Scope string_scope. Local Open Scope nat_scope. Local Open Scope list_scope.

(** ** Texts that can be written *)
Lemma app_cut_len : forall A (a b c d : list A), a ++ b = c ++ d -> (exists e, c = a ++ e /\ b = e ++ d) \/ (exists e, a = c ++ e /\ d = e ++ b).
Proof.
  induction a as [|x a IH]; intros b c d E; [left; exists c; split; [reflexivity|exact E]|]. destruct c as [|y c].
  - right. exists (x :: a). split; [reflexivity|symmetry; exact E].
  - injection E as <- E. destruct (IH _ _ _ E) as [(e & -> & ->)|(e & -> & ->)]; [left|right]; exists e; split; reflexivity.
Qed.
Lemma name_char : forall c, name_c c = true -> c <> DQ /\ c <> COLON /\ c <> CR /\ c <> BLANK.
Proof. intros c H. repeat split; intros ->; discriminate H. Qed.
Lemma value_end : forall v, cvalue v -> forall a, v <> a ++ [COLON].
Proof.
  intros v (P & G & _) a E. destruct P as [s _ _|s _ _|d u ND D U].
  - change ("{"%char :: s ++ ["}"%char]) with (("{"%char :: s) ++ ["}"%char]) in E. apply app_inj_tail in E. destruct E as (_ & E). discriminate E.
  - apply G. left. reflexivity.
  - assert (In COLON (d ++ u)) as K by (rewrite E; apply in_or_app; right; left; reflexivity). apply in_app_or in K.
    destruct K as [K|K]; [rewrite forallb_forall in D; apply D in K|rewrite forallb_forall in U; apply U in K]; discriminate K.
Qed.
Lemma no_colon_end2 : forall p q, no_colon p -> (forall a, p <> a ++ [COLON]) -> no_colon q -> no_colon (p ++ q).
Proof.
  intros p q HP HE HQ a b E. destruct (app_cut_len _ _ _ _ _ E) as [(w & -> & ->)|(w & -> & E2)]; [|].
  - exact (HQ w b eq_refl).
  - destruct w as [|c w]; [exact (HQ [] b (eq_sym E2))|]. injection E2 as <- E2. destruct w as [|d w]; [exact (HE a eq_refl)|]. injection E2 as <- E2. exact (HP a w eq_refl).
Qed.
Lemma spaces_not : forall b c, ParSpec.spaces b -> c <> BLANK -> ~ In c b.
Proof. intros b c H N K. apply N. exact (H c K). Qed.
Lemma name_not : forall n c, cname n -> name_c c = false -> ~ In c n.
Proof. intros n c ((_ & F) & _) N K. rewrite forallb_forall in F. rewrite (F c K) in N. discriminate. Qed.
Lemma entries_good : forall l t, Forall centry_ok l -> good_text t -> good_text (entries_text l ++ t).
Proof.
  induction l as [|e l IH]; intros t F G; [exact G|]. inversion F as [|? ? (E1 & E2 & E3 & E4 & E5) FL]; subst. specialize (IH t FL G).
  change (entries_text (e :: l)) with (entry_text e ++ entries_text l). rewrite <- app_assoc. destruct IH as (I1 & I2 & I3).
  assert (forall c, name_c c = false -> c <> BLANK -> c <> "="%char -> ~ In c (e_sep e ++ e_par e ++ e_b1 e ++ "="%char :: e_b2 e)) as N.
  { intros c A B C. repeat apply not_in_app; try (apply spaces_not; assumption); [apply name_not; assumption|]. intros [K|K]; [congruence|revert K; apply spaces_not; assumption]. }
  assert (entry_text e = (e_sep e ++ e_par e ++ e_b1 e ++ "="%char :: e_b2 e) ++ e_val e) as -> by (unfold entry_text; rewrite <- !app_assoc; cbn [app]; reflexivity).
  destruct (proj2 E5) as (V1 & V2 & V3). set (P := e_sep e ++ e_par e ++ e_b1 e ++ "="%char :: e_b2 e) in *. rewrite <- app_assoc. split; [|split].
  - apply not_in_app; [apply N; try reflexivity; discriminate|]. apply not_in_app; assumption.
  - apply no_colon_pre; [apply N; try reflexivity; discriminate|]. apply no_colon_end2; [exact V2|apply value_end; exact E5|exact I2].
  - apply not_in_app; [apply N; try reflexivity; discriminate|]. apply not_in_app; assumption.
Qed.
Lemma spaces_good : forall t, ParSpec.spaces t -> good_text t.
Proof.
  intros t H. repeat split; try (apply spaces_not; [exact H|discriminate]). intros a b ->. 
  assert (COLON = BLANK) as K by (apply H; apply in_or_app; right; left; reflexivity). discriminate K.
Qed.
Lemma pars_good : forall l t, ctext_ok (Pars l t) -> good_text (ctext_str (Pars l t)).
Proof. intros l t (F & _ & T). apply entries_good; [exact F|apply spaces_good; exact T]. Qed.
Lemma pars_hex : forall l t, ctext_ok (Pars l t) -> startswith (s2l "0x") (ctext_str (Pars l t)) = false.
Proof.
  intros l t (F & _ & T). cbn [ctext_str]. destruct l as [|e l]; cbn [map concat app].
  - destruct t as [|c t]; [reflexivity|]. rewrite (T c (or_introl eq_refl)). reflexivity.
  - inversion F as [|? ? (E1 & ((E2 & _) & E2') & E3 & _) FL]; subst. unfold entry_text. destruct (e_sep e) as [|c s] eqn:S; [|cbn [app]; rewrite (E1 c (or_introl eq_refl)); reflexivity].
    cbn [app]. destruct (e_par e) as [|c n]; [contradiction|]. cbn [app]. destruct (aeqb "0" c) eqn:C; [|apply start_no; exact C].
    apply aeqb_eq in C. subst c. destruct n as [|d n].
    + cbn [app]. destruct (e_b1 e) as [|d b]; [reflexivity|]. rewrite (E3 d (or_introl eq_refl)). reflexivity.
    + cbn [app]. exact E2'.
Qed.
Lemma new_pars : forall k v, cname k -> cvalue v -> ctext_ok (Pars [{| e_sep := []; e_par := k; e_b1 := []; e_b2 := []; e_val := v |}] []).
Proof.
  intros k v K V. split; [|split; [constructor|intros c []]]. constructor; [|constructor]. unfold centry_ok. cbn.
  split; [intros c []|]. split; [exact K|]. split; [intros c []|]. split; [intros c []|exact V].
Qed.

(** ** The new tag *)
Lemma new_param_tag : forall x y s, good_text s -> exists t r, parse (new_param_text x y s) = Some (t, r) /\ proper t /\ ~ in_tag CR t /\ head_is TEXT t = true /\ text_of t = Some s /\ get_attr 1 t = Some (APair [x; y]).
Proof.
  intros x y s (HD & HC & HR). set (P := s2l "(" ++ show_int x ++ s2l "," ++ show_int y ++ s2l ")").
  set (ts := [s2l "text"; P; s2l "0.5"; s2l "0"; s2l "0"; s2l "0x1000000"; s2l "-1"; s2l "-1"; DQ :: s ++ [DQ]]).
  assert (PC : forall c, In c P -> is_space c = false /\ c <> DQ /\ c <> LT /\ c <> GT /\ c <> COLON /\ c <> CR).
  { intros c H. unfold P in H. rewrite !in_app_iff in H. assert (SH : forall n, In c (show_int n) -> is_space c = false /\ c <> DQ /\ c <> LT /\ c <> GT /\ c <> COLON /\ c <> CR).
    { intros n K. destruct (show_int_shape n) as (sg & ds & E & SG & _ & DG). rewrite E in K. apply in_app_or in K. destruct K as [K|K].
      - destruct SG as [(-> & _)|(-> & _)]; [destruct K|]. destruct K as [<-|[]]. repeat split; try reflexivity; discriminate.
      - apply digits_in with (1 := DG) in K. apply digit_cases in K. clear - K. revert c K. apply (proj1 (Forall_forall _ _)). repeat constructor; try reflexivity; discriminate. }
    destruct H as [H|[H|[H|[H|H]]]]; try (eapply SH; eassumption); destruct H as [<-|[]]; repeat split; try reflexivity; discriminate. }
  assert (TK : Forall token ts).
  { unfold ts. repeat (apply Forall_cons); try apply Forall_nil; try (left; apply word_ok; [discriminate|reflexivity]).
    - left. split; [unfold P; discriminate|]. intros c H. apply PC in H. tauto.
    - right. exists s. split; [reflexivity|exact HD]. }
  assert (NC : Forall no_colon ts).
  { unfold ts. repeat (apply Forall_cons); try apply Forall_nil; try (intros a b E; apply (f_equal (existsb (aeqb COLON))) in E; rewrite existsb_app in E; cbn [existsb] in E; rewrite aeqb_refl, orb_true_r in E; discriminate E).
    - intros a b E. destruct (PC COLON) as (_ & _ & _ & _ & K & _); [rewrite E; apply in_or_app; right; left; reflexivity|congruence].
    - apply quoted_no_colon. exact HC. }
  assert (LE : forall a z b, ts = a ++ (z ++ [COLON]) :: b -> b = []).
  { intros a z b E. assert (K : In (z ++ [COLON]) ts) by (rewrite E; apply in_or_app; right; left; reflexivity). exfalso.
    assert (L : forall w, last w BLANK <> COLON -> z ++ [COLON] <> w) by (intros w Hw EE; subst w; rewrite last_last in Hw; congruence).
    destruct K as [K|[K|[K|[K|[K|[K|[K|[K|[K|[]]]]]]]]]]; symmetry in K; revert K; apply L; try discriminate.
    - unfold P. rewrite !app_assoc. change (s2l ")") with [")"%char]. rewrite last_last. discriminate.
    - rewrite app_comm_cons, last_last. discriminate. }
  assert (PR : proper (Tag ts [])) by (apply P_leaf; assumption).
  assert (EN : new_param_text x y s = LT :: join_blank ts ++ [GT]).
  { unfold new_param_text, ts, P. cbn [join_blank]. change (s2l "text (") with (s2l "text" ++ BLANK :: s2l "("). change (s2l ") 0.5 0 0 0x1000000 -1 -1 ") with (s2l ")" ++ BLANK :: s2l "0.5" ++ BLANK :: s2l "0" ++ BLANK :: s2l "0" ++ BLANK :: s2l "0x1000000" ++ BLANK :: s2l "-1" ++ BLANK :: s2l "-1" ++ [BLANK]).
    f_equal. repeat (rewrite <- ?app_assoc; rewrite <- ?app_comm_cons). cbn [app]. reflexivity. }
  exists (Tag ts []), []. rewrite EN. split; [|split; [exact PR|split; [|split; [reflexivity|split]]]].
  - unfold parse. rewrite aeqb_refl. change (join_blank ts ++ [GT]) with (QTagProofs.body 0 (Tag ts []) ++ GT :: []). apply parse_body; [exact PR|]. lia.
  - intros K. inversion K as [ts0 its a HI HA|ts0 its t HI]; subst; [|destruct HI]. unfold ts in HI.
    destruct HI as [K1|[K1|[K1|[K1|[K1|[K1|[K1|[K1|[K1|[]]]]]]]]]]; subst a; try (revert HA; clear; intros HA; repeat (destruct HA as [HA|HA]; [discriminate HA|]); exact HA).
    + apply PC in HA. tauto.
    + destruct HA as [HA|HA]; [discriminate|]. apply in_app_or in HA. destruct HA as [HA|[HA|[]]]; [exact (HR HA)|discriminate].
  - unfold text_of, get_attr. cbn [toks nth_error ts]. rewrite read_quoted. reflexivity.
  - unfold get_attr. cbn [toks nth_error ts]. apply read_pair.
Qed.

(** ** The symbol *)
Lemma filter_ext_in' : forall A (f g : A -> bool) l, (forall x, In x l -> f x = g x) -> filter f l = filter g l.
Proof. induction l as [|a l IH]; intros H; [reflexivity|]. cbn. rewrite (H a (or_introl eq_refl)), IH; [reflexivity|]. intros x K. apply H. right. exact K. Qed.
Lemma text_item : forall y i, In i (text_ids y) -> In i (y_items y) /\ head_is TEXT (y_store y i) = true.
Proof. intros y i H. apply filter_In in H. exact H. Qed.

Lemma put_symbol : forall y i t' s, sym_ok y -> sym_writable y -> In i (text_ids y) -> set_attr 8 (AText s) (y_store y i) = Some t' ->
  good_text s -> startswith (s2l "0x") s = false ->
  sym_ok (put_y y i t') /\ sym_writable (put_y y i t') /\ text_ids (put_y y i t') = text_ids y /\ others (put_y y i t') = others y /\ text_of t' = Some s.
Proof.
  intros y i t' s (O1 & O2 & O3 & O4) W HI HS (G1 & G2 & G3) HX. destruct (text_item _ _ HI) as (II & IT).
  assert (forall item j, head_is item (if j =? i then t' else y_store y j) = head_is item (y_store y j)) as HH.
  { intros item j. destruct (j =? i) eqn:J; [|reflexivity]. apply Nat.eqb_eq in J. subst j. exact (head_set item 7 _ _ _ HS). }
  assert (text_ids (put_y y i t') = text_ids y) as TI.
  { unfold text_ids. cbn [put_y with_y y_items y_store]. apply filter_ext_in'. intros j _. apply HH. }
  split; [|split; [|split; [exact TI|split]]].
  - split; [exact O1|]. split; [exact O2|]. split.
    + rewrite TI. intros j J. cbn [put_y with_y y_store]. destruct (j =? i) eqn:E; [|exact (O3 j J)]. rewrite (tag_attr_kept _ _ _ _ 1 HS) by discriminate. exact (O3 i HI).
    + cbn [put_y with_y y_items y_store]. intros a j b E P k K. rewrite HH in *. exact (O4 a j b E P k K).
  - unfold sym_writable in *. cbn [put_y with_y y_items y_store]. apply Forall_forall. intros j J. pose proof (proj1 (Forall_forall _ _) W j J) as (P & R).
    destruct (j =? i) eqn:E; [|split; assumption]. apply Nat.eqb_eq in E. subst j. split; [eapply proper_set_text; try eassumption; [lia|intros _; exact G2]|eapply cr_set_text; eassumption].
  - unfold others. cbn [put_y with_y y_items y_store]. erewrite filter_ext_in' by (intros j _; rewrite HH; reflexivity).
    apply map_ext_in. intros j J. apply filter_In in J. destruct J as (_ & J). destruct (j =? i) eqn:E; [|reflexivity]. apply Nat.eqb_eq in E. subst j. rewrite IT in J. discriminate.
  - exact (text_after_set _ _ _ HX HS).
Qed.
Lemma set_possible : forall s x t, text_of t = Some x -> exists t', set_attr 8 (AText s) t = Some t'.
Proof.
  intros s x t H. unfold text_of, get_attr in H. destruct (nth_error (toks t) 8) as [a|] eqn:E; [|discriminate]. unfold set_attr. cbn [write_token].
  unfold set_nth. assert (8 < length (toks t)) as L by (apply nth_error_Some; rewrite E; discriminate). apply Nat.ltb_lt in L. rewrite L. eexists. reflexivity.
Qed.

Lemma drop_id_ok : forall i l, In i l -> exists a b, l = a ++ i :: b /\ ~ In i a /\ drop_id i l = Some (a ++ b).
Proof.
  induction l as [|x l IH]; intros H; [destruct H|]. cbn [drop_id]. destruct (x =? i) eqn:E.
  - apply Nat.eqb_eq in E. subst x. exists [], l. split; [reflexivity|]. split; [intros []|reflexivity].
  - apply Nat.eqb_neq in E. destruct H as [->|H]; [contradiction|]. destruct (IH H) as (a & b & -> & N & D). exists (x :: a), b. rewrite D. split; [reflexivity|].
    split; [intros [K|K]; [congruence|contradiction]|reflexivity].
Qed.
Lemma drop_symbol : forall y i, sym_ok y -> sym_writable y -> In i (text_ids y) ->
  exists l u1 u2, drop_id i (y_items y) = Some l /\ let y' := with_y y (y_store y) l (y_next y) in
    text_ids y = u1 ++ i :: u2 /\ text_ids y' = u1 ++ u2 /\ sym_ok y' /\ sym_writable y' /\ others y' = others y.
Proof.
  intros y i (O1 & O2 & O3 & O4) W HI. destruct (text_item _ _ HI) as (II & IT). destruct (drop_id_ok _ _ II) as (a & b & E & N & D).
  exists (a ++ b), (filter (fun j => head_is TEXT (y_store y j)) a), (filter (fun j => head_is TEXT (y_store y j)) b). split; [exact D|]. cbn zeta.
  assert (forall j, In j (a ++ b) -> In j (y_items y)) as SUB by (intros j J; rewrite E; apply in_app_or in J; apply in_or_app; destruct J as [J|J]; [left; exact J|right; right; exact J]).
  split; [unfold text_ids; rewrite E, filter_app; cbn [filter]; rewrite IT; reflexivity|].
  split; [unfold text_ids; cbn [with_y y_items y_store]; apply filter_app|].
  split; [|split].
  - split; [cbn; rewrite E in O1; apply NoDup_remove_1 in O1; exact O1|]. split; [intros j J; apply O2; apply SUB; exact J|]. split.
    + intros j J. apply filter_In in J. destruct J as (J1 & J2). apply O3. apply filter_In. split; [apply SUB; exact J1|exact J2].
    + cbn [with_y y_items y_store]. intros c j d E2 P k K.
      destruct (app_cut_len _ _ _ _ _ E2) as [(w & -> & E3)|(w & -> & E3)].
      * exact (O4 (a ++ i :: w) j d ltac:(rewrite E, E3, <- app_assoc; reflexivity) P k K).
      * destruct w as [|x w]; cbn [app] in E3.
        -- rewrite app_nil_r in *. exact (O4 (c ++ [i]) j d ltac:(rewrite E, <- app_assoc; cbn [app]; rewrite <- E3; reflexivity) P k K).
        -- injection E3 as <- E3. rewrite <- app_assoc in E. cbn [app] in E. pose proof (O4 c j (w ++ i :: b) E P) as Q.
           apply Q. subst d. apply in_app_or in K. apply in_or_app. destruct K as [K|K]; [left; exact K|right; right; exact K].
  - unfold sym_writable in *. cbn. apply Forall_forall. intros j J. exact (proj1 (Forall_forall _ _) W j (SUB j J)).
  - unfold others. cbn [with_y y_items y_store]. rewrite E, !filter_app. cbn [filter]. rewrite IT. reflexivity.
Qed.

(** the place of a new text *)
Lemma place_from : forall store l pre P1 P2, pre = P1 ++ P2 -> (forall j, In j P2 -> head_is TEXT (store j) = false) -> (forall j, In j pre -> head_is (s2l "pin") (store j) = false) ->
  (forall a x b, pre ++ l = a ++ x :: b -> head_is (s2l "pin") (store x) = true -> forall j, In j b -> head_is TEXT (store j) = false) ->
  exists A B, pre ++ l = A ++ B /\ place store (length pre) (length P1) l = length A /\ (forall j, In j B -> head_is TEXT (store j) = false) /\
    (forall j, In j A -> head_is (s2l "pin") (store j) = false).
Proof.
  induction l as [|x l IH]; intros pre P1 P2 E NT NP H; cbn [place].
  - exists P1, P2. split; [rewrite app_nil_r; exact E|]. split; [reflexivity|]. split; [exact NT|]. intros j J. apply NP. rewrite E. apply in_or_app. left. exact J.
  - destruct (head_is (s2l "pin") (store x)) eqn:X.
    + exists pre, (x :: l). split; [reflexivity|]. split; [reflexivity|]. split; [|exact NP]. intros j [<- | J]; [|exact (H pre x l eq_refl X j J)].
      unfold head_is in *. destruct (toks (store x)) as [|w r]; [reflexivity|]. apply str_eqb_eq in X. subst w. reflexivity.
    + assert (forall j, In j (pre ++ [x]) -> head_is (s2l "pin") (store j) = false) as NP' by (intros j J; apply in_app_or in J; destruct J as [J|[<- |[]]]; [exact (NP j J)|exact X]).
      assert (pre ++ x :: l = (pre ++ [x]) ++ l) as EA by (rewrite <- app_assoc; reflexivity). rewrite EA in *.
      replace (S (length pre)) with (length (pre ++ [x])) by (rewrite app_length; cbn [length]; lia).
      destruct (head_is TEXT (store x)) eqn:T.
      * apply (IH (pre ++ [x]) (pre ++ [x]) []); [rewrite app_nil_r; reflexivity|intros j []|exact NP'|exact H].
      * apply (IH (pre ++ [x]) P1 (P2 ++ [x])); [rewrite E, <- app_assoc; reflexivity| |exact NP'|exact H].
        intros j J. apply in_app_or in J. destruct J as [J|[<- |[]]]; [exact (NT j J)|exact T].
Qed.
Lemma insert_cut : forall A B n, insert_at (length A) n (A ++ B) = A ++ n :: B.
Proof.
  intros A B n. unfold insert_at. destruct B as [|b B].
  - rewrite app_nil_r, Nat.ltb_irrefl. reflexivity.
  - assert (length A <? length (A ++ b :: B) = true) as -> by (apply Nat.ltb_lt; rewrite app_length; cbn [length]; lia).
    rewrite firstn_app, Nat.sub_diag, firstn_all, skipn_app, Nat.sub_diag, skipn_all. cbn [firstn skipn app]. rewrite app_nil_r. reflexivity.
Qed.
Lemma positions_ok : forall l, (forall t, In t l -> head_is TEXT t = true -> exists p q, get_attr 1 t = Some (APair [p; q])) -> exists ps, positions l = Some ps.
Proof.
  induction l as [|t l IH]; intros H; [eexists; reflexivity|]. cbn [positions]. destruct (IH (fun x K => H x (or_intror K))) as (ps & ->).
  destruct (head_is TEXT t) eqn:T; [|eexists; reflexivity]. destruct (H t (or_introl eq_refl) T) as (p & q & ->). eexists. reflexivity.
Qed.
Lemma xy_ok : forall y, sym_ok y -> exists px py, xy_for_new (map (y_store y) (y_items y)) = Some (px, py).
Proof.
  intros y (_ & _ & O3 & _). unfold xy_for_new. destruct (positions_ok (map (y_store y) (y_items y))) as (ps & ->).
  - intros t K T. apply in_map_iff in K. destruct K as (i & <- & I). apply O3. apply filter_In. split; assumption.
  - destruct ps as [|[a b] r]; eexists; eexists; reflexivity.
Qed.
Lemma new_symbol : forall y t, sym_ok y -> sym_writable y -> proper t -> ~ in_tag CR t -> head_is TEXT t = true -> (exists p q, get_attr 1 t = Some (APair [p; q])) ->
  let n := y_next y in
  let y' := with_y y (fun j => if j =? n then t else y_store y j) (insert_at (place (y_store y) 0 0 (y_items y)) n (y_items y)) (S n) in
  sym_ok y' /\ sym_writable y' /\ text_ids y' = text_ids y ++ [n] /\ others y' = others y.
Proof.
  intros y t (O1 & O2 & O3 & O4) W PT RT TT AT. cbn zeta. set (n := y_next y).
  destruct (place_from (y_store y) (y_items y) [] [] [] eq_refl ltac:(intros j []) ltac:(intros j []) O4) as (A & B & E & PL & NT & NP). cbn [app length] in E, PL.
  rewrite PL. rewrite E, insert_cut.
  assert (~ In n (A ++ B)) as NI by (rewrite <- E; intros K; apply O2 in K; unfold n in K; lia).
  assert (forall j, In j (A ++ B) -> (if j =? n then t else y_store y j) = y_store y j) as ST.
  { intros j J. destruct (j =? n) eqn:X; [|reflexivity]. apply Nat.eqb_eq in X. subst j. contradiction. }
  assert (STA : forall j, In j A -> (if j =? n then t else y_store y j) = y_store y j) by (intros j J; apply ST; apply in_or_app; left; exact J).
  assert (STB : forall j, In j B -> (if j =? n then t else y_store y j) = y_store y j) by (intros j J; apply ST; apply in_or_app; right; exact J).
  assert (head_is (s2l "pin") t = false) as TP by (unfold head_is in *; destruct (toks t) as [|w r]; [reflexivity|]; apply str_eqb_eq in TT; subst w; reflexivity).
  assert (text_ids y = filter (fun j => head_is TEXT (y_store y j)) A) as TI.
  { unfold text_ids. rewrite E, filter_app. rewrite (filter_ext_in' _ _ (fun _ => false) B) by (intros j J; apply NT; exact J).
    assert (filter (fun _ : nat => false) B = []) as -> by (clear; induction B; [reflexivity|assumption]). apply app_nil_r. }
  assert (text_ids (with_y y (fun j => if j =? n then t else y_store y j) (A ++ n :: B) (S n)) = text_ids y ++ [n]) as TI'.
  { unfold text_ids at 1. cbn [with_y y_items y_store]. rewrite filter_app. cbn [filter]. rewrite Nat.eqb_refl, TT. rewrite TI.
    rewrite (filter_ext_in' _ _ (fun j => head_is TEXT (y_store y j)) A) by (intros j J; rewrite STA by exact J; reflexivity).
    rewrite (filter_ext_in' _ _ (fun _ => false) B) by (intros j J; rewrite STB by exact J; apply NT; exact J).
    assert (filter (fun _ : nat => false) B = []) as -> by (clear; induction B; [reflexivity|assumption]). reflexivity. }
  split; [|split; [|split; [exact TI'|]]].
  - split; [|split; [|split]].
    + cbn. rewrite E in O1. apply NoDup_Add with (a := n) (l := A ++ B); [apply Add_app|split; assumption].
    + cbn. intros j J. apply in_app_or in J. assert (j = n \/ In j (y_items y)) as [->|K].
      { rewrite E. destruct J as [J|[<- |J]]; [right; apply in_or_app; left; exact J|left; reflexivity|right; apply in_or_app; right; exact J]. }
      * lia.
      * apply O2 in K. unfold n. lia.
    + rewrite TI'. cbn [with_y y_store]. intros j J. apply in_app_or in J. destruct J as [J|[<- |[]]]; [|rewrite Nat.eqb_refl; exact AT].
      rewrite ST; [exact (O3 j J)|]. rewrite <- E. apply text_item. exact J.
    + cbn [with_y y_items y_store]. intros a x b E2 P k K.
      destruct (app_cut_len _ _ _ _ _ E2) as [(w & -> & E3)|(w & EA & E3)].
      * destruct w as [|z w]; cbn [app] in E3; injection E3 as EX E3.
        -- subst x. rewrite Nat.eqb_refl, TP in P. discriminate.
        -- subst z. rewrite STB by (rewrite E3; apply in_or_app; right; right; exact K). apply NT. rewrite E3. apply in_or_app. right. right. exact K.
      * destruct w as [|z w]; cbn [app] in E3; injection E3 as EX E3.
        -- subst x. rewrite Nat.eqb_refl, TP in P. discriminate.
        -- subst z. assert (In x A) as XA by (rewrite EA; apply in_or_app; right; left; reflexivity). rewrite STA in P by exact XA. rewrite (NP x XA) in P. discriminate.
  - unfold sym_writable in *. cbn [with_y y_items y_store]. rewrite E in W. apply Forall_app in W. destruct W as (WA & WB). apply Forall_app. split; [|constructor].
    + apply Forall_forall. intros j J. rewrite STA by exact J. exact (proj1 (Forall_forall _ _) WA j J).
    + rewrite Nat.eqb_refl. split; assumption.
    + apply Forall_forall. intros j J. rewrite STB by exact J. exact (proj1 (Forall_forall _ _) WB j J).
  - unfold others. cbn [with_y y_items y_store]. rewrite E, !filter_app. cbn [filter]. rewrite Nat.eqb_refl, TT. cbn [negb]. rewrite !map_app. f_equal.
    + rewrite (filter_ext_in' _ _ (fun j => negb (head_is TEXT (y_store y j))) A) by (intros j J; rewrite STA by exact J; reflexivity).
      apply map_ext_in. intros j J. apply filter_In in J. apply STA. apply J.
    + rewrite (filter_ext_in' _ _ (fun j => negb (head_is TEXT (y_store y j))) B) by (intros j J; rewrite STB by exact J; reflexivity).
      apply map_ext_in. intros j J. apply filter_In in J. apply STB. apply J.
Qed.
