(** The tag of a symbol. *)
From Coq Require Import String Ascii List Bool Arith ZArith Lia.
From Verif Require Import PyStr EngModel EngProofs StepsModel StepsProofs LogProofs CompModel CompProofs QTagModel QTagSpec QTagProofs QEdModel QEdProofs QNetModel QNetProofs2 AscModel AscSpec AscProofs AscProofs2 AsyModel AsySpec AsyProofs AsyProofs2.
Import ListNotations.
Local Open Scope string_scope. Local Open Scope nat_scope. Local Open Scope list_scope.

Lemma map_opt_ex : forall A B C (f : A -> option B) (P : C -> B -> Prop) (l : list A) (r : list C) (R : A -> C -> Prop), Forall2 R l r ->
  (forall x c, In c r -> R x c -> exists y, f x = Some y /\ P c y) -> exists ys, map_opt f l = Some ys /\ Forall2 P r ys.
Proof.
  intros A B C f P l r R F. induction F as [|x c l r RX F IH]; intros H; [exists []; split; [reflexivity|constructor]|].
  destruct (H x c (or_introl eq_refl) RX) as (y & E & Y). destruct IH as (ys & ES & YS); [intros x' c' I'; apply H; right; exact I'|].
  exists (y :: ys). cbn [map_opt]. rewrite E, ES. split; [reflexivity|]. constructor; assumption.
Qed.
Lemma F2_refl : forall A (l : list A), Forall2 eq l l.
Proof. induction l; constructor; auto. Qed.
Lemma F2_Forall_r : forall A B (P : A -> B -> Prop) (Q : B -> Prop) l r, (forall x y, P x y -> Q y) -> Forall2 P l r -> Forall Q r.
Proof. intros A B P Q l r H F. induction F; constructor; eauto. Qed.
Lemma head_toks : forall n t, head_is n t = true <-> exists r, toks t = n :: r.
Proof. intros n t. unfold head_is. destruct (toks t) as [|a r]; [split; [discriminate|intros (r & E); discriminate]|]. rewrite str_eqb_eq. split; [intros ->; eexists; reflexivity|intros (r' & E); congruence]. Qed.
Lemma filter_all : forall n l, Forall (fun t => head_is n t = true) l -> filter (head_is n) l = l.
Proof. intros n l F. induction F as [|t l H F IH]; [reflexivity|]. cbn [filter]. rewrite H, IH. reflexivity. Qed.
Lemma filter_other : forall n k l, str_eqb k n = false -> Forall (fun t => head_is k t = true) l -> filter (head_is n) l = [].
Proof.
  intros n k l N F. induction F as [|t l H F IH]; [reflexivity|]. cbn [filter]. apply head_toks in H. destruct H as (r & E). unfold head_is at 1. rewrite E, N. exact IH.
Qed.
Lemma dget_attrs : forall l k, dget k (map (fun e => (fst e, attr_value (fst e) (snd e))) l) = option_map (fun e => attr_value k (snd e)) (find (fun e => str_eqb (fst e) k) l).
Proof.
  induction l as [|[a v] l IH]; intros k; [reflexivity|]. unfold dget in *. cbn [map find fst snd]. destruct (str_eqb a k) eqn:E; [|apply IH]. apply str_eqb_eq in E. subst. reflexivity.
Qed.
Lemma combine_F2 : forall (ws : list text) (ts : list shown_text) (args : list str) (l : list tag) (P : text * str -> tag -> Prop),
  Forall2 text_shown ws ts -> Forall2 P (combine ws args) l -> Forall2 (fun x t => exists w, text_shown w (fst x) /\ P (w, snd x) t) (combine ts args) l.
Proof.
  intros ws ts args l P F. revert args l. induction F as [|w t ws ts H F IH]; intros args l G; [exact (match G in Forall2 _ a b return match a with [] => Forall2 _ [] b | _ => True end with Forall2_nil _ => Forall2_nil _ | _ => I end)|].
  destruct args as [|a args]; [cbn [combine] in *; inversion G; constructor|]. cbn [combine] in *. inversion G as [|x y xs ys K KS]; subst. constructor; [exists w; split; assumption|]. apply IH. exact KS.
Qed.
Lemma shapes_split : forall (ss : list drawn) (l : list tag),
  Forall2 (fun s t => (exists r, toks t = tag_name (fst (fst s)) :: r) /\ (fst (fst s) = s2l "RECTANGLE" \/ fst (fst s) = s2l "CIRCLE") /\ exists p1 p2, snd (fst s) = [p1; p2] /\ drawn_as p1 p2 t) ss l ->
  Forall2 (fun s t => exists p1 p2, snd (fst s) = [p1; p2] /\ drawn_as p1 p2 t) (filter (fun s => str_eqb (fst (fst s)) (s2l "RECTANGLE")) ss) (filter (head_is (s2l "rect")) l) /\
  Forall2 (fun s t => exists p1 p2, snd (fst s) = [p1; p2] /\ drawn_as p1 p2 t) (filter (fun s => str_eqb (fst (fst s)) (s2l "CIRCLE")) ss) (filter (head_is (s2l "ellipse")) l) /\
  (forall n, str_eqb (s2l "rect") n = false -> str_eqb (s2l "ellipse") n = false -> filter (head_is n) l = []).
Proof.
  intros ss l F. induction F as [|[[n ps] q] t ss l ((r & E) & N & D) F (IA & IB & IC)]; [repeat split; constructor|]. cbn [fst snd] in *. cbn [filter].
  assert (HH : forall k, head_is k t = str_eqb (tag_name n) k) by (intros k; unfold head_is; rewrite E; reflexivity). rewrite !HH. cbn [fst].
  destruct N as [-> | ->].
  - change (str_eqb (tag_name (s2l "RECTANGLE")) (s2l "rect")) with true. change (str_eqb (s2l "RECTANGLE") (s2l "RECTANGLE")) with true.
    change (str_eqb (tag_name (s2l "RECTANGLE")) (s2l "ellipse")) with false. change (str_eqb (s2l "RECTANGLE") (s2l "CIRCLE")) with false. cbn match. split; [constructor; assumption|]. split; [exact IB|]. intros m A B. rewrite HH. change (tag_name (s2l "RECTANGLE")) with (s2l "rect"). rewrite A. apply IC; assumption.
  - change (str_eqb (tag_name (s2l "CIRCLE")) (s2l "rect")) with false. change (str_eqb (s2l "CIRCLE") (s2l "RECTANGLE")) with false.
    change (str_eqb (tag_name (s2l "CIRCLE")) (s2l "ellipse")) with true. change (str_eqb (s2l "CIRCLE") (s2l "CIRCLE")) with true. cbn match. split; [exact IA|]. split; [constructor; assumption|]. intros m A B. rewrite HH. change (tag_name (s2l "CIRCLE")) with (s2l "ellipse"). rewrite B. apply IC; assumption.
Qed.
Lemma label_tag_proper : forall name text, label_text name -> label_text text -> no_colon (name ++ [COLON]) -> no_colon text -> ~ In CR name -> ~ In CR text ->
  proper (Tag [name ++ [COLON]; text] []) /\ ~ in_tag CR (Tag [name ++ [COLON]; text] []).
Proof.
  intros name text A B C D E F. split; [apply P_label; assumption|]. intros K. inversion K as [ts its a HI HA|ts its t HI]; subst; [|destruct HI]. destruct HI as [<- |[<- |[]]]; [|exact (F HA)].
  apply in_app_or in HA. destruct HA as [HA|[HA|[]]]; [exact (E HA)|discriminate].
Qed.
Lemma lit_label : forall (w : string), existsb (fun c => aeqb c DQ || aeqb c LT || aeqb c GT || aeqb c LF || aeqb c COLON || aeqb c CR) (s2l w) = false ->
  label_text (s2l w) /\ no_colon (s2l w ++ [COLON]) /\ ~ In CR (s2l w) /\ no_colon (s2l w).
Proof.
  intros w H. assert (N : forall c, In c (s2l w) -> c <> DQ /\ c <> LT /\ c <> GT /\ c <> LF /\ c <> COLON /\ c <> CR).
  { intros c C. destruct (aeqb c DQ || aeqb c LT || aeqb c GT || aeqb c LF || aeqb c COLON || aeqb c CR) eqn:E.
    - assert (existsb (fun c => aeqb c DQ || aeqb c LT || aeqb c GT || aeqb c LF || aeqb c COLON || aeqb c CR) (s2l w) = true) by (apply existsb_exists; exists c; auto). congruence.
    - rewrite !orb_false_iff in E. destruct E as (((((E1 & E2) & E3) & E4) & E5) & E6). repeat split; intros ->; rewrite aeqb_refl in *; discriminate. }
  split; [intros c C; apply N in C; tauto|]. split; [|split].
  - intros a b E. assert (E' : s2l w ++ [COLON] = (a ++ [COLON]) ++ BLANK :: b) by (rewrite <- app_assoc; exact E).
    destruct b as [|x b] using rev_ind; [change (BLANK :: []) with ([BLANK]) in E'; apply app_inj_tail in E'; destruct E' as (_ & E'); discriminate|clear IHb].
    rewrite app_comm_cons, app_assoc in E'. apply app_inj_tail in E'. destruct E' as (E' & _). assert (K : In COLON (s2l w)) by (rewrite E'; rewrite <- app_assoc; apply in_or_app; right; left; reflexivity). apply N in K. tauto.
  - intros K. apply N in K. tauto.
  - intros a b E. assert (K : In COLON (s2l w)) by (rewrite E; apply in_or_app; right; left; reflexivity). apply N in K. tauto.
Qed.
Lemma upper_cr : forall s, ~ In CR s -> ~ In CR (upper s).
Proof.
  intros s H K. unfold upper in K. apply in_map_iff in K. destruct K as (c & E & C). assert (c = CR); [|subst; exact (H C)].
  clear -E. destruct c as [[] [] [] [] [] [] [] []]; vm_compute in E; try discriminate E; reflexivity.
Qed.

Theorem to_qsch_ok : forall m s v ty args, convertible m -> yshows s v ty (m_items m) -> length (s_texts m) <= length args -> Forall quotable args ->
  exists t, to_qsch args s = Some t /\ symbol_drawn m args t /\ head_is SYMBOL t = true.
Proof.
  intros m s v ty args ((_ & _ & OK & _) & (P & EP & NP & LP & CP & SP) & (D & ED & LD & CD) & PINS & ARC) [_ _ YP YL YS YA YT] LEN Q.
  assert (CRA : forall k w, attr_of m k = Some w -> ~ In CR w).
  { intros k w E. unfold attr_of in E. destruct (find (fun e => str_eqb (fst e) k) (s_attributes m)) as [[a b]|] eqn:F; [|discriminate]. apply find_some in F. destruct F as (F & _). cbn [option_map snd] in E.
    unfold s_attributes in F. apply in_flat_map in F. destruct F as (i & I & F). destruct i as [t|k' v'|q|? ? ? ? ?|? ? ?]; try (destruct F; fail). destruct F as [F|[]]. pose proof (OK _ I) as (_ & (_ & NC & _)).
    assert (EW : w = attr_value k v') by congruence. rewrite EW. unfold attr_value. destruct (str_eqb (upper k) (s2l "PREFIX")); [apply upper_cr; exact NC|exact NC]. }
  assert (GP : dget (s2l "Prefix") (y_attrs s) = Some P) by (rewrite YA, dget_attrs; exact EP).
  assert (GD : dget (s2l "Description") (y_attrs s) = Some D) by (rewrite YA, dget_attrs; exact ED).
  destruct (map_opt_ex _ _ _ line_tag (fun l t => (proper t /\ ~ in_tag CR t) /\ head_is (s2l "line") t = true /\ let '(x1, y1, x2, y2, _) := l in drawn_as (x1, y1) (x2, y2) t) (y_lines s) (s_lines m) eq) as (ll & LE & LF2).
  { rewrite YL. apply F2_refl. }
  { intros x c _ ->. destruct (line_tag_ok c) as (t & A & B & C & H & _ & Z). exists t. split; [exact A|]. split; [split; assumption|]. split; [exact H|]. destruct c as [[[[x1 y1] x2] y2] q]. destruct Z as (Z1 & Z2).
    exists (cut_x x1, cut_y y1), (cut_x x2, cut_y y2). split; [exact Z1|]. split; [exact Z2|]. split; split; apply quot_truncated. }
  destruct (map_opt_ex _ _ _ shape_tag (fun (s : drawn) t => (proper t /\ ~ in_tag CR t) /\ (exists r, toks t = tag_name (fst (fst s)) :: r) /\ (fst (fst s) = s2l "RECTANGLE" \/ fst (fst s) = s2l "CIRCLE") /\ exists p1 p2, snd (fst s) = [p1; p2] /\ drawn_as p1 p2 t) (y_shapes s) (s_shapes m) eq) as (sl & SE & SF).
  { rewrite YS. apply F2_refl. }
  { intros x [[n ps] q] I ->. pose proof (ARC n ps q I) as NA. unfold s_shapes in I. apply in_flat_map in I. destruct I as (i & I & F). destruct i as [?|? ?|?|? ? ? ? ?|n' ps' q']; try (destruct F; fail). destruct F as [F|[]].
    assert (n' = n) by congruence. assert (ps' = ps) by congruence. assert (q' = q) by congruence. subst n' ps' q'. destruct (OK _ I) as (_ & [(N & L2)|(N & _)]); [|contradiction].
    destruct ps as [|p1 [|p2 [|? ?]]]; try discriminate. assert (N' : n = s2l "RECTANGLE" \/ n = s2l "CIRCLE") by (destruct N as [<- |[<- |[]]]; auto).
    destruct (shape_tag_ok n p1 p2 q N') as (t & A & B & C & H & _ & Z1 & Z2). exists t. split; [exact A|]. split; [split; assumption|]. split; [exact H|]. split; [exact N'|]. exists p1, p2. split; [reflexivity|].
    exists (cut_x (fst p1), cut_y (snd p1)), (cut_x (fst p2), cut_y (snd p2)). split; [exact Z1|]. split; [exact Z2|]. split; split; apply quot_truncated. }
  destruct (window_tags_ok (y_windows s) args) as (wl & WE & WF).
  { assert (L : length (y_windows s) = length (s_texts m)) by (clear -YT; unfold s_texts; induction YT; cbn; congruence). lia. }
  { exact Q. }
  pose proof (combine_F2 _ _ _ _ _ YT WF) as WF'.
  destruct (map_opt_ex _ _ _ pin_tag (fun p u => (proper u /\ ~ in_tag CR u) /\ head_is (s2l "pin") u = true /\ (exists n, pin_name p = Some n /\ get_attr 8 u = Some (AText n)) /\ at_point 1 u (near4 (25 * p_x p), near4 (- 25 * p_y p))%Z) (y_pins s) (s_pins m) pin_shown YP) as (pl & PE & PF).
  { intros x c I SH. destruct (PINS c I) as (N & A). destruct (pin_tag_ok x c SH N A) as (u & E & B & C & H & Z & W). exists u. auto. }
  unfold to_qsch. rewrite GP, GD, LE, SE, WE, PE. destruct P as [|c pre]; [contradiction|].
  set (labels := [Tag [s2l "type:"; c :: pre] []; Tag [s2l "description:"; D] []; Tag [s2l "shorted pins:"; s2l "false"] []]).
  exists (Tag [SYMBOL; [c]] (labels ++ ll ++ sl ++ wl ++ pl)). split; [reflexivity|]. split; [|reflexivity].
  assert (HL : Forall (fun t => head_is (s2l "line") t = true) ll) by (eapply F2_Forall_r; [|exact LF2]; intros ? ? K; apply K).
  assert (HW : Forall (fun t => head_is TEXT t = true) wl) by (eapply F2_Forall_r; [|exact WF]; intros ? ? K; apply K).
  assert (HP : Forall (fun t => head_is (s2l "pin") t = true) pl) by (eapply F2_Forall_r; [|exact PF]; intros ? ? K; apply K).
  assert (SF' : Forall2 (fun (s : drawn) t => (exists r, toks t = tag_name (fst (fst s)) :: r) /\ (fst (fst s) = s2l "RECTANGLE" \/ fst (fst s) = s2l "CIRCLE") /\ exists p1 p2, snd (fst s) = [p1; p2] /\ drawn_as p1 p2 t) (s_shapes m) sl) by (eapply F2_impl; [|exact SF]; intros ? ? K; apply K).
  destruct (shapes_split _ _ SF') as (SR & SC & SN).
  assert (PL : Forall (fun t => proper t /\ ~ in_tag CR t) (labels ++ ll ++ sl ++ wl ++ pl)).
  { apply Forall_app. split; [|apply Forall_app; split; [eapply F2_Forall_r; [|exact LF2]; intros ? ? K; apply K|apply Forall_app; split; [eapply F2_Forall_r; [|exact SF]; intros ? ? K; apply K|apply Forall_app; split; [eapply F2_Forall_r; [|exact WF]; intros ? ? K; split; apply K|eapply F2_Forall_r; [|exact PF]; intros ? ? K; apply K]]]].
    unfold labels. destruct (lit_label "type" eq_refl) as (A1 & A2 & A3 & _). destruct (lit_label "description" eq_refl) as (B1 & B2 & B3 & _). destruct (lit_label "shorted pins" eq_refl) as (C1 & C2 & C3 & _). destruct (lit_label "false" eq_refl) as (D1 & _ & D3 & D4).
    constructor; [|constructor; [|constructor; [|constructor]]].
    - apply (label_tag_proper (s2l "type") (c :: pre)); try assumption. eapply CRA. exact EP.
    - apply (label_tag_proper (s2l "description") D); try assumption. eapply CRA. exact ED.
    - apply (label_tag_proper (s2l "shorted pins") (s2l "false")); assumption. }
  assert (GI : forall n, get_items n (Tag [SYMBOL; [c]] (labels ++ ll ++ sl ++ wl ++ pl)) = filter (head_is n) labels ++ filter (head_is n) ll ++ filter (head_is n) sl ++ filter (head_is n) wl ++ filter (head_is n) pl) by (intros n; unfold get_items; cbn [kids]; rewrite !filter_app; reflexivity).
  constructor.
  - exists c, pre. split; [exact EP|]. split; [reflexivity|]. rewrite GI, (filter_other _ _ ll (eq_refl : str_eqb (s2l "line") (s2l "type:") = false) HL), SN by reflexivity.
    rewrite (filter_other _ _ wl (eq_refl : str_eqb TEXT (s2l "type:") = false) HW), (filter_other _ _ pl (eq_refl : str_eqb (s2l "pin") (s2l "type:") = false) HP). reflexivity.
  - exists D. split; [exact ED|]. rewrite GI, (filter_other _ _ ll (eq_refl : str_eqb (s2l "line") (s2l "description:") = false) HL), SN by reflexivity.
    rewrite (filter_other _ _ wl (eq_refl : str_eqb TEXT (s2l "description:") = false) HW), (filter_other _ _ pl (eq_refl : str_eqb (s2l "pin") (s2l "description:") = false) HP). reflexivity.
  - rewrite GI, (filter_all _ ll HL), SN by reflexivity.
    rewrite (filter_other _ _ wl (eq_refl : str_eqb TEXT (s2l "line") = false) HW), (filter_other _ _ pl (eq_refl : str_eqb (s2l "pin") (s2l "line") = false) HP).
    change (filter (head_is (s2l "line")) labels) with (@nil tag). cbn [app]. rewrite app_nil_r. eapply F2_impl; [|exact LF2]. intros ? ? K. apply K.
  - rewrite GI, (filter_other _ _ ll (eq_refl : str_eqb (s2l "line") (s2l "rect") = false) HL).
    rewrite (filter_other _ _ wl (eq_refl : str_eqb TEXT (s2l "rect") = false) HW), (filter_other _ _ pl (eq_refl : str_eqb (s2l "pin") (s2l "rect") = false) HP).
    change (filter (head_is (s2l "rect")) labels) with (@nil tag). cbn [app]. rewrite app_nil_r. exact SR.
  - rewrite GI, (filter_other _ _ ll (eq_refl : str_eqb (s2l "line") (s2l "ellipse") = false) HL).
    rewrite (filter_other _ _ wl (eq_refl : str_eqb TEXT (s2l "ellipse") = false) HW), (filter_other _ _ pl (eq_refl : str_eqb (s2l "pin") (s2l "ellipse") = false) HP).
    change (filter (head_is (s2l "ellipse")) labels) with (@nil tag). cbn [app]. rewrite app_nil_r. exact SC.
  - change (s2l "text") with TEXT. rewrite GI, (filter_other _ _ ll (eq_refl : str_eqb (s2l "line") TEXT = false) HL), SN by reflexivity.
    rewrite (filter_all _ wl HW), (filter_other _ _ pl (eq_refl : str_eqb (s2l "pin") TEXT = false) HP).
    change (filter (head_is TEXT) labels) with (@nil tag). cbn [app]. rewrite app_nil_r. eapply F2_impl; [|exact WF']. cbn [fst snd]. intros x u (w & (X & Y & _) & (_ & _ & _ & T & A)). split; [exact T|]. eexists. split; [exact A|].
    rewrite X, Y. split; apply near4_nearest.
  - rewrite GI, (filter_other _ _ ll (eq_refl : str_eqb (s2l "line") (s2l "pin") = false) HL), SN by reflexivity.
    rewrite (filter_other _ _ wl (eq_refl : str_eqb TEXT (s2l "pin") = false) HW), (filter_all _ pl HP).
    change (filter (head_is (s2l "pin")) labels) with (@nil tag). cbn [app]. eapply F2_impl; [|exact PF]. intros p u (_ & _ & N & A). split; [exact N|]. eexists. split; [exact A|]. split; apply near4_nearest.
  - split.
    + apply P_node; [discriminate| |eapply Forall_impl; [|exact PL]; intros ? K; apply K]. constructor; [left; apply word_ok; [discriminate|reflexivity]|]. constructor; [|constructor].
      left. split; [discriminate|]. intros x [<- |[]]. split; [apply SP; left; reflexivity|]. destruct (LP c (or_introl eq_refl)) as (A & B & C & _). auto.
    + intros K. inversion K as [ts its a HI HA|ts its t HI HT]; subst.
      * destruct HI as [<- |[<- |[]]]; [vm_compute in HA; repeat (destruct HA as [HA|HA]; [discriminate|]); exact HA|]. destruct HA as [HA|[]]. apply (CRA _ _ EP). left. exact HA.
      * rewrite Forall_forall in PL. apply (PL t HI). exact HT.
Qed.
