(** Proofs about the editor of QSPICE schematics (C47): the edits keep the editor in step with its schematic. *)
From Coq Require Import String Ascii List Bool Arith ZArith Lia.
From Verif Require Import PyStr EngModel StepsModel EngProofs EngCaseProofs StepsProofs Regex UpdatesModel ParModel QTagModel QTagSpec QTagProofs QEdModel QEdSpec QEdProofs.
Import ListNotations.
Local Open Scope string_scope. Local Open Scope nat_scope. Local Open Scope list_scope.

Definition kept (ed ed' : qed) : Prop := sound ed' /\ writable ed' /\ q_perm ed' = q_perm ed /\ q_path ed' = q_path ed.
Lemma dget_In : forall W k (d : list (str * W)) v, dget k d = Some v -> In (k, v) d.
Proof.
  unfold dget. intros W k d v H. destruct (find (fun e => str_eqb (fst e) k) d) as [[a b]|] eqn:E; [|discriminate]. injection H as <-. apply find_some in E. destruct E as (A & B). cbn in B. apply str_eqb_eq in B. subst. exact A.
Qed.
Lemma fst_In : forall W (k : str) (v : W) (d : list (str * W)), In (k, v) d -> In k (map fst d).
Proof. intros W k v d H. apply in_map_iff. exists (k, v). split; [reflexivity|exact H]. Qed.

Lemma change_text : forall ed i t' s, sound ed -> writable ed -> head_is TEXT (q_store ed i) = true -> set_attr 8 (AText s) (q_store ed i) = Some t' ->
  startswith (s2l "0x") s = false -> ~ In DQ s -> (kids (q_store ed i) = [] -> no_colon s) -> ~ In CR s -> kept ed (put ed i t').
Proof.
  intros ed i t' s (HC & HN & HI & HB) (HH & HW) HT HS HX HD HL HR. pose proof (head_set COMPONENT 7 _ _ _ HS) as E1.
  split; [|split; [|split; reflexivity]].
  - split; [|split; [|split]]; cbn [put with_store q_store q_items q_comps q_next]; [|exact HN|exact HI|exact HB]. rewrite <- HC. apply comp_list_other. intros j Hj. destruct (j =? i) eqn:E; [|left; reflexivity].
    apply Nat.eqb_eq in E. subst j. right. rewrite E1. split; apply text_head; exact HT.
  - split; [exact HH|]. cbn [put with_store q_store q_items]. apply Forall_forall. intros j Hj. pose proof (proj1 (Forall_forall _ _) HW j Hj) as (P & R). destruct (j =? i) eqn:E; [|split; assumption].
    apply Nat.eqb_eq in E. subst j. split; [eapply proper_set_text; try eassumption; lia|eapply cr_set_text; eassumption].
Qed.
Lemma append_text : forall ed t, sound ed -> writable ed -> head_is TEXT t = true -> proper t -> ~ in_tag CR t -> kept ed (append ed t).
Proof.
  intros ed t (HC & HN & HI & HB) (HH & HW) HT HP HR. assert (NX : ~ In (q_next ed) (q_items ed)) by (intros K; apply HB in K; lia).
  assert (EX : forall j, In j (q_items ed) -> (if j =? q_next ed then t else q_store ed j) = q_store ed j) by (intros j Hj; destruct (j =? q_next ed) eqn:E; [apply Nat.eqb_eq in E; subst; contradiction|reflexivity]).
  split; [|split; [|split; reflexivity]].
  - split; [|split; [|split]]; cbn [append q_store q_items q_comps q_next]; [|exact HN| |].
    + rewrite <- HC. clear HC HI HB HW NX. revert EX. generalize (q_items ed). induction l as [|j l IH]; intros EX; cbn [app comp_list].
      * rewrite Nat.eqb_refl. change (s2l "component") with COMPONENT. rewrite text_head by exact HT. reflexivity.
      * rewrite EX by (left; reflexivity). rewrite IH by (intros k Hk; apply EX; right; exact Hk). reflexivity.
    + apply NoDup_Add with (a := q_next ed) (l := q_items ed); [|split; assumption]. rewrite <- (app_nil_r (q_items ed)) at 1. apply Add_app.
    + intros j Hj. apply in_app_or in Hj. destruct Hj as [Hj|[<-|[]]]; [apply HB in Hj; lia|lia].
  - split; [exact HH|]. cbn [append q_store q_items]. apply Forall_app. split.
    + apply Forall_forall. intros j Hj. rewrite EX by exact Hj. exact (proj1 (Forall_forall _ _) HW j Hj).
    + constructor; [|constructor]. rewrite Nat.eqb_refl. split; assumption.
Qed.
Lemma remove_first_spec : forall i l l', remove_first i l = Some l' -> exists a b, l = a ++ i :: b /\ l' = a ++ b /\ ~ In i a.
Proof.
  intros i. induction l as [|x l IH]; intros l' H; [discriminate|]. cbn [remove_first] in H. destruct (x =? i) eqn:E.
  - injection H as <-. apply Nat.eqb_eq in E. subst. exists [], l. auto.
  - destruct (remove_first i l) as [l0|]; [|discriminate]. injection H as <-. destruct (IH l0 eq_refl) as (a & b & -> & -> & N). exists (x :: a), b. split; [reflexivity|]. split; [reflexivity|].
    intros [K|K]; [subst; rewrite Nat.eqb_refl in E; discriminate|exact (N K)].
Qed.
Lemma comp_list_app : forall store a b, comp_list store (a ++ b) = match comp_list store a, comp_list store b with Some x, Some y => Some (x ++ y) | _, _ => None end.
Proof.
  intros store. induction a as [|i a IH]; intros b; cbn [app comp_list]; [destruct (comp_list store b); reflexivity|]. rewrite IH. destruct (head_is _ (store i)); [|reflexivity].
  destruct (ref_value (store i)) as [[? ?]|]; [|reflexivity]. destruct (comp_list store a); [|reflexivity]. destruct (comp_list store b); reflexivity.
Qed.
Lemma remove_text : forall ed i l, sound ed -> writable ed -> head_is TEXT (q_store ed i) = true -> remove_first i (q_items ed) = Some l -> kept ed (with_items ed l).
Proof.
  intros ed i l (HC & HN & HI & HB) (HH & HW) HT HR. destruct (remove_first_spec _ _ _ HR) as (a & b & E & -> & _).
  split; [|split; [|split; reflexivity]].
  - split; [|split; [|split]]; cbn [with_items q_store q_items q_comps q_next]; [|exact HN| |].
    + rewrite <- HC, E, !comp_list_app. cbn [comp_list]. change (s2l "component") with COMPONENT. rewrite text_head by exact HT. reflexivity.
    + rewrite E in HI. apply NoDup_remove_1 in HI. exact HI.
    + intros j Hj. apply HB. rewrite E. apply in_app_or in Hj. apply in_or_app. destruct Hj; [left; assumption|right; right; assumption].
  - split; [exact HH|]. cbn [with_items q_store q_items]. rewrite E in HW. apply Forall_app in HW. destruct HW as (A & B). inversion B; subst. apply Forall_app. split; assumption.
Qed.

(** ** Component values *)
Lemma get_items_split : forall item ts a x b, get_items item (Tag ts (a ++ x :: b)) = filter (head_is item) a ++ (if head_is item x then [x] else []) ++ filter (head_is item) b.
Proof. intros. unfold get_items. cbn [kids]. rewrite filter_app. cbn [filter]. destruct (head_is item x); reflexivity. Qed.
Lemma tag_eta : forall t, t = Tag (toks t) (kids t). Proof. intros [? ?]; reflexivity. Qed.
Lemma value_tag : forall t ref v t' r0 v0, ref_value t = Some (r0, v0) -> in_items SYMBOL 0 (in_items TEXT 1 (set_attr 8 (AText v))) t = Some t' ->
  startswith (s2l "0x") v = false -> r0 = ref ->
  ref_value t' = Some (ref, v) /\ (forall item, head_is item t' = head_is item t) /\
  (good_text v -> proper t -> proper t') /\ (good_text v -> ~ in_tag CR t -> ~ in_tag CR t') /\ (exists a x b x', kids t = a ++ x :: b /\ kids t' = a ++ x' :: b).
Proof.
  intros t ref v t' r0 v0 HR H HX ->. destruct (in_items_split _ _ _ _ _ H) as (A & s & B & s' & EK & -> & FS & HS & LA).
  destruct (in_items_split _ _ _ _ _ FS) as (A2 & x & B2 & x' & EK2 & ES' & FX & HX2 & LA2). subst s'.
  apply length_zero_iff_nil in LA. destruct (filter (head_is TEXT) A2) as [|a0 [|? ?]] eqn:FA2; try discriminate. clear LA2.
  assert (Es : s = Tag (toks s) (A2 ++ x :: B2)) by (rewrite <- EK2; apply tag_eta). assert (Et : t = Tag (toks t) (A ++ s :: B)) by (rewrite <- EK; apply tag_eta).
  assert (HX' : head_is TEXT x' = true) by (rewrite (head_set TEXT 7 _ _ _ FX); exact HX2).
  assert (HS' : head_is SYMBOL (Tag (toks s) (A2 ++ x' :: B2)) = true) by exact HS.
  assert (TX' : text_of x' = Some v).
  { destruct (set_text_shape _ _ _ _ HX FX) as (pre & old & post & E & L & ->). unfold text_of, get_attr. cbn [toks]. rewrite nth_error_app2 by lia. rewrite L, Nat.sub_diag. cbn [nth_error]. rewrite read_quoted. reflexivity. }
  split; [|split; [|split; [|split]]].
  - unfold ref_value, symbol_of. rewrite get_items_split, LA, HS'. cbn [app nth_error]. rewrite get_items_split, FA2, HX'. cbn [app]. rewrite TX'.
    unfold ref_value, symbol_of in HR. rewrite Et in HR. rewrite get_items_split, LA, HS in HR. cbn [app nth_error] in HR. rewrite Es in HR. rewrite get_items_split, FA2, HX2 in HR. cbn [app] in HR.
    destruct (text_of a0) as [r|]; [|discriminate]. destruct (text_of x); [|discriminate]. injection HR as -> _. reflexivity.
  - intros item. reflexivity.
  - intros (G1 & G2 & G3) HP. rewrite Et in HP. apply (proper_kid _ _ s _ _ HP). intros Ps. rewrite Es in Ps. apply (proper_kid _ _ x _ _ Ps). intros Px. eapply proper_set_text; try eassumption; [lia|]. intros _. exact G2.
  - intros (G1 & G2 & G3) HP. rewrite Et in HP. apply (cr_kid _ _ s _ _ HP). intros Ps. rewrite Es in Ps. apply (cr_kid _ _ x _ _ Ps). intros Px. eapply cr_set_text; eassumption.
  - exists A, s, B. eexists. split; [exact EK|reflexivity].
Qed.
Lemma set_value_cases : forall ref v ed ed', set_component_value ref v ed = Some ed' -> exists c t' r0 v0,
  q_perm ed = Inform /\ mem_c COLON ref = false /\ In (ref, c) (q_comps ed) /\ dget ref (q_comps ed) = Some c /\
  (ref_value (q_store ed (c_tag c)) = Some (r0, v0) -> r0 = ref) /\ in_items SYMBOL 0 (in_items TEXT 1 (set_attr 8 (AText v))) (q_store ed (c_tag c)) = Some t' /\
  ed' = end_update ref (VStr (l2s v)) UpUpdateComponentValue (with_comps (put ed (c_tag c) t') (dset ref (Comp (c_tag c) v) (q_comps ed))).
Proof.
  intros ref v ed ed' H. unfold set_component_value in H. destruct (q_perm ed); [|discriminate]. destruct (get_component ref ed) as [c|] eqn:G; [|discriminate].
  unfold get_component in G. destruct (mem_c COLON ref) eqn:MC; [discriminate|].
  destruct (symbol_of (q_store ed (c_tag c))) as [s|] eqn:ES; [|discriminate]. destruct (nth_error (get_items TEXT s) 0) as [a0|] eqn:EA; [|discriminate]. cbn [option_map] in H.
  destruct (get_attr 8 a0) as [[|r| |]|] eqn:EG; try discriminate. destruct (str_eqb r ref) eqn:ER; [|discriminate]. apply str_eqb_eq in ER. subst r.
  destruct (in_items SYMBOL 0 _ _) as [t'|] eqn:EI; [|discriminate]. injection H as <-.
  destruct (ref_value (q_store ed (c_tag c))) as [[r0 v0]|] eqn:RV.
  - exists c, t', r0, v0. split; [reflexivity|]. split; [reflexivity|]. split; [apply dget_In; exact G|]. split; [exact G|]. split; [|split; [exact EI|reflexivity]]. intros _.
    unfold ref_value in RV. rewrite ES in RV. destruct (get_items TEXT s) as [|x [|y l]]; try discriminate. cbn in EA. injection EA as ->. unfold text_of in RV. rewrite EG in RV. cbn [as_text] in RV. destruct (as_text (get_attr 8 y)); [|discriminate]. injection RV as <- _. reflexivity.
  - exists c, t', ref, ref. split; [reflexivity|]. split; [reflexivity|]. split; [apply dget_In; exact G|]. split; [exact G|]. split; [reflexivity|]. split; [exact EI|reflexivity].
Qed.
Lemma set_value_kept : forall ref v ed ed', sound ed -> writable ed -> good_text v -> startswith (s2l "0x") v = false -> set_component_value ref v ed = Some ed' ->
  kept ed ed' /\ updated ed' = true /\ get_component_value ref ed' = Some v /\ (forall r, r <> ref -> get_component_value r ed' = get_component_value r ed) /\ get_components ed' = get_components ed.
Proof.
  intros ref v ed ed' HS HW HG HX H. destruct (set_value_cases _ _ _ _ H) as (c & t' & r0 & v0 & HP & HM & HI & HD & _ & HT & ->). pose proof HS as (HC & HN & HU & HB).
  destruct (comp_list_in _ _ _ _ _ HC HI) as (C1 & C2 & C3). destruct (value_tag _ ref v t' _ _ C3 HT HX eq_refl) as (V1 & V2 & V3 & V4 & _).
  assert (DK : map fst (dset ref (Comp (c_tag c) v) (q_comps ed)) = map fst (q_comps ed)) by (apply dset_keys; exact (fst_In _ _ _ _ HI)).
  split; [split; [|split; [|split; reflexivity]]|split; [reflexivity|split; [|split]]].
  - split; [|split; [|split]]; cbn [end_update with_comps put with_store q_store q_items q_comps q_next]; [|rewrite DK; exact HN|exact HU|exact HB].
    eapply comp_list_put; try eassumption. rewrite V2. exact C2.
  - destruct HW as (HH & HW). split; [exact HH|]. cbn [end_update with_comps put with_store q_store q_items]. apply Forall_forall. intros j Hj. pose proof (proj1 (Forall_forall _ _) HW j Hj) as (P & R). destruct (j =? c_tag c) eqn:E; [|split; assumption].
    apply Nat.eqb_eq in E. subst j. split; [exact (V3 HG P)|exact (V4 HG R)].
  - unfold get_component_value, get_component. rewrite HM. cbn [end_update with_comps put with_store q_comps]. rewrite dget_dset, str_eqb_refl. reflexivity.
  - intros r NE. unfold get_component_value, get_component. destruct (mem_c COLON r); [reflexivity|]. cbn [end_update with_comps put with_store q_comps]. rewrite dget_dset. destruct (str_eqb ref r) eqn:E; [apply str_eqb_eq in E; congruence|reflexivity].
  - exact DK.
Qed.

(** ** Texts *)
Lemma find_text_some : forall store test l i s, find_text store test l = Some (Some (i, s)) -> In i l /\ head_is TEXT (store i) = true /\ comment_of (store i) = Some false /\ text_of (store i) = Some s /\ test s = Some true.
Proof.
  intros store test. induction l as [|j l IH]; intros i s H; [discriminate|]. cbn [find_text] in H. destruct (head_is TEXT (store j)) eqn:E1.
  - destruct (comment_of (store j)) as [[]|] eqn:E2; [destruct (IH _ _ H) as (A & B); split; [right; exact A|exact B]| |discriminate].
    destruct (text_of (store j)) as [x|] eqn:E3; [|discriminate]. destruct (test x) as [[]|] eqn:E4; [|destruct (IH _ _ H) as (A & B); split; [right; exact A|exact B]|discriminate]. injection H as <- <-. repeat split; try assumption. left. reflexivity.
  - destruct (IH _ _ H) as (A & B). split; [right; exact A|exact B].
Qed.
Lemma find_text_none : forall store test l, find_text store test l = Some None -> forall i s, In i l -> head_is TEXT (store i) = true -> comment_of (store i) = Some false -> text_of (store i) = Some s -> test s = Some false.
Proof.
  intros store test. induction l as [|j l IH]; intros H i s HI HT HC HS; [destruct HI|]. cbn [find_text] in H. destruct HI as [->|HI].
  - rewrite HT, HC, HS in H. destruct (test s) as [[]|]; [discriminate|reflexivity|discriminate].
  - apply (IH) with (i := i); try assumption. destruct (head_is TEXT (store j)); [|exact H]. destruct (comment_of (store j)) as [[]|]; [exact H| |discriminate]. destruct (text_of (store j)); [|discriminate]. destruct (test s0) as [[]|]; [discriminate|exact H|discriminate].
Qed.
(** the text of a tag that can be written *)
Lemma read_text_cases : forall a s, read_token a = Some (AText s) -> a = s \/ quoted a = true /\ s = inner a.
Proof.
  intros a s H. unfold read_token in H. destruct (startswith (s2l "(") a && endswith (s2l ")") a); [destruct (all_ints _); discriminate|].
  destruct (startswith (s2l "0x") a); [destruct (py_hex _); discriminate|]. destruct (quoted a) eqn:Q; [injection H as <-; right; auto|]. destruct (py_int a); [discriminate|]. destruct (pyfloat (strip a)); [discriminate|]. injection H as <-. left. reflexivity.
Qed.
Lemma quoted_inner : forall a, quoted a = true -> a = [DQ] \/ a = DQ :: inner a ++ [DQ].
Proof.
  intros a H. unfold quoted in H. apply andb_true_iff in H. destruct H as (A & B). destruct a as [|x a]; [discriminate|]. cbn [startswith] in A. rewrite andb_true_r in A. apply aeqb_eq in A. subst x.
  destruct (rev (DQ :: a)) as [|y r] eqn:E; [cbn in E; apply app_eq_nil in E; destruct E; discriminate|]. unfold endswith in B. rewrite E in B. cbn [rev app startswith] in B. rewrite andb_true_r in B. apply aeqb_eq in B. subst y.
  assert (E2 : DQ :: a = rev r ++ [DQ]) by (rewrite <- (rev_involutive (DQ :: a)), E; reflexivity). destruct (rev r) as [|z w]; [left; exact E2|]. right. injection E2 as -> ->. unfold inner. cbn [tl]. rewrite removelast_last. reflexivity.
Qed.
Lemma text_facts : forall t s, proper t -> ~ in_tag CR t -> text_of t = Some s -> ~ In DQ s /\ ~ In CR s /\ (kids t = [] -> no_colon s).
Proof.
  intros t s HP HR HT. unfold text_of, get_attr in HT. destruct (nth_error (toks t) 8) as [a|] eqn:E; [|discriminate]. destruct (read_token a) as [[|x| |]|] eqn:R; try discriminate. cbn in HT. injection HT as ->.
  pose proof (nth_error_In _ _ E) as IA. assert (RA : ~ In CR a) by (intros K; apply HR; rewrite (tag_eta t); econstructor 1; eassumption).
  assert (TA : token a /\ (kids t = [] -> no_colon a)).
  { destruct HP as [ts items NE HT HI|ts HT NC NE|name text]; cbn [toks kids] in *.
    - split; [exact (proj1 (Forall_forall _ _) HT a IA)|intros ->; contradiction].
    - split; [exact (proj1 (Forall_forall _ _) HT a IA)|intros _; exact (proj1 (Forall_forall _ _) NC a IA)].
    - discriminate. }
  destruct TA as (TA & NA). destruct (read_text_cases _ _ R) as [->|(Q & ->)].
  - split; [|split; [exact RA|exact NA]]. destruct TA as [(_ & W)|(q & -> & NQ)]; [intros K; apply W in K; tauto|]. rewrite read_quoted in R. injection R as R. exfalso. assert (L : length q = length (DQ :: q ++ [DQ])) by congruence. cbn in L. rewrite app_length in L. cbn in L. lia.
  - destruct (quoted_inner a Q) as [->|Ea].
    + cbn. split; [intros []|]. split; [intros []|]. intros _ x y K. destruct x; discriminate.
    + set (q := inner a) in *. clearbody q. subst a. split; [|split].
      * destruct TA as [(_ & W)|(q' & Eq & NQ)]; [intros _; exfalso; destruct (W DQ (or_introl eq_refl)); tauto|]. injection Eq as Eq. apply app_inj_tail in Eq. destruct Eq as (-> & _). exact NQ.
      * intros K. apply RA. right. apply in_or_app. left. exact K.
      * intros HK x y ->. apply (NA HK (DQ :: x) (y ++ [DQ])). cbn. rewrite <- app_assoc. reflexivity.
Qed.
