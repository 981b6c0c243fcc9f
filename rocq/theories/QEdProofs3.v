(** Proofs about the editor of QSPICE schematics (C47): parameters and instructions. *)
From Coq Require Import String Ascii List Bool Arith ZArith Lia.
From Verif Require Import PyStr EngModel StepsModel EngProofs EngCaseProofs StepsProofs Regex UpdatesModel ParModel QTagModel QTagSpec QTagProofs QEdModel QEdSpec QEdProofs QEdProofs2.
Import ListNotations.
Local Open Scope string_scope. Local Open Scope nat_scope. Local Open Scope list_scope.

Lemma no_colon_pre : forall p q, ~ In COLON p -> no_colon q -> no_colon (p ++ q).
Proof.
  induction p as [|c p IH]; intros q HP HQ; [exact HQ|]. intros a b E. destruct a as [|x a]; cbn in E.
  - injection E as -> _. apply HP. left. reflexivity.
  - injection E as _ E. apply (IH q (fun K => HP (or_intror K)) HQ a b E).
Qed.
Lemma no_colon_join2 : forall p q, no_colon p -> no_colon q -> (forall r, q <> BLANK :: r) -> no_colon (p ++ q).
Proof.
  induction p as [|c p IH]; intros q HP HQ HB; [exact HQ|]. intros a b E. destruct a as [|x a]; cbn in E.
  - injection E as -> E. destruct p as [|d p]; cbn in E; [exact (HB _ E)|]. injection E as -> _. apply (HP [] p). reflexivity.
  - injection E as _ E. apply (IH q) with (a := a) (b := b); try assumption. intros a' b' K. apply (HP (c :: a') b'). cbn. rewrite K. reflexivity.
Qed.
Lemma no_colon_sub : forall p q r, no_colon (p ++ q ++ r) -> no_colon q.
Proof. intros p q r H a b ->. apply (H (p ++ a) (b ++ r)). rewrite <- !app_assoc. reflexivity. Qed.
Lemma no_colon_firstn : forall n s, no_colon s -> no_colon (firstn n s).
Proof. intros n s H. apply (no_colon_sub [] _ (skipn n s)). cbn. rewrite firstn_skipn. exact H. Qed.
Lemma no_colon_skipn : forall n s, no_colon s -> no_colon (skipn n s).
Proof. intros n s H. apply (no_colon_sub (firstn n s) _ []). rewrite app_nil_r, firstn_skipn. exact H. Qed.
Lemma In_firstn : forall A n (l : list A) x, In x (firstn n l) -> In x l.
Proof. intros A n l x H. rewrite <- (firstn_skipn n l). apply in_or_app. left. exact H. Qed.
Lemma In_skipn : forall A n (l : list A) x, In x (skipn n l) -> In x l.
Proof. intros A n l x H. rewrite <- (firstn_skipn n l). apply in_or_app. right. exact H. Qed.

Lemma new_text_tag : forall x y s, ~ In DQ s -> no_colon s -> ~ In CR s -> exists t r, parse (new_text x y s) = Some (t, r) /\ proper t /\ ~ in_tag CR t /\ head_is TEXT t = true /\ text_of t = Some s /\ comment_of t = Some false.
Proof.
  intros x y s HD HC HR. set (P := s2l "(" ++ show_int x ++ s2l "," ++ show_int y ++ s2l ")").
  set (ts := [s2l "text"; P; s2l "1"; s2l "0"; s2l "0"; s2l "0x1000000"; s2l "-1"; s2l "-1"; DQ :: s ++ [DQ]]).
  assert (PC : forall c, In c P -> is_space c = false /\ c <> DQ /\ c <> LT /\ c <> GT /\ c <> COLON /\ c <> CR).
  { intros c H. unfold P in H. rewrite !in_app_iff in H. assert (SH : forall n, In c (show_int n) -> is_space c = false /\ c <> DQ /\ c <> LT /\ c <> GT /\ c <> COLON /\ c <> CR).
    { intros n K. destruct (show_int_shape n) as (sg & ds & E & SG & _ & DG). rewrite E in K. apply in_app_or in K. destruct K as [K|K].
      - destruct SG as [(-> & _)|(-> & _)]; [destruct K|]. destruct K as [<-|[]]. repeat split; try reflexivity; discriminate.
      - apply digits_in with (1 := DG) in K. apply digit_cases in K. clear - K. revert c K. apply (proj1 (Forall_forall _ _)). repeat constructor; try reflexivity; discriminate. }
    destruct H as [H|[H|[H|[H|H]]]]; try (eapply SH; eassumption); destruct H as [<-|[]]; repeat split; try reflexivity; discriminate. }
  assert (TK : Forall token ts).
  { unfold ts. repeat (apply Forall_cons); try apply Forall_nil; try (left; apply word_ok; [discriminate|reflexivity]).
    - left. split; [unfold P; discriminate|]. intros c H. apply PC in H. tauto.
    - right. exists s. split; [reflexivity|exact HD]. }
  assert (NC : Forall no_colon ts).
  { unfold ts. repeat (apply Forall_cons); try apply Forall_nil; try (intros a b E; apply (f_equal (existsb (aeqb COLON))) in E; rewrite existsb_app in E; cbn [existsb] in E; rewrite aeqb_refl, orb_true_r in E; discriminate E).
    - intros a b E. destruct (PC COLON) as (_ & _ & _ & _ & K & _); [rewrite E; apply in_or_app; right; left; reflexivity|congruence].
    - apply quoted_no_colon. exact HC. }
  assert (LE : forall a z b, ts = a ++ (z ++ [COLON]) :: b -> b = []).
  { intros a z b E. assert (K : In (z ++ [COLON]) ts) by (rewrite E; apply in_or_app; right; left; reflexivity). exfalso.
    assert (L : forall w, last w BLANK <> COLON -> z ++ [COLON] <> w) by (intros w Hw EE; subst w; rewrite last_last in Hw; congruence).
    destruct K as [K|[K|[K|[K|[K|[K|[K|[K|[K|[]]]]]]]]]]; symmetry in K; revert K; apply L; try discriminate.
    - unfold P. rewrite !app_assoc. change (s2l ")") with [")"%char]. rewrite last_last. discriminate.
    - rewrite app_comm_cons, last_last. discriminate. }
  assert (PR : proper (Tag ts [])) by (apply P_leaf; assumption).
  assert (EN : new_text x y s = LT :: join_blank ts ++ [GT]).
  { unfold new_text, ts, P. cbn [join_blank]. change (s2l "text (") with (s2l "text" ++ BLANK :: s2l "("). change (s2l ") 1 0 0 0x1000000 -1 -1 ") with (s2l ")" ++ BLANK :: s2l "1" ++ BLANK :: s2l "0" ++ BLANK :: s2l "0" ++ BLANK :: s2l "0x1000000" ++ BLANK :: s2l "-1" ++ BLANK :: s2l "-1" ++ [BLANK]).
    f_equal. repeat (rewrite <- ?app_assoc; rewrite <- ?app_comm_cons). cbn [app]. reflexivity. }
  exists (Tag ts []), []. rewrite EN. split; [|split; [exact PR|split; [|split; [reflexivity|split; [|reflexivity]]]]].
  - unfold parse. rewrite aeqb_refl. change (join_blank ts ++ [GT]) with (body 0 (Tag ts []) ++ GT :: []). apply parse_body; [exact PR|]. lia.
  - intros K. inversion K as [ts0 its a HI HA|ts0 its t HI]; subst; [|destruct HI]. unfold ts in HI.
    destruct HI as [K1|[K1|[K1|[K1|[K1|[K1|[K1|[K1|[K1|[]]]]]]]]]]; subst a; try (revert HA; clear; intros HA; repeat (destruct HA as [HA|HA]; [discriminate HA|]); exact HA).
    + apply PC in HA. tauto.
    + destruct HA as [HA|HA]; [discriminate|]. apply in_app_or in HA. destruct HA as [HA|[HA|[]]]; [exact (HR HA)|discriminate].
  - unfold text_of, get_attr. cbn [toks nth_error ts]. rewrite read_quoted. reflexivity.
Qed.
Lemma add_text_kept : forall s ed ed', sound ed -> writable ed -> ~ In DQ s -> no_colon s -> ~ In CR s -> add_text s ed = Some ed' ->
  kept ed ed' /\ q_log ed' = q_log ed /\ q_canvas ed' = q_canvas ed /\ q_comps ed' = q_comps ed /\ exists t, ed' = append ed t /\ head_is TEXT t = true /\ text_of t = Some s /\ comment_of t = Some false.
Proof.
  intros s ed ed' HS HW HD HC HR H. unfold add_text in H. destruct (text_space ed) as [[x y]|]; [|discriminate]. destruct (new_text_tag x y s HD HC HR) as (t & r & E & P & R & T & TX & CM).
  rewrite E in H. injection H as <-. cbn [fst]. split; [apply append_text; assumption|]. repeat split. exists t. auto.
Qed.
Lemma kept_end : forall n v ty ed ed', kept ed ed' -> kept ed (end_update n v ty ed').
Proof. intros n v ty ed ed' (A & B & C & D). split; [exact A|]. split; [exact B|]. split; assumption. Qed.
Lemma kept_end0 : forall n v ty ed ed', kept (end_update n v ty ed) ed' -> kept ed ed'.
Proof. intros n v ty ed ed' H. exact H. Qed.
Lemma qual_facts : ~ In DQ QUAL /\ ~ In COLON QUAL /\ ~ In CR QUAL.
Proof. repeat split; intros K; repeat (destruct K as [K|K]; [discriminate K|]); exact K. Qed.
Lemma not_in_app : forall A (x : A) a b, ~ In x a -> ~ In x b -> ~ In x (a ++ b).
Proof. intros A x a b HA HB K. apply in_app_or in K. tauto. Qed.

Lemma param_head : forall s, param_line s = true -> exists c r, s = c :: r /\ c <> "0"%char.
Proof.
  intros s H. destruct s as [|c r]; [discriminate|]. exists c, r. split; [reflexivity|]. intros ->. unfold param_line, unqual in H. cbn in H. discriminate.
Qed.
Lemma set_parameter_kept : forall n v ed ed', sound ed -> writable ed -> good_value v -> ~ In DQ n -> ~ In COLON n -> ~ In CR n -> set_parameter n v ed = Some ed' ->
  kept ed ed' /\ updated ed' = true.
Proof.
  intros n v ed ed' HS HW (V1 & V2 & V3 & vc & vr & -> & VB) N1 N2 N3 H. unfold set_parameter in H. set (v := vc :: vr) in *. destruct (q_perm ed) eqn:EP; [|discriminate]. destruct (get_param_named n ed) as [[[i s]|]|] eqn:G; [| |discriminate].
  - destruct (find_text_some _ _ _ _ _ G) as (A & B & C & D & F). unfold sets_param in F. injection F as F. apply andb_true_iff in F. destruct F as (F & _).
    destruct (line_match (unqual s) n) as [c|]; [|discriminate]. destruct (cap gVALUE c) as [[a b]|]; [|discriminate]. destruct (set_attr _ _ _) as [t'|] eqn:ES; [|discriminate]. injection H as <-.
    destruct HW as (HH & HW). pose proof (proj1 (Forall_forall _ _) HW i A) as (PT & RT). destruct (text_facts _ _ PT RT D) as (T1 & T2 & T3).
    split; [|unfold updated; reflexivity]. apply kept_end. eapply change_text; try eassumption; [split; assumption| | | |].
    + destruct (param_head s F) as (c0 & r0 & -> & N0). rewrite Nat.add_comm. cbn [Nat.add firstn app]. apply start_no. unfold aeqb. destruct (Ascii.eqb "0" c0) eqn:E; [apply Ascii.eqb_eq in E; congruence|reflexivity].
    + apply not_in_app; [intros K; apply T1; eapply In_firstn; exact K|]. apply not_in_app; [exact V1|intros K; apply T1; eapply In_skipn; exact K].
    + intros K. specialize (T3 K). apply no_colon_join2; [apply no_colon_firstn; exact T3| |].
      * apply no_colon_pre; [exact V2|apply no_colon_skipn; exact T3].
      * intros r E. unfold v in E. injection E as E _. congruence.
    + apply not_in_app; [intros K; apply T2; eapply In_firstn; exact K|]. apply not_in_app; [exact V3|intros K; apply T2; eapply In_skipn; exact K].
  - destruct (add_text _ ed) as [ed1|] eqn:EA; [|discriminate]. injection H as <-. split; [|unfold updated; reflexivity]. apply kept_end. destruct qual_facts as (Q1 & Q2 & Q3).
    assert (PF : forall c, In c (s2l ".param ") -> c <> DQ /\ c <> COLON /\ c <> CR) by (apply Forall_forall; repeat constructor; discriminate).
    eapply (add_text_kept (QUAL ++ s2l ".param " ++ n ++ s2l "=" ++ v)); try exact EA; try assumption.
    + repeat apply not_in_app; try assumption; [intros K; apply PF in K; tauto|intros [K|[]]; discriminate].
    + rewrite !app_assoc. apply no_colon_pre; [|rewrite <- (app_nil_r v); apply no_colon_pre; [exact V2|intros [|? ?] ? K; discriminate]].
      repeat apply not_in_app; try assumption; [intros K; apply PF in K; tauto|intros [K|[]]; discriminate].
    + repeat apply not_in_app; try assumption; [intros K; apply PF in K; tauto|intros [K|[]]; discriminate].
Qed.

Lemma lstrip_all : forall f s, exists p, s = p ++ lstrip_if f s /\ forall c, In c p -> f c = true.
Proof.
  intros f s. induction s as [|c s [p (IH & A)]]; [exists []; split; [reflexivity|intros ? []]|]. simpl. destruct (f c) eqn:E; [|exists []; split; [reflexivity|intros ? []]].
  exists (c :: p). split; [simpl; f_equal; exact IH|]. intros d [<-|K]; [exact E|apply A; exact K].
Qed.
Lemma span_all : forall f s u r, span f s = (u, r) -> s = u ++ r /\ (forall c, In c u -> f c = true) /\ match r with c :: _ => f c = false | [] => True end.
Proof.
  intros f s. induction s as [|c s IH]; intros u r H; simpl in H; [injection H as <- <-; split; [reflexivity|]; split; [intros ? []|exact I]|].
  destruct (f c) eqn:E; [|injection H as <- <-; split; [reflexivity|]; split; [intros ? []|exact E]]. destruct (span f s) as [a b]. injection H as <- <-. destruct (IH _ _ eq_refl) as (A & B & C).
  split; [simpl; f_equal; exact A|]. split; [|exact C]. intros d [<-|K]; [exact E|apply B; exact K].
Qed.
Lemma command_sim : forall s w, command s = Some w -> is_unique w = true -> sim_command s.
Proof.
  intros s w H U. unfold command in H. destruct (span (fun c => negb (is_space c)) (lstrip s)) as [x r] eqn:E. cbn [fst] in H. destruct x as [|c x]; [discriminate|]. injection H as <-.
  destruct (lstrip_all is_space s) as (b & Eb & Hb). destruct (span_all _ _ _ _ E) as (E1 & E2 & E3).
  exists b, (c :: x), r. split; [rewrite <- E1; exact Eb|]. split; [exact Hb|]. split.
  - intros d Hd. apply E2 in Hd. apply negb_true_iff in Hd. exact Hd.
  - split; [destruct r as [|d r]; [exact I|]; cbn in E3; apply negb_false_iff in E3; exact E3|]. unfold is_unique in U. apply existsb_exists in U. destruct U as (z & Z1 & Z2). apply str_eqb_eq in Z2. subst z. exact Z1.
Qed.
Lemma sim_command_some : forall s, sim_command s -> exists w, command s = Some w /\ is_unique w = true.
Proof.
  intros s (b & w & r & -> & HB & HWd & HR & HU). assert (W : exists c x, w = c :: x). { destruct w as [|c x]; [|eauto]. exfalso. revert HU. cbn. intros K. repeat (destruct K as [K|K]; [discriminate K|]). exact K. }
  exists (upper w). unfold command. assert (L : lstrip (b ++ w ++ r) = w ++ r).
  { clear HU HR. induction b as [|d b IH]; [destruct W as (c & x & ->); unfold lstrip; cbn [app lstrip_if]; rewrite (HWd c (or_introl eq_refl)); reflexivity|]. unfold lstrip. cbn [app lstrip_if]. rewrite (HB d (or_introl eq_refl)). apply IH. intros e He. apply HB. right. exact He. }
  rewrite L. rewrite span_app; [|apply forallb_forall; intros c Hc; rewrite (HWd c Hc); reflexivity|destruct r as [|d r]; [reflexivity|unfold stops; rewrite HR; reflexivity]].
  cbn [fst]. destruct W as (c & x & ->). split; [reflexivity|]. unfold is_unique. apply existsb_exists. eexists. split; [exact HU|apply str_eqb_refl].
Qed.
Lemma add_instruction_kept : forall s ed ed', sound ed -> writable ed -> good_text (strip s) -> (sim_command (strip s) -> exists x, directive ed x /\ sim_command (unqual x)) -> add_instruction s ed = Some ed' ->
  kept ed ed' /\ updated ed' = true.
Proof.
  intros s ed ed' HS HW (G1 & G2 & G3) HSim H. unfold add_instruction in H. destruct (q_perm ed) eqn:EP; [|discriminate]. destruct (command (strip s)) as [w|] eqn:EC; [|discriminate]. destruct qual_facts as (Q1 & Q2 & Q3).
  destruct (is_unique w) eqn:EU.
  - destruct (find_text _ _ _) as [[[i x]|]|] eqn:EF; [| |discriminate].
    + destruct (set_attr _ _ _) as [t'|] eqn:ES; [|discriminate]. injection H as <-. destruct (find_text_some _ _ _ _ _ EF) as (A & B & C & D & F). split; [|reflexivity]. apply kept_end, kept_end. eapply change_text; try eassumption.
      * reflexivity.
      * apply not_in_app; assumption.
      * intros _. apply no_colon_pre; assumption.
      * apply not_in_app; assumption.
    + exfalso. destruct (HSim (command_sim _ _ EC EU)) as (x & (i & I1 & I2 & I3 & I4) & SX). pose proof (find_text_none _ _ _ EF i x I1 I2 I3 I4) as K. cbn beta in K. destruct (sim_command_some _ SX) as (w' & K1 & K2). rewrite K1 in K. cbn [option_map] in K. rewrite K2 in K. discriminate K.
  - destruct (startswith _ w); [discriminate|]. eapply add_text_kept in H; [|exact HS|exact HW|apply not_in_app; assumption|apply no_colon_pre; assumption|apply not_in_app; assumption]. destruct H as (H1 & H2 & H3 & _). split; [exact H1|]. unfold updated. rewrite H3. reflexivity.
Qed.
Lemma remove_instruction_kept : forall s ed ed' b, sound ed -> writable ed -> remove_instruction s ed = Some (ed', b) -> kept ed ed' /\ (updated ed' = true \/ ed' = ed).
Proof.
  intros s ed ed' b HS HW H. unfold remove_instruction in H. destruct (q_perm ed) eqn:EP; [|discriminate]. destruct (find_text _ _ _) as [[[i x]|]|] eqn:EF; [| |discriminate].
  - destruct (remove_first i (q_items ed)) as [l|] eqn:ER; [|discriminate]. injection H as <- _. destruct (find_text_some _ _ _ _ _ EF) as (A & B & _). split; [|left; reflexivity]. apply kept_end. eapply remove_text; eassumption.
  - injection H as <- _. split; [|right; reflexivity]. split; [exact HS|]. split; [exact HW|]. split; reflexivity.
Qed.

(** ** Histories *)
Lemma apply_kept : forall e ed ed', sound ed -> writable ed -> edit_ok e ed -> apply e ed = Some ed' -> kept ed ed' /\ (updated ed' = true \/ ed' = ed).
Proof.
  intros e ed ed' HS HW HO H. destruct e as [r v|n v|s|s]; cbn [apply edit_ok] in *.
  - destruct HO as (G & X). destruct (set_value_kept _ _ _ _ HS HW G X H) as (A & B & _). auto.
  - destruct HO as (G & A & B & C). destruct (set_parameter_kept _ _ _ _ HS HW G A B C H). auto.
  - destruct HO as (G & A). destruct (add_instruction_kept _ _ _ HS HW G A H). auto.
  - destruct (remove_instruction s ed) as [[e1 b]|] eqn:E; [|discriminate]. injection H as <-. eapply remove_instruction_kept; eassumption.
Qed.
Lemma kept_refl : forall ed, sound ed -> writable ed -> kept ed ed.
Proof. intros ed A B. split; [exact A|]. split; [exact B|]. split; reflexivity. Qed.
Lemma apply_all_kept : forall es ed ed', sound ed -> writable ed -> edits_ok es ed -> apply_all es ed = Some ed' -> kept ed ed' /\ (updated ed' = true \/ ed' = ed).
Proof.
  assert (U : forall es ed ed', sound ed -> writable ed -> updated ed = true -> edits_ok es ed -> apply_all es ed = Some ed' -> kept ed ed' /\ updated ed' = true).
  { induction es as [|e es IH]; intros ed ed' HS HW HU HO H; cbn [apply_all edits_ok] in *.
    - injection H as <-. split; [apply kept_refl; assumption|exact HU].
    - destruct HO as (HO & HR). destruct (apply e ed) as [e1|] eqn:E; [|discriminate]. destruct (apply_kept _ _ _ HS HW HO E) as ((K1 & K2 & K3 & K4) & K5).
      assert (U1 : updated e1 = true) by (destruct K5 as [K5| ->]; [exact K5|exact HU]). destruct (IH e1 ed' K1 K2 U1 (HR _ eq_refl) H) as ((L1 & L2 & L3 & L4) & L5). split; [|exact L5]. split; [exact L1|]. split; [exact L2|]. split; congruence. }
  induction es as [|e es IH]; intros ed ed' HS HW HO H; cbn [apply_all edits_ok] in *.
  - injection H as <-. split; [apply kept_refl; assumption|right; reflexivity].
  - destruct HO as (HO & HR). destruct (apply e ed) as [e1|] eqn:E; [|discriminate]. destruct (apply_kept _ _ _ HS HW HO E) as ((K1 & K2 & K3 & K4) & [K5| ->]).
    + destruct (U es e1 ed' K1 K2 K5 (HR _ eq_refl) H) as ((L1 & L2 & L3 & L4) & L5). split; [|left; exact L5]. split; [exact L1|]. split; [exact L2|]. split; congruence.
    + apply (IH ed ed'); try assumption. exact (HR _ eq_refl).
Qed.
