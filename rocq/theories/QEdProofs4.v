(** Proofs about the editor of QSPICE schematics: saving, simulation commands, removing (C47, C48, C94-C99). *)
From Coq Require Import String Ascii List Bool Arith ZArith Lia.
From Verif Require Import PyStr EngModel StepsModel Regex UpdatesModel ParModel EngProofs EngCaseProofs StepsProofs QTagModel QTagSpec QTagProofs QEdModel QEdSpec QEdProofs QEdProofs2 QEdProofs3 QParSpec QParProofs.
Import ListNotations.
Local Open Scope string_scope. Local Open Scope nat_scope. Local Open Scope list_scope.

Lemma save_reload : forall path old ed, sound ed -> writable ed -> (updated ed = true \/ q_path ed <> path \/ read_file old = Some (tree ed)) ->
  exists ed2, open_file path (stored path old (snd (save_as path ed))) = Some ed2 /\ same_answers ed ed2 /\ tree ed2 = tree ed.
Proof.
  intros path old ed HS HW H. destruct (reload ed path HS) as (ed2 & L & A & _ & T). exists ed2. split; [|split; assumption].
  assert (R : read_file (stored path old (snd (save_as path ed))) = Some (tree ed)); [|unfold open_file; rewrite R; exact L].
  unfold save_as. destruct (updated ed || negb (str_eqb path (q_path ed))) eqn:E; cbn [snd stored].
  - rewrite str_eqb_refl. apply writable_file. exact HW.
  - apply orb_false_iff in E. destruct E as (E1 & E2). apply negb_false_iff in E2. apply str_eqb_eq in E2. destruct H as [H|[H|H]]; [congruence|congruence|exact H].
Qed.
Lemma sim_dot : forall s, sim_command s -> exists c r, s = c :: r /\ mem_c c QUAL = false.
Proof.
  intros s (b & w & r & -> & HB & HWd & HR & HU). destruct b as [|c b].
  - destruct w as [|c w]; [exfalso; revert HU; cbn; intros K; repeat (destruct K as [K|K]; [discriminate K|]); exact K|]. exists c, (w ++ r). split; [reflexivity|].
    destruct (mem_c c QUAL) eqn:E; [|reflexivity]. exfalso. apply mem_c_In in E. destruct E as [<-|[<-|[<-|[]]]]; cbn in HU; repeat (destruct HU as [HU|HU]; [discriminate HU|]); exact HU.
  - exists c, (b ++ w ++ r). split; [reflexivity|]. pose proof (HB c (or_introl eq_refl)) as K. destruct (mem_c c QUAL) eqn:E; [|reflexivity]. apply mem_c_In in E. destruct E as [<-|[<-|[<-|[]]]]; discriminate K.
Qed.
Lemma unqual_id : forall c r, mem_c c QUAL = false -> unqual (QUAL ++ c :: r) = c :: r.
Proof. intros c r H. unfold unqual. cbn [QUAL map app lstrip_if]. change (lstrip_if (fun c0 => mem_c c0 QUAL) (c :: r) = c :: r). cbn [lstrip_if]. rewrite H. reflexivity. Qed.
(** what add_instruction of a simulation command does *)
Lemma add_sim_cases : forall s ed ed', sim_command (strip s) -> good_text (strip s) -> add_instruction s ed = Some ed' ->
  (exists i x t', sim_at ed i x /\ set_attr 8 (AText (QUAL ++ strip s)) (q_store ed i) = Some t' /\ q_items ed' = q_items ed /\ q_store ed' = q_store (put ed i t')) \/
  ((forall i x, ~ sim_at ed i x) /\ exists t, ed' = append ed t /\ head_is TEXT t = true /\ text_of t = Some (QUAL ++ strip s) /\ comment_of t = Some false).
Proof.
  intros s ed ed' HS (G1 & G2 & G3) H. destruct (sim_command_some _ HS) as (w & EC & EU). unfold add_instruction in H. destruct (q_perm ed); [|discriminate]. rewrite EC, EU in H. destruct (find_text _ _ _) as [[[i x]|]|] eqn:EF; [| |discriminate].
  - left. destruct (find_text_some _ _ _ _ _ EF) as (A & B & C & D & F). destruct (command (unqual x)) as [w'|] eqn:EW; [|discriminate]. cbn [option_map] in F. injection F as F.
    destruct (set_attr 8 _ _) as [t'|] eqn:ES; [|discriminate]. injection H as <-. exists i, x, t'. split; [|split; [exact ES|split; reflexivity]]. repeat (split; [assumption|]). eapply command_sim; eassumption.
  - right. split.
    + intros i x (A & B & C & D & F). pose proof (find_text_none _ _ _ EF i x A B C D) as K. cbn beta in K. destruct (sim_command_some _ F) as (w' & K1 & K2). rewrite K1 in K. cbn [option_map] in K. rewrite K2 in K. discriminate.
    + destruct qual_facts as (Q1 & Q2 & Q3). unfold add_text in H. destruct (text_space ed) as [[px py]|]; [|discriminate]. destruct (new_text_tag px py (QUAL ++ strip s)) as (t & r & ET & _ & _ & HT & TX & CM); [apply not_in_app; assumption|apply no_colon_pre; assumption|apply not_in_app; assumption|].
      rewrite ET in H. injection H as <-. exists t. auto.
Qed.
Lemma one_sim : forall s ed ed', sim_command (strip s) -> good_text (strip s) -> (forall i, In i (q_items ed) -> i < q_next ed) -> (forall i j x y, sim_at ed i x -> sim_at ed j y -> i = j) -> add_instruction s ed = Some ed' ->
  exists i, sim_at ed' i (QUAL ++ strip s) /\ forall j x, sim_at ed' j x -> j = i.
Proof.
  intros s ed ed' HS HG HB HU H. destruct (sim_dot _ HS) as (c & r & E & M). assert (SQ : sim_command (unqual (QUAL ++ strip s))) by (rewrite E, unqual_id, <- E by exact M; exact HS).
  destruct (add_sim_cases _ _ _ HS HG H) as [(i & x & t' & SA & ES & EI & EST)|(NS & t & -> & HT & TX & CM)].
  - exists i. pose proof SA as (A & B & C & D & F). assert (X0 : startswith (s2l "0x") (QUAL ++ strip s) = false) by reflexivity. split.
    + unfold sim_at. rewrite EI, EST. cbn [put with_store q_store]. rewrite Nat.eqb_refl. split; [exact A|]. split; [rewrite (head_set _ 7 _ _ _ ES); exact B|]. split; [unfold comment_of; rewrite (tag_attr_kept _ _ _ _ 4 ES) by discriminate; exact C|]. split; [eapply text_after_set; eassumption|exact SQ].
    + intros j y (A' & B' & C' & D' & F'). rewrite EI in A'. rewrite EST in B', C', D'. cbn [put with_store q_store] in B', C', D'. destruct (j =? i) eqn:EJ; [apply Nat.eqb_eq; exact EJ|]. apply (HU j i y x); [|exact SA]. repeat (split; [assumption|]). exact F'.
  - exists (q_next ed). split.
    + unfold sim_at. cbn [append q_items q_store]. rewrite Nat.eqb_refl. split; [apply in_or_app; right; left; reflexivity|]. auto.
    + intros j y (A' & B' & C' & D' & F'). cbn [append q_items q_store] in *. destruct (j =? q_next ed) eqn:EJ; [apply Nat.eqb_eq; exact EJ|]. exfalso. apply in_app_or in A'. destruct A' as [A'|[<-|[]]]; [|rewrite Nat.eqb_refl in EJ; discriminate]. apply (NS j y). repeat (split; [assumption|]). exact F'.
Qed.
(** the netlist after add_instruction *)
Lemma split_bsn_plain : forall s, ~ In "\"%char s -> split_bsn s = [s].
Proof.
  induction s as [|a s IH]; intros H; [reflexivity|]. cbn [split_bsn]. assert (aeqb a "\" = false) as ->. { apply aeqb_neq. intros ->. apply H. left. reflexivity. } rewrite IH; [reflexivity|]. intros K. apply H. right. exact K.
Qed.
Lemma directives_in : forall store l d i s, directives store l = Some d -> In i l -> head_is TEXT (store i) = true -> comment_of (store i) = Some false -> text_of (store i) = Some s -> ~ In "\"%char (unqual s) -> In (strip (unqual s)) d.
Proof.
  intros store. induction l as [|j l IH]; intros d i s H HI HT HC HX HB; [destruct HI|]. cbn [directives] in H. destruct HI as [->|HI].
  - rewrite HT, HC, HX in H. destruct (directives store l) as [d0|]; [|discriminate]. injection H as <-. rewrite split_bsn_plain by exact HB. left. reflexivity.
  - destruct (head_is TEXT (store j)); [|eapply IH; eassumption]. destruct (text_of (store j)) as [s0|]; [|discriminate]. destruct (comment_of (store j)) as [c|]; [|discriminate]. destruct (directives store l) as [d0|] eqn:ED; [|discriminate]. injection H as <-. apply in_or_app. right. eapply IH; try eassumption. reflexivity.
Qed.
Lemma strip_strip : forall s, strip (strip s) = strip s.
Proof.
  intros s. assert (LS : forall t, stops is_space (lstrip_if is_space t)). { induction t as [|c t IH]; [exact I|]. cbn [lstrip_if]. destruct (is_space c) eqn:E; [exact IH|exact E]. }
  unfold strip at 2 3. unfold strip_if, rstrip_if. set (u := lstrip_if is_space s). assert (HU : stops is_space u) by apply LS. clearbody u. apply strip_id.
  - destruct (lstrip_all is_space (rev u)) as (p & E & _). apply (f_equal (@rev ascii)) in E. rewrite rev_involutive, rev_app_distr in E. destruct (rev (lstrip_if is_space (rev u))) as [|c r]; [exact I|]. rewrite E in HU. exact HU.
  - rewrite rev_involutive. apply LS.
Qed.
Lemma added_directive : forall s ed ed', good_text (strip s) -> add_instruction s ed = Some ed' -> exists i, In i (q_items ed') /\ head_is TEXT (q_store ed' i) = true /\ comment_of (q_store ed' i) = Some false /\ text_of (q_store ed' i) = Some (QUAL ++ strip s).
Proof.
  intros s ed ed' (G1 & G2 & G3) H. destruct qual_facts as (Q1 & Q2 & Q3). unfold add_instruction in H. destruct (q_perm ed); [|discriminate]. destruct (command (strip s)) as [w|]; [|discriminate].
  assert (AT : forall e, add_text (QUAL ++ strip s) e = Some ed' -> exists i, In i (q_items ed') /\ head_is TEXT (q_store ed' i) = true /\ comment_of (q_store ed' i) = Some false /\ text_of (q_store ed' i) = Some (QUAL ++ strip s)).
  { intros e K. unfold add_text in K. destruct (text_space e) as [[px py]|]; [|discriminate]. destruct (new_text_tag px py (QUAL ++ strip s)) as (t & r & ET & _ & _ & HT & TX & CM); [apply not_in_app; assumption|apply no_colon_pre; assumption|apply not_in_app; assumption|].
    rewrite ET in K. injection K as <-. exists (q_next e). cbn [append q_items q_store]. rewrite Nat.eqb_refl. split; [apply in_or_app; right; left; reflexivity|]. auto. }
  destruct (is_unique w).
  - destruct (find_text _ _ _) as [[[i x]|]|] eqn:EF; [|eapply AT; exact H|discriminate]. destruct (find_text_some _ _ _ _ _ EF) as (A & B & C & D & F). destruct (set_attr 8 _ _) as [t'|] eqn:ES; [|discriminate]. injection H as <-. exists i. cbn [end_update put with_store q_items q_store]. rewrite Nat.eqb_refl.
    split; [exact A|]. split; [rewrite (head_set _ 7 _ _ _ ES); exact B|]. split; [unfold comment_of; rewrite (tag_attr_kept _ _ _ _ 4 ES) by discriminate; exact C|]. eapply text_after_set; [|exact ES]. reflexivity.
  - destruct (startswith _ w); [discriminate|]. eapply AT. exact H.
Qed.
Lemma strip_head : forall s, strip s = [] \/ exists c r, strip s = c :: r.
Proof. intros s. destruct (strip s) as [|c r]; [left; reflexivity|right; eauto]. Qed.
Lemma added_in_netlist : forall s ed ed' d, good_text (strip s) -> (forall c r, strip s = c :: r -> mem_c c QUAL = false) -> ~ In "\"%char (strip s) -> add_instruction s ed = Some ed' -> netlist_directives ed' = Some d -> In (strip s) d.
Proof.
  intros s ed ed' d HG HQ HB H HD. destruct (added_directive _ _ _ HG H) as (i & A & B & C & D).
  assert (EU : unqual (QUAL ++ strip s) = strip s). { destruct (strip_head s) as [E|(c & r & E)]; rewrite E; [reflexivity|]. apply unqual_id. apply (HQ c r E). }
  rewrite <- strip_strip. rewrite <- EU at 1. eapply directives_in; try eassumption. rewrite EU. exact HB.
Qed.
