(** Reading and writing netlists. *)
From Coq Require Import String Ascii List Bool Arith ZArith Lia.
From Verif Require Import PyStr EngModel EngProofs EngCaseProofs PTokModel PTokSpec PTokProofs Regex CompModel CompSpec CompMatch CompFam CompProofs CompRewrite CompSelf
  SepModel NetModel NetSpec.
Import ListNotations.
Local Open Scope string_scope.
Local Open Scope nat_scope.
Local Open Scope list_scope.

(** induction over statements *)
Definition stmt_ind' (P : stmt -> Prop) (HN : forall l, P (Note l)) (HD : forall l, P (Directive l)) (HP : forall c, P (Part c))
  (HC : forall h b t, P (Control h b t)) (HS : forall h b t, Forall P b -> P (Circuit h b t)) (HI : forall l b, Forall P b -> P (Include l b)) :
  forall s, P s :=
  fix F (s : stmt) : P s :=
    match s with
    | Note l => HN l | Directive l => HD l | Part c => HP c | Control h b t => HC h b t
    | Circuit h b t => HS h b t ((fix G (l : list stmt) : Forall P l := match l with [] => Forall_nil P | x :: r => Forall_cons x (F x) (G r) end) b)
    | Include l b => HI l b ((fix G (l : list stmt) : Forall P l := match l with [] => Forall_nil P | x :: r => Forall_cons x (F x) (G r) end) b)
    end.
Lemma all_Forall : forall {A} (P : A -> Prop) l, fold_right and True (map P l) <-> Forall P l.
Proof.
  intros A P l. induction l as [|x l IH]; cbn [map fold_right]; [split; [constructor|auto]|]. rewrite IH. split.
  - intros [H1 H2]. constructor; assumption.
  - intros H. apply Forall_cons_iff in H. exact H.
Qed.

(** the items of a document *)
Section Items.
Variable inc : str -> option (list item).
Fixpoint item_of (s : stmt) : item :=
  match s with
  | Note l => IText (full l)
  | Directive l => IPrim (full l)
  | Part c => if aeqb (c_kind c) "X" then IInst (comp_text c) None None else IComp (comp_text c) None
  | Control h b t => ICtrl (concat (map (fun l => rstrip l ++ NLs) (h :: b ++ [t])))
  | Circuit h b t => ISub (IPrim (full h) :: map item_of b ++ [IPrim (full t)])
  | Include l b => IInc (full l) (Some (map item_of b))
  end.
End Items.

(** first words *)
Lemma lc_blanks : forall b s, blanks b -> line_command (b ++ s) = line_command s.
Proof.
  induction b as [|c b IH]; intros s H; [reflexivity|]. cbn [app line_command].
  assert (is_blank c = true) as ->. { destruct (H c (or_introl eq_refl)) as [-> | ->]; reflexivity. }
  apply IH. intros x Hx. apply H. right. exact Hx.
Qed.
Lemma lc_note : forall l, is_note l -> line_command (full l) = Some (s2l "*").
Proof.
  intros l (b & r & -> & Hb & Hr). unfold full. rewrite <- app_assoc, lc_blanks by exact Hb. destruct r as [|c r]; [reflexivity|]. cbn [app].
  destruct Hr as [Hr|[-> | ->]]; [|reflexivity|reflexivity]. repeat (destruct Hr as [<-|Hr]; [reflexivity|]). destruct Hr.
Qed.
Lemma word_end_iff : forall c, word_end c = true <-> ends_word c.
Proof.
  intros c. unfold word_end, is_blank, is_nl, ends_word. rewrite !orb_true_iff, !aeqb_eq. change LF with NL. change SepModel.CR with CR. tauto.
Qed.
Lemma take_word_app : forall u r, (forall c, In c u -> ~ ends_word c) -> match r with [] => True | c :: _ => ends_word c end -> take_word (u ++ r) = u.
Proof.
  induction u as [|c u IH]; intros r H Hr; cbn [app take_word].
  - destruct r as [|c r]; [reflexivity|]. cbn [take_word]. apply word_end_iff in Hr. rewrite Hr. reflexivity.
  - destruct (word_end c) eqn:E; [apply word_end_iff in E; exfalso; apply (H c); [left; reflexivity|exact E]|].
    f_equal. apply IH; [intros x Hx; apply H; right; exact Hx|exact Hr].
Qed.
Lemma lc_word : forall w l, first_word w l -> line_command (full l) = Some w.
Proof.
  intros w l (b & u & r & -> & Hb & (v & ->) & Hu & Hr & ->). unfold full. rewrite <- !app_assoc, lc_blanks by exact Hb.
  cbn [app line_command]. change (is_blank ".") with false. cbv iota. cbn zeta. change (upper1 ".") with "."%char. change (valid_prefix ".") with false. cbv iota.
  change (aeqb "." "+") with false. change (mem_c "." (s2l "#;*") || is_nl ".") with false. change (aeqb "." ".") with true. cbv iota.
  do 2 f_equal. change ("."%char :: v ++ r ++ [NL]) with (("."%char :: v) ++ r ++ [NL]). apply take_word_app; [exact Hu|].
  destruct r as [|c r]; [cbn; unfold ends_word; auto|exact Hr].
Qed.
Lemma word_dot : forall w l, first_word w l -> exists v, w = "."%char :: v.
Proof. intros w l (b & u & r & _ & _ & (v & ->) & _ & _ & ->). exists (upper v). reflexivity. Qed.
Lemma family_prefix : forall x f lo hi, family_of x = Some (f, lo, hi) -> upper1 x = x /\ valid_prefix x = true /\ is_blank x = false /\ aeqb x "X" = match f with Instance => true | _ => false end.
Proof.
  intros x f lo hi H.
  assert (implb (match family_of x with Some _ => true | None => false end)
    (aeqb (upper1 x) x && valid_prefix x && negb (is_blank x) && Bool.eqb (aeqb x "X") (match family_of x with Some (Instance, _, _) => true | _ => false end)) = true) as S.
  { clear. revert x. apply sweep1. vm_cast_no_check (eq_refl true). }
  rewrite H in S. cbn [implb] in S. rewrite !andb_true_iff, negb_true_iff, aeqb_eq in S. destruct S as (((A & B) & C) & E). apply Bool.eqb_prop in E. split; [exact A|]. split; [exact B|]. split; [exact C|]. rewrite E. destruct f; reflexivity.
Qed.
Lemma lc_part : forall c, comp_ok c -> line_command (comp_text c) = Some [c_kind c] /\ valid_prefix (c_kind c) = true /\ upper1 (c_kind c) = c_kind c.
Proof.
  intros c HC. destruct HC as (_ & _ & _ & _ & _ & _ & _ & _ & _ & f & lo & hi & Hf & _). destruct (family_prefix _ _ _ _ Hf) as (A & B & C & _).
  split; [|split; assumption]. unfold comp_text, comp_body. cbn [app line_command]. rewrite C. cbn zeta. rewrite A, B. reflexivity.
Qed.
Lemma begins_iff : forall p w, startswith p w = true <-> begins p w.
Proof. intros p w. apply startswith_app. Qed.
Lemma begins_false : forall p w, ~ begins p w -> startswith p w = false.
Proof. intros p w H. destruct (startswith p w) eqn:E; [|reflexivity]. apply begins_iff in E. contradiction. Qed.
Lemma str_neq : forall a b, a <> b -> str_eqb a b = false.
Proof. intros a b H. apply str_eqb_neq. exact H. Qed.

Section Load.
Variable inc : str -> option (list item).
Variable named : list (str * param) -> Prop.
(** reading each included file gives its contents *)
Fixpoint inc_ok (s : stmt) : Prop :=
  match s with
  | Include l b => inc (full l) = load_lines inc true (body_lines b) /\ fold_right and True (map inc_ok b)
  | Circuit _ b _ => fold_right and True (map inc_ok b)
  | _ => True
  end.
Ltac dots w := destruct w as [|? ?]; reflexivity.
Lemma ctl_body : forall b acc stk obj rest, (forall l, In l b -> ~ ends_control l) ->
  add_lines inc acc stk (Some obj) (map full b ++ rest) = add_lines inc acc stk (Some (obj ++ concat (map (fun l => rstrip l ++ NLs) b))) rest.
Proof.
  assert (forall l, rstrip (full l) = rstrip l) as RF by (intros l; unfold full; apply rstrip_app_blank; reflexivity).
  assert (forall l, strip (full l) = strip l) as SF.
  { intros l. unfold full. unfold strip, strip_if. destruct (forallb is_space l) eqn:B.
    - assert (forall s, forallb is_space s = true -> lstrip_if is_space s = []) as L. { induction s as [|x s IH]; intros H; [reflexivity|]. cbn [forallb] in H. apply andb_true_iff in H. destruct H as [H1 H2]. cbn [lstrip_if]. rewrite H1. apply IH; exact H2. }
      rewrite !L; [reflexivity|exact B|rewrite forallb_app, B; reflexivity].
    - assert (lstrip_if is_space (l ++ [NL]) = lstrip_if is_space l ++ [NL]) as ->.
      { clear RF. induction l as [|x l IH]; [discriminate B|]. cbn [app lstrip_if forallb] in *. destruct (is_space x) eqn:Ex; [apply IH; exact B|reflexivity]. }
      apply rstrip_app_blank. reflexivity. }
  induction b as [|l b IH]; intros acc stk obj rest H.
  - cbn [map app concat]. rewrite app_nil_r. reflexivity.
  - cbn [map app add_lines]. rewrite SF, RF. rewrite begins_false by (apply (H l); left; reflexivity). rewrite IH by (intros x Hx; apply H; right; exact Hx).
    f_equal. f_equal. cbn [concat]. rewrite <- !app_assoc. reflexivity.
Qed.
Lemma strip_full : forall l, strip (full l) = strip l.
Proof.
  intros l. unfold full. unfold strip, strip_if. destruct (forallb is_space l) eqn:B.
  - assert (forall s, forallb is_space s = true -> lstrip_if is_space s = []) as L. { induction s as [|x s IH]; intros H; [reflexivity|]. cbn [forallb] in H. apply andb_true_iff in H. destruct H as [H1 H2]. cbn [lstrip_if]. rewrite H1. apply IH; exact H2. }
    rewrite !L; [reflexivity|exact B|rewrite forallb_app, B; reflexivity].
  - assert (lstrip_if is_space (l ++ [NL]) = lstrip_if is_space l ++ [NL]) as ->.
    { induction l as [|x l IH]; [discriminate B|]. cbn [app lstrip_if forallb] in *. destruct (is_space x) eqn:Ex; [apply IH; exact B|reflexivity]. }
    apply rstrip_app_blank. reflexivity.
Qed.
Lemma rstrip_full : forall l, rstrip (full l) = rstrip l.
Proof. intros l. unfold full. apply rstrip_app_blank. reflexivity. Qed.

Definition reads (s : stmt) : Prop := stmt_ok named s -> inc_ok s ->
  forall acc stk rest, add_lines inc acc stk None (stmt_lines s ++ rest) = add_lines inc (item_of s :: acc) stk None rest.
Lemma reads_body : forall b, Forall reads b -> body_ok named b -> fold_right and True (map inc_ok b) ->
  forall acc stk rest, add_lines inc acc stk None (body_lines b ++ rest) = add_lines inc (rev (map (item_of) b) ++ acc) stk None rest.
Proof.
  induction b as [|s b IH]; intros H HO HI acc stk rest; [reflexivity|]. apply Forall_cons_iff in H. destruct H as [Hs H].
  unfold body_ok in HO. cbn [map fold_right] in HO, HI. destruct HO as [HO1 HO2]. destruct HI as [HI1 HI2].
  unfold body_lines. cbn [map concat]. rewrite <- app_assoc. rewrite (Hs HO1 HI1). fold (body_lines b). rewrite (IH H HO2 HI2). cbn [rev]. rewrite <- app_assoc. reflexivity.
Qed.
Lemma reads_all : forall s, reads s.
Proof.
  apply stmt_ind'; unfold reads.
  - intros l H _ acc stk rest. cbn [stmt_lines app add_lines item_of]. rewrite lc_note by exact H. reflexivity.
  - intros l (w & Hw & N1 & N2 & N3 & N4) _ acc stk rest. cbn [stmt_lines app add_lines item_of]. rewrite (lc_word w l Hw). destruct (word_dot w l Hw) as [v Ev].
    rewrite (str_neq _ _ N1), (str_neq _ _ N2), (begins_false _ _ N3), (begins_false _ _ N4). subst w. change (str_eqb ("."%char :: v) (s2l "+")) with false. change (str_eqb ("."%char :: v) (s2l "X")) with false. change (str_eqb ("."%char :: v) (s2l "*")) with false. cbv iota.
    destruct v as [|v0 v]; reflexivity.
  - intros c (HC & _) _ acc stk rest. cbn [stmt_lines app add_lines item_of]. destruct (lc_part c HC) as (A & B & C). rewrite A.
    assert (HC' := HC). destruct HC' as (_ & _ & _ & _ & _ & _ & _ & _ & _ & f & lo & hi & Hf & _). destruct (family_prefix _ _ _ _ Hf) as (_ & _ & _ & FX). clear Hf.
    assert (forall p, length p <> 1 -> str_eqb [c_kind c] p = false) as L1. { intros p Hp. apply str_neq. intros E. apply Hp. rewrite <- E. reflexivity. }
    rewrite (L1 (s2l ".SUBCKT")), (L1 (s2l ".CONTROL")) by discriminate.
    assert (forall p, length p > 1 -> startswith p [c_kind c] = false) as L2. { intros p Hp. apply begins_false. intros [r E]. apply (f_equal (@length _)) in E. rewrite app_length in E. cbn [length] in E. lia. }
    rewrite (L2 (s2l ".INC")) by (vm_compute; lia).
    assert (str_eqb [c_kind c] (s2l "+") = false) as ->. { apply str_neq. intros E. injection E as E. rewrite E in B. discriminate B. }
    assert (str_eqb [c_kind c] (s2l "X") = aeqb (c_kind c) "X") as ->. { unfold s2l. cbn [list_ascii_of_string str_eqb]. rewrite andb_true_r. reflexivity. }
    rewrite B. destruct (aeqb (c_kind c) "X"); reflexivity.
  - intros h b t (Hh & Hb & Ht) _ acc stk rest. cbn [stmt_lines app map add_lines item_of]. rewrite (lc_word _ _ Hh).
    change (str_eqb (s2l ".CONTROL") (s2l ".SUBCKT")) with false. change (str_eqb (s2l ".CONTROL") (s2l ".CONTROL")) with true. cbv iota.
    rewrite map_app, <- app_assoc, ctl_body by exact Hb. cbn [map app add_lines]. rewrite strip_full, !rstrip_full.
    apply begins_iff in Ht. rewrite Ht. f_equal. f_equal. f_equal. cbn [concat]. rewrite map_app, concat_app. cbn [map concat]. rewrite <- !app_assoc. rewrite app_nil_r. reflexivity.
  - intros h b t IH (Hh & Hb & Ht) HI acc stk rest. cbn [inc_ok] in HI. cbn [stmt_lines app add_lines item_of]. rewrite (lc_word _ _ Hh).
    change (str_eqb (s2l ".SUBCKT") (s2l ".SUBCKT")) with true. cbv iota. rewrite <- app_assoc. fold (body_lines b). rewrite (reads_body b IH Hb HI).
    cbn [app add_lines]. rewrite (lc_word _ _ Ht).
    change (str_eqb (s2l ".ENDS") (s2l ".SUBCKT")) with false. change (str_eqb (s2l ".ENDS") (s2l ".CONTROL")) with false. change (startswith (s2l ".INC") (s2l ".ENDS")) with false.
    change (str_eqb (s2l ".ENDS") (s2l "+")) with false. change (str_eqb (s2l ".ENDS") (s2l "X")) with false. change (str_eqb (s2l ".ENDS") (s2l "*")) with false. change (startswith (s2l ".END") (s2l ".ENDS")) with true. cbv iota.
    change (match s2l ".ENDS" with [c] => valid_prefix c | _ => false end) with false. cbv iota. f_equal. f_equal. f_equal. cbn [rev]. rewrite rev_app_distr, rev_involutive. cbn [rev app]. reflexivity.
  - intros l b IH [(w & Hw & HB) Hb] HI acc stk rest. cbn [inc_ok] in HI. destruct HI as [HI1 HI2]. cbn [stmt_lines app add_lines item_of]. rewrite (lc_word _ _ Hw).
    assert (exists r, w = s2l ".INC" ++ r) as [r Er] by exact HB. subst w. change (str_eqb (s2l ".INC" ++ r) (s2l ".SUBCKT")) with false. change (str_eqb (s2l ".INC" ++ r) (s2l ".CONTROL")) with false.
    change (startswith (s2l ".INC") (s2l ".INC" ++ r)) with true. cbv iota. f_equal. f_equal. f_equal. rewrite HI1. unfold load_lines.
    rewrite <- (app_nil_r (body_lines b)). rewrite (reads_body b IH Hb HI2). cbn [add_lines outermost last]. rewrite app_nil_r, rev_involutive. cbn [after_end orb]. rewrite app_nil_r. reflexivity.
Qed.
Lemma load_body : forall b rest acc stk, body_ok named b -> fold_right and True (map inc_ok b) ->
  add_lines inc acc stk None (body_lines b ++ rest) = add_lines inc (rev (map (item_of) b) ++ acc) stk None rest.
Proof. intros b rest acc stk HO HI. apply reads_body; [|exact HO|exact HI]. apply Forall_forall. intros s _. apply reads_all. Qed.
Definition doc_items (d : doc) : list item := map item_of (d_body d) ++ IPrim (full (d_end d)) :: map (fun l => IText (full l)) (d_after d).
Lemma after_notes : forall ls, (forall l, In l ls -> is_note l) -> after_end (map full ls) = Some (map (fun l => IText (full l)) ls).
Proof.
  induction ls as [|l ls IH]; intros H; [reflexivity|]. cbn [map after_end]. rewrite lc_note by (apply H; left; reflexivity). rewrite IH by (intros x Hx; apply H; right; exact Hx).
  change (str_eqb (s2l "*") (s2l "*")) with true. reflexivity.
Qed.
Theorem load_doc : forall d k, doc_ok named d -> fold_right and True (map inc_ok (d_body d)) -> load_lines inc k (doc_lines d) = Some (doc_items d).
Proof.
  intros d k (HB & (w & Hw & HE) & HA) HI. unfold load_lines, doc_lines. rewrite load_body by assumption. cbn [add_lines]. rewrite (lc_word _ _ Hw).
  destruct HE as [r ->]. change (str_eqb (s2l ".END" ++ r) (s2l ".SUBCKT")) with false. change (str_eqb (s2l ".END" ++ r) (s2l ".CONTROL")) with false. change (startswith (s2l ".INC") (s2l ".END" ++ r)) with false.
  change (str_eqb (s2l ".END" ++ r) (s2l "+")) with false. change (str_eqb (s2l ".END" ++ r) (s2l "X")) with false. change (str_eqb (s2l ".END" ++ r) (s2l "*")) with false.
  change (match s2l ".END" ++ r with [c] => valid_prefix c | _ => false end) with false. change (startswith (s2l ".END") (s2l ".END" ++ r)) with true. cbv iota.
  rewrite after_notes by exact HA. cbn [orb]. f_equal. cbn [rev]. rewrite app_nil_r, rev_involutive, <- app_assoc. reflexivity.
Qed.
End Load.

(** writing *)
Lemma concat_opt_some : forall l, concat_opt (map (@Some str) l) = Some (concat l).
Proof. induction l as [|x l IH]; [reflexivity|]. cbn [map concat_opt]. rewrite IH. reflexivity. Qed.
Lemma concat_opt_app : forall a b, concat_opt (a ++ b) = match concat_opt a, concat_opt b with Some x, Some y => Some (x ++ y) | _, _ => None end.
Proof.
  induction a as [|x a IH]; intros b; cbn [app concat_opt]; [destruct (concat_opt b); reflexivity|]. destruct x as [x|]; [|reflexivity]. rewrite IH.
  destruct (concat_opt a) as [y|]; [|reflexivity]. destruct (concat_opt b) as [z|]; [rewrite <- app_assoc; reflexivity|reflexivity].
Qed.
(** items without modified copies *)
Definition no_mods (l : list item) : Prop := Forall (fun i => snd (texts i) = Some []) l.
Lemma mods_nil : forall l, no_mods l -> concat_opt (map (fun y : item * (option str * option str) => snd (snd y)) (map (fun i => (i, texts i)) l)) = Some [].
Proof.
  induction l as [|i l IH]; intros H; [reflexivity|]. apply Forall_cons_iff in H. destruct H as [H1 H2]. cbn [map fst snd concat_opt]. rewrite H1, (IH H2). reflexivity.
Qed.
Lemma write_no_mods : forall l, no_mods l -> write_items l = concat_opt (map (fun i => fst (texts i)) l).
Proof.
  intros l H. unfold write_items, assemble. rewrite (mods_nil l H). rewrite map_map. f_equal. apply map_ext. intros i. cbn [fst snd].
  destruct i; try reflexivity. cbn [texts fst]. unfold write_prim. destruct (startswith _ _); reflexivity.
Qed.

Section Write.
Variable named : list (str * param) -> Prop.
Hypothesis named_ok : forall l, named l -> names_ok l.
(** what each statement becomes when written *)
Fixpoint tidy_stmt (s : stmt) : list stmt :=
  match s with
  | Note l => [Note l]
  | Directive l => [Directive (strip l)]
  | Part c => [Part (tidy c)]
  | Control h b t => [Control (rstrip h) (map rstrip b) (rstrip t)]
  | Circuit h b t => [Circuit (strip h) (concat (map tidy_stmt b)) (strip t)]
  | Include l b => concat (map tidy_stmt b)
  end.
Definition tidy_body (b : list stmt) : list stmt := concat (map tidy_stmt b).
Definition body_text (b : list stmt) : str := concat (body_lines b).
Lemma body_text_app : forall a b, body_text (a ++ b) = body_text a ++ body_text b.
Proof. intros a b. unfold body_text, body_lines. rewrite map_app, concat_app, concat_app. reflexivity. Qed.
Definition writes (s : stmt) : Prop := stmt_ok named s -> texts (item_of s) = (Some (body_text (tidy_stmt s)), Some []).
Lemma writes_body : forall b, Forall writes b -> body_ok named b ->
  no_mods (map item_of b) /\ concat_opt (map (fun i => fst (texts i)) (map item_of b)) = Some (body_text (tidy_body b)).
Proof.
  induction b as [|s b IH]; intros H HO; [split; [constructor|reflexivity]|]. apply Forall_cons_iff in H. destruct H as [H1 H2].
  unfold body_ok in HO. cbn [map fold_right] in HO. destruct HO as [HO1 HO2]. destruct (IH H2 HO2) as [A B]. specialize (H1 HO1). split.
  - constructor; [rewrite H1; reflexivity|exact A].
  - cbn [map concat_opt]. rewrite H1, B. cbn [fst]. unfold tidy_body. cbn [map concat]. rewrite body_text_app. reflexivity.
Qed.
Lemma assemble_write : forall l, assemble (map (fun i => (i, texts i)) l) = write_items l.
Proof. reflexivity. Qed.
Lemma writes_all : forall s, writes s.
Proof.
  apply stmt_ind'; unfold writes.
  - intros l _. cbn [item_of texts tidy_stmt]. unfold body_text. cbn. rewrite app_nil_r. reflexivity.
  - intros l _. cbn [item_of texts tidy_stmt]. rewrite strip_full. unfold body_text. cbn. rewrite app_nil_r. reflexivity.
  - intros c (HC & HN & HE). cbn [item_of tidy_stmt]. apply named_ok in HN.
    assert (write_comp (comp_text c) None = Some (comp_text (tidy c))) as W.
    { unfold write_comp, attrs_now. rewrite comp_read by assumption. apply comp_rewrite_self; assumption. }
    assert (body_text [Part (tidy c)] = comp_text (tidy c)) as -> by (unfold body_text, body_lines; cbn [map concat stmt_lines app]; rewrite app_nil_r; reflexivity).
    destruct (aeqb (c_kind c) "X"); cbn [texts]; rewrite W; reflexivity.
  - intros h b t _. cbn [item_of texts tidy_stmt]. unfold body_text, body_lines. cbn [map concat stmt_lines]. rewrite app_nil_r. f_equal. f_equal.
    cbn [map concat]. rewrite !map_app. rewrite !map_map. reflexivity.
  - intros h b t IH (_ & Hb & _). cbn [item_of texts tidy_stmt]. destruct (writes_body b IH Hb) as [NM W].
    assert (assemble (map (fun i => (i, texts i)) (IPrim (full h) :: map item_of b ++ [IPrim (full t)])) = Some (body_text [Circuit (strip h) (concat (map tidy_stmt b)) (strip t)])) as ->; [|reflexivity].
    rewrite assemble_write, write_no_mods.
    + cbn [map concat_opt]. rewrite map_app, concat_opt_app. match goal with |- context [concat_opt (map ?f (map item_of b))] => replace (concat_opt (map f (map item_of b))) with (Some (body_text (tidy_body b))) by (symmetry; exact W) end.
      cbn [map concat_opt texts fst]. rewrite !strip_full. f_equal. unfold body_text, body_lines. cbn [map concat stmt_lines]. rewrite app_nil_r. unfold tidy_body.
      rewrite <- app_comm_cons. cbn [concat]. rewrite !concat_app. cbn [concat]. rewrite !app_nil_r. unfold full, NLs. rewrite <- ?app_assoc. reflexivity.
    + constructor; [reflexivity|]. apply Forall_app. split; [exact NM|]. constructor; [reflexivity|constructor].
  - intros l b IH (_ & Hb). cbn [item_of texts tidy_stmt]. destruct (writes_body b IH Hb) as [NM W]. rewrite assemble_write, write_no_mods by exact NM. rewrite W. reflexivity.
Qed.
Definition tidy_doc (d : doc) : doc := {| d_body := tidy_body (d_body d); d_end := strip (d_end d); d_after := d_after d |}.
Lemma notes_text : forall ls, concat_opt (map (fun i => fst (texts i)) (map (fun l => IText (full l)) ls)) = Some (concat (map full ls)) /\ no_mods (map (fun l => IText (full l)) ls).
Proof.
  induction ls as [|l ls [IH1 IH2]]; [split; [reflexivity|constructor]|]. split; [|constructor; [reflexivity|exact IH2]]. cbn [map concat_opt texts fst concat]. rewrite IH1. reflexivity.
Qed.
Theorem write_doc : forall d, doc_ok named d -> write_items (doc_items d) = Some (concat (doc_lines (tidy_doc d))).
Proof.
  intros d (HB & _ & _). destruct (writes_body (d_body d)) as [NM W]; [apply Forall_forall; intros s _; apply writes_all|exact HB|]. destruct (notes_text (d_after d)) as [W2 NM2].
  unfold doc_items. rewrite write_no_mods.
  - rewrite map_app, concat_opt_app. match goal with |- context [concat_opt (map ?f (map item_of (d_body d)))] => replace (concat_opt (map f (map item_of (d_body d)))) with (Some (body_text (tidy_body (d_body d)))) by (symmetry; exact W) end.
    cbn [map concat_opt texts fst]. rewrite W2. rewrite strip_full. f_equal. unfold doc_lines, tidy_doc. cbn [d_body d_end d_after]. rewrite concat_app. cbn [concat]. unfold full, NLs. rewrite <- ?app_assoc. reflexivity.
  - apply Forall_app. split; [exact NM|]. constructor; [reflexivity|exact NM2].
Qed.
End Write.

Lemma comp_nodes : forall c, comp_ok c -> c_nodes c <> [].
Proof.
  intros c HC. destruct HC as (_ & _ & _ & _ & _ & _ & _ & _ & _ & f & lo & hi & Hf & Hlo & _). pose proof (family_lo _ _ _ _ Hf) as L. intros E. rewrite E in Hlo. cbn [length] in Hlo. lia.
Qed.
Lemma tidy_canonical : forall c, c_nodes c <> [] -> Forall (fun bn => fst bn = [" "%char]) (c_nodes c) -> tidy c = c.
Proof. intros c N H. unfold tidy. rewrite nodes_canonical by assumption. rewrite str_eqb_refl. reflexivity. Qed.
Lemma tidy_same : forall c, c_nodes c <> [] -> same_part c (tidy c).
Proof.
  intros c N. unfold same_part. assert (Forall (fun bn => fst bn = [" "%char]) (c_nodes c) -> tidy c = c) as T by (intros H; apply tidy_canonical; assumption).
  revert T. unfold tidy. destruct (str_eqb (nodes_text (c_nodes c)) (ntext (map snd (c_nodes c)))) eqn:E; [intros _; do 6 (split; [reflexivity|]); reflexivity|].
  cbn [c_kind c_name c_nodes c_gap c_val c_pars c_end c_note]. intros T. split; [reflexivity|]. split; [reflexivity|]. split; [unfold spaced; rewrite map_map; reflexivity|]. split; [reflexivity|]. split; [reflexivity|]. split.
  - destruct (c_note c) as [t|]; [|reflexivity]. cbn [option_map]. f_equal. unfold rstrip, rstrip_if. rewrite rev_involutive. f_equal.
    generalize (rev t). induction l as [|x l IH]; [reflexivity|]. cbn [lstrip_if]. destruct (is_space x) eqn:Ex; [exact IH|]. cbn [lstrip_if]. rewrite Ex. reflexivity.
  - exact T.
Qed.
Section Same.
Variable named : list (str * param) -> Prop.
Lemma same_body_all : forall b, Forall (fun s => stmt_ok named s -> same_stmt s (tidy_stmt s)) b -> body_ok named b -> same_body b (tidy_body b).
Proof.
  induction b as [|s b IH]; intros H HO; [constructor|]. apply Forall_cons_iff in H. destruct H as [H1 H2]. unfold body_ok in HO. cbn [map fold_right] in HO. destruct HO as [HO1 HO2].
  unfold tidy_body. cbn [map concat]. constructor; [apply H1; exact HO1|apply IH; assumption].
Qed.
Lemma same_all : forall s, stmt_ok named s -> same_stmt s (tidy_stmt s).
Proof.
  apply (stmt_ind' (fun s => stmt_ok named s -> same_stmt s (tidy_stmt s))).
  - intros l _. constructor.
  - intros l _. constructor.
  - intros c (HC & _). cbn [tidy_stmt]. constructor. apply tidy_same. apply comp_nodes. exact HC.
  - intros h b t _. constructor.
  - intros h b t IH (_ & Hb & _). cbn [tidy_stmt]. constructor. apply same_body_all; assumption.
  - intros l b IH (_ & Hb). cbn [tidy_stmt]. constructor. apply same_body_all; assumption.
Qed.
Theorem tidy_same_doc : forall d, doc_ok named d -> same_doc d (tidy_doc d).
Proof.
  intros d (HB & _). split; [|split; reflexivity]. cbn [tidy_doc d_body]. apply same_body_all; [|exact HB]. apply Forall_forall. intros s _. apply same_all.
Qed.
Lemma canonical_body : forall b, Forall (fun s => stmt_ok named s -> stmt_canonical s -> tidy_stmt s = [s]) b -> body_ok named b -> fold_right and True (map stmt_canonical b) -> tidy_body b = b.
Proof.
  induction b as [|s b IH]; intros H HO HC; [reflexivity|]. apply Forall_cons_iff in H. destruct H as [H1 H2]. unfold body_ok in HO. cbn [map fold_right] in HO, HC. destruct HO as [HO1 HO2]. destruct HC as [HC1 HC2].
  unfold tidy_body. cbn [map concat]. rewrite (H1 HO1 HC1). cbn [app]. f_equal. apply IH; assumption.
Qed.
Lemma canonical_all : forall s, stmt_ok named s -> stmt_canonical s -> tidy_stmt s = [s].
Proof.
  apply (stmt_ind' (fun s => stmt_ok named s -> stmt_canonical s -> tidy_stmt s = [s])).
  - reflexivity.
  - intros l _ H. cbn [tidy_stmt]. cbn [stmt_canonical] in H. rewrite H. reflexivity.
  - intros c (HC & _) H. cbn [tidy_stmt]. rewrite tidy_canonical; [reflexivity|apply comp_nodes; exact HC|exact H].
  - intros h b t _ H. cbn [tidy_stmt]. cbn [stmt_canonical] in H. f_equal. f_equal.
    + apply H. left. reflexivity.
    + transitivity (map (fun x => x) b); [|apply map_id]. apply map_ext_in. intros x Hx. apply H. right. apply in_or_app. left. exact Hx.
    + apply H. right. apply in_or_app. right. left. reflexivity.
  - intros h b t IH (_ & Hb & _) (H1 & H2 & H3). cbn [tidy_stmt]. rewrite H1, H3. f_equal. f_equal. apply canonical_body; assumption.
  - intros l b IH _ [].
Qed.
Theorem canonical_doc : forall d, doc_ok named d -> doc_canonical d -> tidy_doc d = d.
Proof.
  intros d (HB & _) [HC HE]. unfold tidy_doc. rewrite HE, canonical_body; [destruct d; reflexivity| |exact HB|exact HC]. apply Forall_forall. intros s _. apply canonical_all.
Qed.
End Same.
