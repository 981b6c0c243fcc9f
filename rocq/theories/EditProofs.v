(** Edits of netlists. *)
From Coq Require Import String Ascii List Bool Arith ZArith Lia.
From Verif Require Import PyStr EngModel EngProofs EngCaseProofs PTokModel PTokSpec PTokProofs Regex RegexProofs RegexInv RegexMore CompModel CompSpec CompMatch CompFam CompProofs CompRewrite CompSelf CompProps
  SepModel UpdatesModel NetModel NetSpec NetProofs EditModel EditSpec.
Import ListNotations.
Local Open Scope string_scope.
Local Open Scope nat_scope.
Local Open Scope list_scope.

(** the name of a definition *)
Lemma m_seq_chr : forall (R : Type) f x (b : re) p s c (k : @kont R), f x = true -> m (Seq (Chr f) b) p (x :: s) c k = m b (S p) s c k.
Proof. intros R f x b p s c k H. cbn [m]. rewrite H. reflexivity. Qed.
Lemma name_head : forall fname h n rest, circuit_name h n -> name_of fname (IPrim (full h) :: rest) = Some n.
Proof.
  intros fname h n rest (kw & b & r & -> & HK & HB & NB & NN & HN & HR). cbn [name_of obj_of].
  assert (exists e c, re_match subckt_re (full ("."%char :: kw ++ b ++ n ++ r)) = Some (e, c) /\ cap 0 c = Some (S (length kw + length b), S (length kw + length b + length n))) as (e & c & HM & HC).
  { exists (S (length kw + length b + length n)), [(0, (S (length kw + length b), S (length kw + length b + length n)))]. split; [|reflexivity].
    assert (length kw = 6) as L6. { apply (f_equal (@length _)) in HK. unfold upper in HK. rewrite map_length in HK. exact HK. }
    destruct kw as [|k1 [|k2 [|k3 [|k4 [|k5 [|k6 [|]]]]]]]; try discriminate L6. unfold upper in HK. cbn [map] in HK. injection HK as K1 K2 K3 K4 K5 K6.
    unfold re_match. change subckt_re with (Seq (Chr not_nl) (Seq (Seq (ichar "S") (Seq (ichar "U") (Seq (ichar "B") (Seq (ichar "C") (Seq (ichar "K") (ichar "T")))))) (Seq sp1 (Grp 0 (Plus (Chr name_char)))))).
    unfold full. cbn [app length]. rewrite m_seq_chr by reflexivity. rewrite m_seq. unfold ichar.
    rewrite m_seq_chr by (rewrite K1; reflexivity). rewrite m_seq_chr by (rewrite K2; reflexivity). rewrite m_seq_chr by (rewrite K3; reflexivity).
    rewrite m_seq_chr by (rewrite K4; reflexivity). rewrite m_seq_chr by (rewrite K5; reflexivity). rewrite m_chr_ok by (rewrite K6; reflexivity). rewrite m_seq.
    destruct b as [|b0 b]; [contradiction NB; reflexivity|]. unfold blank in HB. cbn [forallb] in HB. apply andb_true_iff in HB. destruct HB as [HB0 HB].
    destruct n as [|n0 n]; [contradiction NN; reflexivity|]. cbn [forallb] in HN. apply andb_true_iff in HN. destruct HN as [HN0 HN].
    unfold sp1. rewrite <- !app_assoc. cbn [app]. apply m_plus_all; [exact HB0|exact HB| |].
    - assert (forall x, name_char x = true -> is_space x = false) as Q. { intros x Hx. apply negb_true_iff. revert x Hx. clear. apply (imp_sweep name_char (fun x => negb (is_space x))). vm_cast_no_check (eq_refl true). } apply Q. exact HN0.
    - rewrite m_grp. apply m_plus_all; [exact HN0|exact HN| |].
      + destruct r as [|r0 r]; [reflexivity|exact HR].
      + cbn [length]. reflexivity. }
  rewrite HM. unfold group. rewrite HC. cbn [option_map]. f_equal.
  replace (full ("."%char :: kw ++ b ++ n ++ r)) with (("."%char :: kw ++ b) ++ n ++ r ++ [NL]) by (unfold full; cbn [app]; rewrite <- !app_assoc; reflexivity).
  unfold slice. cbn [fst snd]. replace (S (length kw + length b)) with (length ("."%char :: kw ++ b)) by (cbn [length]; rewrite app_length; reflexivity).
  rewrite skipn_app, skipn_all, Nat.sub_diag. cbn [skipn app]. rewrite firstn_app.
  replace (S (length kw + length b + length n) - length ("."%char :: kw ++ b)) with (length n) by (cbn [length]; rewrite app_length; lia).
  rewrite firstn_all, Nat.sub_diag. cbn [firstn]. rewrite app_nil_r. reflexivity.
Qed.

(** Entries that show a statement [s] and are saved as [w].  [Q]: which edits were made. *)
Definition holder (it : item) (o : str) (e : option attrs) : Prop := it = IComp o e \/ it = IInst o e None.
(** statements of a document, its end included *)
Definition listed (s : stmt) : Prop := stmt_ok good_names s \/ exists l w, s = Directive l /\ first_word w l /\ begins (s2l ".END") w.
Section Shown.
Variable Q : comp -> comp -> Prop.
Inductive shown : item -> stmt -> list stmt -> Prop :=
| Sh_plain : forall s, listed s -> (forall c, s <> Part c) -> shown (item_of s) s (tidy_stmt s)
| Sh_part : forall it c, holder it (comp_text c) None -> part_ok good_names c -> shown it (Part c) [Part (tidy c)]
| Sh_edit : forall it c0 c, holder it (comp_text c0) (Some (attrs_of c)) -> part_ok good_names c0 -> part_ok good_names c -> canonical c0 -> canonical c ->
    c_kind c = c_kind c0 -> c_name c = c_name c0 -> c_end c = c_end c0 -> c_note c = c_note c0 ->
    (c_pars c = [] -> c_pars c0 = []) -> (c_kind c0 = "X"%char -> c_pars c0 = [] -> c_pars c = []) -> Q c0 c ->
    shown it (Part c) [Part (edited c0 c)].
Definition view (items : list item) (st : list (stmt * list stmt)) : Prop := Forall2 (fun it sw => shown it (fst sw) (snd sw)) items st.

Lemma holder_texts : forall it o e t, holder it o e -> write_comp o e = Some t -> texts it = (Some t, Some []).
Proof. intros it o e t [-> | ->] H; cbn [texts]; rewrite H; reflexivity. Qed.
Lemma part_text : forall c, body_text [Part c] = comp_text c.
Proof. intros c. unfold body_text, body_lines. cbn [map concat stmt_lines app]. rewrite app_nil_r. reflexivity. Qed.
Lemma shown_texts : forall it s w, shown it s w -> texts it = (Some (body_text w), Some []).
Proof.
  intros it s w H. destruct H as [s HO _|it c HH (HC & HN & HE)|it c0 c HH (HC0 & HN0 & HE0) (HC & HN & HE) HK0 HK Ek En Ee Et Hp Hx _].
  - destruct HO as [HO|(l & u & -> & _)]; [apply (writes_all good_names good_names_ok s HO)|].
    cbn [item_of texts tidy_stmt]. rewrite strip_full. unfold body_text. cbn. rewrite app_nil_r. reflexivity.
  - rewrite part_text. apply (holder_texts _ _ _ _ HH). unfold write_comp, attrs_now. rewrite comp_read by (try apply good_names_ok; assumption). apply comp_rewrite_self; try apply good_names_ok; assumption.
  - rewrite part_text. apply (holder_texts _ _ _ _ HH). unfold write_comp, attrs_now. apply comp_rewrite; try apply good_names_ok; assumption.
Qed.
Lemma view_write : forall items st, view items st -> write_items items = Some (body_text (concat (map snd st))).
Proof.
  intros items st H. assert (no_mods items /\ concat_opt (map (fun i => fst (texts i)) items) = Some (body_text (concat (map snd st)))) as [A B].
  { induction H as [|it sw items st H1 H2 IH]; [split; [constructor|reflexivity]|]. destruct IH as [IH1 IH2]. pose proof (shown_texts _ _ _ H1) as T. split.
    - constructor; [rewrite T; reflexivity|exact IH1].
    - cbn [map concat_opt concat]. rewrite T. rewrite IH2. cbn [fst]. rewrite body_text_app. reflexivity. }
  rewrite write_no_mods by exact A. exact B.
Qed.

(** what an entry that shows a component holds *)
Lemma attrs_ref : forall c, a_ref (attrs_of c) = designator c.
Proof. reflexivity. Qed.
Lemma shown_part : forall it c w, shown it (Part c) w -> exists o e, holder it o e /\ attrs_now o e = Some (attrs_of c).
Proof.
  intros it c w H. remember (Part c) as s eqn:Es. destruct H as [s HO N|it c' HH (HC & HN & HE)|it c0 c' HH ? ? ? ? ? ? ? ? ? ? ?].
  - exfalso. apply (N c). exact Es.
  - injection Es as ->. exists (comp_text c), None. split; [exact HH|]. unfold attrs_now. apply comp_read; [exact HC|apply good_names_ok; exact HN].
  - injection Es as ->. exists (comp_text c0), (Some (attrs_of c)). split; [exact HH|reflexivity].
Qed.
Lemma shown_plain : forall it s w, shown it s w -> (forall c, s <> Part c) -> it = item_of s /\ listed s /\ w = tidy_stmt s.
Proof. intros it s w H N. destruct H; [auto|exfalso; eapply N; reflexivity|exfalso; eapply N; reflexivity]. Qed.

(** looking up a reference *)
Fixpoint part_at (ref : str) (l : list stmt) : found :=
  match l with
  | [] => NotFound
  | s :: r => if is_part ref s then At 0 else shift (part_at ref r)
  end.
Lemma upper_idem : forall s, upper (upper s) = upper s.
Proof. intros s. unfold upper. rewrite map_map. apply map_ext. intros c. revert c. clear. assert (forall c, aeqb (upper_c (upper_c c)) (upper_c c) = true) as H; [|intros c; apply aeqb_eq; apply H].
  apply sweep1. vm_cast_no_check (eq_refl true). Qed.
Lemma find_shown : forall fname ref items st, view items st -> no_definition_named ref (map fst st) -> find_ref fname (upper ref) items = Some (part_at ref (map fst st)).
Proof.
  intros fname ref items st H. induction H as [|it [s w] items st H1 H2 IH]; intros HD; [reflexivity|]. cbn [fst snd map] in *.
  assert (no_definition_named ref (map fst st)) as HD' by (intros h b t Hi; apply HD with (b := b) (t := t); right; exact Hi). specialize (IH HD').
  destruct s as [l|l|c|h b t|h b t|l b].
  1,2,4,6: destruct (shown_plain _ _ _ H1) as (-> & _ & _); [discriminate|]; cbn [item_of find_ref part_at is_part]; rewrite IH; reflexivity.
  - destruct (shown_part _ _ _ H1) as (o & e & HH & HA). cbn [part_at is_part]. destruct HH as [-> | ->]; cbn [find_ref]; rewrite HA; cbn [option_map]; rewrite attrs_ref;
      unfold designator; rewrite upper_idem; (destruct (str_eqb _ _); [reflexivity|rewrite IH; reflexivity]).
  - destruct (shown_plain _ _ _ H1) as (-> & _ & _); [discriminate|]. cbn [item_of find_ref part_at is_part].
    destruct (HD h b t (or_introl eq_refl)) as (n & HN & HU). rewrite (name_head fname h n _ HN). assert (str_eqb (upper n) (upper ref) = false) as -> by (apply str_neq; exact HU). rewrite IH. reflexivity.
Qed.
Lemma part_at_named : forall ref l c, part_named ref l = Some c -> exists a b, l = a ++ Part c :: b /\ part_at ref l = At (length a) /\ (forall f, on_part ref f l = a ++ f c ++ b) /\ part_named ref a = None.
Proof.
  induction l as [|s l IH]; intros c H; [discriminate|]. cbn [part_named] in H.
  assert (forall s', (forall c', s' <> Part c') -> part_named ref l = Some c -> exists a b, s' :: l = a ++ Part c :: b /\ part_at ref (s' :: l) = At (length a) /\ (forall f, on_part ref f (s' :: l) = a ++ f c ++ b) /\ part_named ref a = None) as K.
  { intros s' N H'. destruct (IH c H') as (a & b & -> & E2 & E3 & E4). exists (s' :: a), b. split; [reflexivity|]. split; [|split].
    - cbn [part_at]. assert (is_part ref s' = false) as -> by (destruct s'; try reflexivity; exfalso; eapply N; reflexivity). rewrite E2. reflexivity.
    - intros f. specialize (E3 f). destruct s'; cbn [on_part app]; try (rewrite E3; reflexivity). exfalso; eapply N; reflexivity.
    - destruct s'; try exact E4. exfalso; eapply N; reflexivity. }
  destruct s as [x|x|c'|x y z|x y z|x y]; try (apply K; [discriminate|exact H]). destruct (str_eqb (designator c') (upper ref)) eqn:E.
  - injection H as ->. exists [], l. split; [reflexivity|]. split; [cbn [part_at is_part]; rewrite E; reflexivity|]. split; [intros f; cbn [on_part app]; rewrite E; reflexivity|reflexivity].
  - destruct (IH c H) as (a & b & -> & E2 & E3 & E4). exists (Part c' :: a), b. split; [reflexivity|]. split; [cbn [part_at is_part]; rewrite E, E2; reflexivity|].
    split; [intros f; cbn [on_part app]; rewrite E, E3; reflexivity|]. cbn [part_named]. rewrite E. exact E4.
Qed.
Lemma view_split : forall items st a s b, view items st -> map fst st = a ++ s :: b ->
  exists ia it ib sa w sb, items = ia ++ it :: ib /\ st = sa ++ (s, w) :: sb /\ length ia = length a /\ view ia sa /\ view ib sb /\ shown it s w /\ map fst sa = a /\ map fst sb = b.
Proof.
  intros items st a. revert items st. induction a as [|x a IH]; intros items st s b H E.
  - destruct H as [|it [s' w] items st H1 H2]; [discriminate|]. cbn [map fst snd app] in *. injection E as -> <-. exists [], it, items, [], w, st. repeat (split; [reflexivity || constructor || assumption|]). reflexivity.
  - destruct H as [|it [s' w] items st H1 H2]; [discriminate|]. cbn [map fst snd app] in *. injection E as -> E.
    destruct (IH items st s b H2 E) as (ia & it' & ib & sa & w' & sb & -> & -> & L & V1 & V2 & V3 & M1 & M2). exists (it :: ia), it', ib, ((x, w) :: sa), w', sb.
    split; [reflexivity|]. split; [reflexivity|]. split; [cbn [length]; f_equal; exact L|]. split; [constructor; assumption|]. split; [exact V2|]. split; [exact V3|]. split; [cbn [map fst]; f_equal; exact M1|exact M2].
Qed.
Lemma view_app : forall ia ib sa sb, view ia sa -> view ib sb -> view (ia ++ ib) (sa ++ sb).
Proof. intros ia ib sa sb H1 H2. apply Forall2_app; assumption. Qed.
Lemma set_item_mid : forall ia it ib x, set_item (ia ++ it :: ib) (length ia) x = ia ++ x :: ib.
Proof.
  intros ia it ib x. unfold set_item. rewrite firstn_app, firstn_all, Nat.sub_diag. cbn [firstn]. rewrite app_nil_r. f_equal. f_equal.
  rewrite skipn_app. rewrite (skipn_all2 ia) by lia. replace (S (length ia) - length ia) with 1 by lia. reflexivity.
Qed.
Lemma nth_mid : forall {A} (ia : list A) it ib, nth_error (ia ++ it :: ib) (length ia) = Some it.
Proof. intros A ia it ib. rewrite nth_error_app2 by lia. rewrite Nat.sub_diag. reflexivity. Qed.
End Shown.

(** one edit *)
Definition do_edit (en : env) (e : edit) (ed : editor) : option editor :=
  match e with
  | SetValue r v => set_component_value en r v ed
  | SetParam r k w => set_component_parameter en r k (Some (word_text w)) ed
  | DropParam r k => set_component_parameter en r k None ed
  end.
Lemma split_plain : forall s, ~ In ":"%char s -> split_ref s = [s].
Proof.
  induction s as [|c s IH]; intros H; [reflexivity|]. cbn [split_ref]. assert (aeqb c ":" = false) as -> by (apply aeqb_neq; intros ->; apply H; left; reflexivity).
  rewrite IH by (intros G; apply H; right; exact G). reflexivity.
Qed.
Lemma upper_plain : forall s, ~ In ":"%char s -> ~ In ":"%char (upper s).
Proof.
  intros s H G. apply H. unfold upper in G. apply in_map_iff in G. destruct G as (c & E & Hc). assert (c = ":"%char) as <-; [|exact Hc]. clear - E.
  assert (aeqb (upper_c c) ":" = true) as E' by (apply aeqb_eq; exact E). apply aeqb_eq. clear E. revert c E'. apply (imp_sweep (fun c => aeqb (upper_c c) ":") (fun c => aeqb c ":")). vm_cast_no_check (eq_refl true).
Qed.
Lemma plain_ref : forall r, ~ In ":"%char r -> ref_path r = [] /\ ref_last r = upper r.
Proof. intros r H. unfold ref_path, ref_last. rewrite split_plain by (apply upper_plain; exact H). split; reflexivity. Qed.
Lemma set_par_entry : forall l k w, map entry (set_par l k w) = pset (map entry l) k (One (word_text w)).
Proof.
  induction l as [|[b p] l IH]; intros k w.
  - cbn [set_par map pset]. unfold entry, meaning. cbn [snd fst p_name p_value p_more map]. unfold word_text at 1. cbn [map concat in_text]. rewrite app_nil_r. reflexivity.
  - cbn [set_par map pset]. unfold par_name at 1. cbn [snd]. change (fst (entry (b, p))) with (word_text (p_name p)).
    unfold entry at 2 3. unfold meaning at 1 2 3. cbn [fst snd]. destruct (str_eqb (word_text (p_name p)) k); [reflexivity|]. cbn [map]. rewrite IH. reflexivity.
Qed.
Lemma drop_entry : forall l k, pdel (map entry l) k = map entry (filter (fun bp => negb (str_eqb (par_name bp) k)) l).
Proof.
  induction l as [|bp l IH]; intros k; [reflexivity|]. unfold pdel in *. cbn [map filter]. change (fst (entry bp)) with (par_name bp). rewrite IH. destruct (negb (str_eqb (par_name bp) k)); reflexivity.
Qed.
Lemma attrs_edit : forall e c, match e with DropParam _ _ => c_pars (edit_comp e c) <> [] | _ => True end ->
  attrs_of (edit_comp e c) = match e with SetValue _ v => with_val (attrs_of c) v | SetParam _ k w => with_par (attrs_of c) k (Some (word_text w)) | DropParam _ k => with_par (attrs_of c) k None end.
Proof.
  intros [r v|r k w|r k] c H; cbn [edit_comp] in *; [reflexivity| |].
  - unfold with_par, attrs_of. cbn [a_par c_pars c_kind c_name c_nodes c_val with_pars a_ref a_ports a_val]. f_equal.
    assert (forall l, match set_par l k w with [] => None | _ => Some (map entry (set_par l k w)) end = Some (map entry (set_par l k w))) as E by (intros [|bp l]; cbn [set_par]; [reflexivity|destruct (str_eqb _ _); reflexivity]).
    transitivity (Some (map entry (set_par (c_pars c) k w))); [rewrite <- E; destruct (set_par (c_pars c) k w); reflexivity|]. rewrite set_par_entry. destruct (c_pars c); reflexivity.
  - unfold with_par, attrs_of. cbn [a_par c_pars c_kind c_name c_nodes c_val with_pars a_ref a_ports a_val] in *. f_equal. destruct (filter _ (c_pars c)) as [|x y] eqn:F; [contradiction H; reflexivity|].
    rewrite <- F. destruct (c_pars c) as [|bp l] eqn:E; [discriminate F|]. rewrite <- E. rewrite <- drop_entry. reflexivity.
Qed.
Lemma edit_fixed : forall e c, let c' := edit_comp e c in
  c_kind c' = c_kind c /\ c_name c' = c_name c /\ c_nodes c' = c_nodes c /\ c_gap c' = c_gap c /\ c_end c' = c_end c /\ c_note c' = c_note c.
Proof. intros [r v|r k w|r k] c; cbn; repeat split. Qed.
Theorem edit_step : forall (Q : comp -> comp -> Prop) en e ed st, n_perm ed <> Deny -> view Q (n_items ed) st -> edit_ok e (map fst st) -> no_definition_named (edit_ref e) (map fst st) ->
  (forall c, Q c c) -> (forall c0 c, Q c0 c -> Q c0 (edit_comp e c)) ->
  exists ed' st', do_edit en e ed = Some ed' /\ n_perm ed' = n_perm ed /\ view Q (n_items ed') st' /\ map fst st' = apply_edit e (map fst st).
Proof.
  intros Q en e ed st HP HV (HR & c & HF & HK & HO & HK' & Hp & Hx & Hd) HD Q0 QS.
  destruct (plain_ref _ HR) as [R1 R2]. destruct (part_at_named _ _ _ HF) as (a & b & EL & EA & EO & _).
  destruct (view_split Q _ _ _ _ _ HV EL) as (ia & it & ib & sa & w & sb & EI & ES & LA & V1 & V2 & V3 & M1 & M2).
  pose proof (find_shown Q (e_name en) (edit_ref e) _ _ HV HD) as FD. rewrite EA, <- LA in FD. destruct (edit_fixed e c) as (F1 & F2 & F3 & F4 & F5 & F6).
  destruct (shown_part Q _ _ _ V3) as (o & oe & HH & HA).
  (* the new entry *)
  assert (exists w', forall it', holder it' o (Some (attrs_of (edit_comp e c))) -> shown Q it' (Part (edit_comp e c)) w') as (w' & HW).
  { remember (Part c) as s eqn:Es. destruct V3 as [s HO' N|it' c1 HH' HO1|it' c0 c1 HH' ? ? ? ? K1 K2 K3 K4 K5 K6 K7].
    - exfalso. apply (N c). exact Es.
    - injection Es as ->. exists [Part (edited c (edit_comp e c))]. intros i Hi. assert (o = comp_text c) as -> by (destruct HH as [HH|HH]; destruct HH' as [HH'|HH']; congruence).
      apply Sh_edit; auto.
    - injection Es as ->. exists [Part (edited c0 (edit_comp e c))]. intros i Hi. assert (o = comp_text c0) as -> by (destruct HH as [HH|HH]; destruct HH' as [HH'|HH']; congruence).
      apply Sh_edit; auto; try congruence. intros G1 G2. apply Hx; [congruence|]. apply K6; assumption. }
  assert (forall it' logs l', holder it' o (Some (attrs_of (edit_comp e c))) -> l' = set_item (n_items ed) (length ia) it' ->
    (forall pm, edit_path en pm [] (match e with SetValue _ v => op_value (e_name en) (upper (edit_ref e)) v | SetParam _ k w => op_param (e_name en) (upper (edit_ref e)) k (Some (word_text w)) | DropParam _ k => op_param (e_name en) (upper (edit_ref e)) k None end) [] (n_items ed) = Some (l', logs)) ->
    exists ed' st', do_edit en e ed = Some ed' /\ n_perm ed' = n_perm ed /\ view Q (n_items ed') st' /\ map fst st' = apply_edit e (map fst st)) as FIN.
  { intros it' logs l' Hi -> HE.
    assert (do_edit en e ed = Some {| n_items := set_item (n_items ed) (length ia) it'; n_log := match n_perm ed with Inform => fold_left log1 logs (n_log ed) | _ => n_log ed end; n_perm := n_perm ed |}) as ->.
    { destruct e as [r v|r k w0|r k]; cbn [do_edit edit_ref] in *; unfold set_component_value, set_component_parameter, run_edit; rewrite R1, R2; destruct (n_perm ed); try (contradiction HP; reflexivity); rewrite HE; reflexivity. }
    eexists _, (sa ++ (Part (edit_comp e c), w') :: sb). split; [reflexivity|]. split; [reflexivity|]. split.
    - cbn [n_items]. rewrite EI, set_item_mid. apply view_app; [exact V1|]. constructor; [apply HW; exact Hi|exact V2].
    - unfold apply_edit. rewrite EO. rewrite map_app. cbn [map fst]. rewrite M1, M2. reflexivity. }
  pose proof (attrs_edit e c Hd) as AE.
  assert (nth_error (n_items ed) (length ia) = Some it) as NTH by (rewrite EI; apply nth_mid).
  destruct e as [r v|r k w0|r k]; cbn [edit_ref] in *.
  - destruct HH as [-> | ->].
    + eapply (FIN (IComp o (Some (attrs_of (edit_comp (SetValue r v) c))))); [left; reflexivity|reflexivity|]. intros pm. cbn [edit_path]. unfold op_value. rewrite FD, NTH, HA, AE. reflexivity.
    + eapply (FIN (IInst o (Some (attrs_of (edit_comp (SetValue r v) c))) None)); [right; reflexivity|reflexivity|]. intros pm. cbn [edit_path]. unfold op_value. rewrite FD, NTH, HA, AE. reflexivity.
  - destruct HH as [-> | ->].
    + eapply (FIN (IComp o (Some (attrs_of (edit_comp (SetParam r k w0) c))))); [left; reflexivity|reflexivity|]. intros pm. cbn [edit_path]. unfold op_param. rewrite FD, NTH, HA, AE. reflexivity.
    + eapply (FIN (IInst o (Some (attrs_of (edit_comp (SetParam r k w0) c))) None)); [right; reflexivity|reflexivity|]. intros pm. cbn [edit_path]. unfold op_param. rewrite FD, NTH, HA, AE. reflexivity.
  - destruct HH as [-> | ->].
    + eapply (FIN (IComp o (Some (attrs_of (edit_comp (DropParam r k) c))))); [left; reflexivity|reflexivity|]. intros pm. cbn [edit_path]. unfold op_param. rewrite FD, NTH, HA, AE. reflexivity.
    + eapply (FIN (IInst o (Some (attrs_of (edit_comp (DropParam r k) c))) None)); [right; reflexivity|reflexivity|]. intros pm. cbn [edit_path]. unfold op_param. rewrite FD, NTH, HA, AE. reflexivity.
Qed.

(** a loaded document *)
Lemma loaded_view : forall Q d, doc_ok good_names d -> view Q (doc_items d) (map (fun s => (s, tidy_stmt s)) (statements d)).
Proof.
  intros Q d (HB & (w & HW & HE) & HA). unfold doc_items, statements. rewrite map_app. apply view_app.
  - unfold body_ok in HB. revert HB. induction (d_body d) as [|s l IH]; intros HB; [constructor|]. cbn [map fold_right] in HB. destruct HB as [H1 H2].
    constructor; [|apply IH; exact H2]. cbn [fst snd]. destruct s as [x|x|c|x y z|x y z|x y]; try (apply Sh_plain; [left; exact H1|discriminate]).
    cbn [item_of tidy_stmt]. apply Sh_part; [|exact H1]. destruct (aeqb (c_kind c) "X"); [right|left]; reflexivity.
  - cbn [map]. constructor.
    + cbn [fst snd]. apply (Sh_plain Q (Directive (d_end d))); [right; eexists _, _; split; [reflexivity|split; [exact HW|exact HE]]|discriminate].
    + revert HA. induction (d_after d) as [|x l IH]; intros HA; [constructor|]. cbn [map]. constructor; [|apply IH; intros y Hy; apply HA; right; exact Hy].
      cbn [fst snd]. apply (Sh_plain Q (Note x)); [left; apply HA; left; reflexivity|discriminate].
Qed.
Lemma map_fst_pair : forall (l : list stmt) (f : stmt -> list stmt), map fst (map (fun s => (s, f s)) l) = l.
Proof. intros l f. rewrite map_map. apply map_id. Qed.

(** reading *)
Lemma get_shown : forall Q en ref items st c, view Q items st -> ~ In ":"%char ref -> no_definition_named ref (map fst st) -> part_named ref (map fst st) = Some c ->
  exists it, get_component en ref items = Some it /\ comp_attrs it = Some (attrs_of c).
Proof.
  intros Q en ref items st c HV HR HD HF. destruct (plain_ref _ HR) as [R1 R2]. destruct (part_at_named _ _ _ HF) as (a & b & EL & EA & _ & _).
  destruct (view_split Q _ _ _ _ _ HV EL) as (ia & it & ib & sa & w & sb & EI & ES & LA & V1 & V2 & V3 & M1 & M2).
  pose proof (find_shown Q (e_name en) ref _ _ HV HD) as FD. rewrite EA, <- LA in FD. unfold get_component. rewrite R1, R2. cbn [get_path]. rewrite FD, EI, nth_mid. exists it. split; [reflexivity|].
  destruct (shown_part Q _ _ _ V3) as (o & oe & [-> | ->] & HA); exact HA.
Qed.
Lemma part_at_none : forall ref l, part_named ref l = None -> part_at ref l = NotFound.
Proof.
  induction l as [|s l IH]; intros H; [reflexivity|]. cbn [part_named part_at is_part] in *. destruct s as [x|x|c|x y z|x y z|x y]; try (cbn [is_part]; rewrite (IH H); reflexivity).
  cbn [is_part]. destruct (str_eqb (designator c) (upper ref)); [discriminate|rewrite (IH H); reflexivity].
Qed.
Lemma get_missing : forall Q en ref items st, view Q items st -> ~ In ":"%char ref -> no_definition_named ref (map fst st) -> part_named ref (map fst st) = None -> get_component en ref items = None.
Proof.
  intros Q en ref items st HV HR HD HF. destruct (plain_ref _ HR) as [R1 R2]. unfold get_component. rewrite R1, R2. cbn [get_path]. rewrite (find_shown Q _ _ _ _ HV HD). rewrite (part_at_none _ _ HF). reflexivity.
Qed.

(** saving *)
Lemma same_pars_refl : forall p, same_pars p p.
Proof.
  intros p. split; [intros k; reflexivity|]. intros k a b H1 H2. rewrite H1 in H2. injection H2 as ->. destruct b as [x|l|]; cbn [same_value]; [left; reflexivity| |exact I].
  clear. induction l as [|x l IH]; [constructor|constructor; [left; reflexivity|exact IH]].
Qed.
Lemma dict_get_pget : forall d k, dict_get d k = pget d k.
Proof. intros d k. unfold dict_get. induction d as [|[k' v] d IH]; [reflexivity|]. cbn [find pget fst]. destruct (str_eqb k' k); [reflexivity|exact IH]. Qed.
Lemma pget_names : forall d k, pget d k <> None <-> In k (map fst d).
Proof.
  induction d as [|[k' v] d IH]; intros k; cbn [pget map fst]; [split; [intros H; contradiction H; reflexivity|intros []]|]. destruct (str_eqb k' k) eqn:E.
  - apply str_eqb_eq in E. subst. split; [left; reflexivity|discriminate].
  - rewrite IH. split; [right; assumption|intros [->|H]; [rewrite str_eqb_refl in E; discriminate E|exact H]].
Qed.
Lemma pget_In : forall d k v, pget d k = Some v -> In (k, v) d.
Proof. induction d as [|[k' w] d IH]; intros k v; cbn [pget]; [discriminate|]. destruct (str_eqb k' k) eqn:E; [intros H; injection H as ->; apply str_eqb_eq in E; subst; left; reflexivity|right; apply IH; assumption]. Qed.
Lemma same_text_word : forall x y, CompModel.same_text x y = true -> same_word x y.
Proof.
  intros x y H. unfold CompModel.same_text in H. destruct (scan_eng x) as [p|] eqn:Ex; [destruct (scan_eng y) as [q|] eqn:Ey|].
  - right. exists p, q. split; [exact Ex|]. split; [exact Ey|]. apply QArith_base.Qeq_bool_iff. exact H.
  - left. apply str_eqb_eq. exact H.
  - left. apply str_eqb_eq. destruct (scan_eng y); exact H.
Qed.
Lemma same_pval_value : forall a b, same_pval a b = true -> same_value a b.
Proof.
  intros [x|l|] [y|m0|] H; try discriminate H; cbn [same_pval same_value] in *; [apply same_text_word; exact H| |exact I].
  revert m0 H. induction l as [|x l IH]; intros [|y m0] H; try discriminate H; [constructor|]. cbn [same_texts] in H. apply andb_true_iff in H. destruct H as [H1 H2]. constructor; [apply same_text_word; exact H1|apply IH; exact H2].
Qed.
Lemma differences_same : forall p q, differences (map entry p) (map entry q) = false -> same_pars p q.
Proof.
  intros p q H. unfold differences in H. apply orb_false_iff in H. destruct H as [H1 H2].
  assert (forall kv, In kv (map entry p) -> exists v, pget (map entry q) (fst kv) = Some v /\ same_pval (snd kv) v = true) as A.
  { intros kv Hk. destruct (pget (map entry q) (fst kv)) as [v|] eqn:E.
    - exists v. split; [reflexivity|]. destruct (same_pval (snd kv) v) eqn:S; [reflexivity|]. exfalso. assert (existsb (fun kv => match pget (map entry q) (fst kv) with Some v => negb (same_pval (snd kv) v) | None => true end) (map entry p) = true) as G; [|rewrite G in H1; discriminate H1].
      apply existsb_exists. exists kv. split; [exact Hk|]. rewrite E, S. reflexivity.
    - exfalso. assert (existsb (fun kv => match pget (map entry q) (fst kv) with Some v => negb (same_pval (snd kv) v) | None => true end) (map entry p) = true) as G; [|rewrite G in H1; discriminate H1].
      apply existsb_exists. exists kv. split; [exact Hk|]. rewrite E. reflexivity. }
  assert (forall l, map par_name l = map fst (map entry l)) as NM by (intros l; rewrite map_map; reflexivity). split.
  - intros k. rewrite !NM. split; intros H.
    + apply in_map_iff in H. destruct H as (kv & <- & Hk). destruct (A kv Hk) as (v & E & _). apply pget_names. rewrite E. discriminate.
    + apply in_map_iff in H. destruct H as (kv & <- & Hk). apply pget_names. intros G. assert (existsb (fun kv => match pget (map entry p) (fst kv) with Some _ => false | None => true end) (map entry q) = true) as G'; [|rewrite G' in H2; discriminate H2].
      apply existsb_exists. exists kv. split; [exact Hk|]. rewrite G. reflexivity.
  - intros k a b Ha Hb. rewrite dict_get_pget, params_of_entry in Ha, Hb. apply pget_In in Ha. destruct (A (k, a) Ha) as (v & E & S). cbn [fst snd] in *. rewrite Hb in E. injection E as ->. apply same_pval_value. exact S.
Qed.
Lemma same_part_refl : forall c, same_part c c.
Proof. intros c. unfold same_part. do 6 (split; [reflexivity|]). reflexivity. Qed.
Lemma edited_pars : forall c0 c, canonical c -> c_kind c = c_kind c0 -> c_name c = c_name c0 -> c_end c = c_end c0 -> c_note c = c_note c0 ->
  edited c0 c = with_pars c (if differences (map entry (c_pars c)) (map entry (c_pars c0)) then c_pars c else c_pars c0).
Proof.
  intros c0 c (_ & KG & _) E1 E2 E3 E4. unfold edited, with_pars. rewrite E1, E2, str_eqb_refl, <- E3, <- E4, KG, <- E2, <- E1. reflexivity.
Qed.
Lemma with_same_pars : forall c, with_pars c (c_pars c) = c.
Proof. intros [k n no g v p e t]. reflexivity. Qed.
Lemma shown_saved : forall Q it s w, shown Q it s w -> saved_stmt s w.
Proof.
  intros Q it s w H. destruct H as [s HO N|it c HH HO|it c0 c HH HO0 HO HK0 HK Ek En Ee Et Hp Hx HQ].
  - apply V_other; [exact N|]. destruct HO as [HO|(l & u & -> & _)]; [apply same_all with (named := good_names); exact HO|apply SDirective].
  - apply V_part. exists (c_pars c). split; [apply same_pars_refl|]. rewrite with_same_pars. apply tidy_same. apply comp_nodes. apply HO.
  - apply V_part. rewrite edited_pars by assumption. destruct (differences _ _) eqn:D.
    + exists (c_pars c). split; [apply same_pars_refl|apply same_part_refl].
    + exists (c_pars c0). split; [apply differences_same; exact D|apply same_part_refl].
Qed.
Lemma view_saved : forall Q items st, view Q items st -> saved (map fst st) (concat (map snd st)).
Proof.
  intros Q items st H. exists (map snd st). split; [|reflexivity]. induction H as [|it sw items st H1 H2 IH]; [constructor|]. cbn [map]. constructor; [eapply shown_saved; exact H1|exact IH].
Qed.
Lemma view_same : forall (Q : comp -> comp -> Prop) items st, (forall c0 c, Q c0 c -> c_pars c = c_pars c0) -> view Q items st -> same_body (map fst st) (concat (map snd st)).
Proof.
  intros Q items st QP H. induction H as [|it sw items st H1 H2 IH]; [constructor|]. cbn [map concat]. constructor; [|exact IH].
  destruct H1 as [s HO N|it c HH HO|it c0 c HH HO0 HO HK0 HK Ek En Ee Et Hp Hx HQ].
  - destruct HO as [HO|(l & u & -> & _)]; [apply same_all with (named := good_names); exact HO|apply SDirective].
  - apply SPart. apply tidy_same. apply comp_nodes. apply HO.
  - apply SPart. rewrite edited_pars by assumption. apply QP in HQ. rewrite HQ. replace (if differences (map entry (c_pars c0)) (map entry (c_pars c0)) then c_pars c0 else c_pars c0) with (c_pars c) by (rewrite HQ; destruct (differences _ _); reflexivity).
    rewrite with_same_pars. apply same_part_refl.
Qed.

(** sequences of edits *)
Fixpoint do_edits (en : env) (es : list edit) (ed : editor) : option editor :=
  match es with [] => Some ed | e :: r => match do_edit en e ed with Some ed' => do_edits en r ed' | None => None end end.
Lemma on_part_circuits : forall ref f l h b t, (forall c s, In s (f c) -> exists c', s = Part c') -> In (Circuit h b t) (on_part ref f l) -> In (Circuit h b t) l.
Proof.
  induction l as [|s l IH]; intros h b t HF H; [exact H|]. destruct s as [x|x|c|x y z|x y z|x y]; cbn [on_part] in H; try (destruct H as [H|H]; [left; exact H|right; apply IH; assumption]).
  destruct (str_eqb (designator c) (upper ref)).
  - apply in_app_or in H. destruct H as [H|H]; [destruct (HF _ _ H) as [c' G]; discriminate G|right; exact H].
  - destruct H as [H|H]; [left; exact H|right; apply IH; assumption].
Qed.
Lemma defs_kept : forall e ref l, no_definition_named ref l -> no_definition_named ref (apply_edit e l).
Proof. intros e ref l H h b t Hi. apply H with (b := b) (t := t). unfold apply_edit in Hi. eapply on_part_circuits; [|exact Hi]. intros c s [<-|[]]. eexists. reflexivity. Qed.
Lemma defs_kept_all : forall es ref l, no_definition_named ref l -> no_definition_named ref (apply_edits es l).
Proof. induction es as [|e es IH]; intros ref l H; [exact H|]. apply (IH ref (apply_edit e l)). apply defs_kept. exact H. Qed.
Theorem edits_run : forall (Q : comp -> comp -> Prop) en es ed st, n_perm ed <> Deny -> view Q (n_items ed) st -> edits_ok es (map fst st) ->
  (forall e, In e es -> no_definition_named (edit_ref e) (map fst st)) ->
  (forall c, Q c c) -> (forall c0 c e, In e es -> Q c0 c -> Q c0 (edit_comp e c)) ->
  exists ed' st', do_edits en es ed = Some ed' /\ n_perm ed' = n_perm ed /\ view Q (n_items ed') st' /\ map fst st' = apply_edits es (map fst st).
Proof.
  intros Q en es. induction es as [|e es IH]; intros ed st HP HV HO HD Q0 QS.
  - exists ed, st. split; [reflexivity|]. split; [reflexivity|]. split; [exact HV|reflexivity].
  - destruct HO as [HO1 HO2]. destruct (edit_step Q en e ed st HP HV HO1 (HD e (or_introl eq_refl)) Q0) as (ed1 & st1 & E1 & P1 & V1 & M1).
    { intros c0 c. apply QS. left. reflexivity. }
    destruct (IH ed1 st1) as (ed2 & st2 & E2 & P2 & V2 & M2).
    + rewrite P1. exact HP.
    + exact V1.
    + rewrite M1. exact HO2.
    + intros e' He. rewrite M1. apply defs_kept. apply HD. right. exact He.
    + exact Q0.
    + intros c0 c e' He. apply QS. right. exact He.
    + exists ed2, st2. split; [cbn [do_edits]; rewrite E1; exact E2|]. split; [congruence|]. split; [exact V2|]. rewrite M2, M1. reflexivity.
Qed.
