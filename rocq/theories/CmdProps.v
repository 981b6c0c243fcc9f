(** Properties C32, C33, C34, C72, C73, C74: commands on a netlist (spicelib/editor/spice_subcircuit.py, spice_file.py). *)
From Coq Require Import String Ascii List Bool Arith Lia.
From Verif Require Import PyStr EngModel PTokModel PTokSpec Regex CompModel CompSpec CompProofs CompProps SepModel UpdatesModel NetModel NetSpec NetProofs NetProps EditModel EditSpec EditProofs EditProps CmdSpec CmdProofs.
Import ListNotations.
Local Open Scope string_scope.
Local Open Scope nat_scope.
Local Open Scope list_scope.

Lemma insert_before_in : forall {A} (p : A -> bool) x l y, In y (insert_before p x l) -> y = x \/ In y l.
Proof. induction l as [|z l IH]; intros y H; [destruct H|]. cbn [insert_before] in H. destruct (p z); [destruct H as [<-|H]; [left; reflexivity|right; exact H]|]. destruct H as [<-|H]; [right; left; reflexivity|]. destruct (IH y H) as [->|G]; [left; reflexivity|right; right; exact G]. Qed.
Lemma replace_first_in : forall {A} (p : A -> bool) x l y, In y (replace_first p x l) -> y = x \/ In y l.
Proof. induction l as [|z l IH]; intros y H; [destruct H|]. cbn [replace_first] in H. destruct (p z); [destruct H as [<-|H]; [left; reflexivity|right; right; exact H]|]. destruct H as [<-|H]; [right; left; reflexivity|]. destruct (IH y H) as [->|G]; [left; reflexivity|right; right; exact G]. Qed.
Lemma delete_first_in : forall {A} (p : A -> bool) l y, In y (delete_first p l) -> In y l.
Proof. induction l as [|z l IH]; intros y H; [destruct H|]. cbn [delete_first] in H. destruct (p z); [right; exact H|]. destruct H as [<-|H]; [left; reflexivity|right; apply IH; exact H]. Qed.
Lemma insert_from_end_in : forall {A} k (x : A) l y, In y (insert_from_end k x l) -> y = x \/ In y l.
Proof. intros A k x l y H. unfold insert_from_end in H. apply in_app_or in H. rewrite <- (firstn_skipn (length l - k) l). destruct H as [H|[<-|H]]; [right; apply in_or_app; left; exact H|left; reflexivity|right; apply in_or_app; right; exact H]. Qed.
Lemma circuits_kept : forall k l h b t, In (Circuit h b t) (run_cmd k l) -> In (Circuit h b t) l.
Proof.
  intros k l h b t H. destruct k as [e|c [r|r|]|r|x nl|x|pat]; cbn [run_cmd] in H.
  - unfold apply_edit in H. eapply on_part_circuits; [|exact H]. intros c s [<-|[]]. eexists. reflexivity.
  - eapply on_part_circuits; [|exact H]. intros c0 s [<-|[<-|[]]]; eexists; reflexivity.
  - eapply on_part_circuits; [|exact H]. intros c0 s [<-|[<-|[]]]; eexists; reflexivity.
  - apply insert_from_end_in in H. destruct H as [H|H]; [discriminate H|exact H].
  - eapply on_part_circuits; [|exact H]. intros c0 s [].
  - unfold add_line in H. destruct (is_sim x && existsb sim_stmt l); [apply replace_first_in in H; destruct H as [H|H]; [discriminate H|exact H]|]. destruct (existsb (says x) l); [exact H|].
    destruct (existsb backanno l); [apply insert_before_in in H|apply insert_from_end_in in H]; (destruct H as [H|H]; [discriminate H|exact H]).
  - eapply delete_first_in. exact H.
  - apply filter_In in H. apply H.
Qed.
Lemma defs_stay : forall ks ref l, no_definition_named ref l -> no_definition_named ref (run_cmds ks l).
Proof.
  induction ks as [|k ks IH]; intros ref l H; [exact H|]. apply (IH ref (run_cmd k l)). intros h b t Hi. apply (H h b t). eapply circuits_kept. exact Hi.
Qed.

(** Property C32: a netlist is loaded and any sequence of commands is made through the editor.  Then the components listed are exactly
    those of the statements, in order, with a requested prefix; every reference, in any letter case, reads back its statement; a
    reference that is missing is an error for every operation; and what is saved are the statements. *)
Theorem C32_history : forall en inc d ks items ed, doc_ok good_names d -> includes_found inc d ->
  load_lines inc false (doc_lines d) = Some items -> n_items ed = items -> n_perm ed <> Deny -> cmds_ok ks (statements d) ->
  let now := run_cmds ks (statements d) in
  exists ed', do_cmds en ks ed = Some ed' /\
    (forall prefixes, get_components prefixes (n_items ed') = Some (filter (fun x => match x with c :: _ => prefixes c | [] => false end) (designators now))) /\
    (forall ref, plain_name ref (statements d) ->
       match part_named ref now with
       | Some c => get_component_value en ref (n_items ed') = Some (c_val c) /\
                   get_component_nodes en ref (n_items ed') = Some (map snd (c_nodes c)) /\
                   get_component_parameters en ref (n_items ed') = Some (params_of (c_pars c))
       | None => get_component en ref (n_items ed') = None /\ remove_component en ref ed' = None /\
                 (forall c, add_component en (comp_text c) (Before ref) ed' = None /\ add_component en (comp_text c) (After ref) ed' = None) /\
                 (forall e, edit_ref e = ref -> do_edit en e ed' = None)
       end) /\
    exists out, write_items (n_items ed') = Some (concat (body_lines out)) /\ saved now out.
Proof.
  intros en inc d ks items ed HD HI HL HE HP HO now. rewrite (load_doc inc good_names d false HD HI) in HL. injection HL as <-.
  destruct (cmds_run (fun _ _ => True) en ks ed (map (fun s => (s, tidy_stmt s)) (statements d))) as (ed' & st' & E & P & V & M).
  { exact HP. } { rewrite HE. apply loaded_view. exact HD. } { rewrite map_fst_pair. exact HO. } { auto. } { auto. }
  rewrite map_fst_pair in M. fold now in M. exists ed'. split; [exact E|]. split; [|split].
  - intros pre. rewrite (components_shown _ pre _ _ V), M. reflexivity.
  - intros ref (HR & HDf). assert (no_definition_named ref (map fst st')) as HDf' by (rewrite M; apply defs_stay; exact HDf).
    destruct (part_named ref now) as [c|] eqn:F; rewrite <- M in F.
    + destruct (get_shown _ en ref _ _ c V HR HDf' F) as (it & G & A). unfold get_component_value, get_component_nodes, get_component_parameters. rewrite G, A. cbn [option_map attrs_of a_val a_ports a_par].
      split; [reflexivity|]. split; [reflexivity|]. rewrite params_of_entry. destruct (c_pars c); reflexivity.
    + assert (index_of en ref (n_items ed') = None) as IX.
      { destruct (plain_ref _ HR) as [R1 R2]. unfold index_of. rewrite R1, R2, (find_shown _ _ _ _ _ V HDf'), (part_at_none _ _ F). reflexivity. }
      split; [apply (get_missing _ en ref _ _ V HR HDf' F)|]. split; [|split].
      * unfold remove_component. rewrite IX. destruct (n_perm ed'); reflexivity.
      * intros c. unfold add_component. rewrite IX. destruct (n_perm ed'); destruct (parse_line (comp_text c)); split; reflexivity.
      * intros e <-. destruct (plain_ref _ HR) as [R1 R2]. destruct e as [r v|r k w|r k]; cbn [do_edit edit_ref] in *; unfold set_component_value, set_component_parameter, run_edit; rewrite R1, R2; destruct (n_perm ed'); try reflexivity;
          cbn [edit_path]; unfold op_value, op_param; rewrite (find_shown _ (e_name en) r _ _ V HDf'), (part_at_none _ _ F); reflexivity.
  - exists (concat (map snd st')). split; [apply (view_write _ _ _ V)|]. rewrite <- M. apply (view_saved _ _ _ V).
Qed.
Print Assumptions C32_history.

(** What the component commands do to the statements: a removed component is that one and no other, an added one stands where it was
    asked for, and every other reference denotes what it did. *)
Lemma part_named_app : forall ref a b, part_named ref (a ++ b) = match part_named ref a with Some c => Some c | None => part_named ref b end.
Proof. induction a as [|s a IH]; intros b; [reflexivity|]. destruct s as [l|l|c|h x t|h x t|l x]; cbn [app part_named]; try apply IH. destruct (str_eqb (designator c) (upper ref)); [reflexivity|apply IH]. Qed.
Lemma designators_app : forall a b, designators (a ++ b) = designators a ++ designators b.
Proof. intros a b. unfold designators. rewrite map_app, concat_app. reflexivity. Qed.
Lemma other_part : forall ref c, upper ref <> designator c -> str_eqb (designator c) (upper ref) = false.
Proof. intros ref c H. apply str_neq. congruence. Qed.
Theorem C32_remove_component : forall r c l, part_named r l = Some c ->
  exists a b, l = a ++ Part c :: b /\ designator c = upper r /\ part_named r a = None /\ run_cmd (RemovePart r) l = a ++ b /\
    (forall ref, upper ref <> upper r -> part_named ref (a ++ b) = part_named ref l) /\
    (NoDup (designators l) -> part_named r (a ++ b) = None).
Proof.
  intros r c l H. destruct (part_at_named _ _ _ H) as (a & b & -> & _ & EO & NA). exists a, b. split; [reflexivity|].
  assert (designator c = upper r) as HD. { rewrite part_named_app, NA in H. cbn [part_named] in H. destruct (str_eqb (designator c) (upper r)) eqn:E; [apply str_eqb_eq; exact E|].
    exfalso. assert (forall l, part_named r l = Some c -> str_eqb (designator c) (upper r) = true) as K; [|rewrite (K b H) in E; discriminate E]. clear. induction l as [|s l IH]; intros H; [discriminate|].
    destruct s as [x|x|k|h x t|h x t|x y]; cbn [part_named] in H; try (apply IH; exact H). destruct (str_eqb (designator k) (upper r)) eqn:E; [injection H as <-; exact E|apply IH; exact H]. }
  split; [exact HD|]. split; [exact NA|]. split; [cbn [run_cmd]; rewrite EO; reflexivity|]. split.
  - intros ref HR. rewrite !part_named_app. cbn [part_named]. rewrite other_part by congruence. reflexivity.
  - intros ND. rewrite part_named_app, NA. rewrite designators_app in ND. change (designators (Part c :: b)) with (designator c :: designators b) in ND. apply NoDup_remove_2 in ND.
    assert (~ In (designator c) (designators b)) as NB by (intros G; apply ND; apply in_or_app; right; exact G). rewrite HD in NB. clear - NB. induction b as [|s b IH]; [reflexivity|].
    destruct s as [x|x|k|h x t|h x t|x y]; cbn [part_named]; try (apply IH; exact NB). change (designators (Part k :: b)) with (designator k :: designators b) in NB.
    rewrite str_neq by (intros G; apply NB; left; exact G). apply IH. intros G. apply NB. right. exact G.
Qed.
Print Assumptions C32_remove_component.
Theorem C32_add_component : forall c p l, match p with BeforePart r | AfterPart r => part_named r l <> None | LastPart => True end ->
  exists a b, l = a ++ b /\ run_cmd (AddPart c p) l = a ++ Part c :: b /\
    match p with
    | BeforePart r => exists c0 b', b = Part c0 :: b' /\ part_named r l = Some c0 /\ part_named r a = None
    | AfterPart r => exists c0 a', a = a' ++ [Part c0] /\ part_named r l = Some c0 /\ part_named r a' = None
    | LastPart => length b = Nat.min 2 (length l)
    end /\
    (forall ref, upper ref <> designator c -> part_named ref (a ++ Part c :: b) = part_named ref l) /\
    (~ In (designator c) (designators l) -> forall ref, upper ref = designator c -> part_named ref (a ++ Part c :: b) = Some c).
Proof.
  intros c p l H.
  assert (forall a b, l = a ++ b -> (forall ref, upper ref <> designator c -> part_named ref (a ++ Part c :: b) = part_named ref l) /\
    (~ In (designator c) (designators l) -> forall ref, upper ref = designator c -> part_named ref (a ++ Part c :: b) = Some c)) as K.
  { intros a b ->. split.
    - intros ref HR. rewrite !part_named_app. cbn [part_named]. rewrite other_part by exact HR. reflexivity.
    - intros ND ref HR. rewrite part_named_app. assert (part_named ref a = None) as ->; [|cbn [part_named]; rewrite HR, (proj2 (str_eqb_eq _ _) eq_refl); reflexivity].
      rewrite designators_app in ND. assert (~ In (designator c) (designators a)) as NA by (intros G; apply ND; apply in_or_app; left; exact G). rewrite <- HR in NA. clear - NA. induction a as [|s a IH]; [reflexivity|].
      destruct s as [x|x|k|h x t|h x t|x y]; cbn [part_named]; try (apply IH; exact NA). change (designators (Part k :: a)) with (designator k :: designators a) in NA.
      rewrite str_neq by (intros G; apply NA; left; exact G). apply IH. intros G. apply NA. right. exact G. }
  destruct p as [r|r|].
  - destruct (part_named r l) as [c0|] eqn:F; [|contradiction H; reflexivity]. destruct (part_at_named _ _ _ F) as (a & b & EL & _ & EO & NA). exists a, (Part c0 :: b). split; [exact EL|].
    split; [cbn [run_cmd]; rewrite EO; reflexivity|]. split; [exists c0, b; auto|]. apply K. exact EL.
  - destruct (part_named r l) as [c0|] eqn:F; [|contradiction H; reflexivity]. destruct (part_at_named _ _ _ F) as (a & b & EL & _ & EO & NA). exists (a ++ [Part c0]), b.
    split; [rewrite EL, <- app_assoc; reflexivity|]. split; [cbn [run_cmd]; rewrite EO, <- app_assoc; reflexivity|]. split; [exists c0, a; auto|]. apply K. rewrite EL, <- app_assoc. reflexivity.
  - exists (firstn (length l - 2) l), (skipn (length l - 2) l). split; [symmetry; apply firstn_skipn|]. split; [reflexivity|]. split; [rewrite skipn_length; lia|]. apply K. symmetry. apply firstn_skipn.
Qed.
Print Assumptions C32_add_component.


Lemma filter_replace : forall {A} (p : A -> bool) x l, p x = true -> existsb p l = true -> length (filter p l) <= 1 ->
  filter p (replace_first p x l) = [x] /\ filter (fun y => negb (p y)) (replace_first p x l) = filter (fun y => negb (p y)) l /\
  exists a y b, l = a ++ y :: b /\ p y = true /\ replace_first p x l = a ++ x :: b.
Proof.
  induction l as [|y l IH]; intros HX HE HL; [discriminate|]. cbn [existsb replace_first filter] in *. destruct (p y) eqn:E.
  - cbn [length] in HL. cbn [filter]. rewrite HX. cbn [negb]. destruct (filter p l) eqn:F; [|cbn [length] in HL; lia]. split; [reflexivity|]. split; [reflexivity|]. exists [], y, l. auto.
  - cbn [orb] in HE. destruct (IH HX HE HL) as (A1 & A2 & a & z & b & -> & Z & R). cbn [filter]. rewrite E, A1. cbn [negb]. rewrite A2. split; [reflexivity|]. split; [reflexivity|]. exists (y :: a), z, b. rewrite R. auto.
Qed.
Lemma filter_none : forall {A} (p : A -> bool) l, existsb p l = false -> filter p l = [].
Proof. induction l as [|y l IH]; intros H; [reflexivity|]. cbn [existsb filter] in *. apply orb_false_iff in H. destruct H as [-> H]. apply IH. exact H. Qed.
Lemma insert_cut : forall {A} (p : A -> bool) x l, existsb p l = true -> exists a y b, l = a ++ y :: b /\ p y = true /\ existsb p a = false /\ insert_before p x l = a ++ x :: y :: b.
Proof.
  induction l as [|y l IH]; intros H; [discriminate|]. cbn [existsb insert_before] in *. destruct (p y) eqn:E; [exists [], y, l; auto|]. destruct (IH H) as (a & z & b & -> & Z & N & I). exists (y :: a), z, b.
  cbn [existsb app]. rewrite E, N, I. auto.
Qed.
Lemma says_self : forall l, says l (Directive l) = true.
Proof. intros l. unfold says. cbn [is_instruction stmt_text stmt_lines concat andb]. rewrite app_nil_r, strip_full. apply str_eqb_eq. reflexivity. Qed.

(** two statements with the same text but for outer blanks are both simulation commands or neither is *)
Definition only_blanks (l : str) : Prop := forall c, In c l -> is_space c = true -> c = " "%char \/ c = "009"%char \/ c = NL \/ c = CR.
Lemma strip_words : forall b u r, blanks b -> (forall c, In c u -> is_space c = false) -> u <> [] -> strip (b ++ u ++ r) = u ++ rstrip r.
Proof.
  intros b u r Hb Hu Hn. destruct u as [|c u]; [contradiction|]. assert (lstrip (b ++ (c :: u) ++ r) = (c :: u) ++ r) as E.
  { clear - Hb Hu. induction b as [|x b IH].
    - cbn [app]. change (lstrip (c :: u ++ r)) with (if is_space c then lstrip (u ++ r) else c :: u ++ r). rewrite (Hu c (or_introl eq_refl)). reflexivity.
    - cbn [app]. change (lstrip (x :: b ++ c :: u ++ r)) with (if is_space x then lstrip (b ++ c :: u ++ r) else x :: b ++ c :: u ++ r).
      assert (is_space x = true) as -> by (destruct (Hb x (or_introl eq_refl)) as [-> | ->]; reflexivity). apply IH. intros y Hy. apply Hb. right. exact Hy. }
  change (strip (b ++ (c :: u) ++ r)) with (rstrip (lstrip (b ++ (c :: u) ++ r))). rewrite E. destruct (exists_last (l := c :: u)) as (u' & x & Eu); [discriminate|]. rewrite Eu in *. rewrite <- !app_assoc. cbn [app].
  apply CompSelf.rstrip_cons. apply Hu. apply in_or_app. right. left. reflexivity.
Qed.
Lemma rstrip_word_end : forall r, match r with [] => True | c :: _ => ends_word c end -> match rstrip r with [] => True | c :: _ => ends_word c end.
Proof. intros r H. destruct (rstrip_prefix r) as (k & E). destruct (rstrip r) as [|c q]; [exact I|]. rewrite E in H. exact H. Qed.
Lemma words_equal : forall u q u' q', (forall c, In c u -> ~ ends_word c) -> (forall c, In c u' -> ~ ends_word c) -> match q with [] => True | c :: _ => ends_word c end ->
  match q' with [] => True | c :: _ => ends_word c end -> u ++ q = u' ++ q' -> u = u'.
Proof. intros u q u' q' H1 H2 H3 H4 E. rewrite <- (take_word_app u q H1 H3), <- (take_word_app u' q' H2 H4), E. reflexivity. Qed.
Lemma upper_space : forall c, is_space (upper_c c) = false -> is_space c = false.
Proof.
  intros c G. destruct (is_space c) eqn:E; [|reflexivity]. rewrite <- G. clear - E. symmetry. revert c E. apply (CompFam.imp_sweep is_space (fun c => is_space (upper_c c))). vm_cast_no_check (eq_refl true).
Qed.
Lemma sim_no_space : forall u, In (upper u) simulations -> forall c, In c u -> is_space c = false.
Proof.
  intros u H c Hc. assert (is_space (upper_c c) = false) as G.
  { assert (In (upper_c c) (upper u)) as I by (apply in_map; exact Hc). assert (forall w, In w simulations -> forall x, In x w -> is_space x = false) as K; [|exact (K _ H _ I)].
    intros w Hw x Hx. cbn in Hw. repeat (destruct Hw as [<-|Hw]; [cbn in Hx; repeat (destruct Hx as [<-|Hx]; [reflexivity|]); destruct Hx|]). destruct Hw. }
  apply upper_space. exact G.
Qed.
Lemma control_no_space : forall u, upper u = s2l ".CONTROL" -> forall c, In c u -> is_space c = false.
Proof.
  intros u H c Hc. assert (is_space (upper_c c) = false) as G.
  { assert (In (upper_c c) (upper u)) as I by (apply in_map; exact Hc). rewrite H in I. cbn in I. repeat (destruct I as [<-|I]; [reflexivity|]). destruct I. }
  apply upper_space. exact G.
Qed.
Lemma says_kind : forall l s, is_directive l -> is_sim l = true -> listed s -> (forall x, s = Directive x -> only_blanks x) -> says l s = true -> sim_stmt s = true.
Proof.
  intros l s (w & Hw & _) HS HL HB E. unfold is_sim in HS. rewrite (word1_first w l Hw) in HS. apply existsb_exists in HS. destruct HS as (w' & HI & HE). apply str_eqb_eq in HE. subst w'.
  destruct Hw as (b & u & r & -> & Hb & Hv & Hu & Hr & ->). pose proof (sim_no_space u HI) as NS. assert (u <> []) as Nu by (destruct Hv as (v & ->); discriminate).
  unfold says in E. rewrite (strip_words b u r Hb NS Nu) in E. pose proof (rstrip_word_end r Hr) as HR. destruct s as [x|x|c|h y t|h y t|x y]; try discriminate E; cbn [is_instruction andb stmt_text] in E; apply str_eqb_eq in E.
  - assert (exists w', first_word w' x) as (w' & Hw') by (destruct HL as [(w' & Hw' & _)|(l' & w' & Ex & Hw' & _)]; [exists w'; exact Hw'|injection Ex as <-; exists w'; exact Hw']).
    destruct Hw' as (b' & u' & r' & -> & Hb' & Hv' & Hu' & Hr' & ->). cbn [stmt_lines concat] in E. rewrite app_nil_r, strip_full in E.
    assert (forall c, In c u' -> is_space c = false) as NS'.
    { intros c Hc. destruct (is_space c) eqn:G; [|reflexivity]. exfalso. apply (Hu' c Hc). assert (In c (b' ++ u' ++ r')) as I by (apply in_or_app; right; apply in_or_app; left; exact Hc).
      destruct (HB _ eq_refl c I G) as [-> | [-> | [-> | ->]]]; unfold ends_word; auto. }
    rewrite (strip_words b' u' r' Hb' NS') in E by (destruct Hv' as (v' & ->); discriminate). symmetry in E. apply words_equal in E; [|exact Hu|exact Hu'|exact HR|apply rstrip_word_end; exact Hr']. subst u'.
    cbn [sim_stmt]. unfold is_sim. rewrite (word1_first (upper u)) by (exists b', u, r'; repeat (split; [assumption || reflexivity|]); reflexivity).
    apply existsb_exists. exists (upper u). split; [exact HI|]. apply str_eqb_eq. reflexivity.
  - exfalso. destruct HL as [(Hh & _)|(l' & w' & Ex & _)]; [|discriminate Ex]. apply control_word in Hh. destruct Hh as (b' & u' & r' & Eh & Hb' & Hv' & Hu' & Hr' & EU). cbn [map concat] in E. rewrite Eh in E. unfold full at 1 in E.
    rewrite <- !app_assoc in E. rewrite (strip_words b' u' _ Hb' (control_no_space u' (eq_sym EU))) in E by (destruct Hv' as (v' & ->); discriminate). symmetry in E.
    apply words_equal in E; [|exact Hu|exact Hu'|exact HR|apply rstrip_word_end; destruct r' as [|z r']; [right; right; left; reflexivity|exact Hr']].
    subst u'. rewrite <- EU in HI. cbn in HI. repeat (destruct HI as [HI|HI]; [discriminate HI|]). destruct HI.
  - exfalso. destruct HL as [((w' & Hw' & (k & ->)) & _)|(l' & w' & Ex & _)]; [|discriminate Ex]. destruct Hw' as (b' & u' & r' & -> & Hb' & Hv' & Hu' & Hr' & EU). cbn [stmt_lines concat] in E. rewrite app_nil_r, strip_full in E.
    destruct u' as [|c0 [|c1 u']]; [discriminate EU|discriminate EU|]. cbn [upper map app] in EU. injection EU as E0 E1 _.
    assert (b' ++ (c0 :: c1 :: u') ++ r' = b' ++ [c0; c1] ++ (u' ++ r')) as EQ by reflexivity. rewrite EQ in E. rewrite strip_words in E; [|exact Hb'| |discriminate].
    + destruct u as [|d0 [|d1 u]]; [contradiction Nu; reflexivity| |].
      * cbn in HI. repeat (destruct HI as [HI|HI]; [discriminate HI|]). destruct HI.
      * cbn [app] in E. injection E as <- <- _. cbn [upper map] in HI. rewrite <- E1 in HI. cbn in HI. repeat (destruct HI as [HI|HI]; [discriminate HI|]). destruct HI.
    + intros c [<-|[<-|[]]]; apply upper_space; [rewrite <- E0|rewrite <- E1]; reflexivity.
Qed.

(** Property C33: adding a simulation command after any history, to statements that hold at most one: there is exactly one afterwards,
    the added one, in the place of the old one or before the first ".backanno" or the last statement; nothing else changes. *)
Lemma run_app : forall ks k l, run_cmds (ks ++ [k]) l = run_cmd k (run_cmds ks l).
Proof. intros ks k l. unfold run_cmds. rewrite fold_left_app. reflexivity. Qed.
Lemma cmds_ok_app : forall ks k l, cmds_ok ks l -> cmd_ok k (run_cmds ks l) -> cmds_ok (ks ++ [k]) l.
Proof. induction ks as [|x ks IH]; intros k l H1 H2; [split; [exact H2|exact I]|]. destruct H1 as [A B]. split; [exact A|]. apply IH; [exact B|exact H2]. Qed.
Lemma filter_insert : forall {A} (p : A -> bool) x a b, p x = true -> existsb p (a ++ b) = false ->
  filter p (a ++ x :: b) = [x] /\ filter (fun y => negb (p y)) (a ++ x :: b) = filter (fun y => negb (p y)) (a ++ b).
Proof.
  intros A p x a b HX HN. rewrite existsb_app in HN. apply orb_false_iff in HN. destruct HN as [N1 N2]. rewrite !filter_app. cbn [filter]. rewrite HX, (filter_none _ _ N1), (filter_none _ _ N2). split; reflexivity.
Qed.
Lemma from_end_cut : forall {A} (x : A) l, l <> [] -> exists a y, l = a ++ [y] /\ insert_from_end 1 x l = a ++ [x; y].
Proof.
  intros A x l H. destruct (exists_last H) as (a & y & ->). exists a, y. split; [reflexivity|]. unfold insert_from_end. rewrite app_length. cbn [length]. replace (length a + 1 - 1) with (length a) by lia.
  rewrite firstn_app, firstn_all, skipn_app, skipn_all, Nat.sub_diag. cbn [firstn skipn]. rewrite app_nil_r. reflexivity.
Qed.
Definition added_at (l : str) (st after : list stmt) : Prop :=
  exists a y b, st = a ++ y :: b /\ after = a ++ Directive l :: y :: b /\ ((backanno y = true /\ existsb backanno a = false) \/ (b = [] /\ existsb backanno st = false)).
Lemma add_line_cases : forall l st, st <> [] ->
  if is_sim l && existsb sim_stmt st then add_line l st = replace_first sim_stmt (Directive l) st
  else if existsb (says l) st then add_line l st = st else added_at l st (add_line l st).
Proof.
  intros l st HN. unfold add_line. destruct (is_sim l && existsb sim_stmt st); [reflexivity|]. destruct (existsb (says l) st); [reflexivity|]. unfold added_at. destruct (existsb backanno st) eqn:B.
  - destruct (insert_cut _ (Directive l) _ B) as (a & y & b & -> & Y & N & ->). exists a, y, b. split; [reflexivity|]. split; [reflexivity|]. left. auto.
  - destruct (from_end_cut (Directive l) st HN) as (a & y & E & ->). exists a, y, []. split; [exact E|]. split; [reflexivity|]. right. auto.
Qed.
Theorem C33_one_simulation : forall en inc d ks l nl items ed, doc_ok good_names d -> includes_found inc d ->
  load_lines inc false (doc_lines d) = Some items -> n_items ed = items -> n_perm ed <> Deny -> cmds_ok ks (statements d) ->
  let now := run_cmds ks (statements d) in let after := run_cmds (ks ++ [AddLine l nl]) (statements d) in
  is_directive l -> is_sim l = true -> ~ In NL l -> now <> [] -> length (filter sim_stmt now) <= 1 -> (forall x, In (Directive x) now -> only_blanks x) ->
  exists ed', do_cmds en (ks ++ [AddLine l nl]) ed = Some ed' /\
    filter sim_stmt after = [Directive l] /\ filter (fun s => negb (sim_stmt s)) after = filter (fun s => negb (sim_stmt s)) now /\
    ((exists a s b, now = a ++ s :: b /\ sim_stmt s = true /\ after = a ++ Directive l :: b) \/ (filter sim_stmt now = [] /\ added_at l now after)) /\
    exists out, write_items (n_items ed') = Some (concat (body_lines out)) /\ saved after out.
Proof.
  intros en inc d ks l nl items ed HD HI HL HE HP HO now after Hd HS HN HNE HL1 HB. rewrite (load_doc inc good_names d false HD HI) in HL. injection HL as <-.
  assert (view (fun _ _ => True) (n_items ed) (map (fun s => (s, tidy_stmt s)) (statements d))) as V0 by (rewrite HE; apply loaded_view; exact HD).
  destruct (cmds_run (fun _ _ => True) en ks ed _ HP V0) as (ed1 & st1 & E1 & P1 & V1 & M1); [rewrite map_fst_pair; exact HO|auto|auto|].
  assert (word1 l <> s2l ".PARAM") as HW. { intros G. unfold is_sim in HS. rewrite G in HS. vm_compute in HS. discriminate HS. }
  destruct (cmds_run (fun _ _ => True) en (ks ++ [AddLine l nl]) ed _ HP V0) as (ed' & st' & E & P & V & M); [rewrite map_fst_pair; apply cmds_ok_app; [exact HO|split; [exact Hd|split; [exact HW|exact HN]]]|auto|auto|].
  rewrite map_fst_pair in M, M1. fold now in M1. fold after in M. exists ed'. split; [exact E|].
  assert (after = add_line l now) as EA by (unfold after; rewrite run_app; reflexivity).
  assert (existsb sim_stmt now = false -> existsb (says l) now = false) as HK.
  { intros HX. destruct (existsb (says l) now) eqn:G; [|reflexivity]. exfalso. apply existsb_exists in G. destruct G as (s & Hs & G).
    assert (sim_stmt s = true) as Z; [|assert (existsb sim_stmt now = true) as Z' by (apply existsb_exists; exists s; auto); congruence].
    destruct s as [x|x|c|h y t|h y t|x y]; try (unfold says in G; cbn in G; discriminate G); (eapply says_kind; [exact Hd|exact HS| | |exact G]; [|intros x' Ex; apply HB; rewrite <- Ex; exact Hs]);
      (rewrite <- M1 in Hs; apply in_map_iff in Hs; destruct Hs as ([s w] & Es & Hs); cbn [fst] in Es; subst s; destruct (Forall2_in_r _ _ _ _ V1 Hs) as (it & Hit); destruct (shown_plain _ _ _ _ Hit) as (_ & L & _); [discriminate|exact L]). }
  pose proof (add_line_cases l now HNE) as AC. rewrite HS in AC. cbn [andb] in AC. rewrite <- EA in AC. destruct (existsb sim_stmt now) eqn:X.
  - destruct (filter_replace sim_stmt (Directive l) now HS X HL1) as (F1 & F2 & a & s & b & N1 & N2 & N3). rewrite AC. split; [exact F1|]. split; [exact F2|]. split; [left; exists a, s, b; auto|].
    exists (concat (map snd st')). split; [apply (view_write _ _ _ V)|]. rewrite <- AC, <- M. apply (view_saved _ _ _ V).
  - rewrite (HK eq_refl) in AC. pose proof AC as (a & y & b & N1 & N2 & _). destruct (filter_insert sim_stmt (Directive l) a (y :: b) HS) as [F1 F2]; [rewrite <- N1; exact X|].
    rewrite <- N2 in F1, F2. rewrite <- N1 in F2. split; [exact F1|]. split; [exact F2|]. split; [right; split; [apply filter_none; exact X|exact AC]|].
    exists (concat (map snd st')). split; [apply (view_write _ _ _ V)|]. rewrite <- M. apply (view_saved _ _ _ V).
Qed.
Print Assumptions C33_one_simulation.
(** Adding an instruction a second time changes nothing. *)
Theorem C33_adding_twice : forall l nl nl' st, st <> [] -> run_cmd (AddLine l nl') (run_cmd (AddLine l nl) st) = run_cmd (AddLine l nl) st.
Proof.
  intros l nl nl' st HN. cbn [run_cmd]. pose proof (add_line_cases l st HN) as AC. destruct (is_sim l && existsb sim_stmt st) eqn:C.
  - apply andb_true_iff in C. destruct C as [C1 C2]. rewrite AC. unfold add_line. rewrite C1.
    assert (existsb sim_stmt (replace_first sim_stmt (Directive l) st) = true /\ replace_first sim_stmt (Directive l) (replace_first sim_stmt (Directive l) st) = replace_first sim_stmt (Directive l) st) as [-> E]; [|cbn [andb]; exact E].
    clear AC HN. induction st as [|s st IH]; [discriminate|]. cbn [existsb replace_first] in *. destruct (sim_stmt s) eqn:S.
    + cbn [existsb replace_first sim_stmt]. rewrite C1. split; reflexivity.
    + cbn [existsb replace_first]. rewrite S. destruct (IH C2) as [A B]. rewrite A, B. split; reflexivity.
  - destruct (existsb (says l) st) eqn:Y.
    + rewrite AC. unfold add_line. rewrite C, Y. reflexivity.
    + destruct AC as (a & y & b & E & -> & _). unfold add_line. destruct (is_sim l) eqn:SL.
      * cbn [andb] in C. rewrite E in C. rewrite existsb_app in C. apply orb_false_iff in C. destruct C as [C1 C2]. rewrite existsb_app. cbn [existsb sim_stmt]. rewrite SL, C1. cbn [orb andb].
        clear - C1 SL. induction a as [|s a IH]; cbn [app replace_first]; [cbn [sim_stmt]; rewrite SL; reflexivity|]. cbn [existsb] in C1. apply orb_false_iff in C1. destruct C1 as [-> C1]. rewrite (IH C1). reflexivity.
      * cbn [andb]. rewrite existsb_app. cbn [existsb]. rewrite says_self. rewrite orb_true_r. reflexivity.
Qed.
Print Assumptions C33_adding_twice.

(** Property C34: removing an instruction, after any history, removes the first statement with that text and reports whether there was
    one; a pattern that matches no component removes exactly the statements whose text it matches. *)
Theorem C34_remove_instruction : forall en inc d ks l items ed, doc_ok good_names d -> includes_found inc d ->
  load_lines inc false (doc_lines d) = Some items -> n_items ed = items -> n_perm ed <> Deny -> cmds_ok ks (statements d) -> is_directive l ->
  let now := run_cmds ks (statements d) in
  exists ed1 ed' r out, do_cmds en ks ed = Some ed1 /\ remove_instruction l ed1 = Some (r, ed') /\
    write_items (n_items ed') = Some (concat (body_lines out)) /\
    if r then exists a s b, now = a ++ s :: b /\ says l s = true /\ existsb (says l) a = false /\ saved (a ++ b) out
    else ed' = ed1 /\ existsb (says l) now = false /\ saved now out.
Proof.
  intros en inc d ks l items ed HD HI HL HE HP HO Hd now. rewrite (load_doc inc good_names d false HD HI) in HL. injection HL as <-.
  assert (view (fun _ _ => True) (n_items ed) (map (fun s => (s, tidy_stmt s)) (statements d))) as V0 by (rewrite HE; apply loaded_view; exact HD).
  destruct (cmds_run (fun _ _ => True) en ks ed _ HP V0) as (ed1 & st1 & E1 & P1 & V1 & M1); [rewrite map_fst_pair; exact HO|auto|auto|]. rewrite map_fst_pair in M1. fold now in M1.
  assert (n_perm ed1 <> Deny) as HP1 by congruence. destruct (remove_line_step _ en l ed1 st1 HP1 V1 Hd) as [(ed' & st' & E & _ & V & M) R]. cbn [do_cmd run_cmd] in E, M. rewrite M1 in M, R.
  destruct (remove_instruction l ed1) as [[r e']|] eqn:RI; [|discriminate E]. cbn [option_map snd fst] in E, R. injection E as ->. injection R as ->.
  exists ed1, ed', (existsb (says l) now), (concat (map snd st')). split; [exact E1|]. split; [exact RI|]. split; [apply (view_write _ _ _ V)|].
  destruct (existsb (says l) now) eqn:X.
  - destruct (insert_cut (says l) (Directive l) now X) as (a & s & b & EN & S & N & _). exists a, s, b. split; [exact EN|]. split; [exact S|]. split; [exact N|].
    assert (map fst st' = a ++ b) as <-; [|apply (view_saved _ _ _ V)]. rewrite M, EN. clear - S N. induction a as [|z a IH]; cbn [app delete_first]; [rewrite S; reflexivity|]. cbn [existsb] in N. apply orb_false_iff in N. destruct N as [-> N]. rewrite (IH N). reflexivity.
  - split.
    + unfold remove_instruction in RI. destruct (n_perm ed1); [contradiction HP1; reflexivity| |]; (destruct (find_first (same_text l) (n_items ed1)); [discriminate RI|injection RI as <-; reflexivity]).
    + split; [reflexivity|]. assert (map fst st' = now) as <-; [|apply (view_saved _ _ _ V)]. rewrite M. clear - X. induction now as [|s st IH]; [reflexivity|]. cbn [existsb delete_first] in *. apply orb_false_iff in X. destruct X as [-> X]. rewrite (IH X). reflexivity.
Qed.
Print Assumptions C34_remove_instruction.
Theorem C34_remove_matching : forall en inc d ks pat items ed, doc_ok good_names d -> includes_found inc d ->
  load_lines inc false (doc_lines d) = Some items -> n_items ed = items -> n_perm ed <> Deny -> cmds_ok ks (statements d) ->
  (forall c, part_ok good_names c -> pat (comp_text c) = false) ->
  let now := run_cmds ks (statements d) in
  exists ed1 ed' out, do_cmds en ks ed = Some ed1 /\ remove_matching pat ed1 = Some (existsb (matched pat) now, ed') /\
    write_items (n_items ed') = Some (concat (body_lines out)) /\ saved (filter (fun s => negb (matched pat s)) now) out.
Proof.
  intros en inc d ks pat items ed HD HI HL HE HP HO Hp now. rewrite (load_doc inc good_names d false HD HI) in HL. injection HL as <-.
  assert (view (fun _ _ => True) (n_items ed) (map (fun s => (s, tidy_stmt s)) (statements d))) as V0 by (rewrite HE; apply loaded_view; exact HD).
  destruct (cmds_run (fun _ _ => True) en ks ed _ HP V0) as (ed1 & st1 & E1 & P1 & V1 & M1); [rewrite map_fst_pair; exact HO|auto|auto|]. rewrite map_fst_pair in M1. fold now in M1.
  assert (n_perm ed1 <> Deny) as HP1 by congruence. destruct (remove_matching_step _ en pat ed1 st1 HP1 V1 Hp) as [(ed' & st' & E & _ & V & M) R]. cbn [do_cmd run_cmd] in E, M. rewrite M1 in M, R.
  destruct (remove_matching pat ed1) as [[r e']|] eqn:RI; [|discriminate E]. cbn [option_map snd fst] in E, R. injection E as ->. injection R as ->.
  exists ed1, ed', (concat (map snd st')). split; [exact E1|]. split; [exact RI|]. split; [apply (view_write _ _ _ V)|]. rewrite <- M. apply (view_saved _ _ _ V).
Qed.
Print Assumptions C34_remove_matching.
(** Adding an instruction that is not there, and is no simulation command replacing another, and removing it restores the statements. *)
Theorem C34_add_then_remove : forall l nl st, st <> [] -> existsb (says l) st = false -> (is_sim l = true -> existsb sim_stmt st = false) ->
  run_cmd (RemoveLine l) (run_cmd (AddLine l nl) st) = st.
Proof.
  intros l nl st HN HS HM. cbn [run_cmd]. pose proof (add_line_cases l st HN) as AC. assert (is_sim l && existsb sim_stmt st = false) as C by (destruct (is_sim l); [rewrite HM; reflexivity|reflexivity]).
  rewrite C, HS in AC. destruct AC as (a & y & b & E & -> & _). rewrite E in *. rewrite existsb_app in HS. apply orb_false_iff in HS. destruct HS as [HS _]. clear - HS.
  induction a as [|s a IH]; cbn [app delete_first]; [rewrite says_self; reflexivity|]. cbn [existsb] in HS. apply orb_false_iff in HS. destruct HS as [-> HS]. rewrite (IH HS). reflexivity.
Qed.
Print Assumptions C34_add_then_remove.

(** A case: a component is added after another, edited, simulation commands are added and replaced, and all is removed again. *)
Definition ex_new : comp := ex_rc "4k7" "2m".
Definition ex_named : comp := {| c_kind := "R"; c_name := s2l "new"; c_nodes := c_nodes ex_new; c_gap := c_gap ex_new; c_val := c_val ex_new; c_pars := c_pars ex_new; c_end := c_end ex_new; c_note := c_note ex_new |}.
Definition ex_cmds : list cmd :=
  [AddPart ex_named (AfterPart (s2l "rload1")); AddLine (s2l ".tran 1m") false; AddLine (s2l ".meas x") true; AddLine (s2l ".ac dec 10 1 1k") false; AddPart ex_new LastPart;
   RemovePart (s2l "RNEW"); RemoveLine (s2l "  .meas x"); RemoveMatching (startswith (s2l ".par"))].
Lemma ex_named_ok : part_ok good_names ex_named.
Proof.
  destruct (ex_rc_ok "4k7" "2m") as [((Q1 & Q2 & Q3 & Q4 & Q5 & Q6 & Q7 & Q8 & Q9 & Q10) & HN & HE) _].
  { left. split; [discriminate|]. split; [intros c Hc; cbn in Hc; repeat (destruct Hc as [<-|Hc]; [repeat split; discriminate || reflexivity|]); destruct Hc|].
    intros G; vm_compute in G; repeat (destruct G as [G|G]; [discriminate G|]); destruct G. }
  { reflexivity. } { right; reflexivity. }
  split; [|split; [exact HN|exact HE]]. split; [discriminate|]. split; [apply forallb_forall; reflexivity|]. split; [exact Q3|]. split; [exact Q4|]. split; [exact Q5|]. split; [exact Q6|]. split; [exact Q7|]. split; [exact Q8|]. split.
  - intros a Ha. assert (forallb (fun a => negb (aeqb a NL) && negb (aeqb a CR)) (comp_body ex_named) = true) as Hb by (vm_compute; reflexivity).
    rewrite forallb_forall in Hb. specialize (Hb a Ha). rewrite andb_true_iff, !negb_true_iff, !aeqb_neq in Hb. exact Hb.
  - exact Q10.
Qed.
Lemma ex_directive : forall s u r, s2l s = s2l u ++ s2l r -> (exists v, s2l u = "."%char :: v) -> forallb (fun c => negb (mem_c c [" "%char; "009"%char; NL; CR])) (s2l u) = true -> match s2l r with [] => True | c :: _ => c = " "%char end ->
  upper (s2l u) <> s2l ".SUBCKT" -> upper (s2l u) <> s2l ".CONTROL" -> ~ begins (s2l ".INC") (upper (s2l u)) -> ~ begins (s2l ".END") (upper (s2l u)) -> is_directive (s2l s).
Proof. intros s u r E U W R A B C D. exists (upper (s2l u)). split; [apply (ex_word _ [] (s2l u) (s2l r)); try assumption; reflexivity|auto]. Qed.
Lemma ex_no_def : forall ref, upper ref = s2l "RLOAD1" \/ upper ref = s2l "RNEW" -> forall st, (forall h b t, In (Circuit h b t) st -> h = s2l ".SUBCKT outer a b") -> no_definition_named ref st.
Proof.
  intros ref HR st H h b t Hi. rewrite (H h b t Hi). exists (s2l "outer"). split; [|destruct HR as [-> | ->]; discriminate].
  exists (s2l "SUBCKT"), (s2l " "), (s2l " a b"); repeat (split; [reflexivity || discriminate|]); reflexivity.
Qed.
Example C32_nonvacuous :
  cmds_ok ex_cmds (statements ex_doc) /\ plain_name (s2l "rload1") (statements ex_doc) /\
  map l2s (designators (run_cmds (firstn 5 ex_cmds) (statements ex_doc))) = ["RLOAD1"; "RNEW"; "RLOAD1"] /\
  map (fun s => l2s (stmt_text s)) (filter (fun s => negb (existsb (fun x => str_eqb (stmt_text s) (stmt_text x)) (statements ex_doc))) (run_cmds (firstn 5 ex_cmds) (statements ex_doc))) =
    map (fun s => String.append s (String NL EmptyString)) ["Rnew in out+ 4k7 tc=2m pwr=0.5 ; the load"; ".ac dec 10 1 1k"; "Rload1 in out+ 4k7 tc=2m pwr=0.5 ; the load"; ".meas x"].
Proof.
  assert (forall h b t, In (Circuit h b t) (statements ex_doc) -> h = s2l ".SUBCKT outer a b") as HC.
  { intros h b t Hi. cbn in Hi. repeat (destruct Hi as [Hi|Hi]; [first [discriminate Hi | injection Hi as <- <- <-; reflexivity]|]). destruct Hi. }
  assert (forall ks h b t, In (Circuit h b t) (run_cmds ks (statements ex_doc)) -> h = s2l ".SUBCKT outer a b") as HC'.
  { intros ks h b t Hi. apply (HC h b t). revert Hi. generalize (statements ex_doc). induction ks as [|k ks IH]; intros l Hi; [exact Hi|]. apply (circuits_kept k). apply IH. exact Hi. }
  assert (part_ok good_names ex_new) as HN by (destruct (ex_rc_ok "4k7" "2m") as [O _]; [left; split; [discriminate|]; split; [intros c Hc; cbn in Hc; repeat (destruct Hc as [<-|Hc]; [repeat split; discriminate || reflexivity|]); destruct Hc|]; intros G; vm_compute in G; repeat (destruct G as [G|G]; [discriminate G|]); destruct G|reflexivity|right; reflexivity|exact O]).
  assert (forall s, In NL (s2l s) -> existsb (aeqb NL) (s2l s) = true) as HNL by (intros s H; apply existsb_exists; exists NL; split; [exact H|apply aeqb_eq; reflexivity]).
  split; [|split; [|split; vm_compute; reflexivity]].
  2: split; [intros G; vm_compute in G; repeat (destruct G as [G|G]; [discriminate G|]); destruct G|apply ex_no_def; [left; reflexivity|exact HC]].
  unfold ex_cmds. split; [|split; [|split; [|split; [|split; [|split; [|split; [|split; [|exact I]]]]]]]].
  - split; [exact ex_named_ok|]. split; [|vm_compute; discriminate]. split; [intros G; vm_compute in G; repeat (destruct G as [G|G]; [discriminate G|]); destruct G|apply ex_no_def; [left; reflexivity|exact HC]].
  - split; [apply (ex_directive ".tran 1m" ".tran" " 1m"); try reflexivity; try discriminate; [eexists; reflexivity| |]; intros [r G]; discriminate G|]. split; [vm_compute; discriminate|intros G; apply HNL in G; vm_compute in G; discriminate G].
  - split; [apply (ex_directive ".meas x" ".meas" " x"); try reflexivity; try discriminate; [eexists; reflexivity| |]; intros [r G]; discriminate G|]. split; [vm_compute; discriminate|intros G; apply HNL in G; vm_compute in G; discriminate G].
  - split; [apply (ex_directive ".ac dec 10 1 1k" ".ac" " dec 10 1 1k"); try reflexivity; try discriminate; [eexists; reflexivity| |]; intros [r G]; discriminate G|]. split; [vm_compute; discriminate|intros G; apply HNL in G; vm_compute in G; discriminate G].
  - split; [exact HN|exact I].
  - split; [|vm_compute; discriminate]. split; [intros G; vm_compute in G; repeat (destruct G as [G|G]; [discriminate G|]); destruct G|]. apply ex_no_def; [right; reflexivity|]. apply (HC' (firstn 5 ex_cmds)).
  - exists (s2l ".MEAS"). split; [eapply (ex_word _ (s2l "  ") (s2l ".meas") (s2l " x")); try reflexivity; eexists; reflexivity|]. split; [discriminate|]. split; [discriminate|]. split; intros [r G]; discriminate G.
  - intros c Hc. destruct (part_head c Hc) as (r & -> & V). destruct (valid_head _ V) as (_ & D & _). apply begins_false. intros (k & G). injection G as G _. apply D. exact G.
Qed.
Example C33_nonvacuous : let now := run_cmds (firstn 3 ex_cmds) (statements ex_doc) in let l := s2l ".ac dec 10 1 1k" in
  is_directive l /\ is_sim l = true /\ length (filter sim_stmt now) = 1 /\ (forall x, In (Directive x) now -> only_blanks x) /\
  run_cmds (firstn 3 ex_cmds ++ [AddLine l false]) (statements ex_doc) <> now /\ existsb (says (s2l ".meas y")) now = false.
Proof.
  cbv zeta. split; [apply (ex_directive ".ac dec 10 1 1k" ".ac" " dec 10 1 1k"); try reflexivity; try discriminate; [eexists; reflexivity| |]; intros [r G]; discriminate G|].
  split; [reflexivity|]. split; [vm_compute; reflexivity|]. split; [|split; [vm_compute; discriminate|vm_compute; reflexivity]].
  intros x Hx c Hc S. vm_compute in Hx. repeat (destruct Hx as [Hx|Hx]; [first [discriminate Hx | injection Hx as <-; vm_compute in Hc; repeat (destruct Hc as [<-|Hc]; [first [left; reflexivity | discriminate S]|]); destruct Hc]|]). destruct Hx.
Qed.

(** Property C72: components and instructions are added before the end of the netlist.  With comments after .END they are not; and the
    component added to a netlist of two lines stands before its title line. *)
Definition ex_env : env := {| e_name := s2l "x.net"; e_inc := fun _ => None; e_lib := fun _ => None |}.
Definition edit_text (lines : list string) (f : editor -> option editor) : option string :=
  match load_lines (fun _ => None) false (map (fun s => full (s2l s)) lines) with
  | Some items => match f {| n_items := items; n_log := []; n_perm := Inform |} with Some ed => option_map l2s (write_items (n_items ed)) | None => None end
  | None => None
  end.
Definition lines_text (l : list string) : string := l2s (concat (map (fun s => full (s2l s)) l)).
Theorem C72_added_after_the_end_refuted :
  edit_text ["* title"; "R1 a b 1k"; ".end"; "* bye"] (add_instruction ex_env (s2l ".tran 1m")) = Some (lines_text ["* title"; "R1 a b 1k"; ".end"; ".tran 1m"; "* bye"]) /\
  edit_text ["* title"; "R1 a b 1k"; ".end"; "* one"; "* two"] (add_component ex_env (full (s2l "R2 a b 1k")) AtEnd) = Some (lines_text ["* title"; "R1 a b 1k"; ".end"; "R2 a b 1k"; "* one"; "* two"]) /\
  edit_text ["* title"; ".end"] (add_component ex_env (full (s2l "R2 a b 1k")) AtEnd) = Some (lines_text ["R2 a b 1k"; "* title"; ".end"]).
Proof. repeat split; vm_compute; reflexivity. Qed.
Print Assumptions C72_added_after_the_end_refuted.
(** Property C73: instructions are matched by what the netlist says.  An edited component is matched by its text in the file, not by its
    present one; comments that match a pattern are removed too. *)
Definition then_ (f g : editor -> option editor) (ed : editor) : option editor := match f ed with Some ed' => g ed' | None => None end.
Theorem C73_matched_by_old_text_refuted :
  let edit := set_component_value ex_env (s2l "R1") (s2l "1k") in
  edit_text ["* title"; "R1 a b 10k"; ".end"] (then_ edit (fun ed => option_map snd (remove_instruction (s2l "R1 a b 1k") ed))) = Some (lines_text ["* title"; "R1 a b 1k"; ".end"]) /\
  edit_text ["* title"; "R1 a b 10k"; ".end"] (then_ edit (fun ed => option_map snd (remove_instruction (s2l "R1 a b 10k") ed))) = Some (lines_text ["* title"; ".end"]) /\
  edit_text ["* title"; "R1 a b 10k"; ".end"] (then_ edit (add_instruction ex_env (s2l "R1 a b 10k"))) = Some (lines_text ["* title"; "R1 a b 1k"; ".end"]).
Proof. repeat split; vm_compute; reflexivity. Qed.
Print Assumptions C73_matched_by_old_text_refuted.

(** Property C74: "If the component already exists, it will be replaced by the new one" (its documentation).  It is not: for every
    statements that hold a component of that name, there are two afterwards. *)
Theorem C74_not_replaced_refuted : forall c c' p l, match p with BeforePart r | AfterPart r => part_named r l <> None | LastPart => True end ->
  part_named (designator c) l = Some c' -> length (filter (str_eqb (designator c)) (designators (run_cmd (AddPart c p) l))) >= 2.
Proof.
  intros c c' p l HP HF. destruct (C32_add_component c p l HP) as (a & b & E & -> & _). rewrite designators_app. change (designators (Part c :: b)) with (designator c :: designators b). rewrite filter_app, app_length. cbn [filter].
  rewrite (proj2 (str_eqb_eq _ _) eq_refl). cbn [length]. assert (1 <= length (filter (str_eqb (designator c)) (designators l))) as G.
  { destruct (part_at_named _ _ _ HF) as (x & y & -> & _). destruct (C32_remove_component _ _ _ HF) as (_ & _ & _ & HD & _). rewrite designators_app. change (designators (Part c' :: y)) with (designator c' :: designators y).
    rewrite filter_app, app_length. cbn [filter]. unfold designator at 4. assert (str_eqb (designator c) (designator c') = true) as ->; [|cbn [length]; lia].
    apply str_eqb_eq. rewrite HD. unfold designator. rewrite upper_idem. reflexivity. }
  rewrite E, designators_app, filter_app, app_length in G. lia.
Qed.
Print Assumptions C74_not_replaced_refuted.

(** Property C37: when the permission is Deny every edit of a netlist raises an error (None), whatever its arguments; the entries and the
    record of updates are then those of before. *)
Theorem C37_denied : forall en ed, n_perm ed = Deny ->
  (forall k, do_cmd en k ed = None) /\
  (forall r v, set_component_value en r v ed = None) /\ (forall r k v, set_component_parameter en r k v ed = None) /\ (forall r m, set_element_model en r m ed = None) /\
  (forall i, add_instruction en i ed = None) /\ (forall i, remove_instruction i ed = None) /\ (forall p, remove_matching p ed = None) /\
  (forall i, add_control_section en i ed = None) /\ (forall i, remove_control_section i ed = None) /\
  (forall line p, add_component en line p ed = None) /\ (forall r, remove_component en r ed = None).
Proof.
  intros en ed H. assert (forall r v, set_component_value en r v ed = None) as A1 by (intros r v; unfold set_component_value, run_edit; rewrite H; reflexivity).
  assert (forall r k v, set_component_parameter en r k v ed = None) as A2 by (intros r k v; unfold set_component_parameter, run_edit; rewrite H; reflexivity).
  assert (forall i, add_instruction en i ed = None) as A3 by (intros i; unfold add_instruction; rewrite H; reflexivity).
  assert (forall i, remove_instruction i ed = None) as A4 by (intros i; unfold remove_instruction; rewrite H; reflexivity).
  assert (forall p, remove_matching p ed = None) as A5 by (intros p; unfold remove_matching; rewrite H; reflexivity).
  assert (forall line p, add_component en line p ed = None) as A6 by (intros line p; unfold add_component; rewrite H; reflexivity).
  assert (forall r, remove_component en r ed = None) as A7 by (intros r; unfold remove_component; rewrite H; reflexivity).
  split; [|split; [exact A1|split; [exact A2|split; [|split; [exact A3|split; [exact A4|split; [exact A5|split; [|split; [|split; [exact A6|exact A7]]]]]]]]]].
  - intros [e|c p|r|l nl|l|pat]; cbn [do_cmd]; [destruct e; [apply A1|apply A2|apply A2]|apply A6|apply A7|apply A3|rewrite A4; reflexivity|rewrite A5; reflexivity].
  - intros r m. unfold set_element_model. rewrite A1. reflexivity.
  - intros i. unfold add_control_section. rewrite A3. destruct (_ && _); reflexivity.
  - intros i. unfold remove_control_section. rewrite H. reflexivity.
Qed.
Print Assumptions C37_denied.
(** The same commands go through on the same netlist when they are allowed. *)
Example C37_nonvacuous : let run pm f := match load_lines (fun _ => None) false (map (fun s => full (s2l s)) ["* title"; "R1 a b 10k"; ".end"]) with
    Some items => f {| n_items := items; n_log := []; n_perm := pm |} | None => None end in
  run Inform (set_component_value ex_env (s2l "r1") (s2l "1k")) <> None /\ run Deny (set_component_value ex_env (s2l "r1") (s2l "1k")) = None /\
  run Inform (add_instruction ex_env (s2l ".op")) <> None /\ run Deny (add_instruction ex_env (s2l ".op")) = None.
Proof. cbv zeta. repeat split; vm_compute; try reflexivity; discriminate. Qed.

(** Property C75: no denied edit changes the netlist.  Adding an instruction to a sub-circuit does, whatever the permission. *)
Theorem C75_subcircuit_instruction_refuted : forall en pm l t,
  sub_add_instruction en pm (s2l ".model x d") (l ++ [IPrim t]) = Some (if find_first (same_text (s2l ".model x d")) (l ++ [IPrim t]) then l ++ [IPrim t] else l ++ [IPrim (full (s2l ".model x d")); IPrim t]).
Proof.
  intros en pm l t. unfold sub_add_instruction. change (line_command (s2l ".model x d")) with (Some (s2l ".MODEL")). change (is_unique (s2l ".MODEL")) with (Some false). change (str_eqb (s2l ".MODEL") (s2l ".PARAM")) with false. cbv iota zeta.
  destruct (find_first (same_text (s2l ".model x d")) (l ++ [IPrim t])); [reflexivity|]. rewrite app_length. cbn [length]. replace (length l + 1 - 1) with (length l) by lia. rewrite insert_mid. reflexivity.
Qed.
Print Assumptions C75_subcircuit_instruction_refuted.
