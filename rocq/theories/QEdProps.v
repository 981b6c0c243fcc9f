(** Editing QSPICE schematics: C47, C48, C49, C94-C100. *)
From Coq Require Import String Ascii List Bool Arith ZArith Lia.
From Verif Require Import PyStr EngModel StepsModel Regex CompSpec UpdatesModel ParModel ParSpec QTagModel QTagSpec QTagProofs QEdModel QEdSpec QEdProofs QEdProofs2 QEdProofs3 QParSpec QParProofs QEdProofs4.
Import ListNotations.
Local Open Scope string_scope. Local Open Scope nat_scope. Local Open Scope list_scope.

(** C47: whatever is edited after opening a file (component values, parameters, instructions added or removed), what save_as leaves in
    that file, or writes to another one, opens as a schematic that gives the same answers as the editor. *)
Theorem C47_saved : forall path old ed0 es ed target before, open_file path old = Some ed0 -> sound ed0 -> writable ed0 -> edits_ok es ed0 -> apply_all es ed0 = Some ed ->
  (target = path -> before = old) ->
  exists ed2, open_file target (stored target before (snd (save_as target ed))) = Some ed2 /\ same_answers ed ed2.
Proof.
  intros path old ed0 es ed target before HO HS HW HE HA HT. destruct (apply_all_kept _ _ _ HS HW HE HA) as ((K1 & K2 & K3 & K4) & K5).
  unfold open_file in HO. destruct (read_file old) as [t|] eqn:ER; [|discriminate]. unfold load in HO. destruct (load_comps 0 (kids t) []) as [d|]; [|discriminate]. injection HO as HO.
  destruct (save_reload target before ed K1 K2) as (ed2 & A & B & _); [|exists ed2; auto].
  destruct K5 as [K5|K5]; [left; exact K5|]. assert (q_path ed0 = path) as EP by (rewrite <- HO; reflexivity). rewrite K4. destruct (list_eq_dec ascii_dec path target) as [ET|ET]; [right; right|right; left; congruence].
  rewrite (HT (eq_sym ET)), ER, K5, <- HO. f_equal. destruct t as [ts ks]. unfold tree. cbn [q_head q_store q_items toks kids]. f_equal. symmetry. apply map_nth_seq.
Qed.
(** ... among the answers: a value that was set is the value of that component, and the other components keep theirs; an instruction that was
    added is in the netlist. *)
Theorem C47_value : forall ref v ed ed', sound ed -> writable ed -> good_text v -> startswith (s2l "0x") v = false -> set_component_value ref v ed = Some ed' ->
  get_component_value ref ed' = Some v /\ (forall r, r <> ref -> get_component_value r ed' = get_component_value r ed) /\ get_components ed' = get_components ed.
Proof. intros ref v ed ed' A B C D E. destruct (set_value_kept ref v ed ed' A B C D E) as (_ & _ & H). exact H. Qed.
Theorem C47_instruction : forall s ed ed' d, good_text (strip s) -> (forall c r, strip s = c :: r -> ~ In c QUAL) -> ~ In "\"%char (strip s) ->
  add_instruction s ed = Some ed' -> netlist_directives ed' = Some d -> In (strip s) d.
Proof. intros s ed ed' d A B C D E. eapply added_in_netlist; try eassumption. intros c r K. destruct (mem_c c QUAL) eqn:M; [|reflexivity]. apply mem_c_In in M. exfalso. exact (B c r K M). Qed.
Print Assumptions C47_saved.
Print Assumptions C47_value.
Print Assumptions C47_instruction.

(** A schematic with a resistor, two .PARAM directives, one of them a comment, and a simulation command. *)
Definition qt (s : str) : str := DQ :: s ++ [DQ].
Definition text_tag (comment : str) (s : str) : tag := Tag [s2l "text"; s2l "(0,0)"; s2l "1"; s2l "0"; comment; s2l "0x1000000"; s2l "-1"; s2l "-1"; qt s] [].
Definition comp_text (s : str) : tag := Tag [s2l "text"; s2l "(0,0)"; s2l "1"; s2l "7"; s2l "0"; s2l "0x1000000"; s2l "-1"; s2l "-1"; qt s] [].
Definition comp_tag (r v : str) : tag := Tag [s2l "component"; s2l "(100,200)"; s2l "0"; s2l "0"] [Tag [s2l "symbol"; s2l "R"] [comp_text r; comp_text v]].
Definition ex_items : list tag :=
  [comp_tag (s2l "R1") (s2l "1k"); text_tag (s2l "1") (s2l ".param a=0"); comp_tag (s2l "R2") (s2l "2k");
   text_tag (s2l "0") (QUAL ++ s2l ".param a=1 b={a+1}"); text_tag (s2l "0") (QUAL ++ s2l ".tran 1m")].
Definition ex_schematic (items : list tag) : tag := Tag [s2l "schematic"] items.
Definition PATH : str := s2l "c.qsch".
Definition editor_of (items : list tag) : qed :=
  Q [s2l "schematic"] (fun i => nth i items (Tag [] [])) (seq 0 (length items)) (length items)
    (match load PATH (ex_schematic items) with Some e => q_comps e | None => [] end) [] false PATH Inform.
Definition ex_ed : qed := editor_of ex_items.
Definition ex_edits : list edit := [SetValue (s2l "R2") (s2l "4.7k"); SetParam (s2l "A") (s2l "3"); SetParam (s2l "c") (s2l "5"); AddInstr (s2l ".AC dec 10 1 1Meg"); RemInstr (s2l "none")].

Lemma colon_free : forall s, at_colon s = None -> no_colon s.
Proof.
  intros s H a b E. subst s. revert H. induction a as [|c a IH]; [discriminate|]. cbn [app at_colon]. intros H. destruct (aeqb c COLON && _); [discriminate|]. destruct (at_colon (a ++ _)) as [[? ?]|]; [discriminate|]. apply IH. reflexivity.
Qed.
Definition word_b (s : str) : bool := negb (str_eqb s []) && forallb (fun c => negb (is_space c) && negb (aeqb c DQ) && negb (aeqb c LT) && negb (aeqb c GT)) s.
Definition no_cr_b (s : str) : bool := negb (existsb (aeqb CR) s).
Definition quoted_b (s : str) : bool := match s with c :: r => aeqb c DQ && match rev r with d :: q => aeqb d DQ && negb (existsb (aeqb DQ) q) | [] => false end | [] => false end.
Lemma quoted_b_ok : forall s, quoted_b s = true -> token s.
Proof.
  intros [|c r] H; [discriminate|]. cbn in H. apply andb_true_iff in H. destruct H as (A & B). apply aeqb_eq in A. subst c. destruct (rev r) as [|d q] eqn:E; [discriminate|]. apply andb_true_iff in B. destruct B as (B & C). apply aeqb_eq in B. subst d.
  right. exists (rev q). split; [rewrite <- (rev_involutive r), E; reflexivity|]. intros K. apply in_rev in K. apply negb_true_iff in C. rewrite <- not_true_iff_false in C. apply C. apply existsb_exists. exists DQ. split; [exact K|apply aeqb_refl].
Qed.
Definition leaf_b (t : tag) : bool := match kids t with [] => forallb (fun s => (word_b s || quoted_b s) && (match at_colon s with None => true | _ => false end) && negb (aeqb (last s BLANK) COLON) && no_cr_b s) (toks t) | _ => false end.
Lemma leaf_b_ok : forall t, leaf_b t = true -> proper t /\ ~ in_tag CR t.
Proof.
  intros [ts its] H. unfold leaf_b in H. cbn [kids toks] in H. destruct its; [|discriminate]. rewrite forallb_forall in H.
  assert (K : forall s, In s ts -> token s /\ no_colon s /\ last s BLANK <> COLON /\ ~ In CR s).
  { intros s Hs. specialize (H s Hs). apply andb_true_iff in H. destruct H as (H & D). apply andb_true_iff in H. destruct H as (H & C). apply andb_true_iff in H. destruct H as (A & B). split; [|split; [|split]].
    - apply orb_true_iff in A. destruct A as [A|A]; [|apply quoted_b_ok; exact A]. unfold word_b in A. apply andb_true_iff in A. destruct A as (A1 & A2). left. apply word_ok; [|exact A2]. intros ->. discriminate.
    - apply colon_free. destruct (at_colon s); [discriminate|reflexivity].
    - apply negb_true_iff in C. apply aeqb_neq in C. exact C.
    - intros I. unfold no_cr_b in D. apply negb_true_iff in D. rewrite <- not_true_iff_false in D. apply D. apply existsb_exists. exists CR. split; [exact I|apply aeqb_refl]. }
  split.
  - apply P_leaf; [apply Forall_forall; intros s Hs; apply K; exact Hs|apply Forall_forall; intros s Hs; apply K; exact Hs|]. intros a x b ->. exfalso. destruct (K (x ++ [COLON])) as (_ & _ & L & _); [apply in_or_app; right; left; reflexivity|]. rewrite last_last in L. congruence.
  - intros I. inversion I as [ts0 i0 s A B|ts0 i0 k A B]; subst; [destruct (K s A) as (_ & _ & _ & N); exact (N B)|destruct A].
Qed.
Definition node_b (t : tag) : bool := forallb (fun s => (word_b s || quoted_b s) && no_cr_b s) (toks t) && negb (match kids t with [] => true | _ => false end).
Lemma node_b_ok : forall t, node_b t = true -> Forall (fun k => proper k /\ ~ in_tag CR k) (kids t) -> proper t /\ ~ in_tag CR t.
Proof.
  intros [ts its] H HK. unfold node_b in H. cbn [kids toks] in *. apply andb_true_iff in H. destruct H as (H & NE). rewrite forallb_forall in H.
  assert (K : forall s, In s ts -> token s /\ ~ In CR s).
  { intros s Hs. specialize (H s Hs). apply andb_true_iff in H. destruct H as (A & D). split.
    - apply orb_true_iff in A. destruct A as [A|A]; [|apply quoted_b_ok; exact A]. unfold word_b in A. apply andb_true_iff in A. destruct A as (A1 & A2). left. apply word_ok; [|exact A2]. intros ->. discriminate.
    - intros I. unfold no_cr_b in D. apply negb_true_iff in D. rewrite <- not_true_iff_false in D. apply D. apply existsb_exists. exists CR. split; [exact I|apply aeqb_refl]. }
  rewrite Forall_forall in HK. split.
  - apply P_node; [destruct its; [discriminate|discriminate]|apply Forall_forall; intros s Hs; apply K; exact Hs|apply Forall_forall; intros k Hk; apply HK; exact Hk].
  - intros I. inversion I as [ts0 i0 s A B|ts0 i0 k A B]; subst; [apply (K s A); exact B|apply (HK k A); exact B].
Qed.
Lemma ex_writable : writable ex_ed.
Proof.
  split; [reflexivity|]. cbn [ex_ed editor_of q_items q_store]. change (seq 0 (length ex_items)) with [0; 1; 2; 3; 4].
  assert (CT : forall r v, leaf_b (comp_text r) = true -> leaf_b (comp_text v) = true -> proper (comp_tag r v) /\ ~ in_tag CR (comp_tag r v)).
  { intros r v A B. apply node_b_ok; [reflexivity|]. constructor; [|constructor]. apply node_b_ok; [reflexivity|]. constructor; [apply leaf_b_ok; exact A|]. constructor; [apply leaf_b_ok; exact B|constructor]. }
  constructor; [apply CT; vm_compute; reflexivity|]. constructor; [apply leaf_b_ok; vm_compute; reflexivity|]. constructor; [apply CT; vm_compute; reflexivity|]. constructor; [apply leaf_b_ok; vm_compute; reflexivity|]. constructor; [apply leaf_b_ok; vm_compute; reflexivity|constructor].
Qed.
Lemma ex_sound : sound ex_ed.
Proof.
  split; [vm_compute; reflexivity|]. split; [|split].
  - vm_compute. repeat constructor; intros K; repeat (destruct K as [K|K]; [discriminate K|]); exact K.
  - vm_compute. repeat constructor; intros K; repeat (destruct K as [K|K]; [discriminate K|]); exact K.
  - intros i H. cbn in H. change (q_next ex_ed) with 5. lia.
Qed.
Example C47_nonvacuous : let old := file_text (ex_schematic ex_items) in
  open_file PATH old = Some ex_ed /\ sound ex_ed /\ writable ex_ed /\ edits_ok ex_edits ex_ed /\
  match apply_all ex_edits ex_ed with
  | Some ed => get_component_value (s2l "R2") ed = Some (s2l "4.7k") /\ get_parameter (s2l "a") ed = Some (s2l "3") /\ netlist_directives ed = Some (map s2l [".param a=3 b={a+1}"; ".AC dec 10 1 1Meg"; ".param c=5"])
  | None => False
  end.
Proof.
  assert (GV : forall v, negb (existsb (aeqb DQ) v) && negb (existsb (aeqb COLON) v) && negb (existsb (aeqb CR) v) = true -> ~ In DQ v /\ ~ In COLON v /\ ~ In CR v).
  { intros v H. apply andb_true_iff in H. destruct H as (H & C). apply andb_true_iff in H. destruct H as (A & B). apply negb_true_iff in A, B, C.
    assert (N : forall c, existsb (aeqb c) v = false -> ~ In c v) by (intros c E K; rewrite <- not_true_iff_false in E; apply E; apply existsb_exists; exists c; split; [exact K|apply aeqb_refl]). auto. }
  assert (GT' : forall v, negb (existsb (aeqb DQ) v) && negb (existsb (aeqb COLON) v) && negb (existsb (aeqb CR) v) = true -> good_text v).
  { intros v H. apply GV in H. destruct H as (A & B & C). split; [exact A|]. split; [|exact C]. intros a b ->. apply B. apply in_or_app. right. left. reflexivity. }
  intros old. split; [vm_compute; reflexivity|]. split; [exact ex_sound|]. split; [exact ex_writable|]. split; [|vm_compute; auto].
  unfold ex_edits. cbn [edits_ok]. split; [split; [apply GT'; reflexivity|reflexivity]|]. intros e1 E1.
  split; [split; [destruct (GV (s2l "3") eq_refl) as (A & B & C); split; [exact A|]; split; [exact B|]; split; [exact C|]; exists "3"%char, []; split; [reflexivity|discriminate]|apply GV; reflexivity]|]. intros e2 E2.
  split; [split; [destruct (GV (s2l "5") eq_refl) as (A & B & C); split; [exact A|]; split; [exact B|]; split; [exact C|]; exists "5"%char, []; split; [reflexivity|discriminate]|apply GV; reflexivity]|]. intros e3 E3.
  assert (E0 : apply_all (firstn 3 ex_edits) ex_ed = Some e3) by (cbn [firstn ex_edits apply_all]; rewrite E1, E2, E3; reflexivity).
  split; [|intros e4 E4; split; [exact I|intros; exact I]]. cbn [edit_ok]. split; [apply GT'; reflexivity|]. intros _. exists (QUAL ++ s2l ".tran 1m"). split.
  - assert (KK : option_map (fun e => (existsb (Nat.eqb 4) (q_items e), head_is (s2l "text") (q_store e 4), comment_of (q_store e 4), text_of (q_store e 4))) (apply_all (firstn 3 ex_edits) ex_ed) = Some (true, true, Some false, Some (QUAL ++ s2l ".tran 1m"))) by (vm_compute; reflexivity).
    rewrite E0 in KK. cbn [option_map] in KK. injection KK as K1 K2 K3 K4. apply existsb_exists in K1. destruct K1 as (n4 & K1 & K5). change (4 =? n4 = true) in K5. apply Nat.eqb_eq in K5. subst n4. exists 4. auto.
  - apply (command_sim _ (s2l ".TRAN")); reflexivity.
Qed.

(** C49: any sequence of set_parameter leaves each parameter with the value it was set to last, and the other parameters with their values,
    where the directives have the qualifier QSPICE writes; a parameter that is there can always be set. *)
Theorem C49_parameters : forall l ed ed', par_texts ed -> Forall setting_ok l -> set_all l ed = Some ed' ->
  forall x, get_parameter x ed' = settings l (fun y => get_parameter y ed) x.
Proof. intros l ed ed' A B C x. eapply set_all_first; try eassumption. reflexivity. Qed.
Theorem C49_set_succeeds : forall n v ed w, par_texts ed -> q_perm ed = Inform -> get_parameter n ed = Some w -> exists ed', set_parameter n v ed = Some ed'.
Proof. exact set_found. Qed.
Print Assumptions C49_parameters.
Print Assumptions C49_set_succeeds.
Example C49_nonvacuous : par_texts ex_ed /\ Forall setting_ok [(s2l "A", s2l "3"); (s2l "c", s2l "5Meg"); (s2l "b", s2l "{c/2}")] /\
  match set_all [(s2l "A", s2l "3"); (s2l "c", s2l "5Meg"); (s2l "b", s2l "{c/2}")] ex_ed with
  | Some ed => map (fun x => get_parameter (s2l x) ed) ["a"; "b"; "C"; "d"] = map (option_map s2l) [Some "3"; Some "{c/2}"; Some "5Meg"; None]
  | None => False
  end.
Proof.
  assert (SP : forall s : str, forallb (aeqb " "%char) s = true -> ParSpec.spaces s) by (intros s H c K; rewrite forallb_forall in H; apply H in K; apply aeqb_eq in K; congruence).
  assert (NN : forall s c, existsb (aeqb c) s = false -> ~ In c s) by (intros s c E K; rewrite <- not_true_iff_false in E; apply E; apply existsb_exists; exists c; split; [exact K|apply aeqb_refl]).
  assert (N1 : forall d u, d <> [] -> forallb digit_like d = true -> forallb unit_like u = true -> par_value (d ++ u)) by exact Number.
  assert (B1 : forall s, existsb (aeqb "}"%char) s = false -> existsb (aeqb CompSpec.NL) s = false -> par_value ("{"%char :: s ++ ["}"%char])) by (intros s A B; apply Braced; apply NN; assumption).
  split; [|split; [|vm_compute; reflexivity]].
  - split; [intros i H; cbn in H; change (q_next ex_ed) with 5; lia|]. cbn [ex_ed editor_of q_items q_store]. change (seq 0 (length ex_items)) with [0; 1; 2; 3; 4]. intros i [<-|[<-|[<-|[<-|[<-|[]]]]]] HT; try discriminate HT.
    + left. reflexivity.
    + right. split; [reflexivity|]. exists (QUAL ++ s2l ".param a=1 b={a+1}"). split; [reflexivity|]. right.
      exists {| l_lead := []; l_word := s2l ".param"; l_pars := [{| e_sep := s2l " "; e_par := s2l "a"; e_b1 := []; e_b2 := []; e_val := s2l "1" |}; {| e_sep := s2l " "; e_par := s2l "b"; e_b1 := []; e_b2 := []; e_val := s2l "{a+1}" |}]; l_tail := [] |}.
      split; [reflexivity|]. split; [|reflexivity]. unfold pline_ok. cbn [l_lead l_word l_pars l_tail]. split; [apply SP; reflexivity|]. split; [reflexivity|]. split; [|split; [reflexivity|split; [intros ? []|exact I]]].
      repeat apply Forall_cons; try apply Forall_nil; unfold entry_ok; cbn [e_sep e_par e_b1 e_b2 e_val]; (split; [apply SP; reflexivity|]; split; [discriminate|]; split; [split; [discriminate|reflexivity]|]; split; [apply SP; reflexivity|]; split; [apply SP; reflexivity|]).
      * apply (N1 (s2l "1") []); [discriminate|reflexivity|reflexivity].
      * apply (B1 (s2l "a+1")); reflexivity.
    + right. split; [reflexivity|]. exists (QUAL ++ s2l ".tran 1m"). split; [reflexivity|]. left. intros q w r E HQ K.
      assert (EW : param_line (QUAL ++ s2l ".tran 1m") = false) by reflexivity. revert EW. rewrite E. unfold param_line, unqual.
      assert (W : exists c w', w = c :: w' /\ mem_c c QUAL = false). { destruct w as [|c w']; [discriminate|]. exists c, w'. split; [reflexivity|]. destruct (mem_c c QUAL) eqn:M; [|reflexivity]. apply mem_c_In in M. destruct M as [<-|[<-|[<-|[]]]]; discriminate K. }
      destruct W as (c & w' & -> & M). assert (L : lstrip_if (fun c => mem_c c QUAL) (q ++ (c :: w') ++ r) = (c :: w') ++ r).
      { clear E. induction q as [|d q IH]; [cbn [app lstrip_if]; rewrite M; reflexivity|]. cbn [app lstrip_if]. assert (mem_c d QUAL = true) as -> by (apply mem_c_In; apply HQ; left; reflexivity). apply IH. intros x Hx. apply HQ. right. exact Hx. }
      rewrite L, upper_app, K, startswith_app. discriminate.
  - assert (GT' : forall v, negb (existsb (aeqb DQ) v) && negb (existsb (aeqb COLON) v) && negb (existsb (aeqb CR) v) = true -> good_text v).
    { intros v H. apply andb_true_iff in H. destruct H as (H & C). apply andb_true_iff in H. destruct H as (A & B). apply negb_true_iff in A, B, C. split; [apply NN; exact A|]. split; [|apply NN; exact C]. intros a b ->. apply NN in B. apply B. apply in_or_app. right. left. reflexivity. }
    repeat apply Forall_cons; try apply Forall_nil; unfold setting_ok; cbn [fst snd]; (split; [split; [discriminate|reflexivity]|]; split; [|split; [apply GT'; reflexivity|reflexivity]]).
    + apply (N1 (s2l "3") []); [discriminate|reflexivity|reflexivity].
    + apply (N1 (s2l "5") (s2l "Meg")); [discriminate|reflexivity|reflexivity].
    + apply (B1 (s2l "c/2")); reflexivity.
Qed.

(** C99 *)
Theorem C99_one_simulation_command : forall s ed ed', sim_command (strip s) -> good_text (strip s) -> sound ed ->
  (forall i j x y, sim_at ed i x -> sim_at ed j y -> i = j) -> add_instruction s ed = Some ed' ->
  exists i, sim_at ed' i (QUAL ++ strip s) /\ forall j x, sim_at ed' j x -> j = i.
Proof. intros s ed ed' A B (_ & _ & _ & C) D E. eapply one_sim; eassumption. Qed.
Print Assumptions C99_one_simulation_command.
Example C99_nonvacuous : sim_command (strip (s2l ".AC dec 10 1 1Meg")) /\ sound ex_ed /\ sim_at ex_ed 4 (QUAL ++ s2l ".tran 1m") /\
  match add_instruction (s2l ".AC dec 10 1 1Meg") ex_ed with Some ed => netlist_directives ed = Some (map s2l [".param a=1 b={a+1}"; ".AC dec 10 1 1Meg"]) | None => False end.
Proof.
  split; [apply (command_sim _ (s2l ".AC")); reflexivity|]. split; [exact ex_sound|]. split; [|vm_compute; reflexivity]. split; [vm_compute; auto 10|]. split; [reflexivity|]. split; [reflexivity|]. split; [reflexivity|]. apply (command_sim _ (s2l ".TRAN")); reflexivity.
Qed.

(** C100: the components of the saved schematic are all but the removed one, with their values. *)
Lemma remove_dget : forall (r k : str) (c : comp) a b, NoDup (map fst (a ++ (r, c) :: b)) -> dget k (a ++ b) = if str_eqb k r then None else dget k (a ++ (r, c) :: b).
Proof.
  intros r k c. unfold dget. induction a as [|[x y] a IH]; intros b H; cbn [app map fst find] in *.
  - inversion H as [|? ? N _]; subst. destruct (str_eqb k r) eqn:E.
    + apply str_eqb_eq in E. subst k. clear H. induction b as [|[x y] b IH]; [reflexivity|]. cbn [find map fst] in *. destruct (str_eqb x r) eqn:E2; [apply str_eqb_eq in E2; subst; exfalso; apply N; left; reflexivity|]. apply IH. intros K. apply N. right. exact K.
    + destruct (str_eqb r k) eqn:E2; [apply str_eqb_eq in E2; subst; rewrite str_eqb_refl in E; discriminate|reflexivity].
  - inversion H as [|? ? N H']; subst. specialize (IH b H'). destruct (str_eqb x k) eqn:E; [|exact IH]. apply str_eqb_eq in E. subst x. destruct (str_eqb k r) eqn:E2; [|reflexivity]. apply str_eqb_eq in E2. subst. exfalso. apply N. rewrite map_app. apply in_or_app. right. left. reflexivity.
Qed.
Theorem C100_removed_from_file : forall ref ed ed' old, sound ed -> writable ed -> remove_component ref ed = Some ed' ->
  exists ed2, open_file (q_path ed) (stored (q_path ed) old (snd (save_as (q_path ed) ed'))) = Some ed2 /\
    get_components ed2 = filter (fun r => negb (str_eqb r ref)) (get_components ed) /\
    get_component_value ref ed2 = None /\ forall r, r <> ref -> get_component_value r ed2 = get_component_value r ed.
Proof.
  intros ref ed ed' old HS (HH & HW) H. pose proof HS as (HC & HN & HI & HB). unfold remove_component in H. destruct (q_perm ed); [|discriminate]. unfold get_component in H. destruct (mem_c COLON ref) eqn:MC; [discriminate|]. destruct (dget ref (q_comps ed)) as [c|] eqn:ED; [|discriminate].
  destruct (remove_first (c_tag c) (q_items ed)) as [l|] eqn:ER; [|discriminate]. injection H as <-. destruct (remove_first_spec _ _ _ ER) as (a & b & E & -> & _). pose proof (dget_In _ _ _ _ ED) as IC. destruct (comp_list_in _ _ _ _ _ HC IC) as (C1 & C2 & C3).
  assert (SP : exists da db, comp_list (q_store ed) a = Some da /\ comp_list (q_store ed) b = Some db /\ q_comps ed = da ++ (ref, c) :: db).
  { rewrite E, comp_list_app in HC. destruct (comp_list (q_store ed) a) as [da|]; [|discriminate]. cbn [comp_list] in HC. change (s2l "component") with COMPONENT in HC. rewrite C2, C3 in HC. destruct (comp_list (q_store ed) b) as [db|]; [|discriminate]. injection HC as <-. exists da, db. split; [reflexivity|]. split; [reflexivity|]. destruct c. reflexivity. }
  destruct SP as (da & db & EA & EB & EQ).
  set (ed1 := with_comps (end_update ref VNone UpDeleteComponent (with_items ed (a ++ b))) (da ++ db)).
  assert (S1 : sound ed1).
  { split; [|split; [|split]]; cbn [ed1 with_comps end_update with_items q_store q_items q_comps q_next].
    - rewrite comp_list_app, EA, EB. reflexivity.
    - rewrite EQ in HN. rewrite map_app in *. cbn [map] in HN. apply NoDup_remove_1 in HN. exact HN.
    - rewrite E in HI. apply NoDup_remove_1 in HI. exact HI.
    - intros j Hj. apply HB. rewrite E. apply in_app_or in Hj. apply in_or_app. destruct Hj; [left; assumption|right; right; assumption]. }
  assert (W1 : writable ed1). { split; [exact HH|]. cbn [ed1 with_comps end_update with_items q_store q_items]. rewrite E in HW. apply Forall_app in HW. destruct HW as (A & B). inversion B; subst. apply Forall_app. split; assumption. }
  destruct (save_reload (q_path ed) old ed1 S1 W1 (or_introl eq_refl)) as (ed2 & O & (A1 & A2 & _) & _). exists ed2. split; [exact O|].
  rewrite <- A1. unfold get_components at 1. cbn [ed1 with_comps q_comps]. split; [|split].
  - unfold get_components. rewrite EQ in *. rewrite !map_app in *. cbn [map fst] in *. rewrite filter_app. cbn [filter]. rewrite str_eqb_refl. cbn [negb].
    assert (F : forall l, ~ In ref l -> filter (fun r => negb (str_eqb r ref)) l = l). { induction l as [|x l IH]; intros N; [reflexivity|]. cbn [filter]. destruct (str_eqb x ref) eqn:EX; [apply str_eqb_eq in EX; subst; exfalso; apply N; left; reflexivity|]. cbn [negb]. rewrite IH; [reflexivity|]. intros K. apply N. right. exact K. }
    apply NoDup_remove_2 in HN. rewrite !F; [reflexivity| |]; intros K; apply HN; apply in_or_app; [right|left]; exact K.
  - rewrite <- A2. unfold get_component_value, get_component. rewrite MC. cbn [ed1 with_comps q_comps]. rewrite (remove_dget ref ref c) by (rewrite <- EQ; exact HN). rewrite str_eqb_refl. reflexivity.
  - intros r NE. rewrite <- A2. unfold get_component_value, get_component. destruct (mem_c COLON r); [reflexivity|]. cbn [ed1 with_comps q_comps]. rewrite EQ. rewrite (remove_dget ref r c) by (rewrite <- EQ; exact HN). destruct (str_eqb r ref) eqn:EE; [apply str_eqb_eq in EE; congruence|reflexivity].
Qed.
Print Assumptions C100_removed_from_file.
Example C100_nonvacuous : sound ex_ed /\ writable ex_ed /\ match remove_component (s2l "R1") ex_ed with Some ed => length (kids (tree ed)) = 4 | None => False end.
Proof. split; [exact ex_sound|]. split; [exact ex_writable|]. vm_compute. reflexivity. Qed.

(** C48 is false: whatever component is removed, the editor still lists it and writes it to the netlist, and removing it again fails. *)
Theorem C48_removed_refuted : forall ref ed ed', sound ed -> remove_component ref ed = Some ed' ->
  In ref (get_components ed') /\ get_component_value ref ed' = get_component_value ref ed /\ netlist_elements ed' = netlist_elements ed /\ remove_component ref ed' = None.
Proof.
  intros ref ed ed' (HC & HN & HI & HB) H. unfold remove_component in H. destruct (q_perm ed) eqn:EP; [|discriminate]. destruct (get_component ref ed) as [c|] eqn:G; [|discriminate]. destruct (remove_first (c_tag c) (q_items ed)) as [l|] eqn:ER; [|discriminate]. injection H as <-.
  assert (G' := G). unfold get_component in G. destruct (mem_c COLON ref) eqn:MC; [discriminate|]. split; [|split; [reflexivity|split; [reflexivity|]]].
  - unfold get_components. cbn [end_update with_items q_comps]. eapply fst_In. apply dget_In. exact G.
  - unfold remove_component. cbn [end_update with_items q_perm]. rewrite EP. unfold get_component in *. rewrite MC in *. cbn [end_update with_items q_comps q_items]. rewrite G. cbn [option_map].
    destruct (remove_first_spec _ _ _ ER) as (a & b & E & -> & NA). rewrite E in HI. apply NoDup_remove_2 in HI. assert (R : forall l, ~ In (c_tag c) l -> remove_first (c_tag c) l = None).
    { induction l as [|x l IH]; intros N; [reflexivity|]. cbn [remove_first]. destruct (x =? c_tag c) eqn:EX; [apply Nat.eqb_eq in EX; subst; exfalso; apply N; left; reflexivity|]. rewrite IH; [reflexivity|]. intros K. apply N. right. exact K. }
    rewrite R by exact HI. reflexivity.
Qed.
Print Assumptions C48_removed_refuted.
Example C48_nonvacuous : sound ex_ed /\ match remove_component (s2l "R1") ex_ed with Some ed => netlist_elements ed = Some [(s2l "R1", s2l "1k"); (s2l "R2", s2l "2k")] | None => False end.
Proof. split; [exact ex_sound|]. vm_compute. reflexivity. Qed.

(** C94 is false: moving a component does not mark the schematic as changed, so that saving over its file writes nothing; with a rotation
    from the enumeration, as get_component_position gives it, the call fails after the position has changed. *)
Theorem C94_position_refuted : forall ref x y rot m ed ed' ok, set_component_position ref x y rot m ed = Some (ed', ok) ->
  (updated ed = false -> snd (save_as (q_path ed) ed') = None) /\ (forall d, rot = Enum d -> ok = false) /\
  (exists c, get_component ref ed = Some c /\ get_attr 1 (q_store ed' (c_tag c)) = Some (APair [x; y])).
Proof.
  intros ref x y rot m ed ed' ok H. unfold set_component_position in H. destruct (get_component ref ed) as [c|]; [|discriminate]. destruct (set_attr 1 (APair [x; y]) (q_store ed (c_tag c))) as [t1|] eqn:E1; [|discriminate].
  assert (P1 : get_attr 1 t1 = Some (APair [x; y])). { unfold set_attr in E1. cbn [write_token] in E1. destruct (set_nth 1 _ _) as [l|] eqn:EN; [|discriminate]. injection E1 as <-. destruct (set_nth_spec _ _ _ _ EN) as (K & _). unfold get_attr. cbn [toks]. rewrite K. apply read_pair. }
  assert (SV : forall t, updated ed = false -> snd (save_as (q_path ed) (put ed (c_tag c) t)) = None).
  { intros t U. unfold save_as. change (updated (put ed (c_tag c) t)) with (updated ed). change (q_path (put ed (c_tag c) t)) with (q_path ed). rewrite U, str_eqb_refl. reflexivity. }
  assert (PT : forall t, q_store (put ed (c_tag c) t) (c_tag c) = t) by (intros t; cbn [put with_store q_store]; rewrite Nat.eqb_refl; reflexivity).
  destruct rot as [d|d].
  - injection H as <- <-. split; [apply SV|]. split; [reflexivity|]. exists c. split; [reflexivity|]. rewrite PT. exact P1.
  - destruct (set_attr 2 _ t1) as [t2|] eqn:E2; injection H as <- <-; (split; [apply SV|]; split; [discriminate|]; exists c; split; [reflexivity|]; rewrite PT); [|exact P1].
    unfold set_attr in E2. cbn [write_token] in E2. destruct (set_nth 2 _ _) as [l|] eqn:EN; [|discriminate]. injection E2 as <-. destruct (set_nth_spec _ _ _ _ EN) as (_ & K & _). unfold get_attr in *. cbn [toks]. rewrite K by discriminate. exact P1.
Qed.
Print Assumptions C94_position_refuted.
Example C94_nonvacuous : updated ex_ed = false /\ match set_component_position (s2l "R1") 500 600 (Int 90) false ex_ed with Some (ed, ok) => ok = true /\ tree ed <> tree ex_ed /\ snd (save_as PATH ed) = None | None => False end.
Proof. split; [reflexivity|]. vm_compute. split; [reflexivity|]. split; [discriminate|reflexivity]. Qed.

(** C95 is false: where the schematic has no simulation command, the one that is added is in the netlist, but saving over the file writes nothing. *)
Theorem C95_first_simulation_command_refuted : forall s ed ed', sim_command (strip s) -> good_text (strip s) -> (forall i x, ~ sim_at ed i x) -> updated ed = false ->
  add_instruction s ed = Some ed' -> (exists i, sim_at ed' i (QUAL ++ strip s)) /\ snd (save_as (q_path ed) ed') = None.
Proof.
  intros s ed ed' HS HG HN HU H. destruct (add_sim_cases _ _ _ HS HG H) as [(i & x & t' & SA & _)|(_ & t & -> & HT & TX & CM)]; [exfalso; exact (HN i x SA)|]. split.
  - exists (q_next ed). destruct (sim_dot _ HS) as (c & r & E & M). unfold sim_at. cbn [append q_items q_store]. rewrite Nat.eqb_refl. split; [apply in_or_app; right; left; reflexivity|]. split; [exact HT|]. split; [exact CM|]. split; [exact TX|]. rewrite E, unqual_id, <- E by exact M. exact HS.
  - unfold save_as. change (updated (append ed t)) with (updated ed). change (q_path (append ed t)) with (q_path ed). rewrite HU, str_eqb_refl. reflexivity.
Qed.
Print Assumptions C95_first_simulation_command_refuted.
Example C95_nonvacuous : let ed := editor_of (firstn 4 ex_items) in (forall i x, ~ sim_at ed i x) /\ updated ed = false /\
  match add_instruction (s2l ".tran 1m") ed with Some ed' => netlist_directives ed' = Some (map s2l [".param a=1 b={a+1}"; ".tran 1m"]) /\ snd (save_as PATH ed') = None | None => False end.
Proof.
  intros ed. split; [|split; [reflexivity|vm_compute; split; reflexivity]]. intros i x (A & B & C & D & F). destruct (sim_command_some _ F) as (w & K1 & K2).
  destruct A as [<-|[<-|[<-|[<-|[]]]]]; try discriminate B; try discriminate C. vm_compute in D. injection D as <-. vm_compute in K1. injection K1 as <-. discriminate K2.
Qed.

(** C96 is false: a directive without the mark is damaged.  Setting a to 5 in ".param a=1 b=2" gives ".param a=1 b52". *)
Definition bare_ed : qed := editor_of [text_tag (s2l "0") (s2l ".param a=1 b=2")].
Theorem C96_no_mark_refuted : exists ed ed', directive ed (s2l ".param a=1 b=2") /\ get_parameter (s2l "a") ed = Some (s2l "1") /\ set_parameter (s2l "a") (s2l "5") ed = Some ed' /\
  directive ed' (s2l ".param a=1 b52") /\ get_parameter (s2l "a") ed' = Some (s2l "1") /\ get_parameter (s2l "b") ed' = None.
Proof. exists bare_ed. eexists. split; [exists 0; vm_compute; auto 10|]. split; [reflexivity|]. split; [vm_compute; reflexivity|]. split; [exists 0; vm_compute; auto 10|]. split; vm_compute; reflexivity. Qed.
Print Assumptions C96_no_mark_refuted.

(** C97 is false: a parameter on a later line of a directive is in the netlist, but is not found, and setting it adds a second definition. *)
Definition two_lines_ed : qed := editor_of [text_tag (s2l "0") (QUAL ++ s2l ".tran 1m\n.param a=1")].
Theorem C97_later_lines_refuted : exists ed ed', netlist_directives ed = Some (map s2l [".tran 1m"; ".param a=1"]) /\ get_parameter (s2l "a") ed = None /\
  set_parameter (s2l "a") (s2l "5") ed = Some ed' /\ netlist_directives ed' = Some (map s2l [".tran 1m"; ".param a=1"; ".param a=5"]).
Proof. exists two_lines_ed. eexists. split; [vm_compute; reflexivity|]. split; [vm_compute; reflexivity|]. split; [vm_compute; reflexivity|]. vm_compute. reflexivity. Qed.
Print Assumptions C97_later_lines_refuted.

(** C98 is false: the first directive that contains the text is removed. *)
Definition two_ics_ed : qed := editor_of [text_tag (s2l "0") (QUAL ++ s2l ".ic V(a)=10"); text_tag (s2l "0") (QUAL ++ s2l ".ic V(a)=1")].
Theorem C98_substring_refuted : exists ed ed', netlist_directives ed = Some (map s2l [".ic V(a)=10"; ".ic V(a)=1"]) /\ remove_instruction (s2l ".ic V(a)=1") ed = Some (ed', true) /\ netlist_directives ed' = Some (map s2l [".ic V(a)=1"]).
Proof. exists two_ics_ed. eexists. split; [vm_compute; reflexivity|]. split; [vm_compute; reflexivity|]. vm_compute. reflexivity. Qed.
Print Assumptions C98_substring_refuted.
