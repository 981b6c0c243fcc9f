(** Properties C310-C316: instructions in sub-circuits, control sections. *)
From Coq Require Import String Ascii List Bool Arith ZArith Lia.
From Verif Require Import PyStr Regex UpdatesModel CompModel NetModel EditModel SbiModel.
From Verif Require QEdProofs4.
Import ListNotations.
Local Open Scope string_scope.
Local Open Scope nat_scope.
Local Open Scope list_scope.

(** ** Lemmas *)
Lemma rstrip_ended : forall s, rstrip_if is_space (s ++ NLs) = rstrip_if is_space s.
Proof. intros s. unfold rstrip_if. rewrite rev_app_distr. reflexivity. Qed.
Lemma lstrip_app : forall a b, lstrip_if is_space (a ++ b) = if forallb is_space a then lstrip_if is_space b else lstrip_if is_space a ++ b.
Proof. induction a as [|c a IH]; intros b; [reflexivity|]. cbn [app lstrip_if forallb]. destruct (is_space c); [apply IH|reflexivity]. Qed.
Lemma lstrip_blank : forall a, forallb is_space a = true -> lstrip_if is_space a = [].
Proof. induction a as [|c a IH]; intros H; [reflexivity|]. cbn [forallb] in H. apply andb_true_iff in H. cbn [lstrip_if]. rewrite (proj1 H). apply IH. apply H. Qed.
Lemma strip_ended : forall s, strip (ended s) = strip s.
Proof.
  intros s. unfold ended. destruct (endswith NLs s); [reflexivity|]. unfold strip, strip_if. rewrite lstrip_app. destruct (forallb is_space s) eqn:B; [|apply rstrip_ended].
  rewrite (lstrip_blank s B). reflexivity.
Qed.
Definition same (instr : str) (e : entry) : Prop := exists c s, e = Prim c (Some s) /\ strip s = strip instr.
Lemma first_same_some : forall instr l k, first_same instr l = Some (Some k) -> exists a e b, l = a ++ e :: b /\ length a = k /\ same instr e /\ Forall (fun x => ~ same instr x) a.
Proof.
  intros instr. induction l as [|e l IH]; intros k H; cbn [first_same] in H; [discriminate|].
  assert (forall k', first_same instr l = Some (Some k') -> k = S k' -> ~ same instr e -> exists a x b, e :: l = a ++ x :: b /\ length a = k /\ same instr x /\ Forall (fun y => ~ same instr y) a) as G.
  { intros k' H' -> N. destruct (IH k' H') as (a & x & b & -> & L & S1 & F). exists (e :: a), x, b. split; [reflexivity|]. split; [cbn; lia|]. split; [exact S1|]. constructor; assumption. }
  destruct e as [c [s|]|s|n]; [|discriminate| |].
  - destruct (str_eqb (strip s) (strip instr)) eqn:E.
    + injection H as <-. apply str_eqb_eq in E. exists [], (Prim c (Some s)), l. split; [reflexivity|]. split; [reflexivity|]. split; [exists c, s; auto|constructor].
    + destruct (first_same instr l) as [[k'|]|]; try discriminate. injection H as <-. apply (G k' eq_refl eq_refl). intros (c' & s' & Q & S1). injection Q as <- <-.
      rewrite S1, str_eqb_refl in E. discriminate.
  - destruct (first_same instr l) as [[k'|]|]; try discriminate. injection H as <-. apply (G k' eq_refl eq_refl). intros (c' & s' & Q & _). discriminate.
  - destruct (first_same instr l) as [[k'|]|]; try discriminate. injection H as <-. apply (G k' eq_refl eq_refl). intros (c' & s' & Q & _). discriminate.
Qed.
Lemma first_same_none : forall instr l, first_same instr l = Some None -> Forall (fun x => ~ same instr x) l.
Proof.
  intros instr. induction l as [|e l IH]; intros H; cbn [first_same] in H; [constructor|].
  destruct e as [c [s|]|s|n]; [|discriminate| |].
  - destruct (str_eqb (strip s) (strip instr)) eqn:E; [discriminate|]. destruct (first_same instr l) as [[k'|]|]; try discriminate. constructor; [|apply IH; reflexivity].
    intros (c' & s' & Q & S1). injection Q as <- <-. rewrite S1, str_eqb_refl in E. discriminate.
  - destruct (first_same instr l) as [[k'|]|]; try discriminate. constructor; [|apply IH; reflexivity]. intros (c' & s' & Q & _). discriminate.
  - destruct (first_same instr l) as [[k'|]|]; try discriminate. constructor; [|apply IH; reflexivity]. intros (c' & s' & Q & _). discriminate.
Qed.
Lemma first_same_app : forall instr a b, first_same instr a = Some None -> first_same instr (a ++ b) = option_map (option_map (fun k => length a + k)) (first_same instr b).
Proof.
  intros instr. induction a as [|e a IH]; intros b H; cbn [app length Nat.add]; [destruct (first_same instr b) as [[k|]|]; reflexivity|]. cbn [first_same] in *.
  assert (first_same instr a = Some None -> option_map (option_map S) (first_same instr (a ++ b)) = option_map (option_map (fun k => S (length a + k))) (first_same instr b)) as G.
  { intros H'. rewrite (IH b H'). destruct (first_same instr b) as [[k|]|]; reflexivity. }
  destruct e as [c [s|]|s|n]; [|discriminate| |].
  - destruct (str_eqb (strip s) (strip instr)); [discriminate|]. apply G. destruct (first_same instr a) as [[k|]|]; try discriminate. reflexivity.
  - apply G. destruct (first_same instr a) as [[k|]|]; try discriminate. reflexivity.
  - apply G. destruct (first_same instr a) as [[k|]|]; try discriminate. reflexivity.
Qed.
Lemma first_same_split : forall instr a b, first_same instr (a ++ b) = Some None -> first_same instr a = Some None /\ first_same instr b = Some None.
Proof.
  intros instr. induction a as [|e a IH]; intros b H; [split; [reflexivity|exact H]|]. cbn [app first_same] in *.
  assert (option_map (option_map S) (first_same instr (a ++ b)) = Some None -> option_map (option_map S) (first_same instr a) = Some None /\ first_same instr b = Some None) as G.
  { intros H'. destruct (first_same instr (a ++ b)) as [[k|]|] eqn:E; try discriminate. destruct (IH b E) as [A B]. rewrite A. split; [reflexivity|exact B]. }
  destruct e as [c [s|]|s|n]; [|discriminate| |]; [destruct (str_eqb (strip s) (strip instr)); [discriminate|]| |]; exact (G H).
Qed.
Lemma insert_at : forall A (a b : list A) x, insert_item (a ++ b) (length a) x = a ++ x :: b.
Proof. intros A a b x. unfold insert_item. rewrite firstn_app, firstn_all, Nat.sub_diag, skipn_app, skipn_all, Nat.sub_diag. cbn. rewrite app_nil_r. reflexivity. Qed.
Lemma delete_at : forall A (a b : list A) x, delete_item (a ++ x :: b) (length a) = a ++ b.
Proof.
  intros A a b x. unfold delete_item. rewrite firstn_app, firstn_all, Nat.sub_diag. cbn [firstn]. rewrite app_nil_r. f_equal.
  replace (a ++ x :: b) with ((a ++ [x]) ++ b) by (rewrite <- app_assoc; reflexivity). rewrite skipn_app, skipn_all2 by (rewrite app_length; cbn; lia).
  rewrite app_length. cbn [length]. replace (S (length a) - (length a + 1)) with 0 by lia. reflexivity.
Qed.

(** ** C310: an instruction added to a definition: if one with the same text (but for blanks around it) is there nothing changes; otherwise
    it becomes the last entry before the end of the definition. A directive or component added so is found by remove_instruction, which
    gives back the definition as it was. *)
Definition with_last (d : defn) (e : entry) : defn := {| d_name := d_name d; d_nodes := d_nodes d; d_body := d_body d ++ [e] |}.
Theorem C310_added_and_removed : forall d instr l', sub_add instr (entries_of d) = Some l' ->
  (l' = entries_of d /\ exists c s, In (Prim c (Some s)) (entries_of d) /\ strip s = strip instr) \/
  ((forall c s, In (Prim c (Some s)) (entries_of d) -> strip s <> strip instr) /\
   exists e, l' = entries_of (with_last d e) /\
     (entry_text e = Some (ended instr) \/ line_command instr = Some (s2l ".CONTROL")) /\
     ((exists c s, e = Prim c (Some s)) -> forall pm, pm <> Deny -> sub_remove pm instr l' = (entries_of d, [log_text (strip instr)], Some true))).
Proof.
  intros d instr l' H. unfold sub_add in H. destruct (line_command instr) as [cmd|] eqn:LC; [|discriminate]. destruct (is_unique cmd) as [[|]|]; try discriminate.
  destruct (str_eqb cmd (s2l ".PARAM")); [discriminate|]. destruct (first_same instr (entries_of d)) as [[k|]|] eqn:F; [| |discriminate].
  - left. injection H as <-. split; [reflexivity|]. destruct (first_same_some _ _ _ F) as (a & e & b & E & _ & (c & s & -> & S1) & _). exists c, s. split; [|exact S1].
    rewrite E. apply in_app_iff. right. left. reflexivity.
  - right. assert (insert_item (entries_of d) (length (entries_of d) - 1) (entry_for (ended instr) cmd) = l') as HL by congruence. clear H. subst l'. pose proof (first_same_none _ _ F) as N. split.
    { intros c s I E. rewrite Forall_forall in N. apply (N _ I). exists c, s. split; [reflexivity|exact E]. }
    set (e := entry_for (ended instr) cmd). exists e.
    assert (insert_item (entries_of d) (length (entries_of d) - 1) e = entries_of (with_last d e)) as EQ.
    { unfold entries_of, with_last. cbn [d_name d_nodes d_body]. rewrite app_comm_cons.
      match goal with |- insert_item (?a ++ ?b) _ _ = _ => replace (length (a ++ b) - 1) with (length a) by (rewrite app_length; cbn [length]; lia) end.
      rewrite insert_at. cbn [app]. f_equal. rewrite <- app_assoc. reflexivity. }
    split; [exact EQ|]. split.
    + unfold e, entry_for. destruct (str_eqb cmd (s2l ".CONTROL")) eqn:C; [right; apply str_eqb_eq in C; subst cmd; reflexivity|]. left.
      destruct (startswith (s2l ".") cmd || _); reflexivity.
    + intros (c & s & ES) pm HP. fold e. rewrite EQ. unfold sub_remove.
      assert (first_same instr (entries_of (with_last d e)) = Some (Some (length (d_body d) + 1))) as FS.
      { unfold entries_of in F. rewrite app_comm_cons in F. destruct (first_same_split _ _ _ F) as [FA _].
        unfold entries_of, with_last. cbn [d_name d_nodes d_body]. rewrite <- app_assoc, app_comm_cons. rewrite (first_same_app _ _ _ FA).
        rewrite ES. cbn [app first_same].
        assert (s = ended instr) as ->. { unfold e, entry_for in ES. destruct (str_eqb cmd (s2l ".CONTROL")); [discriminate|]. destruct (startswith (s2l ".") cmd || _); [injection ES as _ <-; reflexivity|discriminate]. }
        rewrite strip_ended, str_eqb_refl. cbn [option_map length]. do 2 f_equal. lia. }
      rewrite FS.
      assert (delete_item (entries_of (with_last d e)) (length (d_body d) + 1) = entries_of d) as ->.
      { unfold entries_of, with_last. cbn [d_name d_nodes d_body]. rewrite <- app_assoc, app_comm_cons. cbn [app].
        match goal with |- delete_item (?a :: ?b ++ ?x :: ?c) _ = _ => change (delete_item ((a :: b) ++ x :: c) (length (d_body d) + 1) = (a :: b) ++ c); replace (length (d_body d) + 1) with (length (a :: b)) by (cbn [length]; lia) end.
        apply delete_at. }
      destruct pm; [contradiction HP; reflexivity|reflexivity|reflexivity].
Qed.
Print Assumptions C310_added_and_removed.
(** Removal from any list of lines: nothing happens without permission or if the text is not there; otherwise the first line with this text
    goes, and one deletion is noted. *)
Theorem C310_removal : forall pm instr l, (forall c, ~ In (Prim c None) l) ->
  (pm = Deny -> sub_remove pm instr l = (l, [], Some false)) /\
  ((forall c s, In (Prim c (Some s)) l -> strip s <> strip instr) -> sub_remove pm instr l = (l, [], Some false)) /\
  (pm <> Deny -> forall a c s b, l = a ++ Prim c (Some s) :: b -> strip s = strip instr -> (forall c' s', In (Prim c' (Some s')) a -> strip s' <> strip instr) ->
     sub_remove pm instr l = (a ++ b, [log_text (strip instr)], Some true)).
Proof.
  intros pm instr l H.
  assert (forall l, (forall c, ~ In (Prim c None) l) -> (forall c s, In (Prim c (Some s)) l -> strip s <> strip instr) -> first_same instr l = Some None) as NF.
  { clear. induction l as [|e l IH]; intros H N; [reflexivity|].
    assert (first_same instr l = Some None) as E by (apply IH; [intros c I; exact (H c (or_intror I))|intros c s I; exact (N c s (or_intror I))]).
    destruct e as [c [s|]|s|n]; cbn [first_same]; try (rewrite E; reflexivity).
    - destruct (str_eqb (strip s) (strip instr)) eqn:X; [|rewrite E; reflexivity]. apply str_eqb_eq in X. exfalso. exact (N c s (or_introl eq_refl) X).
    - exfalso. exact (H c (or_introl eq_refl)). }
  split; [intros ->; reflexivity|]. split.
  - intros N. unfold sub_remove. rewrite (NF l H N). destruct pm; reflexivity.
  - intros HP a c s b -> S1 N. unfold sub_remove.
    assert (first_same instr a = Some None) as FA by (apply NF; [intros c' I; apply (H c'); apply in_app_iff; left; exact I|exact N]).
    rewrite (first_same_app _ _ _ FA). cbn [first_same]. rewrite S1, str_eqb_refl. cbn [option_map]. rewrite Nat.add_0_r, delete_at.
    destruct pm; [contradiction HP; reflexivity|reflexivity|reflexivity].
Qed.
Print Assumptions C310_removal.
Definition ex_d : defn := {| d_name := s2l "amp"; d_nodes := s2l "in out"; d_body := [Plain (s2l "* gain stage" ++ NLs); Prim false (Some (s2l "R1 in out 1k" ++ NLs))] |}.
Example C310_nonvacuous :
  option_map saved (sub_add (s2l ".options reltol=1m") (entries_of ex_d)) =
    Some (Some (concat (map (fun t => s2l t ++ NLs) [".subckt amp in out"; "* gain stage"; "R1 in out 1k"; ".options reltol=1m"; ".ENDS amp"]))) /\
  sub_add (s2l " R1 in out 1k") (entries_of ex_d) = Some (entries_of ex_d).
Proof. split; vm_compute; reflexivity. Qed.

(** ** C311: removing by a pattern: exactly the entries that match go, the others stay in their order; each one that goes is noted; the result
    tells whether there was one. Without permission nothing changes. *)
Theorem C311_matching_removed : forall pm pat l, let matches e := match entry_text e with Some s => pat s | None => false end in
  (pm <> Deny -> exists flag, sub_remove_matching pm pat l =
     (filter (fun e => negb (matches e)) l, flat_map (fun e => match entry_text e with Some s => if pat s then [strip s] else [] | None => [] end) l, flag) /\
     (flag = true <-> exists e, In e l /\ matches e = true)) /\
  sub_remove_matching Deny pat l = (l, [], false).
Proof.
  intros pm pat l matches. split; [|reflexivity]. intros HP.
  assert (remove_hits pat l = (filter (fun e => negb (matches e)) l, flat_map (fun e => match entry_text e with Some s => if pat s then [strip s] else [] | None => [] end) l)) as E.
  { induction l as [|e l IH]; [reflexivity|]. cbn [remove_hits filter flat_map]. rewrite IH.
    assert (matches e = match entry_text e with Some s => pat s | None => false end) as ME by reflexivity. rewrite ME. clear IH ME. destruct (entry_text e) as [s|]; [|reflexivity]. destruct (pat s); reflexivity. }
  exists (match flat_map (fun e => match entry_text e with Some s => if pat s then [strip s] else [] | None => [] end) l with [] => false | _ => true end). split.
  - unfold sub_remove_matching. rewrite E. destruct pm; [contradiction HP; reflexivity|reflexivity|reflexivity].
  - clear E. induction l as [|e l IH]; [split; [discriminate|intros (e & [] & _)]|]. cbn [flat_map].
    destruct (match entry_text e with Some s => if pat s then [strip s] else [] | None => [] end) eqn:X.
    + cbn [app]. rewrite IH. split; intros (x & I & M); [exists x; split; [right; exact I|exact M]|]. destruct I as [<- |I]; [|exists x; split; assumption].
      unfold matches in M. destruct (entry_text e) as [s|]; [|discriminate]. rewrite M in X. discriminate.
    + cbn [app]. split; [|reflexivity]. intros _. exists e. split; [left; reflexivity|]. unfold matches. destruct (entry_text e) as [s'|]; [|discriminate]. destruct (pat s'); [reflexivity|discriminate].
Qed.
Print Assumptions C311_matching_removed.
Example C311_nonvacuous : let '(l, notes, flag) := sub_remove_matching Inform (fun s => startswith (s2l "R") s) (entries_of ex_d) in
  option_map l2s (saved l) = option_map l2s (Some (concat (map (fun t => s2l t ++ NLs) [".subckt amp in out"; "* gain stage"; ".ENDS amp"]))) /\ map l2s notes = ["R1 in out 1k"]%string /\ flag = true.
Proof. vm_compute. auto. Qed.
(** ** C315 refuted: "what is left after removing instructions by a pattern is a definition": its own header and end can match too. *)
Theorem C315_definition_stays_refuted : ~ forall pat d, exists d', fst (fst (sub_remove_matching Inform pat (entries_of d))) = entries_of d'.
Proof. intros H. destruct (H (fun _ => true) ex_d) as [d' E]. vm_compute in E. discriminate. Qed.
Print Assumptions C315_definition_stays_refuted.

(** ** C313 refuted: "an instruction added to the sub-circuit of an instance is in that sub-circuit when the netlist is saved." Nothing is
    written for the instance, as its copy is not marked as modified; and if a later edit marks it, the instruction is behind the end
    of the sub-circuit. *)
Definition fresh (i : inst) : Prop := i_copy i = None.
Theorem C313_instance_instruction_refuted : forall i instr i', fresh i -> inst_add instr i = Some i' ->
  written i' = (i_value i, []) /\
  forall m n l, i_copy i' = Some (m, n, l) -> l <> clone (i_def i) (i_value i ++ s2l "_" ++ i_ref i) ->
    exists inside e, l = inside ++ [Prim false (Some (footer n)); e; Plain last_line].
Proof.
  intros i instr i' FR H. unfold inst_add, own_copy in H. rewrite FR in H. set (nn := i_value i ++ s2l "_" ++ i_ref i) in *.
  destruct (sub_add instr (clone (i_def i) nn)) as [l'|] eqn:A; [|discriminate]. injection H as <-. split; [reflexivity|]. intros m n l E. cbn [i_copy] in E. injection E as <- <- <-. intros NE.
  unfold sub_add in A. destruct (line_command instr) as [cmd|]; [|discriminate]. destruct (is_unique cmd) as [[|]|]; try discriminate. destruct (str_eqb cmd (s2l ".PARAM")); [discriminate|].
  destruct (first_same instr (clone (i_def i) nn)) as [[k|]|]; [injection A as <-; contradiction NE; reflexivity| |discriminate].
  assert (insert_item (clone (i_def i) nn) (length (clone (i_def i) nn) - 1) (entry_for (ended instr) cmd) = l') as HL by congruence. clear A. subst l'.
  set (inside := Plain first_line :: Plain (header nn (d_nodes (i_def i))) :: map cloned (d_body (i_def i))).
  assert (clone (i_def i) nn = (inside ++ [Prim false (Some (footer nn))]) ++ [Plain last_line]) as E. { unfold clone, inside. cbn [app]. rewrite <- app_assoc. reflexivity. }
  exists inside, (entry_for (ended instr) cmd). rewrite E.
  match goal with |- insert_item (?a ++ ?b) _ _ = _ => replace (length (a ++ b) - 1) with (length a) by (rewrite (app_length a b); cbn [length]; lia) end.
  rewrite insert_at, <- app_assoc. reflexivity.
Qed.
Print Assumptions C313_instance_instruction_refuted.
(** The copy made for an instance: the lines of the definition between two comments, with the name of the copy in the header and at the end;
    the control sections of the definition are lines of the copy, and none of them is a control section of it. *)
Theorem C313_copy_lines : forall d n body, saved (d_body d) = Some body ->
  saved (entries_of d) = Some (s2l ".subckt " ++ d_name d ++ s2l " " ++ d_nodes d ++ NLs ++ body ++ s2l ".ENDS " ++ d_name d ++ NLs) /\
  saved (clone d n) = Some (s2l "***** SpiceEditor Manipulated this sub-circuit ****" ++ NLs ++ s2l ".subckt " ++ n ++ s2l " " ++ d_nodes d ++ NLs ++ body ++
                            s2l ".ENDS " ++ n ++ NLs ++ s2l "***** ENDS SpiceEditor ****" ++ NLs) /\
  get_controls (clone d n) = [].
Proof.
  assert (forall l r t, saved l = Some t -> saved (l ++ r) = option_map (fun u => t ++ u) (saved r)) as APP.
  { induction l as [|e l IH]; intros r t H; cbn [saved app] in *; [injection H as <-; destruct (saved r); reflexivity|].
    destruct (match e with Prim _ o => o | Plain s => Some s | Nested k => Some (concat k) end) as [x|]; [|discriminate]. destruct (saved l) as [y|]; [|discriminate]. injection H as <-.
    rewrite (IH r y eq_refl). destruct (saved r); [cbn [option_map]; rewrite <- app_assoc; reflexivity|reflexivity]. }
  assert (forall l, saved (map cloned l) = saved l) as CL.
  { induction l as [|e l IH]; [reflexivity|]. cbn [map saved]. rewrite IH. destruct e; reflexivity. }
  intros d n body H. split; [|split].
  - unfold entries_of. cbn [saved]. rewrite (APP _ _ _ H). cbn [saved option_map]. unfold header, footer. rewrite !app_nil_r, <- !app_assoc. reflexivity.
  - unfold clone. cbn [saved]. rewrite (APP _ _ body) by (rewrite CL; exact H). cbn [saved option_map]. unfold first_line, last_line, header, footer. rewrite !app_nil_r, <- !app_assoc. reflexivity.
  - unfold clone. cbn [get_controls]. generalize (d_body d). induction l as [|e l IH]; [reflexivity|]. destruct e; exact IH.
Qed.
Print Assumptions C313_copy_lines.
Definition ex_i : inst := {| i_ref := s2l "X1"; i_value := s2l "amp"; i_def := ex_d; i_copy := None; i_log := [] |}.
Example C313_nonvacuous : exists i', inst_add (s2l ".options reltol=1m") ex_i = Some i' /\ match i_copy i' with Some (_, _, l) => l <> clone ex_d (s2l "amp_X1") | None => False end.
Proof. eexists. split; [vm_compute; reflexivity|]. vm_compute. discriminate. Qed.

(** ** C314 refuted: "removing an instruction that is not there changes nothing." For an instance the statement is given the name of the copy,
    which is not written: what is saved names a sub-circuit that does not exist. *)
Theorem C314_absent_instruction_refuted : forall i instr, fresh i -> i_ref i <> [] -> first_same instr (clone (i_def i) (i_value i ++ s2l "_" ++ i_ref i)) = Some None ->
  exists i', inst_remove instr i = Some (false, i') /\ written i' = (i_value i ++ s2l "_" ++ i_ref i, []) /\ fst (written i') <> i_value i /\ i_log i' <> i_log i.
Proof.
  intros i instr FR NE F. unfold inst_remove, begin_update, own_copy. rewrite FR. cbv zeta. cbn [i_copy]. rewrite F. eexists. split; [reflexivity|]. cbn [written i_value i_copy fst i_log]. split; [reflexivity|]. split.
  - intros E. apply (f_equal (@length ascii)) in E. rewrite !app_length in E. cbn [length s2l] in E. change (length (s2l "_")) with 1 in E. lia.
  - unfold note. intros E. apply (f_equal (@length logged)) in E. rewrite !app_length in E. cbn [length] in E. lia.
Qed.
Print Assumptions C314_absent_instruction_refuted.
Example C314_nonvacuous : fresh ex_i /\ i_ref ex_i <> [] /\ first_same (s2l ".ic v(a)=1") (clone (i_def ex_i) (i_value ex_i ++ s2l "_" ++ i_ref ex_i)) = Some None.
Proof. split; [reflexivity|]. split; [discriminate|]. vm_compute. reflexivity. Qed.

(** ** C312 refuted: "a control section that is added is listed and saved." Its text is lost; the list has nothing in its place, the netlist
    cannot be saved any more, and looking for an instruction that is not in front of it is an error. *)
Theorem C312_control_section_added_refuted : forall text l l', add_control text l = Some l' -> first_same (strip text) l = Some None ->
  line_command (ended (strip text)) = Some (s2l ".CONTROL") ->
  (exists a b, l = a ++ b /\ l' = a ++ Prim true None :: b) /\ In None (get_controls l') /\ saved l' = None /\
  forall instr, first_same instr l = Some None -> first_same instr l' = None /\ snd (sub_remove Inform instr l') = None.
Proof.
  intros text l l' H F LC. unfold add_control in H. cbv zeta in H. destruct (startswith (s2l ".CONTROL") (upper (strip text)) && endswith (s2l ".ENDC") (upper (strip text))); [|discriminate].
  rewrite LC, F in H. destruct (backanno_at l) as [p|]; [|discriminate].
  assert (insert_item l (match p with Some k => k | None => length l - 1 end) (entry_for (ended (strip text)) (s2l ".CONTROL")) = l') as HL by congruence. clear H. subst l'. set (k := match p with Some k => k | None => length l - 1 end). change (entry_for (ended (strip text)) (s2l ".CONTROL")) with (Prim true None).
  assert (exists a b, l = a ++ b /\ insert_item l k (Prim true None) = a ++ Prim true None :: b) as (a & b & E & ->) by (exists (firstn k l), (skipn k l); split; [symmetry; apply firstn_skipn|reflexivity]).
  assert (forall a b, In None (get_controls (a ++ Prim true None :: b))) as G1 by (intros x y; induction x as [|[[|] o|s|n] x IH]; cbn [app get_controls]; [left; reflexivity|right; exact IH|exact IH|exact IH|exact IH]).
  assert (forall a b, saved (a ++ Prim true None :: b) = None) as G2.
  { intros x y. induction x as [|e x IH]; [reflexivity|]. cbn [app saved]. rewrite IH. destruct e as [c [s|]|s|n]; reflexivity. }
  assert (forall instr, first_same instr l = Some None -> first_same instr (a ++ Prim true None :: b) = None) as G3.
  { intros instr F2. rewrite E in F2. destruct (first_same_split _ _ _ F2) as [FA _]. rewrite (first_same_app _ _ _ FA). reflexivity. }
  split; [exists a, b; auto|]. split; [apply G1|]. split; [apply G2|]. intros instr F2. rewrite E in F2. rewrite <- E in F2. split; [apply G3; exact F2|]. unfold sub_remove. rewrite (G3 instr F2). reflexivity.
Qed.
Print Assumptions C312_control_section_added_refuted.
Definition ex_c : str := s2l ".control" ++ NLs ++ s2l "run" ++ NLs ++ s2l ".endc".
Example C312_nonvacuous : exists l', add_control ex_c [Plain (s2l "* t" ++ NLs); Prim false (Some (s2l "R1 a 0 1k" ++ NLs)); Prim false (Some (s2l ".end" ++ NLs))] = Some l' /\
  first_same (strip ex_c) [Plain (s2l "* t" ++ NLs); Prim false (Some (s2l "R1 a 0 1k" ++ NLs)); Prim false (Some (s2l ".end" ++ NLs))] = Some None /\
  line_command (ended (strip ex_c)) = Some (s2l ".CONTROL").
Proof. eexists. split; [vm_compute; reflexivity|]. split; vm_compute; reflexivity. Qed.

(** ** C316: the control sections read from a file: listed in order with their texts; removing the one with index i takes away exactly it (the
    i-th of the list) and leaves everything else; an index beyond the last removes nothing and is told by the result. *)
Definition control_texts (l : list entry) : list str := flat_map (fun e => match e with Prim true (Some s) => [s] | _ => [] end) l.
Theorem C316_control_sections : forall l, (forall c, ~ In (Prim c None) l) ->
  get_controls l = map Some (control_texts l) /\
  (forall i, i < length (control_texts l) -> exists a s b, l = a ++ Prim true (Some s) :: b /\ length (control_texts a) = i /\ remove_control (Z.of_nat i) l = (a ++ b, Some true)) /\
  (forall i, length (control_texts l) <= i -> remove_control (Z.of_nat i) l = (l, Some false)) /\
  (forall z, (z < 0)%Z -> remove_control z l = (l, None)).
Proof.
  intros l H. assert (forall i, remove_control (Z.of_nat i) l = remove_nth_control i l) as RC.
  { intros i. unfold remove_control. destruct (Z.ltb_spec (Z.of_nat i) 0); [lia|]. rewrite Nat2Z.id. reflexivity. }
  split; [|split; [|split]].
  - clear RC. induction l as [|e l IH]; [reflexivity|]. assert (get_controls l = map Some (control_texts l)) as E by (apply IH; intros c I; exact (H c (or_intror I))).
    destruct e as [[|] [s|]|s|n]; cbn [get_controls control_texts flat_map app map]; fold (control_texts l); try (rewrite E; reflexivity). exfalso. exact (H true (or_introl eq_refl)).
  - intros i L. rewrite RC. clear RC. revert i L. induction l as [|e l IH]; intros i L; [cbn in L; lia|].
    assert (HT : forall c, ~ In (Prim c None) l) by (intros c I; exact (H c (or_intror I))).
    assert (STEP : (forall s, e <> Prim true s) -> exists a s b, e :: l = a ++ Prim true (Some s) :: b /\ length (control_texts a) = i /\ (let '(k, r) := remove_nth_control i l in (e :: k, r)) = (a ++ b, Some true)).
    { intros NE. assert (control_texts (e :: l) = control_texts l) as CE by (destruct e as [[|] o|s|n]; [exfalso; exact (NE o eq_refl)|reflexivity|reflexivity|reflexivity]).
      rewrite CE in L. destruct (IH HT i L) as (a & s & b & -> & LA & R). exists (e :: a), s, b. split; [reflexivity|]. rewrite R. split; [|reflexivity].
      destruct e as [[|] o|s'|n]; [exfalso; exact (NE o eq_refl)|exact LA|exact LA|exact LA]. }
    destruct e as [[|] o|s|n].
    + destruct o as [s|]; [|exfalso; exact (H true (or_introl eq_refl))]. destruct i as [|i].
      * exists [], s, l. split; [reflexivity|]. split; reflexivity.
      * cbn [control_texts flat_map app length] in L. fold (control_texts l) in L. destruct (IH HT i ltac:(lia)) as (a & s' & b & -> & LA & R). exists (Prim true (Some s) :: a), s', b. split; [reflexivity|].
        split; [cbn [control_texts flat_map app length]; fold (control_texts a); lia|]. cbn [remove_nth_control]. rewrite R. reflexivity.
    + apply STEP. discriminate.
    + apply STEP. discriminate.
    + apply STEP. discriminate.
  - intros i L. rewrite RC. clear RC. revert i L. induction l as [|e l IH]; intros i L; [destruct i; reflexivity|].
    assert (HT : forall c, ~ In (Prim c None) l) by (intros c I; exact (H c (or_intror I))).
    destruct e as [[|] [s|]|s|n]; cbn [control_texts flat_map app length] in L; fold (control_texts l) in L; cbn [remove_nth_control].
    + destruct i as [|i]; [lia|]. rewrite (IH HT i) by lia. reflexivity.
    + exfalso. exact (H true (or_introl eq_refl)).
    + rewrite (IH HT i L). reflexivity.
    + exfalso. exact (H false (or_introl eq_refl)).
    + rewrite (IH HT i L). reflexivity.
    + rewrite (IH HT i L). reflexivity.
  - intros z Hz. unfold remove_control. destruct (Z.ltb_spec z 0); [reflexivity|lia].
Qed.
Print Assumptions C316_control_sections.
Example C316_nonvacuous : let l := [Prim true (Some (s2l ".control a")); Prim false (Some (s2l "R1 a 0 1k")); Prim true (Some (s2l ".control b"))] in
  get_controls l = [Some (s2l ".control a"); Some (s2l ".control b")] /\ remove_control 1 l = ([Prim true (Some (s2l ".control a")); Prim false (Some (s2l "R1 a 0 1k"))], Some true).
Proof. split; reflexivity. Qed.

(** A control section that is in the netlist (but for outer blanks) and is added again: nothing changes. *)
Theorem C316_added_again : forall text l cmd, (forall c, ~ In (Prim c None) l) -> (exists c s, In (Prim c (Some s)) l /\ strip s = strip text) ->
  startswith (s2l ".CONTROL") (upper (strip text)) = true -> endswith (s2l ".ENDC") (upper (strip text)) = true -> line_command (ended (strip text)) = Some cmd ->
  add_control text l = Some l.
Proof.
  intros text l cmd H (c & s & I & S1) B E LC. unfold add_control. rewrite B, E, LC. cbn [andb].
  destruct (first_same (strip text) l) as [[k|]|] eqn:F; [reflexivity| |].
  - apply first_same_none in F. rewrite Forall_forall in F. exfalso. apply (F _ I). exists c, s. split; [reflexivity|]. rewrite QEdProofs4.strip_strip. exact S1.
  - exfalso. clear - H F. induction l as [|e l IH]; [discriminate|]. destruct e as [c [s|]|s|n]; cbn [first_same] in F.
    + destruct (str_eqb (strip s) (strip (strip text))); [discriminate|]. apply IH; [intros c' I; exact (H c' (or_intror I))|]. destruct (first_same (strip text) l); [discriminate|reflexivity].
    + exact (H c (or_introl eq_refl)).
    + apply IH; [intros c' I; exact (H c' (or_intror I))|]. destruct (first_same (strip text) l); [discriminate|reflexivity].
    + apply IH; [intros c' I; exact (H c' (or_intror I))|]. destruct (first_same (strip text) l); [discriminate|reflexivity].
Qed.
Print Assumptions C316_added_again.
Example C316_added_again_nonvacuous : let l := [Plain (s2l "* t" ++ NLs); Prim true (Some (ex_c ++ NLs)); Prim false (Some (s2l ".end" ++ NLs))] in
  (exists c s, In (Prim c (Some s)) l /\ strip s = strip ex_c) /\ line_command (ended (strip ex_c)) = Some (s2l ".CONTROL") /\ add_control ex_c l = Some l.
Proof. split; [|split; vm_compute; reflexivity]. exists true, (ex_c ++ NLs). split; [right; left; reflexivity|vm_compute; reflexivity]. Qed.
