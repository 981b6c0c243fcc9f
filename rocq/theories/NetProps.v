(** Property C30: reading and writing netlists (spicelib/editor/spice_subcircuit.py, spice_file.py). *)
From Coq Require Import String Ascii List Bool Arith.
From Verif Require Import PyStr EngModel PTokModel PTokSpec Regex CompModel CompSpec CompProofs CompProps SepModel SepSpec SepProofs NetModel NetSpec NetProofs.
Import ListNotations.
Local Open Scope string_scope.
Local Open Scope list_scope.

(** [inc] gives the items of an include file: those read from the lines of the file, for every include statement of the document *)
Definition includes_found (inc : str -> option (list item)) (d : doc) : Prop := fold_right and True (map (inc_ok inc) (d_body d)).

(** Any well-formed document, in any layout, with any nesting of sub-circuits, control sections and include statements: it is read, and
    saved as a document with the same statements in the same order and nesting, up to blanks. *)
Theorem C30_statements_kept : forall inc d, doc_ok good_names d -> includes_found inc d ->
  exists items d', load_lines inc false (doc_lines d) = Some items /\ write_items items = Some (concat (doc_lines d')) /\ same_doc d d'.
Proof.
  intros inc d HD HI. exists (doc_items d), (tidy_doc d). split; [apply load_doc with (named := good_names); [exact HD|exact HI]|].
  split; [apply write_doc with (named := good_names); [exact good_names_ok|exact HD]|apply tidy_same_doc with (named := good_names); exact HD].
Qed.
Print Assumptions C30_statements_kept.
(** A document in the library's own layout is saved as it was, character by character. *)
Theorem C30_canonical_identical : forall inc d, doc_ok good_names d -> includes_found inc d -> doc_canonical d ->
  exists items, load_lines inc false (doc_lines d) = Some items /\ write_items items = Some (concat (doc_lines d)).
Proof.
  intros inc d HD HI HC. exists (doc_items d). split; [apply load_doc with (named := good_names); [exact HD|exact HI]|].
  rewrite (write_doc good_names good_names_ok d HD). rewrite (canonical_doc good_names d HD HC). reflexivity.
Qed.
Print Assumptions C30_canonical_identical.
(** The same from the characters of the file: statements may be spread over continuation lines (C29). *)
Theorem C30_text : forall inc d ss, doc_ok good_names d -> includes_found inc d ->
  Forall statement_ok ss -> map one_line ss = doc_lines d ->
  exists items d', load_text inc false (concat (map in_file ss)) = Some items /\ write_items items = Some (concat (doc_lines d')) /\ same_doc d d' /\
    (doc_canonical d -> d' = d).
Proof.
  intros inc d ss HD HI HS HM. exists (doc_items d), (tidy_doc d). unfold load_text. rewrite (sep_statements ss HS), HM.
  split; [apply load_doc with (named := good_names); [exact HD|exact HI]|].
  split; [apply write_doc with (named := good_names); [exact good_names_ok|exact HD]|]. split; [apply tidy_same_doc with (named := good_names); exact HD|].
  apply canonical_doc with (named := good_names). exact HD.
Qed.
Print Assumptions C30_text.

(** A case with everything: a title, a sub-circuit holding another one, components, a control section, an include file. *)
Definition ex_note (s : string) : stmt := Note (s2l s).
Definition ex_inner : stmt := Circuit (s2l ".subckt inner a b") [Part ex_c; ex_note "* inside"] (s2l ".ends inner").
Definition ex_body : list stmt :=
  [ex_note "* title"; Directive (s2l "  .param x=1 "); Circuit (s2l ".SUBCKT outer a b") [ex_inner; Part (ex_x "inner")] (s2l ".ENDS");
   Include (s2l ".include lib.inc") [ex_note "* lib"; Part (ex_x "opamp")]; Control (s2l ".control") [s2l "run "; s2l "  .print x"] (s2l ".endc"); ex_note ""; Part ex_c].
Definition ex_doc : doc := {| d_body := ex_body; d_end := s2l ".end"; d_after := [s2l "* after"] |}.
Definition ex_inc (l : str) : option (list item) := Some [IText (full (s2l "* lib")); IInst (comp_text (ex_x "opamp")) None None].
Lemma ex_word : forall w b u r l, l = b ++ u ++ r -> forallb (fun c => aeqb c " ") b = true -> (exists v, u = "."%char :: v) ->
  forallb (fun c => negb (mem_c c [" "%char; "009"%char; NL; CR])) u = true -> match r with [] => True | c :: _ => c = " "%char end -> w = upper u -> first_word w l.
Proof.
  intros w b u r l E HB HU HW HR HE. exists b, u, r. split; [exact E|]. split.
  - intros c Hc. left. rewrite forallb_forall in HB. apply aeqb_eq. apply HB. exact Hc.
  - split; [exact HU|]. split; [|split; [destruct r; [exact I|left; exact HR]|exact HE]]. intros c Hc [G|[G|[G|G]]]; rewrite forallb_forall in HW; specialize (HW c Hc); rewrite G in HW; vm_compute in HW; discriminate HW.
Qed.
Example C30_nonvacuous :
  doc_ok good_names ex_doc /\ includes_found ex_inc ex_doc /\
  doc_canonical {| d_body := [ex_note "* title"; ex_inner; Part ex_c]; d_end := s2l ".end"; d_after := [] |} /\
  option_map l2s (match load_lines ex_inc false (doc_lines ex_doc) with Some l => write_items l | None => None end) =
  Some (l2s (concat (map (fun s => s2l s ++ [NL]) ["* title"; ".param x=1"; ".SUBCKT outer a b"; ".subckt inner a b"; "Rload1 in out+ 10k tc=1m pwr=0.5 ; the load";
    "* inside"; ".ends inner"; "XU1 in out inner gain=2"; ".ENDS"; "* lib"; "XU1 in out opamp gain=2"; ".control"; "run"; "  .print x"; ".endc"; "";
    "Rload1 in out+ 10k tc=1m pwr=0.5 ; the load"; ".end"; "* after"]))).
Proof.
  destruct C31_nonvacuous as (_ & A1 & A2 & _). destruct C31_nonvacuous_instance as (_ & B1 & B2 & B3 & _).
  assert (part_ok good_names ex_c) as PC by (split; [exact A1|split; [exact A2|intros lo hi H; discriminate H]]).
  assert (forall v, comp_ok (ex_x v) -> part_ok good_names (ex_x v)) as PX by (intros v H; split; [exact H|split; [exact B3|intros lo hi G; discriminate G]]).
  assert (comp_ok (ex_x "inner")) as B4.
  { destruct B1 as (Q1 & Q2 & Q3 & Q4 & Q5 & Q6 & Q7 & Q8 & Q9 & f & lo & hi & R1 & R2 & R3 & R4 & R5 & R6).
    split; [exact Q1|]. split; [exact Q2|]. split; [exact Q3|]. split; [exact Q4|]. split; [discriminate|]. split; [exact Q6|]. split; [exact Q7|]. split; [exact Q8|]. split.
    - intros a Ha. assert (forallb (fun a => negb (aeqb a NL) && negb (aeqb a CR)) (comp_body (ex_x "inner")) = true) as Hb by (vm_compute; reflexivity).
      rewrite forallb_forall in Hb. specialize (Hb a Ha). rewrite andb_true_iff, !negb_true_iff, !aeqb_neq in Hb. exact Hb.
    - exists f, lo, hi. split; [exact R1|]. split; [exact R2|]. split; [exact R3|]. cbn in R1. injection R1 as <- <- <-. split; [|split; [exact R5|exact R6]].
      split; [discriminate|]. intros c Hc. left. cbn in Hc. repeat (destruct Hc as [<-|Hc]; [reflexivity|]). destruct Hc. }
  assert (forall s, (exists c r, s2l s = c :: r /\ In c (s2l "#;*")) \/ s2l s = [] -> is_note (s2l s)) as NT.
  { intros s [(c & r & E & H)|E]; exists [], (s2l s); (split; [reflexivity|]); (split; [intros x []|]); rewrite E; [left; exact H|exact I]. }
  assert (first_word (s2l ".SUBCKT") (s2l ".subckt inner a b") /\ first_word (s2l ".ENDS") (s2l ".ends inner")) as [W1 W2].
  { split; [eapply (ex_word _ [] (s2l ".subckt") (s2l " inner a b"))|eapply (ex_word _ [] (s2l ".ends") (s2l " inner"))]; try reflexivity; eexists; reflexivity. }
  assert (stmt_ok good_names ex_inner) as OI.
  { split; [exact W1|]. split; [|exact W2]. split; [exact PC|]. split; [|exact I]. apply NT. left. exists "*"%char, (s2l " inside"). split; [reflexivity|right; right; left; reflexivity]. }
  split; [split; [|split]|split; [|split]].
  - split; [apply NT; left; eexists _, _; split; [reflexivity|right; right; left; reflexivity]|].
    split. { exists (s2l ".PARAM"). split; [eapply (ex_word _ (s2l "  ") (s2l ".param") (s2l " x=1 ")); try reflexivity; eexists; reflexivity|].
             split; [discriminate|]. split; [discriminate|]. split; intros [r G]; discriminate G. }
    split. { split; [eapply (ex_word _ [] (s2l ".SUBCKT") (s2l " outer a b")); try reflexivity; eexists; reflexivity|].
             split; [split; [exact OI|split; [apply PX; exact B4|exact I]]|eapply (ex_word _ [] (s2l ".ENDS") []); try reflexivity; try exact I; eexists; reflexivity]. }
    split. { split; [exists (s2l ".INCLUDE"); split; [eapply (ex_word _ [] (s2l ".include") (s2l " lib.inc")); try reflexivity; eexists; reflexivity|exists (s2l "LUDE"); reflexivity]|].
             split; [apply NT; left; eexists _, _; split; [reflexivity|right; right; left; reflexivity]|]. split; [apply PX; exact B1|exact I]. }
    split. { split; [eapply (ex_word _ [] (s2l ".control") []); try reflexivity; try exact I; eexists; reflexivity|]. split; [|exists []; reflexivity].
             intros l [<-|[<-|[]]] [r G]; discriminate G. }
    split; [apply NT; right; reflexivity|]. split; [exact PC|exact I].
  - exists (s2l ".END"). split; [eapply (ex_word _ [] (s2l ".end") []); try reflexivity; try exact I; eexists; reflexivity|exists []; reflexivity].
  - intros l [<-|[]]. apply NT. left. eexists _, _. split; [reflexivity|right; right; left; reflexivity].
  - cbn [includes_found ex_doc ex_body ex_inner ex_note d_body map inc_ok fold_right]. repeat (split; try exact I).
  - split; [|reflexivity]. split; [exact I|]. split; [split; [reflexivity|split; [split; [repeat constructor|split; exact I]|reflexivity]]|]. split; [repeat constructor|exact I].
  - vm_compute. reflexivity.
Qed.

(** Property C70.  Netlists that simulators accept and that are not kept: components written in lower case or indented cannot be saved
    (the letter is looked up as it is written), although they are read; the statements after a directive whose name only begins with .END
    are dropped silently, as is a definition without .ENDS in an include file. *)
Definition load_and_save (include_file : bool) (lines : list string) : option (option str) :=
  option_map write_items (load_lines (fun _ => None) include_file (map (fun s => full (s2l s)) lines)).
Theorem C70_not_kept_refuted :
  load_and_save false ["r1 a b 10k"; ".end"] = Some None /\
  load_and_save false ["  R1 a b 10k"; ".end"] = Some None /\
  load_and_save false [".include missing.inc"; ".end"] = Some None /\
  (exists t, load_and_save false [".lib fast"; "R1 a b 1"; ".endl"; "R2 a b 1"; ".end"] = Some (Some t) /\
             load_and_save false [".lib fast"; "R1 a b 1"; ".endl"] = Some (Some t)) /\
  load_and_save true [".subckt a b c"; "R1 b c 1"] = Some (Some []).
Proof. repeat split; try (vm_compute; reflexivity). eexists. split; vm_compute; reflexivity. Qed.
Print Assumptions C70_not_kept_refuted.
(** Whatever follows a line whose first word begins with .END, only comments are kept. *)
Theorem C70_after_end_refuted : forall inc pre l post items w, (forall x, In x pre -> is_note x) -> first_word w l -> begins (s2l ".END") w ->
  (forall x c, In x post -> line_command x = Some c -> c <> s2l "*") ->
  load_lines inc false (map full pre ++ full l :: post) = Some items -> items = map (fun x => IText (full x)) pre ++ [IPrim (full l)].
Proof.
  intros inc pre l post items w HP HW HE HN. unfold load_lines.
  assert (forall acc, add_lines inc acc [] None (map full pre ++ full l :: post) = Some (true, rev acc ++ map (fun x => IText (full x)) pre ++ [IPrim (full l)], post)) as A.
  { induction pre as [|x pre IH]; intros acc.
    - cbn [map app add_lines]. rewrite (lc_word _ _ HW). destruct HE as [r ->].
      change (str_eqb (s2l ".END" ++ r) (s2l ".SUBCKT")) with false. change (str_eqb (s2l ".END" ++ r) (s2l ".CONTROL")) with false. change (startswith (s2l ".INC") (s2l ".END" ++ r)) with false.
      change (str_eqb (s2l ".END" ++ r) (s2l "+")) with false. change (str_eqb (s2l ".END" ++ r) (s2l "X")) with false. change (str_eqb (s2l ".END" ++ r) (s2l "*")) with false.
      change (match s2l ".END" ++ r with [c] => valid_prefix c | _ => false end) with false. change (startswith (s2l ".END") (s2l ".END" ++ r)) with true. cbv iota. reflexivity.
    - cbn [map app add_lines]. rewrite lc_note by (apply HP; left; reflexivity). change (str_eqb (s2l "*") (s2l "*")) with true. cbv iota.
      replace (str_eqb (s2l "*") (s2l ".SUBCKT")) with false by reflexivity. cbn [str_eqb]. 
      change (str_eqb (s2l "*") (s2l ".CONTROL")) with false. change (startswith (s2l ".INC") (s2l "*")) with false. change (str_eqb (s2l "*") (s2l "+")) with false. change (str_eqb (s2l "*") (s2l "X")) with false.
      change (match s2l "*" with [c] => valid_prefix c | _ => false end) with false. cbv iota. rewrite IH by (intros y Hy; apply HP; right; exact Hy). cbn [rev]. rewrite <- app_assoc. reflexivity. }
  rewrite A. cbn [rev app]. assert (forall p k, (forall x c, In x p -> line_command x = Some c -> c <> s2l "*") -> after_end p = Some k -> k = []) as K.
  { induction p as [|x p IH]; intros k HH; cbn [after_end]; [intros E; injection E as <-; reflexivity|]. destruct (line_command x) as [c|] eqn:Ec; [|discriminate].
    destruct (after_end p) as [k'|] eqn:Ek; [|discriminate]. assert (str_eqb c (s2l "*") = false) as ->.
    { apply str_neq. intros G. apply (HH x c); [left; reflexivity|exact Ec|exact G]. }
    intros E. injection E as <-. apply IH; [intros y d Hy; apply HH; right; exact Hy|reflexivity]. }
  destruct (after_end post) as [k|] eqn:Ek; [|discriminate]. rewrite (K _ _ HN Ek). cbn [orb]. intros E. injection E as <-. rewrite app_nil_r. reflexivity.
Qed.
Print Assumptions C70_after_end_refuted.

(** Property C80: a netlist without .END is refused, whatever its lines are; those of an include file need none. *)
Lemma lc_end : forall s cmd, line_command s = Some cmd -> startswith (s2l ".END") cmd = true -> exists b r, s = b ++ r /\ blanks b /\ begins (s2l ".END") (upper r).
Proof.
  induction s as [|c s IH]; intros cmd H HS; [discriminate H|]. cbn [line_command] in H. destruct (is_blank c) eqn:EB.
  - destruct (IH cmd H HS) as (b & r & -> & HB & HR). exists (c :: b), r. split; [reflexivity|]. split; [|exact HR]. intros x [<-|Hx]; [|apply HB; exact Hx].
    unfold is_blank in EB. apply orb_true_iff in EB. rewrite !aeqb_eq in EB. exact EB.
  - cbv zeta in H. destruct (valid_prefix (upper1 c)); [injection H as <-; change (s2l ".END") with ["."%char; "E"%char; "N"%char; "D"%char] in HS; cbn [startswith] in HS; destruct (aeqb "." (upper1 c)); discriminate HS|]. destruct (aeqb c "+"); [injection H as <-; discriminate HS|].
    destruct (mem_c c (s2l "#;*") || is_nl c); [injection H as <-; discriminate HS|]. destruct (aeqb c "."); [|discriminate H]. injection H as <-. exists [], (c :: s). split; [reflexivity|]. split; [intros x []|].
    assert (forall t, exists q, t = take_word t ++ q) as K. { induction t as [|x t [q IHt]]; [exists []; reflexivity|]. cbn [take_word]. destruct (word_end x); [exists (x :: t); reflexivity|]. exists q. cbn [app]. f_equal. exact IHt. }
    destruct (K (c :: s)) as [q Eq]. apply begins_iff in HS. destruct HS as [z Hz]. exists (z ++ upper q). transitivity (upper (take_word (c :: s) ++ q)); [rewrite <- Eq; reflexivity|]. unfold upper. rewrite map_app. change (map upper_c (take_word (c :: s))) with (upper (take_word (c :: s))). rewrite app_assoc. f_equal. exact Hz.
Qed.
Theorem C80_end_required : forall inc lines items, load_lines inc false lines = Some items ->
  exists pre l post b r, lines = pre ++ l :: post /\ l = b ++ r /\ blanks b /\ begins (s2l ".END") (upper r).
Proof.
  intros inc lines items H. unfold load_lines in H. destruct (add_lines inc [] [] None lines) as [[[f its] rest]|] eqn:E; [|discriminate H]. destruct (after_end rest) as [kk|]; [|discriminate H].
  destruct f; [|discriminate H]. clear H. revert E. generalize (@nil item), (@nil (list item)), (@None str). induction lines as [|l lines IH]; intros acc stk ctl E; [discriminate E|].
  assert (forall acc stk ctl, add_lines inc acc stk ctl lines = Some (true, its, rest) -> exists pre l0 post b r, l :: lines = pre ++ l0 :: post /\ l0 = b ++ r /\ blanks b /\ begins (s2l ".END") (upper r)) as K.
  { intros a s k G. destruct (IH a s k G) as (pre & l0 & post & b & r & -> & R). exists (l :: pre), l0, post, b, r. split; [reflexivity|exact R]. }
  cbn [add_lines] in E. destruct ctl as [o|]; [destruct (startswith _ _); apply (K _ _ _ E)|]. destruct (line_command l) as [cmd|] eqn:EC; [|discriminate E].
  destruct (startswith (s2l ".END") cmd) eqn:EE.
  - destruct (lc_end _ _ EC EE) as (b & r & A & B & C). exists [], l, lines, b, r. repeat (split; [reflexivity || assumption|]). exact C.
  - repeat match type of E with (if ?b then _ else _) = _ => destruct b; [apply (K _ _ _ E) || (destruct (append_to l acc); [apply (K _ _ _ E)|discriminate E])|] end. apply (K _ _ _ E).
Qed.
Print Assumptions C80_end_required.
(** the same statements, with and without the line that ends them *)
Theorem C80_statements : forall inc b, body_ok good_names b -> fold_right and True (map (inc_ok inc) b) ->
  load_lines inc false (body_lines b) = None /\ (exists items, load_lines inc true (body_lines b) = Some items) /\
  (forall e w, first_word w e -> begins (s2l ".END") w -> exists items, load_lines inc false (body_lines b ++ [full e]) = Some items).
Proof.
  intros inc b HB HI. pose proof (load_body inc good_names b [] [] [] HB HI) as L. rewrite app_nil_r in L. split; [|split].
  - unfold load_lines. rewrite L. reflexivity.
  - unfold load_lines. rewrite L. cbn [add_lines after_end orb]. eexists. reflexivity.
  - intros e w HW HE. pose proof (load_doc inc good_names {| d_body := b; d_end := e; d_after := [] |} false) as LD. unfold doc_lines in LD. cbn [d_body d_end d_after map] in LD. rewrite LD; [eexists; reflexivity| |exact HI].
    split; [exact HB|]. split; [exists w; split; assumption|intros l []].
Qed.
Print Assumptions C80_statements.
Example C80_nonvacuous : body_ok good_names ex_body /\ fold_right and True (map (inc_ok ex_inc) ex_body) /\ load_lines ex_inc false (body_lines ex_body) = None /\
  load_lines ex_inc false (body_lines ex_body ++ [full (s2l ".END")]) <> None.
Proof.
  destruct C30_nonvacuous as ((HB & _) & HI & _). split; [exact HB|]. split; [exact HI|]. split; [vm_compute; reflexivity|]. intros H. vm_compute in H. discriminate H.
Qed.
