(** Property C31 for documents, C71: edits of components (spicelib/editor/spice_subcircuit.py). *)
From Coq Require Import String Ascii List Bool Arith.
From Verif Require Import PyStr EngModel PTokModel PTokSpec Regex CompModel CompSpec CompProofs CompProps SepModel UpdatesModel NetModel NetSpec NetProofs NetProps EditModel EditSpec EditProofs.
Import ListNotations.
Local Open Scope string_scope.
Local Open Scope nat_scope.
Local Open Scope list_scope.

(** Any edit of designator, nodes, value and parameters of one statement: the statement written is the one with the new attributes, with the
    comment of the old one.  (A designator that differs only in letter case is left as it was; the parameters written have the names and values
    of the new ones; they may not all be removed: see C65; the first parameter of a sub-circuit instance is written after two blanks,
    which this theorem leaves out.) *)
Theorem C31_edit_saved : forall c c' a, comp_ok c -> good_names (c_pars c) -> canonical c ->
  comp_ok c' -> good_names (c_pars c') -> canonical c' -> c_kind c' = c_kind c -> (c_pars c' = [] -> c_pars c = []) ->
  (c_kind c = "X"%char -> c_pars c = [] -> c_pars c' = []) ->
  CompModel.parse_line (comp_text c') = Some a ->
  exists ps, same_pars (c_pars c') ps /\ (ps = c_pars c' \/ ps = c_pars c) /\
  CompModel.rewrite (comp_text c) a = Some (comp_text
    {| c_kind := c_kind c;
       c_name := if str_eqb (upper (c_name c')) (upper (c_name c)) then c_name c else upper (c_name c');
       c_nodes := c_nodes c'; c_gap := [" "%char]; c_val := c_val c'; c_pars := ps; c_end := c_end c; c_note := c_note c |}).
Proof.
  intros c c' a HC HN HK HC' HN' HK' Hk Hp Hx HR. rewrite (edit_saved c c' a); auto. destruct (differences _ _) eqn:D.
  - exists (c_pars c'). split; [apply same_pars_refl|]. split; [left; reflexivity|reflexivity].
  - exists (c_pars c). split; [apply differences_same; rewrite <- !params_of_entry; exact D|]. split; [right; reflexivity|reflexivity].
Qed.
Print Assumptions C31_edit_saved.

(** A netlist is loaded and any sequence of edits of component values and parameters is made through the editor.  Then every reference,
    in any letter case, reads back the value, nodes and parameters of the edited statement; a missing one is an error; and what is saved
    are the edited statements. *)
Theorem C31_document : forall en inc d es items ed, doc_ok good_names d -> includes_found inc d ->
  load_lines inc false (doc_lines d) = Some items -> n_items ed = items -> n_perm ed <> Deny ->
  edits_ok es (statements d) -> (forall e, In e es -> no_definition_named (edit_ref e) (statements d)) ->
  let now := apply_edits es (statements d) in
  exists ed', do_edits en es ed = Some ed' /\
    (forall ref, ~ In ":"%char ref -> no_definition_named ref (statements d) ->
       match part_named ref now with
       | Some c => get_component_value en ref (n_items ed') = Some (c_val c) /\
                   get_component_nodes en ref (n_items ed') = Some (map snd (c_nodes c)) /\
                   get_component_parameters en ref (n_items ed') = Some (params_of (c_pars c))
       | None => get_component en ref (n_items ed') = None
       end) /\
    exists out, write_items (n_items ed') = Some (concat (body_lines out)) /\ saved now out /\
      ((forall e, In e es -> exists r v, e = SetValue r v) -> same_body now out).
Proof.
  intros en inc d es items ed HD HI HL HE HP HO HN now. rewrite (load_doc inc good_names d false HD HI) in HL. injection HL as <-.
  set (Q := fun c0 c => (forall e, In e es -> exists r v, e = SetValue r v) -> c_pars c = c_pars c0).
  destruct (edits_run Q en es ed (map (fun s => (s, tidy_stmt s)) (statements d))) as (ed' & st' & E & _ & V & M).
  { exact HP. } { rewrite HE. apply loaded_view. exact HD. } { rewrite map_fst_pair. exact HO. } { rewrite map_fst_pair. exact HN. } { intros c _. reflexivity. }
  { intros c0 c e He Hq HS. destruct (HS e He) as (r & v & ->). exact (Hq HS). }
  rewrite map_fst_pair in M. fold now in M. exists ed'. split; [exact E|]. split.
  - intros ref HR HDf. assert (no_definition_named ref (map fst st')) as HDf' by (rewrite M; apply defs_kept_all; exact HDf).
    destruct (part_named ref now) as [c|] eqn:F; rewrite <- M in F.
    + destruct (get_shown _ en ref _ _ c V HR HDf' F) as (it & G & A). unfold get_component_value, get_component_nodes, get_component_parameters. rewrite G, A. cbn [option_map attrs_of a_val a_ports a_par].
      split; [reflexivity|]. split; [reflexivity|]. rewrite params_of_entry. destruct (c_pars c); reflexivity.
    + apply (get_missing _ en ref _ _ V HR HDf' F).
  - exists (concat (map snd st')). split; [apply (view_write _ _ _ V)|]. split; [rewrite <- M; apply (view_saved _ _ _ V)|]. intros HS.
    rewrite <- M. apply (view_same Q (n_items ed')); [|exact V]. intros c0 c Hq. apply Hq. exact HS.
Qed.
Print Assumptions C31_document.

(** What an edit does to the statements: it changes the component it names and no other, and no designator. *)
Theorem C31_only_the_named_component : forall e l,
  (forall ref, upper ref <> upper (edit_ref e) -> part_named ref (apply_edit e l) = part_named ref l) /\
  part_named (edit_ref e) (apply_edit e l) = option_map (edit_comp e) (part_named (edit_ref e) l) /\
  designators (apply_edit e l) = designators l /\ length (apply_edit e l) = length l.
Proof.
  intros e l. unfold apply_edit. assert (forall c, designator (edit_comp e c) = designator c) as D.
  { intros c. destruct (edit_fixed e c) as (A & B & _). unfold designator. rewrite A, B. reflexivity. }
  induction l as [|s l (IH1 & IH2 & IH3 & IH4)]; [repeat split; reflexivity|]. unfold designators in *. destruct s as [x|x|c|x y z|x y z|x y]; cbn [on_part].
  1,2,4,5,6: (split; [exact IH1|split; [exact IH2|split; [exact IH3|cbn [length]; rewrite IH4; reflexivity]]]).
  destruct (str_eqb (designator c) (upper (edit_ref e))) eqn:E.
  - cbn [app part_named map concat length]. rewrite D, E. split; [|split; [reflexivity|split; reflexivity]]. intros ref H. apply str_eqb_eq in E.
    assert (str_eqb (designator c) (upper ref) = false) as ->; [|reflexivity]. apply str_neq. rewrite E. intros G. apply H. symmetry. exact G.
  - cbn [part_named map concat length]. rewrite E. split; [intros ref H; rewrite (IH1 ref H); reflexivity|]. split; [exact IH2|]. split; [rewrite IH3; reflexivity|rewrite IH4; reflexivity].
Qed.
Print Assumptions C31_only_the_named_component.

(** A case: the document of C30; the resistor is edited three times under different spellings of its reference. *)
Definition ex_edits : list edit := [SetValue (s2l "rload1") (s2l "4k7"); SetParam (s2l "RLOAD1") (s2l "tc") [Plain (s2l "2m")]; SetValue (s2l "RLoad1") (s2l "{x}")].
Definition ex_rc (v t : string) : comp := with_pars (with_value ex_c (s2l v)) [ex_par "tc" t; ex_par "pwr" "0.5"].
Lemma ex_rc_ok : forall v t, (simple_value (s2l v) \/ v = "{x}") -> forallb (fun c => negb (aeqb c NL) && negb (aeqb c CR)) (s2l v) = true -> t = "1m" \/ t = "2m" -> part_ok good_names (ex_rc v t) /\ canonical (ex_rc v t).
Proof.
  intros v t Hv Hn Ht. destruct (ex_value_ok (s2l "10k")) as (Q1 & Q2 & Q3 & Q4 & Q5 & Q6 & Q7 & Q8 & Q9 & Q10); [reflexivity|discriminate|].
  assert ((blank (fst (ex_par "tc" t)) /\ fst (ex_par "tc" t) <> [] /\ param_ok (snd (ex_par "tc" t))) /\ par_ok (snd (ex_par "tc" t))) as [P1 P1'] by (destruct Ht as [-> | ->]; apply ex_par_ok; try reflexivity; discriminate).
  destruct (ex_par_ok "pwr" "0.5") as [P2 P2']; try reflexivity; try discriminate. split; [split; [|split]|].
  - split; [exact Q1|]. split; [exact Q2|]. split; [exact Q3|]. split; [exact Q4|]. split; [discriminate|]. split; [split; [|reflexivity]; constructor; [exact P1|constructor; [exact P2|constructor]]|].
    split; [constructor; [exact P1'|constructor; [exact P2'|constructor]]|]. split; [discriminate|]. split.
    + intros a Ha. assert (forallb (fun a => negb (aeqb a NL) && negb (aeqb a CR)) (comp_body (ex_rc v t)) = true) as Hb.
      { unfold comp_body, ex_rc, with_pars, with_value. cbn [c_kind c_name c_nodes c_gap c_val c_pars c_end c_note forallb]. rewrite !forallb_app. rewrite !andb_true_iff. repeat split; try reflexivity; [exact Hn|].
        destruct Ht as [-> | ->]; reflexivity. }
      rewrite forallb_forall in Hb. specialize (Hb a Ha). rewrite andb_true_iff, !negb_true_iff, !aeqb_neq in Hb. exact Hb.
    + exists Passive, 2, 2. split; [reflexivity|]. split; [auto with arith|]. split; [auto with arith|]. split; [|split; discriminate]. destruct Hv as [Hv| ->]; [left; exact Hv|right].
      exists "{"%char, "}"%char, (s2l "x"). split; [left; reflexivity|]. split; [reflexivity|]. split; [intros [G|[]]; discriminate G|]. destruct Ht as [-> | ->]; intros G; vm_compute in G; repeat (destruct G as [G|G]; [discriminate G|]); destruct G.
  - split; [|constructor; [intros [G|[]]; discriminate G|constructor; [intros []|constructor]]].
    intros b p [E|[E|[]]]; injection E as <- <-; (split; [intros G; repeat (destruct G as [G|G]; [discriminate G|]); destruct G|vm_compute; reflexivity]).
  - intros lo hi G. discriminate G.
  - split; [repeat constructor|]. split; [reflexivity|]. split; [constructor; [split; [reflexivity|repeat constructor]|constructor; [split; [reflexivity|repeat constructor]|constructor]]|]. split; [reflexivity|].
    split; [exists ";"%char, (s2l " the load"); split; reflexivity|exists "d"%char, (s2l "; the loa"); split; reflexivity].
Qed.
Example C31_document_nonvacuous :
  edits_ok ex_edits (statements ex_doc) /\ (forall e, In e ex_edits -> no_definition_named (edit_ref e) (statements ex_doc)) /\
  option_map (fun c => l2s (comp_text c)) (part_named (s2l "RLOAD1") (apply_edits ex_edits (statements ex_doc))) =
  Some (String.append "Rload1 in out+ {x} tc=2m pwr=0.5 ; the load" (String NL EmptyString)).
Proof.
  assert (simple_value (s2l "4k7") /\ simple_value (s2l "10k")) as [S1 S2].
  { split; (split; [discriminate|]; split; [intros c Hc; cbn in Hc; repeat (destruct Hc as [<-|Hc]; [repeat split; discriminate || reflexivity|]); destruct Hc|]);
      intros G; vm_compute in G; repeat (destruct G as [G|G]; [discriminate G|]); destruct G. }
  split; [|split].
  - cbn [edits_ok ex_edits]. split; [|split; [|split; [|exact I]]]; (split; [intros G; vm_compute in G; repeat (destruct G as [G|G]; [discriminate G|]); destruct G|]).
    + destruct (ex_rc_ok "10k" "1m") as [_ K]; [left; exact S2|reflexivity|left; reflexivity|]. destruct (ex_rc_ok "4k7" "1m") as [O K']; [left; exact S1|reflexivity|left; reflexivity|].
      exists ex_c. split; [reflexivity|]. split; [exact K|]. split; [exact O|]. split; [exact K'|]. split; [discriminate|]. split; [discriminate|exact I].
    + destruct (ex_rc_ok "4k7" "1m") as [O K]; [left; exact S1|reflexivity|left; reflexivity|]. destruct (ex_rc_ok "4k7" "2m") as [O' K']; [left; exact S1|reflexivity|right; reflexivity|].
      exists (ex_rc "4k7" "1m"). split; [reflexivity|]. split; [exact K|]. split; [exact O'|]. split; [exact K'|]. split; [discriminate|]. split; [discriminate|exact I].
    + destruct (ex_rc_ok "4k7" "2m") as [O K]; [left; exact S1|reflexivity|right; reflexivity|]. destruct (ex_rc_ok "{x}" "2m") as [O' K']; [right; reflexivity|reflexivity|right; reflexivity|].
      exists (ex_rc "4k7" "2m"). split; [reflexivity|]. split; [exact K|]. split; [exact O'|]. split; [exact K'|]. split; [discriminate|]. split; [discriminate|exact I].
  - intros e He h b t Hi. assert (upper (edit_ref e) = s2l "RLOAD1") as -> by (destruct He as [<-|[<-|[<-|[]]]]; reflexivity).
    cbn in Hi. repeat (destruct Hi as [Hi|Hi]; [first [discriminate Hi | injection Hi as <- <- <-; exists (s2l "outer"); split; [|discriminate];
      exists (s2l "SUBCKT"), (s2l " "), (s2l " a b"); repeat (split; [reflexivity || discriminate|]); reflexivity]|]). destruct Hi.
  - vm_compute. reflexivity.
Qed.

(** Property C71: references that do not denote the component.  A definition with the same name hides it, wherever it stands before it. *)
Theorem C71_definition_hides_component_refuted :
  let lines := map (fun s => full (s2l s)) [".subckt r1 a b"; "C1 a b 1n"; ".ends"; "R1 in out 10k"; ".end"] in
  let en := {| e_name := s2l "x.net"; e_inc := fun _ => None; e_lib := fun _ => None |} in
  exists items, load_lines (fun _ => None) false lines = Some items /\
    set_component_value en (s2l "R1") (s2l "1k") {| n_items := items; n_log := []; n_perm := Inform |} = None /\
    get_component_value en (s2l "R1") items = None.
Proof. cbv zeta. eexists. split; [vm_compute; reflexivity|]. split; vm_compute; reflexivity. Qed.
Print Assumptions C71_definition_hides_component_refuted.
