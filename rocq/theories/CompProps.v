(** Properties C31 (statements), C65, C66, C67: component statements (spicelib/editor/spice_components.py). *)
From Coq Require Import String Ascii List Bool Arith.
From Verif Require Import PyStr EngModel PTokModel PTokSpec PTokProofs Regex CompModel CompSpec CompMatch CompProofs CompRewrite.
Import ListNotations.
Local Open Scope string_scope.
Local Open Scope list_scope.

(** names the parser keeps: neither numbers nor its reserved words, and distinct *)
Definition good_names (l : list (str * param)) : Prop :=
  (forall b p, In (b, p) l -> ~ In (word_text (p_name p)) (s2l "noiseless" :: verilog_types) /\ scan_eng (word_text (p_name p)) = None) /\
  NoDup (map (fun bp => word_text (p_name (snd bp))) l).
Lemma good_names_ok : forall l, good_names l -> names_ok l.
Proof.
  intros l [Hn Hd]. split; [|exact Hd]. apply Forall_forall. intros [b p] Hp. destruct (Hn b p Hp) as [A B]. unfold meaning. cbn [fst snd].
  split; [|split]; [intros [G|[]]; apply A; left; exact G|intros G; apply A; right; exact G|]. unfold is_number. rewrite B. reflexivity.
Qed.
(** what the parameters of a statement mean: one value as itself, several as a list *)
Definition params_of (l : list (str * param)) : pdict :=
  map (fun bp => (word_text (p_name (snd bp)),
                  match p_more (snd bp) with
                  | [] => One (word_text (p_value (snd bp)))
                  | more => Many (word_text (p_value (snd bp)) :: map (fun bw => word_text (snd bw)) more)
                  end)) l.
Lemma params_of_entry : forall l, params_of l = map entry l.
Proof. intros l. unfold params_of. apply map_ext. intros [b p]. unfold entry, meaning. cbn [fst snd]. f_equal. destruct (p_more p); reflexivity. Qed.

(** Reading a statement gives its designator (in upper case), nodes, value and parameters. *)
Theorem C31_statement_read : forall c, comp_ok c -> good_names (c_pars c) ->
  CompModel.parse_line (comp_text c) =
    Some {| a_ref := upper (c_kind c :: c_name c); a_ports := map snd (c_nodes c); a_val := Some (c_val c);
            a_par := match c_pars c with [] => None | l => Some (params_of l) end |}.
Proof.
  intros c HC HN. rewrite (comp_read c HC (good_names_ok _ HN)). unfold attrs_of. f_equal. f_equal. destruct (c_pars c) as [|bp l] eqn:E; [reflexivity|].
  rewrite params_of_entry. reflexivity.
Qed.
Print Assumptions C31_statement_read.

(** A statement in the library's own layout that was not edited is written back as it was. *)
Theorem C31_unedited_statement_kept : forall c a, comp_ok c -> good_names (c_pars c) -> canonical c ->
  CompModel.parse_line (comp_text c) = Some a -> CompModel.rewrite (comp_text c) a = Some (comp_text c).
Proof.
  intros c a HC HN HK HR. pose proof (good_names_ok _ HN) as HN'. rewrite (comp_read c HC HN') in HR. injection HR as <-. rewrite (comp_rewrite c c); auto. f_equal.
  assert (edited c c = c) as ->; [|reflexivity]. destruct HK as (_ & KG & _). unfold edited. rewrite str_eqb_refl. destruct c as [k n no g v p e t]. cbn in *. subst g.
  destruct (differences _ _); reflexivity.
Qed.
Print Assumptions C31_unedited_statement_kept.

(** Setting the value: the statement is the same but for the value, and reads back with the new value. *)
Definition with_value (c : comp) (v : str) : comp :=
  {| c_kind := c_kind c; c_name := c_name c; c_nodes := c_nodes c; c_gap := c_gap c; c_val := v;
     c_pars := c_pars c; c_end := c_end c; c_note := c_note c |}.
Definition set_value (a : attrs) (v : str) : attrs := {| a_ref := a_ref a; a_ports := a_ports a; a_val := Some v; a_par := a_par a |}.
Theorem C31_value_edit_saved : forall c v a, comp_ok c -> good_names (c_pars c) -> canonical c -> comp_ok (with_value c v) ->
  CompModel.parse_line (comp_text c) = Some a ->
  CompModel.rewrite (comp_text c) (set_value a v) = Some (comp_text (with_value c v)) /\
  CompModel.parse_line (comp_text (with_value c v)) = Some (set_value a v).
Proof.
  intros c v a HC HN HK HC' HR. pose proof (good_names_ok _ HN) as HN'. rewrite (comp_read c HC HN') in HR. injection HR as <-.
  assert (set_value (attrs_of c) v = attrs_of (with_value c v)) as -> by reflexivity.
  assert (canonical (with_value c v)) as HK' by exact HK. split; [|apply comp_read; [exact HC'|exact HN']].
  rewrite (comp_rewrite c (with_value c v)); auto. f_equal.
  assert (edited c (with_value c v) = with_value c v) as ->; [|reflexivity]. destruct HK as (_ & KG & _). unfold edited, with_value. cbn [c_kind c_name c_nodes c_pars c_val].
  rewrite str_eqb_refl, KG. destruct (differences _ _); reflexivity.
Qed.
Print Assumptions C31_value_edit_saved.

(** Any edit of designator, nodes, value and parameters: the statement written is the one with the new attributes,
    with the comment of the old one.  (A designator that differs only in letter case, and parameters that are
    numerically the same, are left as they were; the parameters may not all be removed: see C65; the first parameter of
    a sub-circuit instance is written after two blanks, which this theorem leaves out.) *)
Lemma edit_saved : forall c c' a, comp_ok c -> good_names (c_pars c) -> canonical c ->
  comp_ok c' -> good_names (c_pars c') -> canonical c' -> c_kind c' = c_kind c -> (c_pars c' = [] -> c_pars c = []) ->
  (c_kind c = "X"%char -> c_pars c = [] -> c_pars c' = []) ->
  CompModel.parse_line (comp_text c') = Some a ->
  CompModel.rewrite (comp_text c) a = Some (comp_text
    {| c_kind := c_kind c;
       c_name := if str_eqb (upper (c_name c')) (upper (c_name c)) then c_name c else upper (c_name c');
       c_nodes := c_nodes c'; c_gap := [" "%char]; c_val := c_val c';
       c_pars := if differences (params_of (c_pars c')) (params_of (c_pars c)) then c_pars c' else c_pars c;
       c_end := c_end c; c_note := c_note c |}).
Proof.
  intros c c' a HC HN HK HC' HN' HK' Hk Hp Hx HR. rewrite (comp_read c' HC' (good_names_ok _ HN')) in HR. injection HR as <-.
  rewrite (comp_rewrite c c'); auto; [|apply good_names_ok; exact HN]. unfold edited. rewrite !params_of_entry, Hk. unfold upper. cbn [map].
  destruct HC as (_ & _ & _ & _ & _ & _ & _ & _ & _ & f & lo & hi & Hf & _). 
  assert (str_eqb (upper_c (c_kind c) :: map upper_c (c_name c')) (upper_c (c_kind c) :: map upper_c (c_name c)) = str_eqb (map upper_c (c_name c')) (map upper_c (c_name c))) as ->.
  { cbn [str_eqb]. rewrite aeqb_refl. reflexivity. }
  reflexivity.
Qed.

(** Non-vacuity: a resistor with parameters and a comment, and its edited form. *)
Definition ex_par (n v : string) : str * param :=
  ([" "%char], {| p_name := [Plain (s2l n)]; p_b1 := []; p_b2 := []; p_value := [Plain (s2l v)]; p_more := [] |}).
Definition ex_c : comp :=
  {| c_kind := "R"; c_name := s2l "load1"; c_nodes := [([" "%char], s2l "in"); ([" "%char], s2l "out+")]; c_gap := [" "%char]; c_val := s2l "10k";
     c_pars := [ex_par "tc" "1m"; ex_par "pwr" "0.5"]; c_end := [" "%char]; c_note := Some (s2l " the load") |}.
Lemma ex_plain : forall t, forallb (fun c => negb (mem_c c special) && negb (aeqb c ",") && negb (aeqb c "=") && negb (is_space c)) t = true -> t <> [] -> word_ok [Plain t].
Proof.
  intros t H N. split; [discriminate|]. constructor; [|constructor]. split; [exact N|]. intros c Hc. rewrite forallb_forall in H. specialize (H c Hc).
  rewrite !andb_true_iff, !negb_true_iff, mem_c_not_In, !aeqb_neq in H. tauto.
Qed.
Lemma ex_par_ok : forall n v, forallb is_word (s2l n) = true -> forallb parc (s2l v) = true ->
  forallb (fun c => negb (mem_c c special) && negb (aeqb c ",") && negb (aeqb c "=") && negb (is_space c)) (s2l n) = true ->
  forallb (fun c => negb (mem_c c special) && negb (aeqb c ",") && negb (aeqb c "=") && negb (is_space c)) (s2l v) = true -> s2l n <> [] -> s2l v <> [] ->
  (blank (fst (ex_par n v)) /\ fst (ex_par n v) <> [] /\ param_ok (snd (ex_par n v))) /\ par_ok (snd (ex_par n v)).
Proof.
  intros n v A B C D E F. split.
  - split; [reflexivity|]. split; [discriminate|]. split; [apply ex_plain; assumption|]. split; [reflexivity|]. split; [reflexivity|]. split; [apply ex_plain; assumption|constructor].
  - unfold ex_par. cbn [snd]. split; cbn [p_name p_value p_more map]; [|intros w [<-|[]]]; unfold word_text; cbn [map concat in_text]; rewrite app_nil_r; intros c Hc.
    + rewrite forallb_forall in A. apply A. exact Hc.
    + apply parc_iff. rewrite forallb_forall in B. apply B. exact Hc.
Qed.
Lemma ex_value_ok : forall v, forallb (fun c => negb (is_space c) && negb (aeqb c "=") && negb (aeqb c "\") && negb (mem_c c special) && negb (aeqb c NL) && negb (aeqb c CR)) v = true -> v <> [] -> comp_ok (with_value ex_c v).
Proof.
  intros v Hv Nv. rewrite forallb_forall in Hv. split; [discriminate|]. split; [apply forallb_forall; reflexivity|]. split.
  { cbn [with_value ex_c c_nodes]. assert (forall s, forallb (fun a => is_word a || mem_c a (s2l "+,-.")) s = true -> forall a, In a s -> node_char a) as W.
    { intros s H a Ha. rewrite forallb_forall in H. specialize (H a Ha). apply orb_true_iff in H. unfold node_char. rewrite mem_c_In in H. exact H. }
    repeat (constructor; [cbn [fst snd]; split; [reflexivity|split; [discriminate|split; [discriminate|apply W; reflexivity]]]|]). constructor. }
  split; [reflexivity|]. split; [discriminate|].
  destruct (ex_par_ok "tc" "1m") as [P1 P1']; try reflexivity; try discriminate. destruct (ex_par_ok "pwr" "0.5") as [P2 P2']; try reflexivity; try discriminate.
  split; [split; [|reflexivity]; constructor; [exact P1|]; constructor; [exact P2|constructor]|].
  split; [constructor; [exact P1'|]; constructor; [exact P2'|constructor]|]. split; [discriminate|]. split.
  - intros a Ha. assert (forallb (fun a => negb (aeqb a NL) && negb (aeqb a CR)) (comp_body (with_value ex_c v)) = true) as Hb.
    { unfold comp_body, with_value. cbn [c_kind c_name c_nodes c_gap c_val c_pars c_end c_note forallb]. rewrite !forallb_app. rewrite !andb_true_iff. repeat split; try reflexivity.
      apply forallb_forall. intros x Hx. specialize (Hv x Hx). rewrite !andb_true_iff in Hv. rewrite andb_true_iff. tauto. }
    rewrite forallb_forall in Hb. specialize (Hb a Ha). rewrite andb_true_iff, !negb_true_iff, !aeqb_neq in Hb. exact Hb.
  - exists Passive, 2, 2. split; [reflexivity|]. split; [cbn; auto|]. split; [cbn; auto|]. split; [|split; discriminate]. left. split; [exact Nv|].
    cbn [with_value c_val]. split.
    + intros c Hc. specialize (Hv c Hc). rewrite !andb_true_iff, !negb_true_iff, !aeqb_neq in Hv. tauto.
    + destruct v as [|x v]; [exact I|]. specialize (Hv x (or_introl eq_refl)). rewrite !andb_true_iff, !negb_true_iff, mem_c_not_In in Hv. tauto.
Qed.
Example C31_nonvacuous :
  l2s (comp_text ex_c) = String.append "Rload1 in out+ 10k tc=1m pwr=0.5 ; the load" (String NL EmptyString) /\
  comp_ok ex_c /\ good_names (c_pars ex_c) /\ canonical ex_c /\ comp_ok (with_value ex_c (s2l "4k7")) /\
  option_map l2s (match CompModel.parse_line (comp_text ex_c) with Some a => CompModel.rewrite (comp_text ex_c) (set_value a (s2l "4k7")) | None => None end)
  = Some (String.append "Rload1 in out+ 4k7 tc=1m pwr=0.5 ; the load" (String NL EmptyString)).
Proof.
  split; [reflexivity|]. split; [apply (ex_value_ok (s2l "10k")); [reflexivity|discriminate]|]. split.
  { split.
    - intros b p Hp. cbn in Hp. destruct Hp as [E|[E|[]]]; injection E as <- <-; (split; [|vm_compute; reflexivity]);
        intros G; repeat (destruct G as [G|G]; [discriminate G|]); destruct G.
    - constructor; [|constructor; [|constructor]]; intros H; cbn in H; repeat (destruct H as [H|H]; [discriminate H|]); destruct H. }
  split; [|split; [apply (ex_value_ok (s2l "4k7")); [reflexivity|discriminate]|vm_compute; reflexivity]].
  split; [repeat constructor|]. split; [reflexivity|]. split; [repeat constructor|]. split; [reflexivity|].
  split; [exists ";"%char, (s2l " the load"); split; reflexivity|exists "d"%char, (s2l "; the loa"); split; reflexivity].
Qed.

(** and a sub-circuit instance with a parameter *)
Definition ex_x (v : string) : comp :=
  {| c_kind := "X"; c_name := s2l "U1"; c_nodes := [([" "%char], s2l "in"); ([" "%char], s2l "out")]; c_gap := [" "%char]; c_val := s2l v;
     c_pars := [ex_par "gain" "2"]; c_end := []; c_note := None |}.
Example C31_nonvacuous_instance :
  l2s (comp_text (ex_x "opamp")) = String.append "XU1 in out opamp gain=2" (String NL EmptyString) /\
  comp_ok (ex_x "opamp") /\ comp_ok (ex_x "LM741") /\ good_names (c_pars (ex_x "opamp")) /\ canonical (ex_x "opamp").
Proof.
  destruct (ex_par_ok "gain" "2") as [P1 P1']; try reflexivity; try discriminate.
  assert (forall s f, forallb f s = true -> forall a : ascii, In a s -> f a = true) as W by (intros s f H a Ha; rewrite forallb_forall in H; apply H; exact Ha).
  assert (forall v, forallb (fun a => is_word a && negb (aeqb a NL) && negb (aeqb a CR)) (s2l v) = true -> s2l v <> [] -> comp_ok (ex_x v)) as OK.
  { intros v Hv Nv. split; [discriminate|]. split; [apply W; reflexivity|]. split.
    { repeat (constructor; [cbn [fst snd]; split; [reflexivity|split; [discriminate|split; [discriminate|intros a Ha; left; revert a Ha; apply W; reflexivity]]]|]). constructor. }
    split; [reflexivity|]. split; [discriminate|]. split; [split; [constructor; [exact P1|constructor]|reflexivity]|]. split; [constructor; [exact P1'|constructor]|].
    split; [intros G; contradiction G; reflexivity|]. split.
    - intros a Ha. assert (forallb (fun a => negb (aeqb a NL) && negb (aeqb a CR)) (comp_body (ex_x v)) = true) as Hb.
      { unfold comp_body, ex_x. cbn [c_kind c_name c_nodes c_gap c_val c_pars c_end c_note forallb]. rewrite !forallb_app. rewrite !andb_true_iff. repeat split; try reflexivity.
        apply forallb_forall. intros x Hx. specialize (W _ _ Hv x Hx). cbv beta in W. rewrite !andb_true_iff in W. rewrite andb_true_iff. tauto. }
      specialize (W _ _ Hb a Ha). cbv beta in W. rewrite andb_true_iff, !negb_true_iff, !aeqb_neq in W. exact W.
    - exists Instance, 1, 99. split; [reflexivity|]. split; [cbn; auto with arith|]. split; [cbn; auto 100 with arith|]. split; [|split; [discriminate|reflexivity]].
      split; [exact Nv|]. intros c Hc. left. specialize (W _ _ Hv c Hc). cbv beta in W. rewrite !andb_true_iff in W. tauto. }
  split; [reflexivity|]. split; [apply OK; [reflexivity|discriminate]|]. split; [apply OK; [reflexivity|discriminate]|]. split.
  - split; [|constructor; [intros []|constructor]]. intros b p [E|[]]. injection E as <- <-. split; [|vm_compute; reflexivity].
    intros G. repeat (destruct G as [G|G]; [discriminate G|]). destruct G.
  - split; [repeat constructor|]. split; [reflexivity|]. split; [repeat constructor|reflexivity].
Qed.

(** What is not true. *)
Definition text (s : string) : str := s2l s ++ [NL].
Definition save_edit (line : str) (f : attrs -> attrs) : option str :=
  match CompModel.parse_line line with Some a => CompModel.rewrite line (f a) | None => None end.
Definition set_params (a : attrs) (d : pdict) : attrs := {| a_ref := a_ref a; a_ports := a_ports a; a_val := a_val a; a_par := Some d |}.

(** C65: the last parameter of a component cannot be removed: the statement still has it when saved. *)
Theorem C65_last_parameter_stays_refuted :
  exists a, CompModel.parse_line (text "R1 a b 10k tc=1") = Some a /\ a_par a = Some [(s2l "tc", One (s2l "1"))] /\
  exists out b, save_edit (text "R1 a b 10k tc=1") (fun a => set_params a []) = Some out /\
    CompModel.parse_line out = Some b /\ a_par b = Some [(s2l "tc", One (s2l "1"))].
Proof. eexists. split; [vm_compute; reflexivity|]. split; [reflexivity|]. eexists. eexists. split; [vm_compute; reflexivity|]. split; [vm_compute; reflexivity|reflexivity]. Qed.
Print Assumptions C65_last_parameter_stays_refuted.
(** C66: with tabs between the fields a value edit leaves part of the old value in the statement; "R=10k" gets a blank. *)
Definition tabs (s : string) : str := map (fun c => if aeqb c "_" then "009"%char else c) (text s).
Theorem C66_tabs_corrupt_edit_refuted :
  option_map a_val (CompModel.parse_line (tabs "R1_a_b_10k")) = Some (Some (s2l "10k")) /\
  save_edit (tabs "R1_a_b_10k") (fun a => set_value a (s2l "22k")) = Some (text "R1 a b 22k k").
Proof. split; vm_compute; reflexivity. Qed.
Print Assumptions C66_tabs_corrupt_edit_refuted.
Theorem C66_comment_lost_refuted :
  save_edit (text "G1 a b 2 ; gain") (fun a => set_value a (s2l "3")) = Some (text "G1 a b 3").
Proof. vm_compute. reflexivity. Qed.
Print Assumptions C66_comment_lost_refuted.
(** C67: statements that SPICE accepts and the library does not read, or reads wrongly. *)
Theorem C67_lower_case_refuted : CompModel.parse_line (text "R1 a b 10k") <> None /\ CompModel.parse_line (text "r1 a b 10k") = None.
Proof. split; [discriminate|vm_compute; reflexivity]. Qed.
Print Assumptions C67_lower_case_refuted.
Theorem C67_two_expressions_refuted :
  option_map a_val (CompModel.parse_line (text "R1 a b {x} tc={y}")) = Some (Some (s2l "{x} tc={y}")).
Proof. vm_compute. reflexivity. Qed.
Print Assumptions C67_two_expressions_refuted.
Theorem C67_model_taken_for_node_refuted :
  option_map (fun a => (a_ports a, a_val a)) (CompModel.parse_line (text "M1 d g s NMOS off")) =
  Some (map s2l ["d"; "g"; "s"; "NMOS"], Some (s2l "off")).
Proof. vm_compute. reflexivity. Qed.
Print Assumptions C67_model_taken_for_node_refuted.
