(** Property C36: components inside sub-circuit instances (spicelib/editor/spice_subcircuit.py). *)
From Coq Require Import String Ascii List Bool Arith.
From Verif Require Import PyStr EngModel PTokModel PTokSpec Regex CompModel CompSpec CompProofs CompProps SepModel UpdatesModel NetModel NetSpec NetProofs NetProps EditModel EditSpec EditProofs EditProps
  InstSpec InstModel InstProofs InstElab.
Import ListNotations.
Local Open Scope string_scope.
Local Open Scope nat_scope.
Local Open Scope list_scope.

(** The library files hold the definitions [lib]: a name is found in them when [lib] has it, and gives what its lines are read as. *)
Definition library_of (en : env) (lib : str -> option def) : Prop :=
  forall v, match lib v with
            | Some d => exists items, load_lines (e_inc en) true (stmt_lines (Circuit (f_head d) (f_body d) (f_tail d))) = Some [ISub items] /\ e_lib en v = Some items
            | None => e_lib en v = None
            end.

Lemma flat_inc : forall inc b, Forall flat_stmt b -> fold_right and True (map (inc_ok inc) b).
Proof. intros inc b H. induction H as [|s b H1 H2 IH]; [exact I|]. cbn [map fold_right]. split; [|exact IH]. destruct s; try contradiction; exact I. Qed.
Lemma library_items : forall en lib, library_of en lib -> library_ok lib -> forall v, e_lib en v = option_map def_items (lib v).
Proof.
  intros en lib HL HO v. specialize (HL v). destruct (lib v) as [d|] eqn:E; [|exact HL]. destruct (HO v d E) as (_ & HF & HS). destruct HL as (items & HL & ->). cbn [option_map]. f_equal.
  unfold load_lines in HL. rewrite <- (app_nil_r (stmt_lines _)) in HL. pose proof (load_body (e_inc en) good_names [Circuit (f_head d) (f_body d) (f_tail d)] [] [] []) as LB. unfold body_lines in LB. cbn [map concat] in LB. rewrite app_nil_r in LB.
  rewrite LB in HL; [|split; [exact HS|exact I]|split; [apply flat_inc; exact HF|exact I]]. cbn [rev app add_lines outermost last after_end map orb] in HL. injection HL as <-. reflexivity.
Qed.
Lemma defined_name : forall lib l, library_ok lib -> forall v d, defined lib l v = Some d -> head_name (f_head d) = v.
Proof.
  intros lib l HO v d H. unfold defined in H. destruct (def_in l v) as [x|] eqn:E; [|apply (HO v d H)]. injection H as ->. unfold def_in in E. apply find_some in E. apply str_eqb_eq. apply E.
Qed.
Lemma root_chain : forall en lib l, library_of en lib -> library_ok lib -> Forall named (defs l) ->
  forall l', defs (map top l') = defs l -> forall items ws ms, shows_all items l' ws ms -> chain_ok en (defined lib l) [items].
Proof.
  intros en lib l HL HO HN l' E items ws ms HS v. cbn [def_named]. rewrite (root_defs (e_name en) v items l' ws ms HS) by (rewrite E; exact HN). unfold defined, InstSpec.def_in. rewrite E.
  destruct (find _ (defs l)); [reflexivity|]. cbn [option_map]. rewrite (library_items en lib HL HO v). reflexivity.
Qed.

(** A netlist is loaded and any sequence of edits is made through references such as "X1:X2:R1".  Then each reference, in any letter
    case, reads the component that the path denotes in the netlist where every edited instance has its own copy of its definition; a
    missing one is an error; and the statements of that netlist are what is saved, the definitions included, each copy between two
    comments before the end of the circuit of its instance. *)
Theorem C36_history : forall en inc lib d es items ed, doc_ok good_names d -> includes_found inc d -> library_of en lib -> library_ok lib ->
  load_lines inc false (doc_lines d) = Some items -> n_items ed = items -> n_perm ed = Inform -> Forall named (defs (statements d)) ->
  let D := defined lib (statements d) in
  changes_ok D es (map plain (statements d)) ->
  let now := changes D es (map plain (statements d)) in
  exists ed', api_changes en es ed = Some ed' /\
    (forall path k ref, opens D path now k -> ~ In ":"%char ref -> no_definition_named ref (map top k) ->
       match denoted D path ref now with
       | Some c => get_component_value en (full_ref path ref) (n_items ed') = Some (c_val c) /\
                   get_component_nodes en (full_ref path ref) (n_items ed') = Some (map snd (c_nodes c)) /\
                   get_component_parameters en (full_ref path ref) (n_items ed') = Some (params_of (c_pars c))
       | None => get_component en (full_ref path ref) (n_items ed') = None
       end) /\
    (begins (s2l ".END") (upper (d_end d)) -> exists out, write_items (n_items ed') = Some (concat (body_lines out)) /\ keeps (flat d now) out).
Proof.
  intros en inc lib d es items ed HD HI HL HO HLd HIt HP HN D HC now. rewrite (load_doc inc good_names d false HD HI) in HLd. injection HLd as <-.
  destruct (loaded_shows d HD) as (ws & HS). destruct ed as [it lg pm]. cbn [n_items n_perm] in *. subst it pm. pose proof (defined_name lib (statements d) HO) as HNm.
  pose proof (root_chain en lib (statements d) HL HO HN) as HCh.
  destruct (changes_run en D HNm es _ _ ws [] lg HS HC) as (ed' & ws' & ms' & E & _ & S & _).
  { intros l' El' its' w' m' HS'. apply (HCh l' ltac:(rewrite El', map_top_plain; reflexivity) its' w' m' HS'). }
  exists ed'. split; [exact E|]. split.
  - intros path k ref HOp HR HDf. rewrite (opens_denoted _ _ _ _ HOp). destruct (split_full path ref (opens_plain _ _ _ _ HOp) HR) as [R1 R2].
    pose proof (read_run en D HNm path now k HOp ref HDf (n_items ed') ws' ms' [] [] [] S) as RR. cbn [app] in RR. rewrite app_nil_r in RR. unfold get_component_value, get_component_nodes, get_component_parameters, get_component. rewrite R1, R2.
    assert (chain_ok en D [n_items ed']) as HCk by (apply (HCh now) with (ws := ws') (ms := ms'); [unfold now; rewrite changes_defs, map_top_plain; reflexivity|exact S]).
    specialize (RR ltac:(constructor) ltac:(constructor) HCk). destruct (node_named ref k) as [[c o]|]; cbn [option_map fst]; [|exact RR]. destruct RR as (it & G & A). rewrite G, A. cbn [option_map attrs_of a_val a_ports a_par].
    split; [reflexivity|]. split; [reflexivity|]. rewrite params_of_entry. destruct (c_pars c); reflexivity.
  - intros HE. apply (write_changed d D es (n_items ed') ws' ms' HD HE S).
Qed.
Print Assumptions C36_history.

(** What an edit inside an instance does to what the references denote: the component it names is edited; every component that is
    neither it, nor on the way to it, nor inside it, is as before, also those of the other instances of the same definition; and the
    instances on the way keep their designator, nodes and parameters. *)
Theorem C36_only_that_component : forall D path e l k, opens D path l k ->
  denoted D path (edit_ref e) (change D path e l) = option_map (edit_comp e) (denoted D path (edit_ref e) l) /\
  (forall q r, ~ prefix (spelled q r) (spelled path (edit_ref e)) -> ~ prefix (spelled path (edit_ref e)) (spelled q r) ->
     denoted D q r (change D path e l) = denoted D q r l) /\
  (forall q r t, spelled path (edit_ref e) = spelled q r ++ t -> t <> [] ->
     exists c c', denoted D q r l = Some c /\ denoted D q r (change D path e l) = Some c' /\ same_but_value c c' /\ (c' = c \/ c_val c' = copy_name c)).
Proof.
  intros D path e l k H. split; [eapply change_target; exact H|]. split; [intros q r; eapply change_others; exact H|intros q r t; eapply change_way; exact H].
Qed.
Print Assumptions C36_only_that_component.

(** The saved statements mean the edited netlist: reading them as a simulator does, each instance standing for the definition of its
    name in the innermost enclosing circuit that has one, gives at each path the component that the path denotes. *)
Theorem C36_meaning : forall lib d es, let D := defined lib (statements d) in
  doc_ok good_names d -> library_ok lib -> (forall v x, D v = Some x -> Forall flat_stmt (f_body x)) -> fresh D (statements d) ->
  changes_ok D es (map plain (statements d)) -> (forall path r v, In (path, SetValue r v) es -> ~ begins (s2l "X") (upper r)) ->
  let now := changes D es (map plain (statements d)) in
  forall path ref, elaborated lib path ref [flat d now] = denoted D path ref now.
Proof.
  intros lib d es D HD HO HF HFr HC HV now path ref. apply root_elab; [exact HF|exact HFr|]. apply changes_grown; [apply defined_name; exact HO|exact HC| |].
  - apply Forall_forall. intros [p e] HI r v E. cbn [snd] in E. subst e. apply (HV _ _ _ HI).
  - apply grown_plain. intros s Hs. unfold statements in Hs. apply in_app_or in Hs. destruct Hs as [Hs|[<-|Hs]].
    + left. destruct HD as (HB & _). unfold body_ok in HB. apply all_Forall in HB. rewrite Forall_forall in HB. apply HB. exact Hs.
    + right. discriminate.
    + right. apply in_map_iff in Hs. destruct Hs as (x & <- & _). discriminate.
Qed.
Print Assumptions C36_meaning.

(** A case: two instances of one definition that has an instance of another in it; both are edited, one inside the inner instance. *)
Definition two (k : ascii) (n v : string) : comp :=
  {| c_kind := k; c_name := s2l n; c_nodes := [(s2l " ", s2l "a"); (s2l " ", s2l "b")]; c_gap := s2l " "; c_val := s2l v; c_pars := []; c_end := []; c_note := None |}.
Lemma two_ok : forall k n v, n <> ""%string -> v <> ""%string -> forallb is_word (s2l n) = true -> forallb is_word (s2l v) = true ->
  forallb (fun a => negb (aeqb a NL) && negb (aeqb a CR)) (k :: s2l n ++ s2l v) = true ->
  (k = "X"%char \/ k = "R"%char /\ simple_value (s2l v)) -> part_ok good_names (two k n v) /\ canonical (two k n v).
Proof.
  intros k n v Nn Nv Wn Wv HL HK. assert (s2l n <> []) as Nn' by (destruct n; [contradiction Nn; reflexivity|discriminate]). assert (s2l v <> []) as Nv' by (destruct v; [contradiction Nv; reflexivity|discriminate]).
  cbn [forallb] in HL. rewrite forallb_app in HL. rewrite !andb_true_iff in HL. destruct HL as ([L1 L1'] & L2 & L3).
  split; [split; [|split]|].
  - split; [exact Nn'|]. split; [apply forallb_forall; exact Wn|]. split.
    { assert (forall s, forallb is_word s = true -> forall a, In a s -> node_char a) as W by (intros s H a Ha; rewrite forallb_forall in H; left; apply H; exact Ha).
      repeat (constructor; [cbn [fst snd]; split; [reflexivity|split; [discriminate|split; [discriminate|apply W; reflexivity]]]|]). constructor. }
    split; [reflexivity|]. split; [discriminate|]. split; [split; [constructor|reflexivity]|]. split; [constructor|]. split; [intros G; contradiction G; reflexivity|]. split.
    + intros a Ha. assert (forallb (fun a => negb (aeqb a NL) && negb (aeqb a CR)) (comp_body (two k n v)) = true) as Hb.
      { unfold comp_body, two. cbn [c_kind c_name c_nodes c_gap c_val c_pars c_end c_note forallb]. rewrite !forallb_app. rewrite !andb_true_iff. repeat split; try reflexivity; assumption. }
      rewrite forallb_forall in Hb. specialize (Hb a Ha). rewrite andb_true_iff, !negb_true_iff, !aeqb_neq in Hb. exact Hb.
    + destruct HK as [-> | [-> HS]].
      * exists Instance, 1, 99. split; [reflexivity|]. split; [cbn; auto with arith|]. split; [cbn [two c_nodes length]; auto with arith|]. split; [|split; [discriminate|intros _ G; contradiction G; reflexivity]].
        split; [exact Nv'|]. intros a Ha. left. rewrite forallb_forall in Wv. apply Wv. exact Ha.
      * exists Passive, 2, 2. split; [reflexivity|]. split; [auto with arith|]. split; [auto with arith|]. split; [left; exact HS|split; discriminate].
  - split; [intros b p []|constructor].
  - intros lo hi _. reflexivity.
  - split; [repeat constructor|]. split; [reflexivity|]. split; [constructor|reflexivity].
Qed.
Definition in_sub : def := {| f_head := s2l ".subckt sub a b"; f_body := [Part (two "R" "1" "1k"); Part (two "X" "7" "in2")]; f_tail := s2l ".ends" |}.
Definition in_in2 : def := {| f_head := s2l ".SUBCKT in2 a b"; f_body := [Note (s2l "* inner"); Part (two "R" "9" "1")]; f_tail := s2l ".ends in2" |}.
Definition in_doc : doc :=
  {| d_body := [Note (s2l "* t"); Circuit (f_head in_sub) (f_body in_sub) (f_tail in_sub); Circuit (f_head in_in2) (f_body in_in2) (f_tail in_in2); Part (two "X" "1" "sub"); Part (two "X" "2" "sub")];
     d_end := s2l ".end"; d_after := [] |}.
Definition in_edits : list (list str * edit) := [([s2l "x1"], SetValue (s2l "R1") (s2l "2k")); ([s2l "X2"; s2l "x7"], SetValue (s2l "r9") (s2l "22")); ([s2l "X1"], SetValue (s2l "r1") (s2l "3k"))].
Definition in_en : env := {| e_name := s2l "x.net"; e_inc := fun _ => None; e_lib := fun _ => None |}.
Definition in_D := defined (fun _ => None) (statements in_doc).
Lemma two_r : forall n v, In n ["1"; "9"]%string -> In v ["1k"; "1"; "2k"; "3k"; "22"]%string -> part_ok good_names (two "R" n v) /\ canonical (two "R" n v).
Proof.
  intros n v Hn Hv. apply two_ok.
  - destruct Hn as [<-|[<-|[]]]; discriminate.
  - repeat (destruct Hv as [<-|Hv]; [discriminate|]). destruct Hv.
  - destruct Hn as [<-|[<-|[]]]; reflexivity.
  - repeat (destruct Hv as [<-|Hv]; [reflexivity|]). destruct Hv.
  - destruct Hn as [<-|[<-|[]]]; repeat (destruct Hv as [<-|Hv]; [reflexivity|]); destruct Hv.
  - right. split; [reflexivity|]. repeat (destruct Hv as [<-|Hv]; [split; [discriminate|]; split; [intros c Hc; cbn in Hc; repeat (destruct Hc as [<-|Hc]; [repeat split; discriminate || reflexivity|]); destruct Hc|];
      intros G; vm_compute in G; repeat (destruct G as [G|G]; [discriminate G|]); destruct G|]). destruct Hv.
Qed.
Lemma two_x : forall n v, In n ["1"; "2"; "7"]%string -> In v ["sub"; "in2"; "sub_X1"; "sub_X2"; "in2_X7"]%string -> part_ok good_names (two "X" n v) /\ canonical (two "X" n v).
Proof.
  intros n v Hn Hv. apply two_ok.
  - repeat (destruct Hn as [<-|Hn]; [discriminate|]). destruct Hn.
  - repeat (destruct Hv as [<-|Hv]; [discriminate|]). destruct Hv.
  - repeat (destruct Hn as [<-|Hn]; [reflexivity|]). destruct Hn.
  - repeat (destruct Hv as [<-|Hv]; [reflexivity|]). destruct Hv.
  - repeat (destruct Hn as [<-|Hn]; [repeat (destruct Hv as [<-|Hv]; [reflexivity|]); destruct Hv|]). destruct Hn.
  - left. reflexivity.
Qed.
Ltac pick := cbn; repeat (first [left; reflexivity | right]).
Lemma in_defs : forall v x, in_D v = Some x -> (x = in_sub /\ v = s2l "sub") \/ (x = in_in2 /\ v = s2l "in2").
Proof.
  intros v x H. unfold in_D, defined, InstSpec.def_in in H. destruct (find _ _) as [d|] eqn:E; [|discriminate H]. injection H as ->. apply find_some in E. destruct E as [E1 E2]. apply str_eqb_eq in E2.
  cbn in E1. destruct E1 as [<-|[<-|[]]]; [left|right]; (split; [reflexivity|]); symmetry; exact E2.
Qed.
Lemma in_note : forall r, is_note ("*"%char :: r).
Proof. intros r. exists [], ("*"%char :: r). split; [reflexivity|]. split; [intros c []|]. left. right. right. left. reflexivity. Qed.
Lemma in_def_ok : def_ok in_sub /\ def_ok in_in2.
Proof.
  assert (forall h n, In (h, n) [(f_head in_sub, s2l "sub"); (f_head in_in2, s2l "in2")] -> head_name h = n /\ circuit_name h n) as K.
  { intros h n [E|[E|[]]]; injection E as <- <-; (split; [reflexivity|]); [exists (s2l "subckt")|exists (s2l "SUBCKT")]; exists (s2l " "), (s2l " a b"); repeat (split; [reflexivity || discriminate|]); reflexivity. }
  split; (split; [first [exact (proj2 (K (f_head in_sub) (s2l "sub") (or_introl eq_refl))) | exact (proj2 (K (f_head in_in2) (s2l "in2") (or_intror (or_introl eq_refl))))]|]; split; [exists []; reflexivity|]; split; [eexists; reflexivity|]; split; [reflexivity|]; split).
  - constructor; [apply (two_r "1" "1k"); pick|]. constructor; [apply (two_x "7" "in2"); pick|constructor].
  - apply (ex_word _ [] (s2l ".ends") []); try reflexivity. eexists; reflexivity.
  - constructor; [apply in_note|]. constructor; [apply (two_r "9" "1"); pick|constructor].
  - apply (ex_word _ [] (s2l ".ends") (s2l " in2")); try reflexivity. eexists; reflexivity.
Qed.
Lemma in_no_def : forall ref l, (forall h b t, ~ In (Circuit h b t) l) -> no_definition_named ref l.
Proof. intros ref l H h b t Hi. destruct (H h b t Hi). Qed.
Lemma in_no_def_root : forall ref l, (forall h b t, In (Circuit h b t) l -> h = f_head in_sub \/ h = f_head in_in2) -> (upper ref = s2l "X1" \/ upper ref = s2l "X2") -> no_definition_named ref l.
Proof.
  intros ref l H HR h b t Hi. destruct (H h b t Hi) as [-> | ->]; [exists (s2l "sub")|exists (s2l "in2")]; (split; [|destruct HR as [-> | ->]; discriminate]);
    [exists (s2l "subckt")|exists (s2l "SUBCKT")]; exists (s2l " "), (s2l " a b"); repeat (split; [reflexivity || discriminate|]); reflexivity.
Qed.
Ltac no_colon := let G := fresh in intros G; vm_compute in G; repeat (destruct G as [G|G]; [discriminate G|]); destruct G.
Ltac at_root := apply in_no_def_root; [let Hi := fresh in intros ? ? ? Hi; vm_compute in Hi; repeat (destruct Hi as [Hi|Hi]; [first [discriminate Hi | injection Hi as <- <- <-; first [left; reflexivity | right; reflexivity]]|]); destruct Hi | first [left; reflexivity | right; reflexivity]].
Ltac inside := apply in_no_def; let Hi := fresh in intros ? ? ? Hi; vm_compute in Hi; repeat (destruct Hi as [Hi|Hi]; [discriminate Hi|]); destruct Hi.
Lemma in_changes_ok : changes_ok in_D in_edits (map plain (statements in_doc)).
Proof.
  destruct in_def_ok as [DS DI]. cbn [changes_ok in_edits fst snd]. split; [|split; [|split; [|exact I]]].
  - exists (map plain (f_body in_sub)). split; [|split].
    + eapply O_def with (c := two "X" "1" "sub") (d := in_sub); [no_colon|at_root|reflexivity|reflexivity|apply two_x; pick|no_colon|reflexivity|exact DS|constructor].
    + split; [no_colon|]. exists (two "R" "1" "1k"). split; [reflexivity|]. split; [apply two_r; pick|]. split; [apply (two_r "1" "2k"); pick|]. split; [apply (two_r "1" "2k"); pick|]. split; [reflexivity|]. split; [reflexivity|exact I].
    + inside.
  - exists (map plain (f_body in_in2)). split; [|split].
    + eapply O_def with (c := two "X" "2" "sub") (d := in_sub); [no_colon|at_root|vm_compute; reflexivity|reflexivity|apply two_x; pick|no_colon|reflexivity|exact DS|].
      eapply O_def with (c := two "X" "7" "in2") (d := in_in2); [no_colon|inside|reflexivity|reflexivity|apply two_x; pick|no_colon|reflexivity|exact DI|constructor].
    + split; [no_colon|]. exists (two "R" "9" "1"). split; [reflexivity|]. split; [apply two_r; pick|]. split; [apply (two_r "9" "22"); pick|]. split; [apply (two_r "9" "22"); pick|]. split; [reflexivity|]. split; [reflexivity|exact I].
    + inside.
  - exists (change in_D [] (SetValue (s2l "R1") (s2l "2k")) (map plain (f_body in_sub))). split; [|split].
    + eapply O_copy; [no_colon|at_root|vm_compute; reflexivity|reflexivity|]. vm_compute. constructor.
    + split; [no_colon|]. exists (two "R" "1" "2k"). split; [reflexivity|]. split; [apply two_r; pick|]. split; [apply (two_r "1" "3k"); pick|]. split; [apply (two_r "1" "3k"); pick|]. split; [reflexivity|]. split; [reflexivity|exact I].
    + inside.
Qed.
Example C36_nonvacuous :
  doc_ok good_names in_doc /\ includes_found (fun _ => None) in_doc /\ library_of in_en (fun _ => None) /\ library_ok (fun _ => None) /\ Forall named (defs (statements in_doc)) /\
  changes_ok in_D in_edits (map plain (statements in_doc)) /\ begins (s2l ".END") (upper (d_end in_doc)) /\
  (forall v x, in_D v = Some x -> Forall flat_stmt (f_body x)) /\ fresh in_D (statements in_doc) /\
  (forall path r v, In (path, SetValue r v) in_edits -> ~ begins (s2l "X") (upper r)) /\
  let now := changes in_D in_edits (map plain (statements in_doc)) in
  map (fun pr => option_map (fun c => l2s (c_val c)) (denoted in_D (map s2l (fst pr)) (s2l (snd pr)) now)) [(["X1"], "R1"); (["X2"], "R1"); (["X1"; "X7"], "R9"); (["X2"; "X7"], "R9")]%string =
    map Some ["3k"; "1k"; "1"; "22"]%string /\
  option_map l2s (match load_lines (fun _ => None) false (doc_lines in_doc) with
                  | Some l => match api_changes in_en in_edits {| n_items := l; n_log := []; n_perm := Inform |} with Some ed => write_items (n_items ed) | None => None end
                  | None => None end) =
  Some (l2s (concat (map (fun s => s2l s ++ [NL]) ["* t"; ".subckt sub a b"; "R1 a b 1k"; "X7 a b in2"; ".ends"; ".SUBCKT in2 a b"; "* inner"; "R9 a b 1"; ".ends in2"; "X1 a b sub_X1"; "X2 a b sub_X2";
    "***** SpiceEditor Manipulated this sub-circuit ****"; ".subckt sub_X1 a b"; "R1 a b 3k"; "X7 a b in2"; ".ENDS sub_X1"; "***** ENDS SpiceEditor ****";
    "***** SpiceEditor Manipulated this sub-circuit ****"; ".subckt sub_X2 a b"; "R1 a b 1k"; "X7 a b in2_X7";
    "***** SpiceEditor Manipulated this sub-circuit ****"; ".SUBCKT in2_X7 a b"; "* inner"; "R9 a b 22"; ".ENDS in2_X7"; "***** ENDS SpiceEditor ****";
    ".ENDS sub_X2"; "***** ENDS SpiceEditor ****"; ".end"]))).
Proof.
  destruct in_def_ok as [DS DI]. split; [|split; [|split; [|split; [|split; [|split; [|split; [|split; [|split; [|split; [|split]]]]]]]]]].
  - assert (forall n v, In n ["1"; "2"; "7"]%string -> In v ["sub"; "in2"; "sub_X1"; "sub_X2"; "in2_X7"]%string -> part_ok good_names (two "X" n v)) as KX by (intros n v A B; apply two_x; assumption).
    assert (forall n v, In n ["1"; "9"]%string -> In v ["1k"; "1"; "2k"; "3k"; "22"]%string -> part_ok good_names (two "R" n v)) as KR by (intros n v A B; apply two_r; assumption).
    split; [|split; [|intros l []]].
    + unfold body_ok. cbn [in_doc d_body map fold_right stmt_ok in_sub in_in2 f_head f_body f_tail]. split; [apply in_note|]. split.
      { split; [apply (ex_word _ [] (s2l ".subckt") (s2l " sub a b")); try reflexivity; eexists; reflexivity|]. split; [|apply (ex_word _ [] (s2l ".ends") []); try reflexivity; eexists; reflexivity]. split; [apply KR; pick|]. split; [apply KX; pick|exact I]. }
      split. { split; [apply (ex_word _ [] (s2l ".SUBCKT") (s2l " in2 a b")); try reflexivity; eexists; reflexivity|]. split; [|apply (ex_word _ [] (s2l ".ends") (s2l " in2")); try reflexivity; eexists; reflexivity]. split; [apply in_note|]. split; [apply KR; pick|exact I]. }
      split; [apply KX; pick|]. split; [apply KX; pick|exact I].
    + exists (s2l ".END"). split; [apply (ex_word _ [] (s2l ".end") []); try reflexivity; eexists; reflexivity|exists []; reflexivity].
  - repeat (split; try exact I).
  - intros v. reflexivity.
  - intros v d H. discriminate H.
  - constructor; [apply DS|constructor; [apply DI|constructor]].
  - apply in_changes_ok.
  - exists []. reflexivity.
  - intros v x H. destruct (in_defs v x H) as [[-> _]|[-> _]]; [apply DS|apply DI].
  - assert (forall b, circuits in_D (statements in_doc) b -> instances b = [two "X" "1" "sub"; two "X" "2" "sub"] \/ instances b = [two "X" "7" "in2"] \/ instances b = []) as K.
    { intros b [-> | (v & x & H & ->)]; [left; reflexivity|]. destruct (in_defs v x H) as [[-> _]|[-> _]]; [right; left; reflexivity|right; right; reflexivity]. }
    assert (forall b c, circuits in_D (statements in_doc) b -> In c (instances b) -> c = two "X" "1" "sub" \/ c = two "X" "2" "sub" \/ c = two "X" "7" "in2") as KI.
    { intros b c HB HC. destruct (K b HB) as [E|[E|E]]; rewrite E in HC; cbn [In] in HC; [destruct HC as [<-|[<-|[]]]|destruct HC as [<-|[]]|destruct HC]; tauto. }
    split.
    + intros b c HB HC. split; [destruct (KI b c HB HC) as [->|[->| ->]]; vm_compute; reflexivity|]. intros b' c' HB' HC'. destruct (KI b c HB HC) as [->|[->| ->]]; destruct (KI b' c' HB' HC') as [->|[->| ->]]; vm_compute; discriminate.
    + intros b HB. destruct (K b HB) as [E|[E|E]]; rewrite E; cbn [map]; repeat constructor; cbn [In]; intros G; repeat (destruct G as [G|G]; [vm_compute in G; discriminate G|]); destruct G.
  - intros path r v H [q Hq]. cbn in H. destruct H as [H|[H|[H|[]]]]; injection H as <- <- <-; vm_compute in Hq; discriminate Hq.
  - vm_compute. reflexivity.
  - vm_compute. reflexivity.
Qed.

(** Properties C81 and C82: where copies go wrong. *)
Definition edit_and_save (lines : list string) (es : list (string * string)) : option str :=
  match load_lines (fun _ => None) false (map (fun s => full (s2l s)) lines) with
  | Some l => match api_changes in_en (map (fun e => (removelast (split_ref (s2l (fst e))), SetValue (last (split_ref (s2l (fst e))) []) (s2l (snd e)))) es) {| n_items := l; n_log := []; n_perm := Inform |} with
              | Some ed => write_items (n_items ed)
              | None => None
              end
  | None => None
  end.
Definition saved_as (lines : list string) : option str := Some (concat (map (fun s => full (s2l s)) lines)).
Definition mk1 : string := "***** SpiceEditor Manipulated this sub-circuit ****".
Definition mk2 : string := "***** ENDS SpiceEditor ****".
(** C81: the name of a copy is not checked against the names in use: two instances get copies of the same name, or a copy is hidden by
    a definition of the netlist, so that the saved netlist does not have the edited values; and with blanks before .END the copies are
    not written at all although the instances refer to them. *)
Theorem C81_copies_kept_apart_refuted :
  edit_and_save [".subckt a p q"; "R1 p q 1"; ".ends"; ".subckt a_X1 p q"; "R1 p q 5"; ".ends"; "X1_X2 p q a"; "X2 p q a_X1"; ".end"] [("X1_X2:R1", "2"); ("X2:R1", "3")] =
    saved_as [".subckt a p q"; "R1 p q 1"; ".ends"; ".subckt a_X1 p q"; "R1 p q 5"; ".ends"; "X1_X2 p q a_X1_X2"; "X2 p q a_X1_X2";
              mk1; ".subckt a_X1_X2 p q"; "R1 p q 2"; ".ENDS a_X1_X2"; mk2; mk1; ".subckt a_X1_X2 p q"; "R1 p q 3"; ".ENDS a_X1_X2"; mk2; ".end"] /\
  edit_and_save [".subckt sub p q"; "R1 p q 1"; ".ends"; ".subckt sub_X1 p q"; "R1 p q 7"; ".ends"; "X1 p q sub"; ".end"] [("X1:R1", "2")] =
    saved_as [".subckt sub p q"; "R1 p q 1"; ".ends"; ".subckt sub_X1 p q"; "R1 p q 7"; ".ends"; "X1 p q sub_X1"; mk1; ".subckt sub_X1 p q"; "R1 p q 2"; ".ENDS sub_X1"; mk2; ".end"] /\
  edit_and_save [".subckt sub p q"; "R1 p q 1"; ".ends"; "X1 p q sub"; "  .end"] [("X1:R1", "2")] =
    saved_as [".subckt sub p q"; "R1 p q 1"; ".ends"; "X1 p q sub_X1"; ".end"].
Proof. repeat split; vm_compute; reflexivity. Qed.
Print Assumptions C81_copies_kept_apart_refuted.
(** the same in general: two instances whose value and designator, joined by "_", agree *)
Theorem C81_same_name_refuted : exists c c', designator c <> designator c' /\ c_val c <> c_val c' /\ part_ok good_names c /\ part_ok good_names c' /\ copy_name c = copy_name c'.
Proof.
  exists (two "X" "1_X2" "a"), (two "X" "2" "a_X1"). split; [vm_compute; discriminate|]. split; [vm_compute; discriminate|]. split; [|split; [|reflexivity]].
  - apply two_ok; try reflexivity; try discriminate. left. reflexivity.
  - apply two_ok; try reflexivity; try discriminate. left. reflexivity.
Qed.
Print Assumptions C81_same_name_refuted.
(** C82: definitions that simulators find are not found, and the edit is refused: the name in another letter case, a name that is a
    number, a name with a hyphen. *)
Theorem C82_definition_found_refuted :
  edit_and_save [".subckt sub p q"; "R1 p q 1"; ".ends"; "X1 p q SUB"; ".end"] [("X1:R1", "2")] = None /\
  edit_and_save [".subckt 741 p q"; "R1 p q 1"; ".ends"; "X1 p q 741"; ".end"] [("X1:R1", "2")] = None /\
  edit_and_save [".subckt sub-1 p q"; "R1 p q 1"; ".ends"; "X1 p q sub-1"; ".end"] [("X1:R1", "2")] = None.
Proof. repeat split; vm_compute; reflexivity. Qed.
Print Assumptions C82_definition_found_refuted.

(** Property C83.  Each edit is recorded under the full designator of the component, also inside instances; the first edit inside an
    instance records the copy and the new name of its definition before it.  (What a record does to the log: C01.) *)
Definition recorded (log : list update) (r : str * option str * utype) : list update :=
  match r with (n, v, t) => add_update log (l2s n) (match v with Some x => VStr (l2s x) | None => VNone end) t end.
Theorem C83_recorded : forall en inc lib d es items ed, doc_ok good_names d -> includes_found inc d -> library_of en lib -> library_ok lib ->
  load_lines inc false (doc_lines d) = Some items -> n_items ed = items -> n_perm ed = Inform -> Forall named (defs (statements d)) ->
  let D := defined lib (statements d) in
  changes_ok D es (map plain (statements d)) ->
  exists ed', api_changes en es ed = Some ed' /\ n_log ed' = fold_left recorded (all_records D es (map plain (statements d))) (n_log ed).
Proof.
  intros en inc lib d es items ed HD HI HL HO HLd HIt HP HN D HC. rewrite (load_doc inc good_names d false HD HI) in HLd. injection HLd as <-.
  destruct (loaded_shows d HD) as (ws & HS). destruct ed as [it lg pm]. cbn [n_items n_perm n_log] in *. subst it pm. pose proof (defined_name lib (statements d) HO) as HNm.
  destruct (changes_run en D HNm es _ _ ws [] lg HS HC) as (ed' & ws' & ms' & E & _ & S & L).
  { intros l' El' its' w' m' HS'. apply (root_chain en lib (statements d) HL HO HN l' ltac:(rewrite El', map_top_plain; reflexivity) its' w' m' HS'). }
  exists ed'. split; [exact E|]. rewrite L. generalize (all_records D es (map plain (statements d))). intros rs. revert lg E L. clear. intros lg _ _. revert lg.
  induction rs as [|[[n v] t] rs IH]; intros lg; [reflexivity|]. cbn [map fold_left]. rewrite IH. try (f_equal; destruct v); reflexivity.
Qed.
Print Assumptions C83_recorded.
Example C83_nonvacuous : map (fun r => match r with (n, v, t) => (l2s n, option_map l2s v, t) end) (all_records in_D in_edits (map plain (statements in_doc))) =
  [("CLONE(sub)", Some "sub", UpCloneSubcircuit); ("X1", Some "sub_X1", UpUpdateComponentValue); ("X1:R1", Some "2k", UpUpdateComponentValue);
   ("CLONE(sub)", Some "sub", UpCloneSubcircuit); ("X2", Some "sub_X2", UpUpdateComponentValue);
   ("X2:CLONE(in2)", Some "in2", UpCloneSubcircuit); ("X2:X7", Some "in2_X7", UpUpdateComponentValue); ("X2:X7:R9", Some "22", UpUpdateComponentValue);
   ("X1:R1", Some "3k", UpUpdateComponentValue)]%string.
Proof. vm_compute. reflexivity. Qed.
