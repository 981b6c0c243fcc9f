(** Proofs for the parameters of a netlist: the editor. *)
From Coq Require Import String Ascii List Bool Arith ZArith Lia Sorted Permutation.
From Verif Require Import PyStr EngModel EngProofs EngCaseProofs PTokModel PTokSpec PTokProofs Regex RegexProofs RegexInv RegexMore CompModel CompSpec CompMatch CompFam CompProofs CompRewrite CompSelf CompProps
  SepModel UpdatesModel NetModel NetSpec NetProofs EditModel EditSpec EditProofs NetProps CmdSpec CmdProofs CmdProps ParModel ParSpec ParLine ParLine2 ParLine3.
Import ListNotations.
Local Open Scope string_scope.
Local Open Scope nat_scope.
Local Open Scope list_scope.

Lemma own_none : forall n s w, line_command s = Some w -> w <> s2l ".PARAM" -> own_match n s = Some None.
Proof. intros n s w H N. unfold own_match. rewrite H, str_neq by exact N. reflexivity. Qed.
Lemma kind_not_param : forall c, [c] <> s2l ".PARAM".
Proof. intros c H. discriminate H. Qed.
Lemma other_none : forall n s, stmt_ok good_names s -> no_params s -> named_in n (item_of s) = Some None /\ names_in (item_of s) = Some [].
Proof.
  intros n. apply (stmt_ind' (fun s => stmt_ok good_names s -> no_params s -> named_in n (item_of s) = Some None /\ names_in (item_of s) = Some [])).
  - intros l H _. cbn [item_of named_in names_in]. rewrite (own_none n _ _ (lc_note l H)) by discriminate. rewrite (lc_note l H). auto.
  - intros l (w & Hw & _) HN. cbn [no_params] in HN. rewrite (word1_first w l Hw) in HN. cbn [item_of named_in names_in]. rewrite (own_none n _ _ (lc_word w l Hw)) by exact HN. rewrite (lc_word w l Hw). cbn [option_map]. rewrite str_neq by exact HN. auto.
  - intros c (HC & _) _. destruct (lc_part c HC) as (A & _). cbn [item_of]. destruct (aeqb (c_kind c) "X"); cbn [named_in names_in]; rewrite (own_none n _ _ A) by apply kind_not_param; rewrite A; cbn [option_map]; rewrite str_neq by apply kind_not_param; auto.
  - intros h b t _ _. auto.
  - intros h b t _ _ _. auto.
  - intros l b IH ((w & Hw & _) & HB) HN. cbn [no_params] in HN. cbn [item_of named_in names_in].
    assert ((fix go (l : list item) : option (option (str * caps * bool * (item -> list item))) :=
                    match l with
                    | [] => Some None
                    | x :: r => match named_in n x with
                                | None => None
                                | Some (Some (ln, cp, b, put)) => Some (Some (ln, cp, b, fun y => put y :: r))
                                | Some None => match go r with
                                               | None => None
                                               | Some None => Some None
                                               | Some (Some (ln, cp, b, put)) => Some (Some (ln, cp, b, fun y => x :: put y))
                                               end
                                end
                    end) (map item_of b) = Some None /\
            (fix go (l : list item) : option (list str) :=
                    match l with
                    | [] => Some []
                    | x :: r => match names_in x, go r with Some a, Some b => Some (a ++ b) | _, _ => None end
                    end) (map item_of b) = Some []) as [G1 G2].
    { apply all_Forall in HB. apply all_Forall in HN. induction IH as [|s b H _ IHb]; [split; reflexivity|]. inversion HB; subst. inversion HN; subst. destruct (H ltac:(assumption) ltac:(assumption)) as [X1 X2]. cbn [map]. rewrite X1, X2.
      destruct IHb as [Y1 Y2]; [assumption|assumption|]. rewrite Y1, Y2. split; reflexivity. }
    rewrite G1, G2. cbn [option_map sort_texts]. rewrite (lc_word w l Hw). auto.
Qed.
Lemma shown_other : forall Q n it s w, shown Q it s w -> no_params s -> named_in n it = Some None /\ names_in it = Some [].
Proof.
  intros Q n it s w H HN. destruct s as [l|l|c|h b t|h b t|l b].
  1,2,4,5,6: (destruct (shown_plain Q _ _ _ H) as (-> & HL & _); [discriminate|]; destruct HL as [HL|(l0 & u & E & Hu & HE)]; [apply other_none; assumption|]; try discriminate E).
  - injection E as <-. cbn [no_params] in HN. rewrite (word1_first u l Hu) in HN. cbn [item_of named_in names_in]. rewrite (own_none n _ _ (lc_word u l Hu)) by exact HN. rewrite (lc_word u l Hu). cbn [option_map]. rewrite str_neq by exact HN. auto.
  - assert (exists c0 e, part_ok good_names c0 /\ holder it (comp_text c0) e) as (c0 & e & (HC & _) & HH).
    { remember (Part c) as x eqn:Ex. destruct H as [s HO N|it c' HH HC|it c0 c' HH HC0 ? ? ? ? ? ? ? ? ? ?]; [exfalso; exact (N _ Ex)|exists c', None; auto|exists c0, (Some (attrs_of c')); auto]. }
    destruct (lc_part c0 HC) as (A & _). destruct HH as [-> | ->]; cbn [named_in names_in]; rewrite (own_none n _ _ A) by apply kind_not_param; rewrite A; cbn [option_map]; rewrite str_neq by apply kind_not_param; auto.
Qed.

(** a .PARAM line is a directive *)
Lemma pline_word : forall p, pline_ok p -> first_word (s2l ".PARAM") (pline_text p).
Proof.
  intros p (HL & HW & HE & _ & HT & HT2). destruct (word_shape _ HW) as (q & E & _ & NS & _). exists (l_lead p), (l_word p), (entries_text (l_pars p) ++ l_tail p). split; [reflexivity|].
  split; [intros c Hc; left; apply HL; exact Hc|]. split; [exists q; exact E|]. split; [|split; [|symmetry; exact HW]].
  - intros c Hc G. rewrite forallb_forall in NS. specialize (NS c Hc). destruct G as [-> | [-> | [-> | ->]]]; discriminate NS.
  - destruct (l_pars p) as [|e l].
    + unfold entries_text. cbn [map concat app]. destruct (l_tail p) as [|c t]; [exact I|]. left. exact HT2.
    + inversion HE as [|? ? (S1 & S2 & _) _]; subst. unfold entries_text. cbn [map concat]. unfold entry_text at 1. destruct (e_sep e) as [|c s]; [contradiction|]. left. apply S1. left. reflexivity.
Qed.
Lemma pline_directive : forall p, pline_ok p -> is_directive (pline_text p).
Proof.
  intros p H. exists (s2l ".PARAM"). split; [apply pline_word; exact H|]. split; [discriminate|]. split; [discriminate|]. split; intros (r & E); discriminate E.
Qed.
Lemma pline_shown : forall Q p, pline_ok p -> shown Q (IPrim (full (pline_text p))) (Directive (pline_text p)) [Directive (strip (pline_text p))].
Proof. intros Q p H. apply (Sh_plain Q (Directive (pline_text p))); [left; apply pline_directive; exact H|discriminate]. Qed.
Lemma pline_named : forall n p, pline_ok p -> existsb (same_name n) (l_pars p) = true -> exists a e b c, l_pars p = a ++ e :: b /\ existsb (same_name n) a = false /\ same_name n e = true /\
  own_match n (full (pline_text p)) = Some (Some c) /\ group gVALUE (full (pline_text p)) c = Some (e_val e) /\
  let s := length (l_lead p ++ l_word p) + length (entries_text a) + length (entry_text e) in cap gVALUE c = Some (s - length (e_val e), s).
Proof.
  intros n p H HX. pose proof (marked_find n _ _ _ (line_marked p H) _ _ _ (cut_text p) eq_refl) as M. rewrite HX in M. destruct M as (a & e & b & bq & c & E & A & S & F & G & C). exists a, e, b, c.
  split; [exact E|]. split; [exact A|]. split; [exact S|]. split; [|split; [exact G|exact C]]. unfold own_match. rewrite (lc_word _ _ (pline_word p H)). change (str_eqb (s2l ".PARAM") (s2l ".PARAM")) with true. cbv iota. unfold line_match. rewrite F. reflexivity.
Qed.
Lemma pline_unnamed : forall n p, pline_ok p -> existsb (same_name n) (l_pars p) = false -> own_match n (full (pline_text p)) = Some None.
Proof.
  intros n p H HX. pose proof (marked_find n _ _ _ (line_marked p H) _ _ _ (cut_text p) eq_refl) as M. rewrite HX in M. unfold own_match. rewrite (lc_word _ _ (pline_word p H)). change (str_eqb (s2l ".PARAM") (s2l ".PARAM")) with true. cbv iota. unfold line_match. rewrite M. reflexivity.
Qed.

Lemma entries_cons : forall x l, entries (x :: l) = match x with Params p => l_pars p | Other _ => [] end ++ entries l.
Proof. reflexivity. Qed.
(** the parameter sought, in the entries of the netlist *)
Lemma named_shown : forall Q n items st P, view Q items st -> map fst st = map to_stmt P -> Forall pstmt_ok P ->
  if existsb (same_name n) (entries P)
  then exists h ia ib sa w sb p Pa Pb, named n items = Some (Some h) /\ items = ia ++ IPrim (full (pline_text p)) :: ib /\ st = sa ++ (Directive (pline_text p), w) :: sb /\
         view Q ia sa /\ view Q ib sb /\ P = Pa ++ Params p :: Pb /\ map fst sa = map to_stmt Pa /\ map fst sb = map to_stmt Pb /\ existsb (same_name n) (entries Pa) = false /\ existsb (same_name n) (l_pars p) = true /\ pline_ok p /\
         h_line h = full (pline_text p) /\ own_match n (full (pline_text p)) = Some (Some (h_caps h)) /\ h_prim h = true /\ (forall y, h_put h y = ia ++ y :: ib)
  else named n items = Some None.
Proof.
  intros Q n items st P HV. revert P. induction HV as [|it [s w] items st H1 H2 IH]; intros P HM HP.
  - destruct P; [|discriminate HM]. reflexivity.
  - destruct P as [|x P]; [discriminate HM|]. cbn [map fst] in HM. injection HM as HS HM. inversion HP as [|? ? HX HP']; subst. specialize (IH P HM HP'). rewrite entries_cons, existsb_app. cbn [fst snd] in H1. cbn [named].
    destruct x as [p|s0]; cbn [to_stmt pstmt_ok] in *.
    + destruct (shown_plain Q _ _ _ H1) as (-> & _ & Ew); [discriminate|]. cbn [item_of named_in]. destruct (existsb (same_name n) (l_pars p)) eqn:EX; cbn [orb].
      * destruct (pline_named n p HX EX) as (a & e & b & c & E & A & S & O & _). rewrite O. eexists _, [], items, [], w, st, p, [], P. split; [reflexivity|]. cbn [h_line h_caps h_prim h_put app].
        split; [reflexivity|]. split; [reflexivity|]. split; [constructor|]. split; [exact H2|]. split; [reflexivity|]. split; [reflexivity|]. split; [exact HM|]. split; [reflexivity|]. split; [exact EX|]. split; [exact HX|]. auto.
      * rewrite (pline_unnamed n p HX EX). destruct (existsb (same_name n) (entries P)).
        -- destruct IH as (h & ia & ib & sa & w' & sb & q & Pa & Pb & N & E1 & E2 & V1 & V2 & E3 & M1 & M2 & X1 & X2 & X3 & HL & HO & HPr & HPt). rewrite N. eexists _, (IPrim (full (pline_text p)) :: ia), ib, ((Directive (pline_text p), w) :: sa), w', sb, q, (Params p :: Pa), Pb.
           split; [reflexivity|]. cbn [h_line h_caps h_prim h_put app]. split; [rewrite E1; reflexivity|]. split; [rewrite E2; reflexivity|]. split; [constructor; [exact H1|exact V1]|]. split; [exact V2|]. split; [rewrite E3; reflexivity|].
           split; [cbn [map fst to_stmt]; rewrite M1; reflexivity|]. split; [exact M2|]. split; [rewrite entries_cons, existsb_app, EX; exact X1|]. split; [exact X2|]. split; [exact X3|]. split; [exact HL|]. split; [exact HO|]. split; [exact HPr|]. intros y. rewrite HPt. reflexivity.
        -- rewrite IH. reflexivity.
    + destruct (shown_other Q n _ _ _ H1 HX) as [N0 _]. rewrite N0. cbn [existsb orb]. destruct (existsb (same_name n) (entries P)).
      * destruct IH as (h & ia & ib & sa & w' & sb & q & Pa & Pb & N & E1 & E2 & V1 & V2 & E3 & M1 & M2 & X1 & X2 & X3 & HL & HO & HPr & HPt). rewrite N. eexists _, (it :: ia), ib, ((s0, w) :: sa), w', sb, q, (Other s0 :: Pa), Pb.
        split; [reflexivity|]. cbn [h_line h_caps h_prim h_put app]. split; [rewrite E1; reflexivity|]. split; [rewrite E2; reflexivity|]. split; [constructor; [exact H1|exact V1]|]. split; [exact V2|]. split; [rewrite E3; reflexivity|].
        split; [cbn [map fst to_stmt]; rewrite M1; reflexivity|]. split; [exact M2|]. split; [rewrite entries_cons; exact X1|]. split; [exact X2|]. split; [exact X3|]. split; [exact HL|]. split; [exact HO|]. split; [exact HPr|]. intros y. rewrite HPt. reflexivity.
      * rewrite IH. reflexivity.
Qed.
Lemma names_shown : forall Q items st P, view Q items st -> map fst st = map to_stmt P -> Forall pstmt_ok P -> all_names items = Some (names P).
Proof.
  intros Q items st P HV. revert P. induction HV as [|it [s w] items st H1 H2 IH]; intros P HM HP.
  - destruct P; [|discriminate HM]. reflexivity.
  - destruct P as [|x P]; [discriminate HM|]. cbn [map fst] in HM. injection HM as HS HM. inversion HP as [|? ? HX HP']; subst. specialize (IH P HM HP'). cbn [fst snd] in H1. cbn [all_names]. rewrite IH. unfold names. rewrite entries_cons, map_app.
    destruct x as [p|s0]; cbn [to_stmt pstmt_ok] in *.
    + destruct (shown_plain Q _ _ _ H1) as (-> & _ & Ew); [discriminate|]. cbn [item_of names_in]. rewrite (lc_word _ _ (pline_word p HX)). cbn [option_map]. change (str_eqb (s2l ".PARAM") (s2l ".PARAM")) with true. cbv iota. rewrite names_of_line by exact HX. reflexivity.
    + destruct (shown_other Q [] _ _ _ H1 HX) as [_ ->]. reflexivity.
Qed.
Lemma find_app : forall (p : entry -> bool) a b, existsb p a = false -> find p (a ++ b) = find p b.
Proof. induction a as [|x a IH]; intros b H; [reflexivity|]. cbn [existsb] in H. apply orb_false_iff in H. destruct H as [H1 H2]. cbn [app find]. rewrite H1. apply IH. exact H2. Qed.
Lemma entries_split : forall a b, entries (a ++ b) = entries a ++ entries b.
Proof. intros a b. unfold entries. rewrite map_app, concat_app. reflexivity. Qed.
Theorem get_shown_par : forall Q n items st P, view Q items st -> map fst st = map to_stmt P -> Forall pstmt_ok P -> get_parameter n items = lookup n P.
Proof.
  intros Q n items st P HV HM HP. pose proof (named_shown Q n items st P HV HM HP) as H. unfold get_parameter, lookup. destruct (existsb (same_name n) (entries P)) eqn:EX.
  - destruct H as (h & ia & ib & sa & w & sb & p & Pa & Pb & N & _ & _ & _ & _ & E3 & _ & _ & X1 & X2 & X3 & HL & HO & _). rewrite N, HL. destruct (pline_named n p X3 X2) as (a & e & b & c & E & A & S & O & G & _). rewrite O in HO. injection HO as ->. rewrite G.
    rewrite E3, entries_split, entries_cons, E. rewrite find_app by exact X1. rewrite <- app_assoc, find_app by exact A. cbn [app find]. rewrite S. reflexivity.
  - rewrite H. destruct (find (same_name n) (entries P)) as [e|] eqn:F; [|reflexivity]. apply find_some in F. destruct F as [F1 F2]. exfalso. assert (existsb (same_name n) (entries P) = true) as G by (apply existsb_exists; eauto). congruence.
Qed.

(** the calls *)
Definition do_pcmd (k : pcmd) (ed : editor) : option editor := match k with SetPar n v => set_parameter n (Some v) ed | DropPar n => set_parameter n None ed end.
Fixpoint do_pcmds (ks : list pcmd) (ed : editor) : option editor :=
  match ks with [] => Some ed | k :: r => match do_pcmd k ed with Some ed' => do_pcmds r ed' | None => None end end.
Lemma on_line_first : forall n f Pa p Pb, existsb (same_name n) (entries Pa) = false -> existsb (same_name n) (l_pars p) = true -> on_line n f (Pa ++ Params p :: Pb) = Pa ++ f p :: Pb.
Proof.
  intros n f Pa p Pb. induction Pa as [|x Pa IH]; intros A S; [cbn [app on_line]; rewrite S; reflexivity|]. rewrite entries_cons, existsb_app in A. apply orb_false_iff in A. destruct A as [X A]. cbn [app on_line]. destruct x; [rewrite X|]; f_equal; apply IH; assumption.
Qed.
Lemma removed_shown : forall Q, shown Q (IText (removed_line ++ NLs)) (Note removed_line) (tidy_stmt (Note removed_line)).
Proof. intros Q. apply (Sh_plain Q (Note removed_line)); [left; exists [], removed_line; split; [reflexivity|split; [intros c []|left; right; right; left; reflexivity]]|discriminate]. Qed.
Lemma marked_nil : forall p l ms, marked p l ms -> (ms = [] <-> l = []).
Proof. intros p l ms H. destruct H; split; intros E; try reflexivity; discriminate E. Qed.
Theorem par_step : forall Q k ed st P, n_perm ed <> Deny -> view Q (n_items ed) st -> map fst st = map to_stmt P -> Forall pstmt_ok P -> pcmd_ok k P ->
  exists ed' st', do_pcmd k ed = Some ed' /\ n_perm ed' = n_perm ed /\ view Q (n_items ed') st' /\ map fst st' = map to_stmt (run_pcmd k P) /\ Forall pstmt_ok (run_pcmd k P).
Proof.
  intros Q k ed st P HD HV HM HP HO.
  assert (forall n v, set_parameter n v ed = match named n (n_items ed) with
      | None => None
      | Some (Some h) =>
          match v with
          | None => Some (note_par ed (if h_prim h then h_put h (match finditer R0 (sub_empty (setting_re (ilit n)) (h_line h)) with [] => IText (removed_line ++ NLs) | _ => IPrim (sub_empty (setting_re (ilit n)) (h_line h)) end) else n_items ed) n VNone UpDeleteParameter)
          | Some v =>
              match cap gVALUE (h_caps h) with
              | None => None
              | Some (b, e) => match insert_section (h_line h) (Z.of_nat b) (Z.of_nat e) v with
                  | None => None
                  | Some l => Some (note_par ed (if h_prim h then h_put h (IPrim (l ++ NLs)) else n_items ed) n (txt v) UpUpdateParameter)
                  end
              end
          end
      | Some None => Some (note_par ed (insert_item (n_items ed) (length (n_items ed) - 2) (IPrim (s2l ".PARAM " ++ n ++ s2l "=" ++ match v with Some v => v | None => s2l "None" end ++ s2l "  ; Batch instruction" ++ NLs)))
                  n (match v with Some v => txt v | None => VNone end) UpAddParameter)
      end) as SP. { intros n v. unfold set_parameter. destruct (n_perm ed) eqn:E; [contradiction HD; reflexivity|reflexivity|reflexivity]. }
  assert (forall n (f : pline -> pstmt), existsb (same_name n) (entries P) = true -> (forall p, In (Params p) P -> pline_ok p -> existsb (same_name n) (l_pars p) = true -> pstmt_ok (f p)) ->
    (forall a p b, P = a ++ Params p :: b -> pline_ok p -> existsb (same_name n) (entries a) = false -> existsb (same_name n) (l_pars p) = true -> Forall pstmt_ok (on_line n f P))) as FP.
  { intros n f _ HF a p b E OK A X. rewrite E, on_line_first by assumption. rewrite E in HP. apply Forall_app in HP. destruct HP as [P1 P2]. inversion P2; subst. apply Forall_app. split; [exact P1|]. constructor; [|assumption].
    apply HF; [apply in_or_app; right; left; reflexivity|exact OK|exact X]. }
  destruct k as [n v|n].
  - destruct HO as (HN & HVal & HF). cbn [do_pcmd run_pcmd]. rewrite SP. pose proof (named_shown Q n _ _ P HV HM HP) as H. destruct (existsb (same_name n) (entries P)) eqn:EX.
    + destruct H as (h & ia & ib & sa & w & sb & p & Pa & Pb & N & E1 & E2 & V1 & V2 & E3 & M1 & M2 & X1 & X2 & X3 & HL & HOm & HPr & HPt). rewrite N, HL, HPr.
      destruct (pline_named n p X3 X2) as (a & e & b & c & E & A & S & O & G & C). rewrite O in HOm. injection HOm as <-. cbv zeta in C. rewrite C. rewrite (set_line_text p n v a e b X3 HVal E A S).
      eexists _, (sa ++ (Directive (pline_text (set_line n v p)), [Directive (strip (pline_text (set_line n v p)))]) :: sb). split; [reflexivity|]. cbn [n_perm note_par n_items]. split; [reflexivity|]. split; [|split].
      * rewrite HPt. apply view_app; [exact V1|]. constructor; [|exact V2]. cbn [fst snd]. apply pline_shown. apply set_line_ok; assumption.
      * rewrite E3, on_line_first by assumption. rewrite !map_app. cbn [map fst to_stmt]. rewrite M1, M2. reflexivity.
      * eapply FP; [exact EX| |exact E3|exact X3|exact X1|exact X2]. intros q _ Hq _. cbn [pstmt_ok]. apply set_line_ok; assumption.
    + rewrite H. specialize (HF eq_refl). pose proof (new_line_ok n v HN HVal HF) as NL1.
      assert (s2l ".PARAM " ++ n ++ s2l "=" ++ v ++ s2l "  ; Batch instruction" ++ NLs = full (pline_text (new_line n v))) as ->.
      { unfold full, pline_text. cbn [new_line l_lead l_word l_pars l_tail map concat app]. unfold entry_text. cbn [e_sep e_par e_b1 e_b2 e_val app]. change (s2l ".PARAM ") with (s2l ".PARAM" ++ [" "%char]). change (s2l "=") with ["="%char]. rewrite <- ?app_assoc. cbn [app]. rewrite <- ?app_assoc. cbn [app]. rewrite <- ?app_assoc. cbn [app]. reflexivity. }
      destruct (insert_view Q _ _ (length (n_items ed) - 2) _ _ _ HV (pline_shown Q _ NL1)) as [A B]. eexists _, _. split; [reflexivity|]. split; [reflexivity|]. cbn [n_items note_par]. split; [exact A|].
      rewrite B. unfold insert_from_end. rewrite (view_length Q _ _ HV). assert (length st = length P) as LP by (rewrite <- (map_length fst st), HM, map_length; reflexivity). rewrite LP, HM. split.
      * rewrite map_app. cbn [map to_stmt]. rewrite firstn_map, skipn_map. reflexivity.
      * apply Forall_app. rewrite <- (firstn_skipn (length P - 2) P) in HP. apply Forall_app in HP. destruct HP as [P1 P2]. split; [exact P1|]. constructor; [exact NL1|exact P2].
  - destruct HO as (HN & EX & HC). cbn [do_pcmd run_pcmd]. rewrite SP. pose proof (named_shown Q n _ _ P HV HM HP) as H. rewrite EX in H.
    destruct H as (h & ia & ib & sa & w & sb & p & Pa & Pb & N & E1 & E2 & V1 & V2 & E3 & M1 & M2 & X1 & X2 & X3 & HL & HOm & HPr & HPt). rewrite N, HL, HPr.
    destruct (HC p) as [SO FO]; [rewrite E3; apply in_or_app; right; left; reflexivity|exact X2|]. rewrite (drop_line_text n p X3 HN X2 SO). pose proof (drop_line_ok n p X3 X2 FO) as DK.
    assert (drop_line n p = match l_pars (dropped n p) with [] => Other (Note removed_line) | _ => Params (dropped n p) end) as DL. { unfold drop_line, dropped. destruct (drop_entry n (l_pars p) (l_tail p)) as [l t]. reflexivity. }
    pose proof (marked_nil _ _ _ (line_marked _ DK)) as MN.
    eexists _, (sa ++ (to_stmt (drop_line n p), tidy_stmt (to_stmt (drop_line n p))) :: sb). split; [reflexivity|]. split; [reflexivity|]. cbn [n_items note_par]. split; [|split].
    + rewrite HPt. apply view_app; [exact V1|]. constructor; [|exact V2]. cbn [fst snd]. rewrite DL. destruct (finditer R0 (full (pline_text (dropped n p)))) as [|m0 ms].
      * rewrite (proj1 MN eq_refl). cbn [to_stmt]. apply removed_shown.
      * destruct (l_pars (dropped n p)); [discriminate (proj2 MN eq_refl)|]. cbn [to_stmt]. apply pline_shown. exact DK.
    + rewrite E3, on_line_first by assumption. rewrite !map_app. cbn [map fst]. rewrite M1, M2. reflexivity.
    + eapply FP; [exact EX| |exact E3|exact X3|exact X1|exact X2]. intros q Iq Hq Xq. destruct (HC q Iq Xq) as [_ FQ]. pose proof (drop_line_ok n q Hq Xq FQ) as DQ'.
      assert (drop_line n q = match l_pars (dropped n q) with [] => Other (Note removed_line) | _ => Params (dropped n q) end) as ->. { unfold drop_line, dropped. destruct (drop_entry n (l_pars q) (l_tail q)) as [l t]. reflexivity. }
      destruct (l_pars (dropped n q)); [exact I|exact DQ'].
Qed.
Theorem pars_run : forall Q ks ed st P, n_perm ed <> Deny -> view Q (n_items ed) st -> map fst st = map to_stmt P -> Forall pstmt_ok P -> pcmds_ok ks P ->
  exists ed' st', do_pcmds ks ed = Some ed' /\ n_perm ed' = n_perm ed /\ view Q (n_items ed') st' /\ map fst st' = map to_stmt (run_pcmds ks P) /\ Forall pstmt_ok (run_pcmds ks P).
Proof.
  intros Q. induction ks as [|k ks IH]; intros ed st P HD HV HM HP HO; [exists ed, st; auto 6|]. destruct HO as [H1 H2]. destruct (par_step Q k ed st P HD HV HM HP H1) as (ed1 & st1 & E1 & D1 & V1 & M1 & P1).
  destruct (IH ed1 st1 (run_pcmd k P)) as (ed2 & st2 & E2 & D2 & V2 & M2 & P2); [rewrite D1; exact HD|exact V1|exact M1|exact P1|exact H2|]. exists ed2, st2. cbn [do_pcmds]. rewrite E1. split; [exact E2|]. split; [congruence|]. auto.
Qed.

(** sorting *)
Lemma str_le_total : forall a b, str_le a b = false -> str_le b a = true.
Proof.
  induction a as [|x a IH]; intros [|y b] H; try discriminate; [reflexivity|]. cbn [str_le] in *. destruct (Nat.ltb_spec (code x) (code y)); [discriminate|]. destruct (Nat.ltb_spec (code y) (code x)); [reflexivity|]. apply IH. exact H.
Qed.
Lemma str_le_trans : forall a b c, str_le a b = true -> str_le b c = true -> str_le a c = true.
Proof.
  induction a as [|x a IH]; intros [|y b] [|z c] H1 H2; try discriminate; try reflexivity. cbn [str_le] in *.
  destruct (Nat.ltb_spec (code x) (code y)), (Nat.ltb_spec (code y) (code z)), (Nat.ltb_spec (code x) (code z)), (Nat.ltb_spec (code y) (code x)), (Nat.ltb_spec (code z) (code y)), (Nat.ltb_spec (code z) (code x)); try lia; try discriminate; try reflexivity. eapply IH; eassumption.
Qed.
Lemma insert_perm : forall x l, Permutation (x :: l) (insert_sorted x l).
Proof. induction l as [|y l IH]; [reflexivity|]. cbn [insert_sorted]. destruct (str_le x y); [reflexivity|]. rewrite perm_swap. constructor. exact IH. Qed.
Lemma sort_perm : forall l, Permutation l (sort_texts l).
Proof. induction l as [|x l IH]; [reflexivity|]. cbn [sort_texts]. rewrite <- insert_perm. constructor. exact IH. Qed.
Lemma insert_ordered : forall x l, StronglySorted (fun a b => str_le a b = true) l -> StronglySorted (fun a b => str_le a b = true) (insert_sorted x l).
Proof.
  intros x l H. induction H as [|y l H IH F]; [constructor; constructor|]. cbn [insert_sorted]. destruct (str_le x y) eqn:E.
  - constructor; [constructor; assumption|]. constructor; [exact E|]. eapply Forall_impl; [|exact F]. intros z Hz. eapply str_le_trans; eassumption.
  - constructor; [exact IH|]. eapply Permutation_Forall; [apply insert_perm|]. constructor; [apply str_le_total; exact E|exact F].
Qed.
Lemma sort_ordered : forall l, StronglySorted (fun a b => str_le a b = true) (sort_texts l).
Proof. induction l as [|x l IH]; [constructor|]. cbn [sort_texts]. apply insert_ordered. exact IH. Qed.
