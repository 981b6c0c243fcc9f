(** C45: the layout of a QSPICE schematic does not matter. *)
From Coq Require Import String Ascii List Bool Arith ZArith Lia.
From Verif Require Import PyStr EngModel StepsModel QTagModel QTagSpec QTagProofs.
Import ListNotations.
Local Open Scope string_scope. Local Open Scope nat_scope. Local Open Scope list_scope.

Lemma smart_blanks : forall k l, Forall token l -> smart_split (repeat BLANK k ++ join_blank l) = l.
Proof.
  intros k l H. unfold smart_split. assert (G : forall f, length (repeat BLANK k ++ join_blank l) <= f -> split_chunks f (repeat BLANK k ++ join_blank l) = l); [|apply G; lia].
  induction k as [|k IH]; intros f L; cbn [repeat app] in *; [apply chunks_join; assumption|]. destruct f as [|f]; [cbn in L; lia|]. rewrite chunks_blank. apply IH. cbn in L. lia.
Qed.
Lemma parse_gap : forall g, gap g -> forall k fuel ts items rest, length (g ++ rest) < fuel ->
  exists fuel' k', length rest < fuel' /\ parse_from fuel (repeat BLANK k) ts items (g ++ rest) = parse_from fuel' (repeat BLANK k') ts items rest.
Proof.
  induction g as [|c g IH]; intros G k fuel ts items rest HF; [exists fuel, k; split; [exact HF|reflexivity]|].
  assert (G' : gap g) by (intros x Hx; apply G; right; exact Hx). destruct fuel as [|f]; [lia|]. cbn [app] in *. cbn [length] in HF. destruct (G c (or_introl eq_refl)) as [-> | ->].
  - destruct (IH G' (S k) f ts items rest) as (f' & k' & L & E); [lia|]. exists f', k'. split; [exact L|]. rewrite <- E. cbn [parse_from].
    change (aeqb BLANK LT) with false. change (aeqb BLANK DQ) with false. change (aeqb BLANK GT) with false. change (aeqb BLANK LF) with false. cbn beta iota.
    f_equal. rewrite <- (repeat_cons k BLANK). reflexivity.
  - destruct (IH G' 0 f ts items rest) as (f' & k' & L & E); [lia|]. exists f', k'. split; [exact L|]. rewrite <- E. cbn [parse_from].
    change (aeqb LF LT) with false. change (aeqb LF DQ) with false. change (aeqb LF GT) with false. change (aeqb LF LF) with true. cbn beta iota.
    pose proof (smart_blanks k [] (Forall_nil _)) as SB. cbn [join_blank] in SB. rewrite app_nil_r in SB. rewrite SB, app_nil_r. reflexivity.
Qed.
Lemma parse_tokens : forall l, Forall token l -> forall k fuel ts items rest, length (join_blank l ++ LF :: rest) < fuel ->
  exists fuel', length rest < fuel' /\ parse_from fuel (repeat BLANK k) ts items (join_blank l ++ LF :: rest) = parse_from fuel' [] (ts ++ l) items rest.
Proof.
  intros l H k fuel ts items rest HF. destruct (parse_balanced _ (join_balanced l H) fuel (repeat BLANK k) ts items _ HF) as (f1 & L1 & E1). destruct f1 as [|f1]; [lia|]. cbn [length] in L1.
  exists f1. split; [lia|]. rewrite E1. cbn [parse_from]. change (aeqb LF LT) with false. change (aeqb LF DQ) with false. change (aeqb LF GT) with false. change (aeqb LF LF) with true. cbn beta iota.
  rewrite smart_blanks by exact H. reflexivity.
Qed.
Lemma parse_lines : forall lines, Forall gap (map fst lines) -> Forall token (concat (map snd lines)) -> forall fuel ts items rest,
  length (flat_map (fun l => fst l ++ join_blank (snd l) ++ [LF]) lines ++ rest) < fuel ->
  exists fuel', length rest < fuel' /\
    parse_from fuel [] ts items (flat_map (fun l => fst l ++ join_blank (snd l) ++ [LF]) lines ++ rest) = parse_from fuel' [] (ts ++ concat (map snd lines)) items rest.
Proof.
  induction lines as [|[g l] lines IH]; intros HG HT fuel ts items rest HF; [exists fuel; split; [exact HF|cbn; rewrite app_nil_r; reflexivity]|].
  cbn [map fst snd concat flat_map] in *. inversion HG as [|? ? HG1 HG2]; subst. apply Forall_app in HT. destruct HT as (HT1 & HT2).
  set (R := flat_map (fun l => fst l ++ join_blank (snd l) ++ [LF]) lines ++ rest) in *.
  assert (ER : ((g ++ join_blank l ++ [LF]) ++ flat_map (fun l => fst l ++ join_blank (snd l) ++ [LF]) lines) ++ rest = g ++ (join_blank l ++ LF :: R)) by (unfold R; rewrite <- !app_assoc; reflexivity).
  rewrite ER in *. destruct (parse_gap g HG1 0 fuel ts items _ HF) as (f1 & k1 & L1 & E1). change (repeat BLANK 0) with (@nil ascii) in E1. rewrite E1.
  destruct (parse_tokens l HT1 k1 f1 ts items R L1) as (f2 & L2 & E2). rewrite E2. destruct (IH HG2 HT2 f2 (ts ++ l) items rest L2) as (f3 & L3 & E3). exists f3. split; [exact L3|].
  unfold R. rewrite E3, <- app_assoc. reflexivity.
Qed.
Lemma parse_laid : forall t b, laid_out t b -> forall fuel rest, length (b ++ GT :: rest) < fuel -> parse_from fuel [] [] [] (b ++ GT :: rest) = Some (t, rest).
Proof.
  induction t as [ts items IH] using tag_ind'. intros b HL fuel rest HF. inversion HL as [? ? lines texts g HC HT HG HK HE EQ1 EQ2|? HP EQ1 EQ2]; subst.
  - set (TX := flat_map (fun l : str * list str => fst l ++ join_blank (snd l) ++ [LF]) lines) in *.
    assert (ER : (TX ++ concat texts ++ g) ++ GT :: rest = TX ++ (concat texts ++ (g ++ GT :: rest))) by (rewrite <- ?app_assoc; reflexivity). 
    assert (HF2 : length (TX ++ (concat texts ++ (g ++ GT :: rest))) < fuel) by (rewrite <- ER; exact HF). clear HF. rename HF2 into HF. eapply eq_trans; [exact (f_equal (parse_from fuel [] [] []) ER)|].
    destruct (parse_lines lines HG HT fuel [] [] _ HF) as (f1 & L1 & E1). eapply eq_trans; [exact E1|]. cbn [app]. clear HF E1 ER HL HT fuel. generalize dependent f1.
    generalize (concat (map snd lines)) as ts.
    assert (KG : forall ts dn f1, length (concat texts ++ g ++ GT :: rest) < f1 -> parse_from f1 [] ts dn (concat texts ++ g ++ GT :: rest) = Some (Tag ts (dn ++ items), rest)).
    { induction HK as [|t s items texts (gp & bb & x & Hg & -> & Hx & Hl) HK IHK]; intros ts dn f1 L1.
      - cbn [concat app] in *. destruct (parse_gap g HE 0 f1 ts dn _ L1) as (f2 & k & L2 & E2). change (repeat BLANK 0) with (@nil ascii) in E2. rewrite E2. destruct f2 as [|f2]; [lia|]. cbn [parse_from].
        change (aeqb GT LT) with false. change (aeqb GT DQ) with false. change (aeqb GT GT) with true. cbn beta iota.
        pose proof (smart_blanks k [] (Forall_nil _)) as SB. cbn [join_blank] in SB. rewrite app_nil_r in SB. unfold last_tokens. rewrite at_colon_none, SB, !app_nil_r; [reflexivity|].
        intros a c K. assert (In COLON (repeat BLANK k)) as I by (rewrite K; apply in_or_app; right; left; reflexivity). apply repeat_spec in I. discriminate.
      - inversion IH as [|? ? IH1 IH2]; subst. cbn [concat] in *. set (R := concat texts ++ g ++ GT :: rest) in *.
        assert (ER : ((gp ++ LT :: bb ++ [GT; x]) ++ concat texts) ++ g ++ GT :: rest = gp ++ (LT :: bb ++ GT :: x :: R)) by (unfold R; rewrite <- !app_assoc; cbn; rewrite <- !app_assoc; reflexivity).
        rewrite ER in *. destruct (parse_gap gp Hg 0 f1 ts dn _ L1) as (f2 & k & L2 & E2). change (repeat BLANK 0) with (@nil ascii) in E2. rewrite E2. destruct f2 as [|f2]; [lia|]. cbn [parse_from].
        change (aeqb LT LT) with true. cbn beta iota. cbn [length] in L2. rewrite (IH1 bb Hl f2 (x :: R)) by lia. cbn [tl].
        rewrite IHK by (exact IH2 || (rewrite app_length in L2; cbn in L2; lia)). rewrite <- app_assoc. reflexivity. }
    intros ts f1 L1. rewrite KG by exact L1. reflexivity.
  - apply (parse_body _ HP 0). exact HF.
Qed.
(** Whatever the layout of the file is, the tree that is read is the one that was laid out. *)
Theorem C45_any_layout : forall t b rest, laid_out t b -> parse (LT :: b ++ GT :: rest) = Some (t, rest).
Proof. intros t b rest H. unfold parse. rewrite aeqb_refl. apply parse_laid; [exact H|lia]. Qed.
Print Assumptions C45_any_layout.
Example C45_layout_nonvacuous :
  let b := s2l "component (1,2)" ++ [LF; LF] ++ s2l "   0 0 " ++ [DQ] ++ s2l "a b" ++ [DQ; LF; LF] ++ LT :: s2l "symbol R" ++ [GT; LF; LF; BLANK] ++ LT :: s2l "pin 1" ++ [GT; BLANK; LF] in
  laid_out (Tag (map s2l ["component"; "(1,2)"; "0"; "0"] ++ [DQ :: s2l "a b" ++ [DQ]]) [Tag [s2l "symbol"; s2l "R"] []; Tag [s2l "pin"; s2l "1"] []]) b /\
  parse (LT :: b ++ GT :: s2l "tail") = Some (Tag (map s2l ["component"; "(1,2)"; "0"; "0"] ++ [DQ :: s2l "a b" ++ [DQ]]) [Tag [s2l "symbol"; s2l "R"] []; Tag [s2l "pin"; s2l "1"] []], s2l "tail").
Proof.
  cbv zeta. split; [|vm_compute; reflexivity].
  assert (TK : forall s, forallb (fun c => negb (is_space c) && negb (aeqb c DQ) && negb (aeqb c LT) && negb (aeqb c GT)) (s2l s) = true -> s2l s <> [] -> token (s2l s)).
  { intros s H N. left. split; [exact N|]. intros c Hc. rewrite forallb_forall in H. specialize (H c Hc). apply andb_true_iff in H. destruct H as (H & H3). apply andb_true_iff in H. destruct H as (H & H2). apply andb_true_iff in H. destruct H as (H0 & H1).
    split; [apply negb_true_iff; exact H0|]. repeat split; intros ->; [rewrite aeqb_refl in H1|rewrite aeqb_refl in H2|rewrite aeqb_refl in H3]; discriminate. }
  assert (LF' : forall a b, In a ["symbol"; "pin"] -> In b ["R"; "1"] -> laid_out (Tag [s2l a; s2l b] []) (join_blank [s2l a; s2l b])).
  { intros a b Ha Hb. apply L_leaf. assert (NC : forall s, forallb (fun c => negb (aeqb c COLON)) (s2l s) = true -> no_colon (s2l s) /\ forall x, s2l s <> x ++ [COLON]).
    { intros s H. rewrite forallb_forall in H. split; [intros x y K|intros x K]; (assert (In COLON (s2l s)) as I by (rewrite K; apply in_or_app; right; left; reflexivity)); specialize (H _ I); rewrite aeqb_refl in H; discriminate. }
    assert (NA : no_colon (s2l a) /\ forall x, s2l a <> x ++ [COLON]) by (apply NC; destruct Ha as [<- | [<- | []]]; reflexivity).
    assert (NB : no_colon (s2l b) /\ forall x, s2l b <> x ++ [COLON]) by (apply NC; destruct Hb as [<- | [<- | []]]; reflexivity).
    apply P_leaf.
    - constructor; [|constructor; [|constructor]]; apply TK; try (destruct Ha as [<- | [<- | []]]; vm_compute; congruence); destruct Hb as [<- | [<- | []]]; vm_compute; congruence.
    - constructor; [apply NA|constructor; [apply NB|constructor]].
    - intros x y z E. destruct x as [|x1 [|x2 x]]; cbn in E; [injection E as E _; destruct (proj2 NA _ E)|injection E as _ E _; destruct (proj2 NB _ E)|]. injection E as _ _ E. destruct x; discriminate. }
  pose proof (LF' "symbol" "R" (or_introl eq_refl) (or_introl eq_refl)) as K1. pose proof (LF' "pin" "1" (or_intror (or_introl eq_refl)) (or_intror (or_introl eq_refl))) as K2.
  apply (L_lines _ _ [([], map s2l ["component"; "(1,2)"]); (LF :: s2l "   ", map s2l ["0"; "0"] ++ [DQ :: s2l "a b" ++ [DQ]])]
    [[LF] ++ LT :: join_blank [s2l "symbol"; s2l "R"] ++ [GT; LF]; [LF; BLANK] ++ LT :: join_blank [s2l "pin"; s2l "1"] ++ [GT; BLANK]] [LF]).
  - reflexivity.
  - repeat (apply Forall_cons; [apply TK; vm_compute; congruence|]). apply Forall_cons; [|constructor]. right. exists (s2l "a b"). split; [reflexivity|]. intros H. vm_compute in H. repeat (destruct H as [H | H]; [discriminate|]). exact H.
  - constructor; [intros c []|]. constructor; [|constructor]. intros c H. vm_compute in H. repeat (destruct H as [<- | H]; [auto|]). destruct H.
  - constructor; [|constructor; [|constructor]]; eexists; eexists; eexists; (split; [|split; [reflexivity|split; [|eassumption]]]); auto; intros c H; repeat (destruct H as [<- | H]; [auto|]); destruct H.
  - intros c [<- | []]. right. reflexivity.
Qed.

(** C46: a text set as attribute is what is read as text, with or without quotes in it; and the others are left. *)
Theorem C46_text_after_set : forall t i s t', set_attr i (AText s) t = Some t' ->
  get_text_attr i t' = Some s /\ (forall j, j <> i -> get_text_attr j t' = get_text_attr j t).
Proof.
  intros t i s t' H. unfold set_attr in H. cbn [write_token] in H. destruct (set_nth i _ (toks t)) as [l|] eqn:E; [|discriminate]. injection H as <-.
  destruct (set_nth_spec _ _ _ _ E) as (A & B & _). unfold get_text_attr. cbn [toks]. split.
  - rewrite A. cbn [option_map]. destruct (startswith (s2l "0x") s) eqn:S.
    + destruct s as [|c s]; [discriminate|]. change (startswith (s2l "0x") (c :: s)) with (aeqb "0" c && startswith (s2l "x") s) in S. apply andb_true_iff in S. destruct S as (S & _). apply aeqb_eq in S. subst c. reflexivity.
    + assert (Q : quoted (DQ :: s ++ [DQ]) = true).
      { unfold quoted. cbn [startswith]. rewrite aeqb_refl. cbn [andb]. unfold endswith. cbn [rev]. rewrite rev_app_distr. cbn [rev app startswith]. rewrite aeqb_refl. reflexivity. }
      rewrite Q. unfold inner. cbn [tl]. rewrite removelast_last. reflexivity.
  - intros j J. rewrite (B j J). reflexivity.
Qed.
Print Assumptions C46_text_after_set.
