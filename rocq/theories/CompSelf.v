(** Writing a statement that was not edited, whatever its layout. *)
From Coq Require Import String Ascii List Bool Arith ZArith Lia.
From Verif Require Import PyStr EngModel EngProofs EngCaseProofs PTokModel PTokSpec PTokProofs Regex RegexProofs RegexInv RegexMore CompModel CompSpec CompMatch CompTail CompRead CompFam CompInst CompProofs CompRewrite.
Import ListNotations.
Local Open Scope string_scope.
Local Open Scope nat_scope.
Local Open Scope list_scope.

Definition spaced (l : list (str * str)) : list (str * str) := map (fun bn => (SP, snd bn)) l.
Definition tidy (c : comp) : comp :=
  if str_eqb (nodes_text (c_nodes c)) (ntext (map snd (c_nodes c))) then c
  else {| c_kind := c_kind c; c_name := c_name c; c_nodes := spaced (c_nodes c);
          c_gap := match c_gap c with x :: _ => if aeqb x " " then c_gap c else " "%char :: c_gap c | [] => [] end;
          c_val := c_val c; c_pars := c_pars c;
          c_end := match c_note c with None => [] | Some _ => c_end c end; c_note := option_map rstrip (c_note c) |}.
Lemma rstrip_app_blank : forall a u, forallb is_space u = true -> rstrip (a ++ u) = rstrip a.
Proof.
  intros a u H. unfold rstrip, rstrip_if. rewrite rev_app_distr. f_equal. assert (forallb is_space (rev u) = true) as H'.
  { apply forallb_forall. intros x Hx. apply in_rev in Hx. rewrite forallb_forall in H. apply H. exact Hx. }
  clear H. revert H'. generalize (rev u). clear u. induction l as [|x l IH]; intros H; [reflexivity|]. cbn [forallb] in H. apply andb_true_iff in H. destruct H as [H1 H2].
  cbn [app lstrip_if]. rewrite H1. apply IH. exact H2.
Qed.
Lemma rstrip_ends : forall a, ends_ok a -> rstrip a = a.
Proof.
  intros a [-> | (r & d & -> & Hd)]; [reflexivity|]. unfold rstrip, rstrip_if. rewrite rev_app_distr. cbn [rev app lstrip_if]. rewrite Hd. cbn [rev]. rewrite rev_involutive. reflexivity.
Qed.
Lemma rstrip_cons : forall a x t, is_space x = false -> rstrip (a ++ x :: t) = a ++ x :: rstrip t.
Proof.
  intros a x t Hx. unfold rstrip, rstrip_if. rewrite rev_app_distr. cbn [rev]. rewrite <- app_assoc. cbn [app].
  assert (forall l m, lstrip_if is_space (l ++ x :: m) = (lstrip_if is_space l) ++ x :: m) as L.
  { induction l as [|y l IH]; intros m; cbn [app lstrip_if]; [rewrite Hx; reflexivity|]. destruct (is_space y); [apply IH|reflexivity]. }
  rewrite L, rev_app_distr. cbn [rev]. rewrite rev_involutive, <- !app_assoc. reflexivity.
Qed.
Lemma strip_rstrip : forall x s, is_space x = false -> strip (x :: s) = rstrip (x :: s).
Proof. intros x s H. unfold strip, strip_if. cbn [lstrip_if]. rewrite H. reflexivity. Qed.
Lemma nodes_spaced : forall l, l <> [] -> nodes_text (spaced l) = ntext (map snd l).
Proof.
  intros l N. rewrite nodes_canonical.
  - unfold spaced. rewrite map_map. reflexivity.
  - unfold spaced. apply Forall_forall. intros x Hx. apply in_map_iff in Hx. destruct Hx as (y & <- & _). reflexivity.
  - unfold spaced. destruct l; [contradiction N; reflexivity|discriminate].
Qed.
Lemma entries_names : forall l, names_ok l -> differences (map entry l) (map entry l) = false.
Proof.
  intros l [_ H]. apply differences_refl. rewrite entry_names. exact H.
Qed.

Theorem comp_rewrite_self : forall c, comp_ok c -> names_ok (c_pars c) ->
  (forall lo hi, family_of (c_kind c) = Some (Controlled, lo, hi) -> c_end c = []) ->
  rewrite (comp_text c) (attrs_of c) = Some (comp_text (tidy c)).
Proof.
  intros c HC HNN Hce. assert (HN2 := HNN). destruct HN2 as [HNm HND].
  destruct (comp_match c [NL] HC (or_introl eq_refl)) as (f & lo & hi & r & [ye yc] & vu & pu & w & Hf & Hr & Hm & G1 & G2). cbn [snd] in *.
  assert (HCd := HC). destruct HCd as (NN & HN & Hnodes & HG & NG & (HL & HE) & _ & HNE & HB & f' & lo' & hi' & Hf' & Hlo & Hhi & Hv & Hctl & Hins).
  rewrite Hf in Hf'. injection Hf' as <- <- <-.
  pose proof (kind_upper _ _ _ _ Hf) as KU. pose proof (family_not_space _ _ _ _ Hf) as KS. pose proof (family_lo _ _ _ _ Hf) as L2. destruct (family_has_value _ _ _ _ Hf) as [KV KX].
  assert (c_nodes c <> []) as NNo by (intros E; rewrite E in Hlo; cbn [length] in Hlo; lia).
  set (D := c_kind c :: c_name c) in *. set (N := nodes_text (c_nodes c)) in *. set (P := ptext (c_pars c)) in *. set (E := end_text c) in *. set (V := c_val c) in *. set (G := c_gap c) in *.
  assert (comp_body c = D ++ N ++ G ++ V ++ P ++ E) as EB by (unfold comp_body, line_text; reflexivity).
  set (T0 := D ++ N ++ G ++ V ++ P ++ E) in *.
  assert (comp_text c = T0 ++ [NL]) as EO by (unfold comp_text; rewrite EB; reflexivity).
  assert (collapse (comp_text c) = T0 ++ SP) as ECl by (rewrite collapse_text by exact HC; unfold text_z; rewrite EB; reflexivity).
  assert (forall a n, In a n -> (forall x, In x n -> is_word x = true) -> is_space a = false) as WS by (intros a n Ha Hn; apply word_facts, Hn; exact Ha).
  assert (trimmed D) as TD by (apply name_trimmed; [exact KS|intros a Ha; apply (WS a _ Ha HN)]).
  assert (trimmed V) as TV by (apply (value_trimmed _ _ _ Hv)).
  pose proof (ptext_ends c HC) as PE. fold P in PE.
  assert (slice (comp_text c) (0, S (length (c_name c))) = D) as S1 by (eapply (slice_obj c [] D); [rewrite EO; unfold T0; cbn [app]; rewrite <- app_assoc; reflexivity|reflexivity|reflexivity]).
  assert (slice (comp_text c) (S (length (c_name c)), S (length (c_name c)) + length N) = N) as S2 by (eapply (slice_obj c D N); [rewrite EO; unfold T0; rewrite <- !app_assoc; reflexivity|reflexivity|reflexivity]).
  unfold CompModel.rewrite. set (at' := attrs_of c).
  assert (a_ref at' = c_kind c :: upper (c_name c)) as AR by (unfold at', attrs_of, upper; cbn [a_ref map]; rewrite KU; reflexivity).
  rewrite AR, Hr.
  assert (text_z c [NL] = comp_text c) as TZ by reflexivity. rewrite TZ in Hm. rewrite Hm. rewrite ECl.
  assert (cap gDES yc = Some (0, S (length (c_name c))) /\ cap gNODES yc = Some (S (length (c_name c)), S (length (c_name c)) + length N)) as [CD CN].
  { assert (f = Controlled \/ f <> Controlled) as [F|F] by (destruct f; auto; right; discriminate); [destruct (G2 F) as (_ & A & B & _)|destruct (G1 F) as (_ & _ & _ & A & B & _)]; split; assumption. }
  assert (rw_des at' (comp_text c) yc (T0 ++ SP, 0%Z, false) = Some (T0 ++ SP, 0%Z, false)) as Est1.
  { unfold rw_des. rewrite CD, S1, AR. assert (undress D = upper D) as -> by (apply undress_upper; assumption).
    unfold D at 1. cbn [upper map]. fold (upper (c_name c)). rewrite KU, str_eqb_refl. reflexivity. }
  match goal with |- bind ?X _ = _ => replace X with (Some (T0 ++ SP, 0%Z, false)) by (symmetry; exact Est1) end. cbn [bind].
  assert (exists st2, rw_nodes at' (comp_text c) yc (T0 ++ SP, 0%Z, false) = Some st2 /\
    ((st2 = (T0 ++ SP, 0%Z, false) /\ str_eqb N (ntext (map snd (c_nodes c))) = true) \/
     (exists o, st2 = (comp_body (tidy c), o, true) /\ str_eqb N (ntext (map snd (c_nodes c))) = false))) as (st2 & Est2 & R2).
  { unfold rw_nodes. rewrite CN, S2. change (" "%char :: join (s2l " ") (a_ports at')) with (ntext (map snd (c_nodes c))).
    destruct (str_eqb N (ntext (map snd (c_nodes c)))) eqn:Eq; [eexists; split; [reflexivity|left; split; reflexivity]|].
    pose proof (ports_trimmed _ NNo Hnodes) as TJ.
    assert (strip (ntext (map snd (c_nodes c))) = join (s2l " ") (map snd (c_nodes c))) as SS.
    { unfold ntext. unfold strip, strip_if. cbn [lstrip_if]. change (is_space " ") with true. cbv iota. apply trimmed_strip0. exact TJ. }
    set (J := join (s2l " ") (map snd (c_nodes c))) in *.
    assert (forall pre, strip (D ++ SP ++ J ++ pre ++ G ++ V ++ P ++ E ++ SP) = D ++ SP ++ J ++ pre ++ G ++ V ++ P ++ (match c_note c with None => [] | Some t => c_end c ++ ";"%char :: rstrip t end)) as FIN.
    { intros pre. unfold D. cbn [app]. rewrite strip_rstrip by exact KS.
      replace (c_kind c :: c_name c ++ SP ++ J ++ pre ++ G ++ V ++ P ++ E ++ SP) with ((c_kind c :: c_name c ++ SP ++ J ++ pre ++ G ++ V ++ P ++ E) ++ SP)
        by (cbn [app]; rewrite <- !app_assoc; reflexivity).
      rewrite rstrip_app_blank by reflexivity. unfold E, end_text. destruct (c_note c) as [t|]; cbn [note_text].
      - replace (c_kind c :: c_name c ++ SP ++ J ++ pre ++ G ++ V ++ P ++ c_end c ++ ";"%char :: t) with ((c_kind c :: c_name c ++ SP ++ J ++ pre ++ G ++ V ++ P ++ c_end c) ++ ";"%char :: t)
          by (cbn [app]; rewrite <- !app_assoc; reflexivity).
        rewrite rstrip_cons by reflexivity. cbn [app]. rewrite <- !app_assoc. reflexivity.
      - rewrite app_nil_r. replace (c_kind c :: c_name c ++ SP ++ J ++ pre ++ G ++ V ++ P ++ c_end c) with ((c_kind c :: c_name c ++ SP ++ J ++ pre ++ G ++ V ++ P) ++ c_end c)
          by (cbn [app]; rewrite <- !app_assoc; reflexivity).
        rewrite rstrip_app_blank by exact HE. rewrite rstrip_ends; [rewrite !app_nil_r; reflexivity|].
        assert (trimmed ((c_kind c :: c_name c ++ SP ++ J ++ pre ++ G ++ V) ++ P)) as [_ (d & q & Eq' & Hd)].
        { apply trimmed_ends; [|exact PE]. replace (c_kind c :: c_name c ++ SP ++ J ++ pre ++ G ++ V) with (D ++ (SP ++ J ++ pre ++ G) ++ V) by (unfold D; cbn [app]; rewrite <- !app_assoc; reflexivity). apply trimmed_app; assumption. }
        right. exists q, d. split; [|exact Hd]. rewrite <- Eq'. cbn [app]. rewrite <- !app_assoc. reflexivity. }
    assert (exists pre, comp_body (tidy c) = D ++ SP ++ J ++ pre ++ G ++ V ++ P ++ (match c_note c with None => [] | Some t => c_end c ++ ";"%char :: rstrip t end) /\
       ((pre = [] /\ exists q, G = " "%char :: q) \/ (pre = SP /\ exists x q, G = x :: q /\ x <> " "%char))) as (pre & EBt & Hpre).
    { unfold tidy. fold N. rewrite Eq. unfold comp_body, line_text. cbn [c_kind c_name c_nodes c_gap c_val c_pars c_end c_note]. rewrite nodes_spaced by exact NNo. unfold ntext. fold J. fold V. fold G. fold (ptext (c_pars c)). fold P.
      match goal with |- context [?u ++ note_text (option_map rstrip (c_note c))] => replace (u ++ note_text (option_map rstrip (c_note c))) with (match c_note c with None => [] | Some t => c_end c ++ ";"%char :: rstrip t end) by (destruct (c_note c); reflexivity) end.
      destruct G as [|x q]; [contradiction NG; reflexivity|]. destruct (aeqb x " ") eqn:Ex.
      - apply aeqb_eq in Ex. subst x. exists []. split; [reflexivity|]. left. split; [reflexivity|]. exists q. reflexivity.
      - exists SP. split; [reflexivity|]. right. split; [reflexivity|]. exists x, q. split; [reflexivity|]. apply aeqb_neq. exact Ex. }
    unfold replace_at. cbn [fst snd]. rewrite !Z.add_0_r.
    replace (T0 ++ SP) with (D ++ N ++ (G ++ V ++ P ++ E ++ SP)) by (unfold T0; rewrite <- !app_assoc; reflexivity).
    destruct (last_not_blank D TD) as (D0 & dx & ED & Hdx).
    destruct Hpre as [[-> (q & EG)]|[-> (x & q & EG & Hx)]].
    - rewrite (insert_at D N (G ++ V ++ P ++ E ++ SP) (ntext (map snd (c_nodes c))) J SP); [|exact SS|exact TJ|reflexivity|left; reflexivity|right; right; split; [exists D0, dx; auto|reflexivity]|discriminate|right; rewrite EG; eexists; reflexivity].
      pose proof (FIN []) as F0. cbn [app] in F0. cbn [app]. eexists. split; [reflexivity|]. right. eexists. split; [|reflexivity]. rewrite EBt. cbn [app]. f_equal. f_equal. exact F0.
    - rewrite (insert_before D N (G ++ V ++ P ++ E ++ SP) (ntext (map snd (c_nodes c))) J _ _ x (q ++ V ++ P ++ E ++ SP) D0 dx); [|exact SS|exact TJ|reflexivity|reflexivity|exact ED|exact Hdx|rewrite EG; reflexivity|exact Hx].
      eexists. split; [reflexivity|]. right. eexists. split; [|reflexivity]. rewrite EBt. f_equal. f_equal. apply FIN. }
  match goal with |- bind ?X _ = _ => replace X with (Some st2) by (symmetry; exact Est2) end. cbn [bind]. rewrite KV.
  assert (exists b, cap gVAL yc = Some (S (length (c_name c)) + length N + length G, b) /\ b = S (length (c_name c)) + length N + length G + length V) as (bv & CV & Ebv).
  { assert (f = Controlled \/ f <> Controlled) as [F|F] by (destruct f; auto; right; discriminate).
    - destruct (G2 F) as (Evu & _ & _ & A & _). destruct (Hctl F) as [_ Hn]. rewrite F in Hf. rewrite (Hce _ _ Hf) in Evu. rewrite str_eqb_refl in Evu. cbn [app] in Evu. subst vu. rewrite app_nil_r in A.
      eexists. split; [exact A|reflexivity].
    - destruct (G1 F) as (_ & _ & _ & _ & _ & A & _). eexists. split; [exact A|reflexivity]. }
  assert (slice (comp_text c) (S (length (c_name c)) + length N + length G, bv) = V) as S3.
  { eapply (slice_obj c (D ++ N ++ G) V); [rewrite EO; unfold T0; rewrite <- !app_assoc; reflexivity|unfold D; rewrite !app_length; cbn [length]; lia|rewrite Ebv; lia]. }
  assert (rw_val at' (comp_text c) yc st2 = Some st2) as Est3.
  { unfold rw_val. rewrite CV. change (a_val at') with (Some V). rewrite S3, str_eqb_refl. reflexivity. }
  match goal with |- bind ?X _ = _ => replace X with (Some st2) by (symmetry; exact Est3) end. cbn [bind].
  assert (rw_par at' (comp_text c) yc st2 = Some st2) as Est4.
  { assert (match a_par at' with Some d => d | None => [] end = map entry (c_pars c)) as AP. { unfold at', attrs_of. cbn [a_par]. destruct (c_pars c); reflexivity. }
    assert (f = Controlled \/ f <> Controlled) as [F|F] by (destruct f; auto; right; discriminate).
    - destruct (G2 F) as (_ & _ & _ & _ & A). destruct (Hctl F) as [Hp _]. cbn [snd] in A. unfold rw_par. rewrite A. unfold at', attrs_of. cbn [a_par]. rewrite Hp. reflexivity.
    - destruct (G1 F) as (-> & Et & Hpu & _ & _ & _ & A). fold V in A. cbn [snd] in A.
      assert (line_ok (c_pars c) pu) as LP. { split; [exact HL|]. pose proof (comp_tail_ok c _ HC (or_introl eq_refl)) as [TB _]. rewrite Et, forallb_app in TB. apply andb_true_iff in TB. exact (proj1 TB). }
      pose proof (PTokProofs.parse_line _ _ LP HNm HND) as PL. unfold line_text in PL. fold (ptext (c_pars c)) in PL. fold P in PL.
      assert (forall sp, cap gPAR yc = Some sp -> parse_params (slice (comp_text c) sp) = Some (map entry (c_pars c)) -> rw_par at' (comp_text c) yc st2 = Some st2) as K.
      { intros sp A1 A2. unfold rw_par. rewrite A1. match goal with |- match parse_params ?X with _ => _ end = _ => replace (parse_params X) with (Some (map entry (c_pars c))) by (symmetry; exact A2) end.
        rewrite AP, entries_names by exact HNN. reflexivity. }
      set (b0 := S (length (c_name c)) + length N + length G + length V) in *.
      assert (comp_text c = (D ++ N ++ G ++ V) ++ (P ++ pu) ++ w ++ cm_of c [NL]) as ET.
      { rewrite <- TZ, text_split, Et. unfold head_text, D, N, V, P, G. cbn [app]. rewrite <- !app_assoc. reflexivity. }
      assert (length (D ++ N ++ G ++ V) = b0) as Lb by (unfold b0, D; rewrite !app_length; cbn [length]; lia).
      destruct f; try (apply (K _ A); cbn [par_span]; match goal with |- parse_params (slice _ (?n, ?m)) = _ => rewrite (slice_at (comp_text c) (D ++ N ++ G ++ V) (P ++ pu) (w ++ cm_of c [NL]) n m) end; [exact PL|exact ET|symmetry; exact Lb|reflexivity]).
      + cbn [par_span] in A. destruct (c_pars c) as [|[pb pq] pl] eqn:Ep.
        * cbn [xspan] in A. unfold rw_par. rewrite A. unfold at', attrs_of. cbn [a_par]. rewrite Ep. reflexivity.
        * cbn [xspan] in A. apply (K _ A).
          assert (P = pb ++ (param_text pq ++ ptext pl)) as EP0 by (unfold P, ptext; cbn [map concat fst snd]; rewrite <- app_assoc; reflexivity).
          rewrite (slice_at (comp_text c) ((D ++ N ++ G ++ V) ++ pb) ((param_text pq ++ ptext pl) ++ pu) (w ++ cm_of c [NL])).
          -- rewrite EP0 in PL. rewrite <- app_assoc in PL. apply Forall_cons_iff in HL; destruct HL as [(Hpb & _) HL]. cbn [fst] in Hpb. rewrite (parse_blank pb _ Hpb) in PL. exact PL.
          -- rewrite ET, EP0. rewrite <- !app_assoc. reflexivity.
          -- rewrite app_length. f_equal. symmetry. exact Lb.
          -- fold P. rewrite EP0. rewrite !app_length. lia. }
  match goal with |- bind ?X _ = _ => replace X with (Some st2) by (symmetry; exact Est4) end. cbn [bind].
  destruct R2 as [[-> Q]|(o & -> & Q)].
  - f_equal. unfold tidy. fold N. rewrite Q. reflexivity.
  - reflexivity.
Qed.
