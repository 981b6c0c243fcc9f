(** Reading the lines of an LTspice schematic. *)
From Coq Require Import String Ascii List Bool Arith ZArith Lia.
From Verif Require Import PyStr EngModel EngProofs StepsModel StepsProofs LogProofs Regex RegexProofs RegexMore CompModel CompProofs UpdatesModel ParModel QTagModel QTagProofs QEdProofs4 AscModel AscSpec.
Import ListNotations.
Local Open Scope string_scope. Local Open Scope nat_scope. Local Open Scope list_scope.

(** ** Words *)
Lemma words_join : forall ws, Forall one_word ws -> words (join_blank ws ++ [LF]) = ws.
Proof.
  assert (G : forall ws cur, cur <> [] -> Forall one_word ws -> words_ cur ((match ws with [] => [] | _ => BLANK :: join_blank ws end) ++ [LF]) = cur :: ws).
  { induction ws as [|w ws IH]; intros cur N H.
    - cbn. destruct cur; [contradiction|reflexivity].
    - apply Forall_cons_iff in H. destruct H as ((Nw & W) & H).
      assert (E : (BLANK :: join_blank (w :: ws)) ++ [LF] = [BLANK] ++ w ++ (match ws with [] => [] | _ => BLANK :: join_blank ws end) ++ [LF]).
      { cbn [join_blank]. destruct ws as [|w2 ws]; [rewrite <- app_comm_cons; cbn [app]; reflexivity|]. rewrite <- app_comm_cons. cbn [app]. rewrite <- app_assoc. reflexivity. }
      rewrite E, words_flush; [|exact N|discriminate|reflexivity]. f_equal. rewrite words_cur by exact W. cbn [app]. apply IH; assumption. }
  intros [|w ws] H; [reflexivity|]. apply Forall_cons_iff in H. destruct H as ((Nw & W) & H). unfold words.
  assert (E : join_blank (w :: ws) ++ [LF] = w ++ (match ws with [] => [] | _ => BLANK :: join_blank ws end) ++ [LF]).
  { cbn [join_blank]. destruct ws as [|w2 ws]; [reflexivity|]. rewrite <- app_assoc. reflexivity. }
  rewrite E, words_cur by exact W. cbn [app]. apply G; assumption.
Qed.
Lemma int_word : forall n, one_word (show_int n).
Proof.
  intros n. split; [|intros c H; apply (show_int_chars n c H)]. destruct (show_int_shape n) as (sg & ds & E & _ & NE & _). rewrite E. destruct sg; [exact NE|discriminate].
Qed.
Lemma lit_word : forall w, negb (str_eqb w []) && forallb (fun c => negb (is_space c)) w = true -> one_word w.
Proof.
  intros w H. apply andb_true_iff in H. destruct H as (A & B). split; [intros ->; discriminate|]. intros c K. rewrite forallb_forall in B. apply B in K. apply negb_true_iff in K. exact K.
Qed.
Lemma join_app2 : forall ns b, ns <> [] -> b <> [] -> join_blank (ns ++ b) = join_blank ns ++ BLANK :: join_blank b.
Proof.
  intros ns b N NB. destruct ns as [|x ns]; [contradiction|]. clear N. revert x. induction ns as [|y ns IH]; intros x.
  - cbn [app]. destruct b; [contradiction|]. reflexivity.
  - change ((x :: y :: ns) ++ b) with (x :: (y :: ns) ++ b).
    assert (E : forall u v l, join_blank (u :: v :: l) = u ++ BLANK :: join_blank (v :: l)) by reflexivity.
    change (x :: (y :: ns) ++ b) with (x :: y :: ns ++ b). rewrite !E. change (y :: ns ++ b) with ((y :: ns) ++ b). rewrite IH, <- app_assoc. reflexivity.
Qed.
Lemma join_flat : forall a ns b, ns <> [] -> b <> [] -> join_blank (a :: join_blank ns :: b) = join_blank (a :: ns ++ b).
Proof.
  intros a ns b N NB.
  assert (E : forall u l, l <> [] -> join_blank (u :: l) = u ++ BLANK :: join_blank l) by (intros u [|v l] H; [contradiction|reflexivity]).
  rewrite E by discriminate. rewrite E by exact NB. rewrite E by (destruct ns; [contradiction|discriminate]). rewrite join_app2 by assumption. reflexivity.
Qed.
Lemma ints_show : forall l, ints (map show_int l) = Some l.
Proof. induction l as [|x l IH]; [reflexivity|]. cbn [map ints]. rewrite py_int_show, IH. reflexivity. Qed.

(** ** Texts *)
Lemma clean_strip_nl : forall s, clean s -> strip (s ++ [LF]) = s.
Proof.
  intros s (_ & _ & H). rewrite <- H at 2. unfold strip, strip_if, rstrip_if.
  destruct s as [|c s]; [reflexivity|].
  assert (HC : is_space c = false).
  { destruct (is_space c) eqn:E; [|reflexivity]. exfalso. unfold strip, strip_if, rstrip_if in H. cbn [lstrip_if] in H. rewrite E in H.
    assert (L : forall f u, length (lstrip_if f u) <= length u) by (intros f u; induction u as [|x u IH]; cbn [lstrip_if length]; [lia|]; destruct (f x); cbn [length]; lia).
    assert (K : length (rev (lstrip_if is_space (rev (lstrip_if is_space s)))) <= length s) by (rewrite rev_length; etransitivity; [apply L|]; rewrite rev_length; apply L).
    rewrite H in K. cbn [length] in K. lia. }
  rewrite <- app_comm_cons. cbn [lstrip_if]. rewrite HC. rewrite app_comm_cons, rev_app_distr. reflexivity.
Qed.
Lemma clean_head : forall s, clean s -> s <> [] -> exists c r, s = c :: r /\ is_space c = false.
Proof.
  intros [|c s] (_ & _ & H) N; [contradiction|]. exists c, s. split; [reflexivity|]. destruct (is_space c) eqn:E; [|reflexivity]. exfalso. unfold strip, strip_if, rstrip_if in H. cbn [lstrip_if] in H. rewrite E in H.
  assert (L : forall f u, length (lstrip_if f u) <= length u) by (intros f u; induction u as [|x u IH]; cbn [lstrip_if length]; [lia|]; destruct (f x); cbn [length]; lia).
  assert (K : length (rev (lstrip_if is_space (rev (lstrip_if is_space s)))) <= length s) by (rewrite rev_length; etransitivity; [apply L|]; rewrite rev_length; apply L).
  rewrite H in K. cbn [length] in K. lia.
Qed.
Lemma first_word_app : forall w r, one_word w -> match r with c :: _ => is_space c = true | [] => True end -> first_word (w ++ r) = Some (w, r).
Proof.
  intros w r (N & W) R. unfold first_word. assert (E : lstrip (w ++ r) = w ++ r).
  { destruct w as [|c w]; [contradiction|]. cbn. rewrite (W c (or_introl eq_refl)). reflexivity. }
  rewrite E. rewrite (span_app (fun c => negb (is_space c)) w r); [destruct w; [contradiction|reflexivity]| |].
  - apply forallb_forall. intros c H. rewrite (W c H). reflexivity.
  - destruct r as [|c r]; [exact I|]. cbn. rewrite R. reflexivity.
Qed.
Lemma first_word_blank : forall s, first_word (BLANK :: s) = first_word s.
Proof. reflexivity. Qed.
Lemma split2_attr : forall k v, one_word k -> clean v -> v <> [] -> split2 (attr_line (k, v)) = Some (s2l "SYMATTR", k, v ++ [LF]).
Proof.
  intros k v K V N. assert (E : attr_line (k, v) = s2l "SYMATTR" ++ BLANK :: k ++ BLANK :: v ++ [LF]).
  { unfold attr_line, sp. cbn [fst snd join_blank]. rewrite <- app_assoc. cbn [app]. rewrite <- app_assoc. reflexivity. }
  rewrite E. unfold split2. rewrite first_word_app; [|apply lit_word; reflexivity|reflexivity]. rewrite first_word_blank, first_word_app; [|exact K|reflexivity].
  destruct (clean_head v V N) as (c & r & -> & HC). assert (EL : lstrip (BLANK :: (c :: r) ++ [LF]) = (c :: r) ++ [LF]) by (cbn; rewrite HC; reflexivity). rewrite EL. reflexivity.
Qed.

(** ** The alignment *)
Lemma align_get : forall x y s size cm al t, In al (aligns ++ vertical_aligns) -> set_align x y s size cm al = Some t ->
  get_align t = al /\ t_x t = x /\ t_y t = y /\ t_text t = s /\ t_size t = size /\ t_comment t = cm.
Proof.
  intros x y s size cm al t H. vm_compute in H. repeat (destruct H as [<-|H]; [intros E; vm_compute in E; injection E as <-; repeat split; reflexivity|]). destruct H.
Qed.
Lemma align_some : forall x y s size cm al, In al (aligns ++ vertical_aligns) -> exists t, set_align x y s size cm al = Some t.
Proof.
  intros x y s size cm al H. vm_compute in H. repeat (destruct H as [<-|H]; [eexists; vm_compute; reflexivity|]). destruct H.
Qed.
Lemma align_word : forall al, In al (aligns ++ vertical_aligns) -> one_word al.
Proof. intros al H. vm_compute in H. repeat (destruct H as [<-|H]; [apply lit_word; reflexivity|]). destruct H. Qed.

(** ** The text pattern *)
Lemma m_integer : forall (R : Type) n p s c (k : @kont R) x, stops is_digit s -> k (p + length (show_int n)) s c = Some x -> m integer p (show_int n ++ s) c k = Some x.
Proof.
  intros R n p s c k x S K. destruct (show_int_shape n) as (sg & ds & E & SG & NE & D). rewrite E in *. rewrite <- app_assoc. unfold integer. rewrite m_seq. rewrite app_length in K. destruct SG as [(-> & _)|(-> & _)].
  - cbn [app]. rewrite m_opt_no.
    + apply m_plus_run; try assumption.
    + destruct ds as [|d ds]; [contradiction|]. cbn [app]. apply m_chr_no. cbn [forallb] in D. apply andb_true_iff in D. destruct D as (D & _). apply (digit_not d D).
  - cbn [app length] in *. apply m_opt_yes. unfold lit. rewrite m_chr_ok by reflexivity. apply m_plus_run; try assumption. rewrite <- K. f_equal. lia.
Qed.
Lemma m_literal : forall (R : Type) (w : str) p s c (k : @kont R) x, k (p + length w) s c = Some x -> m (ilit w) p (w ++ s) c k = Some x.
Proof.
  intros R w. induction w as [|a w IH]; intros p s c k x K.
  - cbn in *. rewrite Nat.add_0_r in K. exact K.
  - assert (A : forall s (k' : @kont R), m (ichar a) p (a :: s) c k' = k' (S p) s c) by (intros s' k'; apply m_chr_ok; apply aeqb_refl).
    unfold ilit in *. cbn [map]. destruct (map ichar w) as [|b l] eqn:E.
    + destruct w; [|discriminate]. cbn [seqs app]. rewrite A. rewrite <- K. f_equal. cbn. lia.
    + cbn [seqs]. rewrite m_seq. cbn [app]. rewrite A. apply IH. rewrite <- K. f_equal. cbn [length]. lia.
Qed.
Lemma m_literal_no : forall (R : Type) a w p b s c (k : @kont R), aeqb (upper_c b) (upper_c a) = false -> m (ilit (a :: w)) p (b :: s) c k = None.
Proof.
  intros R a w p b s c k H. unfold ilit. cbn [map]. destruct (map ichar w); cbn [seqs]; [|rewrite m_seq]; apply m_chr_no; exact H.
Qed.
Lemma m_align : forall (R : Type) al p s c (k : @kont R) x, In al aligns -> k (p + length al) s c = Some x ->
  m (any_of ["Left"; "Right"; "Top"; "Bottom"; "Center"; "Invisible"]) p (al ++ s) c k = Some x.
Proof.
  assert (A : forall (R : Type) a b p s c (k : @kont R) x, m a p s c k = Some x -> m (Alt a b) p s c k = Some x) by (intros; cbn [m]; rewrite H; reflexivity).
  assert (B : forall (R : Type) a b p s c (k : @kont R) x, m a p s c k = None -> m b p s c k = x -> m (Alt a b) p s c k = x) by (intros; cbn [m]; rewrite H; exact H0).
  assert (H0 : forall (R : Type) u (l : list string) w p s c (k : @kont R) x, (forall v, In v u -> match s2l v, s2l w with a :: _, b :: _ => aeqb (upper_c b) (upper_c a) = false | _, _ => False end) ->
     k (p + length (s2l w)) s c = Some x -> m (any_of (u ++ w :: l)) p (s2l w ++ s) c k = Some x).
  { intros R u. induction u as [|v u IH]; intros l w p s c k x HU HK.
    - cbn [app any_of fold_right]. apply A. apply m_literal. exact HK.
    - cbn [app any_of fold_right]. apply B; [|apply IH; [intros v' HV; apply HU; right; exact HV|exact HK]].
      pose proof (HU v (or_introl eq_refl)) as HV. destruct (s2l v) as [|a v']; [destruct HV|]. destruct (s2l w) as [|b w'] eqn:EW; [destruct HV|]. cbn [app]. apply m_literal_no. exact HV. }
  intros R al p s c k x H K. unfold aligns in H. cbn [map In] in H.
  assert (D : forall u w l, u ++ w :: l = ["Left"; "Right"; "Top"; "Bottom"; "Center"; "Invisible"]%string -> al = s2l w ->
    forallb (fun v => match s2l v, s2l w with a :: _, b :: _ => negb (aeqb (upper_c b) (upper_c a)) | _, _ => false end) u = true -> m (any_of ["Left"; "Right"; "Top"; "Bottom"; "Center"; "Invisible"]) p (al ++ s) c k = Some x).
  { intros u w l E -> F. rewrite <- E. apply H0; [|exact K]. intros v HV. rewrite forallb_forall in F. apply F in HV. destruct (s2l v); [discriminate|]. destruct (s2l w); [discriminate|]. apply negb_true_iff in HV. exact HV. }
  destruct H as [H|[H|[H|[H|[H|[H|[]]]]]]]; symmetry in H.
  - apply (D [] "Left" ["Right"; "Top"; "Bottom"; "Center"; "Invisible"])%string; [reflexivity|exact H|reflexivity].
  - apply (D ["Left"] "Right" ["Top"; "Bottom"; "Center"; "Invisible"])%string; [reflexivity|exact H|reflexivity].
  - apply (D ["Left"; "Right"] "Top" ["Bottom"; "Center"; "Invisible"])%string; [reflexivity|exact H|reflexivity].
  - apply (D ["Left"; "Right"; "Top"] "Bottom" ["Center"; "Invisible"])%string; [reflexivity|exact H|reflexivity].
  - apply (D ["Left"; "Right"; "Top"; "Bottom"] "Center" ["Invisible"])%string; [reflexivity|exact H|reflexivity].
  - apply (D ["Left"; "Right"; "Top"; "Bottom"; "Center"] "Invisible" [])%string; [reflexivity|exact H|reflexivity].
Qed.
Lemma cut_at : forall (a w b : str) i j, i = length a -> j = i + length w -> slice (a ++ w ++ b) (i, j) = w.
Proof.
  intros a w b i j -> ->. unfold slice. cbn [fst snd]. rewrite skipn_app, skipn_all, Nat.sub_diag. cbn [skipn app]. replace (length a + length w - length a) with (length w) by lia. rewrite firstn_app, firstn_all, Nat.sub_diag. cbn [firstn]. apply app_nil_r.
Qed.
Lemma nonneg_digits : forall n, (0 <= n)%Z -> show_int n <> [] /\ forallb is_digit (show_int n) = true.
Proof.
  intros n H. destruct (show_int_shape n) as (sg & ds & E & SG & NE & D). destruct SG as [(-> & V)|(-> & V)]; [rewrite E; auto|]. exfalso.
  unfold show_int in E. destruct (n <? 0)%Z eqn:L; [apply Z.ltb_lt in L; lia|]. destruct (show_nat_val n H) as (ds' & A & B & C & D'). rewrite A in E. destruct ds' as [|d ds']; [contradiction|]. injection E as -> _. cbn [forallb] in C. apply andb_true_iff in C. destruct C as (C & _). discriminate.
Qed.
Lemma read_text_line : forall t x, note_ok t -> set_align (n_x t) (n_y t) (n_text t) (n_size t) (n_comment t) (n_align t) = Some x ->
  forall l, item_lines (Note t) = [l] -> read_text l = Some (Some x).
Proof.
  intros t x (HA & HS & HC) HX l HL. injection HL as <-. destruct (nonneg_digits _ HS) as (SN & SD).
  set (ty := if n_comment t then ";"%char else "!"%char).
  assert (E : sp [s2l "TEXT"; z (n_x t); z (n_y t); n_align t; z (n_size t); (if n_comment t then s2l ";" else s2l "!") ++ n_text t] =
              s2l "TEXT " ++ show_int (n_x t) ++ [BLANK] ++ show_int (n_y t) ++ [BLANK] ++ n_align t ++ [BLANK] ++ show_int (n_size t) ++ [BLANK] ++ [ty] ++ n_text t ++ [LF]).
  { unfold sp, z. cbn [join_blank]. rewrite <- ?app_assoc, <- ?app_comm_cons. cbn [app]. rewrite <- ?app_assoc. cbn [app]. rewrite <- ?app_assoc. cbn [app]. rewrite <- ?app_assoc. cbn [app]. rewrite <- ?app_assoc. cbn [app]. rewrite <- ?app_assoc. subst ty. destruct (n_comment t); reflexivity. }
  rewrite E. set (X := show_int (n_x t)) in *. set (Y := show_int (n_y t)) in *. set (S := show_int (n_size t)) in *.
  set (p1 := 5 + length X). set (p2 := p1 + 1). set (p3 := p2 + length Y). set (p4 := p3 + 1). set (p5 := p4 + length (n_align t)). set (p6 := p5 + 1).
  set (p7 := p6 + length S). set (p8 := p7 + 1). set (p9 := p8 + 1). set (p10 := p9 + length (n_text t)).
  assert (M : re_match text_re (s2l "TEXT " ++ X ++ [BLANK] ++ Y ++ [BLANK] ++ n_align t ++ [BLANK] ++ S ++ [BLANK] ++ [ty] ++ n_text t ++ [LF]) =
              Some (p10, [(gTEXT, (p9, p10)); (gTYPE, (p8, p9)); (gSIZE, (p6, p7)); (gALIGN, (p4, p5)); (gY, (p2, p3)); (gX, (5, p1))])).
  { unfold re_match, text_re. rewrite m_seq. apply m_literal. rewrite m_seq, m_grp. apply m_integer; [reflexivity|]. rewrite m_seq. apply m_sp1_all; [discriminate|reflexivity| |].
    { subst Y. destruct (show_int_shape (n_y t)) as (sg & ds & EY & _). pose proof (int_word (n_y t)) as (NY & WY). destruct (show_int (n_y t)) as [|a b]; [contradiction|]. cbn [app]. apply WY. left. reflexivity. }
    rewrite m_seq, m_grp. apply m_integer; [reflexivity|]. rewrite m_seq.
    assert (HAS : exists a r, n_align t = a :: r /\ is_space a = false /\ aeqb (upper_c a) "V" = false).
    { clear -HA. generalize dependent (n_align t). intros al HA. vm_compute in HA. repeat (destruct HA as [<-|HA]; [eexists; eexists; split; [reflexivity|split; reflexivity]|]). destruct HA. }
    destruct HAS as (a & r & EA & AS & AV).
    apply m_sp1_all; [discriminate|reflexivity|rewrite EA; exact AS|]. rewrite m_seq. rewrite m_opt_no; [|rewrite EA; cbn [app]; apply m_chr_no; exact AV].
    rewrite m_seq, m_grp. apply m_align; [exact HA|]. rewrite m_seq. cbn [app]. rewrite m_chr_ok by reflexivity. rewrite m_seq, m_grp. apply m_plus_run; [exact SN|exact SD|reflexivity|].
    rewrite m_seq. change (BLANK :: ty :: n_text t ++ [LF]) with ([BLANK] ++ ty :: n_text t ++ [LF]). apply m_star_all; [reflexivity|subst ty; destruct (n_comment t); reflexivity|].
    rewrite m_seq, m_grp. rewrite m_chr_ok by (subst ty; destruct (n_comment t); reflexivity). rewrite m_grp. apply m_star_all.
    - apply forallb_forall. intros b HB. unfold not_nl. destruct (aeqb b NLc) eqn:EB; [|reflexivity]. apply aeqb_eq in EB. subst b. destruct HC as (HC & _). contradiction.
    - reflexivity.
    - change (length (s2l "TEXT ")) with 5. change (length [BLANK]) with 1. cbn [Nat.add]. unfold p10, p9, p8, p7, p6, p5, p4, p3, p2, p1. subst X Y S. apply (f_equal Some). apply (f_equal2 pair); [lia|]. repeat (apply (f_equal2 cons); [apply (f_equal2 pair); [reflexivity|apply (f_equal2 pair); lia]|]). reflexivity. }
  unfold read_text. rewrite M.
  assert (G : forall n a w b i j cs, cap n cs = Some (i, j) -> i = length a -> j = i + length w -> group n (a ++ w ++ b) cs = Some w).
  { intros n a w b i j cs HN HI HJ. unfold group. rewrite HN. cbn [option_map]. f_equal. apply cut_at; assumption. }
  rewrite (G gX (s2l "TEXT ") X _ 5 p1); [|reflexivity|reflexivity|reflexivity].
  rewrite !app_assoc.
  rewrite <- (app_assoc (((s2l "TEXT " ++ X) ++ [BLANK])) Y). rewrite <- ?app_assoc.
  assert (GY : group gY (s2l "TEXT " ++ X ++ [BLANK] ++ Y ++ [BLANK] ++ n_align t ++ [BLANK] ++ S ++ [BLANK] ++ [ty] ++ n_text t ++ [LF]) [(gTEXT, (p9, p10)); (gTYPE, (p8, p9)); (gSIZE, (p6, p7)); (gALIGN, (p4, p5)); (gY, (p2, p3)); (gX, (5, p1))] = Some Y).
  { replace (s2l "TEXT " ++ X ++ [BLANK] ++ Y ++ [BLANK] ++ n_align t ++ [BLANK] ++ S ++ [BLANK] ++ [ty] ++ n_text t ++ [LF]) with ((s2l "TEXT " ++ X ++ [BLANK]) ++ Y ++ [BLANK] ++ n_align t ++ [BLANK] ++ S ++ [BLANK] ++ [ty] ++ n_text t ++ [LF]) by (rewrite <- ?app_assoc; reflexivity).
    apply (G gY _ Y _ p2 p3); [reflexivity| |reflexivity]. rewrite ?app_length. change (length (s2l "TEXT ")) with 5. cbn [length]. unfold p2, p1. lia. }
  rewrite GY.
  assert (GA : group gALIGN (s2l "TEXT " ++ X ++ [BLANK] ++ Y ++ [BLANK] ++ n_align t ++ [BLANK] ++ S ++ [BLANK] ++ [ty] ++ n_text t ++ [LF]) [(gTEXT, (p9, p10)); (gTYPE, (p8, p9)); (gSIZE, (p6, p7)); (gALIGN, (p4, p5)); (gY, (p2, p3)); (gX, (5, p1))] = Some (n_align t)).
  { replace (s2l "TEXT " ++ X ++ [BLANK] ++ Y ++ [BLANK] ++ n_align t ++ [BLANK] ++ S ++ [BLANK] ++ [ty] ++ n_text t ++ [LF]) with ((s2l "TEXT " ++ X ++ [BLANK] ++ Y ++ [BLANK]) ++ n_align t ++ [BLANK] ++ S ++ [BLANK] ++ [ty] ++ n_text t ++ [LF]) by (rewrite <- ?app_assoc; reflexivity).
    apply (G gALIGN _ (n_align t) _ p4 p5); [reflexivity| |reflexivity]. rewrite ?app_length. change (length (s2l "TEXT ")) with 5. cbn [length]. unfold p4, p3, p2, p1. lia. }
  rewrite GA.
  assert (GS : group gSIZE (s2l "TEXT " ++ X ++ [BLANK] ++ Y ++ [BLANK] ++ n_align t ++ [BLANK] ++ S ++ [BLANK] ++ [ty] ++ n_text t ++ [LF]) [(gTEXT, (p9, p10)); (gTYPE, (p8, p9)); (gSIZE, (p6, p7)); (gALIGN, (p4, p5)); (gY, (p2, p3)); (gX, (5, p1))] = Some S).
  { replace (s2l "TEXT " ++ X ++ [BLANK] ++ Y ++ [BLANK] ++ n_align t ++ [BLANK] ++ S ++ [BLANK] ++ [ty] ++ n_text t ++ [LF]) with ((s2l "TEXT " ++ X ++ [BLANK] ++ Y ++ [BLANK] ++ n_align t ++ [BLANK]) ++ S ++ [BLANK] ++ [ty] ++ n_text t ++ [LF]) by (rewrite <- ?app_assoc; reflexivity).
    apply (G gSIZE _ S _ p6 p7); [reflexivity| |reflexivity]. rewrite ?app_length. change (length (s2l "TEXT ")) with 5. cbn [length]. unfold p6, p5, p4, p3, p2, p1. lia. }
  rewrite GS.
  assert (GT : group gTYPE (s2l "TEXT " ++ X ++ [BLANK] ++ Y ++ [BLANK] ++ n_align t ++ [BLANK] ++ S ++ [BLANK] ++ [ty] ++ n_text t ++ [LF]) [(gTEXT, (p9, p10)); (gTYPE, (p8, p9)); (gSIZE, (p6, p7)); (gALIGN, (p4, p5)); (gY, (p2, p3)); (gX, (5, p1))] = Some [ty]).
  { replace (s2l "TEXT " ++ X ++ [BLANK] ++ Y ++ [BLANK] ++ n_align t ++ [BLANK] ++ S ++ [BLANK] ++ [ty] ++ n_text t ++ [LF]) with ((s2l "TEXT " ++ X ++ [BLANK] ++ Y ++ [BLANK] ++ n_align t ++ [BLANK] ++ S ++ [BLANK]) ++ [ty] ++ n_text t ++ [LF]) by (rewrite <- ?app_assoc; reflexivity).
    apply (G gTYPE _ [ty] _ p8 p9); [reflexivity| |reflexivity]. rewrite ?app_length. change (length (s2l "TEXT ")) with 5. cbn [length]. unfold p8, p7, p6, p5, p4, p3, p2, p1. lia. }
  rewrite GT.
  assert (GX : group gTEXT (s2l "TEXT " ++ X ++ [BLANK] ++ Y ++ [BLANK] ++ n_align t ++ [BLANK] ++ S ++ [BLANK] ++ [ty] ++ n_text t ++ [LF]) [(gTEXT, (p9, p10)); (gTYPE, (p8, p9)); (gSIZE, (p6, p7)); (gALIGN, (p4, p5)); (gY, (p2, p3)); (gX, (5, p1))] = Some (n_text t)).
  { replace (s2l "TEXT " ++ X ++ [BLANK] ++ Y ++ [BLANK] ++ n_align t ++ [BLANK] ++ S ++ [BLANK] ++ [ty] ++ n_text t ++ [LF]) with ((s2l "TEXT " ++ X ++ [BLANK] ++ Y ++ [BLANK] ++ n_align t ++ [BLANK] ++ S ++ [BLANK] ++ [ty]) ++ n_text t ++ [LF]) by (rewrite <- ?app_assoc; reflexivity).
    apply (G gTEXT _ (n_text t) _ p9 p10); [reflexivity| |reflexivity]. rewrite ?app_length. change (length (s2l "TEXT ")) with 5. cbn [length]. unfold p9, p8, p7, p6, p5, p4, p3, p2, p1. lia. }
  rewrite GX. subst X Y S. rewrite !py_int_show. destruct HC as (_ & _ & HC). rewrite HC.
  assert (negb (str_eqb [ty] (s2l "!")) = n_comment t) as -> by (subst ty; destruct (n_comment t); reflexivity). rewrite HX. reflexivity.
Qed.
