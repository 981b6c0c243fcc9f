(** Proofs for the parameters of a netlist: reading and changing a .PARAM line. *)
From Coq Require Import String Ascii List Bool Arith ZArith Lia.
From Verif Require Import PyStr EngModel EngProofs EngCaseProofs PTokModel PTokSpec PTokProofs Regex RegexProofs RegexInv RegexMore CompModel CompSpec CompMatch CompFam CompProofs CompRewrite CompSelf CompProps
  SepModel UpdatesModel NetModel NetSpec NetProofs EditModel EditSpec EditProofs NetProps CmdSpec CmdProofs CmdProps ParModel ParSpec ParLine.
Import ListNotations.
Local Open Scope string_scope.
Local Open Scope nat_scope.
Local Open Scope list_scope.

Notation R0 := (setting_re any_name).
Inductive marked : nat -> list entry -> list (nat * nat * caps) -> Prop :=
| mk_nil : forall p, marked p [] []
| mk_cons : forall p e l b q c ms, b = p + length (e_sep e) -> q = p + length (entry_text e) -> cap gNAME c = Some (b, b + length (e_par e)) ->
    cap gVALUE c = Some (q - length (e_val e), q) -> marked q l ms -> marked p (e :: l) ((b, q, c) :: ms).
Definition entries_text (l : list entry) : str := concat (map entry_text l).

Lemma search_bounds : forall r s p b e c, search_from r p s = Some (b, e, c) -> p <= b /\ b <= e.
Proof.
  intros r. induction s as [|a s IH]; intros p b e c H; cbn [search_from] in H.
  - destruct (m r p [] [] _) as [[e' c']|] eqn:M; [|discriminate]. injection H as <- <- <-. destruct (m_some _ _ _ _ _ _ _ M) as (p' & s' & c2 & R & E). injection E as <- <-. apply reach_len in R. destruct R as (_ & u & _ & ->). lia.
  - destruct (m r p (a :: s) [] _) as [[e' c']|] eqn:M.
    + injection H as <- <- <-. destruct (m_some _ _ _ _ _ _ _ M) as (p' & s' & c2 & R & E). injection E as <- <-. apply reach_len in R. destruct R as (_ & u & _ & ->). lia.
    + apply IH in H. lia.
Qed.
Lemma find_skip : forall fuel r p u s, search_from r p (u ++ s) = search_from r (p + length u) s -> find_all fuel r p (u ++ s) = find_all fuel r (p + length u) s.
Proof.
  intros fuel r p u s H. destruct fuel as [|f]; cbn [find_all]; rewrite H; [reflexivity|]. destruct (search_from r (p + length u) s) as [[[b e] c]|] eqn:E; [|reflexivity]. f_equal. f_equal.
  apply search_bounds in E. replace (e - p) with (length u + (e - (p + length u))) by lia. rewrite skipn_app, skipn_all2 by lia. cbn [app]. f_equal. lia.
Qed.
Lemma entry_body : forall e, entry_text e = e_sep e ++ body e.
Proof. intros e. reflexivity. Qed.
Lemma space_not_word : forall b s p, spaces b -> search_from R0 p (b ++ s) = search_from R0 (p + length b) s.
Proof.
  intros b s p H. apply search_skip. intros x y -> N. destruct y as [|c y]; [contradiction|]. apply no_any. intros w t E NW W _. destruct w as [|a w]; [contradiction|]. cbn [app] in E. injection E as <- _.
  rewrite (H c) in W by (apply in_or_app; right; left; reflexivity). discriminate W.
Qed.
Lemma entries_stop : forall l tl, Forall entry_ok l -> stops tl -> stops (entries_text l ++ tl).
Proof.
  intros [|e l] tl H S; [exact S|]. inversion H as [|? ? (S1 & S2 & _) _]; subst. unfold entries_text. cbn [map concat]. unfold entry_text at 1. destruct (e_sep e) as [|c b] eqn:E; [contradiction|]. left. apply S1. left. reflexivity.
Qed.
Lemma find_marked : forall l p tl fuel, Forall entry_ok l -> stops tl -> (forall q, search_from R0 q tl = None) -> length l <= fuel -> marked p l (find_all fuel R0 p (entries_text l ++ tl)).
Proof.
  induction l as [|e l IH]; intros p tl fuel HF HS HN HL.
  - unfold entries_text. cbn [map concat app]. destruct fuel; cbn [find_all]; rewrite HN; constructor.
  - pose proof HF as HF0. inversion HF as [|? ? HE HF']; subst. destruct fuel as [|f]; [cbn [length] in HL; lia|].
    change (entries_text (e :: l)) with (entry_text e ++ entries_text l). rewrite entry_body, <- !app_assoc. rewrite find_skip by (apply space_not_word; apply HE). cbn [find_all].
    destruct (setting_match any_name e (p + length (e_sep e)) (entries_text l ++ tl)) as (c & M & CN & CV); [exact HE|apply entries_stop; assumption|apply any_taken; apply HE|].
    rewrite (search_hit _ _ _ _ _ M). replace (p + length (e_sep e) + length (body e) - (p + length (e_sep e))) with (length (body e)) by lia. rewrite skipn_app, skipn_all, Nat.sub_diag. cbn [skipn app].
    assert (p + length (e_sep e) + length (body e) = p + length (entry_text e)) as Q by (rewrite entry_body, app_length; lia).
    apply mk_cons; [reflexivity|exact Q|exact CN|exact CV|]. apply IH; [exact HF'|exact HS|exact HN|cbn [length] in HL; lia].
Qed.

(** the head and the tail of the line *)
Lemma not_settable : forall t, (forall c, In c t -> begins_value c = false) -> ~ settable t.
Proof. intros t H S. destruct (settable_has _ S) as (v & V1 & V2). rewrite (H v V1) in V2. discriminate. Qed.
Lemma tail_none : forall t q, (forall c, In c t -> begins_value c = false) -> search_from R0 q t = None.
Proof.
  intros t q H. apply search_none. intros x y ->. apply no_any. intros w z E _ _ S. destruct (settable_has _ S) as (v & V1 & V2). rewrite (H v) in V2; [discriminate|]. rewrite E. apply in_or_app. right. apply in_or_app. right. exact V1.
Qed.
Lemma tail_full : forall t, (forall c, In c t -> begins_value c = false /\ c <> NL) -> forall c, In c (t ++ [NL]) -> begins_value c = false.
Proof. intros t H c Hc. apply in_app_or in Hc. destruct Hc as [Hc|[<-|[]]]; [apply (H c Hc)|reflexivity]. Qed.
Lemma rest_unset : forall l t, Forall entry_ok l -> first_ok l -> (forall c, In c t -> begins_value c = false) -> ~ settable (entries_text l ++ t).
Proof.
  intros [|e l] t H F T; [exact (not_settable t T)|]. inversion H as [|? ? (S1 & S2 & (N1 & N2) & _) _]; subst. intros S. unfold entries_text in S. cbn [map concat] in S. unfold entry_text in S at 1. cbn [first_ok] in F.
  destruct (e_par e) as [|c n] eqn:E; [contradiction|]. rewrite <- !app_assoc in S. cbn [app] in S. cbn [forallb] in N2. apply andb_true_iff in N2. destruct N2 as [N2 _]. apply settable_cut in S.
  - congruence.
  - apply forallb_forall. intros x Hx. rewrite (S1 x Hx). reflexivity.
  - apply negb_true_iff. apply word_not_sep. apply name_word. exact N2.
Qed.
Lemma word_shape : forall w, upper w = s2l ".PARAM" -> exists q, w = "."%char :: q /\ forallb is_word q = true /\ forallb (fun c => negb (is_space c)) w = true /\ length q = 5.
Proof.
  intros [|c q] H; [discriminate|]. assert (upper_c c = "."%char /\ upper q = s2l "PARAM") as [H1 H2] by (cbn [upper map] in H; injection H; auto).
  assert (c = "."%char) as ->. { assert (aeqb (upper_c c) "." = true) as X by (apply aeqb_eq; exact H1). clear - X. apply aeqb_eq. revert c X. apply (imp_sweep (fun c => aeqb (upper_c c) ".") (fun c => aeqb c ".")). vm_cast_no_check (eq_refl true). }
  assert (forallb is_word q = true) as W. { apply forallb_forall. intros x Hx. apply upper_is_word. assert (In (upper_c x) (s2l "PARAM")) as I by (rewrite <- H2; apply in_map; exact Hx). cbn in I. repeat (destruct I as [<-|I]; [reflexivity|]). destruct I. }
  exists q. split; [reflexivity|]. split; [exact W|]. split.
  - cbn [forallb]. change (negb (is_space ".")) with true. eapply forallb_imp; [|exact W]. intros x X. apply word_not_sep in X. apply negb_true_iff in X. apply orb_false_iff in X. destruct X as [-> _]. reflexivity.
  - apply (f_equal (@length ascii)) in H2. unfold upper in H2. rewrite map_length in H2. exact H2.
Qed.
Lemma lead_none : forall lead w s p, spaces lead -> upper w = s2l ".PARAM" -> match s with c :: _ => is_word c = false | [] => True end -> ~ settable s ->
  search_from R0 p (lead ++ w ++ s) = search_from R0 (p + length (lead ++ w)) s.
Proof.
  intros lead w s p HL HW HS HN. rewrite space_not_word by exact HL. rewrite app_length, Nat.add_assoc. apply search_skip. destruct (word_shape w HW) as (q & -> & Q & _). intros x y E N. apply no_any. intros v t E' NV V ST.
  destruct x as [|a x].
  - cbn [app] in E. subst y. destruct v as [|b v]; [contradiction|]. cbn [app] in E'. injection E' as <- _. discriminate V.
  - cbn [app] in E. injection E as <- ->. rewrite forallb_app in Q. apply andb_true_iff in Q. exact (word_run y s v t (proj2 Q) HS HN E' V ST).
Qed.
Lemma rest_head : forall l t, Forall entry_ok l -> match t with [] => True | c :: _ => c = " "%char end -> match entries_text l ++ t ++ [NL] with c :: _ => is_word c = false | [] => True end.
Proof.
  intros [|e l] t H HT; [unfold entries_text; cbn [map concat app]; destruct t as [|c t]; [reflexivity|cbn [app]; rewrite HT; reflexivity]|]. inversion H as [|? ? (S1 & S2 & _) _]; subst.
  unfold entries_text. cbn [map concat]. unfold entry_text at 1. destruct (e_sep e) as [|c b] eqn:E; [contradiction|]. cbn [app]. rewrite (S1 c (or_introl eq_refl)). reflexivity.
Qed.
Lemma tail_stops : forall t, match t with [] => True | c :: _ => c = " "%char end -> stops (t ++ [NL]).
Proof. intros [|c t] H; [right; reflexivity|left; exact H]. Qed.
Lemma entries_length : forall l, Forall entry_ok l -> length l <= length (entries_text l).
Proof.
  induction l as [|e l IH]; intros H; [apply le_n|]. inversion H as [|? ? (_ & S2 & _) H']; subst. specialize (IH H'). change (entries_text (e :: l)) with (entry_text e ++ entries_text l). rewrite app_length, entry_body, app_length.
  destruct (e_sep e); [contradiction|]. cbn [length]. lia.
Qed.
Theorem line_marked : forall p, pline_ok p -> marked (length (l_lead p ++ l_word p)) (l_pars p) (finditer R0 (full (pline_text p))).
Proof.
  intros p (HL & HW & HE & HF & HT & HT2). unfold finditer, full, pline_text. set (fuel := length ((l_lead p ++ l_word p ++ concat (map entry_text (l_pars p)) ++ l_tail p) ++ [NL])).
  assert (length (l_pars p) <= fuel) as LF. { unfold fuel. rewrite !app_length. fold (entries_text (l_pars p)). pose proof (entries_length _ HE). lia. }
  clearbody fuel. fold (entries_text (l_pars p)). replace ((l_lead p ++ l_word p ++ entries_text (l_pars p) ++ l_tail p) ++ [NL]) with ((l_lead p ++ l_word p) ++ entries_text (l_pars p) ++ l_tail p ++ [NL]) by (rewrite <- !app_assoc; reflexivity).
  rewrite find_skip.
  - apply find_marked; [exact HE|apply tail_stops; exact HT2| |exact LF]. intros q. apply tail_none. apply tail_full. exact HT.
  - rewrite <- !app_assoc. apply lead_none; [exact HL|exact HW|apply rest_head; assumption|]. apply rest_unset; [exact HE|exact HF|]. apply tail_full. exact HT.
Qed.

(** reading *)
Lemma marked_names : forall p l ms, marked p l ms -> forall line pre tl, line = pre ++ entries_text l ++ tl -> length pre = p ->
  map (fun x => group gNAME line (snd x)) ms = map (fun e => Some (e_par e)) l /\ map (fun x => group gVALUE line (snd x)) ms = map (fun e => Some (e_val e)) l.
Proof.
  intros p l ms H. induction H as [|p e l b q c ms HB HQ CN CV H IH]; intros line pre tl E L; [auto|]. change (entries_text (e :: l)) with (entry_text e ++ entries_text l) in E.
  destruct (IH line (pre ++ entry_text e) tl) as [I1 I2]; [rewrite E, <- !app_assoc; reflexivity|rewrite app_length; lia|]. cbn [map snd]. rewrite I1, I2. unfold group. rewrite CN, CV. cbn [option_map]. split.
  - f_equal. f_equal. apply (slice_at line (pre ++ e_sep e) (e_par e) ((e_b1 e ++ "="%char :: e_b2 e ++ e_val e) ++ entries_text l ++ tl)).
    + rewrite E. unfold entry_text. rewrite <- !app_assoc. cbn [app]. rewrite <- !app_assoc. reflexivity.
    + rewrite app_length. lia.
    + lia.
  - f_equal. f_equal. apply (slice_at line (pre ++ e_sep e ++ e_par e ++ e_b1 e ++ "="%char :: e_b2 e) (e_val e) (entries_text l ++ tl)).
    + rewrite E. unfold entry_text. rewrite <- !app_assoc. cbn [app]. rewrite <- !app_assoc. reflexivity.
    + rewrite HQ. unfold entry_text. repeat (rewrite ?app_length; cbn [length]). lia.
    + rewrite HQ. unfold entry_text. repeat (rewrite ?app_length; cbn [length]). lia.
Qed.
Lemma cut_text : forall p, full (pline_text p) = (l_lead p ++ l_word p) ++ entries_text (l_pars p) ++ l_tail p ++ [NL].
Proof. intros p. unfold full, pline_text, entries_text. rewrite <- !app_assoc. reflexivity. Qed.
Theorem names_of_line : forall p, pline_ok p -> line_names (full (pline_text p)) = map (fun e => upper (e_par e)) (l_pars p).
Proof.
  intros p H. destruct (marked_names _ _ _ (line_marked p H) _ _ _ (cut_text p) eq_refl) as [E _]. unfold line_names.
  rewrite <- (map_map (fun x => group gNAME (full (pline_text p)) (snd x)) (fun o => match o with Some n => upper n | None => [] end)), E, map_map. reflexivity.
Qed.
(** the first setting of a name *)
Lemma marked_find : forall n p l ms, marked p l ms -> forall line pre tl, line = pre ++ entries_text l ++ tl -> length pre = p ->
  if existsb (same_name n) l
  then exists a e b bq c, l = a ++ e :: b /\ existsb (same_name n) a = false /\ same_name n e = true /\ find (match_name line n) ms = Some (bq, c) /\ group gVALUE line c = Some (e_val e) /\
       cap gVALUE c = Some (p + length (entries_text a) + length (entry_text e) - length (e_val e), p + length (entries_text a) + length (entry_text e))
  else find (match_name line n) ms = None.
Proof.
  intros n p l ms H. induction H as [|p e l b q c ms HB HQ CN CV H IH]; intros line pre tl E L; [reflexivity|].
  assert (marked p (e :: l) ((b, q, c) :: ms)) as HM by (constructor; assumption). destruct (marked_names _ _ _ HM line pre tl E L) as [N1 N2]. cbn [map snd] in N1, N2. injection N1 as N1 _. injection N2 as N2 _.
  change (entries_text (e :: l)) with (entry_text e ++ entries_text l) in E.
  assert (match_name line n (b, q, c) = same_name n e) as MN by (unfold match_name; cbn [snd]; rewrite N1; reflexivity).
  cbn [existsb find]. rewrite MN. destruct (same_name n e) eqn:S; cbn [orb].
  - exists [], e, l, (b, q), c. split; [reflexivity|]. split; [reflexivity|]. split; [exact S|]. split; [reflexivity|]. split; [exact N2|]. rewrite CV, HQ. unfold entries_text. cbn [map concat length]. rewrite Nat.add_0_r. reflexivity.
  - specialize (IH line (pre ++ entry_text e) tl). rewrite E, <- !app_assoc in IH. specialize (IH eq_refl). rewrite app_length in IH. specialize (IH ltac:(lia)). rewrite E, <- !app_assoc.
    destruct (existsb (same_name n) l); [|exact IH]. destruct IH as (a & e' & b' & bq & c' & -> & A & S' & F & G & C). exists (e :: a), e', b', bq, c'. split; [reflexivity|]. split; [cbn [existsb]; rewrite S; exact A|].
    split; [exact S'|]. split; [exact F|]. split; [exact G|]. rewrite C, HQ. change (entries_text (e :: a)) with (entry_text e ++ entries_text a). rewrite app_length. do 2 f_equal; lia.
Qed.
