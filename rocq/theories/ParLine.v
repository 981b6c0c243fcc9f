(** Proofs for the parameters of a netlist: the pattern on the text of a .PARAM line. *)
From Coq Require Import String Ascii List Bool Arith ZArith Lia.
From Verif Require Import PyStr EngModel EngProofs EngCaseProofs PTokModel PTokSpec PTokProofs Regex RegexProofs RegexInv RegexMore CompModel CompSpec CompMatch CompFam CompProofs CompRewrite CompSelf CompProps
  SepModel UpdatesModel NetModel NetSpec NetProofs EditModel EditSpec EditProofs NetProps CmdSpec CmdProofs ParModel ParSpec.
Import ListNotations.
Local Open Scope string_scope.
Local Open Scope nat_scope.
Local Open Scope list_scope.

Definition settable (t : str) : Prop :=
  exists b1 c b2 v y, t = b1 ++ c :: b2 ++ v :: y /\ forallb is_space b1 = true /\ (c = "="%char \/ c = " "%char) /\ forallb is_space b2 = true /\ begins_value v = true.
Definition fin : nat -> str -> caps -> option (nat * caps) := fun p' _ c' => Some (p', c').

(** what a match looks like *)
Lemma value_head : forall p s c y, reach pvalue_re (p, s, c) y -> cap gCB c = None -> cap gST c = None -> exists v r, s = v :: r /\ begins_value v = true.
Proof.
  intros p s c y H CB ST. unfold pvalue_re in H. apply reach_grp in H. destruct H as (p1 & s1 & c1 & H & _).
  apply reach_seq in H. destruct H as ([[p2 s2] c2] & H1 & H2). apply reach_opt in H1. destruct H1 as [H1|H1].
  - apply reach_grp in H1. destruct H1 as (p3 & s3 & c3 & H1 & _). apply reach_chr in H1. destruct H1 as (a & s' & -> & A & _). exists a, s'. split; [reflexivity|].
    unfold begins_value. rewrite A. rewrite orb_true_r. reflexivity.
  - injection H1 as -> -> ->. apply reach_cond in H2. destruct H2 as [[N _]|[_ H2]]; [contradiction|].
    apply reach_seq in H2. destruct H2 as ([[p4 s4] c4] & H1 & H2). apply reach_opt in H1. destruct H1 as [H1|H1].
    + apply reach_grp in H1. destruct H1 as (p3 & s3 & c3 & H1 & _). apply reach_chr in H1. destruct H1 as (a & s' & -> & A & _). exists a, s'. split; [reflexivity|].
      unfold begins_value. change quote with DQ. rewrite A. rewrite orb_true_r. reflexivity.
    + injection H1 as -> -> ->. apply reach_cond in H2. destruct H2 as [[N _]|[_ H2]]; [contradiction|].
      apply reach_seq in H2. destruct H2 as (z & H1 & _). apply reach_plus_chr in H1. destruct H1 as (a & u & s' & -> & A & _). exists a, (u ++ s'). split; [reflexivity|].
      unfold begins_value. change (digit_like a) with (num_c a). rewrite A. reflexivity.
Qed.
Lemma setting_reach : forall nm p s y, gids nm = [] -> reach (setting_re nm) (p, s, []) y ->
  exists w t c, s = w ++ t /\ reach nm (p, s, []) (p + length w, t, c) /\ settable t.
Proof.
  intros nm p s y G H. unfold setting_re in H. apply reach_seq in H. destruct H as (x1 & H1 & H). apply reach_grp in H1. destruct H1 as (p1 & s1 & c1 & H1 & ->).
  pose proof (reach_nocaps _ _ _ H1 G) as C. cbn [snd] in C. subst c1. destruct (reach_len _ _ _ _ _ _ _ H1) as (_ & w & -> & ->). exists w, s1, []. split; [reflexivity|]. split; [exact H1|].
  apply reach_seq in H. destruct H as (x2 & H2 & H). apply reach_star_chr in H2. destruct H2 as (b1 & s2 & -> & B1 & ->).
  apply reach_seq in H. destruct H as (x3 & H3 & H). apply reach_chr in H3. destruct H3 as (c & s3 & -> & HC & ->).
  apply reach_seq in H. destruct H as (x4 & H4 & H). apply reach_star_chr in H4. destruct H4 as (b2 & s4 & -> & B2 & ->).
  apply value_head in H; [|reflexivity|reflexivity]. destruct H as (v & r & -> & V). exists b1, c, b2, v, r. split; [reflexivity|]. split; [exact B1|]. split; [|auto].
  apply orb_true_iff in HC. destruct HC as [HC|HC]; apply aeqb_eq in HC; auto.
Qed.
Lemma no_match : forall nm p s, gids nm = [] -> (forall w t c, s = w ++ t -> reach nm (p, s, []) (p + length w, t, c) -> settable t -> False) -> m (setting_re nm) p s [] fin = None.
Proof.
  intros nm p s G H. rewrite m_none_iff. intros p' s' c' R. exfalso. destruct (setting_reach nm p s _ G R) as (w & t & c & E & R' & S). exact (H w t c E R' S).
Qed.
Lemma any_word : forall p s w t c, s = w ++ t -> reach any_name (p, s, []) (p + length w, t, c) -> w <> [] /\ forallb is_word w = true.
Proof.
  intros p s w t c -> R. apply reach_plus_run in R. destruct R as (w' & s' & E & N & B & Q). injection Q as L -> ->. assert (length w = length w') by lia.
  apply app_inv_tail in E. subst w'. auto.
Qed.
Lemma no_any : forall p s, (forall w t, s = w ++ t -> w <> [] -> forallb is_word w = true -> settable t -> False) -> m (setting_re any_name) p s [] fin = None.
Proof. intros p s H. apply no_match; [reflexivity|]. intros w t c E R S. destruct (any_word _ _ _ _ _ E R) as [N B]. exact (H w t E N B S). Qed.

(** character classes *)
Lemma word_not_sep : forall c, is_word c = true -> negb (is_space c || aeqb c "=") = true.
Proof. apply imp_sweep. vm_cast_no_check (eq_refl true). Qed.
Lemma value_not_sep : forall c, begins_value c = true -> negb (is_space c || aeqb c "=") = true.
Proof. apply imp_sweep. vm_cast_no_check (eq_refl true). Qed.
Lemma name_word : forall c, name_c c = true -> is_word c = true.
Proof. apply imp_sweep. vm_cast_no_check (eq_refl true). Qed.
Lemma upper_is_word : forall c, is_word (upper_c c) = true -> is_word c = true.
Proof. apply (imp_sweep (fun c => is_word (upper_c c))). vm_cast_no_check (eq_refl true). Qed.

Lemma settable_head : forall t, settable t -> exists c r, t = c :: r /\ (is_space c || aeqb c "=") = true.
Proof.
  intros t (b1 & c & b2 & v & y & -> & B1 & HC & _). destruct b1 as [|x b1].
  - exists c, (b2 ++ v :: y). split; [reflexivity|]. destruct HC as [-> | ->]; reflexivity.
  - exists x, (b1 ++ c :: b2 ++ v :: y). split; [reflexivity|]. cbn [forallb] in B1. apply andb_true_iff in B1. destruct B1 as [-> _]. reflexivity.
Qed.
Lemma forallb_imp : forall (f g : ascii -> bool) l, (forall c, f c = true -> g c = true) -> forallb f l = true -> forallb g l = true.
Proof. intros f g l H F. rewrite forallb_forall in *. intros x Hx. apply H. apply F. exact Hx. Qed.
Lemma settable_cut : forall b x r, forallb (fun c => is_space c || aeqb c "=") b = true -> (is_space x || aeqb x "=") = false -> settable (b ++ x :: r) -> begins_value x = true.
Proof.
  intros b x r HB HX (b1 & c & b2 & v & y & E & B1 & HC & B2 & V). destruct (cut_class (fun c => is_space c || aeqb c "=") b (x :: r) (b1 ++ c :: b2) (v :: y)) as [_ E2].
  - rewrite E, <- app_assoc. reflexivity.
  - exact HB.
  - rewrite forallb_app. cbn [forallb]. apply andb_true_iff. split; [|apply andb_true_iff; split].
    + eapply forallb_imp; [|exact B1]. intros a ->. reflexivity.
    + destruct HC as [-> | ->]; reflexivity.
    + eapply forallb_imp; [|exact B2]. intros a ->. reflexivity.
  - exact HX.
  - apply negb_true_iff. apply value_not_sep. exact V.
  - injection E2 as -> _. exact V.
Qed.
Lemma settable_has : forall t, settable t -> exists v, In v t /\ begins_value v = true.
Proof. intros t (b1 & c & b2 & v & y & -> & _ & _ & _ & V). exists v. split; [|exact V]. apply in_or_app. right. right. apply in_or_app. right. left. reflexivity. Qed.

Lemma word_run : forall q rest w t, forallb is_word q = true -> match rest with c :: _ => is_word c = false | [] => True end -> ~ settable rest ->
  q ++ rest = w ++ t -> forallb is_word w = true -> settable t -> False.
Proof.
  intros q rest w t HQ HR HS E HW ST. destruct (app_cut _ _ _ _ E) as [(e & -> & ->)|(e & -> & ->)].
  - destruct e as [|x e]; [rewrite app_nil_l in HS; contradiction|]. cbn [app] in HR. rewrite forallb_app in HW. apply andb_true_iff in HW. destruct HW as [_ HW]. cbn [forallb] in HW. rewrite HR in HW. discriminate.
  - destruct e as [|x e]; [contradiction|]. rewrite forallb_app in HQ. apply andb_true_iff in HQ. destruct HQ as [_ HQ]. cbn [forallb] in HQ. apply andb_true_iff in HQ. destruct HQ as [HQ _].
    destruct (settable_head _ ST) as (c & r & E' & C). cbn [app] in E'. injection E' as <- _. apply word_not_sep in HQ. rewrite C in HQ. discriminate.
Qed.

Lemma search_skip : forall r u p s, (forall x y, u = x ++ y -> y <> [] -> m r (p + length x) (y ++ s) [] fin = None) -> search_from r p (u ++ s) = search_from r (p + length u) s.
Proof.
  intros r u. induction u as [|a u IH]; intros p s H; [cbn [app length]; rewrite Nat.add_0_r; reflexivity|]. cbn [app].
  assert (m r p (a :: u ++ s) [] fin = None) as E. { specialize (H [] (a :: u) eq_refl). cbn [length app] in H. rewrite Nat.add_0_r in H. apply H. discriminate. }
  cbn [search_from]. unfold fin in E. cbn [app] in E. rewrite E. rewrite (IH (S p) s); [f_equal; cbn [length]; lia|]. intros x y -> N. specialize (H (a :: x) y eq_refl N). cbn [length] in H. rewrite <- H. f_equal. lia.
Qed.
Lemma search_hit : forall r p s e c, m r p s [] fin = Some (e, c) -> search_from r p s = Some (p, e, c).
Proof. intros r p s e c H. unfold fin in H. destruct s; cbn [search_from]; rewrite H; reflexivity. Qed.
Lemma search_none : forall r s p, (forall x y, s = x ++ y -> m r (p + length x) y [] fin = None) -> search_from r p s = None.
Proof.
  intros r. induction s as [|a s IH]; intros p H.
  - specialize (H [] [] eq_refl). cbn [length] in H. rewrite Nat.add_0_r in H. unfold fin in H. cbn [search_from]. rewrite H. reflexivity.
  - pose proof (H [] (a :: s) eq_refl) as H0. cbn [length] in H0. rewrite Nat.add_0_r in H0. unfold fin in H0. cbn [search_from]. rewrite H0. apply IH. intros x y ->.
    specialize (H (a :: x) y eq_refl). cbn [length] in H. rewrite <- H. f_equal. lia.
Qed.

(** the value *)
Definition stops (r : str) : Prop := match r with [] => True | c :: _ => c = " "%char \/ c = NL end.
Lemma stops_num : forall r, stops r -> match r with y :: _ => num_c y = false | [] => True end.
Proof. intros [|c r] H; [exact I|]. destruct H as [-> | ->]; reflexivity. Qed.
Lemma stops_unit : forall r, stops r -> match r with y :: _ => unit_c y = false | [] => True end.
Proof. intros [|c r] H; [exact I|]. destruct H as [-> | ->]; reflexivity. Qed.
Lemma number_split : forall u d, forallb num_c d = true -> forallb unit_c u = true -> exists d' u', d ++ u = d' ++ u' /\ (d <> [] -> d' <> []) /\ forallb num_c d' = true /\ forallb unit_c u' = true /\ match u' with c :: _ => num_c c = false | [] => True end.
Proof.
  induction u as [|c u IH]; intros d HD HU; [exists d, []; auto 6|]. cbn [forallb] in HU. apply andb_true_iff in HU. destruct HU as [C HU]. destruct (num_c c) eqn:N.
  - destruct (IH (d ++ [c])) as (d' & u' & E & NE & D & U & X); [rewrite forallb_app, HD; cbn [forallb]; rewrite N; reflexivity|exact HU|]. exists d', u'. rewrite <- E, <- app_assoc. split; [reflexivity|].
    split; [intros _; apply NE; destruct d; discriminate|auto].
  - exists d, (c :: u). split; [reflexivity|]. split; [auto|]. split; [exact HD|]. split; [cbn [forallb]; rewrite C; exact HU|exact N].
Qed.
Lemma not_in_class : forall (x : ascii) s, ~ In x s -> forallb (fun c => negb (aeqb c x)) s = true.
Proof. intros x s H. apply forallb_forall. intros c Hc. apply negb_true_iff. apply aeqb_neq. intros ->. contradiction. Qed.
Lemma value_match : forall v p r c, par_value v -> stops r -> cap gCB c = None -> cap gST c = None ->
  exists c', m pvalue_re p (v ++ r) c fin = Some (p + length v, (gVALUE, (p, p + length v)) :: c') /\ cap gNAME c' = cap gNAME c.
Proof.
  intros v p r c H HR CB ST. destruct H as [s H _|s H _|d u HN HD HU].
  - exists ((gCB, (p, S p)) :: c). split; [|reflexivity]. unfold pvalue_re. rewrite m_grp. cbn [app]. rewrite m_seq. apply m_opt_yes. rewrite m_grp. unfold lit at 1. rewrite m_chr_ok by reflexivity.
    cbn [m]. change (cap gCB ((gCB, (p, S p)) :: c)) with (Some (p, S p)). cbv iota. rewrite <- app_assoc. apply (m_star_all _ s (S p) (["}"%char] ++ r)).
    + apply not_in_class. exact H.
    + reflexivity.
    + cbn [app]. unfold lit. rewrite m_chr_ok by reflexivity. unfold fin. replace (S (S p + length s)) with (p + length ("{"%char :: s ++ ["}"%char])) by (cbn [length]; rewrite app_length; cbn [length]; lia). reflexivity.
  - exists ((gST, (p, S p)) :: c). split; [|reflexivity]. unfold pvalue_re. rewrite m_grp. cbn [app]. rewrite m_seq. rewrite m_opt_no by reflexivity. cbn [m]. rewrite CB.
    change (m (Opt (Grp gST (lit DQ))) p (quote :: (s ++ [quote]) ++ r) c (fun p' s' c' => m (Cond gST (Seq (Star true (Chr (fun c0 => negb (aeqb c0 DQ)))) (lit DQ)) (Seq (Plus (Chr num_c)) (Star true (Chr unit_c)))) p' s' c'
      (fun p'0 s'0 c'0 => fin p'0 s'0 ((gVALUE, (p, p'0)) :: c'0))) = Some (p + length (quote :: s ++ [quote]), (gVALUE, (p, p + length (quote :: s ++ [quote]))) :: (gST, (p, S p)) :: c)).
    apply m_opt_yes. rewrite m_grp. unfold lit at 1. rewrite m_chr_ok by reflexivity.
    cbn [m]. change (cap gST ((gST, (p, S p)) :: c)) with (Some (p, S p)). cbv iota. rewrite <- app_assoc. apply (m_star_all _ s (S p) ([quote] ++ r)).
    + apply not_in_class. exact H.
    + reflexivity.
    + cbn [app]. unfold lit. rewrite m_chr_ok by reflexivity. unfold fin. replace (S (S p + length s)) with (p + length (quote :: s ++ [quote])) by (cbn [length]; rewrite app_length; cbn [length]; lia). reflexivity.
  - exists c. split; [|reflexivity]. destruct (number_split u d HD HU) as (d' & u' & E & NE & D & U & X). specialize (NE HN). rewrite E. clear E HN HD HU d u. unfold pvalue_re. rewrite m_grp, m_seq.
    destruct d' as [|x d']; [contradiction|]. pose proof D as D'. cbn [forallb] in D'. apply andb_true_iff in D'. destruct D' as [NX _].
    assert (aeqb x "{" = false) as X1 by (apply aeqb_neq; intros ->; discriminate). assert (aeqb x DQ = false) as X2 by (apply aeqb_neq; intros ->; discriminate).
    rewrite m_opt_no by (rewrite m_grp; cbn [app]; apply m_chr_no; exact X1). cbn [m]. rewrite CB.
    match goal with |- match (match ?q with Some _ => _ | None => None end) with _ => _ end = _ => idtac | _ => idtac end.
    match goal with |- ?L = ?R => change L with (m (Opt (Grp gST (lit DQ))) p (((x :: d') ++ u') ++ r) c (fun p' s' c' => m (Cond gST (Seq (Star true (Chr (fun c0 => negb (aeqb c0 DQ)))) (lit DQ)) (Seq (Plus (Chr num_c)) (Star true (Chr unit_c)))) p' s' c'
      (fun p'0 s'0 c'0 => fin p'0 s'0 ((gVALUE, (p, p'0)) :: c'0)))) end.
    rewrite m_opt_no by (rewrite m_grp; cbn [app]; apply m_chr_no; exact X2).
    match goal with |- ?L = ?R => change L with (match cap gST c with Some _ => m (Seq (Star true (Chr (fun c0 => negb (aeqb c0 DQ)))) (lit DQ)) p (((x :: d') ++ u') ++ r) c (fun p'0 s'0 c'0 => fin p'0 s'0 ((gVALUE, (p, p'0)) :: c'0))
      | None => m (Seq (Plus (Chr num_c)) (Star true (Chr unit_c))) p (((x :: d') ++ u') ++ r) c (fun p'0 s'0 c'0 => fin p'0 s'0 ((gVALUE, (p, p'0)) :: c'0)) end) end.
    rewrite ST, m_seq, <- app_assoc. apply m_plus_run; [discriminate|exact D| |].
    { destruct u' as [|y u']; [apply stops_num; exact HR|exact X]. }
    apply m_star_all; [exact U|apply stops_unit; exact HR|]. unfold fin. rewrite app_length, Nat.add_assoc. reflexivity.
Qed.
Lemma value_first : forall v, par_value v -> exists c r, v = c :: r /\ begins_value c = true.
Proof.
  intros v [s _ _|s _ _|d u N D U]; [eexists _, _; split; reflexivity|eexists _, _; split; reflexivity|]. destruct d as [|x d]; [contradiction|]. exists x, (d ++ u). split; [reflexivity|].
  cbn [forallb] in D. apply andb_true_iff in D. destruct D as [D _]. unfold begins_value. rewrite D. reflexivity.
Qed.
Lemma space_run : forall b, spaces b -> forallb is_space b = true.
Proof. intros b H. apply forallb_forall. intros c Hc. rewrite (H c Hc). reflexivity. Qed.

(** one setting: [nm] is a pattern that takes the name *)
Definition taken (nm : re) (name : str) : Prop := forall (R : Type) p r c (k : @kont R) x, match r with y :: _ => is_word y = false | [] => True end ->
  k (p + length name) r c = Some x -> m nm p (name ++ r) c k = Some x.
Definition body (e : entry) : str := e_par e ++ e_b1 e ++ "="%char :: e_b2 e ++ e_val e.
Lemma setting_match : forall nm e p r, entry_ok e -> stops r -> taken nm (e_par e) ->
  exists c, m (setting_re nm) p (body e ++ r) [] fin = Some (p + length (body e), c) /\ cap gNAME c = Some (p, p + length (e_par e)) /\
    cap gVALUE c = Some (p + length (body e) - length (e_val e), p + length (body e)).
Proof.
  intros nm e p r (_ & _ & HN & H1 & H2 & HV) HR HT. set (q := p + length (e_par e)). set (q2 := q + length (e_b1 e) + 1 + length (e_b2 e)).
  destruct (value_match (e_val e) q2 r [(gNAME, (p, q))] HV HR eq_refl eq_refl) as (c' & MV & CN).
  assert (p + length (body e) = q2 + length (e_val e)) as L. { unfold body, q2, q. rewrite !app_length. cbn [length]. rewrite app_length. lia. }
  exists ((gVALUE, (q2, q2 + length (e_val e))) :: c'). split; [|split].
  - unfold setting_re. rewrite m_seq, m_grp. unfold body at 1. rewrite <- app_assoc. apply HT.
    { rewrite <- app_assoc. destruct (e_b1 e) as [|x b]; [reflexivity|]. cbn [app]. rewrite (H1 x (or_introl eq_refl)). reflexivity. }
    fold q. rewrite m_seq. unfold sp0. rewrite <- app_assoc. apply m_star_all; [apply space_run; exact H1|reflexivity|]. cbn [app]. rewrite m_seq, m_chr_ok by reflexivity. rewrite m_seq.
    rewrite <- app_assoc. apply m_star_all; [apply space_run; exact H2| |].
    { destruct (value_first _ HV) as (x & t & E & B). rewrite E. cbn [app]. apply value_not_sep in B. apply negb_true_iff in B. apply orb_false_iff in B. apply B. }
    replace (S (q + length (e_b1 e)) + length (e_b2 e)) with q2 by (unfold q2; lia). rewrite MV, L. reflexivity.
  - change (cap gNAME c' = Some (p, q)). rewrite CN. reflexivity.
  - change (Some (q2, q2 + length (e_val e)) = Some (p + length (body e) - length (e_val e), p + length (body e))). do 2 f_equal; lia.
Qed.
Lemma any_taken : forall n, par_name_ok n -> taken any_name n.
Proof. intros n (N & H) R p r c k x HR HK. apply m_plus_run; [exact N|eapply forallb_imp; [exact name_word|exact H]|exact HR|exact HK]. Qed.
Lemma lit_taken : forall n w, upper w = upper n -> taken (ilit n) w.
Proof.
  intros n w E R p r c k x _. revert p w E. unfold ilit. induction n as [|a n IH]; intros p w E HK.
  - destruct w; [|discriminate E]. cbn [map seqs m app]. cbn [length] in HK. rewrite Nat.add_0_r in HK. exact HK.
  - destruct w as [|b w]; [discriminate E|]. cbn [upper map] in E. injection E as E1 E2. specialize (IH (S p) w E2).
    assert (k (S p + length w) r c = Some x) as HK' by (rewrite <- HK; f_equal; cbn [length]; lia). specialize (IH HK').
    assert (forall l, seqs (ichar a :: l) = match l with [] => ichar a | _ => Seq (ichar a) (seqs l) end) as S by (intros []; reflexivity).
    assert (aeqb (upper_c b) (upper_c a) = true) as EB by (apply aeqb_eq; exact E1).
    cbn [map]. rewrite S. destruct (map ichar n) as [|i l] eqn:M.
    + destruct n; [|discriminate M]. destruct w; [|discriminate E2]. cbn [app]. unfold ichar. rewrite m_chr_ok by exact EB. cbn [seqs m app] in IH. exact IH.
    + cbn [app]. rewrite m_seq. unfold ichar at 1. rewrite m_chr_ok by exact EB. exact IH.
Qed.
Lemma lit_gids : forall n, gids (ilit n) = [].
Proof.
  unfold ilit. induction n as [|a n IH]; [reflexivity|]. cbn [map]. destruct (map ichar n) as [|i l] eqn:M; [reflexivity|]. change (gids (seqs (ichar a :: i :: l))) with (gids (seqs (i :: l))). exact IH.
Qed.
Lemma lit_reach : forall n p s w t c, s = w ++ t -> reach (ilit n) (p, s, []) (p + length w, t, c) -> upper w = upper n.
Proof.
  intros n p s w t c -> R.
  assert (forall n p s q t c c0, reach (ilit n) (p, s, c0) (q, t, c) -> exists w, s = w ++ t /\ upper w = upper n) as K.
  { clear. induction n as [|a n IH]; intros p s q t c c0 R.
    - apply reach_eps in R. injection R as _ -> _. exists []. auto.
    - assert (exists b s', s = b :: s' /\ aeqb (upper_c b) (upper_c a) = true /\ reach (ilit n) (S p, s', c0) (q, t, c)) as (b & s' & -> & B & R').
      { unfold ilit in *. cbn [map] in R. destruct (map ichar n) as [|i l] eqn:M.
        - cbn [seqs] in R. apply reach_chr in R. destruct R as (b & s' & -> & B & E). exists b, s'. split; [reflexivity|]. split; [exact B|]. rewrite E. constructor.
        - change (seqs (ichar a :: i :: l)) with (Seq (ichar a) (seqs (i :: l))) in R. apply reach_seq in R. destruct R as (y & R1 & R2). apply reach_chr in R1. destruct R1 as (b & s' & -> & B & ->). exists b, s'. auto. }
      destruct (IH _ _ _ _ _ _ R') as (w & -> & E). exists (b :: w). split; [reflexivity|]. cbn [upper map]. apply aeqb_eq in B. rewrite B. f_equal. exact E. }
  destruct (K _ _ _ _ _ _ _ R) as (w' & E & U). apply app_inv_tail in E. subst w'. exact U.
Qed.
