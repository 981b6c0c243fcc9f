From Coq Require Import String Ascii List Bool Arith ZArith Lia.
From Verif Require Import PyStr EngModel StepsModel Regex RegexProofs RegexMore RegexInv ParModel LtlogProofs QTagModel QTagProofs QEdModel QEdProofs3 QNetModel QNetSpec QNetProofs2 QLineSpec QLineProofs QLineProofs2.
Import ListNotations.
Local Open Scope string_scope. Local Open Scope nat_scope. Local Open Scope list_scope.

(** ** Texts *)
Lemma split_joined : forall n s, length s <= n -> joined (split_bsn s) = s /\ split_bsn s <> [] /\ forall x a b, In x (split_bsn s) -> x <> a ++ break ++ b.
Proof.
  induction n as [|n IH]; intros s L.
  - destruct s; [|cbn in L; lia]. cbn. split; [reflexivity|]. split; [discriminate|]. intros x a b [<- | []] K. destruct a; discriminate.
  - destruct s as [|c s]; [cbn; split; [reflexivity|split; [discriminate|]]; intros x a b [<- | []] K; destruct a; discriminate|]. cbn [length] in L.
    assert (Plain : (c <> "\"%char \/ forall r, s <> "n"%char :: r) -> split_bsn (c :: s) = match split_bsn s with [] => [[c]] | x :: l => (c :: x) :: l end ->
      joined (split_bsn (c :: s)) = c :: s /\ split_bsn (c :: s) <> [] /\ forall x a b, In x (split_bsn (c :: s)) -> x <> a ++ break ++ b).
    { intros NB ->. destruct (IH s ltac:(lia)) as (J & N & P). destruct (split_bsn s) as [|x l] eqn:E; [contradiction|]. split; [destruct l; cbn [joined app] in *; rewrite J; reflexivity|]. split; [discriminate|].
      intros y a b [<- | I] K; [|exact (P y a b (or_intror I) K)]. destruct a as [|a0 a].
      - change (break) with ["\"; "n"]%char in K. injection K as -> K. destruct NB as [NB|NB]; [congruence|]. subst x. destruct l; cbn [joined app] in J; apply (NB _ (eq_sym J)).
      - injection K as <- K. exact (P x a b (or_introl eq_refl) K). }
    destruct (aeqb c "\") eqn:EC.
    + apply aeqb_eq in EC. subst c. destruct s as [|d s]; [apply Plain; [right; intros r; discriminate|reflexivity]|]. destruct (aeqb d "n") eqn:ED.
      * apply aeqb_eq in ED. subst d. change (split_bsn ("\"%char :: "n"%char :: s)) with ([] :: split_bsn s). cbn [length] in L. destruct (IH s ltac:(lia)) as (J & N & P). split; [|split; [discriminate|]].
        -- destruct (split_bsn s) as [|x l] eqn:E; [contradiction|]. change (joined ([] :: x :: l)) with (break ++ joined (x :: l)). rewrite J. reflexivity.
        -- intros x a b [<- | I] K; [destruct a; discriminate|exact (P x a b I K)].
      * apply Plain; [right; intros r K; injection K as -> _; rewrite aeqb_refl in ED; discriminate|]. change (split_bsn ("\"%char :: d :: s)) with (match (if aeqb d "n" then Some (split_bsn s) else None) with Some l => [] :: l | None => match split_bsn (d :: s) with [] => [["\"%char]] | x :: l => ("\"%char :: x) :: l end end). rewrite ED. reflexivity.
    + apply aeqb_neq in EC. apply Plain; [left; exact EC|]. cbn [split_bsn]. assert (aeqb c "\" = false) as -> by (apply aeqb_neq; exact EC). reflexivity.
Qed.
Lemma lstrip_head : forall f s c r, lstrip_if f s = c :: r -> f c = false.
Proof. intros f. induction s as [|a s IH]; intros c r H; [discriminate|]. cbn [lstrip_if] in H. destruct (f a) eqn:E; [exact (IH _ _ H)|]. injection H as <- _. exact E. Qed.
Lemma texts_ok : forall l t, text_lines l = Some t -> exists blocks, Forall2 text_lines_of l blocks /\ t = concat blocks.
Proof.
  induction l as [|x l IH]; intros t H; cbn [text_lines] in H; [injection H as <-; exists []; split; [constructor|reflexivity]|].
  destruct (text_of x) as [s|] eqn:TX; [|discriminate]. destruct (comment_of x) as [c|] eqn:CM; [|discriminate]. destruct (text_lines l) as [d|]; [|discriminate]. apply some_inj in H. subst t.
  destruct (IH d eq_refl) as (bl & F & ->). exists ((if c then [] else map strip (split_bsn (unqual s))) :: bl). split; [|reflexivity]. constructor; [|exact F].
  unfold comment_of in CM. destruct (get_attr 4 x) as [a|] eqn:GA; [|discriminate]. cbn [option_map] in CM. apply some_inj in CM. unfold text_lines_of, is_comment. rewrite GA.
  assert (CI : c = true <-> a = AInt 1).
  { subst c. destruct a as [z|?|?|?]; try (split; intros K; discriminate K). destruct z as [|[?|?|]|?]; split; intros K; try discriminate K; reflexivity. }
  destruct c; [left; split; [f_equal; apply CI; reflexivity|reflexivity]|right]. split; [intros K; apply some_inj in K; apply CI in K; discriminate|].
  destruct (lstrip_all (fun c => mem_c c QUAL) s) as (fr & ES & FA). fold (unqual s) in ES. destruct (split_joined (length (unqual s)) (unqual s) (le_n _)) as (J & N & P).
  exists fr, (split_bsn (unqual s)). rewrite J. split; [unfold text_of in TX; destruct (get_attr 8 x) as [[?|?|?|?]|] eqn:G8; try discriminate TX; cbn [as_text] in TX; congruence|]. split; [intros c I; apply mem_c_In; apply FA; exact I|].
  split; [|split; [exact N|split; [exact P|reflexivity]]]. intros c r E I. apply lstrip_head in E. apply mem_c_In in I. change mark with QUAL in I. congruence.
Qed.

(** ** Definitions *)
Lemma defs_ok : forall l seen d, definitions l seen = Some d -> exists defs, d = flat_map definition_lines defs /\ NoDup (map (fun x => fst (fst x)) defs) /\
  (forall m, In m (map (fun x => fst (fst x)) defs) <-> ~ In m seen /\ exists sh body nd, In (sh, body) l /\ s_sub sh = Some (m, nd)) /\
  (forall m nd b, In (m, nd, b) defs -> exists a sh r, l = a ++ (sh, Some b) :: r /\ s_sub sh = Some (m, nd) /\ forall sh' b' nd', In (sh', b') a -> s_sub sh' <> Some (m, nd')).
Proof.
  induction l as [|[sh body] l IH]; intros seen d H; cbn [definitions] in H.
  - injection H as <-. exists []. split; [reflexivity|]. split; [constructor|]. split; [intros m; cbn; split; [intros []|intros (_ & ? & ? & ? & [] & _)]|intros m nd b []].
  - destruct (s_sub sh) as [[m0 nd0]|] eqn:SB.
    + destruct (existsb (str_eqb m0) seen) eqn:SE.
      * apply seen_In in SE. destruct (IH _ _ H) as (defs & -> & N & A & B). exists defs. split; [reflexivity|]. split; [exact N|]. split.
        -- intros m. rewrite A. split; [intros (NS & s & b & nd & I & E); split; [exact NS|exists s, b, nd; split; [right; exact I|exact E]]|].
           intros (NS & s & b & nd & [I|I] & E); [injection I as <- <-; rewrite SB in E; injection E as <- <-; contradiction|]. split; [exact NS|exists s, b, nd; split; assumption].
        -- intros m nd b I. assert (NS : ~ In m seen) by (apply (A m); apply in_map_iff; exists (m, nd, b); split; [reflexivity|exact I]). destruct (B m nd b I) as (a & s & r & -> & E & F). exists ((sh, body) :: a), s, r. split; [reflexivity|]. split; [exact E|].
           intros sh' b' nd' [K|K]; [injection K as <- <-; rewrite SB; intros Q; injection Q as <- <-; contradiction|exact (F _ _ _ K)].
      * assert (NS0 : ~ In m0 seen) by (intros K; apply seen_In in K; congruence). destruct body as [b0|]; [|discriminate]. destruct (definitions l (m0 :: seen)) as [d0|] eqn:D; [|discriminate]. apply some_inj in H. subst d. destruct (IH _ _ D) as (defs & -> & N & A & B).
        exists ((m0, nd0, b0) :: defs). split; [cbn [flat_map definition_lines app]; rewrite <- ?app_assoc; reflexivity|]. split; [cbn [map fst]; constructor; [rewrite A; cbn [In]; tauto|exact N]|]. split.
        -- intros m. cbn [map fst In]. rewrite A. cbn [In]. split.
           ++ intros [<- | (NS & s & b & nd & I & E)]; [split; [exact NS0|exists sh, (Some b0), nd0; split; [left; reflexivity|exact SB]]|split; [tauto|exists s, b, nd; split; [right; exact I|exact E]]].
           ++ intros (NS & s & b & nd & [I|I] & E); [injection I as <- <-; rewrite SB in E; injection E as <- <-; left; reflexivity|]. destruct (list_eq_dec ascii_dec m0 m) as [-> | D0]; [left; reflexivity|right; split; [tauto|exists s, b, nd; split; assumption]].
        -- intros m nd b [I|I]; [injection I as <- <- <-; exists [], sh, l; split; [reflexivity|split; [exact SB|intros ? ? ? []]]|].
           assert (NS : ~ In m (m0 :: seen)) by (apply (A m); apply in_map_iff; exists (m, nd, b); split; [reflexivity|exact I]). destruct (B m nd b I) as (a & s & r & -> & E & F). exists ((sh, Some b0) :: a), s, r. split; [reflexivity|]. split; [exact E|].
           intros sh' b' nd' [K|K]; [injection K as <- <-; rewrite SB; intros Q; injection Q as <- <-; apply NS; left; reflexivity|exact (F _ _ _ K)].
    + destruct (IH _ _ H) as (defs & -> & N & A & B). exists defs. split; [reflexivity|]. split; [exact N|]. split.
      * intros m. rewrite A. split; [intros (NS & s & b & nd & I & E); split; [exact NS|exists s, b, nd; split; [right; exact I|exact E]]|].
        intros (NS & s & b & nd & [I|I] & E); [injection I as <- <-; congruence|]. split; [exact NS|exists s, b, nd; split; assumption].
      * intros m nd b I. destruct (B m nd b I) as (a & s & r & -> & E & F). exists ((sh, body) :: a), s, r. split; [reflexivity|]. split; [exact E|].
        intros sh' b' nd' [K|K]; [injection K as <- <-; rewrite SB; discriminate|exact (F _ _ _ K)].
Qed.
Lemma defs_ignore1 : forall l2 sy by1 by2 l3 m ny seen, s_sub sy = Some (m, ny) -> In m seen -> definitions (l2 ++ (sy, by1) :: l3) seen = definitions (l2 ++ (sy, by2) :: l3) seen.
Proof.
  induction l2 as [|[sh body] l2 IH]; intros sy by1 by2 l3 m ny seen SY I; cbn [app definitions].
  - rewrite SY. apply seen_In in I. rewrite I. reflexivity.
  - destruct (s_sub sh) as [[m0 nd0]|]; [|eapply IH; eassumption]. destruct (existsb (str_eqb m0) seen); [eapply IH; eassumption|]. rewrite (IH sy by1 by2 l3 m ny (m0 :: seen) SY (or_intror I)). reflexivity.
Qed.
Lemma defs_ignore : forall l1 sx bx l2 sy by1 by2 l3 m nx ny seen, s_sub sx = Some (m, nx) -> s_sub sy = Some (m, ny) ->
  definitions (l1 ++ (sx, bx) :: l2 ++ (sy, by1) :: l3) seen = definitions (l1 ++ (sx, bx) :: l2 ++ (sy, by2) :: l3) seen.
Proof.
  induction l1 as [|[sh body] l1 IH]; intros sx bx l2 sy by1 by2 l3 m nx ny seen SX SY; cbn [app definitions].
  - rewrite SX. destruct (existsb (str_eqb m) seen) eqn:E; [apply seen_In in E; eapply defs_ignore1; eassumption|]. rewrite (defs_ignore1 l2 sy by1 by2 l3 m ny (m :: seen) SY (or_introl eq_refl)). reflexivity.
  - destruct (s_sub sh) as [[m0 nd0]|]; [|eapply IH; eassumption]. destruct (existsb (str_eqb m0) seen); [eapply IH; eassumption|]. rewrite (IH sx bx l2 sy by1 by2 l3 m nx ny (m0 :: seen) SX SY). reflexivity.
Qed.

(** ** Names *)
Lemma element_head : forall verilog name typ symbol model params nodes block, element_line verilog name typ symbol model params nodes = Some block -> block = [] \/ exists tail, block = [name ++ " "%char :: tail].
Proof.
  intros verilog name typ symbol model params nodes block H. unfold element_line, blanks in H.
  assert (L : forall l x, join_blank (name :: x :: l) = name ++ " "%char :: join_blank (x :: l)) by reflexivity.
  repeat match goal with
  | H : (if ?b then _ else _) = Some _ |- _ => destruct b
  | H : match nth_error ?l ?n with _ => _ end = Some _ |- _ => destruct (nth_error l n); [|discriminate]
  | H : match verilog ?n with _ => _ end = Some _ |- _ => destruct (verilog n)
  | H : match nodes with _ => _ end = Some _ |- _ => destruct nodes as [|? [|? [|? [|? ?]]]]
  end; apply some_inj in H; subst block; try (left; reflexivity); right; rewrite L, <- app_assoc; eexists; reflexivity.
Qed.
Lemma share_head : forall embed verilog hs ref item ports enabled value sub sh, share_of embed verilog hs ref item ports enabled value = Some sh ->
  exists name, named_lines embed (Part ref item ports enabled value sub) name (s_lines sh).
Proof.
  intros embed verilog hs ref item ports enabled value sub sh H. unfold share_of in H. unfold named_lines. change (get_items SYMBOL item) with (children "symbol" item) in H.
  assert (Z : sh = nothing -> exists name, (name = ref \/ (exists c, name = c :: acute :: ref)) /\ (exists head body, s_lines sh = head ++ body /\ (body = [] \/ (exists tail, body = [name ++ " "%char :: tail])) /\ (head = [] \/ (exists s, children "symbol" item = [s] /\ own_library s /\ head = embed name (library s))))).
  { intros ->. exists ref. split; [left; reflexivity|]. exists [], []. split; [reflexivity|]. split; left; reflexivity. }
  destruct (children "symbol" item) as [|s [|s' r]] eqn:CS; [injection H as <-; apply Z; reflexivity| |injection H as <-; apply Z; reflexivity].
  destruct enabled; cbn [negb] in H; [|injection H as <-; apply Z; reflexivity]. clear Z.
  destruct (type_of s value) as [[typ symbol]|] eqn:TY; [|discriminate]. destruct (get_items TEXT s) as [|t1 [|t2 more]]; try discriminate. destruct (get_text_attr 8 t2) as [model|]; [|discriminate]. destruct (param_text more) as [params|]; [|discriminate].
  rewrite library_eq in H. destruct (element_line _ _ _ _ _ _ _) as [line|] eqn:EL; [|discriminate]. destruct (if _ && hs then _ else _) as [sb|]; [|discriminate]. apply some_inj in H; subst sh. cbn [s_lines].
  exists (netlist_name typ ref). split.
  - unfold netlist_name. destruct typ as [|c r]; [left; reflexivity|]. destruct ref as [|d r']; [left; reflexivity|]. destruct (aeqb c d); [left; reflexivity|right; exists c; reflexivity].
  - exists (if startswith (s2l "|") (library s) then embed (netlist_name typ ref) (library s) else []), line. split; [reflexivity|]. split; [eapply element_head; exact EL|].
    destruct (startswith (s2l "|") (library s)) eqn:B; [right|left; reflexivity]. exists s. split; [reflexivity|]. split; [apply bar_ok; exact B|reflexivity].
Qed.
Lemma names_differ : forall embed parts xs, NoDup (map ref_of parts) -> (forall p, In p parts -> ~ In acute (ref_of p)) -> Forall2 (fun p x => named_lines embed p (fst x) (snd x)) parts xs -> NoDup (map fst xs).
Proof.
  intros embed parts xs N A F. induction F as [|p x parts xs H F IH]; [constructor|]. cbn [map]. inversion N as [|? ? NI N']; subst. constructor; [|apply IH; [exact N'|intros q I; apply A; right; exact I]].
  intros I. apply in_map_iff in I. destruct I as (y & E & I). destruct (F2_In_r _ _ _ _ _ _ F I) as (q & IQ & HQ). assert (NE : ref_of p <> ref_of q) by (intros K; apply NI; rewrite K; apply in_map; exact IQ).
  pose proof (A p (or_introl eq_refl)) as AP. pose proof (A q (or_intror IQ)) as AQ. destruct p as [rp ? ? ? ? ?]. destruct q as [rq ? ? ? ? ?]. cbn [ref_of] in *. destruct H as (H & _). destruct HQ as (HQ & _). rewrite E in HQ.
  destruct H as [H|(c & H)], HQ as [HQ|(c' & HQ)]; rewrite H in HQ.
  - congruence.
  - apply AP. rewrite HQ. right. left. reflexivity.
  - apply AQ. rewrite <- HQ. right. left. reflexivity.
  - injection HQ as _ HQ. congruence.
Qed.

(** ** [decap] *)
Lemma no_bracket : forall s p, ~ In "<"%char s -> search_from decap_re p s = None.
Proof.
  assert (M : forall s p, ~ In "<"%char s -> m decap_re p s [] (fun p' _ c => Some (p', c)) = None).
  { intros s p N. apply m_none_iff. intros p' s' c' R. exfalso. apply N. unfold decap_re in R. cbn [seqs] in R. apply reach_seq in R. destruct R as (y1 & R1 & R). apply reach_seq in R. destruct R as (y2 & R2 & R). apply reach_seq in R. destruct R as (y3 & R3 & R).
    apply reach_text in R1. destruct R1 as (u1 & E1 & _). destruct y1 as [[p1 s1] c1]. cbn [st_text fst snd] in E1. apply reach_chr in R2. destruct R2 as (a & s2 & -> & _ & ->). apply reach_chr in R3. destruct R3 as (b & s3 & -> & EB & _). apply aeqb_eq in EB. subst b s.
    apply in_or_app. right. right. left. reflexivity. }
  induction s as [|a s IH]; intros p N; cbn [search_from]; rewrite M by exact N; [reflexivity|]. apply IH. intros K. apply N. right. exact K.
Qed.
Lemma decap_plain : forall s, ~ In "<"%char s -> decap s = s.
Proof. intros s N. unfold decap, finditer. destruct (length s); cbn [find_all]; rewrite no_bracket by exact N; reflexivity. Qed.
Lemma decap_one : forall w b, w <> [] -> forallb is_word w = true -> ~ In NLc b -> decap (w ++ s2l "=<" ++ b ++ s2l ">") = w ++ s2l "=" ++ b.
Proof.
  intros w b N W NB. set (s := w ++ s2l "=<" ++ b ++ s2l ">").
  assert (M : m decap_re 0 s [] (fun p' _ c => Some (p', c)) = Some (length s, [(gQ, (length w + 2, length w + 2 + length b)); (gP, (0, length w))])).
  { unfold decap_re. cbn [seqs]. rewrite m_seq, m_grp. unfold s. unfold word1. apply m_plus_run; [exact N|exact W|reflexivity|]. change (s2l "=<" ++ b ++ s2l ">") with ("="%char :: "<"%char :: b ++ [">"%char]).
    rewrite m_seq. unfold lit at 1. rewrite m_chr_ok by reflexivity. rewrite m_seq. unfold lit at 1. rewrite m_chr_ok by reflexivity. rewrite m_seq, m_grp. apply m_star_back.
    - apply forallb_forall. intros c I. apply negb_true_iff. apply aeqb_neq. intros ->. exact (NB I).
    - unfold lit. rewrite m_chr_ok by reflexivity. f_equal. f_equal; [rewrite !app_length; cbn [length]; rewrite !app_length; cbn [length]; lia|]. repeat f_equal; lia.
    - intros v s' E NV _. destruct v as [|v0 v]; [contradiction|]. injection E as _ E. destruct v; [|discriminate]. destruct s'; [|discriminate]. reflexivity. }
  assert (F : finditer decap_re s = [(0, length s, [(gQ, (length w + 2, length w + 2 + length b)); (gP, (0, length w))])]).
  { unfold finditer. assert (LS : length s = S (length s - 1)) by (unfold s; rewrite !app_length; cbn; destruct w; [contradiction|cbn; lia]). assert (SF : search_from decap_re 0 s = Some (0, length s, [(gQ, (length w + 2, length w + 2 + length b)); (gP, (0, length w))])) by (destruct s; cbn [search_from]; rewrite M; reflexivity).
    rewrite LS at 1. cbn [find_all]. rewrite SF. f_equal. rewrite Nat.sub_0_r, skipn_all. destruct (length s - 1); cbn [find_all]; rewrite no_bracket by (intros []); reflexivity. }
  unfold decap. rewrite F. cbn [put_back]. change (cap gP [(gQ, (length w + 2, length w + 2 + length b)); (gP, (0, length w))]) with (Some (0, length w)). change (cap gQ [(gQ, (length w + 2, length w + 2 + length b)); (gP, (0, length w))]) with (Some (length w + 2, length w + 2 + length b)).
  assert (FL : forall (a c : str), firstn (length a) (a ++ c) = a) by (intros a c; rewrite firstn_app, firstn_all, Nat.sub_diag; apply app_nil_r).
  assert (P1 : slice s (0, length w) = w) by (unfold slice; cbn [fst snd]; rewrite Nat.sub_0_r; exact (FL w _)).
  assert (P2 : slice s (length w + 2, length w + 2 + length b) = b).
  { unfold slice. cbn [fst snd]. replace (length w + 2 + length b - (length w + 2)) with (length b) by lia. unfold s. rewrite skipn_app, skipn_all2 by lia. replace (length w + 2 - length w) with 2 by lia. exact (FL b _). }
  cbv iota beta. rewrite P1, P2. change (slice s (0, 0)) with (@nil ascii). rewrite skipn_all. cbn [app]. rewrite app_nil_r. reflexivity.
Qed.
