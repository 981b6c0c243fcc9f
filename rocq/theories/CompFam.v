(** The families: which part of the text is the value. *)
From Coq Require Import String Ascii List Bool Arith Lia.
From Verif Require Import PyStr EngModel EngProofs EngCaseProofs PTokModel PTokSpec PTokProofs Regex RegexProofs RegexInv RegexMore CompModel CompSpec CompMatch CompTail CompRead.
Import ListNotations.
Local Open Scope string_scope.
Local Open Scope nat_scope.
Local Open Scope list_scope.

Definition fin : nat -> str -> caps -> option (nat * caps) := fun p' _ c' => Some (p', c').
Lemma imp_sweep : forall f g : ascii -> bool, forallb (fun c => implb (f c) (g c)) all_chars = true -> forall a, f a = true -> g a = true.
Proof. intros f g H a Ha. pose proof (sweep1 _ H a) as X. cbv beta in X. rewrite Ha in X. exact X. Qed.

(** what is found after the nodes *)
Definition found (c : caps) (a b e : nat) (y : nat * caps) : Prop :=
  cap gDES (snd y) = cap gDES c /\ cap gNODES (snd y) = cap gNODES c /\ cap gVAL (snd y) = Some (a, b) /\ cap gPAR (snd y) = Some (b, e).

(** devices *)
Lemma device_match : forall gap v l tb cm p c, plist_ok l -> tail_ok tb cm -> gap <> [] -> forallb is_space gap = true ->
  v <> [] -> forallb modelc v = true ->
  exists y u w, tb = u ++ w /\ (l = [] -> u = []) /\ m (Seq model_re param_re) p (gap ++ v ++ ptext l ++ tb ++ cm) c fin = Some y /\
    found c (p + length gap) (p + length gap + length v) (p + length gap + length v + length (ptext l ++ u)) y.
Proof.
  intros gap v l tb cm p c Hl Ht NG G NV V.
  destruct (param_re_match l tb cm (p + length gap + length v) ((gVAL, (p + length gap, p + length gap + length v)) :: c) Hl Ht) as (e & u & w & E1 & E2 & E3).
  eexists (e, _), u, w. split; [exact E1|]. split; [exact E2|]. split.
  - rewrite m_seq. unfold model_re. rewrite m_seq. apply m_sp1_all; [exact NG|exact G| |].
    + destruct v as [|a v]; [contradiction|]. cbn [app forallb] in *. apply andb_true_iff in V. apply modelc_facts. apply V.
    + rewrite m_grp. apply m_plus_run; [exact NV|exact V| |exact E3].
      pose proof (tail_boe l tb cm Hl Ht) as B. destruct (ptext l ++ tb ++ cm) as [|z s]; [exact I|]. cbn in B.
      destruct (blank_facts z B) as (B1 & _ & _ & _ & _ & _ & B2). rewrite B1. exact B2.
  - unfold found. cbn [snd cap Nat.eqb gPAR gVAL gDES gNODES]. auto.
Qed.

(** passive components *)
Definition body_re (suffix : re) : re :=
  seqs [Opt (Grp gNUM (number_re suffix));
        Opt (Grp gF1 (lit "034")); Opt (Grp gF2 (lit "'")); Opt (Grp gF3 (lit "{"));
        Cond gNUM Eps (Cond gF1 (Seq (Star true dot) (lit "034"))
          (Cond gF2 (Seq (Star true dot) (lit "'"))
             (Cond gF3 (Seq (Star true dot) (lit "}")) (Star true (Chr (fun c => negb (is_space c)))))))].
Lemma value_re_eq : forall x suffix, value_re x suffix =
  Seq sp1 (Seq (Opt (seqs [ichar x; Opt (Chr is_space); lit "="; Opt (Chr is_space)])) (Grp gVAL (body_re suffix))).
Proof. reflexivity. Qed.
Lemma number_only : forall suffix, only nsp suffix -> only nsp (number_re suffix).
Proof.
  intros suffix H. unfold number_re, exponent_re, oneof, ioneof, lit, Opt, Plus. cbn [seqs only].
  assert (forall a, one_of (s2l "-+") a = true -> nsp a = true) as A1 by (apply imp_sweep; vm_cast_no_check (eq_refl true)).
  assert (forall a, is_digit a = true -> nsp a = true) as A2 by (apply imp_sweep; vm_cast_no_check (eq_refl true)).
  assert (forall a, aeqb a "." = true -> nsp a = true) as A3 by (apply imp_sweep; vm_cast_no_check (eq_refl true)).
  assert (forall a, mem_c (upper_c a) (upper (s2l "e")) = true -> nsp a = true) as A4 by (apply (imp_sweep (fun a => mem_c (upper_c a) (upper (s2l "e")))); vm_cast_no_check (eq_refl true)).
  tauto.
Qed.
(** the number, if there is one, starts like a number *)
Lemma number_start : forall suffix p s c y, reach (number_re suffix) (p, s, c) y -> exists a r, s = a :: r /\ (one_of (s2l "-+") a || is_digit a || aeqb a ".") = true.
Proof.
  intros suffix p s c y H. unfold number_re in H. cbn [seqs] in H. apply reach_seq in H. destruct H as ([[p1 s1] c1] & H1 & H).
  apply reach_opt in H1. destruct H1 as [H1|H1].
  { unfold oneof in H1. apply reach_chr in H1. destruct H1 as (a & s' & -> & A & _). exists a, s'. rewrite A. auto. }
  injection H1 as -> -> ->. apply reach_seq in H. destruct H as ([[p2 s2] c2] & H2 & H). apply reach_star_chr in H2. destruct H2 as (u & s' & -> & U & E). injection E as -> -> ->.
  destruct u as [|a u]; [|cbn [forallb] in U; apply andb_true_iff in U; destruct U as [U _]; exists a, (u ++ s'); rewrite U, orb_true_r; auto].
  cbn [app length] in *. apply reach_seq in H. destruct H as ([[p3 s3] c3] & H3 & H). apply reach_opt in H3. destruct H3 as [H3|H3].
  { apply reach_lit in H3. destruct H3 as (s2 & -> & _). exists "."%char, s2. auto. }
  injection H3 as -> -> ->. apply reach_seq in H. destruct H as (z & H4 & _). apply reach_plus_chr in H4. destruct H4 as (a & u & s2 & -> & A & _).
  exists a, (u ++ s2). rewrite A, orb_true_r. auto.
Qed.
Definition plain_caps (c : caps) : Prop := cap gNUM c = None /\ cap gF1 c = None /\ cap gF2 c = None /\ cap gF3 c = None.
Lemma special_first : forall a, ~ In a special -> aeqb a "034" = false /\ aeqb a "'" = false /\ aeqb a "{" = false.
Proof.
  intros a H. rewrite special_in in H. rewrite !aeqb_neq. repeat split; intros ->; apply H; auto.
Qed.
Lemma opt_lit_no : forall n q a p s c y, aeqb a q = false -> reach (Opt (Grp n (lit q))) (p, a :: s, c) y -> y = (p, a :: s, c).
Proof.
  intros n q a p s c y N H. apply reach_opt in H. destruct H as [H|H]; [|exact H]. exfalso. apply reach_grp in H. destruct H as (p' & s' & c' & H & _).
  apply reach_lit in H. destruct H as (s2 & E & _). injection E as -> _. rewrite aeqb_refl in N. discriminate.
Qed.
Lemma opt_lit_nsp : forall n q p s c y, is_space q = false -> reach (Opt (Grp n (lit q))) (p, s, c) y ->
  exists w s' c', s = w ++ s' /\ forallb nsp w = true /\ y = (p + length w, s', c') /\ (forall j, j <> n -> cap j c' = cap j c).
Proof.
  intros n q p s c y N H. apply reach_opt in H. destruct H as [H| ->].
  - apply reach_grp in H. destruct H as (p' & s' & c' & H & ->). apply reach_lit in H. destruct H as (s2 & -> & E). injection E as -> -> ->.
    exists [q], s2. eexists. split; [reflexivity|]. split; [cbn [forallb]; unfold nsp; rewrite N; reflexivity|]. split; [cbn [length]; rewrite Nat.add_1_r; reflexivity|].
    intros j Hj. cbn [cap]. destruct (Nat.eqb_spec n j); [congruence|reflexivity].
  - exists [], s, c. cbn [length]. rewrite Nat.add_0_r. auto.
Qed.
(** a value that does not start with a quote or a brace: no blank is taken *)
Lemma body_nsp : forall suffix p a s c y, only nsp suffix -> gids suffix = [] -> plain_caps c -> ~ In a special ->
  reach (body_re suffix) (p, a :: s, c) y -> exists w s' c', a :: s = w ++ s' /\ forallb nsp w = true /\ y = (p + length w, s', c').
Proof.
  intros suffix p a s c y HS HG (C1 & C2 & C3 & C4) A H. unfold body_re in H. cbn [seqs] in H.
  apply reach_seq in H. destruct H as ([[p1 s1] c1] & H1 & H). apply reach_opt in H1. destruct H1 as [H1|H1].
  - (* a number *)
    apply reach_grp in H1. destruct H1 as (p2 & s2 & c2 & H1 & E). injection E as -> -> ->.
    destruct (reach_only nsp _ _ _ H1 (number_only suffix HS)) as (w1 & E1 & W1 & L1). unfold st_text in E1; cbn [fst snd] in E1, L1. subst p2.
    apply reach_seq in H. destruct H as (z & H2 & H). destruct (opt_lit_nsp _ "034"%char _ _ _ _ eq_refl H2) as (w2 & s3 & c3 & E2 & W2 & -> & K2).
    apply reach_seq in H. destruct H as (z & H3 & H). destruct (opt_lit_nsp _ "'"%char _ _ _ _ eq_refl H3) as (w3 & s4 & c4 & E3 & W3 & -> & K3).
    apply reach_seq in H. destruct H as (z & H4 & H). destruct (opt_lit_nsp _ "{"%char _ _ _ _ eq_refl H4) as (w4 & s5 & c5 & E4 & W4 & -> & K4).
    apply reach_cond in H. destruct H as [[_ H]|[N _]].
    + apply reach_eps in H. subst y. exists (w1 ++ w2 ++ w3 ++ w4), s5, c5. rewrite !forallb_app, W1, W2, W3, W4, !app_length.
      split; [rewrite E1, E2, E3, E4, <- !app_assoc; reflexivity|]. split; [reflexivity|]. f_equal. f_equal. lia.
    + exfalso. rewrite K4, K3, K2 in N by discriminate. discriminate N.
  - injection H1 as -> -> ->. destruct (special_first a A) as (A1 & A2 & A3).
    apply reach_seq in H. destruct H as (z & H2 & H). rewrite (opt_lit_no _ _ _ _ _ _ _ A1 H2) in H.
    apply reach_seq in H. destruct H as (z' & H3 & H). rewrite (opt_lit_no _ _ _ _ _ _ _ A2 H3) in H.
    apply reach_seq in H. destruct H as (z'' & H4 & H). rewrite (opt_lit_no _ _ _ _ _ _ _ A3 H4) in H.
    apply reach_cond in H. destruct H as [[N _]|[_ H]]; [congruence|].
    apply reach_cond in H. destruct H as [[N _]|[_ H]]; [congruence|].
    apply reach_cond in H. destruct H as [[N _]|[_ H]]; [congruence|].
    apply reach_cond in H. destruct H as [[N _]|[_ H]]; [congruence|].
    apply reach_star_chr in H. destruct H as (w & s' & E & W & ->). exists w, s', c. auto.
Qed.
Lemma body_gids : forall suffix n, gids suffix = [] -> In n [gDES; gNODES; gVAL; gPAR] -> ~ In n (gids (body_re suffix)).
Proof.
  intros suffix n H Hn. unfold body_re, number_re, exponent_re, oneof, ioneof, lit, Opt, Plus, dot. cbn [seqs gids app]. rewrite H. cbn [app In].
  intros G. cbn [In] in Hn. unfold gDES, gNODES, gVAL, gPAR, gNUM, gF1, gF2, gF3 in *. lia.
Qed.
(** the body followed by the parameters, when all the ways to read it end at the same place *)
Lemma body_all : forall r v l tb cm p c, (forall n, In n [gDES; gNODES; gVAL; gPAR] -> ~ In n (gids r)) -> plist_ok l -> tail_ok tb cm ->
  (forall p' s' c', reach r (p, v ++ ptext l ++ tb ++ cm, c) (p', s', c') -> no_end s' \/ (s' = ptext l ++ tb ++ cm /\ p' = p + length v)) ->
  (exists c', reach r (p, v ++ ptext l ++ tb ++ cm, c) (p + length v, ptext l ++ tb ++ cm, c')) ->
  forall p0, exists y, m r p (v ++ ptext l ++ tb ++ cm) c (fun p' s' c' => m param_re p' s' ((gVAL, (p0, p')) :: c') fin) = Some y /\
    exists u w, tb = u ++ w /\ (l = [] -> u = []) /\ found c p0 (p + length v) (p + length v + length (ptext l ++ u)) y.
Proof.
  intros r v l tb cm p c HG Hl Ht HA [c2 HE] p0. apply m_all.
  - intros p' s' c' y H E. destruct (HA _ _ _ H) as [N|[-> ->]]; [rewrite param_re_none in E by exact N; discriminate|].
    destruct (param_re_match l tb cm (p + length v) ((gVAL, (p0, p + length v)) :: c') Hl Ht) as (e & u & w & E1 & E2 & E3).
    unfold fin in E. rewrite E3 in E. injection E as <-. exists u, w. split; [exact E1|]. split; [exact E2|].
    unfold found. cbn [snd cap Nat.eqb gPAR gVAL gDES gNODES].
    pose proof (fun n Hn => reach_cap n _ _ _ H (HG n Hn)) as X. cbn [snd] in X. split; [|split; [|split]]; try reflexivity; apply X; cbn [In]; auto.
  - destruct (param_re_match l tb cm (p + length v) ((gVAL, (p0, p + length v)) :: c2) Hl Ht) as (e & u & w & E1 & E2 & E3).
    exists (p + length v), (ptext l ++ tb ++ cm), c2. eexists. split; [exact HE|exact E3].
Qed.
Lemma suffix_no_end : forall e A, e <> [] -> (forall a, In a e -> is_space a = false /\ a <> "\"%char) -> no_end (e ++ A).
Proof. intros [|a e] A N H; [contradiction|]. left. exists a, (e ++ A). destruct (H a (or_introl eq_refl)). auto. Qed.
Lemma simple_match : forall suffix v l tb cm p c p0, only nsp suffix -> gids suffix = [] -> plain_caps c -> plist_ok l -> tail_ok tb cm -> simple_value v ->
  exists y, m (body_re suffix) p (v ++ ptext l ++ tb ++ cm) c (fun p' s' c' => m param_re p' s' ((gVAL, (p0, p')) :: c') fin) = Some y /\
    exists u w, tb = u ++ w /\ (l = [] -> u = []) /\ found c p0 (p + length v) (p + length v + length (ptext l ++ u)) y.
Proof.
  intros suffix v l tb cm p c p0 HS HG HC Hl Ht (NV & V & F). pose proof (tail_boe l tb cm Hl Ht) as HB.
  assert (forallb nsp v = true) as VN. { apply forallb_forall. intros a Ha. unfold nsp. rewrite (proj1 (V a Ha)). reflexivity. }
  destruct v as [|a v]; [contradiction|]. apply body_all; [intros n; apply body_gids; exact HG|exact Hl|exact Ht| |].
  - intros p' s' c' H. destruct (body_nsp _ _ _ _ _ _ HS HG HC F H) as (w & s2 & c2 & E & W & E2). injection E2 as -> -> ->.
    assert (w ++ s2 = (a :: v) ++ ptext l ++ tb ++ cm) as E9 by (symmetry; exact E). clear E. rename E9 into E.
    destruct (app_cut _ _ _ _ E) as [(e & Ev & ->)|(e & -> & EA)].
    + destruct e as [|x e]; [right; rewrite app_nil_r in Ev; rewrite Ev; auto|]. left. apply suffix_no_end; [discriminate|].
      intros z Hz. destruct (V z) as (V1 & _ & V2); [rewrite Ev; apply in_or_app; right; exact Hz|auto].
    + destruct e as [|x e]; [right; cbn [app] in EA; rewrite app_nil_r; auto|]. exfalso. rewrite forallb_app in W. apply andb_true_iff in W. destruct W as [_ W].
      rewrite EA in HB. cbn in HB. cbn [forallb] in W. unfold nsp in W. rewrite HB in W. discriminate.
  - exists c. destruct HC as (C1 & C2 & C3 & C4). unfold body_re. cbn [seqs].
    do 4 (apply reach_seq; eexists; split; [apply reach_opt; right; reflexivity|]).
    apply reach_cond. right. split; [exact C1|]. apply reach_cond. right. split; [exact C2|]. apply reach_cond. right. split; [exact C3|].
    apply reach_cond. right. split; [exact C4|]. apply reach_star_chr. exists (a :: v), (ptext l ++ tb ++ cm). auto.
Qed.

(** an expression between quotes or braces *)
Lemma one_close : forall x q r t A : str, forall k : ascii, x ++ k :: r = t ++ k :: A -> ~ In k t -> ~ In k A -> x = t /\ r = A.
Proof.
  intros x _ r t A k E T HA. destruct (app_cut _ _ _ _ E) as [(e & -> & E')|(e & -> & E')].
  - destruct e as [|a e]; cbn [app] in E'; [injection E' as ->; rewrite app_nil_r; auto|]. injection E' as E1 E2. subst a. exfalso. apply T. apply in_or_app. right. left. reflexivity.
  - destruct e as [|a e]; cbn [app] in E'; [injection E' as ->; rewrite app_nil_r; auto|]. injection E' as E1 E2. subst a. exfalso. apply HA. rewrite E2. apply in_or_app. right. left. reflexivity.
Qed.
Lemma close_reach : forall q t A p c y, ~ In q t -> ~ In q A -> q <> NLc -> forall u s, (forall a, In a u -> a <> q) -> t ++ q :: A = u ++ s ->
  reach (Seq (Star true dot) (lit q)) (p, s, c) y -> y = (p + length (t ++ [q]) - length u, A, c) /\ length u <= length t.
Proof.
  intros q t A p c y T HA HN u s U E H. apply reach_seq in H. destruct H as (z & H1 & H2). unfold dot in H1. apply reach_star_chr in H1.
  destruct H1 as (w & s' & -> & W & ->). apply reach_lit in H2. destruct H2 as (s2 & -> & ->).
  rewrite app_assoc in E. symmetry in E. destruct (one_close (u ++ w) [] s2 t A q E T HA) as [<- ->].
  rewrite !app_length. cbn [length]. split; [f_equal; f_equal; lia|lia].
Qed.
Lemma opt_lit_u : forall n k p s c y, reach (Opt (Grp n (lit k))) (p, s, c) y ->
  exists u s' c', s = u ++ s' /\ (forall a, In a u -> a = k) /\ y = (p + length u, s', c') /\ (forall j, j <> n -> cap j c' = cap j c).
Proof.
  intros n k p s c y H. apply reach_opt in H. destruct H as [H| ->].
  - apply reach_grp in H. destruct H as (p' & s' & c' & H & ->). apply reach_lit in H. destruct H as (s2 & -> & E). injection E as -> -> ->.
    exists [k], s2. eexists. split; [reflexivity|]. split; [intros a [<-|[]]; reflexivity|]. split; [cbn [length]; rewrite Nat.add_1_r; reflexivity|].
    intros j Hj. cbn [cap]. destruct (Nat.eqb_spec n j); [congruence|reflexivity].
  - exists [], s, c. cbn [length]. rewrite Nat.add_0_r. split; [reflexivity|]. split; [intros a []|]. auto.
Qed.
Definition cond_re : re :=
  Cond gNUM Eps (Cond gF1 (Seq (Star true dot) (lit "034"))
    (Cond gF2 (Seq (Star true dot) (lit "'"))
       (Cond gF3 (Seq (Star true dot) (lit "}")) (Star true (Chr (fun c => negb (is_space c))))))).
Lemma cond_pick : forall i q p s c y, (i = gF1 /\ q = "034"%char) \/ (i = gF2 /\ q = "'"%char /\ cap gF1 c = None) \/ (i = gF3 /\ q = "}"%char /\ cap gF1 c = None /\ cap gF2 c = None) ->
  cap gNUM c = None -> cap i c <> None -> reach cond_re (p, s, c) y <-> reach (Seq (Star true dot) (lit q)) (p, s, c) y.
Proof.
  intros i q p s c y Hi HN HS. unfold cond_re. rewrite reach_cond. rewrite HN.
  assert (forall A B : Prop, ((None (A := nat * nat) <> None /\ A) \/ (None (A := nat * nat) = None /\ B)) <-> B) as X by (intros A B; split; [intros [[F _]|[_ G]]; [contradiction F; reflexivity|exact G]|intros G; right; auto]).
  assert (forall (o : option (nat * nat)) (A B : Prop), o <> None -> ((o <> None /\ A) \/ (o = None /\ B)) <-> A) as Y by (intros o A B N; split; [intros [[_ G]|[F _]]; [exact G|contradiction]|intros G; left; auto]).
  rewrite X, reach_cond. destruct Hi as [[-> ->]|[(-> & -> & H1)|(-> & -> & H1 & H2)]].
  - apply Y. exact HS.
  - rewrite H1, X, reach_cond. apply Y. exact HS.
  - rewrite H1, X, reach_cond, H2, X, reach_cond. apply Y. exact HS.
Qed.
Lemma no_number : forall (R : Type) suffix p o s c (k : @kont R), In o ["{"; "'"; "034"]%char -> m (Opt (Grp gNUM (number_re suffix))) p (o :: s) c k = k p (o :: s) c.
Proof.
  intros R suffix p o s c k Ho. apply m_opt_no. rewrite m_grp. apply m_none_iff. intros p' s' c' H. exfalso.
  destruct (number_start _ _ _ _ _ H) as (a & r & E & A). injection E as <- _. destruct Ho as [<-|[<-|[<-|[]]]]; discriminate.
Qed.
Lemma m_opt_lit_yes : forall (R : Type) n q p s c (k : @kont R) y, k (S p) s ((n, (p, S p)) :: c) = Some y -> m (Opt (Grp n (lit q))) p (q :: s) c k = Some y.
Proof. intros R n q p s c k y H. apply m_opt_yes. rewrite m_grp. unfold lit. rewrite m_chr_ok by apply aeqb_refl. exact H. Qed.
Lemma m_opt_lit_no : forall (R : Type) n q a p s c (k : @kont R), aeqb a q = false -> m (Opt (Grp n (lit q))) p (a :: s) c k = k p (a :: s) c.
Proof. intros R n q a p s c k H. apply m_opt_no. rewrite m_grp. unfold lit. apply m_chr_no. exact H. Qed.

Lemma close_ex : forall q t A p c, (forall a, In a t -> a <> NLc) -> reach (Seq (Star true dot) (lit q)) (p, (t ++ [q]) ++ A, c) (p + length (t ++ [q]), A, c).
Proof.
  intros q t A p c T. rewrite <- app_assoc. apply reach_seq. exists (p + length t, q :: A, c). split.
  - unfold dot. apply reach_star_chr. exists t, (q :: A). split; [reflexivity|]. split; [|reflexivity]. apply forallb_forall. intros a Ha. unfold not_nl.
    rewrite negb_true_iff, aeqb_neq. apply T. exact Ha.
  - apply reach_lit. exists A. split; [reflexivity|]. rewrite app_length. cbn [length]. f_equal. f_equal. lia.
Qed.
Lemma close_at : forall q t A p c y, ~ In q t -> ~ In q A -> forall u s, (forall a, In a u -> a <> q) -> (t ++ [q]) ++ A = u ++ s ->
  reach (Seq (Star true dot) (lit q)) (p + length u, s, c) y -> y = (p + length (t ++ [q]), A, c).
Proof.
  intros q t A p c y T HA u s U E H. rewrite <- app_assoc in E. cbn [app] in E. apply reach_seq in H. destruct H as (z & H1 & H2). unfold dot in H1. apply reach_star_chr in H1.
  destruct H1 as (w & s' & -> & W & ->). apply reach_lit in H2. destruct H2 as (s2 & -> & ->).
  assert ((u ++ w) ++ q :: s2 = t ++ q :: A) as E9 by (rewrite <- app_assoc; symmetry; exact E). destruct (one_close (u ++ w) [] s2 t A q E9 T HA) as [<- ->].
  rewrite !app_length. cbn [length]. f_equal. f_equal. lia.
Qed.
Lemma expression_match : forall suffix v l tb cm p c p0, gids suffix = [] -> plain_caps c -> plist_ok l -> tail_ok tb cm ->
  (forall a, In a v -> a <> NLc) -> expression_value v (ptext l ++ tb ++ cm) ->
  exists y, m (body_re suffix) p (v ++ ptext l ++ tb ++ cm) c (fun p' s' c' => m param_re p' s' ((gVAL, (p0, p')) :: c') fin) = Some y /\
    exists u w, tb = u ++ w /\ (l = [] -> u = []) /\ found c p0 (p + length v) (p + length v + length (ptext l ++ u)) y.
Proof.
  intros suffix v l tb cm p c p0 HG (C1 & C2 & C3 & C4) Hl Ht NLv (o & q & t & Hd & Ev & T & HA).
  assert (forall a, In a t -> a <> NLc) as NLt by (intros a Ha; apply NLv; rewrite Ev; right; apply in_or_app; left; exact Ha).
  rewrite Ev. cbn [app length]. rewrite <- Nat.add_succ_comm.
  (* the group that is taken, and what remains of the pattern *)
  assert (exists i r, (i = gF1 \/ i = gF2 \/ i = gF3) /\ (forall n, In n [gDES; gNODES; gVAL; gPAR] -> ~ In n (gids r)) /\
            (forall s (k : @kont (nat * caps)) y, m r (S p) s ((i, (p, S p)) :: c) k = Some y -> m (body_re suffix) p (o :: s) c k = Some y) /\
            (forall s p' s' c', s = (t ++ [q]) ++ ptext l ++ tb ++ cm -> reach r (S p, s, (i, (p, S p)) :: c) (p', s', c') -> s' = ptext l ++ tb ++ cm /\ p' = S p + length (t ++ [q])) /\
            (exists c', reach r (S p, (t ++ [q]) ++ ptext l ++ tb ++ cm, (i, (p, S p)) :: c) (S p + length (t ++ [q]), ptext l ++ tb ++ cm, c'))) as (i & r & Hi & HR & HM & HU & HE).
  { assert (In o ["{"; "'"; "034"]%char) as Ho by (destruct Hd as [E|[E|[E|[]]]]; injection E as <- <-; cbn [In]; auto).
    destruct Hd as [E|[E|[E|[]]]]; injection E as <- <-.
    - (* braces *) exists gF3, cond_re. split; [auto|]. split; [intros n Hn; cbn in *; unfold gDES, gNODES, gVAL, gPAR in *; lia|]. split; [|split].
      + intros s k y H. unfold body_re. cbn [seqs]. rewrite m_seq, no_number by exact Ho. rewrite m_seq, m_opt_lit_no by reflexivity. rewrite m_seq, m_opt_lit_no by reflexivity.
        rewrite m_seq. apply m_opt_lit_yes. exact H.
      + intros s p' s' c' -> H. rewrite (cond_pick gF3 "}"%char) in H; [|right; right; repeat split; assumption|exact C1|cbn; discriminate].
        rewrite <- (Nat.add_0_r (S p)) in H. pose proof (close_at "}"%char t _ (S p) _ _ T HA [] _ ltac:(intros a []) eq_refl H) as E. injection E as -> -> ->. auto.
      + eexists. apply (cond_pick gF3 "}"%char); [right; right; repeat split; assumption|exact C1|cbn; discriminate|]. apply close_ex. exact NLt.
    - (* single quotes *) exists gF2, (Seq (Opt (Grp gF3 (lit "{"))) cond_re). split; [auto|]. split; [intros n Hn; cbn in *; unfold gDES, gNODES, gVAL, gPAR, gF3 in *; lia|]. split; [|split].
      + intros s k y H. unfold body_re. cbn [seqs]. rewrite m_seq, no_number by exact Ho. rewrite m_seq, m_opt_lit_no by reflexivity. rewrite m_seq. apply m_opt_lit_yes. exact H.
      + intros s p' s' c' -> H. apply reach_seq in H. destruct H as (z & H1 & H). destruct (opt_lit_u _ _ _ _ _ _ H1) as (u & s2 & c2 & E & U & -> & K).
        rewrite (cond_pick gF2 "'"%char) in H; [|right; left; split; [reflexivity|split; [reflexivity|rewrite K by discriminate; exact C2]]|rewrite K by discriminate; exact C1|rewrite K by discriminate; cbn; discriminate].
        pose proof (close_at "'"%char t _ (S p) _ _ T HA u s2 ltac:(intros a Ha; rewrite (U a Ha); discriminate) E H) as E2. injection E2 as -> -> ->. auto.
      + eexists. apply reach_seq. eexists. split; [apply reach_opt; right; reflexivity|].
        apply (cond_pick gF2 "'"%char); [right; left; repeat split; assumption|exact C1|cbn; discriminate|]. apply close_ex. exact NLt.
    - (* double quotes *) exists gF1, (Seq (Opt (Grp gF2 (lit "'"))) (Seq (Opt (Grp gF3 (lit "{"))) cond_re)). split; [auto|].
      split; [intros n Hn; cbn in *; unfold gDES, gNODES, gVAL, gPAR, gF3, gF2 in *; lia|]. split; [|split].
      + intros s k y H. unfold body_re. cbn [seqs]. rewrite m_seq, no_number by exact Ho. rewrite m_seq. apply m_opt_lit_yes. exact H.
      + intros s p' s' c' -> H. apply reach_seq in H. destruct H as (z & H1 & H). destruct (opt_lit_u _ _ _ _ _ _ H1) as (u & s2 & c2 & E & U & -> & K).
        apply reach_seq in H. destruct H as (z & H2 & H). destruct (opt_lit_u _ _ _ _ _ _ H2) as (u2 & s3 & c3 & E3 & U2 & -> & K2).
        rewrite (cond_pick gF1 "034"%char) in H; [|left; auto|rewrite K2, K by discriminate; exact C1|rewrite K2, K by discriminate; cbn; discriminate].
        rewrite <- Nat.add_assoc, <- app_length in H. rewrite E3, (app_assoc u) in E.
        pose proof (close_at "034"%char t _ (S p) _ _ T HA (u ++ u2) s3 ltac:(intros a Ha; apply in_app_iff in Ha; destruct Ha as [Ha|Ha]; [rewrite (U a Ha)|rewrite (U2 a Ha)]; discriminate) E H) as E2. injection E2 as -> -> ->. auto.
      + eexists. apply reach_seq. eexists. split; [apply reach_opt; right; reflexivity|]. apply reach_seq. eexists. split; [apply reach_opt; right; reflexivity|].
        apply (cond_pick gF1 "034"%char); [left; auto|exact C1|cbn; discriminate|]. apply close_ex. exact NLt. }
  destruct (body_all r (t ++ [q]) l tb cm (S p) ((i, (p, S p)) :: c) HR Hl Ht) with (p0 := p0) as (y & Y1 & u & w & Y2 & Y3 & Y4).
  - intros p' s' c' H. right. apply (HU _ p' s' c' eq_refl H).
  - exact HE.
  - exists y. split; [apply HM; exact Y1|]. exists u, w. split; [exact Y2|]. split; [exact Y3|].
    unfold found in *. cbn [cap] in Y4. destruct Hi as [-> |[-> | ->]]; exact Y4.
Qed.

Definition assign_re (x : ascii) : re := seqs [ichar x; Opt (Chr is_space); lit "="; Opt (Chr is_space)].
Lemma assign_none : forall (R : Type) x v l tb cm p c (k : @kont R), plist_ok l -> tail_ok tb cm -> v <> [] ->
  (forall a, In a v -> is_space a = false /\ a <> "="%char) -> m (assign_re x) p (v ++ ptext l ++ tb ++ cm) c k = None.
Proof.
  intros R x v l tb cm p c k Hl Ht NV V. apply m_none_iff. intros p' s' c' H. exfalso. unfold assign_re in H. cbn [seqs] in H.
  destruct v as [|v0 v]; [contradiction|]. cbn [app] in H. apply reach_seq in H. destruct H as (z & H1 & H). unfold ichar in H1. apply reach_chr in H1.
  destruct H1 as (a & s1 & E & _ & ->). injection E as <- <-. pose proof (tail_boe l tb cm Hl Ht) as HB.
  apply reach_seq in H. destruct H as (z & H2 & H). apply reach_seq in H. destruct H as (z' & H3 & _).
  apply reach_opt in H2. destruct H2 as [H2| ->].
  - apply reach_chr in H2. destruct H2 as (b & s2 & E & B & ->). apply reach_lit in H3. destruct H3 as (s3 & -> & _).
    destruct v as [|v1 v]; cbn [app] in E.
    + destruct (tail_shape l tb cm Hl Ht) as [(b0 & s & E2 & B0 & S)|(b0 & n & b1 & s & E2 & NB & NN & B0 & N & B1)]; rewrite E in E2.
      * assert (match s with a :: _ => is_space a = false | [] => True end) as S' by (destruct s; [exact I|subst; reflexivity]).
        destruct (cut_class is_space [b] ("="%char :: s3) b0 s E2) as [_ <-]; [cbn [forallb]; rewrite B; reflexivity|exact B0|reflexivity|exact S'|discriminate S].
      * destruct (cut_class is_space [b] ("="%char :: s3) b0 _ E2) as [_ E3]; [cbn [forallb]; rewrite B; reflexivity|exact B0|reflexivity|apply word_head; assumption|].
        destruct n as [|a n]; [contradiction|]. injection E3 as <- _. discriminate N.
    + injection E as -> _. destruct (V b) as [V1 _]; [right; left; reflexivity|]. congruence.
  - apply reach_lit in H3. destruct H3 as (s3 & E & _). destruct v as [|v1 v]; cbn [app] in E.
    + rewrite E in HB. discriminate HB.
    + injection E as -> _. destruct (V "="%char) as [_ V1]; [right; left; reflexivity|]. congruence.
Qed.
Lemma m_opt_none : forall (R : Type) a p s c (k : @kont R), (forall k' : @kont R, m a p s c k' = None) -> m (Opt a) p s c k = k p s c.
Proof. intros R a p s c k H. apply m_opt_no. apply H. Qed.
Lemma passive_match : forall x suffix gap v l tb cm p c, In x (s2l "RLC") -> only nsp suffix -> gids suffix = [] -> plain_caps c -> plist_ok l -> tail_ok tb cm ->
  gap <> [] -> forallb is_space gap = true -> (forall a, In a v -> a <> NLc) -> simple_value v \/ expression_value v (ptext l ++ tb ++ cm) ->
  exists y u w, tb = u ++ w /\ (l = [] -> u = []) /\ m (Seq (value_re x suffix) param_re) p (gap ++ v ++ ptext l ++ tb ++ cm) c fin = Some y /\
    found c (p + length gap) (p + length gap + length v) (p + length gap + length v + length (ptext l ++ u)) y.
Proof.
  intros x suffix gap v l tb cm p c Hx HS HG HC Hl Ht NG G NLv HV.
  assert (exists y, m (body_re suffix) (p + length gap) (v ++ ptext l ++ tb ++ cm) c (fun p' s' c' => m param_re p' s' ((gVAL, (p + length gap, p')) :: c') fin) = Some y /\
    exists u w, tb = u ++ w /\ (l = [] -> u = []) /\ found c (p + length gap) (p + length gap + length v) (p + length gap + length v + length (ptext l ++ u)) y) as (y & Y1 & u & w & Y2 & Y3 & Y4).
  { destruct HV as [HV|HV]; [apply simple_match|apply expression_match]; assumption. }
  exists y, u, w. split; [exact Y2|]. split; [exact Y3|]. split; [|exact Y4].
  rewrite m_seq, value_re_eq, m_seq. apply m_sp1_all; [exact NG|exact G| |].
  - destruct HV as [(NV & V & _)|(o & q & t & Hd & -> & _)].
    + destruct v as [|a v]; [contradiction|]. apply (V a). left. reflexivity.
    + destruct Hd as [E|[E|[E|[]]]]; injection E as <- <-; reflexivity.
  - rewrite m_seq. fold (assign_re x). rewrite m_opt_none; [rewrite m_grp; exact Y1|]. intros k'.
    destruct HV as [(NV & V & _)|(o & q & t & Hd & -> & _)].
    + apply assign_none; [exact Hl|exact Ht|exact NV|]. intros a Ha. destruct (V a Ha) as (V1 & V2 & _). auto.
    + unfold assign_re. cbn [seqs app]. rewrite m_seq. unfold ichar. apply m_chr_no.
      destruct Hx as [<-|[<-|[<-|[]]]]; destruct Hd as [E|[E|[E|[]]]]; injection E as <- <-; reflexivity.
Qed.

(** sources: the shortest value after which only parameters follow *)
Lemma m_lazy : forall (R : Type) f w p s c (k : @kont R) x, forallb f w = true ->
  (forall a b, w = a ++ b -> b <> [] -> k (p + length a) (b ++ s) c = None) -> k (p + length w) s c = Some x -> m (Star false (Chr f)) p (w ++ s) c k = Some x.
Proof.
  intros R f w p s c k x W HN HK. cbn [m].
  assert (forall n, length (w ++ s) <= n -> star (m (Chr f)) false n p (w ++ s) c k = Some x) as X; [|apply X; apply le_n].
  revert p HN HK W. induction w as [|a w IH]; intros p HN HK W n Hn.
  - cbn [app length] in *. rewrite Nat.add_0_r in HK. destruct n as [|n]; cbn [star]; [exact HK|]. rewrite HK. reflexivity.
  - cbn [forallb] in W. apply andb_true_iff in W. destruct W as [Wa W]. destruct n as [|n]; [cbn [app length] in Hn; lia|]. cbn [star].
    pose proof (HN [] (a :: w) eq_refl ltac:(discriminate)) as H0. cbn [length] in H0. rewrite Nat.add_0_r in H0. rewrite H0. cbn [app m]. rewrite Wa. cbn [length].
    destruct (Nat.ltb_spec (length (w ++ s)) (S (length (w ++ s)))); [|lia]. apply IH.
    + intros u b E Nb. specialize (HN (a :: u) b). cbn [app length] in HN. rewrite <- Nat.add_succ_comm in HN. apply HN; [rewrite E; reflexivity|exact Nb].
    + cbn [length] in HK. rewrite <- Nat.add_succ_comm in HK. exact HK.
    + exact W.
    + cbn [app length] in Hn. lia.
Qed.
Lemma src_none : forall (R : Type) r d l tb cm p c (k : @kont R), plist_ok l -> tail_ok tb cm -> is_space d = false ->
  (forall a, In a (r ++ [d]) -> a <> "="%char /\ a <> ";"%char /\ a <> "\"%char) ->
  m (Seq (Grp gPAR (Star true item_src_re)) comment_re) p ((r ++ [d]) ++ ptext l ++ tb ++ cm) c k = None.
Proof.
  intros R r d l tb cm p c k Hl Ht D V. apply m_none_iff. intros p' s' c' H. exfalso. apply reach_seq in H. destruct H as (z & H1 & H2).
  apply reach_grp in H1. destruct H1 as (p1 & s1 & c1 & H1 & ->).
  assert (~ In ";"%char (r ++ [d]) /\ ~ In "\"%char (r ++ [d])) as [V1 V2].
  { split; intros G; destruct (V _ G) as (A & B & C); [apply B|apply C]; reflexivity. }
  apply reach_star in H1. destruct H1 as [E|(z & H1 & _ & _)].
  - injection E as -> -> ->. rewrite (app_assoc (ptext l)) in H2. 
    assert (forall q X, reach comment_re (q, (r ++ [d]) ++ X, (gPAR, (p, q)) :: c) (p', s', c') -> False) as F.
    { intros q X HX. apply (comment_not_inside r d X [] q ((gPAR, (p, q)) :: c) (p', s', c')); try assumption. rewrite app_nil_r. exact HX. }
    exact (F _ _ H2).
  - unfold item_src_re in H1. cbn [seqs] in H1. apply reach_seq in H1. destruct H1 as (z1 & A1 & H1). apply reach_sp1 in A1. destruct A1 as (b & t1 & E1 & NB & B & ->).
    apply reach_seq in H1. destruct H1 as (z2 & A2 & H1). unfold word1 in A2. apply reach_plus_run in A2. destruct A2 as (w & t2 & -> & NW & W & ->).
    apply reach_seq in H1. destruct H1 as (z3 & A3 & H1). apply reach_sp0 in A3. destruct A3 as (b2 & t3 & -> & B2 & ->).
    apply reach_seq in H1. destruct H1 as (z4 & A4 & H1). apply reach_lit in A4. destruct A4 as (t4 & -> & _).
    (* the '=' lies after [d], so blanks, a word and blanks cover [d] and what follows up to '=' *)
    assert ((r ++ [d]) ++ ptext l ++ tb ++ cm = (b ++ w ++ b2) ++ "="%char :: t4) as E2 by (rewrite E1, <- !app_assoc; reflexivity).
    assert (exists e, b ++ w ++ b2 = (r ++ [d]) ++ e /\ ptext l ++ tb ++ cm = e ++ "="%char :: t4) as (e & E3 & E4).
    { destruct (app_cut _ _ _ _ E2) as [(e & A & C)|(e & A & C)]; [eauto|]. destruct e as [|a e].
      - exists []. rewrite app_nil_r in *. cbn [app] in *. auto.
      - injection C as <- _. exfalso. destruct (V "="%char) as [X _]; [rewrite A; apply in_or_app; right; left; reflexivity|]. apply X. reflexivity. }
    destruct (tail_shape l tb cm Hl Ht) as [(b0 & s & E5 & B0 & S)|(b0 & n & b1 & s & E5 & NB0 & NN & B0 & N & B1)].
    + (* '=' only after ';', but blanks and a word do not contain ';' *)
      rewrite E5 in E4. destruct (app_cut _ _ _ _ E4) as [(f & -> & E6)|(f & -> & E6)].
      * destruct f as [|x f]; [rewrite E6 in S; discriminate S|]. rewrite E6 in S. cbn [app] in S. subst x.
        assert (In ";"%char (b ++ w ++ b2)) as G by (rewrite E3; apply in_or_app; right; apply in_or_app; right; left; reflexivity).
        rewrite !in_app_iff in G. rewrite forallb_forall in B, W, B2. destruct G as [G|[G|G]]; [specialize (B _ G)|specialize (W _ G)|specialize (B2 _ G)]; discriminate.
      * destruct f as [|x f]; cbn [app] in E6; [rewrite <- E6 in S; discriminate S|]. injection E6 as <- _. rewrite forallb_app in B0. apply andb_true_iff in B0. destruct B0 as [_ B0]. discriminate B0.
    + (* e = b0 ++ n ++ b1: a blank, and then a word, after [d] *)
      rewrite E5 in E4.
      assert (e = b0 ++ n ++ b1) as ->.
      { assert ((b0 ++ n ++ b1) ++ "="%char :: s = e ++ "="%char :: t4) as E7 by (rewrite <- !app_assoc; exact E4).
        assert (forall X, forallb (fun a => is_space a || is_word a) X = true -> ~ In "="%char X) as NE by (intros X HX G; rewrite forallb_forall in HX; specialize (HX _ G); discriminate).
        assert (forallb (fun a => is_space a || is_word a) (b ++ w ++ b2) = true) as C1.
        { rewrite !forallb_app, !andb_true_iff. split; [|split]; eapply forallb_impl; try eassumption; intros a Ha; cbv beta; rewrite Ha; auto using orb_true_r. }
        assert (forallb (fun a => is_space a || is_word a) (b0 ++ n ++ b1) = true) as C2.
        { rewrite !forallb_app, !andb_true_iff. split; [|split]; eapply forallb_impl; try eassumption; intros a Ha; cbv beta; rewrite Ha; auto using orb_true_r. }
        rewrite E3, forallb_app in C1. apply andb_true_iff in C1. destruct C1 as [_ C1].
        destruct (cut_class (fun a => is_space a || is_word a) _ _ _ _ E7 C2 C1 eq_refl eq_refl) as [-> _]. reflexivity. }
      (* the word [w] cannot contain a blank, so b covers up to a point and w is then inside ... *)
      destruct n as [|n0 n]; [contradiction|]. cbn [forallb] in N. apply andb_true_iff in N. destruct N as [N0 N]. destruct (word_facts _ N0) as [N1 _].
      destruct b0 as [|c0 b0]; [contradiction|]. cbn [forallb] in B0. apply andb_true_iff in B0. destruct B0 as [C0 B0].
      assert (~ In d b) as Db by (intros G; rewrite forallb_forall in B; specialize (B _ G); congruence).
      assert (b ++ w ++ b2 = (r ++ [d]) ++ (c0 :: b0) ++ (n0 :: n) ++ b1) as E8 by exact E3. clear E3.
      destruct (app_cut _ _ _ _ E8) as [(f & F1 & F2)|(f & F1 & F2)].
      2: { apply Db. rewrite F1. apply in_or_app. left. apply in_or_app. right. left. reflexivity. }
      assert (exists f', f = f' ++ [d]) as [f' ->].
      { destruct f as [|x f0] eqn:Ef; [rewrite app_nil_r in F1; exfalso; apply Db; rewrite <- F1; apply in_or_app; right; left; reflexivity|].
        destruct (@exists_last _ (x :: f0) ltac:(discriminate)) as (f' & y & Ey). rewrite Ey in *. rewrite app_assoc in F1. apply app_inj_tail in F1. destruct F1 as [_ <-]. eauto. }
      (* w ++ b2 = f' ++ [d] ++ c0 :: b0 ++ n0 ... : d is in w, c0 is not *)
      destruct (app_cut _ _ _ _ F2) as [(g & G1 & G2)|(g & G1 & G2)].
      * destruct g as [|x g]; [|].
        -- (* w = f' ++ [d] *) cbn [app] in G2. rewrite forallb_forall in B2. specialize (B2 n0). rewrite G2 in B2. rewrite B2 in N1; [discriminate|].
           right. apply in_or_app. right. left. reflexivity.
        -- (* w is shorter: then d is in b2 *) destruct (@exists_last _ (x :: g) ltac:(discriminate)) as (g' & y & Ey). rewrite Ey in *. rewrite app_assoc in G1. apply app_inj_tail in G1. destruct G1 as [_ <-].
           rewrite forallb_forall in B2. rewrite (B2 d) in D; [discriminate|]. rewrite G2. apply in_or_app. left. apply in_or_app. right. left. reflexivity.
      * destruct g as [|x g].
        -- cbn [app] in G2. rewrite forallb_forall in B2. rewrite (B2 n0) in N1; [discriminate|]. rewrite <- G2. right. apply in_or_app. right. left. reflexivity.
        -- cbn [app] in G2. injection G2 as -> _. rewrite G1 in W. rewrite forallb_app in W. apply andb_true_iff in W. destruct W as [_ W]. cbn [forallb] in W. apply andb_true_iff in W.
           destruct W as [W _]. destruct (word_facts _ W) as [X _]. congruence.
Qed.
Lemma source_match : forall gap v l tb cm p c, plist_ok l -> tail_ok tb cm -> gap <> [] -> forallb is_space gap = true ->
  value_ok Source v [] -> (forall a, In a v -> a <> NLc) ->
  exists y u w, tb = u ++ w /\ (l = [] -> u = []) /\ m (Seq maybe_value_re (Seq source_params_re comment_re)) p (gap ++ v ++ ptext l ++ tb ++ cm) c fin = Some y /\
    found c (p + length gap) (p + length gap + length v) (p + length gap + length v + length (ptext l ++ u)) y.
Proof.
  intros gap v l tb cm p c Hl Ht NG G [[(v0 & vr & E0 & V0) (vl & vi & E1 & VL)] V] NLv.
  destruct (params_match item_src_re l tb cm (p + length gap + length v) ((gVAL, (p + length gap, p + length gap + length v)) :: c) (or_intror eq_refl) Hl Ht) as (e & u & w & X1 & X2 & X3).
  eexists (e, _), u, w. split; [exact X1|]. split; [exact X2|]. split.
  - rewrite m_seq. unfold maybe_value_re. rewrite m_seq. apply m_sp1_all; [exact NG|exact G|rewrite E0; exact V0|]. rewrite m_grp. unfold dot.
    apply m_lazy.
    + apply forallb_forall. intros a Ha. unfold not_nl. rewrite negb_true_iff, aeqb_neq. apply NLv. exact Ha.
    + intros a b Ev Nb. assert (exists b', b = b' ++ [vl]) as [b' ->].
      { destruct (@exists_last _ b Nb) as (b' & y & ->). rewrite E1, app_assoc in Ev. apply app_inj_tail in Ev. destruct Ev as [_ <-]. eauto. }
      apply src_none; [exact Hl|exact Ht|exact VL|]. intros x Hx. apply V. rewrite Ev. apply in_or_app. right. exact Hx.
    + exact X3.
  - unfold found. cbn [snd cap Nat.eqb gPAR gVAL gDES gNODES]. auto.
Qed.
(** controlled sources and switches: everything up to the end of the line *)
Lemma controlled_match : forall gap v u z p c, gap <> [] -> forallb is_space gap = true -> trimmed v -> (forall a, In a v -> a <> NLc) ->
  forallb is_space u = true -> (forall a, In a u -> a <> NLc) -> z = [] \/ z = [NLc] ->
  exists y, m any_value_re p (gap ++ v ++ u ++ z) c fin = Some y /\
    cap gDES (snd y) = cap gDES c /\ cap gNODES (snd y) = cap gNODES c /\ cap gVAL (snd y) = Some (p + length gap, p + length gap + length (v ++ u)) /\ cap gPAR (snd y) = cap gPAR c.
Proof.
  intros gap v u z p c NG G [(v0 & vr & E0 & V0) _] NLv U NLu Hz.
  destruct (m_all _ (fun y => snd y = (gVAL, (p + length gap, p + length gap + length (v ++ u))) :: c) comment_re (p + length gap + length (v ++ u)) z ((gVAL, (p + length gap, p + length gap + length (v ++ u))) :: c) fin) as ([e c2] & Y1 & Y2).
  - intros p' s' c' y H [= <-]. pose proof (reach_nocaps _ _ _ H comment_gids) as C2. exact C2.
  - destruct (comment_ok (p + length gap + length (v ++ u)) z [] ((gVAL, (p + length gap, p + length gap + length (v ++ u))) :: c)) as ([[p2 s2] c2] & H2 & _).
    + split; [destruct Hz as [-> | ->]; reflexivity|left; reflexivity].
    + rewrite app_nil_r in H2. exists p2, s2, c2. eexists. split; [exact H2|reflexivity].
  - exists (e, c2). split.
    + unfold any_value_re. cbn [seqs]. rewrite m_seq. apply m_sp1_all; [exact NG|exact G|rewrite E0; exact V0|]. rewrite m_seq, m_grp, app_assoc. unfold dot.
      apply m_star_all; [| |exact Y1].
      * apply forallb_forall. intros a Ha. unfold not_nl. rewrite negb_true_iff, aeqb_neq. apply in_app_iff in Ha. destruct Ha; [apply NLv|apply NLu]; assumption.
      * destruct Hz as [-> | ->]; [exact I|reflexivity].
    + cbn [snd] in *. subst c2. cbn [cap Nat.eqb gPAR gVAL gDES gNODES]. auto.
Qed.

(** ** All together *)
Definition head_text (x : ascii) (name : str) (nodes : list (str * str)) : str := x :: name ++ nodes_text nodes.
Definition groups (d e a b : nat) (q : option (nat * nat)) (y : nat * caps) : Prop :=
  cap gDES (snd y) = Some (0, d) /\ cap gNODES (snd y) = Some (d, e) /\ cap gVAL (snd y) = Some (a, b) /\
  cap gPAR (snd y) = q.
Lemma found_groups : forall d e a b q y, found [(gNODES, (d, e)); (gDES, (0, d))] a b q y -> groups d e a b (Some (b, q)) y.
Proof. intros d e a b q y (A & B & C & D). split; [exact A|]. split; [exact B|]. split; [exact C|exact D]. Qed.

Lemma suffix_only : forall x r, In x (s2l "RLC") -> regex_of x = Some r -> exists suffix, r = Seq (prefix_nodes x 2 0) (Seq (value_re x suffix) param_re) /\ only nsp suffix /\ gids suffix = [].
Proof.
  assert (forall a, is_digit a = true -> nsp a = true) as A2 by (apply imp_sweep; vm_cast_no_check (eq_refl true)).
  assert (forall l : str, forallb (fun a => implb (mem_c (upper_c a) (upper l)) (nsp a)) all_chars = true -> forall a, mem_c (upper_c a) (upper l) = true -> nsp a = true) as A1
    by (intros l; apply (imp_sweep (fun a => mem_c (upper_c a) (upper l)))).
  assert (forall x, forallb (fun a => implb (aeqb (upper_c a) (upper_c x)) (nsp a)) all_chars = true -> forall a, aeqb (upper_c a) (upper_c x) = true -> nsp a = true) as A3
    by (intros x; apply (imp_sweep (fun a => aeqb (upper_c a) (upper_c x)))).
  assert (forall l, forallb (fun a => implb (mem_c (upper_c a) (upper (l ++ [MICRO]))) (nsp a)) all_chars = true -> only nsp (meg_or l)) as A4.
  { intros l H. unfold meg_or, Opt, ilit, ioneof. cbn [only]. split; [split; [|apply A1; exact H]|exact I].
    change (map ichar (s2l "Meg")) with [ichar "M"; ichar "e"; ichar "g"]. cbn [seqs only]. unfold ichar. cbn [only].
    split; [|split]; apply A3; vm_cast_no_check (eq_refl true). }
  intros x r Hx Hr. destruct Hx as [<-|[<-|[<-|[]]]]; injection Hr as <-; (eexists; split; [reflexivity|]); (split; [|reflexivity]); cbn [seqs only Opt].
  - split; [apply A4; vm_cast_no_check (eq_refl true)|]. split; [|exact A2]. split; [|exact I]. unfold ichar. cbn [only]. apply A3. vm_cast_no_check (eq_refl true).
  - split; [apply A4; vm_cast_no_check (eq_refl true)|]. split; [|exact A2]. split; [|exact I]. unfold ichar. cbn [only]. apply A3. vm_cast_no_check (eq_refl true).
  - split; [|split; [|exact A2]]; (split; [|exact I]); unfold ichar, ioneof; cbn [only]; [apply A1|apply A3]; vm_cast_no_check (eq_refl true).
Qed.
Lemma device_regex : forall x lo hi, family_of x = Some (Device, lo, hi) -> regex_of x = Some (Seq (prefix_nodes x lo (hi - lo)) (Seq model_re param_re)).
Proof.
  intros x lo hi H. assert (existsb (aeqb x) (s2l "DJUZOMQYNP") = true) as Hx.
  { revert H. unfold family_of. repeat match goal with |- context [if ?c then _ else _] => destruct c eqn:? end; intros H; try discriminate H; injection H as <- <-;
      match goal with E : mem_c x ?l = true |- _ => apply mem_c_In in E; vm_compute in E; repeat (destruct E as [<-|E]; [reflexivity|]); destruct E end. }
  apply mem_c_In in Hx. vm_compute in Hx.
  repeat (destruct Hx as [<-|Hx]; [injection H as <- <-; reflexivity|]). destruct Hx.
Qed.
Lemma source_regex : forall x lo hi, family_of x = Some (Source, lo, hi) -> lo = 2 /\ hi = 2 /\ regex_of x = Some (Seq (prefix_nodes x 2 0) (Seq maybe_value_re (Seq source_params_re comment_re))).
Proof.
  intros x lo hi H. assert (existsb (aeqb x) (s2l "VI") = true) as Hx.
  { revert H. unfold family_of. repeat match goal with |- context [if ?c then _ else _] => destruct c eqn:? end; intros H; try discriminate H; assumption. }
  apply mem_c_In in Hx. vm_compute in Hx.
  repeat (destruct Hx as [<-|Hx]; [injection H as <- <-; auto|]). destruct Hx.
Qed.
Lemma controlled_regex : forall x lo hi, family_of x = Some (Controlled, lo, hi) -> hi = lo /\ regex_of x = Some (Seq (prefix_nodes x lo 0) any_value_re).
Proof.
  intros x lo hi H. assert (existsb (aeqb x) (s2l "EFGHSW") = true) as Hx.
  { revert H. unfold family_of. repeat match goal with |- context [if ?c then _ else _] => destruct c eqn:? end; intros H; try discriminate H; injection H as <- <-;
      match goal with E : mem_c x ?l = true |- _ => apply mem_c_In in E; vm_compute in E; repeat (destruct E as [<-|E]; [reflexivity|]); destruct E end. }
  apply mem_c_In in Hx. vm_compute in Hx.
  repeat (destruct Hx as [<-|Hx]; [injection H as <- <-; auto|]). destruct Hx.
Qed.
Lemma passive_letters : forall x lo hi, family_of x = Some (Passive, lo, hi) -> lo = 2 /\ hi = 2 /\ In x (s2l "RLC") /\ exists r, regex_of x = Some r.
Proof.
  intros x lo hi H. assert (existsb (aeqb x) (s2l "RLC") = true) as Hx.
  { revert H. unfold family_of. repeat match goal with |- context [if ?c then _ else _] => destruct c eqn:? end; intros H; try discriminate H; assumption. }
  apply mem_c_In in Hx. assert (Hy := Hx). vm_compute in Hx.
  repeat (destruct Hx as [<-|Hx]; [injection H as <- <-; split; [reflexivity|split; [reflexivity|split; [exact Hy|eexists; reflexivity]]]|]). destruct Hx.
Qed.
