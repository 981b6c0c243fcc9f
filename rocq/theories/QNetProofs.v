From Coq Require Import String Ascii List Bool Arith ZArith Lia.
From Verif Require Import PyStr EngModel StepsModel Regex ParModel QTagModel QTagProofs QEdModel QNetModel QNetSpec.
Import ListNotations.
Local Open Scope string_scope. Local Open Scope nat_scope. Local Open Scope list_scope.

Lemma pos_eqb_eq : forall p q, pos_eqb p q = true <-> p = q.
Proof.
  intros [a b] [c d]. unfold pos_eqb. cbn [fst snd]. rewrite andb_true_iff, !Z.eqb_eq. split; [intros (-> & ->); reflexivity|intros H; injection H as -> ->; split; reflexivity].
Qed.
Lemma pos_eqb_neq : forall p q, pos_eqb p q = false <-> p <> q.
Proof. intros p q. rewrite <- pos_eqb_eq. destruct (pos_eqb p q); split; intros; congruence. Qed.
Lemma find_cut : forall A (f : A -> bool) l x, find f l = Some x -> exists a b, l = a ++ x :: b /\ f x = true /\ forall y, In y a -> f y = false.
Proof.
  intros A f. induction l as [|y l IH]; intros x H; [discriminate|]. cbn [find] in H. destruct (f y) eqn:E.
  - injection H as <-. exists [], l. split; [reflexivity|]. split; [exact E|intros z []].
  - destruct (IH x H) as (a & b & -> & F & G). exists (y :: a), b. split; [reflexivity|]. split; [exact F|]. intros z [<- | Hz]; [exact E|apply G; exact Hz].
Qed.
Lemma net_at_named : forall L W p n, net_at L W p = Some n -> named L W p n.
Proof.
  intros L W p n H. unfold net_at in H. destruct (find (fun l => pos_eqb (fst l) p) L) as [[q m]|] eqn:E.
  - injection H as <-. apply find_cut in E. destruct E as (a & b & -> & F & G). cbn [fst] in F. apply pos_eqb_eq in F. subst q. eapply By_label; [reflexivity|].
    intros x Hx. specialize (G _ Hx). cbn [fst] in G. apply pos_eqb_neq in G. congruence.
  - destruct (find (fun w => pos_eqb (fst (fst w)) p || pos_eqb (snd (fst w)) p) W) as [[[q r] m]|] eqn:F; [|discriminate]. injection H as <-. apply find_cut in F. destruct F as (a & b & -> & F & G).
    cbn [fst snd] in F. apply orb_true_iff in F. rewrite !pos_eqb_eq in F. eapply By_wire; [|reflexivity|exact F|].
    + intros x Hx. apply (find_none _ _ E) in Hx. cbn [fst] in Hx. apply pos_eqb_neq in Hx. congruence.
    + intros q' r' x Hx. specialize (G _ Hx). cbn [fst snd] in G. apply orb_false_iff in G. rewrite !pos_eqb_neq in G. exact G.
Qed.
Lemma net_at_none : forall L W p, net_at L W p = None -> ~ touched L W p.
Proof.
  intros L W p H [(n & Hn)|(q & n & Hn)]; unfold net_at in H.
  - destruct (find (fun l => pos_eqb (fst l) p) L) as [[? ?]|] eqn:E; [discriminate|]. apply (find_none _ _ E) in Hn. cbn [fst] in Hn. apply pos_eqb_neq in Hn. congruence.
  - destruct (find (fun l => pos_eqb (fst l) p) L) as [[? ?]|]; [discriminate|]. destruct (find _ W) as [[[? ?] ?]|] eqn:E; [discriminate|].
    destruct Hn as [Hn|Hn]; apply (find_none _ _ E) in Hn; cbn [fst snd] in Hn; apply orb_false_iff in Hn; rewrite !pos_eqb_neq in Hn; destruct Hn; congruence.
Qed.
Lemma named_touched : forall L W p n, named L W p n -> touched L W p.
Proof.
  intros L W p n [m a b -> _|q r m a b _ -> [-> | ->] _]; [left|right|right].
  - exists m. apply in_or_app. right. left. reflexivity.
  - exists r, m. left. apply in_or_app. right. left. reflexivity.
  - exists q, m. right. apply in_or_app. right. left. reflexivity.
Qed.

(** ** Numbers of nets *)
Lemma highest_max : forall names h, let r := fold_left (fun h n => match net_number n with Some k => if (h <? k)%Z then k else h | None => h end) names h in
  (h <= r)%Z /\ forall n k, In n names -> net_number n = Some k -> (k <= r)%Z.
Proof.
  induction names as [|m names IH]; intros h; cbn [fold_left]; [split; [lia|intros n k []]|].
  set (h' := match net_number m with Some k => if (h <? k)%Z then k else h | None => h end).
  assert (HH : (h <= h')%Z /\ forall k, net_number m = Some k -> (k <= h')%Z).
  { unfold h'. destruct (net_number m) as [k|]; [|split; [lia|discriminate]]. destruct (h <? k)%Z eqn:E; [apply Z.ltb_lt in E|apply Z.ltb_ge in E]; (split; [lia|intros k' K; injection K as <-; lia]). }
  specialize (IH h'). cbv zeta in IH. destruct IH as (A & B). destruct HH as (C & D). split; [lia|]. intros n k [<- | Hn] K; [specialize (D k K); lia|exact (B n k Hn K)].
Qed.
Lemma net_name_number : forall k, (0 <= k)%Z -> net_number (net_name k) = Some k.
Proof.
  intros k K. unfold net_name, net_number. rewrite aeqb_refl. destruct (k <? 10)%Z eqn:E; [|apply py_int_show].
  apply Z.ltb_lt in E. assert (k = 0 \/ k = 1 \/ k = 2 \/ k = 3 \/ k = 4 \/ k = 5 \/ k = 6 \/ k = 7 \/ k = 8 \/ k = 9)%Z as C by lia.
  repeat (destruct C as [-> | C]; [reflexivity|]). subst k. reflexivity.
Qed.

(** ** The loop *)
Definition fresh (h0 : Z) (st : loose) (n : str) : Prop :=
  (exists k, n = net_name k /\ (h0 < k <= l_high st)%Z) \/ exists j, n = YEN :: dec j /\ j < l_beh st.
Definition inv (h0 : Z) (L : list (pos * str)) (W : list (pos * pos * str)) (st : loose) : Prop :=
  (0 <= h0 <= l_high st)%Z /\ NoDup (map fst (l_pins st)) /\ NoDup (map snd (l_pins st)) /\ (forall p n, In (p, n) (l_pins st) -> fresh h0 st n) /\
  forall p n, In (p, n) (l_pins st) -> ~ touched L W p.
Lemma at_place_In : forall p d n, at_place p d = Some n -> In (p, n) d.
Proof.
  intros p d n H. unfold at_place in H. destruct (find (fun e => pos_eqb (fst e) p) d) as [[q m]|] eqn:E; [|discriminate]. injection H as <-.
  apply find_some in E. destruct E as (I & E). cbn [fst] in E. apply pos_eqb_eq in E. subst q. exact I.
Qed.
Lemma at_place_app : forall p d e n, at_place p d = Some n -> at_place p (d ++ e) = Some n.
Proof.
  intros p d e n. unfold at_place. induction d as [|[q m] d IH]; intros H; [discriminate|]. cbn [app find fst] in *. destruct (pos_eqb q p); [exact H|apply IH; exact H].
Qed.
Lemma at_place_none : forall p d, at_place p d = None -> forall n, ~ In (p, n) d.
Proof.
  intros p d H n Hn. unfold at_place in H. destruct (find (fun e => pos_eqb (fst e) p) d) as [[q m]|] eqn:E; [discriminate|]. apply (find_none _ _ E) in Hn. cbn [fst] in Hn. apply pos_eqb_neq in Hn. congruence.
Qed.
Lemma at_place_end : forall p d n, at_place p d = None -> at_place p (d ++ [(p, n)]) = Some n.
Proof.
  intros p d n H. unfold at_place in *. induction d as [|[q m] d IH]; cbn [app find fst] in *; [assert (pos_eqb p p = true) as -> by (apply pos_eqb_eq; reflexivity); reflexivity|].
  destruct (pos_eqb q p); [discriminate|apply IH; exact H].
Qed.
Lemma fresh_more : forall h0 st n p, fresh h0 st n ->
  fresh h0 {| l_high := l_high st; l_beh := S (l_beh st); l_pins := p |} n /\ fresh h0 {| l_high := l_high st + 1; l_beh := l_beh st; l_pins := p |} n.
Proof. intros h0 st n p [(k & -> & K)|(j & -> & K)]; split; [left; exists k|left; exists k|right; exists j|right; exists j]; cbn [l_high l_beh]; (split; [reflexivity|lia]). Qed.
Lemma NoDup_end : forall A (l : list A) x, NoDup l -> ~ In x l -> NoDup (l ++ [x]).
Proof. intros A l x N H. apply NoDup_rev in N. rewrite <- (rev_involutive (l ++ [x])). apply NoDup_rev. rewrite rev_app_distr. cbn. constructor; [rewrite <- in_rev; exact H|exact N]. Qed.
Lemma pin_net_ok : forall h0 L W s pin st n st', inv h0 L W st -> pin_net L W s pin st = (n, st') ->
  inv h0 L W st' /\ (exists e, l_pins st' = l_pins st ++ e) /\
  (if s && snd pin then n = [YEN] else named L W (fst pin) n \/ ~ touched L W (fst pin) /\ at_place (fst pin) (l_pins st') = Some n).
Proof.
  intros h0 L W s [p b] st n st' I H. unfold pin_net in H. cbn [fst snd] in *. destruct (s && b) eqn:SB.
  { injection H as <- <-. split; [exact I|]. split; [exists []; rewrite app_nil_r; reflexivity|reflexivity]. }
  destruct (net_at L W p) as [m|] eqn:N.
  { injection H as <- <-. split; [exact I|]. split; [exists []; rewrite app_nil_r; reflexivity|]. left. apply net_at_named. exact N. }
  pose proof (net_at_none _ _ _ N) as NT. destruct (at_place p (l_pins st)) as [m|] eqn:A.
  { injection H as <- <-. split; [exact I|]. split; [exists []; rewrite app_nil_r; reflexivity|]. right. split; [exact NT|exact A]. }
  destruct I as (I1 & I2 & I3 & I4 & I5).
  assert (K : forall m st1, fresh h0 st1 m -> (forall q x, In (q, x) (l_pins st) -> fresh h0 st1 x) -> (0 <= h0 <= l_high st1)%Z -> ~ In m (map snd (l_pins st)) -> l_pins st1 = l_pins st ++ [(p, m)] ->
    inv h0 L W st1 /\ (exists e, l_pins st1 = l_pins st ++ e) /\ (named L W p m \/ ~ touched L W p /\ at_place p (l_pins st1) = Some m)).
  { intros m st1 F1 F2 F3 F4 E. split; [|split; [exists [(p, m)]; exact E|right; split; [exact NT|rewrite E; apply at_place_end; exact A]]].
    split; [exact F3|]. rewrite E, !map_app. cbn [map fst snd]. split; [apply NoDup_end; [exact I2|]; intros Hp; apply in_map_iff in Hp; destruct Hp as ([q x] & Q & Hx); cbn in Q; subst q; exact (at_place_none _ _ A x Hx)|].
    split; [apply NoDup_end; [exact I3|exact F4]|]. split; intros q x Hx; apply in_app_or in Hx; destruct Hx as [Hx|[Hx|[]]].
    - exact (F2 q x Hx). - injection Hx as <- <-. exact F1. - exact (I5 q x Hx). - injection Hx as <- <-. exact NT. }
  destruct s; injection H as <- <-; apply K; cbn [l_pins l_high l_beh]; try reflexivity; try lia.
  - right. exists (l_beh st). split; [reflexivity|cbn; lia].
  - intros q x Hx. apply (fresh_more h0 st x _ (I4 q x Hx)).
  - intros Hm. apply in_map_iff in Hm. destruct Hm as ([q x] & Q & Hx). cbn [snd] in Q. subst x. destruct (I4 q _ Hx) as [(k & E & _)|(j & E & J)]; [discriminate|]. apply (f_equal (@tl ascii)) in E. cbn [tl] in E. apply dec_inj in E. lia.
  - left. exists (l_high st + 1)%Z. split; [reflexivity|cbn; lia].
  - intros q x Hx. apply (fresh_more h0 st x _ (I4 q x Hx)).
  - intros Hm. apply in_map_iff in Hm. destruct Hm as ([q x] & Q & Hx). cbn [snd] in Q. subst x. destruct (I4 q _ Hx) as [(k & E & K')|(j & E & J)]; [|discriminate].
    apply (f_equal net_number) in E. rewrite !net_name_number in E by lia. injection E as E. lia.
Qed.
Lemma pin_nets_ok : forall h0 L W s pins st l st', inv h0 L W st -> pin_nets L W s pins st = (l, st') ->
  inv h0 L W st' /\ (exists e, l_pins st' = l_pins st ++ e) /\
  Forall2 (fun pin n => if s && snd pin then n = [YEN] else named L W (fst pin) n \/ ~ touched L W (fst pin) /\ at_place (fst pin) (l_pins st') = Some n) pins l.
Proof.
  intros h0 L W s. induction pins as [|p pins IH]; intros st l st' I H; cbn [pin_nets] in H.
  - injection H as <- <-. split; [exact I|]. split; [exists []; rewrite app_nil_r; reflexivity|constructor].
  - destruct (pin_net L W s p st) as [n st1] eqn:E1. destruct (pin_nets L W s pins st1) as [r st2] eqn:E2. injection H as <- <-.
    destruct (pin_net_ok _ _ _ _ _ _ _ _ I E1) as (I1 & (e1 & X1) & P1). destruct (IH _ _ _ I1 E2) as (I2 & (e2 & X2) & P2).
    split; [exact I2|]. split; [exists (e1 ++ e2); rewrite X2, X1, <- app_assoc; reflexivity|]. constructor; [|exact P2].
    destruct (s && snd p); [exact P1|]. destruct P1 as [P1|(P1 & P3)]; [left; exact P1|right]. split; [exact P1|]. rewrite X2. apply at_place_app. exact P3.
Qed.
Lemma all_nets_ok : forall h0 L W comps st, inv h0 L W st -> exists st', inv h0 L W st' /\ (exists e, l_pins st' = l_pins st ++ e) /\
  Forall2 (fun c l => Forall2 (fun pin n => if fst c && snd pin then n = [YEN] else named L W (fst pin) n \/ ~ touched L W (fst pin) /\ at_place (fst pin) (l_pins st') = Some n) (snd c) l)
    comps (all_nets L W comps st).
Proof.
  intros h0 L W. induction comps as [|[s pins] comps IH]; intros st I; cbn [all_nets].
  - exists st. split; [exact I|]. split; [exists []; rewrite app_nil_r; reflexivity|constructor].
  - destruct (pin_nets L W s pins st) as [l st1] eqn:E1. destruct (pin_nets_ok _ _ _ _ _ _ _ _ I E1) as (I1 & (e1 & X1) & P1). destruct (IH st1 I1) as (st' & I' & (e2 & X2) & P2).
    exists st'. split; [exact I'|]. split; [exists (e1 ++ e2); rewrite X2, X1, <- app_assoc; reflexivity|]. constructor; [|exact P2]. cbn [fst snd].
    clear E1. induction P1 as [|pin n pins l P1 P IHP]; constructor; [|exact IHP]. destruct (s && snd pin); [exact P1|]. destruct P1 as [P1|(P1 & P3)]; [left; exact P1|right].
    split; [exact P1|]. rewrite X2. apply at_place_app. exact P3.
Qed.

(** ** What it means *)
Lemma fresh_inj : forall h0 L W st p q n, inv h0 L W st -> at_place p (l_pins st) = Some n -> at_place q (l_pins st) = Some n -> p = q.
Proof.
  intros h0 L W st p q n (_ & _ & N & _) P Q. apply at_place_In in P, Q. apply in_split in P. destruct P as (a & b & E). rewrite E in N, Q. rewrite map_app in N. cbn [map snd] in N. apply NoDup_remove_2 in N.
  rewrite <- map_app in N. apply in_app_or in Q. destruct Q as [Q|[Q|Q]]; [|injection Q as Q; congruence|]; exfalso; apply N; apply (in_map snd) in Q; cbn in Q; rewrite map_app; apply in_or_app; [left|right]; exact Q.
Qed.
Definition N0 : loose := {| l_high := 0; l_beh := 0; l_pins := [] |}.
Lemma nets_spec : forall L W comps h0, (0 <= h0)%Z -> exists f,
  Forall2 (nodes_ok L W f) comps (all_nets L W comps {| l_high := h0; l_beh := 0; l_pins := [] |}) /\
  (forall p q, open_place L W comps p -> open_place L W comps q -> f p = f q -> p = q) /\
  (forall p, open_place L W comps p -> (exists k, f p = net_name k /\ (h0 < k)%Z) \/ exists j, f p = YEN :: dec j).
Proof.
  intros L W comps h0 H0. set (st := {| l_high := h0; l_beh := 0; l_pins := [] |}).
  assert (I : inv h0 L W st) by (split; [cbn; lia|]; split; [constructor|]; split; [constructor|]; split; intros p n []).
  destruct (all_nets_ok h0 L W comps st I) as (st' & I' & _ & P). exists (fun p => match at_place p (l_pins st') with Some n => n | None => [] end).
  assert (O : forall p, open_place L W comps p -> exists n, at_place p (l_pins st') = Some n).
  { intros p (NT & s & pins & Hc & b & Hb & SB). clear I I'. induction P as [|c l comps' nets P1 P IH]; [destruct Hc|]. destruct Hc as [-> | Hc]; [|exact (IH Hc)]. cbn [fst snd] in P1.
    clear IH P. induction P1 as [|pin n pins l P1 P IHP]; [destruct Hb|]. destruct Hb as [-> | Hb]; [|exact (IHP Hb)]. cbn [fst snd] in P1. rewrite SB in P1. destruct P1 as [P1|(_ & P1)]; [destruct (NT (named_touched _ _ _ _ P1))|]. exists n. exact P1. }
  split; [|split].
  - clear O I I'. induction P as [|c l comps' nets P1 P IH]; [constructor|]. constructor; [|exact IH]. unfold nodes_ok. clear IH P.
    induction P1 as [|pin n pins l P1 P IHP]; [constructor|]. constructor; [|exact IHP]. destruct (fst c && snd pin); [exact P1|]. destruct P1 as [P1|(P1 & P2)]; [left; exact P1|right]. split; [exact P1|]. rewrite P2. reflexivity.
  - intros p q Op Oq E. destruct (O p Op) as (n & A). destruct (O q Oq) as (m & B). rewrite A, B in E. subst m. exact (fresh_inj h0 L W st' p q n I' A B).
  - intros p Op. destruct (O p Op) as (n & A). rewrite A. apply at_place_In in A. destruct I' as (_ & _ & _ & F & _). destruct (F p n A) as [(k & -> & K)|(j & -> & J)]; [left; exists k; split; [reflexivity|lia]|right; exists j; reflexivity].
Qed.
