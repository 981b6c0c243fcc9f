(** The substitutions of the program turn the text of a formula into the text of another formula. *)
From Coq Require Import String Ascii List Bool Arith ZArith QArith Lia.
From Verif Require Import PyStr Regex StepsModel EngModel EngProofs StepsProofs EngCaseProofs.
From Verif Require Import AliModel AliSpec.
Import ListNotations.
Local Open Scope string_scope. Local Open Scope nat_scope. Local Open Scope list_scope.

Inductive Sub (m : str -> option (str * str)) : str -> str -> Prop :=
| S_nil : Sub m [] []
| S_copy : forall c r o, m (c :: r) = None -> Sub m r o -> Sub m (c :: r) (c :: o)
| S_hit : forall c r rep rest o, m (c :: r) = Some (rep, rest) -> length rest <= length r -> Sub m rest o -> Sub m (c :: r) (rep ++ o).

Lemma S_hit' : forall m c r rep rest o out, m (c :: r) = Some (rep, rest) -> length rest <= length r -> out = rep ++ o -> Sub m rest o -> Sub m (c :: r) out.
Proof. intros m c r rep rest o out H L -> R. exact (S_hit m c r rep rest o H L R). Qed.
Lemma sub_from_ok : forall m s o, Sub m s o -> forall f, length s <= f -> sub_from m f s = o.
Proof.
  intros m s o H. induction H as [|c r o E H IH|c r rep rest o E L H IH]; intros f F.
  - destruct f; reflexivity.
  - destruct f as [|f]; [cbn in F; lia|]. cbn [sub_from]. rewrite E, IH; [reflexivity|cbn in F; lia].
  - destruct f as [|f]; [cbn in F; lia|]. cbn [sub_from]. rewrite E, IH; [reflexivity|cbn in F; lia].
Qed.
Lemma sub_ok : forall m s o, Sub m s o -> sub m s = o.
Proof. intros m s o H. unfold sub. apply sub_from_ok; [exact H|lia]. Qed.

Lemma copy_word : forall m w rest o, (forall u v, w = u ++ v -> v <> [] -> m (v ++ rest) = None) -> Sub m rest o -> Sub m (w ++ rest) (w ++ o).
Proof.
  intros m w. induction w as [|c w IH]; intros rest o H R; [exact R|].
  cbn [app]. apply S_copy.
  - exact (H [] (c :: w) eq_refl ltac:(discriminate)).
  - apply IH; [|exact R]. intros u v E. apply (H (c :: u) v). rewrite E. reflexivity.
Qed.

Definition okc (c : ascii) : bool := letter c || is_digit c.
Definition endc (c : ascii) : bool := mem_c c (s2l "+-*/)").
Definition follow (rest : str) : Prop := match rest with [] => True | c :: _ => endc c = true end.

Lemma okc_word : forall c, okc c = true -> is_word c = true /\ is_space c = false /\ c <> "("%char /\ c <> ")"%char /\ c <> ","%char /\ c <> "+"%char /\ c <> "-"%char /\ c <> "*"%char /\ c <> "/"%char /\ c <> "."%char /\ foreign c = false /\ c <> " "%char.
Proof.
  intros c H.
  assert (implb (okc c) (is_word c && negb (is_space c) && negb (mem_c c (s2l "(),+-*/. ")) && negb (foreign c)) = true) as X.
  { apply (sweep1 (fun c => implb (okc c) (is_word c && negb (is_space c) && negb (mem_c c (s2l "(),+-*/. ")) && negb (foreign c)))). vm_cast_no_check (eq_refl true). }
  rewrite H in X. cbn [implb] in X. apply andb_true_iff in X. destruct X as [X X4]. apply andb_true_iff in X. destruct X as [X X3].
  apply andb_true_iff in X. destruct X as [X1 X2]. apply negb_true_iff in X2, X3, X4.
  assert (~ In c (s2l "(),+-*/. ")) as N by (intros K; apply mem_c_In in K; congruence).
  repeat split; try assumption; intros ->; apply N; vm_compute; tauto.
Qed.
Lemma endc_facts : forall c, endc c = true -> c <> "("%char /\ is_word c = false /\ is_digit c = false /\ c <> "."%char /\ c <> "e"%char /\ c <> "E"%char /\ c <> ","%char /\ foreign c = false.
Proof.
  intros c H. unfold endc in H. apply mem_c_In in H.
  repeat (destruct H as [<- | H]; [repeat split; (discriminate || reflexivity)|]). destruct H.
Qed.
Lemma word_all : forall w, forallb okc w = true -> forallb is_word w = true.
Proof. intros w H. rewrite forallb_forall in *. intros c K. exact (proj1 (okc_word c (H c K))). Qed.
Lemma digits_okc : forall w, forallb is_digit w = true -> forallb okc w = true.
Proof. intros w H. rewrite forallb_forall in *. intros c K. unfold okc. rewrite (H c K). apply orb_true_r. Qed.

(** ** Matchers that need a parenthesis *)
Definition paren_only (m : str -> option (str * str)) : Prop :=
  m [] = None /\ (forall c, m [c] = None) /\ (forall c d r, d <> "("%char -> m (c :: d :: r) = None) /\ (forall c r, ~ In c (s2l "VIP") -> m (c :: r) = None).
Lemma call1_paren : forall x cl, In x (s2l "VIP") -> paren_only (call1 x cl).
Proof.
  intros x cl H. split; [reflexivity|]. split; [reflexivity|]. split.
  - intros c d r N. unfold call1. rewrite (proj2 (aeqb_neq d "(") N). rewrite andb_false_r. reflexivity.
  - intros c [|d r] N; [reflexivity|]. unfold call1. rewrite (proj2 (aeqb_neq c x)); [reflexivity|]. intros ->. contradiction.
Qed.
Lemma p1 : paren_only m_second_zero.
Proof.
  destruct (call1_paren "V" (s2l ",0)") ltac:(vm_compute; tauto)) as (A & B & C & D). unfold m_second_zero. (split; [reflexivity|split; [reflexivity|split]]).
  - intros. rewrite C by assumption. reflexivity.
  - intros. rewrite D by assumption. reflexivity.
Qed.
Lemma p2 : paren_only m_first_zero.
Proof.
  unfold m_first_zero. change (s2l "V(0,") with ["V"%char; "("%char; "0"%char; ","%char]. (split; [reflexivity|split; [|split]]).
  - intros c. cbn [startswith]. rewrite andb_false_r. reflexivity.
  - intros c d r N. cbn [startswith]. rewrite (proj2 (aeqb_neq "(" d)) by congruence. cbn [andb]. rewrite andb_false_r. reflexivity.
  - intros c r N. cbn [startswith]. rewrite (proj2 (aeqb_neq "V" c)); [reflexivity|]. intros <-. apply N. vm_compute. tauto.
Qed.
Lemma p3 : paren_only m_difference.
Proof.
  destruct (call1_paren "V" (s2l ",") ltac:(vm_compute; tauto)) as (A & B & C & D). unfold m_difference. (split; [reflexivity|split; [reflexivity|split]]).
  - intros. rewrite C by assumption. reflexivity.
  - intros. rewrite D by assumption. reflexivity.
Qed.
Lemma p4 : paren_only m_name.
Proof.
  unfold m_name. (split; [reflexivity|split; [|split]]).
  - intros c. destruct (mem_c c (s2l "VIP")); reflexivity.
  - intros c d r N. destruct (mem_c c (s2l "VIP")) eqn:E; [|reflexivity]. apply mem_c_In in E.
    destruct (call1_paren c (s2l ")") E) as (_ & _ & C & _). rewrite C by assumption. reflexivity.
  - intros c r N. destruct (mem_c c (s2l "VIP")) eqn:E; [apply mem_c_In in E; contradiction|reflexivity].
Qed.

Definition no_paren (w : str) : bool := forallb (fun c => negb (aeqb c "(")) w.
Definition open_head (rest : str) : bool := match rest with [] => false | c :: _ => aeqb c "(" end.
Lemma follow_head : forall rest, follow rest -> open_head rest = false.
Proof. intros [|c r] H; [reflexivity|]. cbn. apply aeqb_neq. exact (proj1 (endc_facts c H)). Qed.
Lemma paren_copy : forall m w rest o, paren_only m -> no_paren w = true -> open_head rest = false -> Sub m rest o -> Sub m (w ++ rest) (w ++ o).
Proof.
  intros m w rest o (A & B & C & D) N F R. apply copy_word; [|exact R]. intros u v E NE.
  assert (no_paren v = true) as NV. { unfold no_paren in *. rewrite E, forallb_app in N. apply andb_true_iff in N. exact (proj2 N). }
  destruct v as [|c [|d v]]; [contradiction| |].
  - destruct rest as [|x rest]; [apply B|]. cbn [app]. apply C. cbn in F. apply aeqb_neq. exact F.
  - cbn [app]. apply C. cbn in NV. apply andb_true_iff in NV. destruct NV as [_ NV]. apply andb_true_iff in NV. destruct NV as [NV _].
    apply negb_true_iff in NV. apply aeqb_neq. exact NV.
Qed.
Lemma paren_call : forall m x body rest o, paren_only m -> m (x :: "("%char :: body ++ rest) = None -> no_paren body = true -> open_head rest = false ->
  Sub m rest o -> Sub m (x :: "("%char :: body ++ rest) (x :: "("%char :: body ++ o).
Proof.
  intros m x body rest o P E N F R. apply S_copy; [exact E|]. apply S_copy; [|apply paren_copy; assumption].
  destruct P as (_ & _ & _ & D). apply D. vm_compute. intuition discriminate.
Qed.

(** ** Units inside of names *)
Fixpoint unitless (s : str) : bool :=
  match s with [] => true | c :: r => negb (is_digit c && (startswith (s2l "mho") r || startswith (s2l "ohm") r)) && unitless r end.
Lemma no_unit_unitless : forall s, no_unit s -> unitless s = true.
Proof.
  intros s. induction s as [|c r IH]; intros H; [reflexivity|]. cbn [unitless]. rewrite IH.
  - rewrite andb_true_r. destruct (is_digit c) eqn:D; [|reflexivity]. destruct (H [] c r eq_refl D) as [-> ->]. reflexivity.
  - intros l d t E D. apply (H (c :: l) d t); [rewrite E; reflexivity|exact D].
Qed.
Definition noword (rest : str) : bool := match rest with [] => true | c :: _ => negb (is_word c) end.
Lemma starts_cut : forall p s rest, forallb is_word p = true -> noword rest = true -> startswith p (s ++ rest) = startswith p s.
Proof.
  intros p. induction p as [|a p IH]; intros s rest W N; [reflexivity|]. cbn in W. apply andb_true_iff in W. destruct W as [W1 W].
  destruct s as [|c s].
  - cbn [app startswith]. destruct rest as [|x rest]; [reflexivity|]. cbn [startswith]. rewrite (proj2 (aeqb_neq a x)); [reflexivity|].
    intros ->. cbn in N. rewrite W1 in N. discriminate.
  - cbn [app startswith]. rewrite IH by assumption. reflexivity.
Qed.
Lemma unit_word_none : forall v rest, unitless v = true -> v <> [] -> noword rest = true -> m_unit (v ++ rest) = None.
Proof.
  intros v rest U NE N. unfold m_unit.
  assert (forall w, unitless w = true -> forall ds t, span is_digit (w ++ rest) = (ds, t) -> ds = [] \/ (startswith (s2l "mho") t = false /\ startswith (s2l "ohm") t = false)) as X.
  { intros w. induction w as [|c w IH]; intros UW ds t E.
    - left. cbn [app] in E. destruct rest as [|x r]; [cbn in E; congruence|]. cbn in N.
      cbn [span] in E. destruct (is_digit x) eqn:D; [|congruence]. exfalso. apply negb_true_iff in N.
      unfold is_word in N. rewrite D in N. discriminate.
    - cbn [app span] in E. destruct (is_digit c) eqn:D; [|left; congruence].
      destruct (span is_digit (w ++ rest)) as [ds' t'] eqn:E'. injection E as <- <-. right.
      cbn [unitless] in UW. apply andb_true_iff in UW. destruct UW as [U1 U2]. rewrite D in U1. cbn [andb] in U1.
      apply negb_true_iff in U1. apply orb_false_iff in U1.
      destruct (IH U2 _ _ eq_refl) as [-> | IH']; [|exact IH'].
      assert (t' = w ++ rest) as ->.
      { destruct (w ++ rest) as [|y l]; cbn in E'; [congruence|]. destruct (is_digit y); [destruct (span is_digit l); discriminate|congruence]. }
      rewrite !starts_cut by (exact N || reflexivity). exact U1. }
  destruct (span is_digit (v ++ rest)) as [ds t] eqn:E. destruct (X v U ds t E) as [-> | [E1 E2]]; [reflexivity|].
  rewrite E1, E2. destruct ds; reflexivity.
Qed.
Lemma unitless_app : forall u v, unitless (u ++ v) = true -> unitless v = true.
Proof. intros u v. induction u as [|c u IH]; [intros H; exact H|]. cbn [app unitless]. intros H. apply andb_true_iff in H. exact (IH (proj2 H)). Qed.
Lemma unit_copy : forall w rest o, unitless w = true -> noword rest = true -> Sub m_unit rest o -> Sub m_unit (w ++ rest) (w ++ o).
Proof.
  intros w rest o U N R. apply copy_word; [|exact R]. intros u v -> NE. apply unit_word_none; [exact (unitless_app _ _ U)|exact NE|exact N].
Qed.
Lemma unitless_under : forall a, unitless a = true -> unitless (a ++ s2l "__") = true.
Proof.
  intros a. induction a as [|c a IH]; intros H; [reflexivity|]. cbn [app unitless] in *. apply andb_true_iff in H. destruct H as [H1 H2].
  rewrite (IH H2), andb_true_r.
  assert (forall p, length p <= 3 -> In p [s2l "mho"; s2l "ohm"] -> startswith p (a ++ s2l "__") = startswith p a) as X.
  { intros p _ Hp. destruct Hp as [<- | [<- | []]];
      (destruct a as [|x [|y [|z a]]]; [reflexivity| | |reflexivity]);
      cbn; repeat match goal with |- context [aeqb ?a ?b] => destruct (aeqb a b) end; reflexivity. }
  rewrite !X by (vm_compute; auto). exact H1.
Qed.
