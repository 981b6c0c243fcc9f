From Coq Require Import String Ascii List Bool Arith ZArith Lia.
From Verif Require Import PyStr EngModel StepsModel Regex ParModel QTagModel QTagProofs QEdModel QNetModel QNetSpec QNetProofs.
Import ListNotations.
Local Open Scope string_scope. Local Open Scope nat_scope. Local Open Scope list_scope.

Lemma map_opt_ok : forall A B (f : A -> option B) l r, map_opt f l = Some r -> Forall2 (fun x y => f x = Some y) l r.
Proof.
  intros A B f. induction l as [|x l IH]; intros r H; cbn [map_opt] in H; [injection H as <-; constructor|]. destruct (f x) as [y|] eqn:E; [|discriminate]. destruct (map_opt f l) as [r'|]; [|discriminate].
  injection H as <-. constructor; [exact E|apply IH; reflexivity].
Qed.
Lemma F2_impl : forall A B (P Q : A -> B -> Prop) l r, (forall x y, P x y -> Q x y) -> Forall2 P l r -> Forall2 Q l r.
Proof. intros A B P Q l r H F. induction F; constructor; auto. Qed.
Lemma pair_attr_ok : forall i t p, pair_attr i t = Some p -> get_attr i t = Some (APair [fst p; snd p]).
Proof. intros i t p H. unfold pair_attr in H. destruct (get_attr i t) as [[|s|[|x [|y [|z l]]]|]|]; try discriminate. injection H as <-. reflexivity. Qed.
Lemma as_text_ok : forall a s, as_text a = Some s -> a = Some (AText s).
Proof. intros a s H. destruct a as [[| | |]|]; try discriminate. injection H as <-. reflexivity. Qed.
Lemma label_ok : forall t l, label_of t = Some l -> is_label t l.
Proof.
  intros t l H. unfold label_of in H. destruct (pair_attr 1 t) as [p|] eqn:E; [|discriminate]. destruct (as_text (get_attr 5 t)) as [n|] eqn:F; [|discriminate]. injection H as <-.
  split; [apply pair_attr_ok; exact E|apply as_text_ok; exact F].
Qed.
Lemma wire_ok : forall t w, wire_of t = Some w -> is_wire t w.
Proof.
  intros t w H. unfold wire_of in H. destruct (pair_attr 1 t) as [p|] eqn:E; [|discriminate]. destruct (pair_attr 2 t) as [q|] eqn:G; [|discriminate]. destruct (as_text (get_attr 3 t)) as [n|] eqn:F; [|discriminate]. injection H as <-.
  destruct p as [x y], q as [x' y']. cbn. split; [apply pair_attr_ok in E; exact E|]. split; [apply pair_attr_ok in G; exact G|apply as_text_ok; exact F].
Qed.
Lemma pin_ok : forall pl p o t pin, pin_of pl p o t = Some pin -> is_pin pl p o t pin.
Proof.
  intros pl p o t pin H. unfold pin_of in H. destruct (pair_attr 1 t) as [q|] eqn:E; [|discriminate]. destruct (pl p o q) as [xy|] eqn:F; [|discriminate]. injection H as <-. cbn [fst snd].
  split; [exists q; split; [apply pair_attr_ok; exact E|exact F]|]. unfold marked. destruct (get_attr 9 t) as [[|s| |]|]; try (split; intros K; discriminate K).
  cbn [snd]. rewrite str_eqb_eq. split; [intros ->; reflexivity|intros K; injection K as ->; reflexivity].
Qed.
Lemma comp_ok' : forall pl t c, comp_of pl t = Some c -> is_component pl t (fst (fst (fst c)), is_special (fst (fst (fst c))), snd c).
Proof.
  intros pl t c H. unfold comp_of in H. destruct (ref_value t) as [[[|x ref] v]|] eqn:R; [discriminate| |discriminate]. destruct (pair_attr 1 t) as [p|] eqn:P; [|discriminate].
  destruct (get_attr 2 t) as [[o| | |]|] eqn:O; try discriminate. destruct (get_attr 3 t) as [e|]; [|discriminate]. destruct (symbol_of t) as [s|] eqn:S; [|discriminate].
  destruct (map_opt (pin_of pl p o) (get_items PIN s)) as [ps|] eqn:M; [|discriminate]. injection H as <-. cbn [fst snd].
  unfold symbol_of in S. destruct (get_items SYMBOL t) as [|s' rest] eqn:GS; [discriminate|]. injection S as ->.
  unfold ref_value, symbol_of in R. rewrite GS in R. cbn [nth_error] in R. destruct (get_items TEXT s) as [|a [|b more]] eqn:GT; try discriminate.
  destruct (text_of a) as [r1|] eqn:TA; [|discriminate]. destruct (text_of b) as [v1|]; [|discriminate]. injection R as -> ->. unfold text_of in TA. apply as_text_ok in TA.
  exists s, rest, a, (b :: more), p, o. split; [exact GS|]. split; [exact GT|]. split; [exact TA|]. split; [apply pair_attr_ok; exact P|]. split; [exact O|].
  split; [eapply F2_impl; [|apply map_opt_ok; exact M]; intros; apply pin_ok; assumption|].
  cbn [is_special]. split.
  - intros K. exists x, ref. split; [reflexivity|]. apply mem_c_In in K. exact K.
  - intros (y & r & K & I). injection K as <- <-. apply mem_c_In. exact I.
Qed.
Lemma nets_read : forall pl t N, component_nets pl t = Some N -> exists L W C,
  drawn pl t L W C /\ map fst N = refs C /\ map snd N = all_nets L W (pins C) {| l_high := highest (map snd W); l_beh := 0; l_pins := [] |}.
Proof.
  intros pl t N H. unfold component_nets in H. destruct (map_opt label_of (get_items NET t)) as [L|] eqn:EL; [|discriminate]. destruct (map_opt wire_of (get_items WIRE t)) as [W|] eqn:EW; [|discriminate].
  destruct (map_opt (comp_of pl) (get_items COMPONENT t)) as [C0|] eqn:EC; [|discriminate]. injection H as <-. exists L, W, (map (fun c => (fst (fst (fst c)), is_special (fst (fst (fst c))), snd c)) C0).
  assert (LEN : forall comps st, length (all_nets L W comps st) = length comps).
  { induction comps as [|[s p] comps IH]; intros st; [reflexivity|]. cbn [all_nets]. destruct (pin_nets L W s p st). cbn [length]. rewrite IH. reflexivity. }
  split; [|split].
  - split; [eapply F2_impl; [intros ? ?; apply label_ok|apply map_opt_ok; exact EL]|]. split; [eapply F2_impl; [intros ? ?; apply wire_ok|apply map_opt_ok; exact EW]|].
    apply map_opt_ok in EC. change (children "component" t) with (get_items COMPONENT t). induction EC as [|x y l r E EC IH]; [constructor|]. cbn [map]. constructor; [apply comp_ok'; exact E|exact IH].
  - unfold refs. rewrite map_map. cbn [fst]. set (A := all_nets _ _ _ _). assert (LA : length A = length C0) by (unfold A; rewrite LEN; apply map_length). clearbody A. clear EC. revert A LA.
    induction C0 as [|c C0 IH]; intros [|a A] LA; try discriminate; [reflexivity|]. cbn. f_equal. apply IH. injection LA as LA. exact LA.
  - unfold pins. rewrite map_map. cbn [fst snd]. set (A := all_nets _ _ _ _). assert (LA : length A = length C0) by (unfold A; rewrite LEN; apply map_length). clearbody A. clear EC. revert A LA.
    induction C0 as [|c C0 IH]; intros [|a A] LA; try discriminate; [reflexivity|]. cbn. f_equal. apply IH. injection LA as LA. exact LA.
Qed.
Lemma fresh_not : forall (W : list (Z * Z * (Z * Z) * str)) k n q r, (highest (map snd W) < k)%Z -> In (q, r, n) W -> net_name k <> node n.
Proof.
  intros W k n q r K I E. unfold highest in K. destruct (highest_max (map snd W) 0%Z) as (A & B). cbv zeta in A, B. unfold node in E. destruct (str_eqb n (s2l "GND")).
  - discriminate.
  - assert (net_number n = Some k) as NK by (rewrite <- E; apply net_name_number; lia). apply (in_map snd) in I. specialize (B n k I NK). lia.
Qed.
