From Coq Require Import String Ascii List Bool Arith ZArith Lia.
From Verif Require Import PyStr EngModel StepsModel Regex ParModel QTagModel QTagProofs QEdModel QNetModel QNetSpec QNetProofs2 QLineSpec QLineProofs.
Import ListNotations.
Local Open Scope string_scope. Local Open Scope nat_scope. Local Open Scope list_scope.

(** ** Each once *)
Lemma seen_In : forall x l, existsb (str_eqb x) l = true <-> In x l.
Proof. intros x l. rewrite existsb_exists. split; [intros (y & I & E); apply str_eqb_eq in E; subst; exact I|intros I; exists x; split; [exact I|apply str_eqb_refl]]. Qed.
Lemma add_new_ok : forall l seen, NoDup (add_new l seen) /\ forall x, In x (add_new l seen) <-> In x l /\ ~ In x seen.
Proof.
  induction l as [|y l IH]; intros seen; cbn [add_new]; [split; [constructor|intros x; cbn; tauto]|]. destruct (existsb (str_eqb y) seen) eqn:E.
  - apply seen_In in E. destruct (IH seen) as (A & B). split; [exact A|]. intros x. rewrite B. cbn [In]. split; [tauto|]. intros ([<- | H] & N); tauto.
  - assert (NE : ~ In y seen) by (intros K; apply seen_In in K; congruence). destruct (IH (y :: seen)) as (A & B). split.
    + constructor; [rewrite B; cbn [In]; tauto|exact A].
    + intros x. cbn [In]. rewrite B. cbn [In]. split; [intros [<- | (H & N)]; tauto|]. intros ([<- | H] & N); [left; reflexivity|]. destruct (list_eq_dec ascii_dec y x) as [-> | D]; [left; reflexivity|right; tauto].
Qed.
Lemma libs_In : forall ss x, In x (libs ss) <-> exists s, In s ss /\ s_lib s = Some x.
Proof.
  induction ss as [|s ss IH]; intros x; cbn [libs]; [split; [intros []|intros (s & [] & _)]|]. destruct (s_lib s) as [y|] eqn:E; cbn [In]; rewrite IH; split.
  - intros [<- | (s' & I & K)]; [exists s; tauto|exists s'; tauto].
  - intros (s' & [<- | I] & K); [left; congruence|right; exists s'; tauto].
  - intros (s' & I & K); exists s'; tauto.
  - intros (s' & [<- | I] & K); [congruence|exists s'; tauto].
Qed.
Lemma F2_In_r : forall A B (P : A -> B -> Prop) l r y, Forall2 P l r -> In y r -> exists x, In x l /\ P x y.
Proof. intros A B P l r y F. induction F as [|a b l r H F IH]; intros I; [destruct I|]. destruct I as [<- | I]; [exists a; split; [left; reflexivity|exact H]|destruct (IH I) as (x & X & Y); exists x; split; [right; exact X|exact Y]]. Qed.
Lemma F2_In_l : forall A B (P : A -> B -> Prop) l r x, Forall2 P l r -> In x l -> exists y, In y r /\ P x y.
Proof. intros A B P l r x F. induction F as [|a b l r H F IH]; intros I; [destruct I|]. destruct I as [<- | I]; [exists b; split; [left; reflexivity|exact H]|destruct (IH I) as (y & X & Y); exists y; split; [right; exact X|exact Y]]. Qed.
Lemma share_lib : forall embed verilog hs ref item ports enabled value sub sh l, share_of embed verilog hs ref item ports enabled value = Some sh ->
  s_lib sh = Some l <-> needs (Part ref item ports enabled value sub) l.
Proof.
  intros embed verilog hs ref item ports enabled value sub sh l H. unfold share_of in H. unfold needs. change (get_items SYMBOL item) with (children "symbol" item) in H.
  destruct (children "symbol" item) as [|s [|s' r]] eqn:CS; [injection H as <-; split; [intros K0; discriminate K0|intros (_ & s & K & _); discriminate]| |injection H as <-; split; [intros K0; discriminate K0|intros (_ & s0 & K & _); discriminate]].
  destruct enabled; cbn [negb] in H; [|injection H as <-; split; [intros K0; discriminate K0|intros (K & _); discriminate]].
  destruct (type_of s value) as [[typ symbol]|]; [|discriminate]. destruct (get_items TEXT s) as [|t1 [|t2 more]]; try discriminate. destruct (get_text_attr 8 t2) as [model|]; [|discriminate]. destruct (param_text more) as [params|]; [|discriminate].
  rewrite library_eq in H. destruct (element_line _ _ _ _ _ _ _) as [line|]; [|discriminate]. destruct (if _ && hs then _ else _) as [sb|]; [|discriminate]. apply some_inj in H; subst sh. cbn [s_lib].
  destruct (startswith (s2l "|") (library s)) eqn:B.
  - apply bar_ok in B. split; [intros K0; discriminate K0|]. intros (_ & s0 & K & _ & _ & N). injection K as <-. destruct (N B).
  - assert (NB : ~ own_library s) by (intros K; apply bar_ok in K; congruence). destruct (library s) as [|c r] eqn:L; split.
    + intros K0; discriminate K0. + intros (_ & s0 & K & L0 & L1 & _). injection K as <-. congruence.
    + intros K. injection K as <-. split; [reflexivity|]. exists s. repeat split; try assumption; try discriminate.
    + intros (_ & s0 & K & L0 & _). injection K as <-. congruence.
Qed.
Lemma share_sub : forall embed verilog ref item ports enabled value sub sh model nodes, share_of embed verilog (match sub with Some _ => true | None => false end) ref item ports enabled value = Some sh ->
  (s_sub sh = Some (model, nodes) -> exists body, instance_of (Part ref item ports enabled value sub) model nodes body) /\
  (ref <> [] -> forall body, instance_of (Part ref item ports enabled value sub) model nodes body -> s_sub sh = Some (model, nodes)).
Proof.
  intros embed verilog ref item ports enabled value sub sh model nodes H. unfold share_of in H. unfold instance_of. change (get_items SYMBOL item) with (children "symbol" item) in H.
  destruct (children "symbol" item) as [|s [|s' r]] eqn:CS; [injection H as <-; split; [intros K0; discriminate K0|intros _ body (_ & _ & s & ? & ? & ? & ? & ? & ? & ? & K & _); discriminate]| |injection H as <-; split; [intros K0; discriminate K0|intros _ body (_ & _ & s0 & ? & ? & ? & ? & ? & ? & ? & K & _); discriminate]].
  destruct enabled; cbn [negb] in H; [|injection H as <-; split; [intros K0; discriminate K0|intros _ body (K & _); discriminate]].
  destruct (type_of s value) as [[typ symbol]|] eqn:TY; [|discriminate]. pose proof (type_ok _ _ _ _ TY) as (KD & TN). destruct (get_items TEXT s) as [|t1 [|t2 more]] eqn:GT; try discriminate.
  destruct (get_text_attr 8 t2) as [m|] eqn:GM; [|discriminate]. destruct (param_text more) as [params|]; [|discriminate].
  rewrite library_eq in H. destruct (element_line _ _ _ _ _ _ _) as [line|]; [|discriminate]. set (model' := if startswith (s2l "|") (library s) then netlist_name typ ref ++ BULLET :: m else m) in *.
  assert (SP : forall nd, sub_ports s = Some nd <-> exists names, Forall2 (fun p n => get_attr 8 p = Some (AText n)) (children "pin" s) names /\ nd = join_blank names).
  { intros nd. unfold sub_ports. change (get_items PIN s) with (children "pin" s). split.
    - intros K. destruct (map_opt _ (children "pin" s)) as [names|] eqn:M; [|discriminate]. injection K as <-. exists names. split; [|reflexivity]. apply map_opt_ok in M. eapply F2_impl; [|exact M]. intros; apply as_text_ok; assumption.
    - intros (names & F & ->). assert (map_opt (fun p => as_text (get_attr 8 p)) (children "pin" s) = Some names) as ->; [|reflexivity]. induction F as [|a b l r A F IH]; [reflexivity|]. cbn [map_opt]. rewrite A. cbn [as_text]. rewrite IH. reflexivity. }
  assert (KU : forall sy, kind s value (s2l "X") sy -> typ = s2l "X").
  { intros sy KX. destruct KD as [(L & _ & a & CA & TA & _)|(L & [(V & TX & _)|(V & TX & _)])].
    - destruct KX as [(_ & _ & a' & CA' & TA' & _)|(L' & _)]; [|lia]. rewrite CA in CA'. injection CA' as <-. congruence.
    - destruct KX as [(L' & _)|(_ & [(_ & K & _)|(K & _)])]; [lia|discriminate|contradiction].
    - exact TX. }
  assert (MD : own_library s /\ model' = netlist_name typ ref ++ bullet :: m \/ ~ own_library s /\ model' = m).
  { unfold model', own_library. destruct (startswith (s2l "|") (library s)) eqn:B; [left; split; [apply bar_ok; exact B|reflexivity]|right; split; [intros K; apply bar_ok in K; congruence|reflexivity]]. }
  split.
  - intros K. destruct (str_eqb typ (s2l "X")) eqn:TX.
    2: { cbn [andb] in H. injection H as <-. discriminate K. }
    apply str_eqb_eq in TX. destruct sub as [body|]; [|cbn [andb] in H; injection H as <-; discriminate K]. cbn [andb] in H. destruct (sub_ports s) as [nd|] eqn:ES; [|discriminate]. cbn [option_map] in H. apply some_inj in H; subst sh. cbn [s_sub] in K. injection K as <- <-.
    destruct (proj1 (SP nd) eq_refl) as (names & FN & ->). exists body. split; [reflexivity|]. split; [reflexivity|]. exists s, t1, t2, more, symbol, m, (netlist_name typ ref), names.
    split; [reflexivity|]. split; [rewrite <- TX; exact KD|]. split; [exact GT|]. split; [exact GM|]. split; [rewrite <- TX; apply name_ok; exact TN|]. split; [tauto|]. split; [exact FN|reflexivity].
  - intros NR body (_ & -> & s0 & u1 & u2 & more' & sy & m0 & nm & names & CS0 & KX & CT & GM' & KA & OL & FN & ->). injection CS0 as <-. pose proof (KU _ KX) as ->. change (children "text" s) with (get_items TEXT s) in CT. rewrite GT in CT. injection CT as <- <- <-. rewrite GM in GM'. injection GM' as <-.
    change (str_eqb (s2l "X") (s2l "X")) with true in H. cbn [andb] in H. assert (ES : sub_ports s = Some (join_blank names)) by (apply SP; exists names; split; [exact FN|reflexivity]). rewrite ES in H. cbn [option_map] in H. apply some_inj in H; subst sh. cbn [s_sub]. f_equal. f_equal.
    assert (NM : nm = netlist_name (s2l "X") ref).
    { destruct KA as [KA|(c & r & d & r' & E1 & -> & KA)]; [contradiction|]. injection E1 as <- <-. change (netlist_name (s2l "X") (d :: r')) with (if aeqb "X" d then d :: r' else "X"%char :: ACUTE :: d :: r'). destruct KA as [(<- & ->)|(D & ->)]; [rewrite aeqb_refl; reflexivity|].
      assert (aeqb "X" d = false) as -> by (apply aeqb_neq; exact D). reflexivity. }
    subst nm. destruct MD as [(O1 & ->)|(O1 & ->)]; destruct OL as [(O2 & O3)|(O2 & O3)]; try contradiction; [rewrite (O3 NR); reflexivity|symmetry; exact O3].
Qed.
