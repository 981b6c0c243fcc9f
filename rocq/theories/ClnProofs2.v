(** cleanup_files: histories. *)
From Coq Require Import String Ascii List Bool Arith ZArith Lia Sorted.
From Verif Require Import PyStr RunnerModel SimModel SimSpec SimProps ClnModel ClnSpec ClnProofs.
Import ListNotations.
Local Open Scope string_scope. Local Open Scope nat_scope. Local Open Scope list_scope.

Definition fail_of (net : path) : path := with_suffix net (s2l ".fail").
(** What is known of the files of one task. *)
Record task_inv (m : sim) (d : disk) (t : ctask) : Prop := {
  ti_num : numbered (k_no t) (k_net t);
  ti_run : k_end t = None -> d (fail_of (k_net t)) = None;
  ti_ok : forall e, k_end t = Some e -> e_ret e = 0%Z -> e_raw e = Some (raw_of m (k_net t)) /\ e_log e = log_of (k_net t) /\ d (fail_of (k_net t)) = None;
  ti_bad : forall e, k_end t = Some e -> e_ret e <> 0%Z -> e_raw e = None /\ d (log_of (k_net t)) = None /\
             (e_log e = fail_of (k_net t) \/ e_log e = log_of (k_net t) /\ d (fail_of (k_net t)) = None) }.
Lemma in_files : forall m d st sf e, st <> [] -> In sf netlists -> In e (run_files m sf) -> belongs m (Path d (st ++ sf)) (with_suffix (Path d (st ++ sf)) e).
Proof. intros m d st sf e N I R. rewrite (suffix_net _ _ _ _ N I). apply belongs_net; [exact N|exact I|]. exists e. auto. Qed.
Lemma fail_mine : forall m n net, numbered n net -> belongs m net (fail_of net) /\ belongs m net (log_of net) /\ belongs m net (raw_of m net) /\ belongs m net net.
Proof.
  intros m n net (d & b & sf & -> & I). pose proof (stem_ne b n) as N. split; [|split; [|split]].
  - apply in_files; [exact N|exact I|right; left; reflexivity].
  - apply in_files; [exact N|exact I|right; right; left; reflexivity].
  - apply in_files; [exact N|exact I|]. right. right. right. left. destruct m; reflexivity.
  - apply belongs_net; [exact N|exact I|]. exists sf. split; [left; reflexivity|reflexivity].
Qed.
Lemma task_inv_ext : forall m d d' t, task_inv m d t -> (forall p, belongs m (k_net t) p -> d' p = d p) -> task_inv m d' t.
Proof.
  intros m d d' t [A B C D] H. destruct (fail_mine m _ _ A) as (F & L & _). split; [exact A|intros K; rewrite (H _ F); exact (B K)| |].
  - intros e E R. destruct (C e E R) as (X & Y & Z). rewrite (H _ F). auto.
  - intros e E R. destruct (D e E R) as (X & Y & Z). rewrite (H _ F), (H _ L). auto.
Qed.
Lemma task_inv_less : forall m d d' t, task_inv m d t -> (forall p, d p = None -> d' p = None) -> task_inv m d' t.
Proof.
  intros m d d' t [A B C D] H. split; [exact A|intros K; apply H; exact (B K)| |].
  - intros e E R. destruct (C e E R) as (X & Y & Z). auto.
  - intros e E R. destruct (D e E R) as (X & Y & [Z|(Z & W)]); (split; [exact X|split; [apply H; exact Y|]]); [left; exact Z|right; split; [exact Z|apply H; exact W]].
Qed.

(** ** Cleaning one task *)
Lemma clean_none : forall t d p, d p = None -> clean_task t d p = None.
Proof.
  intros t d p H. unfold clean_task. set (d1 := del (k_net t) d). assert (H1 : d1 p = None) by (apply del_none; exact H).
  set (d2 := match k_end t with Some e => del (e_log e) d1 | None => d1 end). assert (H2 : d2 p = None) by (unfold d2; destruct (k_end t); [apply del_none|]; exact H1).
  set (d3 := del (with_suffix (k_net t) (s2l ".exe.log")) d2). assert (H3 : d3 p = None) by (apply del_none; exact H2).
  set (d4 := match k_end t with Some e => match e_raw e with Some r => del r d3 | None => d3 end | None => d3 end). assert (H4 : d4 p = None) by (unfold d4; destruct (k_end t) as [e|]; [destruct (e_raw e); [apply del_none|]|]; exact H3).
  destruct (_ || _); [|exact H4]. cbn [fold_left]. destruct (str_eqb _ _); repeat apply del_none; exact H4.
Qed.
Lemma clean_mine : forall m t d p, task_inv m d t -> k_end t <> None -> (failed t -> d (raw_of m (k_net t)) = None) -> belongs m (k_net t) p -> clean_task t d p = None.
Proof.
  intros m t d p [NU RU OK BAD] EN FR B. destruct (k_end t) as [en|] eqn:E; [clear EN|contradiction].
  destruct NU as (dd & b & sf & EN & I). pose proof (stem_ne b (k_no t)) as N. set (st := b ++ under :: dec (k_no t)) in *. rewrite EN in B. apply belongs_net in B; [|exact N|exact I]. destruct B as (x & R & P).
  assert (WS : forall y, with_suffix (k_net t) y = Path dd (st ++ y)) by (intros y; rewrite EN; apply suffix_net; assumption).
  unfold fail_of, log_of, raw_of in *. rewrite !WS in *.
  assert (SF : suffix_of (k_net t) = sf) by (unfold suffix_of; rewrite EN; cbn [name]; rewrite (split_name _ _ (net_name_of _ _ N I)); reflexivity).
  (* either already absent, or deleted at some stage *)
  assert (CS : d p = None \/ p = k_net t \/ p = e_log en \/ p = with_suffix (k_net t) (s2l ".exe.log") \/ e_raw en = Some p \/
             (str_eqb sf (s2l ".net") || str_eqb sf (s2l ".asc") = true /\ (exists y, In y [".log.raw"; ".op.raw"; ".db"] /\ p = with_suffix (k_net t) (s2l y)) \/ str_eqb sf (s2l ".asc") = true /\ p = with_suffix (k_net t) (s2l ".net"))).
  { rewrite P. destruct R as [<- |[<- |R]].
    - right. left. exact (eq_sym EN).
    - destruct (Z.eq_dec (e_ret en) 0) as [Z0|Z0]; [left; exact (proj2 (proj2 (OK en eq_refl Z0)))|]. destruct (BAD en eq_refl Z0) as (_ & _ & [L|(_ & L)]); [right; right; left; symmetry; exact L|left; exact L].
    - unfold products in R. apply in_app_or in R. destruct R as [[<- |[<- |[<- |[]]]]|R].
      + destruct (Z.eq_dec (e_ret en) 0) as [Z0|Z0]; [right; right; left; symmetry; exact (proj1 (proj2 (OK en eq_refl Z0)))|left; exact (proj1 (proj2 (BAD en eq_refl Z0)))].
      + assert (RN : raw_extension m = raw_name m) by (destruct m; reflexivity). rewrite RN in *. destruct (Z.eq_dec (e_ret en) 0) as [Z0|Z0]; [do 4 right; left; exact (proj1 (OK en eq_refl Z0))|left; apply FR; exists en; auto].
      + do 3 right. left. rewrite WS. reflexivity.
      + do 5 right. apply in_app_or in R. destruct R as [R|R].
        * destruct (str_eqb sf (s2l ".net") || str_eqb sf (s2l ".asc")) eqn:EE; [|destruct R]. left. split; [reflexivity|]. apply in_map_iff in R. destruct R as (y & <- & Y). exists y. split; [exact Y|rewrite WS; reflexivity].
        * destruct (str_eqb sf (s2l ".asc")) eqn:EE; [|destruct R]. destruct R as [<- |[]]. right. split; [reflexivity|rewrite WS; reflexivity]. }
  destruct CS as [CS|CS]; [apply clean_none; exact CS|]. clear P R OK BAD FR RU. unfold clean_task. rewrite E, SF. set (d1 := del (k_net t) d). set (d2 := del (e_log en) d1). set (d3 := del (with_suffix (k_net t) (s2l ".exe.log")) d2). set (d4 := match e_raw en with Some r => del r d3 | None => d3 end).
  assert (N4 : d3 p = None -> d4 p = None) by (intros K; unfold d4; destruct (e_raw en); [apply del_none|]; exact K).
  assert (ND : d4 p = None -> (if str_eqb sf (s2l ".net") || str_eqb sf (s2l ".asc") then
     let d5 := fold_left (fun d e => del (with_suffix (k_net t) (s2l e)) d) [".log.raw"; ".op.raw"; ".db"] d4 in if str_eqb sf (s2l ".asc") then del (with_suffix (k_net t) (s2l ".net")) d5 else d5 else d4) p = None).
  { intros K. destruct (_ || _); [|exact K]. cbn [fold_left]. destruct (str_eqb _ _); repeat apply del_none; exact K. }
  destruct CS as [-> |[-> |[-> |[CS|[(EE & y & Y & ->)|(EE & ->)]]]]].
  - apply ND, N4, del_none, del_none, del_same.
  - apply ND, N4, del_none, del_same.
  - apply ND, N4, del_same.
  - apply ND. unfold d4. rewrite CS. apply del_same.
  - rewrite EE. cbn [fold_left]. assert (K : forall a, a (with_suffix (k_net t) (s2l y)) = None -> (if str_eqb sf (s2l ".asc") then del (with_suffix (k_net t) (s2l ".net")) a else a) (with_suffix (k_net t) (s2l y)) = None) by (clear; intros a H; destruct (str_eqb sf (s2l ".asc")); [apply del_none|]; exact H).
    apply K. destruct Y as [<- |[<- |[<- |[]]]]; [apply del_none, del_none, del_same|apply del_none, del_same|apply del_same].
  - rewrite EE, orb_true_r. cbn [fold_left]. apply del_same.
Qed.
Lemma clean_other : forall m t d p, task_inv m d t -> ~ belongs m (k_net t) p -> clean_task t d p = d p.
Proof.
  intros m t d p [NU _ OK BAD] NB. destruct NU as (dd & b & sf & EN & I). pose proof (stem_ne b (k_no t)) as N. set (st := b ++ under :: dec (k_no t)) in *.
  assert (WS : forall y, with_suffix (k_net t) y = Path dd (st ++ y)) by (intros y; rewrite EN; apply suffix_net; assumption).
  assert (SF : suffix_of (k_net t) = sf) by (unfold suffix_of; rewrite EN; cbn [name]; rewrite (split_name _ _ (net_name_of _ _ N I)); reflexivity).
  assert (NX : forall y, In y (run_files m sf) -> p <> Path dd (st ++ y)) by (intros y Y ->; apply NB; rewrite EN; apply belongs_net; [exact N|exact I|]; exists y; auto).
  assert (NP : forall y, In y (products m sf) -> p <> Path dd (st ++ y)) by (intros y Y; apply NX; right; right; exact Y).
  unfold clean_task. rewrite SF. set (d1 := del (k_net t) d). assert (H1 : d1 p = d p) by (apply del_other; rewrite EN; apply NX; left; reflexivity).
  set (d2 := match k_end t with Some e => del (e_log e) d1 | None => d1 end). assert (H2 : d2 p = d p).
  { unfold d2. destruct (k_end t) as [e|]; [|exact H1]. rewrite del_other; [exact H1|]. unfold log_of, fail_of in *. rewrite !WS in *. destruct (Z.eq_dec (e_ret e) 0) as [Z0|Z0].
    - destruct (OK e eq_refl Z0) as (_ & -> & _). apply NP. left. reflexivity.
    - destruct (BAD e eq_refl Z0) as (_ & _ & [-> |(-> & _)]); [apply NX; right; left; reflexivity|apply NP; left; reflexivity]. }
  set (d3 := del (with_suffix (k_net t) (s2l ".exe.log")) d2). assert (H3 : d3 p = d p) by (unfold d3; rewrite del_other; [exact H2|rewrite WS; apply NP; right; right; left; reflexivity]).
  set (d4 := match k_end t with Some e => match e_raw e with Some r => del r d3 | None => d3 end | None => d3 end). assert (H4 : d4 p = d p).
  { unfold d4. destruct (k_end t) as [e|]; [|exact H3]. destruct (e_raw e) as [r|] eqn:ER; [|exact H3]. rewrite del_other; [exact H3|]. destruct (Z.eq_dec (e_ret e) 0) as [Z0|Z0].
    - destruct (OK e eq_refl Z0) as (R & _). assert (r = raw_of m (k_net t)) as -> by congruence. unfold raw_of. rewrite WS. apply NP. right. left. destruct m; reflexivity.
    - destruct (BAD e eq_refl Z0) as (R & _). congruence. }
  destruct (str_eqb sf (s2l ".net") || str_eqb sf (s2l ".asc")) eqn:EE; [|exact H4]. cbn [fold_left].
  assert (NL : forall y, In y (map s2l [".log.raw"; ".op.raw"; ".db"]) -> p <> with_suffix (k_net t) y) by (intros y Y; rewrite WS; apply NP; unfold products; rewrite EE; apply in_or_app; right; apply in_or_app; left; exact Y).
  assert (H5 : forall a, a p = d p -> del (with_suffix (k_net t) (s2l ".db")) (del (with_suffix (k_net t) (s2l ".op.raw")) (del (with_suffix (k_net t) (s2l ".log.raw")) a)) p = d p).
  { intros a A. rewrite !del_other; [exact A|apply NL; left; reflexivity|apply NL; right; left; reflexivity|apply NL; right; right; left; reflexivity]. }
  destruct (str_eqb sf (s2l ".asc")) eqn:EA; [|apply H5; exact H4]. rewrite del_other; [apply H5; exact H4|]. rewrite WS. apply NP. unfold products. rewrite EA. apply in_or_app. right. apply in_or_app. right. left. reflexivity.
Qed.
