(** Writing a statement after an edit. *)
From Coq Require Import String Ascii List Bool Arith ZArith Lia.
From Verif Require Import PyStr EngModel EngProofs EngCaseProofs PTokModel PTokSpec PTokProofs Regex RegexProofs RegexInv RegexMore CompModel CompSpec CompMatch CompTail CompRead CompFam CompInst CompProofs.
Import ListNotations.
Local Open Scope string_scope.
Local Open Scope nat_scope.
Local Open Scope list_scope.

Definition SP : str := [" "%char].
Lemma trimmed_strip0 : forall s, trimmed s -> strip s = s.
Proof. intros s H. rewrite <- (app_nil_r s) at 1. apply trimmed_strip; [exact H|reflexivity]. Qed.
Lemma norm_nat : forall n m, norm (Z.of_nat n) m = Nat.min n m.
Proof. intros n m. unfold norm. assert (Z.of_nat n <? 0 = false)%Z as -> by (apply Z.ltb_ge; lia). rewrite Nat2Z.id. reflexivity. Qed.
Lemma char_at_mid : forall (a b : str) c n, n = length a -> char_at (a ++ c :: b) (Z.of_nat n) = Some c.
Proof.
  intros a b c n ->. unfold char_at. assert (Z.of_nat (length a) <? 0 = false)%Z as -> by (apply Z.ltb_ge; lia). rewrite Nat2Z.id.
  rewrite nth_error_app2 by lia. rewrite Nat.sub_diag. reflexivity.
Qed.
Lemma trimmed_nonempty : forall s, trimmed s -> s <> [].
Proof. intros s ((c & r & -> & _) & _). discriminate. Qed.
(** the section goes where it should: [A] before, [O] replaced, [B] after *)
Lemma insert_at : forall A O B sec s pre n m, strip sec = s -> trimmed s ->
  n = length A -> (m = length A + length O \/ (B = [] /\ m >= length A + length O)) ->
  (A = [] /\ pre = [] \/ (exists A0, A = A0 ++ SP) /\ pre = [] \/ (exists A0 x, A = A0 ++ [x] /\ x <> " "%char) /\ pre = SP) ->
  A ++ O ++ B <> [] ->
  (B = [] \/ (exists r, B = " "%char :: r)) ->
  insert_section (A ++ O ++ B) (Z.of_nat n) (Z.of_nat m) sec = Some (strip (A ++ pre ++ s ++ B)).
Proof.
  intros A O B sec s pre n m Hs Ht -> Hm Hpre Hne HB.
  assert (sec <> []) as Nsec. { intros ->. rewrite <- Hs in Ht. apply trimmed_nonempty in Ht. apply Ht. reflexivity. }
  unfold insert_section. destruct (A ++ O ++ B) as [|l0 ls] eqn:El; [contradiction Hne; reflexivity|]. rewrite <- El. clear l0 ls El Hne.
  destruct sec as [|s0 sr]; [contradiction Nsec; reflexivity|]. rewrite Hs.
  assert ((if (0 <? Z.of_nat (length A))%Z then option_map (fun c => negb (aeqb c " ")) (char_at (A ++ O ++ B) (Z.of_nat (length A) - 1)) else Some false)
          = Some (match pre with [] => false | _ => true end)) as ->.
  { destruct Hpre as [[-> ->]|[[[A0 ->] ->]|[(A0 & x & -> & Hx) ->]]]; [reflexivity| |];
      (rewrite app_length; cbn [length SP]; assert (0 <? Z.of_nat (length A0 + 1) = true)%Z as -> by (apply Z.ltb_lt; lia);
       replace (Z.of_nat (length A0 + 1) - 1)%Z with (Z.of_nat (length A0)) by lia; rewrite <- app_assoc; cbn [app SP]; rewrite char_at_mid by reflexivity; cbn [option_map]).
    - reflexivity.
    - apply aeqb_neq in Hx. rewrite Hx. reflexivity. }
  assert ((if (Z.of_nat m <? Z.of_nat (length (A ++ O ++ B)))%Z then option_map (fun c => negb (aeqb c " ")) (char_at (A ++ O ++ B) (Z.of_nat m)) else Some false) = Some false) as ->.
  { destruct (Z.of_nat m <? Z.of_nat (length (A ++ O ++ B)))%Z eqn:E; [|reflexivity]. apply Z.ltb_lt in E. rewrite !app_length in E.
    destruct HB as [-> | (r & ->)]; [cbn [length] in E; destruct Hm as [Hm|[_ Hm]]; lia|]. destruct Hm as [-> | [F _]]; [|discriminate F].
    rewrite app_assoc. rewrite char_at_mid by (rewrite app_length; reflexivity). reflexivity. }
  cbn [andb]. f_equal. f_equal. rewrite !norm_nat, !app_length.
  replace (Nat.min (length A) (length A + (length O + length B))) with (length A) by lia. rewrite firstn_app, firstn_all, Nat.sub_diag. cbn [firstn]. rewrite app_nil_r.
  assert (skipn (Nat.min m (length A + (length O + length B))) (A ++ O ++ B) = B) as ->.
  { replace (Nat.min m (length A + (length O + length B))) with (length (A ++ O)).
    - rewrite app_assoc, skipn_app, skipn_all, Nat.sub_diag. reflexivity.
    - rewrite app_length. destruct Hm as [-> | [-> Hm]]; cbn [length]; lia. }
  destruct Hpre as [[-> ->]|[[_ ->]|[_ ->]]]; reflexivity.
Qed.
(** variant: [B] starts with another character *)
Lemma insert_before : forall A O B sec s n m x r A0 y, strip sec = s -> trimmed s ->
  n = length A -> m = length A + length O -> A = A0 ++ [y] -> y <> " "%char -> B = x :: r -> x <> " "%char ->
  insert_section (A ++ O ++ B) (Z.of_nat n) (Z.of_nat m) sec = Some (strip (A ++ SP ++ s ++ SP ++ B)).
Proof.
  intros A O B sec s n m x r A0 y Hs Ht -> -> HA Hy HB Hx.
  assert (sec <> []) as Nsec. { intros ->. rewrite <- Hs in Ht. apply trimmed_nonempty in Ht. apply Ht. reflexivity. }
  unfold insert_section. destruct (A ++ O ++ B) as [|l0 ls] eqn:El; [rewrite HA, <- app_assoc in El; destruct A0; discriminate El|]. rewrite <- El. clear l0 ls El.
  destruct sec as [|s0 sr]; [contradiction Nsec; reflexivity|]. rewrite Hs.
  assert ((if (0 <? Z.of_nat (length A))%Z then option_map (fun c => negb (aeqb c " ")) (char_at (A ++ O ++ B) (Z.of_nat (length A) - 1)) else Some false) = Some true) as ->.
  { rewrite HA. rewrite app_length; cbn [length]; assert (0 <? Z.of_nat (length A0 + 1) = true)%Z as -> by (apply Z.ltb_lt; lia).
    replace (Z.of_nat (length A0 + 1) - 1)%Z with (Z.of_nat (length A0)) by lia. rewrite <- app_assoc. cbn [app]. rewrite char_at_mid by reflexivity. cbn [option_map].
    apply aeqb_neq in Hy. rewrite Hy. reflexivity. }
  assert ((if (Z.of_nat (length A + length O) <? Z.of_nat (length (A ++ O ++ B)))%Z then option_map (fun c => negb (aeqb c " ")) (char_at (A ++ O ++ B) (Z.of_nat (length A + length O))) else Some false) = Some true) as ->.
  { assert (Z.of_nat (length A + length O) <? Z.of_nat (length (A ++ O ++ B)) = true)%Z as -> by (apply Z.ltb_lt; rewrite HB, !app_length; cbn [length]; lia).
    rewrite HB, app_assoc. rewrite char_at_mid by (rewrite app_length; reflexivity). cbn [option_map]. apply aeqb_neq in Hx. rewrite Hx. reflexivity. }
  assert (1 <? length (" "%char :: s) = true) as ->. { apply Nat.ltb_lt. apply trimmed_nonempty in Ht. destruct s; [contradiction Ht; reflexivity|cbn [length]; lia]. }
  cbn [andb]. f_equal. f_equal. rewrite !norm_nat, !app_length.
  replace (Nat.min (length A) (length A + (length O + length B))) with (length A) by lia. rewrite firstn_app, firstn_all, Nat.sub_diag. cbn [firstn]. rewrite app_nil_r.
  replace (Nat.min (length A + length O) (length A + (length O + length B))) with (length (A ++ O)) by (rewrite app_length; lia).
  rewrite app_assoc with (l := A) (m := O), skipn_app, skipn_all, Nat.sub_diag. cbn [skipn app]. unfold SP. rewrite <- !app_assoc. reflexivity.
Qed.

(** the state of the rewriting: the text so far [T] (with the blank of the replaced newline if nothing was done yet) *)
Definition reached (T0 T : str) (off : Z) (st : str * Z * bool) : Prop :=
  st = (T, off, true) \/ (st = (T0 ++ SP, off, false) /\ T = T0).
Lemma trimmed_app : forall a b, trimmed a -> trimmed b -> forall m, trimmed (a ++ m ++ b).
Proof.
  intros a b ((x & r & -> & Hx) & _) (_ & (y & q & -> & Hy)) m. split.
  - exists x, (r ++ m ++ q ++ [y]). split; [reflexivity|exact Hx].
  - exists y, ((x :: r) ++ m ++ q). split; [rewrite <- !app_assoc; reflexivity|exact Hy].
Qed.
Lemma strip_z : forall s, trimmed s -> strip (s ++ SP) = s.
Proof. intros s H. apply trimmed_strip; [exact H|reflexivity]. Qed.
(** one replacement in the middle *)
Lemma step_at : forall T0 st A O B sec s pre off off' n m ol, reached T0 (A ++ O ++ B) off st -> strip sec = s -> trimmed s ->
  (Z.of_nat n + off = Z.of_nat (length A))%Z -> (Z.of_nat m + off = Z.of_nat (length A + length O))%Z ->
  (A = [] /\ pre = [] \/ (exists A0, A = A0 ++ SP) /\ pre = [] \/ (exists A0 x, A = A0 ++ [x] /\ x <> " "%char) /\ pre = SP) ->
  A ++ O ++ B <> [] -> (B = [] \/ (exists r, B = " "%char :: r)) -> trimmed (A ++ pre ++ s ++ B) ->
  off' = (off + Zlen sec - ol)%Z ->
  replace_at st (n, m) sec ol = Some (A ++ pre ++ s ++ B, off', true).
Proof.
  intros T0 st A O B sec s pre off off' n m ol Hst Hs Ht Hn Hm Hpre Hne HB HT ->. unfold replace_at.
  destruct Hst as [-> | [-> <-]]; cbn [fst snd].
  - rewrite Hn, Hm. rewrite (insert_at A O B sec s pre) by (auto; left; reflexivity). rewrite trimmed_strip0 by exact HT. reflexivity.
  - replace ((A ++ O ++ B) ++ SP) with (A ++ O ++ B ++ SP) by (rewrite <- !app_assoc; reflexivity). rewrite Hn, Hm.
    rewrite (insert_at A O (B ++ SP) sec s pre); auto.
    + replace (A ++ pre ++ s ++ B ++ SP) with ((A ++ pre ++ s ++ B) ++ SP) by (rewrite <- !app_assoc; reflexivity). rewrite strip_z by exact HT. reflexivity.
    + intros E. apply Hne. apply app_nil_iff in E. destruct E as [-> E]. apply app_nil_iff in E. destruct E as [-> E]. apply app_nil_iff in E. destruct E as [-> _]. reflexivity.
    + right. destruct HB as [-> | [r ->]]; eexists; reflexivity.
Qed.

(** pieces of the canonical text *)
Definition ntext (l : list str) : str := " "%char :: join (s2l " ") l.
Lemma join_cons : forall x l, l <> [] -> join (s2l " ") (x :: l) = x ++ " "%char :: join (s2l " ") l.
Proof. intros x [|y l] H; [contradiction H; reflexivity|reflexivity]. Qed.
Lemma nodes_canonical : forall l, Forall (fun bn => fst bn = SP) l -> l <> [] -> nodes_text l = ntext (map snd l).
Proof.
  induction l as [|[b n] l IH]; intros H N; [contradiction N; reflexivity|]. apply Forall_cons_iff in H. destruct H as [Hb H]. cbn [fst] in Hb. subst b.
  destruct l as [|y l]; [unfold nodes_text, ntext; cbn [map concat fst snd SP app join]; rewrite app_nil_r; reflexivity|].
  unfold nodes_text in *. cbn [map concat fst snd]. cbn [map concat fst snd] in IH. rewrite IH by (auto; discriminate). unfold ntext, SP. cbn [app]. reflexivity.
Qed.
Lemma more_canonical : forall l, Forall (fun bw : str * word => fst bw = []) l ->
  concat (map (fun bw => ","%char :: fst bw ++ word_text (snd bw)) l) = concat (map (fun t => ","%char :: t) (map (fun bw => word_text (snd bw)) l)).
Proof.
  induction l as [|[b w] l IH]; intros H; [reflexivity|]. apply Forall_cons_iff in H. destruct H as [Hb H]. cbn [fst] in Hb. subst b. cbn [map concat fst snd app].
  rewrite IH by exact H. reflexivity.
Qed.
Lemma join_comma : forall x l, join (s2l ",") (x :: l) = x ++ concat (map (fun t => ","%char :: t) l).
Proof.
  intros x l. revert x. induction l as [|y l IH]; intros x; [cbn [map concat]; rewrite app_nil_r; reflexivity|].
  change (join (s2l ",") (x :: y :: l)) with (x ++ s2l "," ++ join (s2l ",") (y :: l)). rewrite IH. reflexivity.
Qed.
Definition show_entry (kv : str * pval) : str := fst kv ++ "="%char :: show_pval (snd kv).
Lemma param_canonical : forall b p, plain_param p -> param_text p = show_entry (entry (b, p)).
Proof.
  intros b p (A & B & C). unfold param_text, show_entry, entry, meaning. cbn [fst snd]. rewrite A, B, (more_canonical _ C). cbn [app]. f_equal. f_equal.
  destruct (map (fun bw : str * word => word_text (snd bw)) (p_more p)) as [|t l] eqn:E; cbn [as_pval show_pval].
  - cbn [map concat]. apply app_nil_r.
  - rewrite join_comma. reflexivity.
Qed.
Lemma pars_canonical : forall l, Forall (fun bp => fst bp = SP /\ plain_param (snd bp)) l -> l <> [] -> ptext l = " "%char :: show_params (map entry l).
Proof.
  induction l as [|[b p] l IH]; intros H N; [contradiction N; reflexivity|]. apply Forall_cons_iff in H. destruct H as [[Hb Hp] H]. cbn [fst snd] in Hb, Hp. subst b.
  unfold ptext, show_params in *. cbn [map concat fst snd]. rewrite (param_canonical SP p Hp). unfold SP at 1. cbn [app].
  destruct l as [|y l]; [cbn [map concat join]; rewrite app_nil_r; reflexivity|].
  rewrite IH; [|exact H|discriminate]. reflexivity.
Qed.

Lemma same_text_refl : forall t, same_text t t = true.
Proof. intros t. unfold same_text. destruct (scan_eng t) as [q|]; [apply QArith_base.Qeq_bool_iff; reflexivity|apply str_eqb_refl]. Qed.
Lemma same_pval_refl : forall v, same_pval v v = true.
Proof.
  intros [t|l|]; cbn [same_pval]; [apply same_text_refl| |reflexivity]. induction l as [|t l IH]; [reflexivity|]. cbn [same_texts]. rewrite same_text_refl. exact IH.
Qed.
Lemma pget_in : forall d k v, NoDup (map fst d) -> In (k, v) d -> pget d k = Some v.
Proof.
  induction d as [|[k' v'] d IH]; intros k v N H; [destruct H|]. cbn [map fst] in N. apply NoDup_cons_iff in N. destruct N as [N1 N2]. cbn [pget].
  destruct H as [E|H]; [injection E as -> ->; rewrite str_eqb_refl; reflexivity|].
  destruct (str_eqb k' k) eqn:E; [|apply IH; assumption]. apply str_eqb_eq in E. subst. exfalso. apply N1. apply in_map_iff. exists (k, v). auto.
Qed.
Lemma differences_refl : forall d, NoDup (map fst d) -> differences d d = false.
Proof.
  intros d N. unfold differences. apply orb_false_iff. split.
  - destruct (existsb _ d) eqn:E; [|reflexivity]. apply existsb_exists in E. destruct E as ([k v] & H & E). cbn [fst snd] in E. rewrite (pget_in d k v N H), same_pval_refl in E. discriminate E.
  - destruct (existsb _ d) eqn:E; [|reflexivity]. apply existsb_exists in E. destruct E as ([k v] & H & E). cbn [fst snd] in E. rewrite (pget_in d k v N H) in E. discriminate E.
Qed.
Lemma entry_names : forall l, map fst (map entry l) = map (fun bp => fst (meaning (snd bp))) l.
Proof. intros l. rewrite map_map. reflexivity. Qed.

Definition end_text (c : comp) : str := c_end c ++ note_text (c_note c).
Definition seg (D N V P E : str) : str := D ++ N ++ SP ++ V ++ P ++ E.
Lemma body_seg : forall c, c_gap c = SP -> comp_body c = seg (c_kind c :: c_name c) (nodes_text (c_nodes c)) (c_val c) (ptext (c_pars c)) (end_text c).
Proof. intros c H. unfold comp_body, seg, end_text, line_text. rewrite H. cbn [app]. reflexivity. Qed.

(** the statement an edit leads to: [c] edited so as to have the attributes of [c'] *)
Definition edited (c c' : comp) : comp :=
  {| c_kind := c_kind c;
     c_name := if str_eqb (upper (c_kind c' :: c_name c')) (upper (c_kind c :: c_name c)) then c_name c else upper (c_name c');
     c_nodes := c_nodes c'; c_gap := SP; c_val := c_val c';
     c_pars := if differences (map entry (c_pars c')) (map entry (c_pars c)) then c_pars c' else c_pars c;
     c_end := c_end c; c_note := c_note c |}.
Lemma upper_length : forall s, length (upper s) = length s.
Proof. intros s. apply map_length. Qed.
Lemma kind_upper : forall x f lo hi, family_of x = Some (f, lo, hi) -> upper_c x = x.
Proof.
  intros x f lo hi H. unfold family_of in H.
  assert (forall l, mem_c x (s2l l) = true -> forallb (fun y => aeqb (upper_c y) y) (s2l l) = true -> upper_c x = x) as L.
  { intros l A B. apply mem_c_In in A. rewrite forallb_forall in B. apply aeqb_eq. apply B. exact A. }
  repeat match type of H with (if mem_c x (s2l ?l) then _ else _) = _ => destruct (mem_c x (s2l l)) eqn:?; [apply (L l); [assumption|reflexivity]|] end. discriminate H.
Qed.
Lemma name_trimmed : forall k n, is_space k = false -> (forall a, In a n -> is_space a = false) -> trimmed (k :: n).
Proof. intros k n A B. apply nsp_trimmed; [discriminate|]. intros c [<-|H]; [exact A|apply B; exact H]. Qed.
Lemma family_not_space : forall x f lo hi, family_of x = Some (f, lo, hi) -> is_space x = false.
Proof.
  intros x f lo hi H. unfold family_of in H.
  assert (forall l, mem_c x (s2l l) = true -> forallb (fun y => negb (is_space y)) (s2l l) = true -> is_space x = false) as L.
  { intros l A B. apply mem_c_In in A. rewrite forallb_forall in B. apply negb_true_iff. apply B. exact A. }
  repeat match type of H with (if mem_c x (s2l ?l) then _ else _) = _ => destruct (mem_c x (s2l l)) eqn:?; [apply (L l); [assumption|reflexivity]|] end. discriminate H.
Qed.
Lemma family_lo : forall x f lo hi, family_of x = Some (f, lo, hi) -> 1 <= lo.
Proof.
  intros x f lo hi H. unfold family_of in H.
  repeat match type of H with (if ?b then _ else _) = _ => destruct b; [injection H as <- <- <-; lia|] end. discriminate H.
Qed.
Lemma family_has_value : forall x f lo hi, family_of x = Some (f, lo, hi) -> has_value_group x = true /\ aeqb x SECT = false.
Proof.
  intros x f lo hi H. unfold family_of in H.
  assert (forall l, mem_c x (s2l l) = true -> forallb (fun y => has_value_group y && negb (aeqb y SECT)) (s2l l) = true -> has_value_group x = true /\ aeqb x SECT = false) as L.
  { intros l A B. apply mem_c_In in A. rewrite forallb_forall in B. specialize (B x A). apply andb_true_iff in B. rewrite negb_true_iff in B. exact B. }
  repeat match type of H with (if mem_c x (s2l ?l) then _ else _) = _ => destruct (mem_c x (s2l l)) eqn:?; [apply (L l); [assumption|reflexivity]|] end. discriminate H.
Qed.
Lemma instance_letter : forall x lo hi, family_of x = Some (Instance, lo, hi) -> x = "X"%char.
Proof.
  intros x lo hi H. assert (existsb (aeqb x) (s2l "X") = true) as Hx.
  { revert H. unfold family_of. repeat match goal with |- context [if ?c then _ else _] => destruct c eqn:? end; intros H; try discriminate H; assumption. }
  apply mem_c_In in Hx. vm_compute in Hx. destruct Hx as [<-|[]]. reflexivity.
Qed.
Definition ends_ok (s : str) : Prop := s = [] \/ exists r d, s = r ++ [d] /\ is_space d = false.
Lemma trimmed_ends : forall a b, trimmed a -> ends_ok b -> trimmed (a ++ b).
Proof.
  intros a b Ha [-> | (r & d & -> & Hd)]; [rewrite app_nil_r; exact Ha|]. destruct Ha as ((x & q & -> & Hx) & _).
  split; [exists x, (q ++ r ++ [d]); split; [reflexivity|exact Hx]|]. exists d, ((x :: q) ++ r). split; [rewrite <- app_assoc; reflexivity|exact Hd].
Qed.
Lemma seg_trimmed : forall D N V P E, trimmed D -> trimmed V -> ends_ok P -> ends_ok E -> trimmed (seg D N V P E).
Proof.
  intros D N V P E HD HV HP HE. unfold seg. replace (D ++ N ++ SP ++ V ++ P ++ E) with (((D ++ (N ++ SP) ++ V) ++ P) ++ E) by (rewrite <- !app_assoc; reflexivity).
  apply trimmed_ends; [|exact HE]. apply trimmed_ends; [|exact HP]. apply trimmed_app; assumption.
Qed.
Lemma ptext_ends : forall c, comp_ok c -> ends_ok (ptext (c_pars c)).
Proof.
  intros c HC. destruct (c_pars c) as [|bp l] eqn:E; [left; reflexivity|]. right. rewrite <- E. apply ptext_last; [apply comp_plist; exact HC|rewrite E; discriminate].
Qed.
Lemma end_ends : forall c, canonical c -> ends_ok (end_text c).
Proof.
  intros c (_ & _ & _ & H). unfold end_text. destruct (c_note c) as [t|]; [|rewrite H; left; reflexivity]. destruct H as [-> (_ & (d & r & E & Hd))]. right. cbn [note_text].
  exists (SP ++ r), d. unfold SP in *. rewrite E. rewrite <- app_assoc. split; [reflexivity|exact Hd].
Qed.
Lemma last_not_blank : forall s, trimmed s -> exists A0 x, s = A0 ++ [x] /\ x <> " "%char.
Proof. intros s (_ & (d & r & E & Hd)). exists r, d. split; [exact E|]. intros ->. discriminate Hd. Qed.
Lemma join_trimmed : forall l, l <> [] -> Forall (fun n => n <> [] /\ forall a, In a n -> is_space a = false) l -> trimmed (join (s2l " ") l).
Proof.
  induction l as [|n l IH]; intros N H; [contradiction N; reflexivity|]. apply Forall_cons_iff in H. destruct H as [[Nn Hn] H].
  destruct l as [|y l]; [apply nsp_trimmed; assumption|]. rewrite join_cons by discriminate. apply (trimmed_app n (join (s2l " ") (y :: l)) (nsp_trimmed n Nn Hn) (IH ltac:(discriminate) H) SP).
Qed.
Lemma ports_trimmed : forall l, l <> [] -> Forall node_good l -> trimmed (join (s2l " ") (map snd l)).
Proof.
  intros l N H. apply join_trimmed; [destruct l; [contradiction N; reflexivity|discriminate]|]. apply Forall_forall. intros n Hn. apply in_map_iff in Hn. destruct Hn as ([b m] & <- & Hn).
  rewrite Forall_forall in H. destruct (H _ Hn) as (_ & _ & A & B). cbn [snd] in *. split; [exact A|]. intros a Ha. apply node_facts, B; exact Ha.
Qed.
Lemma show_trimmed : forall c, comp_ok c -> canonical c -> c_pars c <> [] -> trimmed (show_params (map entry (c_pars c))).
Proof.
  intros c HC HK N. pose proof (comp_plist c HC) as HP. destruct HK as (_ & _ & HK & _). pose proof (pars_canonical _ HK N) as E.
  destruct (ptext_last _ HP N) as (r & d & El & Hd). destruct (c_pars c) as [|[b q] l] eqn:Ec; [contradiction N; reflexivity|].
  destruct (ptext_start b q l HP) as (w & s & Es & Hw). apply Forall_cons_iff in HK. destruct HK as [[Hb _] _]. cbn [fst] in Hb. subst b.
  set (S := show_params (map entry ((SP, q) :: l))) in *. rewrite Es in E. cbn [SP app] in E. injection E as ES.
  split; [exists w, s; split; [symmetry; exact ES|apply word_facts; exact Hw]|].
  destruct r as [|r0 r]; rewrite Es in El; cbn [SP app] in El; injection El as E0 El; [discriminate|]. exists d, r. split; [exact (eq_trans (eq_sym ES) El)|exact Hd].
Qed.
Lemma slice_obj : forall c a b r n m, comp_text c = a ++ b ++ r -> n = length a -> m = n + length b -> slice (comp_text c) (n, m) = b.
Proof. intros c a b r n m. apply slice_at. Qed.

Theorem comp_rewrite : forall c c', comp_ok c -> names_ok (c_pars c) -> canonical c -> comp_ok c' -> canonical c' ->
  c_kind c' = c_kind c -> (c_pars c' = [] -> c_pars c = []) -> (c_kind c = "X"%char -> c_pars c = [] -> c_pars c' = []) ->
  rewrite (comp_text c) (attrs_of c') = Some (comp_text (edited c c')).
Proof.
  intros c c' HC [HNm HND] HK HC' HK' Hkind Hpars HparsX.
  destruct (comp_match c [NL] HC (or_introl eq_refl)) as (f & lo & hi & r & [ye yc] & vu & pu & w & Hf & Hr & Hm & G1 & G2). cbn [snd] in *.
  assert (HCd := HC). destruct HCd as (NN & HN & Hnodes & _ & _ & (HL & HE) & _ & _ & HB & f' & lo' & hi' & Hf' & Hlo & Hhi & Hv & Hctl & Hins).
  rewrite Hf in Hf'. injection Hf' as <- <- <-.
  assert (HCd' := HC'). destruct HCd' as (NN' & HN' & Hnodes' & _ & _ & _ & _ & _ & _ & f' & lo' & hi' & Hf' & Hlo' & Hhi' & Hv' & Hctl' & Hins').
  rewrite Hkind, Hf in Hf'. injection Hf' as <- <- <-.
  assert (HKd := HK). destruct HKd as (KN & KG & KP & KE). assert (HKd' := HK'). destruct HKd' as (KN' & KG' & KP' & KE').
  pose proof (kind_upper _ _ _ _ Hf) as KU. pose proof (family_not_space _ _ _ _ Hf) as KS. pose proof (family_lo _ _ _ _ Hf) as L2. destruct (family_has_value _ _ _ _ Hf) as [KV KX].
  assert (c_nodes c <> []) as NNo by (intros E; rewrite E in Hlo; cbn [length] in Hlo; lia). assert (c_nodes c' <> []) as NNo' by (intros E; rewrite E in Hlo'; cbn [length] in Hlo'; lia).
  set (D := c_kind c :: c_name c) in *. set (N := nodes_text (c_nodes c)) in *. set (P := ptext (c_pars c)) in *. set (E := end_text c) in *. set (V := c_val c) in *.
  set (D1 := c_kind c :: c_name (edited c c')). set (N1 := nodes_text (c_nodes c')). set (V1 := c_val c'). set (P1 := ptext (c_pars (edited c c'))).
  assert (comp_body c = seg D N V P E) as EB by (apply body_seg; exact KG).
  assert (comp_text (edited c c') = seg D1 N1 V1 P1 E ++ [NL]) as EB1 by (unfold comp_text; rewrite body_seg by reflexivity; reflexivity).
  set (T0 := seg D N V P E) in *.
  assert (comp_text c = T0 ++ [NL]) as EO by (unfold comp_text; rewrite EB; reflexivity).
  assert (collapse (comp_text c) = T0 ++ SP) as ECl by (rewrite collapse_text by exact HC; unfold text_z; rewrite EB; reflexivity).
  assert (forall a n, In a n -> (forall x, In x n -> is_word x = true) -> is_space a = false) as WS by (intros a n Ha Hn; apply word_facts, Hn; exact Ha).
  assert (trimmed D) as TD by (apply name_trimmed; [exact KS|intros a Ha; apply (WS a _ Ha HN)]).
  assert (forall s, (forall a, In a s -> is_word a = true) -> forall a, In a (upper s) -> is_word a = true) as UW.
  { assert (forall a, is_word a = true -> is_word (upper_c a) = true) as UC by (apply imp_sweep; vm_cast_no_check (eq_refl true)).
    intros s Hs a Ha. apply in_map_iff in Ha. destruct Ha as (b & <- & Hb). apply UC, Hs; exact Hb. }
  assert (trimmed D1) as TD1.
  { apply name_trimmed; [exact KS|]. intros a Ha. unfold edited in Ha. cbn [c_name] in Ha. destruct (str_eqb (upper (c_kind c' :: c_name c')) _) in Ha; [apply (WS a _ Ha HN)|apply (WS a _ Ha (UW _ HN'))]. }
  assert (trimmed V) as TV by (apply (value_trimmed _ _ _ Hv)). assert (trimmed V1) as TV1 by (apply (value_trimmed _ _ _ Hv')).
  pose proof (ptext_ends c HC) as PE. fold P in PE. pose proof (end_ends c HK) as EE. fold E in EE.
  assert (N1 = ntext (map snd (c_nodes c'))) as EN1 by (apply nodes_canonical; assumption).
  assert (P ++ E = [] \/ exists q, P ++ E = " "%char :: q) as BPE.
  { unfold P. destruct (c_pars c) as [|bp l] eqn:Ep.
    - unfold E, end_text. destruct (c_note c); [destruct KE as [-> _]; right; eexists; reflexivity|rewrite KE; left; reflexivity].
    - rewrite <- Ep. rewrite pars_canonical; [|rewrite Ep; exact KP|rewrite Ep; discriminate]. right. eexists. reflexivity. }
  assert (forall a n, Forall node_good n -> n <> [] -> Forall (fun bn : str * str => fst bn = SP) n -> exists q, nodes_text n ++ a = " "%char :: q) as NB.
  { intros a n A B C. rewrite nodes_canonical by assumption. eexists. reflexivity. }
  (* the slices of the statement *)
  assert (slice (comp_text c) (0, S (length (c_name c))) = D) as S1 by (eapply (slice_obj c [] D); [rewrite EO; unfold T0, seg; cbn [app]; rewrite <- app_assoc; reflexivity|reflexivity|reflexivity]).
  assert (slice (comp_text c) (S (length (c_name c)), S (length (c_name c)) + length N) = N) as S2 by (eapply (slice_obj c D N); [rewrite EO; unfold T0, seg; rewrite <- !app_assoc; reflexivity|reflexivity|reflexivity]).
  (* first step *)
  unfold CompModel.rewrite. set (at' := attrs_of c').
  assert (a_ref at' = c_kind c :: upper (c_name c')) as AR by (unfold at', attrs_of, upper; cbn [a_ref map]; rewrite Hkind, KU; reflexivity).
  rewrite AR, Hr.
  assert (text_z c [NL] = comp_text c) as TZ by reflexivity. rewrite TZ in Hm. rewrite Hm. rewrite ECl.
  assert (reached T0 T0 0%Z (T0 ++ SP, 0%Z, false)) as R0 by (right; split; reflexivity).
  assert (cap gDES yc = Some (0, S (length (c_name c))) /\ cap gNODES yc = Some (S (length (c_name c)), S (length (c_name c)) + length N)) as [CD CN].
  { assert (f = Controlled \/ f <> Controlled) as [F|F] by (destruct f; auto; right; discriminate); [destruct (G2 F) as (_ & A & B & _)|destruct (G1 F) as (_ & _ & _ & A & B & _)]; split; assumption. }
  assert (exists st1, rw_des at' (comp_text c) yc (T0 ++ SP, 0%Z, false) = Some st1 /\ reached T0 (seg D1 N V P E) (Z.of_nat (length D1) - Z.of_nat (length D)) st1) as (st1 & Est1 & R1).
  { unfold rw_des. rewrite CD, S1, AR. assert (undress D = upper D) as -> by (apply undress_upper; assumption).
    unfold D1. cbn [edited c_name]. rewrite Hkind. cbn [upper map]. fold (upper (c_name c')). rewrite KU. fold (upper (c_name c)). unfold D at 1. cbn [upper map]. fold (upper (c_name c)). rewrite KU.
    destruct (str_eqb (c_kind c :: upper (c_name c')) (c_kind c :: upper (c_name c))) eqn:Eq.
    - eexists. split; [reflexivity|]. fold D. right. split; [f_equal; f_equal; lia|reflexivity].
    - assert (mem_c SECT D = false) as ->.
      { apply mem_c_not_In. intros [G|G]; [rewrite G in KX; discriminate KX|]. apply HN in G. apply word_facts in G. destruct G as (_ & _ & G). discriminate G. }
      assert (trimmed (c_kind c :: upper (c_name c'))) as TU by (apply name_trimmed; [exact KS|intros a Ha; apply (WS a _ Ha (UW _ HN'))]).
      eexists. split.
      + eapply (step_at T0 _ [] D (N ++ SP ++ V ++ P ++ E)) with (pre := []) (off := 0%Z); [exact R0|apply trimmed_strip0; exact TU|exact TU|reflexivity|reflexivity|left; split; reflexivity|discriminate|right; apply NB; assumption| |reflexivity].
        cbn [app]. apply (seg_trimmed (c_kind c :: upper (c_name c')) N V P E); assumption.
      + left. cbn [app]. unfold seg. f_equal. f_equal. unfold Zlen, D, upper. rewrite !map_length. cbn [length]. rewrite !map_length. lia. }
  match goal with |- bind ?X _ = _ => replace X with (Some st1) by (symmetry; exact Est1) end. cbn [bind].
  assert (exists st2, rw_nodes at' (comp_text c) yc st1 = Some st2 /\ reached T0 (seg D1 N1 V P E) (Z.of_nat (length D1) - Z.of_nat (length D) + Z.of_nat (length N1) - Z.of_nat (length N)) st2) as (st2 & Est2 & R2).
  { unfold rw_nodes. rewrite CN, S2. change (" "%char :: join (s2l " ") (a_ports at')) with (ntext (map snd (c_nodes c'))). rewrite <- EN1.
    destruct (str_eqb N N1) eqn:Eq.
    - apply str_eqb_eq in Eq. eexists. split; [reflexivity|]. rewrite <- Eq. replace (Z.of_nat (length D1) - Z.of_nat (length D) + Z.of_nat (length N) - Z.of_nat (length N))%Z with (Z.of_nat (length D1) - Z.of_nat (length D))%Z by lia. exact R1.
    - pose proof (ports_trimmed _ NNo' Hnodes') as TJ.
      assert (seg D1 N1 V P E = D1 ++ SP ++ join (s2l " ") (map snd (c_nodes c')) ++ SP ++ V ++ P ++ E) as ES.
      { rewrite EN1. unfold seg, ntext, SP. cbn [app]. reflexivity. }
      eexists. split.
      + eapply (step_at T0 st1 D1 N (SP ++ V ++ P ++ E)) with (pre := SP); [exact R1| |exact TJ| | |right; right; split; [apply last_not_blank; exact TD1|reflexivity]| |right; eexists; reflexivity| |reflexivity].
        * rewrite EN1. unfold ntext. unfold strip, strip_if. cbn [lstrip_if]. change (is_space " ") with true. cbv iota. apply trimmed_strip0. exact TJ.
        * unfold D. cbn [length]. lia.
        * unfold D. cbn [length]. lia.
        * discriminate.
        * rewrite <- ES. apply seg_trimmed; assumption.
      + left. rewrite <- ES. match goal with |- (_, ?a, _) = (_, ?b, _) => replace a with b by (unfold Zlen; lia) end. reflexivity. }
  match goal with |- bind ?X _ = _ => replace X with (Some st2) by (symmetry; exact Est2) end. cbn [bind]. rewrite KV.
  assert (exists b, cap gVAL yc = Some (S (length (c_name c)) + length N + 1, b) /\ b = S (length (c_name c)) + length N + 1 + length V) as (bv & CV & Ebv).
  { assert (f = Controlled \/ f <> Controlled) as [F|F] by (destruct f; auto; right; discriminate).
    - destruct (G2 F) as (Evu & _ & _ & A & _). rewrite KG in A. cbn [length] in A. destruct (Hctl F) as [_ Hn]. rewrite Hn in KE. rewrite KE in Evu. rewrite str_eqb_refl in Evu. cbn [app] in Evu. subst vu. rewrite app_nil_r in A.
      eexists. split; [exact A|reflexivity].
    - destruct (G1 F) as (_ & _ & _ & _ & _ & A & _). rewrite KG in A. cbn [length] in A. eexists. split; [exact A|reflexivity]. }
  assert (slice (comp_text c) (S (length (c_name c)) + length N + 1, bv) = V) as S3.
  { eapply (slice_obj c (D ++ N ++ SP) V); [rewrite EO; unfold T0, seg; rewrite <- !app_assoc; reflexivity|unfold D; rewrite !app_length; cbn [length SP]; lia|rewrite Ebv; lia]. }
  assert (exists st3, rw_val at' (comp_text c) yc st2 = Some st3 /\ reached T0 (seg D1 N1 V1 P E) (Z.of_nat (length D1) - Z.of_nat (length D) + Z.of_nat (length N1) - Z.of_nat (length N) + Z.of_nat (length V1) - Z.of_nat (length V)) st3) as (st3 & Est3 & R3).
  { unfold rw_val. rewrite CV. change (a_val at') with (Some V1). rewrite S3. destruct (str_eqb V V1) eqn:Eq.
    - apply str_eqb_eq in Eq. eexists. split; [reflexivity|]. rewrite <- Eq. match goal with |- reached _ _ ?o _ => replace o with (Z.of_nat (length D1) - Z.of_nat (length D) + Z.of_nat (length N1) - Z.of_nat (length N))%Z by lia end. exact R2.
    - assert (seg D1 N1 V1 P E = (D1 ++ N1 ++ SP) ++ [] ++ V1 ++ P ++ E) as ES by (unfold seg; rewrite <- !app_assoc; reflexivity).
      eexists. split.
      + eapply (step_at T0 st2 (D1 ++ N1 ++ SP) V (P ++ E)) with (pre := []); [replace ((D1 ++ N1 ++ SP) ++ V ++ P ++ E) with (seg D1 N1 V P E) by (unfold seg; rewrite <- !app_assoc; reflexivity); exact R2|apply trimmed_strip0; exact TV1|exact TV1| | |right; left; split; [exists (D1 ++ N1); rewrite <- app_assoc; reflexivity|reflexivity]|discriminate|exact BPE| |reflexivity].
        * rewrite !app_length. unfold D. cbn [length SP]. lia.
        * rewrite !app_length. unfold D. cbn [length SP]. lia.
        * rewrite <- ES. apply seg_trimmed; assumption.
      + left. rewrite <- ES. match goal with |- (_, ?a, _) = (_, ?b, _) => replace a with b by (unfold Zlen; lia) end. reflexivity. }
  match goal with |- bind ?X _ = _ => replace X with (Some st3) by (symmetry; exact Est3) end. cbn [bind].
  assert (exists st4 off, rw_par at' (comp_text c) yc st3 = Some st4 /\ reached T0 (seg D1 N1 V1 P1 E) off st4) as (st4 & off & Est4 & R4).
  { assert (f = Controlled \/ f <> Controlled) as [F|F] by (destruct f; auto; right; discriminate).
    - destruct (G2 F) as (_ & _ & _ & _ & A). destruct (Hctl F) as [Hp _]. destruct (Hctl' F) as [Hp' _]. cbn [snd] in A. unfold rw_par. rewrite A. unfold at', attrs_of. cbn [a_par]. rewrite Hp'.
      eexists. eexists. split; [reflexivity|]. unfold P1. cbn [edited c_pars]. rewrite Hp, Hp'. cbn [map differences existsb orb]. unfold P in R3. rewrite Hp in R3. exact R3.
    - assert (f = Instance \/ f <> Instance) as [FI|FI] by (destruct f; auto; right; discriminate).
      { (* an instance *)
        assert (c_kind c = "X"%char) as KX1 by (rewrite FI in Hf; apply instance_letter in Hf; exact Hf).
        destruct (G1 F) as (-> & Et & Hpu & _ & _ & _ & A). fold V in A. rewrite KG in A. cbn [length] in A. cbn [snd] in A. unfold rw_par. rewrite A. rewrite FI. cbn [par_span].
        destruct (c_pars c) as [|[pb pq] pl] eqn:Ep.
        - cbn [xspan]. pose proof (HparsX KX1 eq_refl) as Hp'. unfold at', attrs_of. cbn [a_par]. rewrite Hp'.
          eexists. eexists. split; [reflexivity|]. unfold P1. cbn [edited c_pars]. rewrite Ep, Hp'. cbn [map differences existsb orb]. exact R3.
        - cbn [xspan]. apply Forall_cons_iff in KP. destruct KP as [[Hpb Hpq] KP]. cbn [fst snd] in Hpb, Hpq. subst pb.
          assert (c_note c = None) as Hn by (apply Hins; [exact FI|discriminate]). rewrite Hn in KE.
          assert (E = []) as EE0 by (unfold E, end_text; rewrite KE, Hn; reflexivity).
          unfold tb_of in Et. rewrite Hn, KE in Et. cbn [app] in Et.
          set (O := param_text pq ++ ptext pl). assert (P = SP ++ O) as EP0 by (unfold P, O, ptext; cbn [map concat fst snd]; rewrite <- app_assoc; reflexivity).
          set (b0 := S (length (c_name c)) + length N + 1 + length V) in *. cbn [length].
          assert (ptext (([" "%char], pq) :: pl) = P) as EPP by reflexivity. match goal with |- context [ptext (?x :: pl)] => change (ptext (x :: pl)) with P end.
          assert (slice (comp_text c) (b0 + 1, b0 + length (P ++ pu)) = O ++ pu) as S4.
          { eapply (slice_obj c (D ++ N ++ SP ++ V ++ SP) (O ++ pu) w); [|unfold b0, D; rewrite !app_length; cbn [length SP]; lia|rewrite EP0, !app_length; cbn [length SP]; lia].
            rewrite <- TZ, text_split, KG, Ep. unfold tb_of, cm_of. rewrite Hn, KE, app_nil_r. cbn [app]. rewrite Et. match goal with |- context [ptext (?x :: pl)] => change (ptext (x :: pl)) with P end. rewrite EP0. unfold head_text, D, N, V, SP. cbn [app]. rewrite <- !app_assoc. cbn [app]. rewrite <- !app_assoc. reflexivity. }
          rewrite S4.
          assert (line_ok ((SP, pq) :: pl) pu) as LP. { split; [exact HL|]. pose proof (comp_tail_ok c _ HC (or_introl eq_refl)) as [TB _]. unfold tb_of in TB. rewrite Hn, KE in TB. cbn [app] in TB. rewrite Et, forallb_app in TB. apply andb_true_iff in TB. exact (proj1 TB). }
          pose proof (PTokProofs.parse_line _ _ LP HNm HND) as PL. unfold line_text in PL. fold (ptext ((SP, pq) :: pl)) in PL. match type of PL with context [ptext (?x :: pl)] => change (ptext (x :: pl)) with P in PL end. rewrite EP0 in PL. rewrite <- app_assoc in PL. rewrite (parse_blank SP _ eq_refl) in PL. rewrite PL.
          assert (match a_par at' with Some d => d | None => [] end = map entry (c_pars c')) as ->. { unfold at', attrs_of. cbn [a_par]. destruct (c_pars c'); reflexivity. }
          unfold P1. cbn [edited c_pars]. rewrite Ep. change (([" "%char], pq) :: pl) with ((SP, pq) :: pl). destruct (differences (map entry (c_pars c')) (map entry ((SP, pq) :: pl))) eqn:Ed; [|eexists; eexists; split; [reflexivity|exact R3]].
          assert (c_pars c' <> []) as NP'. { intros G. specialize (Hpars G). discriminate Hpars. }
          pose proof (pars_canonical _ KP' NP') as EP. pose proof (show_trimmed c' HC' HK' NP') as TS. set (SH := show_params (map entry (c_pars c'))) in *.
          set (A0 := D1 ++ N1 ++ SP ++ V1).
          assert (seg D1 N1 V1 (ptext (c_pars c')) E = (A0 ++ SP) ++ [] ++ SH ++ []) as ES by (rewrite EP, EE0; unfold seg, A0, SP; cbn [app]; rewrite <- !app_assoc; reflexivity).
          assert (ends_ok (ptext (c_pars c'))) as PE' by (apply ptext_ends; exact HC').
          assert (trimmed ((A0 ++ SP) ++ [] ++ SH ++ [])) as TF by (rewrite <- ES; apply seg_trimmed; assumption).
          rewrite ES. unfold replace_at.
          assert (exists off, reached T0 (A0 ++ P ++ E) off st3 /\ (Z.of_nat b0 + off = Z.of_nat (length A0))%Z) as (off3 & R3' & Eoff).
          { eexists. split; [replace (A0 ++ P ++ E) with (seg D1 N1 V1 P E) by (unfold seg, A0; rewrite <- !app_assoc; reflexivity); exact R3|]. unfold A0, b0, D. rewrite !app_length. cbn [length SP]. lia. }
          clear R3. cbn [fst snd]. pose proof (trimmed_strip0 _ TS) as SS.
          assert (exists line z, (z = [] \/ z = SP) /\ line = (A0 ++ SP) ++ O ++ z /\ exists bb, st3 = (line, off3, bb)) as (line & z & Hz & El & bb & Est).
          { rewrite EE0, EP0 in R3'. rewrite app_nil_r in R3'. destruct R3' as [-> | [-> <-]].
            - exists (A0 ++ SP ++ O), []. split; [auto|]. split; [rewrite app_nil_r, <- app_assoc; reflexivity|]. eexists. reflexivity.
            - exists ((A0 ++ SP ++ O) ++ SP), SP. split; [auto|]. split; [rewrite <- !app_assoc; reflexivity|]. eexists. reflexivity. }
          rewrite Est.
          assert (insert_section line (Z.of_nat (b0 + 1) + off3) (Z.of_nat (b0 + length (P ++ pu)) + off3) SH = Some ((A0 ++ SP) ++ [] ++ SH ++ [])) as EI.
          { replace (Z.of_nat (b0 + 1) + off3)%Z with (Z.of_nat (length (A0 ++ SP))) by (rewrite app_length; cbn [length SP]; lia).
            replace (Z.of_nat (b0 + length (P ++ pu)) + off3)%Z with (Z.of_nat (length (A0 ++ SP) + length (O ++ pu))) by (rewrite EP0, !app_length; cbn [length SP]; lia).
            rewrite El.
            assert (forall B, (A0 ++ SP) ++ B <> []) as Ne by (intros B; destruct A0; discriminate).
            assert (forall z', z' = [] \/ z' = SP -> strip ((A0 ++ SP) ++ [] ++ SH ++ z') = (A0 ++ SP) ++ [] ++ SH ++ []) as FIN.
            { intros z' [-> | ->]; [apply trimmed_strip0; exact TF|]. rewrite <- (strip_z _ TF). f_equal. cbn [app]. rewrite app_nil_r. rewrite <- !app_assoc. reflexivity. }
            destruct pu as [|p0 pu].
            - rewrite app_nil_r. rewrite (insert_at (A0 ++ SP) O z SH SH []); [|exact SS|exact TS|reflexivity|left; reflexivity|right; left; split; [exists A0; reflexivity|reflexivity]|apply Ne|destruct Hz as [-> | ->]; [left; reflexivity|right; eexists; reflexivity]].
              f_equal. apply FIN. exact Hz.
            - replace ((A0 ++ SP) ++ O ++ z) with ((A0 ++ SP) ++ (O ++ z) ++ []) by (rewrite app_nil_r; reflexivity).
              rewrite (insert_at (A0 ++ SP) (O ++ z) [] SH SH []); [|exact SS|exact TS|reflexivity| |right; left; split; [exists A0; reflexivity|reflexivity]|apply Ne|left; reflexivity].
              + f_equal. apply FIN. left. reflexivity.
              + right. split; [reflexivity|]. rewrite !app_length. cbn [length]. destruct Hz as [-> | ->]; cbn [length SP]; lia. }
          rewrite EI. eexists. eexists. split; [reflexivity|left; reflexivity]. }
      destruct (G1 F) as (-> & Et & Hpu & _ & _ & _ & A). fold V in A. rewrite KG in A. cbn [length] in A. cbn [snd] in A. unfold rw_par. rewrite A.
      assert (par_span f (S (length (c_name c)) + length N + 1 + length V) (c_pars c) pu = Some (S (length (c_name c)) + length N + 1 + length V, S (length (c_name c)) + length N + 1 + length V + length (P ++ pu))) as -> by (unfold par_span; destruct f; try reflexivity; contradiction).
      assert (slice (comp_text c) (S (length (c_name c)) + length N + 1 + length V, S (length (c_name c)) + length N + 1 + length V + length (P ++ pu)) = P ++ pu) as S4.
      { eapply (slice_obj c (D ++ N ++ SP ++ V) (P ++ pu) (w ++ cm_of c [NL])); [|unfold D; rewrite !app_length; cbn [length SP]; lia|reflexivity].
        rewrite <- TZ, text_split, KG, Et. unfold head_text, D, N, V, P, SP. cbn [app]. rewrite <- !app_assoc. reflexivity. }
      rewrite S4.
      assert (line_ok (c_pars c) pu) as LP. { split; [exact HL|]. pose proof (comp_tail_ok c _ HC (or_introl eq_refl)) as [TB _]. rewrite Et, forallb_app in TB. apply andb_true_iff in TB. exact (proj1 TB). }
      pose proof (PTokProofs.parse_line _ _ LP HNm HND) as PL. unfold line_text in PL. fold (ptext (c_pars c)) in PL. fold P in PL. rewrite PL.
      assert (match a_par at' with Some d => d | None => [] end = map entry (c_pars c')) as ->. { unfold at', attrs_of. cbn [a_par]. destruct (c_pars c'); reflexivity. }
      unfold P1. cbn [edited c_pars]. destruct (differences (map entry (c_pars c')) (map entry (c_pars c))) eqn:Ed; [|eexists; eexists; split; [reflexivity|exact R3]].
      assert (c_pars c' <> []) as NP'. { intros G. rewrite G, (Hpars G) in Ed. discriminate Ed. }
      pose proof (pars_canonical _ KP' NP') as EP. pose proof (show_trimmed c' HC' HK' NP') as TS. set (SH := show_params (map entry (c_pars c'))) in *.
      set (A0 := D1 ++ N1 ++ SP ++ V1).
      assert (seg D1 N1 V1 (ptext (c_pars c')) E = A0 ++ SP ++ SH ++ E) as ES by (rewrite EP; unfold seg, A0, SP; cbn [app]; rewrite <- !app_assoc; reflexivity).
      assert (ends_ok (ptext (c_pars c'))) as PE' by (apply ptext_ends; exact HC').
      assert (trimmed (A0 ++ SP ++ SH ++ E)) as TF by (rewrite <- ES; apply seg_trimmed; assumption).
      assert (trimmed A0) as TA. { unfold A0. replace (D1 ++ N1 ++ SP ++ V1) with (D1 ++ (N1 ++ SP) ++ V1) by (rewrite <- !app_assoc; reflexivity). apply trimmed_app; assumption. }
      destruct (last_not_blank A0 TA) as (A1 & ax & EA & Hax).
      rewrite ES. unfold replace_at.
      assert (exists off, reached T0 (A0 ++ P ++ E) off st3 /\ (Z.of_nat (S (length (c_name c)) + length N + 1 + length V) + off = Z.of_nat (length A0))%Z) as (off3 & R3' & Eoff).
      { eexists. split; [replace (A0 ++ P ++ E) with (seg D1 N1 V1 P E) by (unfold seg, A0; rewrite <- !app_assoc; reflexivity); exact R3|]. unfold A0, D. rewrite !app_length. cbn [length SP]. lia. }
      clear R3. cbn [fst snd].
      assert (exists o, (let '(line, off, _) := st3 in match insert_section line (Z.of_nat (S (length (c_name c)) + length N + 1 + length V) + off) (Z.of_nat (S (length (c_name c)) + length N + 1 + length V + length (P ++ pu)) + off) SH with
          | Some l => Some (l, (off + Zlen SH - Zlen (P ++ pu))%Z, true) | None => None end) = Some (A0 ++ SP ++ SH ++ E, o, true)) as [o Ho].
      { assert (exists line, (st3 = (line, off3, true) /\ line = A0 ++ P ++ E) \/ (st3 = (line, off3, false) /\ line = (A0 ++ P ++ E) ++ SP)) as (line & Hline).
        { destruct R3' as [-> | [-> <-]]; eexists; [left|right]; split; reflexivity. }
        assert (insert_section line (Z.of_nat (length A0)) (Z.of_nat (length A0 + length (P ++ pu))) SH = Some (A0 ++ SP ++ SH ++ E)) as EI.
        { assert (P ++ E <> [] -> forall z, A0 ++ (P ++ E) ++ z <> []) as Ne by (intros _ z G; apply app_nil_iff in G; destruct G as [G _]; rewrite EA in G; destruct A1; discriminate G).
          assert (exists z, line = A0 ++ P ++ E ++ z /\ (z = [] \/ z = SP)) as (z & -> & Hz).
          { destruct Hline as [[_ ->]|[_ ->]]; [exists []; rewrite app_nil_r; auto|exists SP; rewrite <- !app_assoc; auto]. }
          clear Hline Ne. pose proof (trimmed_strip0 _ TS) as SS.
          assert (forall z', z' = [] \/ z' = SP -> strip (A0 ++ SP ++ SH ++ E ++ z') = A0 ++ SP ++ SH ++ E) as FIN.
          { intros z' [-> | ->]; [rewrite app_nil_r; apply trimmed_strip0; exact TF|]. replace (A0 ++ SP ++ SH ++ E ++ SP) with ((A0 ++ SP ++ SH ++ E) ++ SP) by (rewrite <- !app_assoc; reflexivity). apply strip_z. exact TF. }
          assert (forall B, A0 ++ B <> []) as Ne by (intros B; rewrite EA; destruct A1; discriminate).
          unfold E, end_text in *. unfold tb_of in Et. destruct (c_note c) as [t|].
          - destruct KE as [KE _]. rewrite KE in *. cbn [note_text] in *. fold SP in *.
            destruct pu as [|p0 pu].
            + rewrite app_nil_r. rewrite (insert_at A0 P ((SP ++ ";"%char :: t) ++ z) SH SH SP); [|exact SS|exact TS|reflexivity|left; reflexivity|right; right; split; [exists A1, ax; split; [exact EA|exact Hax]|reflexivity]|apply Ne|right; eexists; reflexivity].
              f_equal. apply FIN. exact Hz.
            + cbn [app SP] in Et. injection Et as <- Et. symmetry in Et. apply app_nil_iff in Et. destruct Et as [-> ->]. fold SP.
              replace (A0 ++ P ++ (SP ++ ";"%char :: t) ++ z) with (A0 ++ (P ++ SP) ++ (";"%char :: t ++ z)) by (unfold SP; rewrite <- !app_assoc; reflexivity).
              rewrite (insert_before A0 (P ++ SP) (";"%char :: t ++ z) SH SH _ _ ";"%char (t ++ z) A1 ax); [|exact SS|exact TS|reflexivity|reflexivity|exact EA|exact Hax|reflexivity|discriminate].
              f_equal. transitivity (strip (A0 ++ SP ++ SH ++ (SP ++ ";"%char :: t) ++ z)); [reflexivity|apply FIN; exact Hz].
          - rewrite KE in *. cbn [note_text app] in *.
            assert (insert_section (A0 ++ (P ++ z) ++ []) (Z.of_nat (length A0)) (Z.of_nat (length A0 + length (P ++ pu))) SH = Some (A0 ++ SP ++ SH ++ []) \/ pu = []) as [G|G].
            { destruct pu as [|p0 pu]; [right; reflexivity|left]. rewrite (insert_at A0 (P ++ z) [] SH SH SP); [|exact SS|exact TS|reflexivity| |right; right; split; [exists A1, ax; split; [exact EA|exact Hax]|reflexivity]|apply Ne|left; reflexivity].
              - f_equal. apply (FIN []). left. reflexivity.
              - right. split; [reflexivity|]. rewrite !app_length. cbn [length]. destruct Hz as [-> | ->]; cbn [length SP]; lia. }
            + rewrite app_nil_r in G. exact G.
            + subst pu. rewrite app_nil_r. rewrite (insert_at A0 P z SH SH SP); [|exact SS|exact TS|reflexivity|left; reflexivity|right; right; split; [exists A1, ax; split; [exact EA|exact Hax]|reflexivity]|apply Ne|destruct Hz as [-> | ->]; [left; reflexivity|right; eexists; reflexivity]].
              f_equal. apply FIN. exact Hz. }
        assert ((Z.of_nat (S (length (c_name c)) + length N + 1 + length V + length (P ++ pu)) + off3)%Z = Z.of_nat (length A0 + length (P ++ pu))) as Eoff2 by lia.
        destruct Hline as [[-> _]|[-> _]]; rewrite Eoff, Eoff2, EI; eexists; reflexivity. }
      eexists. exists o. split; [exact Ho|left; reflexivity]. }
  match goal with |- bind ?X _ = _ => replace X with (Some st4) by (symmetry; exact Est4) end. cbn [bind]. destruct R4 as [-> | [-> ET]]; [rewrite EB1; reflexivity|]. rewrite EB1, ET, EO. reflexivity.
Qed.
