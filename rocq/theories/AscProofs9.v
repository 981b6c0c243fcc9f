(** Parameters of components of an LTspice schematic. *)
From Coq Require Import String Ascii List Bool Arith ZArith Lia.
From Verif Require CompProofs.
From Verif Require Import PyStr EngModel EngProofs StepsModel StepsProofs Regex RegexProofs CompModel UpdatesModel ParModel ParSpec ParLine ParLine2 ParLine3 QTagModel QTagProofs QParProofs AscModel AscCalls AscSpec AscParSpec AscProofs AscProofs2 AscProofs3 AscProofs4 AscProofs5 AscProofs6 AscProofs7 AscProofs8.
Import ListNotations.
Local Open Scope string_scope. Local Open Scope nat_scope. Local Open Scope list_scope.

(** ** Reading a line of settings *)
Definition entry_of (e : setting) : entry := {| e_sep := [" "%char]; e_par := fst e; e_b1 := []; e_b2 := []; e_val := snd e |}.
Definition set_ok (e : setting) : Prop := par_name_ok (fst e) /\ par_value (snd e).
Lemma entry_of_ok : forall e, set_ok e -> entry_ok (entry_of e).
Proof. intros e (A & B). unfold entry_ok, entry_of. cbn. split; [intros c [<-|[]]; reflexivity|]. split; [discriminate|]. split; [exact A|]. split; [intros ? []|]. split; [intros ? []|exact B]. Qed.
Lemma setting_text_entries : forall e d, setting_text (e :: d) = ParLine.body (entry_of e) ++ entries_text (map entry_of d).
Proof.
  intros e d. revert e. induction d as [|x d IH]; intros e.
  - unfold setting_text, entries_text, ParLine.body, entry_of. cbn [map join_blank e_par e_b1 e_b2 e_val app concat]. rewrite app_nil_r. reflexivity.
  - change (setting_text (e :: x :: d)) with ((fst e ++ s2l "=" ++ snd e) ++ BLANK :: setting_text (x :: d)). rewrite IH. change (entries_text (map entry_of (x :: d))) with (entry_text (entry_of x) ++ entries_text (map entry_of d)). rewrite entry_body. reflexivity.
Qed.
Lemma setting_marked : forall e d, set_ok e -> Forall set_ok d -> exists c ms, finditer (setting_re any_name) (setting_text (e :: d)) = (0, length (ParLine.body (entry_of e)), c) :: ms /\
  cap gNAME c = Some (0, length (fst e)) /\ cap gVALUE c = Some (length (ParLine.body (entry_of e)) - length (snd e), length (ParLine.body (entry_of e))) /\ marked (length (ParLine.body (entry_of e))) (map entry_of d) ms.
Proof.
  intros e d HE HD. assert (FE : Forall entry_ok (map entry_of d)) by (rewrite Forall_map; eapply Forall_impl; [|exact HD]; apply entry_of_ok). unfold finditer. rewrite setting_text_entries.
  set (E := entry_of e). set (L := map entry_of d) in *. destruct (setting_match any_name E 0 (entries_text L)) as (c & M & CN & CV).
  { apply entry_of_ok. exact HE. } { rewrite <- (app_nil_r (entries_text L)). apply entries_stop; [exact FE|exact I]. } { apply any_taken. apply HE. }
  assert (NB : length (ParLine.body E) <> 0) by (unfold ParLine.body, E; rewrite app_length; cbn; destruct HE as ((N & _) & _); destruct (fst e); [contradiction|cbn; lia]).
  pose proof (entries_length L FE) as LE. destruct (length (ParLine.body E ++ entries_text L)) as [|fuel] eqn:EF; [rewrite app_length in EF; lia|]. cbn [find_all]. rewrite (search_hit _ _ _ _ _ M). cbn [plus]. rewrite Nat.sub_0_r.
  exists c, (find_all fuel R0 (length (ParLine.body E)) (skipn (length (ParLine.body E)) (ParLine.body E ++ entries_text L))). split; [reflexivity|]. split; [exact CN|]. split; [exact CV|]. rewrite skipn_app, skipn_all, Nat.sub_diag. cbn [skipn app].
  rewrite <- (app_nil_r (entries_text L)). apply find_marked; [exact FE|exact I|intros q; reflexivity|]. rewrite app_length in EF. lia.
Qed.
Lemma setting_groups : forall d, Forall set_ok d -> map (fun x => (group gNAME (setting_text d) (snd x), group gVALUE (setting_text d) (snd x))) (finditer (setting_re any_name) (setting_text d)) = map (fun e => (Some (fst e), Some (snd e))) d.
Proof.
  intros [|e d] H; [reflexivity|]. apply Forall_cons_iff in H. destruct H as (HE & HD). destruct (setting_marked e d HE HD) as (c & ms & -> & CN & CV & M). set (B := ParLine.body (entry_of e)) in *.
  cbn [map snd]. assert (ET : setting_text (e :: d) = B ++ entries_text (map entry_of d) ++ []) by (rewrite app_nil_r; apply setting_text_entries).
  destruct (marked_names _ _ _ M (setting_text (e :: d)) B [] ET eq_refl) as (I1 & I2). f_equal.
  - unfold group. rewrite CN, CV. cbn [option_map]. f_equal; f_equal.
    + apply (CompProofs.slice_at (setting_text (e :: d)) [] (fst e) (("="%char :: snd e) ++ entries_text (map entry_of d) ++ [])); [rewrite ET; unfold B, ParLine.body, entry_of; cbn [e_par e_b1 e_b2 e_val app]; rewrite <- !app_assoc; reflexivity|reflexivity|reflexivity].
    + assert (LB : length B = length (fst e ++ ["="%char]) + length (snd e)) by (unfold B, ParLine.body, entry_of; cbn [e_par e_b1 e_b2 e_val app]; rewrite !app_length; cbn [length]; lia).
      replace (length B - length (snd e)) with (length (fst e ++ ["="%char])) by lia. rewrite LB.
      apply (CompProofs.slice_at (setting_text (e :: d)) (fst e ++ ["="%char]) (snd e) (entries_text (map entry_of d) ++ [])); [rewrite ET; unfold B, ParLine.body, entry_of; cbn [e_par e_b1 e_b2 e_val app]; rewrite <- !app_assoc; reflexivity|reflexivity|reflexivity].
  - clear -I1 I2. revert I1 I2. generalize (setting_text (e :: d)) as t. intros t. generalize ms as m. induction d as [|x d IH]; intros m; destruct m as [|y m]; cbn [map]; intros I1 I2; try discriminate; [reflexivity|]. injection I1 as A I1. injection I2 as C I2. rewrite A, C. f_equal. apply IH; assumption.
Qed.
Lemma line_dict_text : forall conv d, Forall set_ok d -> NoDup (map fst d) -> line_dict conv (setting_text d) = map (fun e => (fst e, conv (snd e))) d.
Proof.
  intros conv d H ND. unfold line_dict. set (t := setting_text d) in *. pose proof (setting_groups d H) as G. fold t in G. revert G. generalize (finditer (setting_re any_name) t) as m.
  assert (K : forall (u : list setting) acc (m : list (nat * nat * caps)), NoDup (map fst acc ++ map fst u) -> map (fun x => (group gNAME t (snd x), group gVALUE t (snd x))) m = map (fun e : setting => (Some (fst e), Some (snd e))) u ->
    fold_left (fun d0 (x : nat * nat * caps) => match group gNAME t (snd x), group gVALUE t (snd x) with Some n, Some v => dset n (conv v) d0 | _, _ => d0 end) m acc = acc ++ map (fun e => (fst e, conv (snd e))) u).
  { induction u as [|x u IH]; intros acc [|y m] NA G; cbn [map] in G; try discriminate; [symmetry; apply app_nil_r|]. assert (G1 : group gNAME t (snd y) = Some (fst x) /\ group gVALUE t (snd y) = Some (snd x)) by (injection G as A B _; auto). assert (G2 : map (fun x : nat * nat * caps => (group gNAME t (snd x), group gVALUE t (snd x))) m = map (fun e : setting => (Some (fst e), Some (snd e))) u) by (injection G; auto).
    destruct G1 as (A & B). cbn [fold_left]. rewrite A, B. cbn [map] in NA. rewrite dset_new by (apply NoDup_remove_2 in NA; intros K; apply NA; apply in_or_app; left; exact K). rewrite IH; [rewrite <- app_assoc; reflexivity| |exact G2]. rewrite map_app, <- app_assoc. exact NA. }
  intros m G. apply (K d [] m); [exact ND|exact G].
Qed.
(** ** Getting *)
Lemma mem_s_In : forall x l, mem_s x l = true <-> In x l.
Proof. intros x l. unfold mem_s. rewrite existsb_exists. split; [intros (y & Y & E); apply str_eqb_eq in E; subst; exact Y|intros H; exists x; split; [exact H|apply str_eqb_refl]]. Qed.
Definition line_dict_ok (s : str) : Prop := exists d, s = setting_text d /\ d <> [] /\ NoDup (map fst d) /\ Forall set_ok d /\ forall k, In k (map fst d) -> ~ In k spice_names.
Definition lines_fine (attrs : list (str * str)) : Prop := forall e, In e attrs -> mem_s (fst e) LT_REDUCED = true -> line_dict_ok (snd e).
Definition fl conv (x : str) (attrs : list (str * str)) (acc : option aval) : option aval :=
  fold_left (fun acc e => if mem_s (fst e) LT_REDUCED then match dget x (line_dict conv (snd e)) with Some w => Some (AStr w) | None => acc end else acc) attrs acc.
Lemma dget_in : forall W x (d : list (str * W)), dget x d <> None -> In x (map fst d).
Proof. intros W x d H. unfold dget in H. destruct (find (fun e => str_eqb (fst e) x) d) as [[a b]|] eqn:E; [|contradiction]. apply find_some in E. destruct E as (I & Q). cbn in Q. apply str_eqb_eq in Q. subst a. apply (in_map fst) in I. exact I. Qed.
Lemma dget_none_in : forall W x (d : list (str * W)), dget x d = None <-> ~ In x (map fst d).
Proof.
  intros W x d. split; [|intros H; destruct (dget x d) eqn:E; [|reflexivity]; exfalso; apply H; apply dget_in; congruence].
  intros H I. induction d as [|[k v] d IH]; [destruct I|]. unfold dget in *. cbn [find fst map] in *. destruct (str_eqb k x) eqn:Q; [discriminate|]. destruct I as [->|I]; [rewrite str_eqb_refl in Q; discriminate|]. apply IH; assumption.
Qed.
Lemma merge_get : forall x (u : list (str * str)) d, NoDup (map fst u) -> dget x (fold_left (fun d e => dset (fst e) (AStr (snd e)) d) u d) = match dget x u with Some w => Some (AStr w) | None => dget x d end.
Proof.
  intros x. induction u as [|[k v] u IH]; intros d ND; [reflexivity|]. cbn [fold_left map] in *. apply NoDup_cons_iff in ND. destruct ND as (NI & ND). rewrite IH by exact ND. rewrite dget_dset. assert (dget x ((k, v) :: u) = if str_eqb k x then Some v else dget x u) as -> by (unfold dget; cbn [find fst]; destruct (str_eqb k x); reflexivity). cbn [fst snd] in *. destruct (str_eqb k x) eqn:E; [|reflexivity]. apply str_eqb_eq in E. subst x. apply dget_none_in in NI. rewrite NI. reflexivity.
Qed.
Lemma line_dict_nodup : forall (conv : str -> str) d, map fst (map (fun e : setting => (fst e, conv (snd e))) d) = map fst d.
Proof. intros conv d. rewrite map_map. reflexivity. Qed.
Lemma flat_get : forall conv attrs d, lines_fine attrs -> NoDup (map fst attrs) -> exists D, get_flat conv (map plain attrs) d = Some D /\
  (forall x, ~ In x LT_PARAMS -> dget x D = fl conv x attrs (dget x d)) /\
  (forall x, In x LT_PARAMS -> dget x D = match find (fun e => str_eqb (fst e) x) attrs with Some e => Some (AStr (snd e)) | None => dget x d end).
Proof.
  intros conv. induction attrs as [|[k v] attrs IH]; intros d HL ND; [exists d; split; [reflexivity|split; reflexivity]|]. apply NoDup_cons_iff in ND. destruct ND as (NI & ND). assert (HL' : lines_fine attrs) by (intros e E; apply HL; right; exact E).
  cbn [map plain fst snd get_flat]. destruct (mem_s k LT_PARAMS) eqn:MP.
  - destruct (mem_s k LT_REDUCED) eqn:MR.
    + destruct (HL (k, v) (or_introl eq_refl) MR) as (ds & EV & ND0 & NDs & FS & NS). cbn [snd] in EV. subst v. rewrite line_dict_text by assumption. set (u := map (fun e => (fst e, conv (snd e))) ds).
      assert (NU : NoDup (map fst u)) by (unfold u; rewrite line_dict_nodup; exact NDs).
      destruct (IH (fold_left (fun d e => dset (fst e) (AStr (snd e)) d) u (dset k (AStr (setting_text ds)) d)) HL' ND) as (D & ED & G1 & G2). exists D. split; [exact ED|]. split.
      * intros x NX. rewrite (G1 x NX). cbn [fl fold_left fst snd]. unfold fl. cbn [fold_left fst snd]. rewrite MR, line_dict_text by assumption. fold u. f_equal. rewrite merge_get by exact NU. rewrite dget_dset. destruct (str_eqb k x) eqn:E; [|reflexivity]. apply str_eqb_eq in E. subst x. exfalso. apply NX. apply mem_s_In. exact MP.
      * intros x IX. rewrite (G2 x IX). cbn [find fst snd]. destruct (str_eqb k x) eqn:E.
        -- apply str_eqb_eq in E. subst x. destruct (find (fun e => str_eqb (fst e) k) attrs) as [[a b]|] eqn:F; [apply find_some in F; destruct F as (F1 & F2); apply str_eqb_eq in F2; cbn in F2; subst a; exfalso; apply NI; apply (in_map fst) in F1; exact F1|].
           rewrite merge_get by exact NU. assert (dget k u = None) as -> by (apply dget_none_in; unfold u; rewrite line_dict_nodup; intros K; apply (NS _ K); exact IX). rewrite dget_dset, str_eqb_refl. reflexivity.
        -- destruct (find _ attrs); [reflexivity|]. rewrite merge_get by exact NU. assert (dget x u = None) as -> by (apply dget_none_in; unfold u; rewrite line_dict_nodup; intros K; apply (NS _ K); exact IX). rewrite dget_dset, E. reflexivity.
    + destruct (IH (dset k (AStr v) d) HL' ND) as (D & ED & G1 & G2). exists D. split; [exact ED|]. split.
      * intros x NX. rewrite (G1 x NX). unfold fl. cbn [fold_left fst snd]. rewrite MR, dget_dset. destruct (str_eqb k x) eqn:E; [|reflexivity]. apply str_eqb_eq in E. subst x. exfalso. apply NX. apply mem_s_In. exact MP.
      * intros x IX. rewrite (G2 x IX). cbn [find fst snd]. destruct (str_eqb k x) eqn:E.
        -- apply str_eqb_eq in E. subst x. destruct (find (fun e => str_eqb (fst e) k) attrs) as [[a b]|] eqn:F; [apply find_some in F; destruct F as (F1 & F2); apply str_eqb_eq in F2; cbn in F2; subst a; exfalso; apply NI; apply (in_map fst) in F1; exact F1|].
           rewrite dget_dset, str_eqb_refl. reflexivity.
        -- destruct (find _ attrs); [reflexivity|]. rewrite dget_dset, E. reflexivity.
  - destruct (IH d HL' ND) as (D & ED & G1 & G2). exists D. split; [exact ED|]. assert (MR : mem_s k LT_REDUCED = false). { destruct (mem_s k LT_REDUCED) eqn:Q; [|reflexivity]. apply mem_s_In in Q. assert (mem_s k LT_PARAMS = true) by (apply mem_s_In; unfold LT_PARAMS, LT_REDUCED in *; cbn [In] in *; tauto). congruence. } split.
    + intros x NX. rewrite (G1 x NX). unfold fl. cbn [fold_left fst snd]. rewrite MR. reflexivity.
    + intros x IX. rewrite (G2 x IX). cbn [find fst snd]. destruct (str_eqb k x) eqn:E; [|reflexivity]. apply str_eqb_eq in E. subst x. apply mem_s_In in IX. congruence.
Qed.
Lemma fl_none : forall conv x attrs acc, (forall e, In e attrs -> mem_s (fst e) LT_REDUCED = true -> dget x (line_dict conv (snd e)) = None) -> fl conv x attrs acc = acc.
Proof. intros conv x. induction attrs as [|e attrs IH]; intros acc H; [reflexivity|]. unfold fl. cbn [fold_left]. destruct (mem_s (fst e) LT_REDUCED) eqn:M; [rewrite (H e (or_introl eq_refl) M)|]; apply IH; intros e' E; apply H; right; exact E. Qed.
(** the attributes of a symbol *)
Lemma value_split : forall s k v, NoDup (map fst (s_attrs s)) -> value_of s k = Some v -> exists p q, s_attrs s = p ++ (k, v) :: q /\ ~ In k (map fst p) /\ ~ In k (map fst q).
Proof.
  intros s k v ND H. unfold value_of in H. destruct (find (fun e => str_eqb (fst e) k) (s_attrs s)) as [[a b]|] eqn:F; [|discriminate]. injection H as <-. apply find_some in F. destruct F as (I & Q). cbn in Q. apply str_eqb_eq in Q. subst a. apply in_split in I. destruct I as (p & q & E). exists p, q. split; [exact E|]. rewrite E, map_app in ND. cbn [map fst] in ND. apply NoDup_remove_2 in ND. split; intros K; apply ND; apply in_or_app; auto.
Qed.
Lemma value_in : forall s e, NoDup (map fst (s_attrs s)) -> In e (s_attrs s) -> value_of s (fst e) = Some (snd e).
Proof.
  intros s e ND I. unfold value_of. induction (s_attrs s) as [|x l IH]; [destruct I|]. cbn [find map] in *. apply NoDup_cons_iff in ND. destruct ND as (N1 & N2). destruct I as [->|I]; [rewrite str_eqb_refl; reflexivity|]. destruct (str_eqb (fst x) (fst e)) eqn:Q; [|apply IH; assumption]. apply str_eqb_eq in Q. exfalso. apply N1. rewrite Q. apply in_map. exact I.
Qed.
Lemma reduced_cases : forall k, mem_s k LT_REDUCED = true -> k = s2l "SpiceLine" \/ k = s2l "SpiceLine2".
Proof. intros k H. apply mem_s_In in H. destruct H as [<-|[<-|[]]]; auto. Qed.
Section Sym.
Variables (conv : str -> str) (s : symbol) (d1 d2 : list setting).
Hypothesis ND : NoDup (map fst (s_attrs s)).
Hypothesis L1 : line_of s (s2l "SpiceLine") d1.
Hypothesis L2 : line_of s (s2l "SpiceLine2") d2.
Hypothesis DIS : forall k, In k (map fst d1) -> ~ In k (map fst d2).
Lemma line_set_ok : forall k d, line_of s k d -> Forall set_ok d.
Proof. intros k d (_ & _ & H). apply Forall_forall. intros e E. destruct (H e E) as (A & B & _). split; assumption. Qed.
Lemma line_fine_1 : forall k d v, line_of s k d -> value_of s k = Some v -> line_dict_ok v /\ v = setting_text d /\ d <> [].
Proof.
  intros k d v L H. pose proof L as (E & N & S). rewrite H in E. destruct d as [|e d]; [discriminate|]. injection E as ->. split; [|split; [reflexivity|discriminate]]. exists (e :: d). split; [reflexivity|]. split; [discriminate|]. split; [exact N|]. split; [exact (line_set_ok _ _ L)|].
  intros x I. apply in_map_iff in I. destruct I as (y & <- & Y). apply (S y Y).
Qed.
Lemma sym_fine : lines_fine (s_attrs s).
Proof. intros e E M. pose proof (value_in s e ND E) as V. destruct (reduced_cases _ M) as [K|K]; rewrite K in V; [destruct (line_fine_1 _ _ _ L1 V)|destruct (line_fine_1 _ _ _ L2 V)]; assumption. Qed.
Lemma setting_dget : forall x d, dget x (map (fun e : setting => (fst e, conv (snd e))) d) = option_map conv (setting_of x d).
Proof. intros x d. unfold dget, setting_of. induction d as [|e d IH]; [reflexivity|]. cbn [map find fst]. destruct (str_eqb (fst e) x); [reflexivity|exact IH]. Qed.
Lemma setting_of_in : forall x d, setting_of x d <> None <-> In x (map fst d).
Proof.
  intros x d. unfold setting_of. induction d as [|e d IH]; [cbn; tauto|]. cbn [find map In]. destruct (str_eqb (fst e) x) eqn:Q.
  - apply str_eqb_eq in Q. split; [left; exact Q|discriminate].
  - rewrite IH. split; [right; assumption|]. intros [K|K]; [rewrite K, str_eqb_refl in Q; discriminate|exact K].
Qed.
Lemma fl_sym : forall x, fl conv x (s_attrs s) None = option_map AStr (option_map conv (match setting_of x d1 with Some v => Some v | None => setting_of x d2 end)).
Proof.
  intros x.
  assert (LD : forall k d v, line_of s k d -> value_of s k = Some v -> dget x (line_dict conv v) = option_map conv (setting_of x d)).
  { intros k d v L V. destruct (line_fine_1 _ _ _ L V) as (_ & -> & _). rewrite line_dict_text; [apply setting_dget|exact (line_set_ok _ _ L)|apply L]. }
  assert (ONE : forall k d w, line_of s k d -> mem_s k LT_REDUCED = true -> setting_of x d = Some w -> (forall e, In e (s_attrs s) -> fst e <> k -> mem_s (fst e) LT_REDUCED = true -> dget x (line_dict conv (snd e)) = None) -> fl conv x (s_attrs s) None = Some (AStr (conv w))).
  { intros k d w L M S H. assert (V : exists v, value_of s k = Some v). { destruct L as (E & _). destruct d; [discriminate|]. eauto. } destruct V as (v & V). destruct (value_split s k v ND V) as (p & q & E & N1 & N2). rewrite E in *. unfold fl. rewrite fold_left_app. cbn [fold_left fst snd]. rewrite M, (LD k d v L V), S. cbn [option_map].
    apply (fl_none conv x q). intros e I Q. apply H; [apply in_or_app; right; right; exact I| |exact Q]. intros K. apply N2. rewrite <- K. apply in_map. exact I. }
  destruct (setting_of x d1) as [w|] eqn:S1.
  - cbn [option_map]. apply (ONE _ _ _ L1 eq_refl S1). intros e I NK M. destruct (reduced_cases _ M) as [K|K]; [contradiction|]. pose proof (value_in s e ND I) as V. rewrite K in V. rewrite (LD _ _ _ L2 V). destruct (setting_of x d2) eqn:S2; [|reflexivity]. exfalso. apply (DIS x); apply setting_of_in; congruence.
  - destruct (setting_of x d2) as [w|] eqn:S2.
    + cbn [option_map]. apply (ONE _ _ _ L2 eq_refl S2). intros e I NK M. destruct (reduced_cases _ M) as [K|K]; [|contradiction]. pose proof (value_in s e ND I) as V. rewrite K in V. rewrite (LD _ _ _ L1 V), S1. reflexivity.
    + cbn [option_map]. apply fl_none. intros e I M. pose proof (value_in s e ND I) as V. destruct (reduced_cases _ M) as [K|K]; rewrite K in V; [rewrite (LD _ _ _ L1 V), S1|rewrite (LD _ _ _ L2 V), S2]; reflexivity.
Qed.
(** ** Setting *)
Lemma dicts_get : exists params, get_dicts conv (map plain (s_attrs s)) = Some params /\ (forall k, ~ In k LT_PARAMS -> dget k params = None) /\
  (forall k d, k = s2l "SpiceLine" /\ d = d1 \/ k = s2l "SpiceLine2" /\ d = d2 -> dget k params = match d with [] => None | _ => Some (PDict (map (fun e => (fst e, conv (snd e))) d)) end).
Proof.
  assert (G : forall attrs, lines_fine attrs -> exists params, get_dicts conv (map plain attrs) = Some params /\ (forall k, ~ In k LT_PARAMS -> dget k params = None) /\
    (forall k, mem_s k LT_REDUCED = true -> match find (fun e => str_eqb (fst e) k) attrs with None => dget k params = None | Some e => exists d, snd e = setting_text d /\ d <> [] /\ NoDup (map fst d) /\ Forall set_ok d /\ dget k params = Some (PDict (map (fun e => (fst e, conv (snd e))) d)) end)).
  { clear. induction attrs as [|[k v] attrs IH]; intros HL; [exists []; split; [reflexivity|split; reflexivity]|]. destruct IH as (params & E & G1 & G2); [intros e I; apply HL; right; exact I|]. cbn [map plain fst snd get_dicts]. rewrite E.
    destruct (mem_s k LT_PARAMS) eqn:MP.
    - destruct (mem_s k LT_REDUCED) eqn:MR.
      + destruct (HL (k, v) (or_introl eq_refl) MR) as (ds & EV & N0 & NDs & FS & NS). cbn [snd] in EV. rewrite EV, line_dict_text by assumption. eexists. split; [reflexivity|]. assert (NE : map (fun e => (fst e, conv (snd e))) ds <> []) by (destruct ds; [contradiction|discriminate]).
        assert (PD : (match map (fun e : str * str => (fst e, conv (snd e))) ds with [] => PVal (AStr (setting_text ds)) | p :: l => PDict (p :: l) end) = PDict (map (fun e => (fst e, conv (snd e))) ds)) by (destruct ds; [contradiction|reflexivity]). rewrite PD. split.
        * intros x NX. unfold dget. cbn [find fst]. destruct (str_eqb k x) eqn:Q; [apply str_eqb_eq in Q; subst x; exfalso; apply NX; apply mem_s_In; exact MP|]. apply (G1 x NX).
        * intros x MX. unfold dget. cbn [find fst]. destruct (str_eqb k x) eqn:Q; [|apply (G2 x MX)]. exists ds. cbn [snd]. auto.
      + eexists. split; [reflexivity|]. split.
        * intros x NX. unfold dget. cbn [find fst]. destruct (str_eqb k x) eqn:Q; [apply str_eqb_eq in Q; subst x; exfalso; apply NX; apply mem_s_In; exact MP|]. apply (G1 x NX).
        * intros x MX. unfold dget. cbn [find fst]. destruct (str_eqb k x) eqn:Q; [apply str_eqb_eq in Q; subst x; congruence|]. apply (G2 x MX).
    - exists params. split; [reflexivity|]. split; [exact G1|]. intros x MX. cbn [find fst]. destruct (str_eqb k x) eqn:Q; [|apply (G2 x MX)]. apply str_eqb_eq in Q. subst x. exfalso. apply mem_s_In in MX. assert (mem_s k LT_PARAMS = true) by (apply mem_s_In; unfold LT_PARAMS, LT_REDUCED in *; cbn [In] in *; tauto). congruence. }
  destruct (G _ sym_fine) as (params & E & G1 & G2). exists params. split; [exact E|]. split; [exact G1|].
  assert (ONE : forall k d, line_of s k d -> mem_s k LT_REDUCED = true -> dget k params = match d with [] => None | _ => Some (PDict (map (fun e => (fst e, conv (snd e))) d)) end).
  { intros k d L M. specialize (G2 k M). destruct L as (EV & N & S). assert (LS : Forall set_ok d) by (apply Forall_forall; intros e I; destruct (S e I) as (A & B & _); split; assumption). unfold value_of in EV. destruct (find (fun e => str_eqb (fst e) k) (s_attrs s)) as [e|].
    - destruct G2 as (d' & E' & N' & ND' & F' & ->). destruct d as [|x d]; [discriminate|]. injection EV as EV. rewrite E' in EV. f_equal. f_equal. rewrite <- (line_dict_text conv d'), <- (line_dict_text conv (x :: d)) by assumption. rewrite EV. reflexivity.
    - destruct d; [exact G2|discriminate]. }
  intros k d [(-> & ->)|(-> & ->)]; apply ONE; try assumption; reflexivity.
Qed.
Lemma dset_put : forall k v d, NoDup (map fst d) -> dset k v d = put_setting k v d.
Proof.
  intros k v d N. unfold put_setting. induction d as [|[a b] d IH]; [reflexivity|]. cbn [map] in N. apply NoDup_cons_iff in N. destruct N as (N1 & N2). cbn [dset has_setting existsb fst]. destruct (str_eqb a k) eqn:Q; cbn [orb].
  - apply str_eqb_eq in Q. subst a. cbn [map fst]. rewrite str_eqb_refl. f_equal. rewrite <- (map_id d) at 1. apply map_ext_in. intros e I. destruct (str_eqb (fst e) k) eqn:Q; [|reflexivity]. apply str_eqb_eq in Q. exfalso. apply N1. cbn [fst]. rewrite <- Q. apply in_map. exact I.
  - rewrite (IH N2). unfold has_setting. destruct (existsb (fun e => str_eqb (fst e) k) d); [cbn [map fst]; rewrite Q; reflexivity|reflexivity].
Qed.
Lemma has_in : forall k d, has_setting k d = true <-> In k (map fst d).
Proof. intros k d. unfold has_setting. rewrite existsb_exists, in_map_iff. split; intros (e & A & B); exists e; [apply str_eqb_eq in B|apply str_eqb_eq in A]; auto. Qed.
Hypothesis FIX1 : forall e, In e d1 -> conv (snd e) = snd e.
Hypothesis FIX2 : forall e, In e d2 -> conv (snd e) = snd e.
Lemma fixed : forall d, (forall e, In e d -> conv (snd e) = snd e) -> map (fun e : str * str => (fst e, conv (snd e))) d = d.
Proof. intros d H. rewrite <- (map_id d) at 2. apply map_ext_in. intros e I. rewrite (H e I). destruct e; reflexivity. Qed.
Theorem set_one_shows : forall l k v ty, attrs_show l s -> ~ In k spice_names -> exists l' t, set_one conv k (Some v) l ty = Some (l', Some t) /\ attrs_show l' (put_par d1 d2 k v s).
Proof.
  intros l k v ty AS NK. destruct dicts_get as (params & EP & G1 & G2). pose proof AS as (wl & b & EL & F & B). assert (ED : get_dicts conv l = Some params) by (rewrite EL, app_assoc, dicts_skip by (eapply hidden_all; eassumption); exact EP).
  unfold set_one. rewrite ED, (G1 k NK). pose proof (G2 _ _ (or_introl (conj eq_refl eq_refl))) as P1. pose proof (G2 _ _ (or_intror (conj eq_refl eq_refl))) as P2. change (s2l "SpiceLine") with SPICELINE in P1. change (s2l "SpiceLine2") with SPICELINE2 in P2. rewrite (fixed d1 FIX1) in P1. rewrite (fixed d2 FIX2) in P2.
  assert (SL : forall K d at0, dget K params = match d with [] => None | _ => Some (PDict d) end -> NoDup (map fst d) -> set_in_line K k (Some v) params at0 = Some (if has_setting k d then (dset K (AStr (dict_text (put_setting k v d))) at0, Some UpUpdateComponentParameter) else (at0, None))).
  { intros K d at0 P N. unfold set_in_line. rewrite P. destruct d as [|e d]; [reflexivity|]. destruct (dget k (e :: d)) eqn:DG.
    - assert (has_setting k (e :: d) = true) as -> by (apply has_in; apply dget_in; congruence). rewrite dset_put by exact N. reflexivity.
    - assert (has_setting k (e :: d) = false) as ->; [|reflexivity]. apply dget_none_in in DG. destruct (has_setting k (e :: d)) eqn:H; [apply has_in in H; contradiction|reflexivity]. }
  rewrite (SL _ _ l P1) by apply L1. unfold put_par. destruct (has_setting k d1) eqn:H1.
  - assert (H2 : has_setting k d2 = false). { destruct (has_setting k d2) eqn:H2; [|reflexivity]. apply has_in in H1, H2. exfalso. exact (DIS k H1 H2). }
    rewrite (SL _ _ _ P2) by apply L2. rewrite H2. cbn [later]. eexists. eexists. split; [reflexivity|]. apply attrs_set; [exact AS|reflexivity|exact ND|]. destruct L1 as (-> & _). destruct d1; [discriminate|discriminate].
  - rewrite (SL _ _ _ P2) by apply L2. destruct (has_setting k d2) eqn:H2; cbn [later].
    + eexists. eexists. split; [reflexivity|]. apply attrs_set; [exact AS|reflexivity|exact ND|]. destruct L2 as (-> & _). destruct d2; [discriminate|discriminate].
    + assert (mem_s k LT_PARAMS = false) as -> by (destruct (mem_s k LT_PARAMS) eqn:M; [apply mem_s_In in M; contradiction|reflexivity]). rewrite P1. destruct d1 as [|e d] eqn:E1.
      * eexists. eexists. split; [reflexivity|]. destruct L1 as (V & _). assert (NI : ~ In SPICELINE (map fst l)). { apply dget_none_in. rewrite (attrs_get l s SPICELINE AS eq_refl). change SPICELINE with (s2l "SpiceLine"). rewrite V. reflexivity. }
        rewrite dset_new by exact NI. exists wl, b. cbn [new_attr s_attrs s_wins]. split; [rewrite EL, map_app, <- !app_assoc; reflexivity|]. split; assumption.
      * rewrite <- E1 in *. rewrite dset_put by apply L1. eexists. eexists. split; [reflexivity|]. apply attrs_set; [exact AS|reflexivity|exact ND|]. destruct L1 as (-> & _). rewrite E1. discriminate.
Qed.
End Sym.
