From Coq Require Import String List Bool ZArith.
From Verif Require Import UpdatesModel UpdatesSpec.
Import ListNotations.
Local Arguments ukey_dec : simpl never.
Local Arguments key_of : simpl never.
Local Arguments in_dec : simpl never.

Lemma utype_eqb_eq a b : utype_eqb a b = true <-> a = b.
Proof. destruct a, b; simpl; split; intros H; try reflexivity; discriminate. Qed.

Lemma uval_eqb_eq a b : uval_eqb a b = true <-> a = b.
Proof.
  destruct a as [|s|x], b as [|t|y]; simpl; split; intros H; try reflexivity; try discriminate.
  - apply String.eqb_eq in H; subst; reflexivity.
  - injection H as ->; apply String.eqb_refl.
  - apply Z.eqb_eq in H; subst; reflexivity.
  - injection H as ->; apply Z.eqb_refl.
Qed.

Lemma entry_matches_key u n v t :
  t <> UpInvalid ->
  entry_matches u n v t = true <-> key_of u = key_of (Upd n v t).
Proof.
  intros Ht. unfold entry_matches, key_of; simpl.
  rewrite !andb_true_iff, !orb_true_iff, negb_true_iff, String.eqb_eq, !utype_eqb_eq, uval_eqb_eq.
  split.
  - intros [[-> Hi] Hk].
    assert (u_type u = t) as -> by (destruct Hk; [assumption | contradiction]).
    destruct (string_dec n "INSTRUCTION") as [E|E]; [|reflexivity].
    destruct Hi as [Hi| ->]; [|reflexivity].
    apply String.eqb_neq in Hi; contradiction.
  - intros H. injection H as Hn Ht' Hv. subst.
    split; [split; [reflexivity|] | left; reflexivity].
    destruct (string_dec (u_name u) "INSTRUCTION") as [E|E].
    + right. injection Hv as <-. reflexivity.
    + left. apply String.eqb_neq; assumption.
Qed.

Lemma update_eta e : Upd (u_name e) (u_value e) (u_type e) = e.
Proof. destruct e; reflexivity. Qed.

(** One step, at the level of keys. *)
Definition step (l : list update) (e : update) := add_update l (u_name e) (u_value e) (u_type e).

Lemma step_cons u l e :
  u_type e <> UpInvalid ->
  step (u :: l) e = if ukey_dec (key_of u) (key_of e) then e :: l else u :: step l e.
Proof.
  intros He. unfold step; cbn [add_update].
  pose proof (entry_matches_key u (u_name e) (u_value e) (u_type e) He) as HM.
  rewrite update_eta in HM.
  destruct (entry_matches u (u_name e) (u_value e) (u_type e)) eqn:E.
  - destruct (ukey_dec (key_of u) (key_of e)) as [K|K].
    + f_equal.
      assert (utype_eqb (u_type e) UpInvalid = false) as ->.
      { destruct (utype_eqb (u_type e) UpInvalid) eqn:F; [|reflexivity].
        apply utype_eqb_eq in F; contradiction. }
      assert (u_name u = u_name e) as ->
        by (unfold key_of in K; injection K; intros; assumption).
      apply update_eta.
    + exfalso; apply K; apply HM; reflexivity.
  - destruct (ukey_dec (key_of u) (key_of e)) as [K|K]; [|reflexivity].
    apply HM in K; discriminate.
Qed.

Lemma step_keys l e :
  u_type e <> UpInvalid ->
  map key_of (step l e) =
  if in_dec ukey_dec (key_of e) (map key_of l) then map key_of l
  else map key_of l ++ [key_of e].
Proof.
  intros He. induction l as [|u l IH].
  - unfold step; simpl. rewrite update_eta. reflexivity.
  - rewrite step_cons by assumption.
    destruct (ukey_dec (key_of u) (key_of e)) as [K|K].
    + cbn [map]. rewrite K.
      destruct (in_dec ukey_dec (key_of e) (key_of e :: map key_of l)) as [I|I]; [reflexivity|].
      exfalso; apply I; left; reflexivity.
    + cbn [map]. rewrite IH.
      destruct (in_dec ukey_dec (key_of e) (map key_of l)) as [I|I];
      destruct (in_dec ukey_dec (key_of e) (key_of u :: map key_of l)) as [I'|I'];
        try reflexivity.
      * exfalso; apply I'; right; assumption.
      * exfalso. destruct I' as [I'|I']; contradiction.
Qed.

Lemma step_In l e x :
  u_type e <> UpInvalid -> NoDup (map key_of l) ->
  In x (step l e) <-> x = e \/ (In x l /\ key_of x <> key_of e).
Proof.
  intros He. induction l as [|u l IH]; intros ND.
  - unfold step; simpl. rewrite update_eta. intuition congruence.
  - rewrite step_cons by assumption. cbn [map] in ND. inversion ND as [|? ? Hni ND']; subst.
    destruct (ukey_dec (key_of u) (key_of e)) as [K|K].
    + simpl. split.
      * intros [<-|H]; [left; reflexivity|]. right. split; [right; assumption|].
        intros E. apply Hni. rewrite K, <- E. apply in_map; assumption.
      * intros [->|[[->|H] Hk]]; [left; reflexivity| contradiction |right; assumption].
    + simpl. rewrite IH by assumption. split.
      * intros [->|[->|[H Hk]]]; auto.
      * intros [->|[[->|H] Hk]]; auto.
Qed.

Lemma log_of_snoc h e : log_of (h ++ [e]) = step (log_of h) e.
Proof. unfold log_of. rewrite fold_left_app. reflexivity. Qed.

Lemma valid_snoc h e : valid_history (h ++ [e]) -> valid_history h /\ u_type e <> UpInvalid.
Proof.
  intros V. split.
  - intros x Hx; apply V; apply in_or_app; left; assumption.
  - apply V; apply in_or_app; right; left; reflexivity.
Qed.

Lemma NoDup_snoc {A} (l : list A) x : NoDup l -> ~ In x l -> NoDup (l ++ [x]).
Proof.
  induction l as [|a l IH]; simpl; intros ND Hx.
  - constructor; [intros []|constructor].
  - inversion ND; subst. constructor.
    + rewrite in_app_iff; simpl. intros [H|[H|[]]]; [contradiction|].
      apply Hx; left; symmetry; assumption.
    + apply IH; [assumption|]. intros H; apply Hx; right; assumption.
Qed.

Lemma log_nodup h : valid_history h -> NoDup (map key_of (log_of h)).
Proof.
  induction h as [|e h IH] using rev_ind; intros V.
  - constructor.
  - apply valid_snoc in V as [V He]. rewrite log_of_snoc, step_keys by assumption.
    destruct (in_dec _ _ _); [apply IH; assumption|].
    apply NoDup_snoc; [apply IH|]; assumption.
Qed.

Lemma last_write_snoc h e k :
  last_write (h ++ [e]) k = if ukey_dec (key_of e) k then Some e else last_write h k.
Proof.
  induction h as [|x h IH]; simpl.
  - destruct (ukey_dec (key_of e) k); reflexivity.
  - rewrite IH. destruct (ukey_dec (key_of e) k); reflexivity.
Qed.

Lemma last_write_key h k u : last_write h k = Some u -> key_of u = k.
Proof.
  induction h as [|x h IH]; simpl; [discriminate|].
  destruct (last_write h k) eqn:E.
  - intros H; injection H as ->; auto.
  - destruct (ukey_dec _ _); [|discriminate]. intros H; injection H as ->; assumption.
Qed.

Lemma log_last h : valid_history h ->
  forall u, In u (log_of h) <-> last_write h (key_of u) = Some u.
Proof.
  induction h as [|e h IH] using rev_ind; intros V u.
  - simpl. split; [intros []|discriminate].
  - apply valid_snoc in V as [V He].
    rewrite log_of_snoc, step_In, last_write_snoc, IH by auto using log_nodup.
    destruct (ukey_dec (key_of e) (key_of u)) as [K|K].
    + split.
      * intros [->|[_ H]]; [reflexivity|]. congruence.
      * intros H; injection H as ->; left; reflexivity.
    + split.
      * intros [->|[H _]]; [contradiction|assumption].
      * intros H; right; split; [assumption|congruence].
Qed.

Lemma log_frame h e u : valid_history (h ++ [e]) -> key_of u <> key_of e ->
  In u (log_of (h ++ [e])) <-> In u (log_of h).
Proof.
  intros V K. pose proof (valid_snoc _ _ V) as [V' _].
  rewrite !log_last, last_write_snoc by assumption.
  destruct (ukey_dec _ _); [congruence|reflexivity].
Qed.

Lemma first_occ_snoc h : forall seen e,
  first_occurrences seen (h ++ [e]) =
  first_occurrences seen h ++
  (if in_dec ukey_dec (key_of e) (seen ++ map key_of h) then [] else [key_of e]).
Proof.
  induction h as [|x h IH]; intros seen e.
  - simpl. rewrite app_nil_r. destruct (in_dec _ _ _); reflexivity.
  - cbn [first_occurrences app map].
    destruct (in_dec ukey_dec (key_of x) seen) as [I|I].
    + rewrite IH. f_equal.
      destruct (in_dec ukey_dec (key_of e) (seen ++ map key_of h)) as [J|J];
      destruct (in_dec ukey_dec (key_of e) (seen ++ key_of x :: map key_of h)) as [J'|J'];
        try reflexivity; exfalso; rewrite in_app_iff in *; simpl in *.
      * apply J'. intuition.
      * apply J. destruct J' as [J'|[J'|J']]; auto. rewrite <- J'; auto.
    + simpl. rewrite IH. f_equal. f_equal.
      destruct (in_dec ukey_dec (key_of e) ((key_of x :: seen) ++ map key_of h)) as [J|J];
      destruct (in_dec ukey_dec (key_of e) (seen ++ key_of x :: map key_of h)) as [J'|J'];
        try reflexivity; exfalso; rewrite in_app_iff in *; simpl in *; intuition.
Qed.

Lemma first_occ_In h : forall seen k,
  In k (first_occurrences seen h) <-> In k (map key_of h) /\ ~ In k seen.
Proof.
  induction h as [|x h IH]; intros seen k; simpl.
  - intuition.
  - destruct (in_dec ukey_dec (key_of x) seen) as [I|I].
    + rewrite IH. split; [intuition|]. intros [[<-|H] N]; [contradiction|auto].
    + simpl. rewrite IH. simpl. split.
      * intros [<-|[H N]]; intuition.
      * intros [[E|H] N]; [left; assumption|].
        destruct (ukey_dec (key_of x) k); [left; assumption|right].
        split; [assumption|]. intros [E|E]; contradiction.
Qed.

Lemma log_order h : valid_history h -> map key_of (log_of h) = first_occurrences [] h.
Proof.
  induction h as [|e h IH] using rev_ind; intros V; [reflexivity|].
  apply valid_snoc in V as [V He].
  rewrite log_of_snoc, step_keys, first_occ_snoc, IH by assumption.
  change ([] ++ map key_of h) with (map key_of h).
  destruct (in_dec ukey_dec (key_of e) (first_occurrences [] h)) as [I|I];
  destruct (in_dec ukey_dec (key_of e) (map key_of h)) as [J|J];
    rewrite ?app_nil_r; try reflexivity; exfalso; rewrite first_occ_In in I; simpl in *.
  - apply J, I.
  - apply I. auto.
Qed.

(** Queries. *)
Lemma log_value_In l n u :
  NoDup (map key_of l) -> n <> "INSTRUCTION"%string ->
  In u l -> u_name u = n -> u_type u = UpUpdateComponentValue -> log_value l n = u_value u.
Proof.
  induction l as [|x l IH]; simpl; [intros _ _ []|].
  intros ND Hn [->|H] En Et.
  - rewrite En, Et, String.eqb_refl. reflexivity.
  - inversion ND as [|? ? Hni ND']; subst.
    destruct (utype_eqb (u_type x) UpUpdateComponentValue && (u_name x =? u_name u)%string) eqn:E.
    + apply andb_true_iff in E as [E1 E2]. apply utype_eqb_eq in E1. apply String.eqb_eq in E2.
      exfalso. apply Hni. replace (key_of x) with (key_of u); [apply in_map; assumption|].
      unfold key_of. rewrite E1, Et, E2.
      destruct (string_dec (u_name u) "INSTRUCTION"); [contradiction|reflexivity].
    + apply IH; auto.
Qed.

Lemma log_value_none l n :
  (forall u, In u l -> u_name u = n -> u_type u <> UpUpdateComponentValue) -> log_value l n = VNone.
Proof.
  induction l as [|x l IH]; simpl; intros H; [reflexivity|].
  destruct (utype_eqb _ _ && _) eqn:E.
  - apply andb_true_iff in E as [E1 E2]. apply utype_eqb_eq in E1. apply String.eqb_eq in E2.
    exfalso. apply (H x); auto.
  - apply IH; intros; apply H; auto.
Qed.

Lemma last_component_value_snoc h e n :
  last_component_value (h ++ [e]) n =
  if string_dec (u_name e) n then
    match u_type e with UpUpdateComponentValue => Some (u_value e)
                   | _ => last_component_value h n end
  else last_component_value h n.
Proof.
  induction h as [|x h IH]; simpl.
  - destruct (string_dec _ _); destruct (u_type e); reflexivity.
  - rewrite IH. destruct (string_dec (u_name e) n); destruct (u_type e); reflexivity.
Qed.

Lemma last_component_value_write h n :
  n <> "INSTRUCTION"%string ->
  last_component_value h n =
  option_map u_value (last_write h (n, UpUpdateComponentValue, None)).
Proof.
  intros Hn. induction h as [|e h IH] using rev_ind; [reflexivity|].
  rewrite last_component_value_snoc, last_write_snoc, IH.
  destruct (ukey_dec (key_of e) (n, UpUpdateComponentValue, None)) as [K|K].
  - unfold key_of in K. injection K as K1 K2 _. rewrite K1, K2.
    destruct (string_dec n n); [reflexivity|contradiction].
  - destruct (string_dec (u_name e) n) as [E|E]; [|reflexivity].
    destruct (u_type e) eqn:T; try reflexivity.
    exfalso; apply K. unfold key_of. rewrite E, T.
    destruct (string_dec n "INSTRUCTION"); [contradiction|reflexivity].
Qed.

Lemma value_returns_last h n :
  valid_history h -> n <> "INSTRUCTION"%string ->
  log_value (log_of h) n =
  match last_component_value h n with Some v => v | None => VNone end.
Proof.
  intros V Hn. rewrite last_component_value_write by assumption.
  destruct (last_write h (n, UpUpdateComponentValue, None)) as [u|] eqn:E; simpl.
  - pose proof (last_write_key _ _ _ E) as K.
    assert (u_name u = n /\ u_type u = UpUpdateComponentValue) as [Kn Kt]
      by (unfold key_of in K; injection K; intros; subst; auto).
    apply log_value_In; auto using log_nodup.
    apply log_last; [assumption|]. rewrite K; assumption.
  - apply log_value_none. intros u Hu Hun Hut.
    apply log_last in Hu; [|assumption].
    replace (key_of u) with (n, UpUpdateComponentValue, @None uval) in Hu; [congruence|].
    unfold key_of. rewrite Hun, Hut. destruct (string_dec n "INSTRUCTION"); [contradiction|reflexivity].
Qed.

Definition is_param_kind (t : utype) : bool :=
  match t with UpUpdateParameter | UpAddParameter => true | _ => false end.

Lemma last_param_value_snoc h e n :
  last_param_value (h ++ [e]) n =
  if string_dec (u_name e) n then
    if is_param_kind (u_type e) then Some (u_value e) else last_param_value h n
  else last_param_value h n.
Proof.
  induction h as [|x h IH]; simpl.
  - destruct (string_dec _ _); destruct (u_type e); reflexivity.
  - rewrite IH. destruct (string_dec (u_name e) n); destruct (u_type e); reflexivity.
Qed.

Lemma log_parameter_none l n :
  (forall u, In u l -> u_name u = n -> is_param_kind (u_type u) = false) -> log_parameter l n = VNone.
Proof.
  induction l as [|x l IH]; simpl; intros H; [reflexivity|].
  destruct (_ && _) eqn:E.
  - apply andb_true_iff in E as [E1 E2]. apply String.eqb_eq in E2. symmetry in E2.
    specialize (H x (or_introl eq_refl) E2). destruct (u_type x); discriminate.
  - apply IH; intros; apply H; auto.
Qed.

Lemma log_parameter_In l n u :
  (forall x, In x l -> u_name x = n -> is_param_kind (u_type x) = true -> x = u) ->
  In u l -> u_name u = n -> is_param_kind (u_type u) = true -> log_parameter l n = u_value u.
Proof.
  induction l as [|x l IH]; simpl; [intros _ []|].
  intros HU [->|H] En Et.
  - rewrite En, String.eqb_refl. destruct (u_type u); try discriminate; reflexivity.
  - destruct (_ && _) eqn:E.
    + apply andb_true_iff in E as [E1 E2]. apply String.eqb_eq in E2. symmetry in E2.
      rewrite (HU x (or_introl eq_refl) E2); [reflexivity|].
      destruct (u_type x); try discriminate; reflexivity.
    + apply IH; auto.
Qed.

(** Only one of the two kinds (added / updated) was ever recorded for parameter [n]. *)
Definition one_param_kind (h : list update) (n : string) (k : utype) : Prop :=
  is_param_kind k = true /\
  forall e, In e h -> u_name e = n -> is_param_kind (u_type e) = true -> u_type e = k.

Lemma last_param_value_write h n k :
  n <> "INSTRUCTION"%string -> one_param_kind h n k ->
  last_param_value h n = option_map u_value (last_write h (n, k, None)).
Proof.
  intros Hn. induction h as [|e h IH] using rev_ind; intros [Pk Hk]; [reflexivity|].
  rewrite last_param_value_snoc, last_write_snoc.
  assert (one_param_kind h n k) as Hk'.
  { split; [assumption|]. intros x Hx; apply Hk; apply in_or_app; left; assumption. }
  rewrite (IH Hk').
  specialize (Hk e (in_elt e h [])).
  destruct (ukey_dec (key_of e) (n, k, None)) as [K|K].
  - unfold key_of in K. injection K as K1 K2 _. rewrite K1, K2, Pk.
    destruct (string_dec n n); [reflexivity|contradiction].
  - destruct (string_dec (u_name e) n) as [E|E]; [|reflexivity].
    destruct (is_param_kind (u_type e)) eqn:T; [|reflexivity].
    exfalso; apply K. unfold key_of. rewrite (Hk E eq_refl), E.
    destruct (string_dec n "INSTRUCTION"); [contradiction|reflexivity].
Qed.

Lemma log_subset h u : valid_history h -> In u (log_of h) -> In u h.
Proof.
  intros V H. apply log_last in H; [|assumption]. revert H. generalize (key_of u) as k.
  clear V. induction h as [|x h IH]; simpl; [discriminate|]. intros k.
  destruct (last_write h k) eqn:E.
  - intros H; injection H as ->; right; eapply IH; eassumption.
  - destruct (ukey_dec _ _); [|discriminate]. intros H; injection H as ->; left; reflexivity.
Qed.

Lemma parameter_returns_last_partial h n k :
  valid_history h -> n <> "INSTRUCTION"%string -> one_param_kind h n k ->
  log_parameter (log_of h) n =
  match last_param_value h n with Some v => v | None => VNone end.
Proof.
  intros V Hn HK. rewrite (last_param_value_write _ _ _ Hn HK). destruct HK as [Pk HK].
  assert (forall u, In u (log_of h) -> u_name u = n -> is_param_kind (u_type u) = true ->
                    last_write h (n, k, None) = Some u) as HL.
  { intros u Hu Eu Tu.
    assert (u_type u = k) as Tk by (apply HK; auto using log_subset).
    apply log_last in Hu; [|assumption].
    replace (key_of u) with (n, k, @None uval) in Hu; [assumption|].
    unfold key_of. rewrite Eu, Tk.
    destruct (string_dec n "INSTRUCTION"); [contradiction|reflexivity]. }
  destruct (last_write h (n, k, None)) as [u|] eqn:E; simpl.
  - pose proof (last_write_key _ _ _ E) as K.
    assert (u_name u = n /\ u_type u = k) as [Kn Kt]
      by (unfold key_of in K; injection K; intros; subst; auto).
    apply log_parameter_In; auto; [| |rewrite Kt; assumption].
    + intros x Hx Ex Tx. specialize (HL x Hx Ex Tx). congruence.
    + apply log_last; [assumption|]. rewrite K; assumption.
  - apply log_parameter_none. intros u Hu Eu.
    destruct (is_param_kind (u_type u)) eqn:T; [|reflexivity].
    specialize (HL u Hu Eu T). discriminate.
Qed.
