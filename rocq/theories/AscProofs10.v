(** set_component_parameters on the items of an LTspice schematic. *)
From Coq Require Import String Ascii List Bool Arith ZArith Lia.
From Verif Require Import PyStr EngModel EngProofs StepsModel StepsProofs Regex CompModel UpdatesModel ParModel ParSpec QTagModel QTagProofs QParProofs QEdProofs4 AscModel AscCalls AscSpec AscParSpec AscProofs AscProofs2 AscProofs3 AscProofs4 AscProofs5 AscProofs6 AscProofs7 AscProofs8 AscProofs9.
Import ListNotations.
Local Open Scope string_scope. Local Open Scope nat_scope. Local Open Scope list_scope.

Lemma put_shows : forall a f ref c c' h, shows a f -> NoDup (map s_ref (symbols (f_items f))) -> dget ref (a_comps a) = Some c ->
  (forall s, In s (symbols (f_items f)) -> sym_shows (ref, c) s -> sym_shows (ref, c') (h s)) ->
  shows (put_comp ref c' a) (mk (f_version f) (f_sheet f) (map (on_symbol ref h) (f_items f))).
Proof.
  intros a f ref c c' h SH ND D HH. destruct SH as [A B C D' E F G H'].
  assert (PM : forall B (g : item -> list B), (forall i, g (on_symbol ref h i) = g i) -> flat_map g (map (on_symbol ref h) (f_items f)) = flat_map g (f_items f)) by (intros; apply proj_map; assumption).
  constructor; cbn [mk f_version f_sheet f_items put_comp with_comps a_version a_sheet a_wires a_labels a_lines a_shapes a_dirs a_comps]; try assumption.
  - unfold wires. rewrite PM; [exact C|]. intros []; reflexivity.
  - unfold flags. rewrite PM; [exact D'|]. intros []; reflexivity.
  - unfold dlines. rewrite PM; [exact E|]. intros []; reflexivity.
  - unfold dshapes. rewrite PM; [exact F|]. intros []; reflexivity.
  - unfold notes. rewrite PM; [exact G|]. intros []; reflexivity.
  - rewrite symbols_on. eapply comps_update; eassumption.
Qed.
(** ** The settings after putting one *)
Lemma put_names : forall k v d x, In x (map fst (put_setting k v d)) <-> x = k \/ In x (map fst d).
Proof.
  intros k v d x. unfold put_setting. destruct (has_setting k d) eqn:H.
  - apply has_in in H. rewrite map_map. assert (E : map (fun e => fst (if str_eqb (fst e) k then (k, v) else e)) d = map fst d) by (apply map_ext; intros e; destruct (str_eqb (fst e) k) eqn:Q; [apply str_eqb_eq in Q; rewrite Q|]; reflexivity). rewrite E. split; [auto|]. intros [->|K]; assumption.
  - rewrite map_app, in_app_iff. cbn. intuition congruence.
Qed.
Lemma NoDup_snoc : forall A (l : list A) x, NoDup l -> ~ In x l -> NoDup (l ++ [x]).
Proof. intros A l x N H. induction l as [|y l IH]; [constructor; [intros []|constructor]|]. apply NoDup_cons_iff in N. destruct N as (N1 & N2). cbn [app]. constructor; [|apply IH; [exact N2|intros K; apply H; right; exact K]]. intros K. apply in_app_or in K. destruct K as [K|[->|[]]]; [contradiction|]. apply H. left. reflexivity. Qed.
Lemma put_nodup : forall k v d, NoDup (map fst d) -> NoDup (map fst (put_setting k v d)).
Proof.
  intros k v d N. unfold put_setting. destruct (has_setting k d) eqn:H.
  - rewrite map_map. assert (E : map (fun e => fst (if str_eqb (fst e) k then (k, v) else e)) d = map fst d) by (apply map_ext; intros e; destruct (str_eqb (fst e) k) eqn:Q; [apply str_eqb_eq in Q; rewrite Q|]; reflexivity). rewrite E. exact N.
  - rewrite map_app. apply NoDup_snoc; [exact N|]. intros K. apply (proj2 (has_in _ _)) in K. cbn [fst] in K. congruence.
Qed.
Lemma put_entries : forall k v d e, In e (put_setting k v d) -> e = (k, v) \/ In e d.
Proof.
  intros k v d e I. unfold put_setting in I. destruct (has_setting k d); [apply in_map_iff in I; destruct I as (x & <- & X); destruct (str_eqb (fst x) k); auto|apply in_app_or in I; destruct I as [I|[I|[]]]; auto].
Qed.
Lemma put_nonempty : forall k v d, put_setting k v d <> [].
Proof. intros k v [|e d]; [discriminate|]. unfold put_setting. destruct (has_setting k (e :: d)); discriminate. Qed.
Lemma put_lookup : forall k v d x, setting_of x (put_setting k v d) = if str_eqb x k then Some v else setting_of x d.
Proof.
  intros k v d x. unfold put_setting, setting_of, has_setting. induction d as [|e d IH].
  - cbn [existsb app find fst]. rewrite (eqb_sym_s k x). destruct (str_eqb x k); reflexivity.
  - cbn [existsb]. destruct (str_eqb (fst e) k) eqn:Q; cbn [orb].
    + cbn [map]. rewrite Q. cbn [find fst]. apply str_eqb_eq in Q. rewrite Q. rewrite (eqb_sym_s k x). destruct (str_eqb x k) eqn:XK; [reflexivity|].
      assert (G : forall l, find (fun e => str_eqb (fst e) x) (map (fun e : setting => if str_eqb (fst e) k then (k, v) else e) l) = find (fun e => str_eqb (fst e) x) l).
      { induction l as [|y l IHl]; [reflexivity|]. cbn [map find]. destruct (str_eqb (fst y) k) eqn:QY.
        - apply str_eqb_eq in QY. cbn [fst]. rewrite QY, (eqb_sym_s k x), XK. exact IHl.
        - destruct (str_eqb (fst y) x); [reflexivity|exact IHl]. }
      rewrite G. reflexivity.
    + destruct (existsb (fun e => str_eqb (fst e) k) d) eqn:EX.
      * cbn [map find]. rewrite Q. destruct (str_eqb (fst e) x) eqn:QX; [apply str_eqb_eq in QX; rewrite <- QX, Q; reflexivity|exact IH].
      * cbn [app find]. destruct (str_eqb (fst e) x) eqn:QX; [apply str_eqb_eq in QX; rewrite <- QX, Q; reflexivity|exact IH].
Qed.
(** ** The symbol after putting a parameter *)
Definition good_setting (k v : str) : Prop := par_name_ok k /\ par_value v /\ ~ In k spice_names.
Lemma put_attr_value : forall K v s K', value_of s K <> None -> value_of (put_attr K v s) K' = if str_eqb K' K then Some v else value_of s K'.
Proof.
  intros K v s K' H. unfold value_of in *. cbn [put_attr s_attrs]. destruct (str_eqb K' K) eqn:Q.
  - apply str_eqb_eq in Q. subst K'. induction (s_attrs s) as [|e l IH]; [cbn in H; contradiction|]. cbn [map find] in *. destruct (str_eqb (fst e) K) eqn:E; [cbn [fst]; rewrite str_eqb_refl; reflexivity|]. rewrite E. apply IH. exact H.
  - clear H. induction (s_attrs s) as [|e l IH]; [reflexivity|]. cbn [map find]. destruct (str_eqb (fst e) K) eqn:E.
    + apply str_eqb_eq in E. cbn [fst]. rewrite E, (eqb_sym_s K K'), Q. exact IH.
    + destruct (str_eqb (fst e) K'); [reflexivity|exact IH].
Qed.
Lemma new_attr_value : forall K v s K', value_of s K = None -> value_of (new_attr K v s) K' = if str_eqb K' K then Some v else value_of s K'.
Proof.
  intros K v s K' H. unfold value_of in *. cbn [new_attr s_attrs]. induction (s_attrs s) as [|e l IH].
  - cbn [app find fst]. rewrite (eqb_sym_s K K'). destruct (str_eqb K' K); reflexivity.
  - cbn [app find] in *. destruct (str_eqb (fst e) K) eqn:E; [discriminate|]. destruct (str_eqb (fst e) K') eqn:E2; [|apply IH; exact H]. apply str_eqb_eq in E2. rewrite <- E2, E. reflexivity.
Qed.
Lemma put_attr_keys : forall K v s, map fst (s_attrs (put_attr K v s)) = map fst (s_attrs s).
Proof. intros K v s. cbn [put_attr s_attrs]. rewrite map_map. apply map_ext. intros e. destruct (str_eqb (fst e) K) eqn:Q; [apply str_eqb_eq in Q; rewrite Q|]; reflexivity. Qed.
Lemma value_none_in : forall s K, value_of s K = None -> ~ In K (map fst (s_attrs s)).
Proof. intros s K H I. unfold value_of in H. apply in_map_iff in I. destruct I as (e & <- & I). destruct (find (fun x => str_eqb (fst x) (fst e)) (s_attrs s)) eqn:F; [discriminate|]. pose proof (find_none _ _ F e I) as Q. cbn beta in Q. rewrite str_eqb_refl in Q. discriminate. Qed.
(** the settings afterwards *)
Definition new1 (d1 d2 : list setting) (k v : str) : list setting := if has_setting k d1 then put_setting k v d1 else if has_setting k d2 then d1 else put_setting k v d1.
Definition new2 (d1 d2 : list setting) (k v : str) : list setting := if has_setting k d1 then d2 else if has_setting k d2 then put_setting k v d2 else d2.
Section Put.
Variables (s : symbol) (d1 d2 : list setting) (k v : str).
Hypothesis ND : NoDup (map fst (s_attrs s)).
Hypothesis L1 : line_of s (s2l "SpiceLine") d1.
Hypothesis L2 : line_of s (s2l "SpiceLine2") d2.
Hypothesis DIS : forall x, In x (map fst d1) -> ~ In x (map fst d2).
Hypothesis GS : good_setting k v.
Notation s' := (put_par d1 d2 k v s).
Lemma put_value : forall K, value_of s' K = if str_eqb K (s2l "SpiceLine") then match new1 d1 d2 k v with [] => None | _ => Some (setting_text (new1 d1 d2 k v)) end
  else if str_eqb K (s2l "SpiceLine2") then match new2 d1 d2 k v with [] => None | _ => Some (setting_text (new2 d1 d2 k v)) end else value_of s K.
Proof.
  intros K. unfold put_par, new1, new2. destruct L1 as (V1 & _). destruct L2 as (V2 & _).
  assert (PN : forall d, match put_setting k v d with [] => None | _ => Some (setting_text (put_setting k v d)) end = Some (setting_text (put_setting k v d))) by (intros d; destruct (put_setting k v d) eqn:P; [exfalso; exact (put_nonempty _ _ _ P)|reflexivity]).
  destruct (has_setting k d1) eqn:H1.
  - rewrite PN, put_attr_value by (rewrite V1; destruct d1; [discriminate H1|discriminate]). destruct (str_eqb K (s2l "SpiceLine")); [reflexivity|]. destruct (str_eqb K (s2l "SpiceLine2")) eqn:Q; [|reflexivity]. apply str_eqb_eq in Q. rewrite Q. exact V2.
  - destruct (has_setting k d2) eqn:H2.
    + rewrite put_attr_value by (rewrite V2; destruct d2; [discriminate H2|discriminate]). rewrite PN. destruct (str_eqb K (s2l "SpiceLine2")) eqn:Q.
      * apply str_eqb_eq in Q. rewrite Q. reflexivity.
      * destruct (str_eqb K (s2l "SpiceLine")) eqn:Q1; [apply str_eqb_eq in Q1; rewrite Q1; exact V1|reflexivity].
    + rewrite PN. assert (E : value_of (match d1 with [] => new_attr (s2l "SpiceLine") (setting_text [(k, v)]) s | _ :: _ => put_attr (s2l "SpiceLine") (setting_text (put_setting k v d1)) s end) K = if str_eqb K (s2l "SpiceLine") then Some (setting_text (put_setting k v d1)) else value_of s K).
      { destruct d1 as [|e d]; [apply new_attr_value; exact V1|apply put_attr_value; rewrite V1; discriminate]. }
      rewrite E. destruct (str_eqb K (s2l "SpiceLine")); [reflexivity|]. destruct (str_eqb K (s2l "SpiceLine2")) eqn:Q; [|reflexivity]. apply str_eqb_eq in Q. rewrite Q. exact V2.
Qed.
Lemma put_line1 : line_of s' (s2l "SpiceLine") (new1 d1 d2 k v).
Proof.
  pose proof (put_value (s2l "SpiceLine")) as V. rewrite str_eqb_refl in V. split; [exact V|]. destruct L1 as (_ & N & S). destruct GS as (G1 & G2 & G3). unfold new1. assert (PS : forall d, NoDup (map fst d) -> (forall e, In e d -> par_name_ok (fst e) /\ par_value (snd e) /\ ~ In (fst e) spice_names) -> NoDup (map fst (put_setting k v d)) /\ forall e, In e (put_setting k v d) -> par_name_ok (fst e) /\ par_value (snd e) /\ ~ In (fst e) spice_names).
  { intros d Nd Sd. split; [apply put_nodup; exact Nd|]. intros e I. apply put_entries in I. destruct I as [->|I]; [cbn; auto|apply Sd; exact I]. }
  destruct (has_setting k d1); [apply PS; assumption|]. destruct (has_setting k d2); [split; assumption|apply PS; assumption].
Qed.
Lemma put_line2 : line_of s' (s2l "SpiceLine2") (new2 d1 d2 k v).
Proof.
  pose proof (put_value (s2l "SpiceLine2")) as V. assert (N12 : str_eqb (s2l "SpiceLine2") (s2l "SpiceLine") = false) by reflexivity. rewrite N12, str_eqb_refl in V. split; [exact V|]. destruct L2 as (_ & N & S). destruct GS as (G1 & G2 & G3). unfold new2. destruct (has_setting k d1); [split; assumption|]. destruct (has_setting k d2); [|split; assumption].
  split; [apply put_nodup; exact N|]. intros e I. apply put_entries in I. destruct I as [->|I]; [cbn; auto|apply S; exact I].
Qed.
Lemma put_disjoint : forall x, In x (map fst (new1 d1 d2 k v)) -> ~ In x (map fst (new2 d1 d2 k v)).
Proof.
  intros x. unfold new1, new2. destruct (has_setting k d1) eqn:H1.
  - intros I. apply put_names in I. apply has_in in H1. destruct I as [->|I]; apply DIS; assumption.
  - destruct (has_setting k d2) eqn:H2.
    + intros I J. apply put_names in J. destruct J as [->|J]; [apply (proj2 (has_in _ _)) in I; congruence|exact (DIS x I J)].
    + intros I. apply put_names in I. destruct I as [->|I]; [intros J; apply (proj2 (has_in _ _)) in J; congruence|apply DIS; exact I].
Qed.
Lemma put_setting_of : forall x, match setting_of x (new1 d1 d2 k v) with Some w => Some w | None => setting_of x (new2 d1 d2 k v) end = if str_eqb x k then Some v else match setting_of x d1 with Some w => Some w | None => setting_of x d2 end.
Proof.
  assert (NS : forall y d, has_setting y d = false -> setting_of y d = None) by (intros y d H; destruct (setting_of y d) eqn:E; [|reflexivity]; assert (I : In y (map fst d)) by (apply setting_of_in; congruence); apply (proj2 (has_in _ _)) in I; congruence).
  intros x. unfold new1, new2. destruct (has_setting k d1) eqn:H1; [rewrite put_lookup; destruct (str_eqb x k); reflexivity|]. destruct (has_setting k d2) eqn:H2.
  - rewrite put_lookup. destruct (str_eqb x k) eqn:Q; [|reflexivity]. apply str_eqb_eq in Q. subst x. rewrite (NS _ _ H1). reflexivity.
  - rewrite put_lookup. destruct (str_eqb x k); reflexivity.
Qed.
Lemma put_keys_nodup : NoDup (map fst (s_attrs s')).
Proof.
  unfold put_par. destruct (has_setting k d1); [rewrite put_attr_keys; exact ND|]. destruct (has_setting k d2); [rewrite put_attr_keys; exact ND|]. destruct d1 as [|e0 d0]; [|rewrite put_attr_keys; exact ND]. cbn [new_attr s_attrs]. rewrite map_app. apply NoDup_snoc; [exact ND|]. apply value_none_in. destruct L1 as (V & _). exact V.
Qed.
Lemma put_frame : s_name s' = s_name s /\ s_x s' = s_x s /\ s_y s' = s_y s /\ s_rot s' = s_rot s /\ s_wins s' = s_wins s /\ s_ref s' = s_ref s.
Proof. unfold put_par. destruct (has_setting k d1); [auto 10|]. destruct (has_setting k d2); [auto 10|]. destruct d1; auto 10. Qed.
Lemma put_attrs_in : forall e, In e (s_attrs s') -> In e (s_attrs s) \/ (fst e = s2l "SpiceLine" \/ fst e = s2l "SpiceLine2") /\ exists d, d <> [] /\ snd e = setting_text d /\ forall x, In x d -> x = (k, v) \/ In x d1 \/ In x d2.
Proof.
  assert (PA : forall K d e, K = s2l "SpiceLine" \/ K = s2l "SpiceLine2" -> (forall x, In x d -> x = (k, v) \/ In x d1 \/ In x d2) -> d <> [] -> In e (s_attrs (put_attr K (setting_text d) s)) -> In e (s_attrs s) \/ (fst e = s2l "SpiceLine" \/ fst e = s2l "SpiceLine2") /\ exists d, d <> [] /\ snd e = setting_text d /\ forall x, In x d -> x = (k, v) \/ In x d1 \/ In x d2).
  { intros K d e HK HD NE I. cbn [put_attr s_attrs] in I. apply in_map_iff in I. destruct I as (y & <- & Y). destruct (str_eqb (fst y) K); [right; cbn [fst snd]; split; [exact HK|]; exists d; auto|left; exact Y]. }
  intros e I. unfold put_par in I. destruct (has_setting k d1); [eapply PA; [left; reflexivity| |apply put_nonempty|exact I]; intros x X; apply put_entries in X; tauto|]. destruct (has_setting k d2); [eapply PA; [right; reflexivity| |apply put_nonempty|exact I]; intros x X; apply put_entries in X; tauto|].
  assert (I' : In e (s_attrs (put_attr (s2l "SpiceLine") (setting_text (put_setting k v d1)) s)) \/ In e (s_attrs (new_attr (s2l "SpiceLine") (setting_text [(k, v)]) s))) by (destruct d1; [right; exact I|left; exact I]). clear I. destruct I' as [I|I].
  - eapply PA; [left; reflexivity| |apply put_nonempty|exact I]. intros x X. apply put_entries in X. tauto.
  - cbn [new_attr s_attrs] in I. apply in_app_or in I. destruct I as [I|[<-|[]]]; [left; exact I|]. right. cbn [fst snd]. split; [left; reflexivity|]. exists [(k, v)]. split; [discriminate|]. split; [reflexivity|]. intros x [<-|[]]. left. reflexivity.
Qed.
End Put.

(** ** Settings on a line of the file *)
Lemma forallb_edge : forall (g : ascii -> bool) s, (forall c, g c = true -> is_space c = false) -> forallb g s = true -> edge s /\ edge (rev s).
Proof.
  intros g s H F. rewrite forallb_forall in F. split.
  - destruct s as [|c s]; [exact I|]. apply H. apply F. left. reflexivity.
  - assert (K : forall c, In c (rev s) -> is_space c = false) by (intros c C; apply in_rev in C; apply H; apply F; exact C). destruct (rev s) as [|c r]; [exact I|]. apply K. left. reflexivity.
Qed.
Lemma value_edge : forall v, par_value v -> v <> [] /\ edge (rev v).
Proof.
  intros v H. destruct H as [s A B|s A B|d u N D U].
  - split; [discriminate|]. cbn [rev]. rewrite rev_app_distr. reflexivity.
  - split; [discriminate|]. cbn [rev]. rewrite rev_app_distr. reflexivity.
  - split; [destruct d; [contradiction|discriminate]|]. apply (forallb_edge (fun c => digit_like c || unit_like c)).
    + intros c. assert (K : forall a, (digit_like a || unit_like a) = true -> negb (is_space a) = true) by (apply (CompFam.imp_sweep (fun a => digit_like a || unit_like a) (fun a => negb (is_space a))); vm_cast_no_check (eq_refl true)). intros G. apply negb_true_iff. apply K. exact G.
    + rewrite forallb_app. apply andb_true_iff. split; apply forallb_forall; intros c C; [rewrite forallb_forall in D; rewrite (D c C); reflexivity|rewrite forallb_forall in U; rewrite (U c C); apply orb_true_r].
Qed.
Lemma name_edge : forall n, par_name_ok n -> edge n.
Proof.
  intros n (N & F). apply (forallb_edge name_c); [|exact F]. intros c G. assert (K : forall a, name_c a = true -> negb (is_space a) = true) by (apply (CompFam.imp_sweep name_c (fun a => negb (is_space a))); vm_cast_no_check (eq_refl true)). apply negb_true_iff. apply K. exact G.
Qed.
Lemma name_no : forall n c, par_name_ok n -> name_c c = false -> ~ In c n.
Proof. intros n c (_ & F) H I. rewrite forallb_forall in F. rewrite (F c I) in H. discriminate. Qed.
Lemma setting_text_chars : forall c d, In c (setting_text d) <-> c = " "%char /\ 2 <= length d \/ exists e, In e d /\ (In c (fst e) \/ c = "="%char \/ In c (snd e)).
Proof.
  intros c d. induction d as [|e d IH]; [split; [intros []|intros [(_ & K)|(e & [] & _)]; cbn in K; lia]|]. destruct d as [|x d].
  - unfold setting_text. cbn [map join_blank]. rewrite !in_app_iff. split.
    + intros [K|[[K|[]]|K]]; right; exists e; (split; [left; reflexivity|]); auto.
    + intros [(_ & K)|(y & [<-|[]] & [K|[K|K]])]; [cbn in K; lia|left; exact K|right; left; left; symmetry; exact K|right; right; exact K].
  - change (setting_text (e :: x :: d)) with ((fst e ++ s2l "=" ++ snd e) ++ BLANK :: setting_text (x :: d)). rewrite !in_app_iff. change (In c (BLANK :: setting_text (x :: d))) with (BLANK = c \/ In c (setting_text (x :: d))). rewrite IH. split.
    + intros [[K|[[K|[]]|K]]|[K|[(K & _)|(y & Y & K)]]].
      * right. exists e. split; [left; reflexivity|auto]. * right. exists e. split; [left; reflexivity|auto]. * right. exists e. split; [left; reflexivity|auto].
      * left. split; [symmetry; exact K|cbn; lia]. * left. split; [exact K|cbn; lia]. * right. exists y. split; [right; exact Y|exact K].
    + intros [(K & _)|(y & [<-|Y] & K)]; [right; left; symmetry; exact K| |right; right; right; exists y; auto]. left. destruct K as [K|[K|K]]; [left; exact K|right; left; left; symmetry; exact K|right; right; exact K].
Qed.
Lemma setting_text_edges : forall d, d <> [] -> (forall e, In e d -> par_name_ok (fst e) /\ par_value (snd e)) -> setting_text d <> [] /\ edge (setting_text d) /\ edge (rev (setting_text d)).
Proof.
  intros d N H. induction d as [|e d IH]; [contradiction|]. destruct (H e (or_introl eq_refl)) as (P & V). pose proof (name_edge _ P) as EN. destruct (value_edge _ V) as (NV & EV). destruct P as (NN & _). destruct d as [|x d].
  - change (setting_text [e]) with (fst e ++ s2l "=" ++ snd e). split; [destruct (fst e); [contradiction|discriminate]|]. split; [apply edge_app; assumption|]. rewrite !rev_app_distr, <- !app_assoc. apply edge_app; [exact EV|]. intros K. apply NV. apply (f_equal (@rev ascii)) in K. rewrite rev_involutive in K. exact K.
  - destruct IH as (I1 & I2 & I3); [discriminate|intros y Y; apply H; right; exact Y|]. change (setting_text (e :: x :: d)) with ((fst e ++ s2l "=" ++ snd e) ++ BLANK :: setting_text (x :: d)). split; [destruct (fst e); [contradiction|discriminate]|]. split; [rewrite <- app_assoc; apply edge_app; assumption|].
    rewrite rev_app_distr. change (BLANK :: setting_text (x :: d)) with ([BLANK] ++ setting_text (x :: d)). rewrite rev_app_distr, <- !app_assoc. apply edge_app; [exact I3|]. intros K. apply I1. apply (f_equal (@rev ascii)) in K. rewrite rev_involutive in K. exact K.
Qed.
Lemma setting_text_clean : forall d, d <> [] -> (forall e, In e d -> par_name_ok (fst e) /\ par_value (snd e) /\ ~ In LF (snd e) /\ ~ In CR (snd e)) -> clean (setting_text d).
Proof.
  intros d N H. assert (NC : forall c, c <> " "%char -> c <> "="%char -> name_c c = false -> (forall e, In e d -> ~ In c (snd e)) -> ~ In c (setting_text d)).
  { intros c C1 C2 C3 C4 K. apply setting_text_chars in K. destruct K as [(K & _)|(e & E & [K|[K|K]])]; try contradiction; [|exact (C4 e E K)]. revert K. apply name_no; [apply H; exact E|exact C3]. }
  split; [apply NC; try discriminate; [reflexivity|intros e E; apply H; exact E]|]. split; [apply NC; try discriminate; [reflexivity|intros e E; apply H; exact E]|]. apply strip_iff. apply setting_text_edges; [exact N|]. intros e E. destruct (H e E) as (A & B & _). split; assumption.
Qed.

(** ** The call *)
Theorem set_params_shows : forall conv sub f a s d1 d2 k v, file_ok sub f -> shows a f -> a_perm a = Inform -> In (Symbol s) (f_items f) -> ~ In COLON (s_ref s) ->
  line_of s (s2l "SpiceLine") d1 -> line_of s (s2l "SpiceLine2") d2 -> (forall x, In x (map fst d1) -> ~ In x (map fst d2)) ->
  (forall e, In e d1 \/ In e d2 -> conv (snd e) = snd e) -> good_setting k v -> ~ In LF v -> ~ In CR v -> strip v = v ->
  exists a', set_component_parameters conv (s_ref s) [(k, Some v)] a = (a', true) /\ a_perm a' = Inform /\
    let f' := mk (f_version f) (f_sheet f) (map (on_symbol (s_ref s) (put_par d1 d2 k v)) (f_items f)) in shows a' f' /\ file_ok sub f'.
Proof.
  intros conv sub f a s d1 d2 k v OK SH PE IS NC L1 L2 DIS FIX GS NL NCR SV. pose proof OK as (VE & SHE & IOK & NDR & SB). pose proof (IOK _ IS) as SOK. cbn [item_ok] in SOK.
  destruct (comps_get a f (s_ref s) SH) as [(_ & N)|(c & s2 & EA & IS2 & RS & SS)]; [exfalso; exact (N s IS eq_refl)|]. assert (s2 = s) by (pose proof (find_refs _ _ _ NDR IS eq_refl); pose proof (find_refs _ _ _ NDR IS2 RS); congruence). subst s2.
  assert (MC : mem_c COLON (s_ref s) = false) by (destruct (mem_c COLON (s_ref s)) eqn:E; [apply mem_c_In in E; contradiction|reflexivity]).
  pose proof SOK as (O1 & O2 & O3 & O4 & O5 & O6 & O7 & O8). assert (AS : attrs_show (c_attrs c) s) by apply SS.
  destruct (set_one_shows conv s d1 d2 O8 L1 L2 DIS (fun e E => FIX e (or_introl E)) (fun e E => FIX e (or_intror E)) (c_attrs c) k v None AS) as (l' & t & EO & AS'); [apply GS|].
  unfold set_component_parameters, get_component. rewrite MC, EA, PE. cbn [set_params]. unfold get_component. rewrite MC, EA. cbn [option_map]. rewrite SV, EO. eexists. split; [reflexivity|]. split; [exact PE|].
  destruct (put_frame s d1 d2 k v L1 DIS) as (P1 & P2 & P3 & P4 & P5 & P6).
  assert (ONLY : forall s', In s' (symbols (f_items f)) -> s_ref s' = s_ref s -> s' = s) by (intros s' S' R'; apply in_symbols in S'; pose proof (find_refs _ _ _ NDR IS eq_refl); pose proof (find_refs _ _ _ NDR S' R'); congruence).
  split.
  - apply shows_log. apply (put_shows a f (s_ref s) c); [exact SH|exact NDR|exact EA|]. intros s' S' K. pose proof K as (K1 & K2 & K3 & K4 & K5 & K6 & K7). cbn [fst snd] in *. rewrite (ONLY s' S' (eq_sym K1)) in *.
    unfold sym_shows. cbn [fst snd with_attrs c_ref c_sym c_x c_y c_rot c_attrs]. rewrite P1, P2, P3, P4, P6. auto 10.
  - assert (SOK' : symbol_ok (put_par d1 d2 k v s)).
    { unfold symbol_ok. rewrite P1, P4, P5, P6. split; [exact O1|]. split; [exact O2|]. split; [exact O3|]. split; [exact O4|]. split; [exact O5|]. split; [exact O6|]. split; [|apply put_keys_nodup; assumption].
      intros e E. apply put_attrs_in in E; [|assumption..]. destruct E as [E|(KE & d & ND & ET & HD)]; [apply O7; exact E|]. assert (CL : forall K dd x, line_of s K dd -> In x dd -> ~ In LF (snd x) /\ ~ In CR (snd x)).
      { intros K dd x L X. pose proof L as (V & _). destruct dd as [|y dd]; [destruct X|]. destruct (value_split s K _ O8 V) as (p & q & EQ & _). destruct (O7 (K, setting_text (y :: dd))) as (_ & _ & _ & (C1 & C2 & _) & _); [rewrite EQ; apply in_or_app; right; left; reflexivity|]. cbn [snd] in C1, C2.
        split; intros I; [apply C1|apply C2]; apply setting_text_chars; right; exists x; auto. }
      assert (HS : forall x, In x d -> par_name_ok (fst x) /\ par_value (snd x) /\ ~ In LF (snd x) /\ ~ In CR (snd x)).
      { intros x X. destruct GS as (G1 & G2 & _). destruct (HD x X) as [->|[I|I]]; [cbn; auto| |].
        - pose proof L1 as (_ & _ & S). destruct (S x I) as (A & B & _). destruct (CL _ _ _ L1 I). auto.
        - pose proof L2 as (_ & _ & S). destruct (S x I) as (A & B & _). destruct (CL _ _ _ L2 I). auto. }
      unfold attr_ok. rewrite ET. assert (NEM : setting_text d <> []) by (apply setting_text_edges; [exact ND|]; intros x X; destruct (HS x X) as (A & B & _); auto).
      destruct KE as [-> | ->]; (split; [split; [discriminate|]; apply Forall_forall; repeat constructor|]; split; [discriminate|]; split; [reflexivity|]; split; [apply setting_text_clean; assumption|]; split; [exact NEM|]; intros K; discriminate K). }
    unfold file_ok, mk. cbn [f_version f_sheet f_items]. split; [exact VE|]. split; [exact SHE|]. split; [|split].
    + intros i I. apply in_map_iff in I. destruct I as (j & <- & J). destruct j as [| |s0| | |]; try (apply (IOK _ J)). cbn [on_symbol]. destruct (str_eqb (s_ref s0) (s_ref s)) eqn:E; [|apply (IOK _ J)]. apply str_eqb_eq in E. apply in_symbols in J. rewrite (ONLY s0 J E). exact SOK'.
    + rewrite symbols_on, map_map. assert (EQ : map (fun x => s_ref (if str_eqb (s_ref x) (s_ref s) then put_par d1 d2 k v x else x)) (symbols (f_items f)) = map s_ref (symbols (f_items f))); [|rewrite EQ; exact NDR].
      apply map_ext_in. intros x X. destruct (str_eqb (s_ref x) (s_ref s)) eqn:E; [|reflexivity]. apply str_eqb_eq in E. rewrite (ONLY x X E). exact P6.
    + rewrite symbols_on. intros x X. apply in_map_iff in X. destruct X as (x0 & <- & X). destruct (str_eqb (s_ref x0) (s_ref s)) eqn:E; [|apply SB; exact X]. apply str_eqb_eq in E. rewrite (ONLY x0 X E), P1, P6. apply SB. apply in_symbols. exact IS.
Qed.
(** what is answered for a symbol *)
Theorem shown_params : forall conv sub f a s d1 d2, file_ok sub f -> shows a f -> In (Symbol s) (f_items f) -> ~ In COLON (s_ref s) ->
  line_of s (s2l "SpiceLine") d1 -> line_of s (s2l "SpiceLine2") d2 -> (forall x, In x (map fst d1) -> ~ In x (map fst d2)) ->
  exists D, get_component_parameters conv (s_ref s) a = Some D /\ forall x, dget x D =
    if mem_s x spice_names then option_map AStr (value_of s x) else option_map AStr (option_map conv (match setting_of x d1 with Some w => Some w | None => setting_of x d2 end)).
Proof.
  intros conv sub f a s d1 d2 OK SH IS NC L1 L2 DIS. pose proof OK as (_ & _ & IOK & NDR & _). pose proof (IOK _ IS) as (_ & _ & _ & _ & _ & _ & _ & O8).
  destruct (comps_get a f (s_ref s) SH) as [(_ & N)|(c & s2 & EA & IS2 & RS & SS)]; [exfalso; exact (N s IS eq_refl)|]. assert (s2 = s) by (pose proof (find_refs _ _ _ NDR IS eq_refl); pose proof (find_refs _ _ _ NDR IS2 RS); congruence). subst s2.
  assert (MC : mem_c COLON (s_ref s) = false) by (destruct (mem_c COLON (s_ref s)) eqn:E; [apply mem_c_In in E; contradiction|reflexivity]).
  unfold get_component_parameters, get_component. rewrite MC, EA. rewrite (flat_shown conv _ s []) by apply SS. destruct (flat_get conv (s_attrs s) [] (sym_fine s d1 d2 O8 L1 L2) O8) as (D & ED & G1 & G2). exists D. split; [exact ED|]. intros x. destruct (mem_s x spice_names) eqn:M.
  - apply mem_s_In in M. rewrite (G2 x M). unfold value_of. destruct (find _ (s_attrs s)) as [e|]; reflexivity.
  - assert (NM : ~ In x LT_PARAMS) by (intros K; apply mem_s_In in K; unfold LT_PARAMS, spice_names in *; change (mem_s x (map s2l ["Value"; "Value2"; "SpiceModel"; "SpiceLine"; "SpiceLine2"])) with (mem_s x LT_PARAMS) in M; unfold LT_PARAMS in M; congruence).
    rewrite (G1 x NM). apply fl_sym; assumption.
Qed.
