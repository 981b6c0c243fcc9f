(** LTSpiceExport, and lines of step information that are not recognised. *)
From Coq Require Import String Ascii List Bool Arith Lia.
From Verif Require Import PyStr Regex RegexProofs StepsModel StepsProofs LogModel CompModel CompProofs QlogModel QlogProofs LtlogProofs OpProofs ExpModel ExpSpec ExpProofs.
Import ListNotations.
Local Open Scope string_scope. Local Open Scope nat_scope. Local Open Scope list_scope.

(** ** Lines that are not recognised *)
Lemma paren_after : forall u b rest (R : Type) w p c (k : @kont R), forallb step_char u = true -> step_char b = false -> aeqb b "(" = false ->
  m (seqs (Plus (Chr (fun c => aeqb c " ")) :: lit "(" :: w)) p (u ++ b :: rest) c k = None.
Proof.
  intros u b rest R w p c k U B P. assert (NP : forall x, step_char x = true -> aeqb x "(" = false) by (intros x X; destruct (aeqb x "(") eqn:E; [apply aeqb_eq in E; subst x; discriminate X|reflexivity]).
  assert (HEAD : forall v s', u ++ b :: rest = v ++ s' -> forallb (fun c => aeqb c " ") v = true -> exists x s2, s' = x :: s2 /\ aeqb x "(" = false).
  { intros v. revert u U. induction v as [|y v IH]; intros u U s' E V.
    - cbn [app] in E. subst s'. destruct u as [|x u]; [exists b, rest; auto|]. cbn [forallb] in U. apply andb_true_iff in U. exists x, (u ++ b :: rest). split; [reflexivity|apply NP; tauto].
    - cbn [forallb] in V. apply andb_true_iff in V. destruct V as (V1 & V2). destruct u as [|x u]; cbn [app] in E; injection E as E1 E2.
      + subst y. apply aeqb_eq in V1. subst b. discriminate B.
      + cbn [forallb] in U. apply andb_true_iff in U. exact (IH u (proj2 U) s' E2 V2). }
  rewrite m_seqs_cons. unfold Plus. rewrite m_seq.
  destruct (u ++ b :: rest) as [|y l] eqn:E; [destruct u; discriminate|]. destruct (aeqb y " ") eqn:Y; [|rewrite m_chr_no by exact Y; reflexivity]. rewrite m_chr_ok by exact Y.
  change (m (Star true (Chr (fun c0 => aeqb c0 " "))) ?pp l ?cc ?kk) with (star (m (Chr (fun c0 => aeqb c0 " "))) true (length l) pp l cc kk). apply star_none; [apply le_n|].
  intros v s' L V. destruct (HEAD (y :: v) s') as (x & s2 & -> & X); [subst l; reflexivity|cbn [forallb]; rewrite Y; exact V|]. rewrite m_seqs_cons. unfold lit. rewrite m_chr_no by exact X. reflexivity.
Qed.
Lemma info_unknown : forall w u b rest, forallb step_char u = true -> step_char b = false -> aeqb b "(" = false ->
  step_info (info_re w) (s2l "Step Information: " ++ u ++ b :: rest) = None.
Proof.
  intros w u b rest U B P. unfold step_info, re_match, info_re. rewrite m_lits. cbn [app]. rewrite m_seqs_cons, m_grp. unfold Plus at 1. rewrite m_seq.
  destruct u as [|a u]; cbn [app]; [rewrite m_chr_no by exact B; reflexivity|]. cbn [forallb] in U. apply andb_true_iff in U. destruct U as (A & U). rewrite m_chr_ok by exact A.
  assert (G : forall kk, (forall p u', forallb step_char u' = true -> kk p (u' ++ b :: rest) [] = None) -> forall p, m (R := nat * caps) (Star true (Chr step_char)) p (u ++ b :: rest) [] kk = None).
  { intros kk K p. change (m (Star true (Chr step_char)) p (u ++ b :: rest) [] kk) with (star (m (Chr step_char)) true (length (u ++ b :: rest)) p (u ++ b :: rest) [] kk). apply star_none; [apply le_n|].
    intros v s' E V. clear - K U B E V. revert u U p E. induction v as [|y v IH]; intros u U p E; [cbn [app] in E; subst s'; rewrite <- (K (p + 0) u U); reflexivity|].
    cbn [forallb] in V. apply andb_true_iff in V. destruct V as (V1 & V2). destruct u as [|x u]; cbn [app] in E; injection E as E1 E2; [subst y; congruence|]. cbn [forallb] in U. apply andb_true_iff in U.
    rewrite <- (IH V2 u (proj2 U) (S p) E2). f_equal. cbn [length]. lia. }
  rewrite G; [reflexivity|]. intros p u' U'. apply paren_after; assumption.
Qed.
Lemma first_bad : forall s c, In c s -> step_char c = false -> exists u b rest, s = u ++ b :: rest /\ forallb step_char u = true /\ step_char b = false /\ In b s.
Proof.
  induction s as [|x s IH]; intros c I C; [destruct I|]. destruct (step_char x) eqn:X.
  - destruct I as [-> | I]; [congruence|]. destruct (IH c I C) as (u & b & rest & -> & U & B & J). exists (x :: u), b, rest. cbn [forallb]. rewrite X. repeat split; try assumption. right. exact J.
  - exists [], x, s. repeat split; try assumption. left. reflexivity.
Qed.
Lemma strange_line : forall w word r c, In c (text_of r) -> step_char c = false -> ~ In "("%char (text_of r) -> step_info (info_re w) (info_line word r) = None.
Proof.
  intros w word r c I C NP. destruct (first_bad _ c I C) as (u & b & rest & E & U & B & J). unfold info_line. fold (text_of r). rewrite E. rewrite <- app_assoc. cbn [app].
  apply info_unknown; [exact U|exact B|]. destruct (aeqb b "(") eqn:F; [|reflexivity]. apply aeqb_eq in F. subst b. contradiction.
Qed.

(** ** Lookups *)
Section Export.
Context {V : Type} (conv raw : str -> V).
Notation cols := (columns V).

Lemma append_values_spec : forall hs vals (d : cols), length vals = length hs -> NoDup (map lower hs) -> (forall h, In h hs -> dget (lower h) d <> None) ->
  exists d', append_values conv hs vals d = Some d' /\
    (forall i h v l, nth_error hs i = Some h -> nth_error vals i = Some v -> dget (lower h) d = Some l -> dget (lower h) d' = Some (l ++ [conv v])) /\
    (forall k, ~ In k (map lower hs) -> dget k d' = dget k d).
Proof.
  induction hs as [|h hs IH]; intros vals d L ND P.
  - destruct vals; [|discriminate]. exists d. split; [reflexivity|]. split; [intros [|i]; discriminate|reflexivity].
  - destruct vals as [|v vals]; [discriminate|]. cbn [map] in ND. apply NoDup_cons_iff in ND. destruct ND as (N1 & ND). cbn [append_values].
    destruct (dget (lower h) d) as [l0|] eqn:E; [|destruct (P h (or_introl eq_refl) E)].
    assert (OTHER : forall k, k <> lower h -> dget k (dset (lower h) (l0 ++ [conv v]) d) = dget k d).
    { intros k K. rewrite dget_dset. destruct (str_eqb (lower h) k) eqn:F; [apply str_eqb_eq in F; subst k; contradiction|reflexivity]. }
    destruct (IH vals (dset (lower h) (l0 ++ [conv v]) d)) as (d' & E' & A & B); [cbn in L; lia|exact ND| |].
    + intros g G. destruct (str_eqb (lower h) (lower g)) eqn:F; [rewrite dget_dset, F; discriminate|]. rewrite dget_dset, F. apply P. right. exact G.
    + exists d'. split; [exact E'|]. split.
      * intros [|i] g w l G W DL; cbn [nth_error] in G, W.
        { injection G as <-. injection W as <-. rewrite E in DL. injection DL as <-. rewrite B by exact N1. rewrite dget_dset, str_eqb_refl. reflexivity. }
        { apply (A i g w l G W). rewrite OTHER; [exact DL|]. intros F. apply N1. rewrite <- F. apply in_map. exact (nth_error_In _ _ G). }
      * intros k K. cbn [map In] in K. rewrite B by tauto. apply OTHER. intros F. apply K. left. symmetry. exact F.
Qed.
Lemma append_current_spec : forall cur (d : cols), NoDup (map (fun p => lower (fst p)) cur) -> (forall p, In p cur -> dget (lower (fst p)) d <> None) ->
  exists d', append_current cur d = Some d' /\
    (forall k v l, In (k, v) cur -> dget (lower k) d = Some l -> dget (lower k) d' = Some (l ++ [v])) /\
    (forall k, ~ In k (map (fun p => lower (fst p)) cur) -> dget k d' = dget k d).
Proof.
  induction cur as [|[k v] cur IH]; intros d ND P; [exists d; split; [reflexivity|]; split; [intros ? ? ? []|reflexivity]|].
  cbn [map fst] in ND. apply NoDup_cons_iff in ND. destruct ND as (N1 & ND). cbn [append_current]. destruct (dget (lower k) d) as [l0|] eqn:E; [|destruct (P (k, v) (or_introl eq_refl) E)].
  assert (OTHER : forall j, j <> lower k -> dget j (dset (lower k) (l0 ++ [v]) d) = dget j d).
  { intros j J. rewrite dget_dset. destruct (str_eqb (lower k) j) eqn:F; [apply str_eqb_eq in F; subst j; contradiction|reflexivity]. }
  destruct (IH (dset (lower k) (l0 ++ [v]) d)) as (d' & E' & A & B); [exact ND| |].
  + intros p I. rewrite dget_dset. destruct (str_eqb (lower k) (lower (fst p))); [discriminate|]. apply P. right. exact I.
  + exists d'. split; [exact E'|]. split.
    * intros j w l [J|J] DL.
      { injection J as -> ->. rewrite E in DL. injection DL as <-. rewrite B by exact N1. rewrite dget_dset, str_eqb_refl. reflexivity. }
      { apply (A j w l J). rewrite OTHER; [exact DL|]. intros F. apply N1. rewrite <- F. apply (in_map (fun p => lower (fst p))) in J. exact J. }
    * intros j J. cbn [map In fst] in J. rewrite B by tauto. apply OTHER. intros F. apply J. left. symmetry. exact F.
Qed.
Lemma empty_lists_spec : forall keys (d : cols) k, dget k (empty_lists keys d) = if existsb (str_eqb k) (map lower keys) then Some [] else dget k d.
Proof.
  unfold empty_lists. induction keys as [|x keys IH]; intros d k; [reflexivity|]. cbn [fold_left map existsb]. rewrite IH, dget_dset. destruct (existsb (str_eqb k) (map lower keys)); [rewrite orb_true_r; reflexivity|].
  rewrite orb_false_r. destruct (str_eqb k (lower x)) eqn:E; [apply str_eqb_eq in E; subst k; rewrite str_eqb_refl; reflexivity|]. destruct (str_eqb (lower x) k) eqn:F; [apply str_eqb_eq in F; subst k; rewrite str_eqb_refl in E; discriminate|reflexivity].
Qed.

(** ** The current step *)
Definition cell (p : str * str) : str * V := (fst p, conv (snd p)).
Lemma set_current_fold : forall l cur, Forall param_ok l -> set_current conv (tokens l) cur = Some (fold_left (fun c p => dset (fst p) (conv (snd p)) c) l cur).
Proof. induction l as [|p l IH]; intros cur H; [reflexivity|]. apply Forall_cons_iff in H. destruct H as (P & H). unfold tokens in *. cbn [map set_current fold_left]. rewrite split_token by exact P. apply IH. exact H. Qed.
Lemma dset_fresh' : forall (W : Type) k (v : W) d, ~ In k (map fst d) -> dset k v d = d ++ [(k, v)].
Proof. intros W k v d. induction d as [|[a b] d IH]; intros H; [reflexivity|]. cbn [dset app]. destruct (str_eqb a k) eqn:E; [apply str_eqb_eq in E; subst a; exfalso; apply H; left; reflexivity|]. rewrite IH; [reflexivity|]. intros K. apply H. right. exact K. Qed.
Lemma fold_fresh : forall l (pre : list (str * V)), NoDup (map fst pre ++ map fst l) -> fold_left (fun c p => dset (fst p) (conv (snd p)) c) l pre = pre ++ map cell l.
Proof.
  induction l as [|p l IH]; intros pre ND; [cbn; rewrite app_nil_r; reflexivity|]. cbn [fold_left map] in *. pose proof (NoDup_remove_2 _ _ _ ND) as N2. rewrite dset_fresh' by (intros I; apply N2; apply in_or_app; left; exact I).
  rewrite IH; [rewrite <- app_assoc; reflexivity|]. rewrite map_app, <- app_assoc. exact ND.
Qed.
Lemma fold_over : forall l (pre old : list (str * V)), map fst old = map fst l -> NoDup (map fst pre ++ map fst l) -> fold_left (fun c p => dset (fst p) (conv (snd p)) c) l (pre ++ old) = pre ++ map cell l.
Proof.
  induction l as [|p l IH]; intros pre old E ND; [destruct old; [reflexivity|discriminate]|]. destruct old as [|[k v] old]; [discriminate|]. cbn [fold_left map] in *. cbn [fst] in E. injection E as E1 E2. subst k.
  pose proof (NoDup_remove_2 _ _ _ ND) as N2. rewrite dset_mid by (intros I; apply N2; apply in_or_app; left; exact I).
  change ((fst p, conv (snd p)) :: old) with ([cell p] ++ old). rewrite app_assoc. rewrite IH; [rewrite <- app_assoc; reflexivity|exact E2|]. rewrite map_app, <- app_assoc. exact ND.
Qed.

(** ** The data of the runs *)
Definition keys (hs names : list str) : list str := map lower (hs ++ s2l "runno" :: names).
Definition width (hs : list str) (r : run) : Prop := Forall (fun row => length row = length hs /\ Forall (fun x => ~ In HT x) row) (r_rows r).
Definition cur_of (r : run) : list (str * V) := (s2l "runno", raw (r_no r)) :: map cell (r_params r).
(** the columns after the rows of [done] *)
Definition holds (hs names : list str) (done : list run) (d : cols) : Prop :=
  (forall i h, nth_error hs i = Some h -> dget (lower h) d = Some (per_row (fun _ row => conv (nth i row [])) done)) /\
  dget (s2l "runno") d = Some (per_row (fun r _ => raw (r_no r)) done) /\
  (forall j k, nth_error names j = Some k -> dget (lower k) d = Some (per_row (fun r _ => conv (nth j (map snd (r_params r)) [])) done)) /\
  (forall k, ~ In k (keys hs names) -> dget k d = None).

Lemma split_row : forall row, row <> [] -> Forall (fun x => ~ In HT x) row -> split_on TABc (sep_by HT row) = row.
Proof.
  intros row N H. induction H as [|x row X H IH]; [contradiction|]. cbn [sep_by]. destruct row as [|y row]; [apply split_on_plain; exact X|]. change TABc with HT in *. rewrite split_on_cons by exact X. f_equal. apply IH. discriminate.
Qed.
Lemma per_row_app : forall (W : Type) (f : run -> list str -> W) a b, per_row f (a ++ b) = per_row f a ++ per_row f b.
Proof. intros W f a b. unfold per_row. apply flat_map_app. Qed.


Definition holdsF (hs names : list str) (H : nat -> list V) (R : list V) (P : nat -> list V) (d : cols) : Prop :=
  (forall i h, nth_error hs i = Some h -> dget (lower h) d = Some (H i)) /\ dget (s2l "runno") d = Some R /\
  (forall j k, nth_error names j = Some k -> dget (lower k) d = Some (P j)) /\ (forall k, ~ In k (keys hs names) -> dget k d = None).
Lemma keys_split : forall hs names, NoDup (keys hs names) -> NoDup (map lower hs) /\ NoDup (map lower (s2l "runno" :: names)) /\ (forall k, In k (map lower hs) -> ~ In k (map lower (s2l "runno" :: names))).
Proof.
  intros hs names ND. unfold keys in ND. rewrite map_app in ND. split; [|split].
  - clear - ND. induction (map lower hs) as [|x l IH]; [constructor|]. cbn [app] in ND. apply NoDup_cons_iff in ND. destruct ND as (N & ND). constructor; [intros I; apply N, in_or_app; left; exact I|apply IH; exact ND].
  - clear - ND. induction (map lower hs) as [|x l IH]; [exact ND|]. cbn [app] in ND. apply NoDup_cons_iff in ND. apply IH, ND.
  - intros k I J. clear - ND I J. induction (map lower hs) as [|x l IH]; [destruct I|]. cbn [app] in ND. apply NoDup_cons_iff in ND. destruct ND as (N & ND). destruct I as [-> | I]; [apply N, in_or_app; right; exact J|exact (IH ND I)].
Qed.
Lemma cur_keys : forall r names, map fst (r_params r) = names -> map (fun p => lower (fst p)) (cur_of r) = map lower (s2l "runno" :: names).
Proof. intros r names <-. unfold cur_of. cbn [map fst]. f_equal. rewrite !map_map. apply map_ext. intros [a b]. reflexivity. Qed.
Lemma nth_error_map' : forall (A B : Type) (f : A -> B) l i, nth_error (map f l) i = option_map f (nth_error l i).
Proof. intros A B f l. induction l as [|x l IH]; intros [|i]; [reflexivity|reflexivity|reflexivity|apply IH]. Qed.

Lemma exp_row : forall hs names r row H R P d b, hs <> [] -> NoDup (keys hs names) -> run_ok names r -> row_ok row -> length row = length hs -> Forall (fun x => ~ In HT x) row ->
  holdsF hs names H R P d ->
  exists d', exp_line conv raw hs (sep_by HT row) (EState b (cur_of r) d) = Some (EState b (cur_of r) d') /\
    holdsF hs names (fun i => H i ++ [conv (nth i row [])]) (R ++ [raw (r_no r)]) (fun j => P j ++ [conv (nth j (map snd (r_params r)) [])]) d'.
Proof.
  intros hs names r row H R P d b NH ND OK RO L TB (HH & HR & HP & HN). destruct (keys_split hs names ND) as (N1 & N2 & N3). destruct OK as (_ & _ & PO & NM & _).
  unfold exp_line. rewrite row_starts by exact RO. cbn [e_cur e_data e_header]. rewrite split_row; [|destruct row; [destruct hs; [contradiction|discriminate]|discriminate]|exact TB].
  destruct (append_current_spec (cur_of r) d) as (d1 & E1 & A1 & B1).
  { rewrite (cur_keys r names NM). exact N2. }
  { intros p [<- | I]; cbn [fst]; [change (lower (s2l "runno")) with (s2l "runno"); rewrite HR; discriminate|]. apply in_map_iff in I. destruct I as (q & <- & I). cbn [cell fst]. apply (in_map fst) in I. rewrite NM in I. apply In_nth_error in I. destruct I as (j & J). rewrite (HP j _ J). discriminate. }
  rewrite E1. rewrite (cur_keys r names NM) in B1.
  assert (KEEP : forall h, In h hs -> dget (lower h) d1 = dget (lower h) d) by (intros h I; apply B1; apply N3; apply in_map; exact I).
  destruct (append_values_spec hs row d1) as (d2 & E2 & A2 & B2); [exact L|exact N1| |].
  { intros h I. rewrite KEEP by exact I. apply In_nth_error in I. destruct I as (i & I). rewrite (HH i h I). discriminate. }
  rewrite E2. exists d2. split; [reflexivity|]. assert (OUT : forall k, In k (map lower (s2l "runno" :: names)) -> ~ In k (map lower hs)) by (intros k I J; exact (N3 k J I)).
  split; [|split; [|split]].
  - intros i h I. destruct (nth_error row i) as [v|] eqn:W; [|apply nth_error_None in W; assert (i < length hs) by (apply nth_error_Some; congruence); lia].
    rewrite (A2 i h v (H i) I W) by (rewrite KEEP by exact (nth_error_In _ _ I); exact (HH i h I)). rewrite (nth_error_nth _ _ _ W). reflexivity.
  - rewrite B2 by (apply OUT; left; reflexivity). exact (A1 (s2l "runno") (raw (r_no r)) R (or_introl eq_refl) HR).
  - intros j k J. rewrite B2 by (apply OUT; right; apply in_map; exact (nth_error_In _ _ J)). apply (A1 k); [|exact (HP j k J)]. right. rewrite <- NM, nth_error_map' in J.
    destruct (nth_error (r_params r) j) as [q|] eqn:Q; [|discriminate]. cbn [option_map] in J. injection J as <-. apply in_map_iff. exists q. split; [|exact (nth_error_In _ _ Q)]. unfold cell. f_equal. f_equal.
    symmetry. apply nth_error_nth. rewrite nth_error_map', Q. reflexivity.
  - intros k K. unfold keys in K. rewrite map_app in K. rewrite B2 by (intros I; apply K, in_or_app; left; exact I). rewrite B1 by (intros I; apply K, in_or_app; right; exact I). apply HN. unfold keys. rewrite map_app. exact K.
Qed.
Lemma exp_rows : forall hs names r rows H R P d b, hs <> [] -> NoDup (keys hs names) -> run_ok names r -> Forall row_ok rows -> Forall (fun row => length row = length hs /\ Forall (fun x => ~ In HT x) row) rows ->
  holdsF hs names H R P d ->
  exists d', exp_lines conv raw hs (map (sep_by HT) rows) (EState b (cur_of r) d) = Some (EState b (cur_of r) d') /\
    holdsF hs names (fun i => H i ++ map (fun row => conv (nth i row [])) rows) (R ++ map (fun _ => raw (r_no r)) rows) (fun j => P j ++ map (fun _ => conv (nth j (map snd (r_params r)) [])) rows) d'.
Proof.
  intros hs names r rows. induction rows as [|row rows IH]; intros H R P d b NH ND OK RO TB HO.
  - exists d. split; [reflexivity|]. destruct HO as (A & B & C & D). split; [|split; [|split]]; [intros i h I; rewrite (A i h I)|rewrite B|intros j k J; rewrite (C j k J)|exact D]; cbn [map]; rewrite app_nil_r; reflexivity.
  - apply Forall_cons_iff in RO. destruct RO as (RO1 & RO). apply Forall_cons_iff in TB. destruct TB as ((L1 & TB1) & TB).
    destruct (exp_row hs names r row H R P d b NH ND OK RO1 L1 TB1 HO) as (d1 & E1 & HO1). destruct (IH _ _ _ _ b NH ND OK RO TB HO1) as (d2 & E2 & (A & B & C & D)).
    exists d2. cbn [map exp_lines]. rewrite E1. split; [exact E2|]. split; [|split; [|split]]; [intros i h I; rewrite (A i h I)|rewrite B|intros j k J; rewrite (C j k J)|exact D]; rewrite <- app_assoc; reflexivity.
Qed.

Lemma NoDup_map_lower : forall l, NoDup (map lower l) -> NoDup l.
Proof. intros l H. exact (NoDup_map_inv lower l H). Qed.
Lemma exp_step : forall hs names r st, run_ok names r -> names <> [] -> NoDup (keys hs names) ->
  (e_cur st = [] \/ exists r0, run_ok names r0 /\ e_cur st = cur_of r0) ->
  exp_line conv raw hs (info_line "Run" r) st =
  Some (EState false (cur_of r) (if e_header st then empty_lists (map fst (cur_of r)) (empty_lists hs (e_data st)) else e_data st)).
Proof.
  intros hs names r st OK N ND CU. unfold exp_line. rewrite info_starts. unfold export_re. rewrite (info_known _ "Run" names r) by (try apply run_word; assumption).
  pose proof OK as (D1 & D2 & PO & NM & RO). rewrite tokens_words by exact PO. rewrite set_current_fold by exact PO.
  assert (ND2 : NoDup (s2l "runno" :: names)) by (apply NoDup_map_lower; apply (keys_split hs names ND)).
  assert (F : fold_left (fun c p => dset (fst p) (conv (snd p)) c) (r_params r) (dset (s2l "runno") (raw (r_no r)) (e_cur st)) = cur_of r).
  { destruct CU as [-> | (r0 & OK0 & ->)].
    - cbn [dset]. apply (fold_fresh (r_params r) [(s2l "runno", raw (r_no r))]). rewrite NM. exact ND2.
    - unfold cur_of at 1. cbn [dset]. rewrite str_eqb_refl. destruct OK0 as (_ & _ & _ & NM0 & _). apply (fold_over (r_params r) [(s2l "runno", raw (r_no r))]); [|rewrite NM; exact ND2].
      rewrite map_map. cbn [cell fst]. rewrite NM. exact NM0. }
  rewrite F. reflexivity.
Qed.
Lemma exp_lines_app : forall hs a b st, exp_lines conv raw hs (a ++ b) st = match exp_lines conv raw hs a st with Some st' => exp_lines conv raw hs b st' | None => None end.
Proof. intros hs a. induction a as [|x a IH]; intros b st; [reflexivity|]. cbn [app exp_lines]. destruct (exp_line conv raw hs x st); [apply IH|reflexivity]. Qed.
Lemma exp_run : forall hs names r st H R P, hs <> [] -> run_ok names r -> width hs r -> names <> [] -> NoDup (keys hs names) ->
  (e_cur st = [] \/ exists r0, run_ok names r0 /\ e_cur st = cur_of r0) ->
  holdsF hs names H R P (if e_header st then empty_lists (map fst (cur_of r)) (empty_lists hs (e_data st)) else e_data st) ->
  exists d', exp_lines conv raw hs (info_line "Run" r :: map (sep_by HT) (r_rows r)) st = Some (EState false (cur_of r) d') /\
    holdsF hs names (fun i => H i ++ map (fun row => conv (nth i row [])) (r_rows r)) (R ++ map (fun _ => raw (r_no r)) (r_rows r)) (fun j => P j ++ map (fun _ => conv (nth j (map snd (r_params r)) [])) (r_rows r)) d'.
Proof.
  intros hs names r st H R P NH OK WD N ND CU HO. cbn [exp_lines]. rewrite (exp_step hs names r st OK N ND CU). apply (exp_rows hs names); try assumption. apply OK.
Qed.
Lemma exp_runs : forall hs names runs r0 done d, hs <> [] -> names <> [] -> NoDup (keys hs names) -> run_ok names r0 -> Forall (run_ok names) runs -> Forall (width hs) runs ->
  holds hs names done d ->
  exists r1 d', exp_lines conv raw hs (flat_map (fun r => info_line "Run" r :: map (sep_by HT) (r_rows r)) runs) (EState false (cur_of r0) d) = Some (EState false r1 d') /\ holds hs names (done ++ runs) d'.
Proof.
  intros hs names runs. induction runs as [|r runs IH]; intros r0 done d NH N ND OK0 OK WD HO; [rewrite app_nil_r; exists (cur_of r0), d; split; [reflexivity|exact HO]|].
  apply Forall_cons_iff in OK. destruct OK as (OK1 & OK). apply Forall_cons_iff in WD. destruct WD as (WD1 & WD). cbn [flat_map]. rewrite exp_lines_app.
  destruct (exp_run hs names r (EState false (cur_of r0) d) _ _ _ NH OK1 WD1 N ND (or_intror (ex_intro _ r0 (conj OK0 eq_refl))) HO) as (d1 & E1 & HO1). rewrite E1.
  destruct (IH r (done ++ [r]) d1 NH N ND OK1 OK WD) as (r1 & d2 & E2 & HO2).
  - destruct HO1 as (A & B & C & D). split; [|split; [|split]]; [intros i h I; rewrite (A i h I)|rewrite B|intros j k J; rewrite (C j k J)|exact D]; rewrite per_row_app; f_equal; f_equal; unfold per_row; cbn [flat_map]; rewrite app_nil_r; reflexivity.
  - exists r1, d2. split; [exact E2|]. rewrite <- app_assoc in HO2. exact HO2.
Qed.
Lemma export_ok : forall hs names runs, hs <> [] -> names <> [] -> runs <> [] -> Forall (fun x => ~ In HT x) hs -> NoDup (keys hs names) -> Forall (run_ok names) runs -> Forall (width hs) runs ->
  exists d, read_export conv raw (exported "Run" hs runs) = Some d /\ holds hs names runs d.
Proof.
  intros hs names runs NH N NR TB ND OK WD. destruct runs as [|r runs]; [contradiction|]. apply Forall_cons_iff in OK. destruct OK as (OK1 & OK). apply Forall_cons_iff in WD. destruct WD as (WD1 & WD).
  unfold read_export, exported. rewrite split_row by assumption. cbn [flat_map]. rewrite exp_lines_app.
  destruct (exp_run hs names r (EState true [] []) (fun _ => []) [] (fun _ => []) NH OK1 WD1 N ND (or_introl eq_refl)) as (d1 & E1 & (A & B & C & D)).
  { cbn [e_header e_data]. assert (KM : map lower (map fst (cur_of r)) = map lower (s2l "runno" :: names)) by (rewrite map_map; apply cur_keys; apply OK1).
    assert (LK : forall k, dget k (empty_lists (map fst (cur_of r)) (empty_lists hs ([] : cols))) = if existsb (str_eqb k) (keys hs names) then Some [] else None).
    { intros k. rewrite !empty_lists_spec, KM. unfold keys. rewrite map_app, existsb_app. destruct (existsb (str_eqb k) (map lower (s2l "runno" :: names))), (existsb (str_eqb k) (map lower hs)); reflexivity. }
    assert (IN : forall k, In k (keys hs names) -> dget k (empty_lists (map fst (cur_of r)) (empty_lists hs ([] : cols))) = Some []).
    { intros k I. rewrite LK. destruct (existsb (str_eqb k) (keys hs names)) eqn:X; [reflexivity|]. assert (existsb (str_eqb k) (keys hs names) = true) by (apply existsb_exists; exists k; split; [exact I|apply str_eqb_refl]). congruence. }
    split; [|split; [|split]].
    - intros i h I. apply IN. unfold keys. apply in_map, in_or_app. left. exact (nth_error_In _ _ I).
    - apply IN. unfold keys. change (s2l "runno") with (lower (s2l "runno")) at 1. apply in_map, in_or_app. right. left. reflexivity.
    - intros j k J. apply IN. unfold keys. apply in_map, in_or_app. right. right. exact (nth_error_In _ _ J).
    - intros k K. rewrite LK. destruct (existsb (str_eqb k) (keys hs names)) eqn:X; [|reflexivity]. apply existsb_exists in X. destruct X as (x & X1 & X2). apply str_eqb_eq in X2. subst x. contradiction. }
  rewrite E1. destruct (exp_runs hs names runs r [r] d1 NH N ND OK1 OK WD) as (r1 & d2 & E2 & HO2).
  { split; [|split; [|split]]; [intros i h I; rewrite (A i h I)|rewrite B|intros j k J; rewrite (C j k J)|exact D]; unfold per_row; cbn [flat_map app]; rewrite ?app_nil_r; reflexivity. }
  exists d2. rewrite E2. split; [reflexivity|]. exact HO2.
Qed.
End Export.

(** ** "(Step" where "(Run" is expected *)
Lemma no_run : forall t gap rest, forallb step_char t = true ->
  re_match (info_re (seqs (lits "Run"))) (s2l "Step Information: " ++ t ++ repeat " "%char (S gap) ++ s2l "(" ++ s2l "Step" ++ rest) = None.
Proof.
  intros t gap rest T. unfold re_match, info_re. rewrite m_lits. set (u := t ++ repeat " "%char (S gap)). set (tail := "("%char :: s2l "Step" ++ rest).
  assert (U : forallb step_char u = true) by (unfold u; rewrite forallb_app, T; cbn [andb]; generalize (S gap); induction n as [|n IH]; [reflexivity|exact IH]).
  replace (t ++ repeat " "%char (S gap) ++ s2l "(" ++ s2l "Step" ++ rest) with (u ++ tail) by (unfold u, tail; rewrite <- app_assoc; reflexivity). cbn [app].
  rewrite m_seqs_cons, m_grp. unfold Plus at 1. rewrite m_seq.
  assert (SP : forall v s', u ++ tail = v ++ s' -> forall f, (forall x, f x = true -> step_char x = true) -> forallb f v = true -> exists u', s' = u' ++ tail /\ forallb step_char u' = true).
  { clear T. revert U. generalize u. clear u. intros u U v. revert u U. induction v as [|y v IH]; intros u U s' E f F V; [cbn [app] in E; subst s'; exists u; auto|].
    cbn [forallb] in V. apply andb_true_iff in V. destruct V as (V1 & V2). destruct u as [|x u].
    - cbn [app] in E. unfold tail in E. injection E as E1 _. subst y. apply F in V1. discriminate V1.
    - cbn [app] in E. injection E as E1 E2. cbn [forallb] in U. apply andb_true_iff in U. exact (IH u (proj2 U) s' E2 f F V2). }
  assert (FIN : forall u' p c (k : nat -> str -> caps -> option (nat * caps)) l, forallb step_char u' = true ->
    m (seqs (Plus (Chr (fun c0 => aeqb c0 " ")) :: lit "(" :: seqs (lits "Run") :: l)) p (u' ++ tail) c k = None).
  { intros u' p c k l U'. rewrite m_seqs_cons. unfold Plus. rewrite m_seq.
    assert (FIN2 : forall s' p' c', (exists w, s' = w ++ tail /\ forallb step_char w = true) -> m (seqs (lit "(" :: seqs (lits "Run") :: l)) p' s' c' k = None).
    { intros s' p' c' (w & -> & W). rewrite m_seqs_cons. unfold lit at 1. destruct w as [|x w]; cbn [app].
      - unfold tail. rewrite m_chr_ok by reflexivity. rewrite m_seqs_cons. reflexivity.
      - cbn [forallb] in W. apply andb_true_iff in W. rewrite m_chr_no; [reflexivity|]. destruct (aeqb x "(") eqn:X; [|reflexivity]. apply aeqb_eq in X. subst x. destruct W as (W & _). discriminate W. }
    destruct u' as [|y u']; [unfold tail; cbn [app]; apply m_chr_no; reflexivity|]. cbn [app]. destruct (aeqb y " ") eqn:Y; [|apply m_chr_no; exact Y]. rewrite m_chr_ok by exact Y.
    change (m (Star true (Chr (fun c0 => aeqb c0 " "))) ?pp ?ll ?cc ?kk) with (star (m (Chr (fun c0 => aeqb c0 " "))) true (length ll) pp ll cc kk). apply star_none; [apply le_n|].
    cbn [forallb] in U'. apply andb_true_iff in U'. destruct U' as (_ & U'). intros v s' E V. apply FIN2. clear - U' E V. revert u' U' E. induction v as [|x v IH]; intros u' U' E; [cbn [app] in E; subst s'; exists u'; auto|].
    cbn [forallb] in V. apply andb_true_iff in V. destruct V as (V1 & V2). destruct u' as [|z u'].
    - cbn [app] in E. unfold tail in E. injection E as E1 _. subst x. discriminate V1.
    - cbn [app] in E. injection E as E1 E2. cbn [forallb] in U'. apply andb_true_iff in U'. exact (IH V2 u' (proj2 U') E2). }
  destruct u as [|a u0] eqn:EU; [unfold u in EU; destruct t; discriminate|]. cbn [app]. rewrite m_chr_ok by (cbn [forallb] in U; apply andb_true_iff in U; apply U).
  change (m (Star true (Chr step_char)) ?pp ?ll ?cc ?kk) with (star (m (Chr step_char)) true (length ll) pp ll cc kk). apply star_none; [apply le_n|].
  intros v s' E V. destruct (SP (a :: v) s') with (f := step_char) as (u' & -> & U'); [cbn [app]; f_equal; exact E|auto|cbn [forallb]; rewrite V, andb_true_r; cbn [forallb] in U; apply andb_true_iff in U; apply U|].
  apply FIN. exact U'.
Qed.
