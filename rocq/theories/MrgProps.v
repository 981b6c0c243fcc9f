(** C198-C209: adding the traces of other RAW files to one being written (raw_write.py, add_traces_from_raw). *)
From Coq Require Import String Ascii List Bool Arith QArith Qabs Lqa Lia Sorted.
From Verif Require Import PyStr Regex RegexProofs RegexInv RegexMore EngModel StepsSpec MrgModel MrgSpec MrgProofs MrgProofs2.
Import ListNotations.
Local Open Scope string_scope. Local Open Scope nat_scope. Local Open Scope list_scope.

(** ** C198: without alignment *)
Lemma append_ok : forall srcs k r step l ts trs,
  Forall2 (fun n t => StepsModel.dget n (s_traces (srcs k)) = Some t) l trs ->
  append_all srcs k r step l ts =
  Some (ts ++ map (fun nt => mk_trace (rename r (fst nt)) (st_wave (snd nt) step) (st_what (snd nt)) (st_num (snd nt))) (combine l trs)).
Proof.
  intros srcs k r step l ts trs F. revert ts. induction F as [|n t l trs H F IH]; intros ts; cbn [append_all combine map].
  - rewrite app_nil_r. reflexivity.
  - rewrite H, IH, <- app_assoc. reflexivity.
Qed.
Lemma F2_new : forall (srcs : nat -> source) k r step l trs,
  Forall2 (fun n t => StepsModel.dget n (s_traces (srcs k)) = Some t) l trs ->
  Forall2 (fun n t' => exists t, StepsModel.dget n (s_traces (srcs k)) = Some t /\ t_name t' = rename r n /\
             t_data t' = st_wave t step /\ t_num t' = st_num t /\ (ordinary (rename r n) -> t_what t' = st_what t)) l
    (map (fun nt => mk_trace (rename r (fst nt)) (st_wave (snd nt) step) (st_what (snd nt)) (st_num (snd nt))) (combine l trs)).
Proof.
  intros srcs k r step l trs F. induction F as [|n t l trs H F IH]; cbn [combine map]; constructor; [|exact IH].
  exists t. cbn. repeat split; try assumption. intros (O1 & O2). apply str_eqb_neq in O1. apply str_eqb_neq in O2. rewrite O1, O2. reflexivity.
Qed.
Lemma found_all : forall (d : list (str * strace)) l, Forall (fun n => exists t, StepsModel.dget n d = Some t) l ->
  exists trs, Forall2 (fun n t => StepsModel.dget n d = Some t) l trs.
Proof.
  intros d l F. induction F as [|n l (t & T) F (trs & IH)]; [exists []; constructor|]. exists (t :: trs). constructor; assumption.
Qed.

Theorem C198_same_axis : forall srcs c w nm ax ts,
  w_traces w = ax :: ts -> c_align c = false -> (c_minstep c == 0)%Q ->
  same_kind (srcs (c_src c)) (w_num w) (t_what ax) ->
  length (st_wave (s_ax (srcs (c_src c))) (c_step c)) = length (t_data ax) ->
  Forall (fun n => exists t, StepsModel.dget n (s_traces (srcs (c_src c))) = Some t) (c_names c) ->
  exists w' news, add_traces srcs c (w, nm) = Some (w', nm) /\ w_traces w' = w_traces w ++ news /\
    Forall2 (fun n t' => exists t, StepsModel.dget n (s_traces (srcs (c_src c))) = Some t /\ t_name t' = rename (c_ren c) n /\
               t_data t' = st_wave t (c_step c) /\ t_num t' = st_num t /\ (ordinary (rename (c_ren c) n) -> t_what t' = st_what t))
      (c_names c) news /\
    (w_num w', w_fwd w', w_log w', w_plot w', w_new w', w_imp w') = (w_num w, w_fwd w, w_log w, w_plot w, w_new w, w_imp w).
Proof.
  intros srcs c w nm ax ts W AL MS (K1 & K2) LN F. destruct (found_all _ _ F) as (trs & F2).
  unfold add_traces. rewrite W. apply num_type_ok in K1. rewrite K1, str_eqb_refl, K2, str_eqb_refl. cbn [negb].
  assert (c_names c = [] \/ exists x l, c_names c = x :: l) as [Z|(x & l & Z)] by (destruct (c_names c); eauto).
  - rewrite Z. exists w, []. rewrite W, app_nil_r. split; [reflexivity|]. split; [reflexivity|]. split; [constructor|reflexivity].
  - rewrite Z. rewrite <- Z. unfold add_data. rewrite W, AL.
    assert (Qltb 0 (c_minstep c) = false) as M0 by (unfold Qltb; apply negb_false_iff; apply Qle_bool_iff; lra).
    rewrite M0, LN, Nat.eqb_refl. cbn [orb]. rewrite (append_ok _ _ _ _ _ _ _ F2).
    eexists; eexists. split; [reflexivity|]. split; [reflexivity|]. split; [apply F2_new; exact F2|reflexivity].
Qed.
Print Assumptions C198_same_axis.

(** Into an empty writer: number type, flags, plot name and axis come from the file. *)
Theorem C198_first : forall srcs c w nm,
  w_traces w = [] -> (c_minstep c == 0)%Q ->
  Forall (fun n => exists t, StepsModel.dget n (s_traces (srcs (c_src c))) = Some t) (c_names c) ->
  exists w' ax news, add_traces srcs c (w, nm) = Some (w', nm) /\ w_traces w' = ax :: news /\
    t_name ax = s_ax_name (srcs (c_src c)) /\ t_data ax = st_wave (s_ax (srcs (c_src c))) (c_step c) /\
    number_type (s_flags (srcs (c_src c))) (w_num w') /\ w_plot w' = s_plot (srcs (c_src c)) /\
    (w_fwd w' = true <-> In (s2l "forward") (s_flags (srcs (c_src c)))) /\
    (w_log w' = true <-> In (s2l "log") (s_flags (srcs (c_src c)))) /\
    Forall2 (fun n t' => exists t, StepsModel.dget n (s_traces (srcs (c_src c))) = Some t /\ t_name t' = rename (c_ren c) n /\
               t_data t' = st_wave t (c_step c) /\ t_num t' = st_num t /\ (ordinary (rename (c_ren c) n) -> t_what t' = st_what t))
      (c_names c) news.
Proof.
  intros srcs c w nm W MS F. destruct (found_all _ _ F) as (trs & F2).
  assert (forall x l, existsb (str_eqb x) l = true <-> In x l) as EX.
  { intros x l. rewrite existsb_exists. split; [intros (y & Y & E); apply str_eqb_eq in E; subst; exact Y|].
    intros H. exists x. split; [exact H|apply str_eqb_refl]. }
  unfold add_traces. rewrite W. unfold add_data. cbn [w_traces].
  assert (Qltb 0 (c_minstep c) = false) as M0 by (unfold Qltb; apply negb_false_iff; apply Qle_bool_iff; lra).
  rewrite M0. cbn [orb mk_trace t_data]. rewrite Nat.eqb_refl, (append_ok _ _ _ _ _ _ _ F2).
  eexists; eexists; eexists. split; [reflexivity|]. cbn [w_traces w_num w_plot w_fwd w_log app].
  split; [reflexivity|]. split; [reflexivity|]. split; [reflexivity|].
  split; [apply num_type_ok; reflexivity|]. split; [reflexivity|]. split; [apply EX|]. split; [apply EX|].
  apply F2_new. exact F2.
Qed.
Print Assumptions C198_first.

(** A file of another number type, or with another kind of axis, is refused. *)
Theorem C208_other_kind : forall srcs c w nm ax ts,
  w_traces w = ax :: ts -> ~ same_kind (srcs (c_src c)) (w_num w) (t_what ax) -> add_traces srcs c (w, nm) = None.
Proof.
  intros srcs c w nm ax ts W K. unfold add_traces. rewrite W.
  destruct (str_eqb (w_num w) (num_type (s_flags (srcs (c_src c))))) eqn:E1; [|reflexivity].
  destruct (str_eqb (t_what ax) (st_what (s_ax (srcs (c_src c))))) eqn:E2; [|reflexivity].
  exfalso. apply K. apply str_eqb_eq in E1. apply str_eqb_eq in E2. split; [apply num_type_ok; congruence|congruence].
Qed.
Print Assumptions C208_other_kind.

(** ** C199: merges with alignment, and the save *)
Theorem C199_aligned : forall srcs cs w nm ax ts,
  w_traces w = ax :: ts -> w_new w = [] -> w_imp w = [] -> wanted cs <> [] ->
  increasing (t_data ax) -> 2 + length cs < length (t_data ax) ->
  Forall (fun t => length (t_data t) = length (t_data ax)) ts ->
  Forall (aligned srcs (2 + length cs) (w_num w) (t_what ax)) cs ->
  NoDup (map fst (wanted cs)) ->
  exists w1 nm1 w' ax' ts' ims, add_calls srcs cs (w, nm) = Some (w1, nm1) /\ before_save srcs w1 nm1 = Some w' /\
    w_traces w' = ax' :: ts' ++ ims /\
    t_name ax' = t_name ax /\ t_num ax' = t_num ax /\ increasing (t_data ax') /\
    Forall2 (fun t t' => t_name t' = t_name t /\ t_what t' = t_what t /\ t_num t' = t_num t /\
               (length (t_data ax') <> length (t_data ax) -> resampled (t_data ax) (t_data t) (t_data ax') (t_data t'))) ts ts' /\
    Forall2 (fun q t' => exists t, has_trace (srcs (fst (fst q))) 0 (snd (fst q)) t /\
                t_name t' = rename (snd q) (snd (fst q)) /\ t_num t' = st_num t /\ (ordinary (t_name t') -> t_what t' = st_what t) /\
                resampled (st_wave (s_ax (srcs (fst (fst q)))) 0) (st_wave t 0) (t_data ax') (t_data t')) (wanted cs) ims.
Proof.
  intros srcs cs w nm ax ts W N0 I0 WN IA LA FT FC ND.
  assert (inv srcs ax ts (w_num w) (S (1 + length cs)) w) as IV.
  { assert (cur w = t_data ax) as CU by (unfold cur; rewrite N0, W; reflexivity).
    split; try rewrite CU; [exact W|reflexivity|exact IA|lia| |rewrite I0; constructor|rewrite I0, N0; tauto].
    intros z Z. destruct (t_data ax) as [|q qs]; [destruct Z|]. apply last_le; assumption. }
  destruct (calls_ok srcs cs ax ts (w_num w) (1 + length cs) w nm IV ltac:(lia) ltac:(lia) FC)
    as (w1 & nm1 & E1 & IV1 & W1 & _ & _ & HN).
  rewrite I0 in W1. cbn [app] in W1. destruct IV1 as [J1 J2 J3 J4 J5 J6 J7].
  assert (w_imp w1 <> []) as IN.
  { rewrite W1. destruct (wanted cs); [contradiction|discriminate]. }
  assert (w_new w1 <> []) as NN by (intros E; apply J7 in E; contradiction).
  assert (cur w1 = w_new w1) as CU by (unfold cur; destruct (w_new w1); [contradiction|reflexivity]).
  rewrite CU in J3, J4, J5, J6.
  destruct (imports_ok srcs nm1 (w_new w1) (w_imp w1) J3 J6) as (ims & EI & FI).
  assert (2 <= length (t_data ax)) as L2 by lia.
  destruct (traces_ok (t_data ax) (w_new w1) ts FT L2 IA J3 J5) as (ts2 & ET & FTS).
  assert (exists ts', (if length (w_new w1) =? length (t_data ax) then Some ts else interp_traces (t_data ax) (w_new w1) ts) = Some ts' /\
    Forall2 (fun t t' => t_name t' = t_name t /\ t_what t' = t_what t /\ t_num t' = t_num t /\
               (length (w_new w1) <> length (t_data ax) -> resampled (t_data ax) (t_data t) (w_new w1) (t_data t'))) ts ts') as (ts' & ETS & FTS').
  { destruct (Nat.eqb_spec (length (w_new w1)) (length (t_data ax))) as [E|E].
    - exists ts. split; [reflexivity|]. clear - E. induction ts as [|t l IH]; constructor; [|exact IH].
      split; [reflexivity|]. split; [reflexivity|]. split; [reflexivity|]. intros NE. contradiction.
    - exists ts2. split; [exact ET|]. clear - FTS. induction FTS as [|t t' l l' (H1 & H2 & H3 & H4) F IH]; constructor; [|exact IH].
      split; [exact H1|]. split; [exact H2|]. split; [exact H3|]. intros _. exact H4. }
  exists w1, nm1, (Writer (w_num w1) (w_fwd w1) (w_log w1) (w_plot w1) (mk_trace (t_name ax) (w_new w1) (t_what ax) (t_num ax) :: ts' ++ ims) [] []),
    (mk_trace (t_name ax) (w_new w1) (t_what ax) (t_num ax)), ts', ims.
  split; [exact E1|]. split.
  { unfold before_save, consolidate. rewrite J1, ETS, EI.
    destruct (w_imp w1); [contradiction|]. destruct (w_new w1); [contradiction|]. reflexivity. }
  cbn [w_traces]. split; [reflexivity|]. cbn [mk_trace t_name t_num t_data]. split; [reflexivity|]. split; [reflexivity|].
  split; [exact J3|]. split; [exact FTS'|].
  rewrite W1 in FI. revert FI HN. clear - ND. intros FI HN. specialize (HN ND). clear ND. revert ims FI.
  induction (wanted cs) as [|[[k x] r] l IH]; intros ims FI; inversion FI as [|a b c d (t & T & T1 & T2) F3]; subst; constructor.
  - cbn [fst snd] in *. exists t. split; [exact T|]. split; [|exact T2]. rewrite T1. apply HN. left. reflexivity.
  - apply IH; [|exact F3]. intros k' x' r' H. apply HN. right. exact H.
Qed.
Print Assumptions C199_aligned.

(** ** C202: the merged axis *)
(** One aligned merge: the axis written is increasing, has only points of the two axes, keeps each point of the existing axis that
    is not within the admissible error of, or past, the last but one of the other, and has for each point of the other axis, up to
    the last but one of the existing axis, one nearer than the admissible error. *)
Theorem C202_merged_axis : forall srcs c w nm ax ts,
  w_traces w = ax :: ts -> w_new w = [] -> w_imp w = [] -> c_names c <> [] ->
  increasing (t_data ax) -> 3 < length (t_data ax) ->
  Forall (fun t => length (t_data t) = length (t_data ax)) ts ->
  aligned srcs 3 (w_num w) (t_what ax) c -> NoDup (c_names c) ->
  exists w1 nm1 w' ax' rest, add_traces srcs c (w, nm) = Some (w1, nm1) /\ before_save srcs w1 nm1 = Some w' /\
    w_traces w' = ax' :: rest /\ increasing (t_data ax') /\
    let other := st_wave (s_ax (srcs (c_src c))) 0 in
    (forall x, In x (t_data ax') -> In x (t_data ax) \/ In x other) /\
    (forall x b0 b1 b2, other = b0 ++ [b1; b2] -> (x + c_err c <= b1)%Q -> In x (removelast (t_data ax)) -> In x (t_data ax')) /\
    (forall y a0 a1 a2, t_data ax = a0 ++ [a1; a2] -> (y <= a1)%Q -> In y (removelast other) ->
       exists x, In x (t_data ax') /\ (x - c_err c < y < x + c_err c)%Q).
Proof.
  intros srcs c w nm ax ts W N0 I0 NE IA LA FT AL ND.
  destruct (C199_aligned srcs [c] w nm ax ts W N0 I0) as (w1 & nm1 & w' & ax' & ts' & ims & E1 & E2 & E3 & _ & _ & I' & _).
  - unfold wanted. cbn [flat_map]. rewrite app_nil_r. destruct (c_names c); [contradiction|discriminate].
  - exact IA.
  - exact LA.
  - exact FT.
  - constructor; [exact AL|constructor].
  - unfold wanted. cbn [flat_map]. rewrite app_nil_r, map_map. cbn [fst]. revert ND. clear. induction 1 as [|x l NI ND IH]; cbn [map]; constructor; [|exact IH].
    intros H. apply in_map_iff in H. destruct H as (y & E & Y). injection E as ->. contradiction.
  - cbn [add_calls] in E1. destruct (add_traces srcs c (w, nm)) as [st|] eqn:EA; [|discriminate]. injection E1 as ->.
    exists w1, nm1, w', ax', (ts' ++ ims). split; [reflexivity|]. split; [exact E2|]. split; [exact E3|]. split; [exact I'|].
    destruct AL as (A1 & EP & ST & MS & (K1 & K2) & SP & LN & F).
    assert (t_data ax' = merged (c_err c) (t_data ax) (st_wave (s_ax (srcs (c_src c))) 0)) as ->.
    { assert (w_new w1 = merged (c_err c) (t_data ax) (st_wave (s_ax (srcs (c_src c))) 0) /\ w_traces w1 = ax :: ts) as (NW & TW).
      { revert EA. unfold add_traces. rewrite W. apply num_type_ok in K1. rewrite K1, str_eqb_refl, K2, str_eqb_refl. cbn [negb].
        assert (exists x l, c_names c = x :: l) as (x & l & Z) by (destruct (c_names c); [contradiction|eauto]).
        rewrite Z. unfold add_data. rewrite W, A1. cbn [orb]. rewrite N0, ST.
        destruct (Qltb 0 (c_minstep c)); [discriminate|].
        destruct (import_all srcs (c_src c) (c_ren c) (c_names c) (w_imp w) nm) as [[imp nm2]|]; [|discriminate].
        intros H. injection H as <- _. split; [reflexivity|first [exact W|reflexivity]]. }
      rewrite <- NW. revert E2 E3. unfold before_save, consolidate. rewrite TW.
      pose proof (merge_len (c_err c) EP _ (t_data ax) (st_wave (s_ax (srcs (c_src c))) 0) (le_n _)) as ML.
      fold (merged (c_err c) (t_data ax) (st_wave (s_ax (srcs (c_src c))) 0)) in ML. rewrite <- NW in ML.
      destruct (w_new w1) as [|q qs] eqn:EQ; [cbn in ML; lia|]. intros E2 E3.
      assert (w_imp w1 <> []) as WI.
      { revert EA. unfold add_traces. rewrite W. destruct (negb _); [discriminate|]. destruct (negb _); [discriminate|].
        assert (exists x l, c_names c = x :: l) as (x & l & Z) by (destruct (c_names c); [contradiction|eauto]).
        rewrite Z. unfold add_data. rewrite W, A1. cbn [orb].
        destruct (Qltb 0 (c_minstep c)); [discriminate|].
        destruct (import_ok srcs (c_names c) (c_src c) (c_ren c) (w_imp w) nm F) as (nm2 & -> & _).
        intros H. injection H as <- _. cbn [w_imp]. rewrite Z, I0. discriminate. }
      destruct (w_imp w1) as [|i0 il]; [contradiction|].
      destruct (if length (q :: qs) =? length (t_data ax) then Some ts else interp_traces (t_data ax) (q :: qs) ts); [|discriminate].
      destruct (interp_imports srcs nm1 (q :: qs) (i0 :: il)); [|discriminate]. injection E2 as <-. cbn [w_traces] in E3.
      injection E3 as <- _. reflexivity. }
    cbn zeta. split; [|split].
    + intros x X. apply (merge_from (c_err c) EP _ _ _ x X).
    + intros x b0 b1 b2 EB LE HX. apply (merge_mine (c_err c) EP); [lia|exact IA| |exact HX]. eauto.
    + intros y a0 a1 a2 EB LE HY. destruct (merge_other (c_err c) EP _ (t_data ax) (st_wave (s_ax (srcs (c_src c))) 0) y (le_n _) IA SP) as (x & X & L1 & L2); [eauto|exact HY|].
      exists x. split; [exact X|]. split; assumption.
Qed.
Print Assumptions C202_merged_axis.

(** ** Renaming (C206) *)
Lemma label_reach : forall name y, reach label_re (0, name, []) y <->
  exists k body rest, name = k :: "("%char :: body ++ ")"%char :: rest /\ one_of (s2l "IViv") k = true /\ body <> [] /\
    ~ In ")"%char body /\ y = (3 + length body, rest, [(2, (2, 2 + length body)); (1, (0, 1))]).
Proof.
  intros name y. unfold label_re. split.
  - intros H. apply reach_seq in H. destruct H as (y1 & H1 & H). apply reach_grp in H1. destruct H1 as (p1 & s1 & c1 & H1 & ->).
    apply reach_chr in H1. destruct H1 as (k & s2 & -> & K & E). injection E as -> -> ->.
    apply reach_seq in H. destruct H as (y2 & H2 & H). apply reach_chr in H2. destruct H2 as (q & s3 & -> & Q1 & ->).
    apply Ascii.eqb_eq in Q1. subst q.
    apply reach_seq in H. destruct H as (y3 & H3 & H). apply reach_grp in H3. destruct H3 as (p3 & s4 & c3 & H3 & ->).
    apply reach_plus_run in H3. destruct H3 as (u & t & -> & NU & FU & E). injection E as -> -> ->.
    apply reach_chr in H. destruct H as (q & s5 & -> & Q1 & ->). apply Ascii.eqb_eq in Q1. subst q.
    exists k, u, s5. split; [reflexivity|]. split; [exact K|]. split; [exact NU|]. split; [|reflexivity].
    intros H. rewrite forallb_forall in FU. specialize (FU _ H). discriminate.
  - intros (k & body & rest & -> & K & NB & NI & ->).
    apply reach_seq. eexists. split; [apply reach_grp; do 3 eexists; split; [apply reach_chr; do 2 eexists; split; [reflexivity|split; [exact K|reflexivity]]|reflexivity]|].
    apply reach_seq. eexists. split; [apply reach_chr; do 2 eexists; split; [reflexivity|split; [reflexivity|reflexivity]]|].
    apply reach_seq. eexists. split.
    + apply reach_grp. do 3 eexists. split; [|reflexivity]. apply reach_plus_run. exists body, (")"%char :: rest).
      split; [reflexivity|]. split; [exact NB|]. split; [|reflexivity]. apply forallb_forall. intros c C.
      destruct (aeqb c ")") eqn:E; [|reflexivity]. apply Ascii.eqb_eq in E. subst. contradiction.
    + apply reach_chr. exists ")"%char, rest. split; [reflexivity|]. split; reflexivity.
Qed.

Lemma label_match : forall f k body rest, In k (s2l "IViv") -> body <> [] -> ~ In ")"%char body ->
  rename_with f (k :: "("%char :: body ++ ")"%char :: rest) = k :: "("%char :: f body ++ s2l ")".
Proof.
  intros f k body rest K NB NI. unfold rename_with.
  assert (one_of (s2l "IViv") k = true) as KO by (apply mem_c_In; exact K).
  set (name := k :: "("%char :: body ++ ")"%char :: rest).
  destruct (re_match label_re name) as [[e c]|] eqn:R.
  - apply re_match_reach in R. destruct R as (s' & R). apply label_reach in R.
    destruct R as (k' & body' & rest' & E & _ & _ & NI' & Y). injection Y as -> _ ->.
    unfold name in E. injection E as <- E.
    assert (body' = body) as ->.
    { revert E NI NI'. clear. revert body'. induction body as [|x body IH]; intros [|y body'] E NI NI'; cbn [app] in E.
      - reflexivity.
      - injection E as <- _. exfalso. apply NI'. left. reflexivity.
      - injection E as -> _. exfalso. apply NI. left. reflexivity.
      - injection E as -> E. f_equal. apply IH; [exact E| |]; intros H; [apply NI|apply NI']; right; exact H. }
    unfold group. cbn [cap Nat.eqb option_map slice fst snd]. unfold name, slice. cbn [fst snd skipn Nat.sub firstn].
    rewrite Nat.sub_0_r, firstn_app, Nat.sub_diag, firstn_all. cbn [firstn]. rewrite app_nil_r. reflexivity.
  - exfalso. destruct (re_match_exists label_re name (3 + length body) rest [(2, (2, 2 + length body)); (1, (0, 1))]) as (e & c & X).
    + apply label_reach. exists k, body, rest. repeat split; assumption.
    + congruence.
Qed.

(** The tag goes inside V(...) and I(...), and after any other name. *)
Theorem C206_tag : forall t,
  (forall k body, In k (s2l "IViv") -> body <> [] -> ~ In ")"%char body ->
     rename (AddTag t) ([k] ++ s2l "(" ++ body ++ s2l ")") = [k] ++ s2l "(" ++ body ++ s2l "_" ++ t ++ s2l ")") /\
  (forall name, (forall k body rest, name = [k] ++ s2l "(" ++ body ++ s2l ")" ++ rest -> In k (s2l "IViv") -> body = [] \/ In ")"%char body) ->
     rename (AddTag t) name = name ++ s2l "_" ++ t).
Proof.
  intros t. split.
  - intros k body K NB NI. cbn [rename]. change ([k] ++ s2l "(" ++ body ++ s2l ")") with (k :: "("%char :: body ++ ")"%char :: []).
    rewrite (label_match _ k body [] K NB NI). rewrite <- !app_assoc. reflexivity.
  - intros name N. cbn [rename]. unfold rename_with. destruct (re_match label_re name) as [[e c]|] eqn:R; [|reflexivity].
    exfalso. apply re_match_reach in R. destruct R as (s' & R). apply label_reach in R.
    destruct R as (k & body & rest & E & K & NB & NI & _). apply mem_c_In in K.
    destruct (N k body rest E K) as [H|H]; contradiction.
Qed.
Print Assumptions C206_tag.
Theorem C206_format : forall f,
  (forall k body, In k (s2l "IViv") -> body <> [] -> ~ In ")"%char body ->
     rename (Format f) ([k] ++ s2l "(" ++ body ++ s2l ")") = [k] ++ s2l "(" ++ f body ++ s2l ")") /\
  (forall name, (forall k body rest, name = [k] ++ s2l "(" ++ body ++ s2l ")" ++ rest -> In k (s2l "IViv") -> body = [] \/ In ")"%char body) ->
     rename (Format f) name = f name).
Proof.
  intros f. split.
  - intros k body K NB NI. cbn [rename]. exact (label_match f k body [] K NB NI).
  - intros name N. cbn [rename]. unfold rename_with. destruct (re_match label_re name) as [[e c]|] eqn:R; [|reflexivity].
    exfalso. apply re_match_reach in R. destruct R as (s' & R). apply label_reach in R.
    destruct R as (k & body & rest & E & K & NB & NI & _). apply mem_c_In in K.
    destruct (N k body rest E K) as [H|H]; contradiction.
Qed.
Print Assumptions C206_format.
Example C206_nonvacuous :
  rename (AddTag (s2l "a")) (s2l "V(out)") = s2l "V(out_a)" /\ rename (AddTag (s2l "a")) (s2l "Ix(u1:IN)") = s2l "Ix(u1:IN)_a" /\
  rename (Format (fun x => x ++ s2l "!")) (s2l "I(R1)") = s2l "I(R1!)".
Proof. vm_compute. repeat split. Qed.

(** What follows the closing bracket is lost: two different names of a file become the same. *)
Theorem C209_rest_refuted : forall t rest rest',
  rename (AddTag t) (s2l "V(a)" ++ rest) = rename (AddTag t) (s2l "V(a)" ++ rest').
Proof.
  intros t rest rest'. cbn [rename].
  assert (forall r, rename_with (fun x => x ++ s2l "_" ++ t) (s2l "V(a)" ++ r) = "V"%char :: "("%char :: (s2l "a" ++ s2l "_" ++ t) ++ s2l ")") as H.
  { intros r. apply (label_match (fun x => x ++ s2l "_" ++ t) "V" (s2l "a") r); [vm_compute; tauto|discriminate|vm_compute; intros [H|[]]; discriminate]. }
  rewrite !H. reflexivity.
Qed.
Print Assumptions C209_rest_refuted.

(** ** What the documentation promises and the code does not do *)
(** An example: a file with the axis 0, 1, 2, 3 (step 1: 0, 2, 4, 6) and a trace of the squares; a writer with a trace of its own. *)
Definition qz (z : Z) : Q := inject_Z z.
Definition ex_file : source :=
  Source [s2l "real"; s2l "forward"] (s2l "Transient Analysis") (s2l "time")
    (STrace (s2l "time") (s2l "double") (fun k => if k =? 0 then map qz [0; 1; 2; 3; 4]%Z else map qz [0; 2; 4; 6; 8]%Z))
    [(s2l "V(out)", STrace (s2l "voltage") (s2l "real") (fun k => if k =? 0 then map qz [0; 1; 4; 9; 16]%Z else map qz [7; 7; 7; 7; 7]%Z))].
Definition ex_other : source :=
  Source [s2l "real"; s2l "forward"] (s2l "Transient Analysis") (s2l "time")
    (STrace (s2l "time") (s2l "double") (fun _ => map qz [0; 2; 3; 5; 6; 7]%Z))
    [(s2l "V(in)", STrace (s2l "voltage") (s2l "real") (fun _ => map qz [0; 4; 6; 10; 12; 14]%Z))].
Definition ex_srcs (k : nat) : source := if k =? 0 then ex_file else ex_other.
Definition ex_writer : writer :=
  Writer (s2l "real") false false (s2l "Transient Analysis")
    [Trc (s2l "time") (s2l "time") (s2l "double") (map qz [0; 1; 2; 3; 4]%Z);
     Trc (s2l "V(x)") (s2l "voltage") (s2l "real") (map qz [5; 6; 7; 8; 9]%Z)] [] [].
Definition ex_names : names := fun _ n => n.
Definition ex_call (k : nat) (names : list str) (r : renaming) (step : nat) : call := Call k names true (1#10) r step 0.

Definition saved_traces (srcs : nat -> source) (cs : list call) (w : writer) (nm : names) : option (list (str * list Q)) :=
  match add_calls srcs cs (w, nm) with
  | Some (w1, nm1) => option_map (fun w' => map (fun t => (t_name t, map Qred (t_data t))) (w_traces w')) (before_save srcs w1 nm1)
  | None => None
  end.

Example C199_nonvacuous :
  saved_traces ex_srcs [ex_call 1 [s2l "V(in)"] (AddTag (s2l "b")) 0; ex_call 0 [s2l "V(out)"] NoRename 0] ex_writer ex_names =
  Some [(s2l "time", map qz [0; 1; 2]%Z); (s2l "V(x)", map qz [5; 6; 7]%Z); (s2l "V(in_b)", map qz [0; 2; 4]%Z);
        (s2l "V(out)", map qz [0; 1; 4]%Z)].
Proof. vm_compute. reflexivity. Qed.
Example C202_nonvacuous :
  increasing (map qz [0; 1; 2; 3; 4]%Z) /\ spaced (1#10) (map qz [0; 2; 3; 5; 6; 7]%Z) /\
  aligned ex_srcs 4 (s2l "real") (s2l "time") (ex_call 1 [s2l "V(in)"] NoRename 0) /\
  aligned ex_srcs 4 (s2l "real") (s2l "time") (ex_call 0 [s2l "V(out)"] NoRename 0).
Proof.
  assert (spaced (1#10) (map qz [0; 2; 3; 5; 6; 7]%Z)) as S1 by (repeat constructor; cbv; intros H; discriminate H).
  assert (spaced (1#10) (map qz [0; 1; 2; 3; 4]%Z)) as S2 by (repeat constructor; cbv; intros H; discriminate H).
  split; [|split; [exact S1|split]].
  - repeat constructor; reflexivity.
  - split; [reflexivity|]. split; [reflexivity|]. split; [reflexivity|]. split; [reflexivity|]. split.
    + split; [|reflexivity]. left. exists [], [s2l "forward"]. split; [reflexivity|]. split; [left; reflexivity|]. split; intros [].
    + split; [exact S1|]. split; [cbn; lia|]. constructor; [|constructor]. eexists. split; reflexivity.
  - split; [reflexivity|]. split; [reflexivity|]. split; [reflexivity|]. split; [reflexivity|]. split.
    + split; [|reflexivity]. left. exists [], [s2l "forward"]. split; [reflexivity|]. split; [left; reflexivity|]. split; intros [].
    + split; [exact S2|]. split; [cbn; lia|]. constructor; [|constructor]. eexists. split; reflexivity.
Qed.

(** The same axis in both, any number of points: the last point is lost. *)
Lemma merge_same : forall err l f, (0 < err)%Q -> length l + length l <= f -> merge f err l l = removelast l.
Proof.
  intros err l f EP. revert l. induction f as [|f IH]; intros l L; [destruct l; [reflexivity|cbn in L; lia]|].
  cbn [merge]. destruct l as [|x [|x' l]]; [reflexivity|reflexivity|].
  assert (Qltb (Qabs (x - x)) err = true) as ->.
  { unfold Qltb. apply negb_true_iff. apply not_true_iff_false. intros H. apply Qle_bool_iff in H.
    assert (Qabs (x - x) == 0)%Q as E by (rewrite (Qabs_wd (x - x) 0); [reflexivity|ring]). rewrite E in H. lra. }
  change (removelast (x :: x' :: l)) with (x :: removelast (x' :: l)). f_equal. apply IH. cbn [length] in *. lia.
Qed.
Theorem C201_last_point_refuted : forall srcs c w nm ax ts,
  w_traces w = ax :: ts -> w_new w = [] -> w_imp w = [] -> c_names c <> [] ->
  increasing (t_data ax) -> 3 < length (t_data ax) -> Forall (fun t => length (t_data t) = length (t_data ax)) ts ->
  aligned srcs 3 (w_num w) (t_what ax) c -> st_wave (s_ax (srcs (c_src c))) 0 = t_data ax ->
  exists w1 nm1, add_traces srcs c (w, nm) = Some (w1, nm1) /\
    exists w', before_save srcs w1 nm1 = Some w' /\
      exists ax' rest, w_traces w' = ax' :: rest /\ t_data ax' = removelast (t_data ax).
Proof.
  intros srcs c w nm ax ts W N0 I0 NE IA LA FT (A1 & EP & ST & MS & (K1 & K2) & SP & LN & F) SAME.
  pose proof K1 as K1'. apply num_type_ok in K1'.
  assert (exists x l, c_names c = x :: l) as (x & l & Z) by (destruct (c_names c); [contradiction|eauto]).
  destruct (import_ok srcs (c_names c) (c_src c) (c_ren c) (w_imp w) nm F) as (nm' & EI & _).
  assert (Qltb 0 (c_minstep c) = false) as M0 by (unfold Qltb; apply negb_false_iff; apply Qle_bool_iff; lra).
  assert (merged (c_err c) (t_data ax) (t_data ax) = removelast (t_data ax)) as MG by (apply merge_same; [exact EP|lia]).
  set (w1 := Writer (w_num w) (w_fwd w) (w_log w) (w_plot w) (w_traces w) (removelast (t_data ax)) (map (fun n => (c_src c, n)) (c_names c))).
  assert (add_traces srcs c (w, nm) = Some (w1, nm')) as EA.
  { unfold add_traces. rewrite W, K1', str_eqb_refl, K2, str_eqb_refl. cbn [negb]. rewrite Z. unfold add_data. rewrite W, A1, M0.
    cbn [orb]. rewrite N0, EI, ST, SAME, MG, I0. unfold w1. rewrite W. reflexivity. }
  exists w1, nm'. split; [exact EA|].
  assert (inv srcs ax ts (w_num w) 2 w) as IV.
  { assert (cur w = t_data ax) as CU by (unfold cur; rewrite N0, W; reflexivity).
    split; try rewrite CU; [exact W|reflexivity|exact IA|lia| |rewrite I0; constructor|rewrite I0, N0; tauto].
    intros z H. destruct (t_data ax) as [|y ys]; [destruct H|]. apply last_le; assumption. }
  destruct (call_ok srcs ax ts (w_num w) 1 w nm c IV ltac:(lia)) as (w2 & nm2 & E2 & IV2 & _).
  { repeat (split; [assumption|]). split; [split; assumption|]. split; [exact SP|]. split; [lia|exact F]. }
  rewrite EA in E2. injection E2 as <- <-. destruct IV2 as [_ _ J3 J4 J5 J6 _].
  assert (exists y ys, removelast (t_data ax) = y :: ys) as (y & ys & EY).
  { destruct (t_data ax) as [|y [|y' ys]]; cbn in LA; [lia|lia|]. exists y, (removelast (y' :: ys)). reflexivity. }
  assert (cur w1 = y :: ys) as CU by (unfold cur, w1; cbn [w_new]; rewrite EY; reflexivity).
  rewrite CU in J3, J5, J6.
  destruct (imports_ok srcs nm' (y :: ys) (w_imp w1) J3 J6) as (ims & EIM & _).
  destruct (traces_ok (t_data ax) (y :: ys) ts FT ltac:(lia) IA J3 J5) as (ts2 & ET & _).
  unfold before_save, consolidate. unfold w1 in EIM |- *. cbn [w_imp w_new w_traces] in EIM |- *. rewrite EY, W, EIM, ET, Z. cbn [map].
  destruct (length (y :: ys) =? length (t_data ax)); (eexists; split; [reflexivity|]; do 2 eexists; split; reflexivity).
Qed.
Print Assumptions C201_last_point_refuted.

(** The merged axis has as many points as the old one: the traces already there keep their samples, at other points of the axis. *)
Definition ex_third : source :=
  Source [s2l "real"; s2l "forward"] (s2l "Transient Analysis") (s2l "time")
    (STrace (s2l "time") (s2l "double") (fun _ => [0; 1#2; 1; 2; 3; 9])%Q)
    [(s2l "V(in)", STrace (s2l "voltage") (s2l "real") (fun _ => [0; 1; 2; 3; 4; 5])%Q)].
Theorem C200_same_length_refuted : exists srcs c w nm,
  aligned srcs 3 (w_num w) (s2l "time") c /\
  saved_traces srcs [c] w nm =
    Some [(s2l "time", [0; 1#2; 1; 2; 3]%Q); (s2l "V(x)", [5; 6; 7; 8; 9]%Q); (s2l "V(in)", [0; 1; 2; 3; 4]%Q)] /\
  w_traces w = [Trc (s2l "time") (s2l "time") (s2l "double") [0; 1; 2; 3; 4]%Q; Trc (s2l "V(x)") (s2l "voltage") (s2l "real") [5; 6; 7; 8; 9]%Q] /\
  ~ interpolates (1#2) 6 [0; 1; 2; 3; 4]%Q [5; 6; 7; 8; 9]%Q.
Proof.
  exists (fun _ => ex_third), (ex_call 0 [s2l "V(in)"] NoRename 0), ex_writer, ex_names. split; [|split; [|split]].
  - split; [reflexivity|]. split; [reflexivity|]. split; [reflexivity|]. split; [reflexivity|]. split.
    + split; [|reflexivity]. left. exists [], [s2l "forward"]. split; [reflexivity|]. split; [left; reflexivity|]. split; intros [].
    + split; [repeat constructor; cbv; intros H; discriminate H|]. split; [cbn; lia|]. constructor; [|constructor]. eexists. split; reflexivity.
  - vm_compute. reflexivity.
  - reflexivity.
  - intros [(i & x & y & X & E & Y & E2)|(i & a & b & ya & yb & A & B & YA & YB & L1 & L2 & E)].
    + do 5 (destruct i as [|i]; [cbn in X; injection X as <-; lra|]). destruct i; discriminate.
    + destruct i as [|i].
      * cbn in A, B, YA, YB. injection A as <-. injection B as <-. injection YA as <-. injection YB as <-. lra.
      * do 3 (destruct i as [|i]; [cbn in A; injection A as <-; lra|]). cbn in B. destruct i as [|i]; [discriminate|]. destruct i; discriminate.
Qed.
Print Assumptions C200_same_length_refuted.

(** With alignment the keyword "step" chooses the axis only: the samples are those of step 0. *)
Theorem C203_step_refuted : exists srcs c w nm,
  c_align c = true /\ c_step c = 1 /\
  option_map (map fst) (saved_traces srcs [c] w nm) = Some [s2l "time"; s2l "V(x)"; s2l "V(out)"] /\
  (exists t, StepsModel.dget (s2l "V(out)") (s_traces (srcs 0)) = Some t /\ st_wave t 1 = repeat 7%Q 5) /\
  option_map (fun l => nth_error (map snd l) 2) (saved_traces srcs [c] w nm) = Some (Some [0; 1; 4; 9]%Q).
Proof.
  exists ex_srcs, (ex_call 0 [s2l "V(out)"] NoRename 1), ex_writer, ex_names.
  split; [reflexivity|]. split; [reflexivity|]. split; [vm_compute; reflexivity|].
  split; [eexists; split; reflexivity|vm_compute; reflexivity].
Qed.
Print Assumptions C203_step_refuted.

(** An aligned merge renames the traces of the file it reads from. *)
Theorem C204_source_renamed_refuted : forall srcs c w nm ax ts x,
  w_traces w = ax :: ts -> w_new w = [] -> w_imp w = [] -> increasing (t_data ax) -> 3 < length (t_data ax) ->
  aligned srcs 3 (w_num w) (t_what ax) c -> NoDup (c_names c) -> In x (c_names c) ->
  exists w1 nm1, add_traces srcs c (w, nm) = Some (w1, nm1) /\ nm1 (c_src c) x = rename (c_ren c) x.
Proof.
  intros srcs c w nm ax ts x W N0 I0 IA LA (A1 & EP & ST & MS & K & SP & LN & F) ND HX.
  assert (inv srcs ax ts (w_num w) 2 w) as IV.
  { assert (cur w = t_data ax) as CU by (unfold cur; rewrite N0, W; reflexivity).
    split; try rewrite CU; [exact W|reflexivity|exact IA|lia| |rewrite I0; constructor|rewrite I0, N0; tauto].
    intros z H. destruct (t_data ax) as [|y ys]; [destruct H|]. apply last_le; assumption. }
  destruct (call_ok srcs ax ts (w_num w) 1 w nm c IV ltac:(lia)) as (w2 & nm2 & E2 & _ & _ & _ & _ & HN).
  { repeat (split; [assumption|]). split; [lia|exact F]. }
  exists w2, nm2. split; [exact E2|]. apply HN; assumption.
Qed.
Print Assumptions C204_source_renamed_refuted.
Example C204_nonvacuous : exists w1 nm1,
  add_traces ex_srcs (ex_call 0 [s2l "V(out)"] (AddTag (s2l "b")) 0) (ex_writer, ex_names) = Some (w1, nm1) /\
  ex_names 0 (s2l "V(out)") = s2l "V(out)" /\ nm1 0 (s2l "V(out)") = s2l "V(out_b)".
Proof. do 2 eexists. split; [reflexivity|]. split; [reflexivity|vm_compute; reflexivity]. Qed.

(** So the same trace added twice with alignment, under different tags, is written twice under the second one. *)
Theorem C207_twice_refuted : exists srcs w nm,
  saved_traces srcs [ex_call 0 [s2l "V(out)"] (AddTag (s2l "a")) 0; ex_call 0 [s2l "V(out)"] (AddTag (s2l "b")) 0] w nm =
  Some [(s2l "time", [0; 1; 2]%Q); (s2l "V(x)", [5; 6; 7]%Q); (s2l "V(out_b)", [0; 1; 4]%Q); (s2l "V(out_b)", [0; 1; 4]%Q)].
Proof. exists ex_srcs, ex_writer, ex_names. vm_compute. reflexivity. Qed.
Print Assumptions C207_twice_refuted.

(** Without alignment only the number of points is compared: the samples of a file with another axis are taken as they are. *)
Theorem C205_other_axis_refuted : forall srcs c w nm ax ts n t,
  w_traces w = ax :: ts -> c_align c = false -> (c_minstep c == 0)%Q ->
  same_kind (srcs (c_src c)) (w_num w) (t_what ax) ->
  length (st_wave (s_ax (srcs (c_src c))) (c_step c)) = length (t_data ax) ->
  c_names c = [n] -> StepsModel.dget n (s_traces (srcs (c_src c))) = Some t ->
  exists w' t', add_traces srcs c (w, nm) = Some (w', nm) /\ w_traces w' = w_traces w ++ [t'] /\ t_data t' = st_wave t (c_step c).
Proof.
  intros srcs c w nm ax ts n t W AL MS K LN CN T.
  destruct (C198_same_axis srcs c w nm ax ts W AL MS K LN) as (w' & news & E & WT & F2 & _).
  { rewrite CN. constructor; [eauto|constructor]. }
  rewrite CN in F2. inversion F2 as [|a b c1 d (t0 & T0 & _ & D & _) F3]; subst. inversion F3; subst.
  exists w', b. split; [exact E|]. split; [exact WT|]. rewrite D. congruence.
Qed.
Print Assumptions C205_other_axis_refuted.
(** An axis of step 1 (0, 2, 4, 6, 8) on a writer with 0, 1, 2, 3, 4. *)
Example C205_nonvacuous :
  saved_traces ex_srcs [Call 0 [s2l "V(out)"] false (1#10) NoRename 1 0] ex_writer ex_names =
  Some [(s2l "time", [0; 1; 2; 3; 4]%Q); (s2l "V(x)", [5; 6; 7; 8; 9]%Q); (s2l "V(out)", [7; 7; 7; 7; 7]%Q)] /\
  st_wave (s_ax (ex_srcs 0)) 1 = [0; 2; 4; 6; 8]%Q.
Proof. split; vm_compute; reflexivity. Qed.
Example C198_nonvacuous :
  saved_traces ex_srcs [Call 0 [s2l "V(out)"] false (1#10) (AddTag (s2l "b")) 0 0]
    (Writer (s2l "auto") false false [] [] [] []) ex_names =
  Some [(s2l "time", [0; 1; 2; 3; 4]%Q); (s2l "V(out_b)", [0; 1; 4; 9; 16]%Q)].
Proof. vm_compute. reflexivity. Qed.
Example C208_nonvacuous :
  ~ same_kind (ex_srcs 0) (s2l "complex") (s2l "time") /\ ~ same_kind (ex_srcs 0) (s2l "real") (s2l "frequency").
Proof.
  split; intros (H & K); [|vm_compute in K; discriminate]. apply num_type_ok in H. vm_compute in H. discriminate.
Qed.
