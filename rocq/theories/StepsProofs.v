From Coq Require Import String Ascii List Bool Arith Lia QArith Qround ZArith Lqa.
From Verif Require Import PyStr StepsModel StepsSpec.
Import ListNotations.
Local Open Scope nat_scope.
Local Open Scope list_scope.

Section D.
Context {V : Type} (veqb : V -> V -> bool).

Fixpoint positions (d0 : V) (i : nat) (rest : list V) : list nat :=
  match rest with
  | [] => []
  | v :: r => if veqb v d0 then i :: positions d0 (S i) r else positions d0 (S i) r
  end.

Lemma upd_mid : forall A (a : list A) x y b, upd (length a) x (a ++ y :: b) = Some (a ++ x :: b).
Proof. induction a; intros; simpl; [reflexivity|]. rewrite IHa. reflexivity. Qed.
Lemma upd_end : forall A (a : list A) x, upd (length a) x a = None.
Proof. induction a; intros; simpl; [reflexivity|]. rewrite IHa. reflexivity. Qed.

Lemma mark_spec : forall d0 rest i k done m, length done = k ->
  mark veqb d0 rest i k (done ++ repeat None m) =
  let p := positions d0 i rest in
  if length p <=? m then Some (k + length p, done ++ map Some p ++ repeat None (m - length p)) else None.
Proof.
  intros d0 rest. induction rest as [|v r IH]; intros i k done m Hk; simpl.
  - rewrite Nat.add_0_r, Nat.sub_0_r. reflexivity.
  - destruct (veqb v d0) eqn:E.
    + destruct m as [|m].
      * simpl. rewrite app_nil_r. rewrite <- Hk. rewrite upd_end. reflexivity.
      * simpl repeat. rewrite <- Hk. rewrite upd_mid.
        replace (done ++ Some i :: repeat None m) with ((done ++ [Some i]) ++ repeat None m)
          by (rewrite <- app_assoc; reflexivity).
        rewrite (IH (S i) (S (length done))) by (rewrite app_length; simpl; lia).
        simpl. destruct (length (positions d0 (S i) r) <=? m); [|reflexivity].
        rewrite <- app_assoc. simpl. f_equal. f_equal. lia.
    + rewrite IH by exact Hk. reflexivity.
Qed.

Fixpoint starts (o : nat) (ws : list (list V)) : list nat :=
  match ws with [] => [] | w :: ws' => o :: starts (o + length w) ws' end.

Lemma cut_rest : forall d0 rest i, exists pre ws,
  rest = pre ++ concat ws /\ (forall x, In x pre -> veqb x d0 = false) /\
  positions d0 i rest = starts (i + length pre) ws /\
  Forall (fun w => exists v r, w = v :: r /\ veqb v d0 = true /\ forall x, In x r -> veqb x d0 = false) ws.
Proof.
  intros d0 rest. induction rest as [|v r IH]; intros i.
  - exists [], []. simpl. repeat split; try constructor. contradiction.
  - destruct (IH (S i)) as (pre & ws & H1 & H2 & H3 & H4). simpl. destruct (veqb v d0) eqn:E.
    + exists [], ((v :: pre) :: ws). simpl. repeat split.
      * rewrite H1. reflexivity.
      * contradiction.
      * rewrite H3. rewrite Nat.add_0_r. f_equal. f_equal. lia.
      * constructor; [|exact H4]. exists v, pre. auto.
    + exists (v :: pre), ws. simpl. repeat split.
      * rewrite H1. reflexivity.
      * intros x [<-|Hx]; auto.
      * rewrite H3. f_equal. lia.
      * exact H4.
Qed.

Lemma starts_length : forall ws o, length (starts o ws) = length ws.
Proof. induction ws; intros; simpl; [reflexivity|]. rewrite IHws. reflexivity. Qed.

Lemma starts_nth : forall ws o k, k < length ws ->
  nth_error (starts o ws) k = Some (o + length (concat (firstn k ws))).
Proof.
  induction ws as [|w ws IH]; intros o k Hk; [simpl in Hk; lia|].
  destruct k; simpl; [f_equal; lia|]. rewrite IH by (simpl in Hk; lia). rewrite app_length. f_equal. lia.
Qed.

Lemma positions_length : forall d0 rest i, length (positions d0 i rest) = length (filter (fun v => veqb v d0) rest).
Proof. intros d0. induction rest; intros; simpl; [reflexivity|]. destruct (veqb a d0); simpl; rewrite IHrest; reflexivity. Qed.

Lemma set_steps_char : forall data n, data <> [] ->
  exists ws, cut_at_first_value veqb data ws /\ length ws = n_steps veqb data /\
  set_steps veqb data n =
    if n =? n_steps veqb data then Offsets (map Some (starts 0 ws))
    else if n =? 0 then ErrIndex else if n <? n_steps veqb data then ErrIndex else ErrCount.
Proof.
  intros data n Hne. destruct data as [|d0 rest]; [contradiction|].
  destruct (cut_rest d0 rest 1) as (pre & ws & H1 & H2 & H3 & H4).
  exists ((d0 :: pre) :: ws). split; [|split].
  - exists d0. split; [reflexivity|]. split; [simpl; rewrite H1; reflexivity|].
    intros k w Hk. destruct k; simpl in Hk.
    + injection Hk as <-. exists d0, pre. auto.
    + apply nth_error_In in Hk. rewrite Forall_forall in H4. destruct (H4 _ Hk) as (v & r & -> & E & F).
      exists v, r. auto.
  - unfold n_steps. simpl. f_equal. rewrite <- (positions_length d0 rest 1), H3, starts_length. reflexivity.
  - unfold set_steps. destruct n as [|n]; simpl; [reflexivity|].
    replace (Some 0 :: repeat (None : option nat) n) with ([Some 0] ++ repeat None n) by reflexivity.
    rewrite mark_spec by reflexivity. cbv zeta. rewrite <- (positions_length d0 rest 1).
    destruct (length (positions d0 1 rest) <=? n) eqn:E.
    + apply Nat.leb_le in E.
      destruct (Nat.eqb_spec n (length (positions d0 1 rest))) as [->|Hd].
      * rewrite Nat.eqb_refl. rewrite Nat.sub_diag. simpl repeat. rewrite app_nil_r. simpl. rewrite H3. simpl. reflexivity.
      * replace (1 + length (positions d0 1 rest) =? S n) with false by (symmetry; apply Nat.eqb_neq; lia).
        replace (S n <? S (length (positions d0 1 rest))) with false; [reflexivity|].
        symmetry. apply Nat.ltb_ge. lia.
    + apply Nat.leb_gt in E.
      destruct (Nat.eqb_spec n (length (positions d0 1 rest))); [lia|].
      replace (S n <? S (length (positions d0 1 rest))) with true; [reflexivity|]. symmetry. apply Nat.ltb_lt. lia.
Qed.

Definition offs (ws : list (list V)) (k : nat) : nat := length (concat (firstn k ws)).

Lemma step_offset_starts : forall ws k,
  step_offset (Some (map Some (starts 0 ws))) (length (concat ws)) k = Some (offs ws k).
Proof.
  intros ws k. unfold step_offset, offs. destruct (lt_dec k (length ws)) as [H|H].
  - rewrite nth_error_map, starts_nth by exact H. reflexivity.
  - rewrite (proj2 (nth_error_None _ _)); [|rewrite map_length, starts_length; lia].
    rewrite firstn_all2 by lia. reflexivity.
Qed.

Lemma offs_mono : forall ws k, offs ws k <= offs ws (k + 1).
Proof.
  intros ws k. unfold offs. rewrite <- (firstn_skipn k (firstn (k+1) ws)).
  rewrite concat_app, app_length. rewrite firstn_firstn. replace (Nat.min k (k+1)) with k by lia. lia.
Qed.

Lemma offs_0 : forall ws, offs ws 0 = 0.
Proof. reflexivity. Qed.

Lemma wave_slice : forall A ws (data : list A) k,
  trace_wave (Some (map Some (starts 0 ws))) (length (concat ws)) data k
  = firstn (offs ws (k + 1) - offs ws k) (skipn (offs ws k) data).
Proof.
  intros A ws data k. unfold trace_wave. destruct k; simpl Nat.eqb.
  - rewrite step_offset_starts. unfold pslice. rewrite offs_0. simpl. reflexivity.
  - cbv iota. rewrite !step_offset_starts. reflexivity.
Qed.

Lemma skipn_skipn' : forall A (l : list A) a b, skipn a (skipn b l) = skipn (b + a) l.
Proof. induction l; intros; [rewrite !skipn_nil; reflexivity|]. destruct b; simpl; [reflexivity|]. apply IHl. Qed.

Lemma firstn_plus : forall A (l : list A) a b, firstn (a + b) l = firstn a l ++ firstn b (skipn a l).
Proof. induction l; intros; [rewrite skipn_nil, !firstn_nil; reflexivity|]. destruct a0; simpl; [reflexivity|]. rewrite IHl. reflexivity. Qed.

Lemma waves_prefix : forall A ws (data : list A) n,
  concat (map (trace_wave (Some (map Some (starts 0 ws))) (length (concat ws)) data) (seq 0 n))
  = firstn (offs ws n) data.
Proof.
  induction n; [reflexivity|]. rewrite seq_S, map_app, concat_app, IHn. simpl. rewrite app_nil_r, wave_slice.
  rewrite <- firstn_plus. f_equal. pose proof (offs_mono ws n). replace (S n) with (n + 1) by lia. lia.
Qed.

Lemma waves_all : forall A ws (data : list A) n, length data = length (concat ws) -> length ws <= n ->
  concat (map (trace_wave (Some (map Some (starts 0 ws))) (length (concat ws)) data) (seq 0 n)) = data.
Proof.
  intros A ws data n Hl Hn. rewrite waves_prefix. unfold offs. rewrite (firstn_all2 ws) by exact Hn.
  rewrite <- Hl. apply firstn_all.
Qed.

Lemma skipn_concat : forall (ws : list (list V)) k, skipn (offs ws k) (concat ws) = concat (skipn k ws).
Proof.
  intros ws k. unfold offs. rewrite <- (firstn_skipn k ws) at 2. rewrite concat_app.
  rewrite skipn_app, skipn_all, Nat.sub_diag. reflexivity.
Qed.

Lemma wave_nth : forall ws k w, nth_error ws k = Some w ->
  trace_wave (Some (map Some (starts 0 ws))) (length (concat ws)) (concat ws) k = w.
Proof.
  intros ws k w Hk. rewrite wave_slice, skipn_concat.
  destruct (nth_error_split _ _ Hk) as (a & b & -> & Ha).
  unfold offs. rewrite !firstn_app, !skipn_app.
  replace (k + 1 - length a) with 1 by lia. replace (k - length a) with 0 by lia.
  rewrite (firstn_all2 (n := k + 1) a) by lia. rewrite (firstn_all2 (n := k) a) by lia.
  rewrite (skipn_all2 (n := k) a) by lia. simpl. rewrite app_nil_r. rewrite concat_app, app_length. simpl.
  rewrite app_nil_r. replace (length (concat a) + length w - length (concat a)) with (length w) by lia.
  rewrite firstn_app, Nat.sub_diag, firstn_all. simpl. apply app_nil_r.
Qed.

Lemma wave_len : forall A ws (data : list A) k, length data = length (concat ws) ->
  length (trace_wave (Some (map Some (starts 0 ws))) (length (concat ws)) data k) = offs ws (k + 1) - offs ws k.
Proof.
  intros A ws data k Hl. rewrite wave_slice, firstn_length, skipn_length.
  assert (offs ws (k+1) <= length data).
  { rewrite Hl. unfold offs. rewrite <- (firstn_skipn (k + 1) ws) at 2. rewrite concat_app, app_length. lia. }
  lia.
Qed.
End D.
Section E.
Context {V : Type} (veqb : V -> V -> bool).

Lemma set_ok : forall (data : list V) n o, data <> [] -> set_steps veqb data n = Offsets o ->
  n = n_steps veqb data /\ exists ws, cut_at_first_value veqb data ws /\ length ws = n /\ o = map Some (starts 0 ws) /\ data = concat ws.
Proof.
  intros data n o Hne H. destruct (set_steps_char veqb data n Hne) as (ws & Hc & Hl & Hs). rewrite Hs in H.
  destruct (Nat.eqb_spec n (n_steps veqb data)) as [E|E].
  - injection H as <-. split; [exact E|]. exists ws. repeat split; try assumption; try lia.
    destruct Hc as (d0 & _ & Hc & _). symmetry. exact Hc.
  - destruct (n =? 0); [discriminate|]. destruct (n <? n_steps veqb data); discriminate.
Qed.

Theorem set_steps_outcome : forall (data : list V) n, data <> [] ->
  ((exists o, set_steps veqb data n = Offsets o) <-> n = n_steps veqb data) /\
  (n_steps veqb data < n -> set_steps veqb data n = ErrCount) /\
  (n < n_steps veqb data -> set_steps veqb data n = ErrIndex).
Proof.
  intros data n Hne. destruct (set_steps_char veqb data n Hne) as (ws & Hc & Hl & Hs). rewrite Hs.
  destruct (Nat.eqb_spec n (n_steps veqb data)) as [E|E].
  - split; [split; intros; [exact E|eauto]|]. split; intros; lia.
  - destruct (Nat.eqb_spec n 0) as [E0|E0].
    + split; [split; [intros [? ?]; discriminate|contradiction]|]. split; intros; [lia|reflexivity].
    + destruct (Nat.ltb_spec n (n_steps veqb data)); (split; [split; [intros [? ?]; discriminate|contradiction]|]);
        split; intros; (lia || reflexivity).
Qed.

Theorem waves : forall (data : list V) n o, data <> [] -> set_steps veqb data n = Offsets o ->
  n = n_steps veqb data /\
  cut_at_first_value veqb data (map (trace_wave (Some o) (length data) data) (seq 0 n)) /\
  (forall (A : Type) (tr : list A), length tr = length data ->
     concat (map (trace_wave (Some o) (length data) tr) (seq 0 n)) = tr /\
     forall k, k < n -> length (trace_wave (Some o) (length data) tr k) = length (trace_wave (Some o) (length data) data k)) /\
  (forall k, k < n -> axis_len (Some o) data k = Some (length (trace_wave (Some o) (length data) data k))).
Proof.
  intros data n o Hne H. destruct (set_ok _ _ _ Hne H) as (Hn & ws & Hc & Hl & -> & Hd).
  split; [exact Hn|]. split; [|split].
  - destruct Hc as (d0 & Hd0 & Hcc & Hw). exists d0. split; [exact Hd0|]. rewrite Hd. split.
    + apply waves_all; lia.
    + intros k w Hk. rewrite nth_error_map in Hk.
      assert (k < n) as Hkn.
      { destruct (lt_dec k n); [assumption|]. rewrite (proj2 (nth_error_None (seq 0 n) k)) in Hk; [discriminate|].
        rewrite seq_length. lia. }
      rewrite (nth_error_nth' _ 0) in Hk by (rewrite seq_length; exact Hkn). rewrite seq_nth in Hk by exact Hkn.
      simpl in Hk. injection Hk as <-.
      destruct (nth_error ws k) as [w|] eqn:E.
      * rewrite (wave_nth ws k w E). apply Hw. exact E.
      * apply nth_error_None in E. lia.
  - intros A tr Htr. rewrite Hd in Htr |- *. split; [apply waves_all; lia|].
    intros k Hk. rewrite !wave_len; [reflexivity|reflexivity|exact Htr].
  - intros k Hk. unfold axis_len. rewrite Hd. rewrite !step_offset_starts. f_equal. symmetry. apply wave_len. reflexivity.
Qed.

Theorem point_in_step : forall (A : Type) (data : list V) n o (tr : list A), data <> [] -> set_steps veqb data n = Offsets o ->
  length tr = length data -> forall k i, k < n -> i < length (trace_wave (Some o) (length data) tr k) ->
  get_point (Some o) (length data) tr i k = nth_error (trace_wave (Some o) (length data) tr k) i.
Proof.
  intros A data n o tr Hne H Htr k i Hk Hi. destruct (set_ok _ _ _ Hne H) as (Hn & ws & Hc & Hl & -> & Hd).
  rewrite Hd in Hi, Htr |- *. unfold get_point. rewrite step_offset_starts.
  rewrite wave_len in Hi by exact Htr. rewrite wave_slice.
  rewrite <- (firstn_skipn (offs ws k) tr) at 1.
  assert (offs ws k <= length tr).
  { rewrite Htr. unfold offs. rewrite <- (firstn_skipn k ws) at 2. rewrite concat_app, app_length. lia. }
  rewrite nth_error_app2 by (rewrite firstn_length; lia). rewrite firstn_length.
  replace (i + offs ws k - Nat.min (offs ws k) (length tr)) with i by lia.
  rewrite <- (firstn_skipn (offs ws (k+1) - offs ws k) (skipn (offs ws k) tr)) at 1.
  apply nth_error_app1. pose proof (wave_len _ ws tr k Htr) as W. rewrite wave_slice in W. lia.
Qed.

(** * Selection *)
Lemma conditions_met_iff : forall (d : list (str * V)) conds, conditions_met veqb d conds = true <-> meets veqb d conds.
Proof.
  intros d conds. induction conds as [|[k v] c IH]; simpl.
  - split; [intros _ ? ? []|reflexivity].
  - destruct (dget k d) as [x|] eqn:E.
    + destruct (veqb v x) eqn:Ev; simpl.
      * rewrite IH. split.
        -- intros H k' v' [G|G]; [injection G as <- <-; eauto|apply H; exact G].
        -- intros H k' v' G. apply H. right. exact G.
      * split; [discriminate|]. intros H. destruct (H k v (or_introl eq_refl)) as (x' & E' & Ev').
        rewrite E in E'. injection E' as <-. congruence.
    + split; [discriminate|]. intros H. destruct (H k v (or_introl eq_refl)) as (x' & E' & Ev'). congruence.
Qed.

Lemma select_spec : forall (steps : list (list (str * V))) conds i,
  exists f, select veqb i steps conds = filter f (seq i (length steps)) /\
   forall j d, nth_error steps j = Some d -> (f (i + j) = true <-> meets veqb d conds).
Proof.
  intros steps conds. induction steps as [|d s IH]; intros i.
  - exists (fun _ => true). split; [reflexivity|]. intros j d Hj. destruct j; discriminate.
  - destruct (IH (S i)) as (f & Hf & Hs).
    exists (fun j => if j =? i then conditions_met veqb d conds else f j). split.
    + simpl. rewrite Nat.eqb_refl.
      replace (filter (fun j => if j =? i then conditions_met veqb d conds else f j) (seq (S i) (length s)))
        with (filter f (seq (S i) (length s))).
      * destruct (conditions_met veqb d conds); rewrite Hf; reflexivity.
      * apply filter_ext_in. intros a Ha. apply in_seq in Ha. replace (a =? i) with false; [reflexivity|].
        symmetry. apply Nat.eqb_neq. lia.
    + intros j d' Hj. destruct j; simpl in Hj.
      * injection Hj as <-. rewrite Nat.add_0_r, Nat.eqb_refl. apply conditions_met_iff.
      * replace (i + S j =? i) with false by (symmetry; apply Nat.eqb_neq; lia).
        replace (i + S j) with (S i + j) by lia. apply Hs. exact Hj.
Qed.

Lemma filter_true : forall A (l : list A), filter (fun _ => true) l = l.
Proof. induction l; simpl; [reflexivity|]. rewrite IHl. reflexivity. Qed.
Lemma filter_In_seq_sorted : forall f a n i j x y, nth_error (filter f (seq a n)) i = Some x ->
  nth_error (filter f (seq a n)) j = Some y -> i < j -> x < y.
Proof.
  intros f a n. revert a. induction n; intros a i j x y Hi Hj L; simpl in *; [destruct i; discriminate|].
  destruct (f a); simpl in *.
  - destruct i, j; simpl in *; try lia.
    + injection Hi as <-. apply nth_error_In in Hj. apply filter_In in Hj. destruct Hj as [Hj _]. apply in_seq in Hj. lia.
    + eapply IHn; eauto. lia.
  - eapply IHn; eauto.
Qed.

Theorem get_steps_spec : forall (steps : list (list (str * V))) conds,
  (forall j, In j (get_steps veqb (Some steps) conds) <-> exists d, nth_error steps j = Some d /\ meets veqb d conds) /\
  (forall i j x y, nth_error (get_steps veqb (Some steps) conds) i = Some x ->
     nth_error (get_steps veqb (Some steps) conds) j = Some y -> i < j -> x < y).
Proof.
  intros steps conds. unfold get_steps. destruct conds as [|c conds]; cbn [length Nat.ltb Nat.leb].
  - split.
    + intros j. rewrite in_seq. split.
      * intros H. destruct (nth_error steps j) as [d|] eqn:E; [|apply nth_error_None in E; lia].
        exists d. split; [reflexivity|]. intros k v [].
      * intros (d & Hd & _). split; [lia|]. apply nth_error_Some. congruence.
    + intros i j x y Hi Hj L.
      apply (filter_In_seq_sorted (fun _ => true) 0 (length steps) i j x y); [| |exact L];
      rewrite filter_true; assumption.
  - destruct (select_spec steps (c :: conds) 0) as (f & Hf & Hs). rewrite Hf. split.
    + intros j. rewrite filter_In, in_seq. split.
      * intros [H Hfj]. destruct (nth_error steps j) as [d|] eqn:E; [|apply nth_error_None in E; lia].
        exists d. split; [reflexivity|]. apply (Hs j d E). exact Hfj.
      * intros (d & Hd & Hm). split; [split; [lia|]; apply nth_error_Some; congruence|]. apply (Hs j d Hd). exact Hm.
    + intros i j x y. apply filter_In_seq_sorted.
Qed.

(** * Export *)
Lemma export_acc : forall A (wave : nat -> list A) steps d,
  export_column wave steps (Some d) = Some (d ++ concat (map wave steps)).
Proof.
  intros A wave steps. induction steps; intros d; simpl; [rewrite app_nil_r; reflexivity|].
  rewrite IHsteps, <- app_assoc. reflexivity.
Qed.
Theorem export_spec : forall A (wave : nat -> list A) steps, steps <> [] ->
  export_column wave steps None = Some (concat (map wave steps)).
Proof. intros A wave [|s steps] H; [contradiction|]. simpl. apply export_acc. Qed.

(** * Log lines *)
Lemma split_on_plain : forall c s, ~ In c s -> split_on c s = [s].
Proof.
  intros c s. induction s as [|x s IH]; intros H; simpl; [reflexivity|].
  destruct (aeqb x c) eqn:E; [apply aeqb_eq in E; subst; exfalso; apply H; left; reflexivity|].
  rewrite IH; [reflexivity|]. intros G. apply H. right. exact G.
Qed.
Lemma split_on_cons : forall c a b, ~ In c a -> split_on c (a ++ c :: b) = a :: split_on c b.
Proof.
  intros c a b. induction a as [|x a IH]; intros H; simpl.
  - rewrite aeqb_refl. reflexivity.
  - destruct (aeqb x c) eqn:E; [apply aeqb_eq in E; subst; exfalso; apply H; left; reflexivity|].
    rewrite IH; [reflexivity|]. intros G. apply H. right. exact G.
Qed.
Definition item (kv : str * str) : str := fst kv ++ ["="%char] ++ snd kv.
Definition plain_item (kv : str * str) : Prop := plain (fst kv) /\ plain (snd kv).

Lemma plain_no : forall c s, (c = " "%char \/ c = "="%char) -> plain s -> ~ In c s.
Proof. intros c s [->| ->] H G; destruct (H _ G); congruence. Qed.

Lemma item_no_space : forall kv, plain_item kv -> ~ In " "%char (item kv).
Proof.
  intros [k v] [Hk Hv] G. unfold item in G. simpl in *. apply in_app_or in G. destruct G as [G|[G|G]]; [|discriminate|].
  - revert G. apply plain_no; auto.
  - revert G. apply plain_no; auto.
Qed.

Lemma items_split : forall l, l <> [] -> Forall plain_item l -> split_on " " (items_text l) = map item l.
Proof.
  induction l as [|[k v] l IH]; intros H F; [contradiction|]. inversion F as [|? ? Hp Hf]; subst.
  destruct l as [|kv l].
  - simpl. rewrite split_on_plain; [reflexivity|]. apply (item_no_space (k, v)). exact Hp.
  - change (items_text ((k, v) :: kv :: l)) with (k ++ ["="%char] ++ v ++ [" "%char] ++ items_text (kv :: l)).
    replace (k ++ ["="%char] ++ v ++ [" "%char] ++ items_text (kv :: l)) with (item (k, v) ++ " "%char :: items_text (kv :: l)).
    + rewrite split_on_cons by (apply item_no_space; exact Hp). rewrite IH; [reflexivity|discriminate|exact Hf].
    + unfold item. simpl. rewrite <- app_assoc. reflexivity.
Qed.

Definition put (conv : str -> V) (d : list (str * V)) (kv : str * str) := dset (fst kv) (conv (snd kv)) d.

Lemma tokens_items : forall conv l d, Forall plain_item l ->
  step_tokens conv (map item l) d = Some (fold_left (put conv) l d).
Proof.
  intros conv l. induction l as [|[k v] l IH]; intros d F; [reflexivity|]. inversion F as [|? ? [Hk Hv] Hf]; subst. simpl in *.
  change (item (k, v)) with (k ++ "="%char :: v).
  replace (mem_c "=" (k ++ "="%char :: v)) with true.
  - cbn [negb]. rewrite split_on_cons by (apply plain_no; auto). rewrite split_on_plain by (apply plain_no; auto).
    rewrite IH by exact Hf. reflexivity.
  - symmetry. apply mem_c_In. apply in_or_app. right. left. reflexivity.
Qed.

Lemma removelast_app_one : forall A (l : list A) x, removelast (l ++ [x]) = l.
Proof. intros. rewrite removelast_app by discriminate. simpl. apply app_nil_r. Qed.

Lemma step_line_text : forall conv l, Forall plain_item l ->
  step_line conv (step_text l) = Some (fold_left (put conv) l []).
Proof.
  intros conv l F. unfold step_line, step_text. change (s2l ".step ") with ([".";"s";"t";"e";"p";" "])%char.
  cbn [skipn app]. rewrite removelast_app_one. destruct l as [|kv l]; [reflexivity|].
  rewrite items_split by (discriminate || exact F). apply tokens_items. exact F.
Qed.

Lemma dget_dset : forall W k k' (v : W) d, dget k' (dset k v d) = if str_eqb k k' then Some v else dget k' d.
Proof.
  intros W k k' v d. unfold dget. induction d as [|[a b] d IH]; simpl.
  - destruct (str_eqb k k'); reflexivity.
  - destruct (str_eqb a k) eqn:E; simpl.
    + apply str_eqb_eq in E. subst a. destruct (str_eqb k k'); reflexivity.
    + destruct (str_eqb a k') eqn:E2; simpl; [|exact IH].
      apply str_eqb_eq in E2. subst a. destruct (str_eqb k k') eqn:E3; [|reflexivity].
      apply str_eqb_eq in E3. subst k. rewrite str_eqb_refl in E. discriminate.
Qed.

Lemma put_all : forall conv l d k, dget k (fold_left (put conv) l d) =
  match find (fun e => str_eqb (fst e) k) (rev l) with Some kv => Some (conv (snd kv)) | None => dget k d end.
Proof.
  intros conv l. induction l as [|kv l IH]; intros d k; simpl; [reflexivity|].
  rewrite IH. unfold put. rewrite dget_dset.
  assert (forall (f : str * str -> bool) a b, find f (a ++ b) = match find f a with Some x => Some x | None => find f b end) as FA.
  { intros f a b. induction a; simpl; [reflexivity|]. destruct (f a); auto. }
  rewrite FA. destruct (find _ (rev l)); [reflexivity|]. simpl. destruct (str_eqb (fst kv) k); reflexivity.
Qed.

Theorem log_steps_text : forall (conv : str -> V) (log : list log_line), Forall log_line_ok log ->
  exists steps, log_steps conv (map log_text log) = Some steps /\
  Forall2 (fun l (d : list (str * V)) => forall k, dget k d = option_map conv (last_value k l)) (step_table log) steps.
Proof.
  intros conv log F. induction log as [|x log IH]; simpl.
  - exists []. split; [reflexivity|constructor].
  - inversion F as [|? ? Hl Ht]; subst. destruct (IH Ht) as (steps & E & Hf). destruct x as [l|o]; simpl in *.
    + rewrite E. rewrite step_line_text by exact Hl. eexists. split; [reflexivity|]. constructor; [|exact Hf].
      intros k. rewrite put_all. unfold last_value. destruct (find _ (rev l)); reflexivity.
    + rewrite Hl. exists steps. auto.
Qed.
End E.

(** * Positions *)
Local Open Scope Q_scope.

Lemma qltb_lt : forall x y, qltb x y = true <-> x < y.
Proof.
  intros x y. unfold qltb. rewrite negb_true_iff. split.
  - intros H. apply Qnot_le_lt. intros G. apply Qle_bool_iff in G. congruence.
  - intros H. destruct (Qle_bool y x) eqn:E; [|reflexivity]. apply Qle_bool_iff in E. lra.
Qed.

Lemma find_position_spec : forall t xs i prev,
  (forall a, prev = Some a -> a < t) ->
  match find_position t i prev xs with
  | AtIndex n => exists j, n = (i + j)%nat /\ exists x, nth_error xs j = Some x /\ x == t
  | Between p => exists j x a, nth_error xs j = Some x /\
       (match j with O => prev | S j' => nth_error xs j' end) = Some a /\
       a < t /\ t < x /\ p = inject_Z (Z.of_nat (i + j)) - 1 + (t - a) / (x - a)
  | BelowFirst => prev = None /\ exists x r, xs = x :: r /\ t < x
  | NotFound => forall x, In x xs -> x < t
  end.
Proof.
  intros t xs. induction xs as [|x xs IH]; intros i prev Hp; simpl; [contradiction|].
  destruct (Qeq_bool x t) eqn:Ee.
  - exists O. split; [lia|]. exists x. split; [reflexivity|]. apply Qeq_bool_iff. exact Ee.
  - assert (~ x == t) as Hne by (intros G; apply Qeq_bool_iff in G; congruence).
    destruct (qltb t x) eqn:El.
    + apply qltb_lt in El. destruct prev as [a|].
      * exists O, x, a. repeat split; auto. simpl. rewrite Nat.add_0_r. reflexivity.
      * split; [reflexivity|]. eauto.
    + assert (x < t) as Hxt.
      { destruct (Qlt_le_dec x t) as [H|H]; [exact H|]. exfalso. apply Hne. apply Qle_antisym; [|exact H].
        apply Qnot_lt_le. intros G. apply qltb_lt in G. congruence. }
      specialize (IH (S i) (Some x)). cbv beta in IH.
      assert (forall a, Some x = Some a -> a < t) as G by (intros a E; injection E as <-; exact Hxt).
      specialize (IH G). destruct (find_position t (S i) (Some x) xs) as [n|p| |].
      * destruct IH as (j & -> & y & Hy & E). exists (S j). split; [lia|]. exists y. auto.
      * destruct IH as (j & y & a & Hy & Ha & H1 & H2 & ->). exists (S j), y, a. split; [exact Hy|].
        split; [destruct j; exact Ha|]. split; [exact H1|]. split; [exact H2|].
        replace (i + S j)%nat with (S i + j)%nat by lia. reflexivity.
      * intros y [<-|Hy]; auto.
      * destruct IH as [E _]. discriminate.
Qed.

Lemma between_floor : forall j a t x, a < t -> t < x ->
  let p := inject_Z (Z.of_nat (S j)) - 1 + (t - a) / (x - a) in
  Qfloor p = Z.of_nat j /\ p - inject_Z (Z.of_nat j) == (t - a) / (x - a) /\
  0 < (t - a) / (x - a) /\ (t - a) / (x - a) < 1.
Proof.
  intros j a t x H1 H2 p.
  assert (0 < (t - a) / (x - a)) as P.
  { apply Qlt_shift_div_l; lra. }
  assert ((t - a) / (x - a) < 1) as P1.
  { apply Qlt_shift_div_r; lra. }
  assert (p == inject_Z (Z.of_nat j) + (t - a) / (x - a)) as E.
  { unfold p. rewrite Nat2Z.inj_succ. unfold Z.succ. rewrite inject_Z_plus. change (inject_Z 1) with 1. ring. }
  split; [|split; [rewrite E; ring|auto]].
  rewrite E. apply Z.le_antisymm.
  - assert (inject_Z (Qfloor (inject_Z (Z.of_nat j) + (t - a) / (x - a))) < inject_Z (Z.of_nat j + 1)) as L.
    { eapply Qle_lt_trans; [apply Qfloor_le|]. rewrite inject_Z_plus. change (inject_Z 1) with 1. lra. }
    rewrite <- Zlt_Qlt in L. lia.
  - rewrite <- (Qfloor_Z (Z.of_nat j)) at 1. apply Qfloor_resp_le. lra.
Qed.

Theorem position_between : forall is_time steps axis step t x0,
  hd_error (axis_wave qabs is_time steps axis step) = Some x0 -> x0 <= t ->
  (exists x, In x (axis_wave qabs is_time steps axis step) /\ t <= x) ->
  at_or_between t (axis_wave qabs is_time steps axis step) (get_position is_time steps axis t step).
Proof.
  intros is_time steps axis step t x0 Hh H0 Hx. unfold get_position.
  set (w := axis_wave qabs is_time steps axis step) in *.
  assert (forall a, @None Q = Some a -> a < t) as G by discriminate.
  pose proof (find_position_spec t w 0%nat None G) as S.
  destruct (find_position t 0%nat None w) as [n|p| |]; simpl.
  - destruct S as (j & -> & x & E & Ex). exists x. auto.
  - destruct S as (j & x & a & E & Ea & H1 & H2 & ->). destruct j as [|j]; [discriminate|].
    destruct (between_floor j a t x H1 H2) as (F & P & _ & _). simpl Nat.add. exists j, a, x.
    split; [exact F|]. split; [exact Ea|]. split; [exact E|]. split; [exact H1|]. split; [exact H2|].
    rewrite P. field. lra.
  - destruct Hx as (x & Hi & Hl). specialize (S x Hi). lra.
  - destruct S as (_ & x & r & E & L). rewrite E in Hh. simpl in Hh. injection Hh as <-. lra.
Qed.

Theorem position_outside : forall is_time steps axis step t,
  (forall x, hd_error (axis_wave qabs is_time steps axis step) = Some x -> t < x -> get_position is_time steps axis t step = BelowFirst) /\
  ((forall x, In x (axis_wave qabs is_time steps axis step) -> x < t) -> get_position is_time steps axis t step = NotFound).
Proof.
  intros is_time steps axis step t. unfold get_position.
  set (w := axis_wave qabs is_time steps axis step) in *.
  split.
  - intros x Hx L. destruct w as [|x' r]; [discriminate|]. simpl in Hx. injection Hx as ->. simpl.
    replace (Qeq_bool x t) with false.
    + replace (qltb t x) with true; [reflexivity|]. symmetry. apply qltb_lt. exact L.
    + symmetry. apply not_true_iff_false. intros E. apply Qeq_bool_iff in E. lra.
  - intros H. assert (forall a, @None Q = Some a -> a < t) as G by discriminate.
    pose proof (find_position_spec t w 0%nat None G) as S.
    destruct (find_position t 0%nat None w) as [n|p| |]; [| |reflexivity|].
    + destruct S as (j & -> & x & E & Ex). apply nth_error_In in E. specialize (H _ E). lra.
    + destruct S as (j & x & a & E & Ea & H1 & H2 & ->). apply nth_error_In in E. specialize (H _ E). lra.
    + destruct S as (_ & x & r & E & L). specialize (H x). rewrite E in H. specialize (H (or_introl eq_refl)). lra.
Qed.

Lemma wave_bound : forall (axis : list Q) n o k i (tr : list Q) x, axis <> [] -> set_steps Qeq_bool axis n = Offsets o ->
  length tr = length axis -> (k < n)%nat ->
  nth_error (trace_wave (Some o) (length axis) axis k) i = Some x ->
  exists y, nth_error (trace_wave (Some o) (length axis) tr k) i = Some y /\
            get_point (Some o) (length axis) tr i k = Some y.
Proof.
  intros axis n o k i tr x Hne H Htr Hk Hi.
  destruct (waves Qeq_bool axis n o Hne H) as (_ & _ & W & _). destruct (W Q tr Htr) as [_ WL].
  assert (i < length (trace_wave (Some o) (length axis) tr k))%nat as L.
  { rewrite WL by exact Hk. apply nth_error_Some. congruence. }
  destruct (nth_error (trace_wave (Some o) (length axis) tr k) i) as [y|] eqn:E; [|apply nth_error_None in E; lia].
  exists y. split; [reflexivity|]. rewrite (point_in_step Qeq_bool Q axis n o tr Hne H Htr k i Hk L). exact E.
Qed.

Lemma nth_axis : forall b steps (axis : list Q) k i x, nth_error (axis_wave qabs b steps axis k) i = Some x ->
  exists y, nth_error (trace_wave steps (length axis) axis k) i = Some y.
Proof.
  intros b steps axis k i x H. unfold axis_wave in H. destruct b; [|eauto]. rewrite nth_error_map in H.
  destruct (nth_error _ i); [eauto|discriminate].
Qed.

Theorem point_at : forall is_time axis n o k t (tr : list Q) x0, axis <> [] -> set_steps Qeq_bool axis n = Offsets o ->
  length tr = length axis -> (k < n)%nat ->
  hd_error (axis_wave qabs is_time (Some o) axis k) = Some x0 -> x0 <= t ->
  (exists x, In x (axis_wave qabs is_time (Some o) axis k) /\ t <= x) ->
  exists y, get_point_at is_time (Some o) axis tr t k = Some y /\
    interpolates t y (axis_wave qabs is_time (Some o) axis k) (trace_wave (Some o) (length axis) tr k).
Proof.
  intros is_time axis n o k t tr x0 Hne H Htr Hk Hh H0 Hx.
  pose proof (position_between is_time (Some o) axis k t x0 Hh H0 Hx) as P.
  unfold get_point_at. destruct (get_position is_time (Some o) axis t k) as [i|p| |]; unfold at_or_between in P; try contradiction.
  - destruct P as (x & E & Ex). destruct (nth_axis _ _ _ _ _ _ E) as (z & Ez).
    destruct (wave_bound axis n o k i tr z Hne H Htr Hk Ez) as (y & Ey & Gy).
    exists y. split; [exact Gy|]. left. exists i, x, y. repeat split; auto.
  - destruct P as (i & a & b & F & Ea & Eb & L1 & L2 & E).
    destruct (nth_axis _ _ _ _ _ _ Ea) as (za & Eza). destruct (nth_axis _ _ _ _ _ _ Eb) as (zb & Ezb).
    destruct (wave_bound axis n o k i tr za Hne H Htr Hk Eza) as (ya & Eya & Gya).
    destruct (wave_bound axis n o k (S i) tr zb Hne H Htr Hk Ezb) as (yb & Eyb & Gyb).
    unfold get_point, trace_len in *. destruct (step_offset (Some o) (length axis) k) as [off|] eqn:Eo; [|discriminate].
    assert (exists len, step_offset (Some o) (length axis) (k + 1) = Some len /\ (off + S i < len)%nat) as (len & El & Hlen).
    { destruct (waves Qeq_bool axis n o Hne H) as (_ & _ & _ & WL). specialize (WL k Hk). unfold axis_len in WL.
      rewrite Eo in WL. destruct (step_offset (Some o) (length axis) (k + 1)) as [len|]; [|discriminate].
      exists len. split; [reflexivity|]. injection WL as WL.
      assert (S i < length (trace_wave (Some o) (length axis) axis k))%nat by (apply nth_error_Some; congruence). lia. }
    rewrite El, F, Nat2Z.id.
    replace (Z.of_nat i <? Z.of_nat len - 1)%Z with true by (symmetry; apply Z.ltb_lt; lia).
    replace (off + i)%nat with (i + off)%nat by lia. rewrite Gya.
    replace (i + off + 1)%nat with (S i + off)%nat by lia. rewrite Gyb.
    eexists. split; [reflexivity|]. right. exists i, a, b, ya, yb. repeat split; try assumption.
    assert (p - inject_Z (Z.of_nat i) == (t - a) / (b - a)) as ->.
    { apply (Qmult_inj_r _ _ (b - a)); [lra|]. field_simplify_eq; lra. }
    field. lra.
Qed.
