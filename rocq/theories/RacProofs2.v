(** Proofs about a runner used by one thread. *)
From Coq Require Import List Bool Arith Lia.
From Verif Require Import RacModel RacSpec RacProofs.
Import ListNotations.

Definition cnt (s : sys) (b : bool) (l : list nat) : nat := length (filter (fun k => Bool.eqb (code_zero (tasks s k)) b) l).
Lemma cnt_app : forall s b l m, cnt s b (l ++ m) = cnt s b l + cnt s b m.
Proof. intros. unfold cnt. rewrite filter_app, app_length. reflexivity. Qed.
Definition pending (s : sys) (p : pc) : list nat :=
  match p with Pop i => match nth_error (active s) i with Some k => [k] | None => [] end | Append k _ => [k] | _ => [] end.
Definition over_at (s : sys) (i : nat) (z : bool) : Prop := exists k, nth_error (active s) i = Some k /\ tasks s k = Over z.
Definition pc_ok (s : sys) (p : pc) : Prop :=
  match p with
  | Idle | Test _ | Enlist _ | Begin _ | CTest => True
  | Alive i => i < length (active s)
  | Time i | Code i => exists z, over_at s i z
  | Load z i => over_at s i z
  | Store z v i => over_at s i z /\ v = (if z then okSim s else failSim s)
  | Pop i => exists z, over_at s i z
  | Append k _ => ended s k
  | CPop => completed s <> []
  | Dead => False
  end.
Definition one (t : nat) (s : sys) : Prop :=
  (forall u, u <> t -> threads s u = Idle) /\
  (forall k, In k (active s) -> tasks s k <> Fresh \/ threads s t = Begin k) /\
  (forall k, In k (completed s) -> ended s k) /\ (forall k z, In (k, z) (collected s) -> tasks s k = Over z) /\
  okSim s = cnt s true (pending s (threads s t) ++ completed s ++ map fst (collected s)) /\
  failSim s = cnt s false (pending s (threads s t) ++ completed s ++ map fst (collected s)) /\
  pc_ok s (threads s t).

Lemma act_over : forall a z, act_on a (Over z) = Over z.
Proof. intros a z. reflexivity. Qed.
Lemma act_fresh : forall a l, l <> Fresh -> act_on a l <> Fresh.
Proof. intros a [|[] z|z] H K; destruct a; try discriminate; apply H; reflexivity. Qed.
(** Tasks that have ended stay as they are. *)
Definition later (s s' : sys) : Prop := forall k z, tasks s k = Over z -> tasks s' k = Over z.
Lemma later_sim : forall k a s, later s (do (Sim k a) s).
Proof.
  intros k a s j z H. cbn [do tasks]. unfold put. destruct (j =? k) eqn:E; [|exact H]. apply Nat.eqb_eq in E. subst. rewrite H. reflexivity.
Qed.
Lemma cnt_later : forall s s' b l, later s s' -> (forall k, In k l -> ended s k) -> cnt s' b l = cnt s b l.
Proof.
  intros s s' b l L E. unfold cnt. f_equal. apply filter_ext_in. intros k I. destruct (E k I) as (z & Z). rewrite Z, (L k z Z). reflexivity.
Qed.
Lemma pending_over : forall s p, pc_ok s p -> forall k, In k (pending s p) -> ended s k.
Proof.
  intros s p H k I. destruct p; cbn [pending] in I; try contradiction.
  - destruct H as (z & j & N & O). rewrite N in I. destruct I as [<- |[]]. exists z. exact O.
  - destruct I as [<- |[]]. exact H.
Qed.
Lemma all_over : forall t s, one t s -> forall k, In k (pending s (threads s t) ++ completed s ++ map fst (collected s)) -> ended s k.
Proof.
  intros t s (_ & _ & C & D & _ & _ & P) k I. apply in_app_or in I as [I|I]; [exact (pending_over s _ P k I)|]. apply in_app_or in I as [I|I]; [exact (C k I)|].
  apply in_map_iff in I as ((j & z) & <- & I). exists z. exact (D _ _ I).
Qed.
Lemma over_later : forall s s' i z, later s s' -> active s' = active s -> over_at s i z -> over_at s' i z.
Proof. intros s s' i z L A (k & N & O). exists k. rewrite A. split; [exact N|exact (L _ _ O)]. Qed.
Lemma one_sim : forall t k a s, one t s -> one t (do (Sim k a) s).
Proof.
  intros t k a s H. pose proof (all_over t s H) as AO. pose proof (later_sim k a s) as L. destruct H as (I & A & C & D & OK & BAD & P).
  assert (forall b, cnt (do (Sim k a) s) b (pending s (threads s t) ++ completed s ++ map fst (collected s)) = cnt s b (pending s (threads s t) ++ completed s ++ map fst (collected s))) as CE
    by (intros b; apply cnt_later; assumption).
  split; [exact I|]. split.
  { intros j J. destruct (A j J) as [N|N]; [left|right; exact N]. cbn [do tasks]. unfold put. destruct (j =? k) eqn:E; [|exact N]. apply Nat.eqb_eq in E. subst. apply act_fresh. exact N. }
  split; [intros j J; destruct (C j J) as (z & Z); exists z; exact (L _ _ Z)|]. split; [intros j z J; exact (L _ _ (D j z J))|].
  split; [exact (eq_trans OK (eq_sym (CE true)))|]. split; [exact (eq_trans BAD (eq_sym (CE false)))|].
  change (threads (do (Sim k a) s) t) with (threads s t). destruct (threads s t); cbn [pc_ok] in *; try exact P.
  - destruct P as (z & P). exists z. exact (over_later s (do (Sim k a) s) i z L eq_refl P).
  - destruct P as (z & P). exists z. exact (over_later s (do (Sim k a) s) i z L eq_refl P).
  - exact (over_later s (do (Sim k a) s) i z L eq_refl P).
  - destruct P as (P & V). split; [exact (over_later s (do (Sim k a) s) i z L eq_refl P)|exact V].
  - destruct P as (z & P). exists z. exact (over_later s (do (Sim k a) s) i z L eq_refl P).
  - destruct P as (z & P). exists z. exact (L _ _ P).
Qed.
Lemma one_call : forall t c s, one t s -> one t (thread_call t c s).
Proof.
  intros t c s (I & A & C & D & OK & BAD & P). unfold thread_call. destruct (threads s t) eqn:E; try (repeat split; rewrite ?E in *; assumption).
  destruct c; (split; [intros u N; cbn; rewrite put_other by exact N; exact (I u N)|]); unfold at_pc; cbn [threads active completed collected okSim failSim tasks];
    rewrite !put_same; cbn [pending pc_ok app] in *;
    (split; [intros k K; destruct (A k K) as [N|N]; [left; exact N|discriminate N]|]); (split; [exact C|]); (split; [exact D|]); (split; [exact OK|]); (split; [exact BAD|exact Logic.I]).
Qed.
Lemma skipn_nth : forall (l : list nat) i x, nth_error l i = Some x -> skipn i l = x :: skipn (S i) l.
Proof. induction l as [|a l IH]; intros [|i] x H; try discriminate; [injection H as ->; reflexivity|]. cbn [skipn]. exact (IH i x H). Qed.
Lemma In_remove : forall l i k, In k (remove_at i l) -> In k l.
Proof.
  intros l i k H. unfold remove_at in H. apply in_app_or in H. rewrite <- (firstn_skipn i l). apply in_or_app. destruct H as [H|H]; [left; exact H|right].
  destruct (nth_error l i) as [x|] eqn:N; [rewrite (skipn_nth _ _ _ N); right; exact H|]. apply nth_error_None in N. rewrite skipn_all2 in H by lia. destruct H.
Qed.
Lemma one_step : forall t s, one t s -> one t (thread_step t s).
Proof.
  intros t s H. pose proof H as (I & A & C & D & OK & BAD & P). unfold thread_step.
  assert (forall p, pc_ok s p -> pending s p = pending s (threads s t) -> (forall k, threads s t <> Begin k) -> one t (at_pc t p s)) as SIL.
  { intros p PO PE NB. split; [intros u N; cbn; rewrite put_other by exact N; exact (I u N)|]. unfold at_pc at 1 2 3 4 5 6 7 8. cbn [threads active completed collected okSim failSim tasks]. 
    split; [intros k K; destruct (A k K) as [N|N]; [left; exact N|destruct (NB k N)]|]. split; [exact C|]. split; [exact D|].
    cbn [at_pc threads]. rewrite put_same. split; [|split].
    - change (pending (at_pc t p s) p) with (pending s p). rewrite PE. exact OK.
    - change (pending (at_pc t p s) p) with (pending s p). rewrite PE. exact BAD.
    - exact PO. }
  destruct (threads s t) as [|i|i|i|i|z i|z v i|i|k i|k|k| | |] eqn:E; cbn [pc_ok] in P.
  - exact H.
  - destruct (i <? length (active s)) eqn:L; apply SIL; try reflexivity; try discriminate. cbn. apply Nat.ltb_lt in L. exact L.
  - destruct (nth_error (active s) i) as [k|] eqn:N; [|apply nth_error_None in N; lia].
    destruct (is_alive (tasks s k)) eqn:AL; apply SIL; try reflexivity; try discriminate.
    destruct (A k (nth_error_In _ _ N)) as [F|F]; [|discriminate]. cbn. destruct (tasks s k) as [|? ?|z] eqn:TK; [contradiction|discriminate|]. exists z, k. split; assumption.
  - destruct P as (z & k & N & O). rewrite N, O. cbn [no_time]. apply SIL; try reflexivity; try discriminate. exists z, k. split; assumption.
  - destruct P as (z & k & N & O). rewrite N, O. cbn [code_zero]. apply SIL; try reflexivity; try discriminate. exists k. split; assumption.
  - apply SIL; try reflexivity; try discriminate. cbn. split; [exact P|reflexivity].
  - destruct P as ((k & N & O) & ->). cbn [pending app] in OK, BAD.
    split; [intros u U; cbn; rewrite put_other by exact U; exact (I u U)|]. cbn [at_pc threads active completed collected okSim failSim tasks]. rewrite !put_same.
    split; [intros j J; destruct (A j J) as [F|F]; [left; exact F|discriminate]|]. split; [exact C|]. split; [exact D|].
    assert (forall (s' : sys) l b, tasks s' = tasks s -> cnt s' b l = cnt s b l) as CT by (intros s' l b TT; unfold cnt; rewrite TT; reflexivity).
    rewrite (CT _ _ true) by reflexivity; rewrite (CT _ _ false) by reflexivity. cbn [pending active at_pc]. rewrite N. rewrite (cnt_app s true [k]), (cnt_app s false [k]).
    assert (forall b, cnt s b [k] = if Bool.eqb z b then 1 else 0) as C1 by (intros b; unfold cnt; cbn [filter]; rewrite O; cbn [code_zero]; destruct (Bool.eqb z b); reflexivity).
    rewrite !C1. destruct z; cbn [Bool.eqb]; (split; [lia|]); (split; [lia|]); cbn; eexists; exists k; (split; [exact N|exact O]).
  - destruct P as (z & k & N & O). rewrite N. cbn [pending] in OK, BAD. rewrite N in OK, BAD.
    split; [intros u U; cbn; rewrite put_other by exact U; exact (I u U)|]. cbn [at_pc threads active completed collected okSim failSim tasks]. rewrite !put_same.
    split; [intros j J; apply In_remove in J; destruct (A j J) as [F|F]; [left; exact F|discriminate]|]. split; [exact C|]. split; [exact D|].
    split; [exact OK|]. split; [exact BAD|]. exists z. exact O.
  - cbn [pending] in OK, BAD.
    split; [intros u U; cbn; rewrite put_other by exact U; exact (I u U)|]. cbn [at_pc threads active completed collected okSim failSim tasks]. rewrite !put_same.
    split; [intros j J; destruct (A j J) as [F|F]; [left; exact F|discriminate]|].
    split; [intros j J; apply in_app_or in J as [J|[<- |[]]]; [exact (C j J)|exact P]|]. split; [exact D|]. cbn [pending app].
    assert (forall (s' : sys) l b, tasks s' = tasks s -> cnt s' b l = cnt s b l) as CT by (intros s' l b TT; unfold cnt; rewrite TT; reflexivity).
    rewrite (CT _ _ true) by reflexivity; rewrite (CT _ _ false) by reflexivity. rewrite OK, BAD, !cnt_app. split; [lia|]. split; [lia|exact Logic.I].
  - cbn [pending app] in OK, BAD.
    split; [intros u U; cbn; rewrite put_other by exact U; exact (I u U)|]. cbn [at_pc threads active completed collected okSim failSim tasks]. rewrite !put_same.
    split; [intros j J; apply in_app_or in J as [J|[<- |[]]]; [destruct (A j J) as [F|F]; [left; exact F|discriminate]|right; reflexivity]|].
    split; [exact C|]. split; [exact D|]. split; [exact OK|]. split; [exact BAD|exact Logic.I].
  - cbn [pending app] in OK, BAD.
    set (s' := at_pc t Idle _).
    assert (later s s') as L.
    { intros j z Z. unfold s'. cbn [at_pc tasks]. unfold put. destruct (j =? k) eqn:EJ; [|exact Z]. apply Nat.eqb_eq in EJ. subst j. rewrite Z. reflexivity. }
    split; [intros u U; cbn; rewrite put_other by exact U; exact (I u U)|].
    split.
    { intros j J. left. unfold s'. cbn [at_pc tasks]. unfold put. destruct (j =? k) eqn:EJ.
      - destruct (tasks s k); discriminate.
      - destruct (A j J) as [F|F]; [exact F|]. injection F as ->. rewrite Nat.eqb_refl in EJ. discriminate. }
    split; [intros j J; destruct (C j J) as (z & Z); exists z; exact (L _ _ Z)|]. split; [intros j z J; exact (L _ _ (D j z J))|].
    assert (threads s' t = Idle) as -> by (unfold s'; cbn [at_pc threads]; apply put_same). cbn [pending app].
    assert (forall b, cnt s' b (completed s ++ map fst (collected s)) = cnt s b (completed s ++ map fst (collected s))) as CE.
    { intros b. apply cnt_later; [exact L|]. intros j J. apply (all_over t s H). rewrite E. exact J. }
    split; [rewrite <- (CE true) in OK; exact OK|]. split; [rewrite <- (CE false) in BAD; exact BAD|exact Logic.I].
  - destruct (completed s) eqn:CC; apply SIL; try reflexivity; try discriminate. cbn. rewrite CC. discriminate.
  - destruct (completed s) as [|k r] eqn:CC; [contradiction|]. cbn [pending app] in OK, BAD.
    split; [intros u U; cbn; rewrite put_other by exact U; exact (I u U)|]. cbn [at_pc threads active completed collected okSim failSim tasks]. rewrite !put_same.
    split; [intros j J; destruct (A j J) as [F|F]; [left; exact F|discriminate]|]. split; [intros j J; apply C; right; exact J|].
    destruct (C k (or_introl eq_refl)) as (z & Z).
    split; [intros j y J; apply in_app_or in J as [J|[J|[]]]; [exact (D _ _ J)|]; injection J as <- <-; rewrite Z; reflexivity|].
    assert (forall (s' : sys) l b, tasks s' = tasks s -> cnt s' b l = cnt s b l) as CT by (intros s' l b TT; unfold cnt; rewrite TT; reflexivity).
    cbn [pending app]. rewrite (CT _ _ true) by reflexivity; rewrite (CT _ _ false) by reflexivity. rewrite map_app. cbn [map fst]. rewrite OK, BAD. change (k :: r ++ map fst (collected s)) with ([k] ++ r ++ map fst (collected s)). rewrite !cnt_app.
    split; [lia|]. split; [lia|exact Logic.I].
  - destruct P.
Qed.
Lemma one_do : forall t e s, one t s -> (forall u c, e = Call u c -> u = t) -> one t (do e s).
Proof.
  intros t e s H N. destruct e as [k a|u c|u]; [exact (one_sim t k a s H)|rewrite (N u c eq_refl); exact (one_call t c s H)|].
  destruct (Nat.eq_dec u t) as [->|U]; [exact (one_step t s H)|]. cbn [do]. unfold thread_step. destruct H as (I & H). rewrite (I u U). split; assumption.
Qed.
Lemma one_run : forall t es s, one t s -> only t es -> one t (run_events es s).
Proof.
  intros t. induction es as [|e es IH]; intros s H O; [exact H|]. unfold run_events in *. cbn [fold_left]. apply IH.
  - apply one_do; [exact H|]. intros u c ->. apply (O u c). left. reflexivity.
  - intros u c J. apply (O u c). right. exact J.
Qed.
Lemma one_start : forall t, one t start.
Proof. intros t. repeat split; try reflexivity; try (intros; contradiction). Qed.

(** ** What a pass of update_completed moves *)
Definition covered (t k : nat) (s : sys) : Prop :=
  match threads s t with
  | Test i | Alive i | Time i | Code i | Load _ i | Store _ _ i | Pop i => In k (completed s) \/ In k (skipn i (active s))
  | Append j i => In k (completed s) \/ k = j \/ In k (skipn i (active s))
  | Idle => In k (completed s)
  | _ => False
  end.
Lemma skipn_remove : forall l i, i < length l -> skipn i (remove_at i l) = skipn (S i) l.
Proof.
  intros l i H. unfold remove_at. rewrite skipn_app, firstn_length, Nat.min_l by lia. rewrite skipn_all2 by (rewrite firstn_length; lia). rewrite Nat.sub_diag. reflexivity.
Qed.
Lemma at_pc_here : forall t p s, threads (at_pc t p s) t = p.
Proof. intros. unfold at_pc. cbn [threads]. apply put_same. Qed.
Lemma covered_step : forall t k s, one t s -> ended s k -> covered t k s -> covered t k (thread_step t s).
Proof.
  intros t k s H (zk & EK) G. pose proof H as (_ & A & _ & _ & _ & _ & P). unfold covered in *. unfold thread_step.
  destruct (threads s t) as [|i|i|i|i|z i|z v i|i|j i|j|j| | |] eqn:E; cbn [pc_ok] in P; try contradiction.
  - rewrite E. exact G.
  - destruct (i <? length (active s)) eqn:L; rewrite at_pc_here; cbn [at_pc completed active]; [exact G|].
    apply Nat.ltb_ge in L. rewrite (skipn_all2 _ L) in G. destruct G as [G|[]]. exact G.
  - destruct (nth_error (active s) i) as [j|] eqn:N; [|apply nth_error_None in N; lia].
    destruct (is_alive (tasks s j)) eqn:AL; rewrite at_pc_here; cbn [at_pc completed active]; [|exact G].
    rewrite (skipn_nth _ _ _ N) in G. destruct G as [G|[->|G]]; [left; exact G|rewrite EK in AL; discriminate|right; exact G].
  - destruct P as (z & j & N & O). rewrite N, O. cbn [no_time]. rewrite at_pc_here. exact G.
  - destruct P as (z & j & N & O). rewrite N. rewrite at_pc_here. exact G.
  - rewrite at_pc_here. exact G.
  - rewrite at_pc_here. exact G.
  - destruct P as (z & j & N & O). rewrite N. rewrite at_pc_here. cbn [at_pc completed active].
    rewrite skipn_remove by (apply nth_error_Some; congruence). rewrite (skipn_nth _ _ _ N) in G. destruct G as [G|[->|G]]; tauto.
  - rewrite at_pc_here. cbn [at_pc completed active]. rewrite in_app_iff. cbn [In]. destruct G as [G|[->|G]]; tauto.
Qed.
Definition quiet (es : list event) : Prop := forall t c, ~ In (Call t c) es.
Lemma covered_run : forall t k es s, one t s -> ended s k -> covered t k s -> quiet es -> covered t k (run_events es s).
Proof.
  intros t k. induction es as [|e es IH]; intros s H (z & EK) G Q; [exact G|]. unfold run_events in *. cbn [fold_left].
  assert (quiet es) as Q' by (intros u c J; apply (Q u c); right; exact J).
  apply IH; [apply one_do; [exact H|intros u c ->; exfalso; apply (Q u c); left; reflexivity]| | |exact Q'].
  - destruct e as [j a|u c|u]; [exists z; exact (later_sim j a s k z EK)|exfalso; apply (Q u c); left; reflexivity|].
    exists z. cbn [do]. unfold thread_step. destruct (threads s u); try (destruct (nth_error (active s) i)); try exact EK.
    + cbn [at_pc tasks]. unfold put. destruct (k =? k0) eqn:X; [|exact EK]. apply Nat.eqb_eq in X. subst. rewrite EK. reflexivity.
    + destruct (completed s); exact EK.
  - destruct e as [j a|u c|u]; [exact G|exfalso; apply (Q u c); left; reflexivity|]. destruct (Nat.eq_dec u t) as [->|U].
    + apply covered_step; [exact H|exists z; exact EK|exact G].
    + cbn [do]. unfold thread_step. destruct H as (I & _). rewrite (I u U). exact G.
Qed.

(** ** A thread that ended by an exception *)
Lemma dead_do : forall t e s, threads s t = Dead -> threads (do e s) t = Dead.
Proof.
  intros t e s H. destruct e as [k a|u c|u]; cbn [do]; [exact H| |].
  - unfold thread_call. destruct (Nat.eq_dec u t) as [->|U]; [rewrite H; exact H|]. destruct (threads s u); try exact H. destruct c; cbn; rewrite put_other by congruence; exact H.
  - unfold thread_step. destruct (Nat.eq_dec u t) as [->|U]; [rewrite H; exact H|].
    destruct (threads s u); try exact H; try (destruct (nth_error (active s) i)); try (destruct (completed s)); cbn; rewrite ?put_other by congruence; exact H.
Qed.
Definition no_collector (s : sys) : Prop := forall u, threads s u <> CTest /\ threads s u <> CPop.
Lemma silent_do : forall t e s, threads s t = Dead -> no_collector s -> (forall u, e = Call u Collect -> u = t) -> no_collector (do e s) /\ collected (do e s) = collected s.
Proof.
  intros t e s H NC O. destruct e as [k a|u c|u]; cbn [do]; [split; [exact NC|reflexivity]| |].
  - unfold thread_call. destruct (threads s u) eqn:E; try (split; [exact NC|reflexivity]). destruct c.
    + split; [|reflexivity]. intros w. cbn. unfold put. destruct (w =? u); [split; discriminate|exact (NC w)].
    + split; [|reflexivity]. intros w. cbn. unfold put. destruct (w =? u); [split; discriminate|exact (NC w)].
    + rewrite (O u eq_refl) in E. rewrite H in E. discriminate.
  - assert (forall p s', threads s' = threads s -> p <> CTest -> p <> CPop -> no_collector (at_pc u p s')) as AT.
    { intros p s' TH N1 N2 w. unfold at_pc. cbn [threads]. unfold put. rewrite TH. destruct (w =? u); [split; assumption|exact (NC w)]. }
    unfold thread_step. destruct (threads s u) as [|i|i|i|i|z i|z v i|i|j i|j|j| | |] eqn:E.
    + split; [exact NC|reflexivity].
    + split; [apply AT; destruct (i <? length (active s)); (reflexivity || discriminate)|reflexivity].
    + destruct (nth_error (active s) i); (split; [apply AT; try (destruct (is_alive _)); (reflexivity || discriminate)|reflexivity]).
    + destruct (nth_error (active s) i); (split; [apply AT; try (destruct (no_time _)); (reflexivity || discriminate)|reflexivity]).
    + destruct (nth_error (active s) i); (split; [apply AT; (reflexivity || discriminate)|reflexivity]).
    + split; [apply AT; (reflexivity || discriminate)|reflexivity].
    + split; [apply AT; (reflexivity || discriminate)|reflexivity].
    + destruct (nth_error (active s) i); (split; [apply AT; (reflexivity || discriminate)|reflexivity]).
    + split; [apply AT; (reflexivity || discriminate)|reflexivity].
    + split; [apply AT; (reflexivity || discriminate)|reflexivity].
    + split; [apply AT; (reflexivity || discriminate)|reflexivity].
    + exfalso. exact (proj1 (NC u) E).
    + exfalso. exact (proj2 (NC u) E).
    + split; [exact NC|reflexivity].
Qed.
Lemma silent_run : forall t es s, threads s t = Dead -> no_collector s -> (forall u, In (Call u Collect) es -> u = t) ->
  collected (run_events es s) = collected s /\ threads (run_events es s) t = Dead.
Proof.
  intros t. induction es as [|e es IH]; intros s H NC O; [split; [reflexivity|exact H]|]. unfold run_events in *. cbn [fold_left].
  destruct (silent_do t e s H NC) as (N1 & N2); [intros u ->; apply O; left; reflexivity|].
  destruct (IH (do e s) (dead_do t e s H) N1 (fun u J => O u (or_intror J))) as (I1 & I2). split; [congruence|exact I2].
Qed.
