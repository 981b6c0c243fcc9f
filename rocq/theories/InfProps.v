(** Properties C317-C320: what a runner tells of its runs, the log of edits as a list and as text. *)
From Coq Require Import String Ascii List Bool Arith ZArith Lia Permutation.
From Verif Require Import PyStr UpdatesModel UpdatesSpec RunnerModel RunnerSpec RunnerProofs InfModel.
Import ListNotations.
Local Open Scope string_scope.
Local Open Scope nat_scope.
Local Open Scope list_scope.

(** ** C317: whatever the schedule: [sim_info] has one entry for each completed run, in the order of completion. The entry with key n tells of
    the n-th call of run or run_now: the netlist file made for this call, the edits its editor had then, and the return code of the run. *)
(** The calls of run and run_now of a history, in order *)
Definition calls (ls : list label) : list request := flat_map (fun l => match l with LRun rq | LRunNow rq => [rq] | _ => [] end) ls.
Definition issued (ls : list label) (t : task) : Prop := exists rq, 1 <= t_no t /\ nth_error (calls ls) (t_no t - 1) = Some rq /\
  t_file t = prepared_name (t_no t) rq /\ t_edits t = match q_edits rq with [] => None | e => Some e end.
Definition J (ls : list label) (s : sys) : Prop :=
  runno (rn s) = length (calls ls) /\ Forall (issued ls) (all_tasks s) /\
  match cl s with Waiting n f rq => 1 <= n /\ f = prepared_name n rq /\ nth_error (calls ls) (n - 1) = Some rq | _ => True end.
Lemma calls_app : forall a b, calls (a ++ b) = calls a ++ calls b.
Proof. intros a b. unfold calls. apply flat_map_app. Qed.
Lemma nth_ext_app : forall A (a b : list A) n x, nth_error a n = Some x -> nth_error (a ++ b) n = Some x.
Proof. intros A a b n x H. rewrite nth_error_app1; [exact H|]. apply nth_error_Some. rewrite H. discriminate. Qed.
Lemma issued_more : forall ls k t, issued ls t -> issued (ls ++ k) t.
Proof. intros ls k t (rq & L & N & F & E). exists rq. split; [exact L|]. split; [rewrite calls_app; apply nth_ext_app; exact N|]. split; assumption. Qed.
Lemma issued_all : forall ls k l, Forall (issued ls) l -> Forall (issued (ls ++ k)) l.
Proof. intros ls k l H. rewrite Forall_forall in *. intros t I. apply issued_more, H, I. Qed.
Lemma act_keeps : forall k a t, t_no (act_on k a t) = t_no t /\ t_file (act_on k a t) = t_file t /\ t_edits (act_on k a t) = t_edits t.
Proof. intros k a t. unfold act_on, th_act. destruct (Nat.eqb (t_no t) k); [|auto]. destruct a; [destruct (t_alive t)|destruct (t_alive t && t_started t)|destruct (t_alive t && t_started t)]; auto. Qed.
Lemma issued_act : forall ls k a t, issued ls t -> issued ls (act_on k a t).
Proof. intros ls k a t. unfold issued. destruct (act_keeps k a t) as (-> & -> & ->). auto. Qed.
Lemma all_tasks_parts : forall r c n, all_tasks (Sys r c n) = active r ++ completed r ++ match c with Joining t => [t] | _ => [] end.
Proof. reflexivity. Qed.
Lemma updated : forall P r rest, Forall P (active r ++ completed r ++ rest) -> Forall P (active (update_completed r) ++ completed (update_completed r) ++ rest).
Proof. intros P r rest H. rewrite <- update_completed_perm. exact H. Qed.
Lemma updated_runno : forall r, runno (update_completed r) = runno r.
Proof. intros r. destruct (update_completed_spec r) as (_ & H & _). exact H. Qed.
Lemma added : forall (P : task -> Prop) r rest t, P t -> Forall P (active r ++ completed r ++ rest) -> Forall P (active (add_active t r) ++ completed (add_active t r) ++ rest).
Proof.
  intros P r rest t Pt H. cbn [add_active active completed]. rewrite !Forall_app in *. destruct H as (A & B & C). repeat split; auto.
Qed.
Lemma calls_same : forall ls l, match l with LRun _ | LRunNow _ => False | _ => True end -> calls (ls ++ [l]) = calls ls.
Proof. intros ls l H. rewrite calls_app. destruct l; cbn in *; try contradiction; apply app_nil_r. Qed.
Lemma step_J : forall conds wait ls s l s' o, J ls s -> step conds wait s l = Some (s', o) -> J (ls ++ [l]) s'.
Proof.
  intros conds wait ls [r c n] l s' o (R & F & W) H. cbn [rn cl] in *. rewrite all_tasks_parts in F.
  assert (forall rq now, issued (ls ++ [LRunNow rq]) (new_task (S (runno r)) (prepared_name (S (runno r)) rq) rq now)) as NT.
  { intros rq now. exists rq. cbn [new_task t_no t_file t_edits]. split; [lia|]. split; [|split; reflexivity]. rewrite calls_app, Nat.sub_succ, Nat.sub_0_r, R, nth_error_app2, Nat.sub_diag by lia. reflexivity. }
  unfold step in H. cbn [rn cl counter] in H. destruct l as [rq| | |rq| | | | |k a]; destruct c as [|wn wf wq|jt]; cbn [rn cl counter] in H; try discriminate.
  - (* run *) injection H as <- _. unfold J. cbn [rn cl]. split; [cbn [bump runno]; rewrite calls_app, app_length, <- R; cbn; lia|]. split; [rewrite all_tasks_parts; apply issued_all; exact F|].
    cbn [bump runno]. split; [lia|]. split; [reflexivity|]. rewrite calls_app, Nat.sub_succ, Nat.sub_0_r, R, nth_error_app2, Nat.sub_diag by lia. reflexivity.
  - (* poll *) destruct W as (W1 & W2 & W3). assert (forall now, issued (ls ++ [LPoll]) (new_task wn wf wq now)) as NW.
    { intros now. exists wq. cbn [new_task t_no t_file t_edits]. rewrite calls_same by exact Logic.I. repeat split; auto. }
    apply issued_all with (k := [LPoll]) in F.
    destruct (negb (q_wait_resource wq)); [|destruct (Nat.ltb (length (active (update_completed r))) (parallel (update_completed r)))]; injection H as <- _; unfold J; cbn [rn cl];
      rewrite all_tasks_parts, calls_same by exact Logic.I; (split; [cbn [add_active runno]; rewrite ?updated_runno; exact R|]).
    + split; [|exact Logic.I]. apply added; [apply NW|exact F].
    + split; [|exact Logic.I]. apply added; [apply NW|]. apply updated. exact F.
    + split; [apply updated; exact F|]. auto.
  - (* give up *) injection H as <- _. unfold J. cbn [rn cl]. rewrite all_tasks_parts, calls_same by exact Logic.I. split; [exact R|]. split; [apply issued_all; exact F|exact Logic.I].
  - (* run_now *) injection H as <- _. unfold J. cbn [rn cl]. split; [cbn [bump runno]; rewrite calls_app, app_length, <- R; cbn; lia|]. split; [|exact Logic.I].
    rewrite all_tasks_parts. cbn [bump runno active completed]. apply issued_all with (k := [LRunNow rq]) in F. rewrite !Forall_app in *. destruct F as (A & B & _). split; [exact A|]. split; [exact B|].
    constructor; [exact (NT rq true)|constructor].
  - (* join *) destruct (t_alive jt); [discriminate|]. injection H as <- _. unfold J. cbn [rn cl]. rewrite all_tasks_parts, calls_same by exact Logic.I. split; [exact R|]. split; [|exact Logic.I].
    cbn [add_completed active completed]. rewrite <- app_assoc. apply issued_all. exact F.
  - (* join gives up *) destruct (t_alive jt); [|discriminate]. injection H as <- _. unfold J. cbn [rn cl]. rewrite all_tasks_parts, calls_same by exact Logic.I. split; [exact R|]. split; [|exact Logic.I].
    cbn [add_completed active completed]. rewrite <- app_assoc. apply issued_all. exact F.
  - (* update *) injection H as <- _. unfold J. cbn [rn cl]. rewrite all_tasks_parts, calls_same by exact Logic.I. split; [rewrite updated_runno; exact R|]. split; [apply updated, issued_all; exact F|exact Logic.I].
  - (* next *) assert (exists n', s' = Sys (update_completed r) Idle n') as [n' ->].
    { destruct (nth_error (completed (update_completed r)) n); [injection H as <- _; eexists; reflexivity|]. destruct (active (update_completed r)); [injection H as <- _; eexists; reflexivity|].
      destruct wait; injection H as <- _; eexists; reflexivity. }
    unfold J. cbn [rn cl]. rewrite all_tasks_parts, calls_same by exact Logic.I. split; [rewrite updated_runno; exact R|]. split; [apply updated, issued_all; exact F|exact Logic.I].
  - injection H as <- _. unfold J. rewrite calls_same by exact Logic.I. split; [exact R|]. split; [|exact Logic.I]. apply issued_all with (k := [LThread k a]) in F.
    unfold on_threads. cbn [rn cl counter on_client]. rewrite all_tasks_parts. cbn [on_runner active completed]. rewrite !Forall_app in *. destruct F as (A & B & _).
    split; [|split; [|constructor]]; rewrite Forall_map; (eapply Forall_impl; [|eassumption]); intros t; apply issued_act.
  - injection H as <- _. unfold J. rewrite calls_same by exact Logic.I. split; [exact R|]. split; [|exact W]. apply issued_all with (k := [LThread k a]) in F.
    unfold on_threads. cbn [rn cl counter on_client]. rewrite all_tasks_parts. cbn [on_runner active completed]. rewrite !Forall_app in *. destruct F as (A & B & _).
    split; [|split; [|constructor]]; rewrite Forall_map; (eapply Forall_impl; [|eassumption]); intros t; apply issued_act.
  - injection H as <- _. unfold J. rewrite calls_same by exact Logic.I. split; [exact R|]. split; [|exact Logic.I]. apply issued_all with (k := [LThread k a]) in F.
    unfold on_threads. cbn [rn cl counter on_client]. rewrite all_tasks_parts. cbn [on_runner active completed]. rewrite !Forall_app in *. destruct F as (A & B & C).
    split; [|split]; [rewrite Forall_map; (eapply Forall_impl; [|eassumption]); intros t; apply issued_act..|].
    inversion C; subst. constructor; [apply issued_act; assumption|constructor].
Qed.
Lemma exec_J : forall conds wait ls pre s s' o, J pre s -> exec conds wait s ls = Some (s', o) -> J (pre ++ ls) s'.
Proof.
  intros conds wait. induction ls as [|l ls IH]; intros pre s s' o HJ H; cbn [exec] in H.
  - injection H as <- _. rewrite app_nil_r. exact HJ.
  - destruct (step conds wait s l) as [[s1 o1]|] eqn:S1; [|discriminate]. destruct (exec conds wait s1 ls) as [[s2 o2]|] eqn:E; [|discriminate]. injection H as <- _.
    replace (pre ++ l :: ls) with ((pre ++ [l]) ++ ls) by (rewrite <- app_assoc; reflexivity). eapply IH; [|exact E]. eapply step_J; eassumption.
Qed.
Lemma set_new : forall n v d, ~ In n (map fst d) -> set_key n v d = d ++ [(n, v)].
Proof.
  intros n v. induction d as [|[k w] d IH]; intros H; [reflexivity|]. cbn [set_key]. destruct (Nat.eqb_spec k n); [exfalso; apply H; left; exact e|]. rewrite IH; [reflexivity|].
  intros I. apply H. right. exact I.
Qed.
Lemma info_list : forall ts, NoDup (map t_no ts) -> sim_info ts = map (fun t => (t_no t, info_of t)) ts.
Proof.
  intros ts H. unfold sim_info. assert (forall ts d, NoDup (map fst d ++ map t_no ts) -> fold_left (fun d t => set_key (t_no t) (info_of t) d) ts d = d ++ map (fun t => (t_no t, info_of t)) ts) as G.
  { clear. induction ts as [|t ts IH]; intros d N; cbn [fold_left map]; [rewrite app_nil_r; reflexivity|]. cbn [map] in N. apply NoDup_remove in N as M. destruct M as [M1 M2].
    rewrite set_new by (intros I; apply M2, in_app_iff; left; exact I). rewrite IH; [rewrite <- app_assoc; reflexivity|]. rewrite map_app. cbn [map fst]. rewrite <- app_assoc. exact N. }
  apply (G ts []). exact H.
Qed.
Theorem C317_info_of_every_run : forall conds wait p ls s os, runs_to conds wait p ls s os -> let told := sim_info (completed (rn s)) in
  map fst told = map t_no (completed (rn s)) /\ NoDup (map fst told) /\
  forall n i, In (n, i) told -> 1 <= n /\ exists rq, nth_error (calls ls) (n - 1) = Some rq /\
    f_netlist i = prepared_name n rq /\ f_edits i = match q_edits rq with [] => None | e => Some e end /\
    exists t, In t (completed (rn s)) /\ t_no t = n /\ f_retcode i = t_ret t.
Proof.
  intros conds wait p ls s os H told. destruct (consumed_in_order conds wait p ls s os H) as [ND _].
  assert (J ls s) as (_ & F & _). { apply (exec_J conds wait ls [] (start_sys p) s os); [|exact H]. split; [reflexivity|]. split; [constructor|exact Logic.I]. }
  unfold told. rewrite (info_list _ ND). rewrite map_map. cbn [fst]. split; [reflexivity|]. split; [exact ND|]. intros n i I. apply in_map_iff in I. destruct I as (t & E & I). injection E as <- <-.
  unfold all_tasks in F. rewrite !Forall_app in F. destruct F as (_ & F & _). rewrite Forall_forall in F. destruct (F t I) as (rq & L & N & FF & EE). split; [exact L|]. exists rq. split; [exact N|].
  cbn [info_of f_netlist f_edits f_retcode]. split; [exact FF|]. split; [rewrite EE; destruct (q_edits rq); reflexivity|]. exists t. auto.
Qed.
Print Assumptions C317_info_of_every_run.
(** A run, finished or not, tells the value a component had when it was issued, whatever was edited or run since. *)
Theorem C317_value_of_run : forall conds wait p ls s os t, runs_to conds wait p ls s os -> In t (all_tasks s) ->
  exists rq, nth_error (calls ls) (t_no t - 1) = Some rq /\ forall reference, task_value t reference = log_value (q_edits rq) reference.
Proof.
  intros conds wait p ls s os t H I. assert (J ls s) as (_ & F & _). { apply (exec_J conds wait ls [] (start_sys p) s os); [|exact H]. split; [reflexivity|]. split; [constructor|exact Logic.I]. }
  rewrite Forall_forall in F. destruct (F t I) as (rq & _ & N & _ & E). exists rq. split; [exact N|]. intros reference. unfold task_value. rewrite E. destruct (q_edits rq); reflexivity.
Qed.
Print Assumptions C317_value_of_run.
Definition ex_rq (v : string) : request := Request (s2l "a.net") None true (if String.eqb v "" then [] else [Upd "R1" (VStr v) UpUpdateComponentValue]).
Example C317_nonvacuous : exists s os, runs_to CNone true 4 [LRun (ex_rq "1k"); LPoll; LRun (ex_rq ""); LPoll; LThread 2 AStart; LThread 2 (ARet 0); LThread 2 ADie; LUpdate; LThread 1 AStart; LThread 1 (ARet 3); LThread 1 ADie; LUpdate] s os /\
  map (fun x => (fst x, l2s (f_netlist (snd x)), f_retcode (snd x), f_edits (snd x))) (sim_info (completed (rn s))) =
    [(2, "a_2.net"%string, 0%Z, None); (1, "a_1.net"%string, 3%Z, Some [Upd "R1" (VStr "1k") UpUpdateComponentValue])].
Proof. eexists. eexists. split; [vm_compute; reflexivity|]. vm_compute. reflexivity. Qed.

(** ** C318: item access to the log by a name: an error exactly if no edit of this name was recorded; otherwise the entry of this name that was
    recorded first (later values of the same kind of edit are written into it, C01). *)
Lemma name_kept : forall l n v t x, In x (map u_name (add_update l n v t)) <-> In x (map u_name l) \/ x = n.
Proof.
  induction l as [|u l IH]; intros n v t x; cbn [add_update map]; [cbn; intuition|]. destruct (entry_matches u n v t) eqn:E.
  - cbn [map u_name]. unfold entry_matches in E. apply andb_true_iff in E. destruct E as [E _]. apply andb_true_iff in E. destruct E as [E _]. apply String.eqb_eq in E. subst n. cbn [In]. intuition.
  - cbn [map In]. rewrite IH. intuition.
Qed.
Lemma names_of : forall h x, In x (map u_name (log_of h)) <-> In x (map u_name h).
Proof.
  intros h x. unfold log_of. assert (forall h l, In x (map u_name (fold_left (fun l e => add_update l (u_name e) (u_value e) (u_type e)) h l)) <-> In x (map u_name l) \/ In x (map u_name h)) as G.
  { clear. induction h as [|e h IH]; intros l; cbn [fold_left map In]; [intuition|]. rewrite IH, name_kept. intuition. }
  rewrite G. cbn. intuition.
Qed.
Theorem C318_item_by_name : forall h name,
  (log_item (log_of h) name = None <-> ~ exists e, In e h /\ u_name e = name) /\
  (forall u, log_item (log_of h) name = Some u -> exists before after, log_of h = before ++ u :: after /\ u_name u = name /\ forall x, In x before -> u_name x <> name).
Proof.
  intros h name. assert (forall l, log_item l name = None <-> ~ In name (map u_name l)) as G.
  { induction l as [|u l IH]; cbn [log_item map In]; [intuition|]. destruct (String.eqb_spec (u_name u) name); [split; [discriminate|intuition]|]. rewrite IH. intuition. }
  split.
  - rewrite G, names_of, in_map_iff. split; intros H X; apply H; destruct X as (e & A & B); exists e; auto.
  - clear G. generalize (log_of h). induction l as [|x l IH]; intros u H; cbn [log_item] in H; [discriminate|]. destruct (String.eqb_spec (u_name x) name) as [E|E].
    + injection H as <-. exists [], l. split; [reflexivity|]. split; [exact E|intros y []].
    + destruct (IH u H) as (a & b & -> & N & A). exists (x :: a), b. split; [reflexivity|]. split; [exact N|]. intros y [<- |I]; [exact E|exact (A y I)].
Qed.
Print Assumptions C318_item_by_name.
Definition ex_h : list update := [Upd "R1" (VStr "1k") UpUpdateComponentValue; Upd "C1" (VStr "1n") UpAddComponent; Upd "R1" (VStr "2k") UpUpdateComponentValue].
Example C318_nonvacuous : log_item (log_of ex_h) "R1" = Some (Upd "R1" (VStr "2k") UpUpdateComponentValue) /\ log_item (log_of ex_h) "R2" = None.
Proof. split; reflexivity. Qed.

(** ** C319 refuted: "item access by a name gives the latest edit of this name." A component that was changed and then removed is told as
    changed. *)
Theorem C319_latest_edit_refuted : forall n v, log_item (log_of [Upd n v UpUpdateComponentValue; Upd n VNone UpDeleteComponent]) n = Some (Upd n v UpUpdateComponentValue).
Proof.
  intros n v. unfold log_of. cbn [fold_left u_name u_value u_type add_update]. assert (entry_matches (Upd n v UpUpdateComponentValue) n VNone UpDeleteComponent = false) as ->.
  { unfold entry_matches. cbn [u_type utype_eqb]. apply andb_false_r. }
  cbn [log_item u_name]. rewrite String.eqb_refl. reflexivity.
Qed.
Print Assumptions C319_latest_edit_refuted.

(** ** C320: the text of an update tells what was edited: the text of the instruction, or the name of the component or parameter. (An update of
    an instruction is told as invalid: see below.) *)
Definition contains (s x : string) : Prop := exists a b : string, s = (a ++ x ++ b)%string.
Theorem C320_described_partial : forall num u, u_type u <> UpInvalid -> u_type u <> UpUpdateInstruction ->
  contains (described num u) (match u_type u with UpDeleteInstruction | UpAddInstruction => shown num (u_value u) | _ => u_name u end) /\
  (match u_type u with UpUpdateParameter | UpUpdateComponentValue | UpUpdateComponentParameter | UpAddParameter | UpAddComponentParameter => True | _ => False end ->
   contains (described num u) (shown num (u_value u))).
Proof.
  assert (forall s : string, (s ++ "")%string = s) as NIL by (induction s as [|c s IH]; [reflexivity|cbn; rewrite IH; reflexivity]).
  assert (forall a b c : string, (a ++ (b ++ c))%string = ((a ++ b) ++ c)%string) as ASS by (induction a as [|x a IH]; intros b c; [reflexivity|cbn; rewrite IH; reflexivity]).
  intros num u A B. unfold described, contains. split.
  - destruct (u_type u); try (contradiction A; reflexivity); try (contradiction B; reflexivity); eexists; eexists; reflexivity.
  - intros V. destruct (u_type u); try contradiction V.
    + exists ("Parameter " ++ u_name u ++ " was updated to ")%string, ""%string. rewrite NIL, <- !ASS. reflexivity.
    + exists ("Component " ++ u_name u ++ " value was updated to ")%string, ""%string. rewrite NIL, <- !ASS. reflexivity.
    + exists ("Parameter " ++ u_name u ++ " was updated to ")%string, ""%string. rewrite NIL, <- !ASS. reflexivity.
    + exists ("Parameter " ++ u_name u ++ " was added with ")%string, ""%string. rewrite NIL, <- !ASS. reflexivity.
    + exists ("Component Parameter " ++ u_name u ++ " was added with value ")%string, ""%string. rewrite NIL, <- !ASS. reflexivity.
Qed.
Print Assumptions C320_described_partial.
(** Missing: updates of instructions, recorded when add_instruction replaces a simulation directive. Two of them cannot be told apart. *)
Theorem C320_instruction_updates_refuted : forall num n v w, described num (Upd n v UpUpdateInstruction) = described num (Upd n w UpInvalid).
Proof. reflexivity. Qed.
Print Assumptions C320_instruction_updates_refuted.
Example C320_nonvacuous : forall num, described num (Upd "R1" (VStr "2k") UpUpdateComponentValue) = "Component R1 value was updated to 2k"%string /\
  described num (Upd "INSTRUCTION" (VStr ".tran 1m") UpAddInstruction) = "Instruction "".tran 1m"" was added."%string.
Proof. split; reflexivity. Qed.
