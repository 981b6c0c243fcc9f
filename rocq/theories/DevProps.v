(** Results of a toleranced analysis: C286-C291. *)
From Coq Require Import String Ascii List Bool Arith QArith Qround Qabs ZArith Lia Lqa.
From Verif Require Import PyStr StepsModel StepsProofs LogModel DevModel DevSpec DevProofs.
Import ListNotations.
Local Open Scope string_scope. Local Open Scope nat_scope. Local Open Scope list_scope.

(** An analysis: the data of earlier ones are cleared, the simulations [sims] are run, the analysis is marked as executed. *)
Definition analysed (a0 : analysis) (sims : list sim) : analysis := finish (fold_left (fun a s => run s a) sims (clear a0)).
Lemma analysed_is : forall a0 sims, analysed a0 sims = Analysis sims (a_log a0) None true (a_bench a0).
Proof.
  intros a0 sims. unfold analysed, finish. enough (forall l a, fold_left (fun a s => run s a) l a = Analysis (a_sims a ++ l) (a_log a) (a_kept a) (a_analysed a) (a_bench a)) as E.
  { rewrite E. reflexivity. }
  induction l as [|s l IH]; intros [q l0 k b1 b2]; [cbn; rewrite app_nil_r; reflexivity|]. cbn [fold_left]. rewrite IH. cbn. rewrite <- app_assoc. reflexivity.
Qed.
Lemma read_is : forall a0 sims, Forall single (readable sims) ->
  read_logfiles (analysed a0 sims) =
    let l := adding (readable sims) no_log in
    match run_column (s2l "runm") (Some 0%Q) (data l) with
    | Some c => let l' := Lg [(s2l "run", c)] (data l) 1 in Some (Analysis sims l' (Some l') true (a_bench a0), l')
    | None => None
    end.
Proof.
  intros a0 sims F. rewrite analysed_is. unfold read_logfiles. cbn [a_analysed a_bench a_kept a_sims negb andb]. rewrite collect_readable.
  fold (adding (readable sims) no_log). cbv zeta. rewrite (adding_steps _ no_log F). reflexivity.
Qed.
Definition pick (p : str) (l : lg) : value := match dget p (data l) with Some [v] => v | _ => Txt [] end.
Lemma pick_has : forall p l v, has l p v -> pick p l = v.
Proof. intros p l v H. unfold pick. rewrite H. reflexivity. Qed.
Lemma picks : forall p ls, Forall single ls -> ls <> [] -> (forall l, In l ls -> exists v, has l p v) -> dget p (data (adding ls no_log)) = Some (map (pick p) ls).
Proof.
  intros p ls F NE H. rewrite (adding_data ls no_log p (pick p) F).
  - destruct ls; [contradiction|]. reflexivity.
  - apply Forall_forall. intros l I. destruct (H l I) as (v & V). unfold has. rewrite (pick_has _ _ _ V). exact V.
Qed.
Lemma lower_keys : forall ls, Forall single ls -> forall n, In n (map fst (data (adding ls no_log))) -> lower n = n.
Proof.
  intros ls F n I. apply adding_keys in I as [[]|(l & L & I)]. rewrite Forall_forall in F. destruct (F l L) as (_ & _ & W). exact (W n I).
Qed.
Lemma tells_eq : forall cx v k j, tells cx v k -> match round_real v with Some w => tells cx v k -> veq w (Num (inject_Z j)) = true <-> k = j | None => False end.
Proof.
  intros cx v k j T. destruct v as [q|re im|s]; cbn [tells round_real] in *; [| |exact T].
  - destruct T as (_ & E). assert (round q = k) as R by (apply round_near; apply Qabs_Qlt_condition; lra). rewrite R. intros _. cbn [veq]. rewrite Qeq_bool_iff, inject_Z_injective. reflexivity.
  - destruct T as (_ & E). rewrite (round_near _ _ E). intros _. cbn [veq]. rewrite Qeq_bool_iff, inject_Z_injective. reflexivity.
Qed.
(** The column made of the measurement "runm" tells the numbers. *)
Lemma column_tells : forall cx vs ks, Forall2 (tells cx) vs ks -> vs <> [] ->
  exists c, (match vs with x :: r => if is_complex x then map_opt round_real (x :: r) else Some (x :: r) | [] => None end) = Some c /\
    Forall2 (fun x k => forall j, veq x (Num (inject_Z j)) = true <-> k = j) c ks.
Proof.
  intros cx vs ks F NE. destruct cx.
  - assert (exists c, map_opt round_real vs = Some c /\ Forall2 (fun x k => forall j, veq x (Num (inject_Z j)) = true <-> k = j) c ks) as (c & E & C).
    { clear NE. induction F as [|v k vs ks T F IH]; [exists []; split; constructor|]. destruct IH as (c & E & C). cbn [map_opt]. rewrite E.
      pose proof (tells_eq true v k k T) as K0. destruct (round_real v) as [w|] eqn:R; [|contradiction]. exists (w :: c). split; [reflexivity|]. constructor; [|exact C].
      intros j. pose proof (tells_eq true v k j T) as K. rewrite R in K. exact (K T). }
    exists c. split; [|exact C]. destruct vs as [|x r]; [contradiction|]. inversion F as [|? k ? ? T ?]. subst.
    destruct x; cbn [is_complex tells] in *; [destruct T; discriminate|exact E|contradiction].
  - exists vs. destruct vs as [|x r]; [contradiction|]. assert (is_complex x = false) as -> by (inversion F as [|? k ? ? T ?]; subst; destruct x; cbn [tells] in T; [reflexivity|destruct T; discriminate|reflexivity]).
    split; [reflexivity|]. clear NE. induction F as [|v k vs ks T F IH]; constructor; [|exact IH]. intros j. destruct v as [q|re im|s]; cbn [tells] in T; [|destruct T; discriminate|contradiction].
    destruct T as (_ & T). cbn [veq]. rewrite Qeq_bool_iff, T. apply inject_Z_injective.
Qed.
Lemma f2_nth : forall A B (P : A -> B -> Prop) l1 l2 i a b, Forall2 P l1 l2 -> nth_error l1 i = Some a -> nth_error l2 i = Some b -> P a b.
Proof.
  intros A B P l1 l2 i a b F. revert i. induction F as [|x y l1 l2 H F IH]; intros [|i] E1 E2; try discriminate; cbn in *; [congruence|eauto].
Qed.
Lemma f2_len : forall A B (P : A -> B -> Prop) l1 l2, Forall2 P l1 l2 -> length l1 = length l2.
Proof. intros A B P l1 l2 F. induction F; cbn; congruence. Qed.
Lemma f2_map : forall A B C (P : B -> C -> Prop) (f : A -> B) l1 l2, Forall2 (fun a c => P (f a) c) l1 l2 -> Forall2 P (map f l1) l2.
Proof. intros A B C P f l1 l2 F. induction F; constructor; assumption. Qed.

(** C286: an analysis whose simulations record the number of the run in the measurement "runm" (as the worst case and the quick sensitivity
    analysis do): a measurement asked for under a run number is the value from the log that carries this number, whichever simulations
    have no log; the number of runs is not limited. Reading again gives the same. *)
Theorem C286_by_run_number : forall a0 sims ks cx, readable sims <> [] -> Forall single (readable sims) -> NoDup ks ->
  Forall2 (fun l k => exists v, has l (s2l "runm") v /\ tells cx v k) (readable sims) ks ->
  exists a r, read_logfiles (analysed a0 sims) = Some (a, r) /\ read_logfiles a = Some (a, r) /\
    forall m, (forall l, In l (readable sims) -> exists v, has l (lower m) v) ->
    forall i l k v, nth_error (readable sims) i = Some l -> nth_error ks i = Some k -> has l (lower m) v -> value_in_run r m k = Some v.
Proof.
  intros a0 sims ks cx NE F ND F2. rewrite (read_is a0 sims F). cbv zeta. unfold run_column.
  assert (forall l, In l (readable sims) -> exists v, has l (s2l "runm") v) as HR.
  { intros l I. clear - F2 I. induction F2 as [|x k ls ks (v & V & _) F2 IH]; [destruct I|]. destruct I as [<- |I]; [exists v; exact V|exact (IH I)]. }
  rewrite (picks _ _ F NE HR).
  assert (Forall2 (tells cx) (map (pick (s2l "runm")) (readable sims)) ks) as FT.
  { apply f2_map. clear - F2. induction F2 as [|x k ls ks (v & V & T) F2 IH]; constructor; [|exact IH]. rewrite (pick_has _ _ _ V). exact T. }
  assert (map (pick (s2l "runm")) (readable sims) <> []) as NM by (destruct (readable sims); [contradiction|discriminate]).
  destruct (column_tells cx _ _ FT NM) as (c & E & C). destruct (map (pick (s2l "runm")) (readable sims)) as [|x0 r0] eqn:EM; [contradiction|]. rewrite E.
  eexists. eexists. split; [reflexivity|]. split; [reflexivity|]. intros m HM i l k v NL NK HV.
  assert (length c = length ks) as LC by (exact (f2_len _ _ _ _ _ C)).
  apply (lookup_run _ m k c (map (pick (lower m)) (readable sims)) i v); cbn [steps data].
  - reflexivity.
  - apply lower_keys. exact F.
  - apply picks; assumption.
  - rewrite nth_error_map, NL. cbn. rewrite (pick_has _ _ _ HV). reflexivity.
  - rewrite LC. apply nth_error_Some. congruence.
  - intros j x NJ. assert (j < length ks) as LJ by (rewrite <- LC; apply nth_error_Some; congruence). apply nth_error_Some in LJ.
    destruct (nth_error ks j) as [kj|] eqn:KJ; [|contradiction]. pose proof (f2_nth _ _ _ _ _ _ _ _ C NJ KJ) as QK. cbn beta in QK. rewrite (QK k). split; [|intros ->; congruence].
    intros ->. rewrite NoDup_nth_error in ND. apply ND; [apply nth_error_Some; congruence|congruence].
Qed.
Print Assumptions C286_by_run_number.

(** All logs without the measurement "runm", with the same measurements [ms], one value of each. *)
Definition plain (ms : list str) (l : lg) : Prop := single l /\ map fst (data l) = ms /\ forall m, In m ms -> exists v, has l m v.
Lemma plain_single : forall ms ls, Forall (plain ms) ls -> Forall single ls.
Proof. intros ms ls F. eapply Forall_impl; [|exact F]. intros l (P & _). exact P. Qed.
(** Rows counted from 0. *)
Lemma auto_column : forall ms ls, Forall (plain ms) ls -> ls <> [] -> ms <> [] -> ~ In (s2l "runm") ms ->
  run_column (s2l "runm") (Some 0%Q) (data (adding ls no_log)) = Some (map (fun i => Num (0 + inject_Z (Z.of_nat i))) (seq 0 (length ls))).
Proof.
  intros ms ls F NE NM NR. unfold run_column.
  assert (forall p, In p (map fst (data (adding ls no_log))) -> In p ms) as KM.
  { intros p I. apply adding_keys in I as [[]|(l & L & I)]. rewrite Forall_forall in F. destruct (F l L) as (_ & <- & _). exact I. }
  rewrite dget_none by (intros I; apply NR; exact (KM _ I)).
  destruct (data (adding ls no_log)) as [|[p c] r] eqn:E.
  - exfalso. destruct ls as [|l ls]; [contradiction|]. destruct ms as [|m ms]; [contradiction|].
    assert (In m (map fst (data (adding (l :: ls) no_log)))) as K.
    { apply adding_keys. right. exists l. split; [left; reflexivity|]. rewrite Forall_forall in F. destruct (F l (or_introl eq_refl)) as (_ & FE & _). rewrite FE. left. reflexivity. }
    rewrite E in K. destruct K.
  - assert (dget p (data (adding ls no_log)) = Some c) as G by (rewrite E, dget_cons, str_eqb_refl; reflexivity).
    assert (In p ms) as IP by (apply KM; left; reflexivity).
    rewrite (picks p ls (plain_single _ _ F) NE) in G.
    + injection G as <-. rewrite map_length. reflexivity.
    + intros l L. rewrite Forall_forall in F. destruct (F l L) as (_ & _ & H). exact (H p IP).
Qed.
Lemma counted : forall n i x k, nth_error (map (fun i => Num (0 + inject_Z (Z.of_nat i))) (seq 0 n)) i = Some x -> veq x (Num (inject_Z (Z.of_nat k))) = true <-> i = k.
Proof.
  intros n i x k H. rewrite nth_error_map in H. destruct (nth_error (seq 0 n) i) as [s|] eqn:E; [|discriminate]. injection H as <-.
  assert (s = i) as ->.
  { assert (i < n) as L by (rewrite <- (seq_length n 0); apply nth_error_Some; congruence). rewrite (nth_error_nth' _ 0) in E by (rewrite seq_length; exact L). rewrite seq_nth in E by exact L. injection E as <-. reflexivity. }
  cbn [veq]. rewrite Qeq_bool_iff, Qplus_0_l, inject_Z_injective. lia.
Qed.
Lemma by_row : forall a0 sims ms, readable sims <> [] -> Forall (plain ms) (readable sims) -> ms <> [] -> ~ In (s2l "runm") ms ->
  exists a r, read_logfiles (analysed a0 sims) = Some (a, r) /\ count r = 1 /\
    forall m i l v, In (lower m) ms -> nth_error (readable sims) i = Some l -> has l (lower m) v -> value_in_run r m (Z.of_nat i) = Some v.
Proof.
  intros a0 sims ms NE F NM NR. rewrite (read_is a0 sims (plain_single _ _ F)). cbv zeta. rewrite (auto_column ms _ F NE NM NR).
  eexists. eexists. split; [reflexivity|]. split; [reflexivity|]. intros m i l v IM NL HV.
  apply (lookup_run _ m (Z.of_nat i) (map (fun i => Num (0 + inject_Z (Z.of_nat i))) (seq 0 (length (readable sims)))) (map (pick (lower m)) (readable sims)) i v); cbn [steps data].
  - reflexivity.
  - apply lower_keys. exact (plain_single _ _ F).
  - apply picks; [exact (plain_single _ _ F)|exact NE|]. intros x X. rewrite Forall_forall in F. destruct (F x X) as (_ & _ & H). exact (H _ IM).
  - rewrite nth_error_map, NL. cbn. rewrite (pick_has _ _ _ HV). reflexivity.
  - rewrite map_length, seq_length. apply nth_error_Some. congruence.
  - intros j x NJ. rewrite (counted _ _ _ _ NJ). reflexivity.
Qed.
Lemma all_readable : forall sims, Forall (fun s => s_log s <> None) sims -> map s_log sims = map Some (readable sims).
Proof.
  intros sims F. induction F as [|s sims H F IH]; [reflexivity|]. cbn [map readable flat_map]. fold (readable sims). destruct (s_log s) as [l|]; [|contradiction].
  cbn [app map]. rewrite IH. reflexivity.
Qed.
(** C287: an analysis that records no run numbers (Monte Carlo, fast worst case): if every simulation left a log, the value asked for under
    the number i is that of the i-th simulation, from 0. *)
Theorem C287_by_order : forall a0 sims ms, sims <> [] -> Forall (fun s => s_log s <> None) sims -> Forall (plain ms) (readable sims) -> ms <> [] -> ~ In (s2l "runm") ms ->
  exists a r, read_logfiles (analysed a0 sims) = Some (a, r) /\
    forall m i s l v, In (lower m) ms -> nth_error sims i = Some s -> s_log s = Some l -> has l (lower m) v -> value_in_run r m (Z.of_nat i) = Some v.
Proof.
  intros a0 sims ms NE AR F NM NR. pose proof (all_readable sims AR) as E. assert (readable sims <> []) as NE'.
  { intros K. rewrite K in E. destruct sims; [contradiction|discriminate]. }
  destruct (by_row a0 sims ms NE' F NM NR) as (a & r & R & _ & H). exists a, r. split; [exact R|]. intros m i s l v IM NS SL HV.
  apply (H m i l v IM); [|exact HV]. assert (nth_error (map s_log sims) i = Some (Some l)) as K by (rewrite nth_error_map, NS; cbn; rewrite SL; reflexivity).
  rewrite E, nth_error_map in K. destruct (nth_error (readable sims) i); [cbn in K; congruence|discriminate].
Qed.
Print Assumptions C287_by_order.
Lemma readable_app : forall a b, readable (a ++ b) = readable a ++ readable b.
Proof. intros a b. unfold readable. apply flat_map_app. Qed.
(** C288 refuted: with one simulation that left no log, what is asked for under its number is the value of the next one. *)
Theorem C288_failed_run_refuted : forall a0 before failed next after ms m v l, Forall (fun s => s_log s <> None) before -> s_log failed = None ->
  s_log next = Some l -> Forall (plain ms) (readable (before ++ failed :: next :: after)) -> ~ In (s2l "runm") ms -> In (lower m) ms -> has l (lower m) v ->
  exists a r, read_logfiles (analysed a0 (before ++ failed :: next :: after)) = Some (a, r) /\ value_in_run r m (Z.of_nat (length before)) = Some v.
Proof.
  intros a0 before failed next after ms m v l AR NF NX F NR IM HV. set (sims := before ++ failed :: next :: after) in *.
  assert (readable sims = readable before ++ l :: readable after) as ER.
  { unfold sims. rewrite readable_app. f_equal. cbn [readable flat_map]. rewrite NF, NX. reflexivity. }
  assert (readable sims <> []) as NE by (rewrite ER; destruct (readable before); discriminate). assert (ms <> []) as NM by (intros ->; destruct IM).
  destruct (by_row a0 sims ms NE F NM NR) as (a & r & R & _ & H). exists a, r. split; [exact R|].
  assert (length before = length (readable before)) as EL by (rewrite <- (map_length s_log before), (all_readable _ AR), map_length; reflexivity). rewrite EL.
  apply (H m _ l v IM); [|exact HV]. rewrite ER, nth_error_app2 by lia. rewrite Nat.sub_diag. reflexivity.
Qed.
Print Assumptions C288_failed_run_refuted.
(** C289 refuted: the step count of the results is 1, however many runs there are. *)
Theorem C289_step_count_refuted : forall a0 sims a r, Forall single (readable sims) -> read_logfiles (analysed a0 sims) = Some (a, r) -> count r = 1.
Proof.
  intros a0 sims a r F H. rewrite (read_is a0 sims F) in H. cbv zeta in H. destruct (run_column _ _ _); [|discriminate]. injection H as <- <-. reflexivity.
Qed.
Print Assumptions C289_step_count_refuted.
(** Logs that have steps of their own: the results have all their steps, counted and in the order of the simulations, and likewise all
    values of their measurements. *)
Definition cells (p : str) (c : columns value) : list value := match dget p c with Some x => x | None => [] end.
Lemma extended_key : forall l (cols : columns value) p, In p (map fst cols) \/ In p (map fst l) -> NoDup (map fst l) -> exists x, dget p (fold_left extend l cols) = Some x.
Proof.
  intros l cols p H ND. rewrite (dget_fold l cols p ND). destruct (dget p l) as [c|] eqn:E; [eexists; reflexivity|]. destruct H as [H|H].
  - destruct (dget p cols) as [x|] eqn:E2; [exists x; reflexivity|]. exfalso. clear - H E2. unfold dget in E2. induction cols as [|[k v] cols IH]; [exact H|]. cbn [find fst] in E2.
    destruct (str_eqb k p) eqn:K; [discriminate|]. destruct H as [H|H]; [cbn [fst] in H; subst k; rewrite str_eqb_refl in K; discriminate|]. exact (IH H E2).
  - exfalso. clear - H E. unfold dget in E. induction l as [|[k v] l IH]; [exact H|]. cbn [find fst] in E.
    destruct (str_eqb k p) eqn:K; [discriminate|]. destruct H as [H|H]; [cbn [fst] in H; subst k; rewrite str_eqb_refl in K; discriminate|]. exact (IH H E).
Qed.
Lemma fold_cells : forall p l (cols : columns value), NoDup (map fst l) -> cells p (fold_left extend l cols) = cells p cols ++ cells p l.
Proof.
  intros p l cols ND. unfold cells. rewrite (dget_fold l cols p ND). destruct (dget p l), (dget p cols); rewrite ?app_nil_r; reflexivity.
Qed.
Lemma adding_cells : forall ls c, Forall (fun l => NoDup (map fst (steps l)) /\ NoDup (map fst (data l))) ls ->
  count (adding ls c) = count c + list_sum (map count ls) /\
  (forall p, cells p (steps (adding ls c)) = cells p (steps c) ++ flat_map (fun l => cells p (steps l)) ls) /\
  (forall p, cells p (data (adding ls c)) = cells p (data c) ++ flat_map (fun l => cells p (data l)) ls) /\
  (steps c <> [] \/ Exists (fun l => steps l <> []) ls -> steps (adding ls c) <> []).
Proof.
  induction ls as [|l ls IH]; intros c F.
  - cbn. split; [rewrite Nat.add_0_r; reflexivity|]. split; [intros p; rewrite app_nil_r; reflexivity|]. split; [intros p; rewrite app_nil_r; reflexivity|]. intros [H|H]; [exact H|inversion H].
  - inversion F as [|? ? (N1 & N2) F']. subst. cbn [adding fold_left]. fold (adding ls (add_log_data c (Some l))).
    destruct (IH (add_log_data c (Some l)) F') as (A & B & C & D). split; [|split; [|split]].
    + rewrite A. cbn [add_log_data count map list_sum fold_right]. unfold list_sum. lia.
    + intros p. rewrite B. cbn [add_log_data steps flat_map]. rewrite (fold_cells p _ _ N1), <- app_assoc. reflexivity.
    + intros p. rewrite C. cbn [add_log_data data flat_map]. rewrite (fold_cells p _ _ N2), <- app_assoc. reflexivity.
    + intros H. apply D. cbn [add_log_data steps]. destruct H as [H|H].
      * left. destruct (steps c) as [|[k v] r] eqn:E; [contradiction|]. destruct (extended_key (steps l) ((k, v) :: r) k) as [x X]; [left; left; reflexivity|exact N1|].
        intros K. rewrite K in X. discriminate.
      * inversion H as [? ? H1|? ? H1]; subst; [|right; exact H1]. left. destruct (steps l) as [|[k v] r] eqn:E; [contradiction|].
        destruct (extended_key ((k, v) :: r) (steps c) k) as [x X]; [right; left; reflexivity|exact N1|]. intros K. rewrite K in X. discriminate.
Qed.
Theorem C289_stepped_logs : forall a0 sims, Forall (fun l => NoDup (map fst (steps l)) /\ NoDup (map fst (data l))) (readable sims) ->
  Exists (fun l => steps l <> []) (readable sims) ->
  exists a r, read_logfiles (analysed a0 sims) = Some (a, r) /\ count r = list_sum (map count (readable sims)) /\
    (forall p, cells p (steps r) = flat_map (fun l => cells p (steps l)) (readable sims)) /\
    (forall m, cells m (data r) = flat_map (fun l => cells m (data l)) (readable sims)).
Proof.
  intros a0 sims F E. rewrite analysed_is. unfold read_logfiles. cbn [a_analysed a_bench a_kept a_sims negb andb]. rewrite collect_readable.
  fold (adding (readable sims) no_log). cbv zeta. destruct (adding_cells (readable sims) no_log F) as (A & B & C & D). specialize (D (or_intror E)).
  destruct (steps (adding (readable sims) no_log)) as [|x r] eqn:ES; [contradiction D; reflexivity|]. eexists. eexists. split; [reflexivity|].
  split; [exact A|]. split; [intros p; rewrite ES; exact (B p)|exact C].
Qed.
Print Assumptions C289_stepped_logs.
Example C289_stepped_nonvacuous :
  let l1 := Lg [(s2l "r1", [Num 1; Num 2])] [(s2l "vout", [Num 5; Num 6])] 2 in let l2 := Lg [(s2l "r1", [Num 1; Num 2; Num 3])] [(s2l "vout", [Num 7; Num 8; Num 9])] 3 in
  let sims := [Sim (Some l1) 0; Sim None 1; Sim (Some l2) 0] in
  Exists (fun l => steps l <> []) (readable sims) /\
  forall a0, option_map (fun x => (count (snd x), cells (s2l "vout") (data (snd x)))) (read_logfiles (analysed a0 sims)) = Some (5, [Num 5; Num 6; Num 7; Num 8; Num 9]).
Proof. split; [apply Exists_cons_hd; discriminate|]. intros [q l k b1 b2]. vm_compute. reflexivity. Qed.
(** C290 refuted: simulations run after the results were read are not in the results read later. *)
Theorem C290_later_runs_refuted : forall a a' r sims, read_logfiles a = Some (a', r) ->
  exists a2, read_logfiles (fold_left (fun a s => run s a) sims a') = Some (a2, r) /\ a_sims a2 = a_sims a ++ sims.
Proof.
  intros a a' r sims H. assert (a_kept a' = Some r /\ a_sims a' = a_sims a /\ (negb (a_analysed a') && negb (a_bench a')) = false) as (K & S1 & FL).
  { unfold read_logfiles in H. destruct (negb (a_analysed a) && negb (a_bench a)) eqn:E; [discriminate|]. destruct (a_kept a) as [l|] eqn:EK; [injection H as <- <-; auto|].
    cbv zeta in H. destruct (steps _); [destruct (run_column _ _ _); [|discriminate]|]; injection H as <- <-; auto. }
  exists (fold_left (fun a s => run s a) sims a'). assert (forall l b, a_kept (fold_left (fun a s => run s a) l b) = a_kept b /\ a_sims (fold_left (fun a s => run s a) l b) = a_sims b ++ l /\
     a_analysed (fold_left (fun a s => run s a) l b) = a_analysed b /\ a_bench (fold_left (fun a s => run s a) l b) = a_bench b) as Z.
  { induction l as [|s l IH]; intros b; [cbn; rewrite app_nil_r; auto|]. cbn [fold_left]. destruct (IH (run s b)) as (Z1 & Z2 & Z3 & Z4). rewrite Z1, Z2, Z3, Z4. cbn. rewrite <- app_assoc. auto. }
  destruct (Z sims a') as (Z1 & Z2 & Z3 & Z4). split; [|rewrite Z2, S1; reflexivity]. unfold read_logfiles. rewrite Z1, Z3, Z4, FL, K. reflexivity.
Qed.
Print Assumptions C290_later_runs_refuted.

(** C291: adding the logs of further simulations one by one, as the fast worst case analysis does: the runs are numbered on, and all values,
    old and new, are found under their numbers; a failed simulation changes nothing and gives no log. *)
Fixpoint add_logs (more : list sim) (a : analysis) : option analysis :=
  match more with [] => Some a | s :: r => match add_log s a with Some (a', _) => add_logs r a' | None => None end end.
Definition numbered (c : list value) : Prop := forall i x, nth_error c i = Some x -> exists q, x = Num q /\ (q == inject_Z (Z.of_nat i))%Q.
Definition table_of (ms : list str) (ls : list lg) (r : lg) : Prop :=
  (exists c, steps r = [(s2l "run", c)] /\ length c = length ls /\ numbered c) /\
  (forall p, In p ms -> dget p (data r) = Some (map (pick p) ls)) /\ (forall p, In p (map fst (data r)) -> In p ms).
Lemma numbered_app : forall c d q, numbered c -> (q == inject_Z (Z.of_nat (length c)))%Q -> numbered (c ++ map (fun i => Num (q + inject_Z (Z.of_nat i))) (seq 0 d)).
Proof.
  intros c d q N Q i x H. destruct (Nat.lt_ge_cases i (length c)) as [L|L].
  - rewrite nth_error_app1 in H by exact L. exact (N i x H).
  - rewrite nth_error_app2 in H by exact L. rewrite nth_error_map in H. destruct (nth_error (seq 0 d) (i - length c)) as [s|] eqn:E; [|discriminate]. injection H as <-.
    assert (i - length c < d) as LD by (rewrite <- (seq_length d 0); apply nth_error_Some; congruence).
    rewrite (nth_error_nth' _ 0) in E by (rewrite seq_length; exact LD). rewrite seq_nth in E by exact LD. injection E as <-. eexists. split; [reflexivity|].
    rewrite Q, <- inject_Z_plus. apply inject_Z_injective. lia.
Qed.
Lemma next_is : forall c, c <> [] -> numbered c -> forall l, steps l = [(s2l "run", c)] -> exists q, next_run l = Some q /\ (q == inject_Z (Z.of_nat (length c)))%Q.
Proof.
  intros c NE N l S1. unfold next_run. rewrite S1, dget_cons, str_eqb_refl. destruct (@exists_last _ c NE) as (c' & x & ->). rewrite rev_app_distr. cbn [rev app].
  destruct (N (length c') x) as (q & -> & EQ); [rewrite nth_error_app2, Nat.sub_diag by lia; reflexivity|]. exists (q + 1)%Q. split; [reflexivity|]. rewrite app_length. cbn [length].
  assert (inject_Z (Z.of_nat (length c' + 1)) == inject_Z (Z.of_nat (length c')) + 1)%Q as E1.
  { change 1%Q with (inject_Z 1). rewrite <- inject_Z_plus. apply inject_Z_injective. lia. }
  lra.
Qed.
Lemma add_one : forall ms ls s l a, ms <> [] -> ls <> [] -> ~ In (s2l "run") ms -> table_of ms ls (a_log a) -> s_code s = 0%Z -> s_log s = Some l -> plain ms l ->
  exists a', (exists o, add_log s a = Some (a', Some o)) /\ table_of ms (ls ++ [l]) (a_log a') /\ (a_kept a = None \/ a_kept a' = Some (a_log a')).
Proof.
  intros ms ls s l a NM NL NR ((c & T1 & T2 & T3) & T4 & T5) CD SL ((P1 & P2 & P2') & P3 & P4). unfold add_log. rewrite CD, SL, P1. cbn [Z.eqb negb].
  assert (c <> []) as NC by (intros ->; destruct ls; [contradiction|discriminate]).
  destruct (next_is c NC T3 _ T1) as (q & NX & Q). rewrite NX. unfold run_column. rewrite dget_none by (rewrite P3; exact NR).
  destruct (data l) as [|[p0 c0] rest] eqn:ED; [exfalso; destruct ms; [contradiction|discriminate]|].
  assert (exists v0, c0 = [v0]) as (v0 & ->).
  { destruct (P4 p0) as (v & V); [rewrite <- P3; left; reflexivity|]. unfold has in V. rewrite ED, dget_cons, str_eqb_refl in V. injection V as ->. exists v. reflexivity. }
  eexists. split; [eexists; reflexivity|]. cbn [a_log a_kept]. split; [|destruct (a_kept a); [right; reflexivity|left; reflexivity]]. split; [|split].
  - exists (c ++ map (fun i => Num (q + inject_Z (Z.of_nat i))) (seq 0 1)). split; [|split].
    + cbn [add_log_data steps fold_left]. rewrite T1. unfold extend. cbn [fst snd]. rewrite dget_cons, str_eqb_refl. cbn [dset]. rewrite str_eqb_refl. reflexivity.
    + rewrite !app_length, T2. reflexivity.
    + apply numbered_app; [exact T3|exact Q].
  - intros p I. cbn [add_log_data data]. rewrite dget_fold by exact P2. destruct (P4 p I) as (v & V). unfold has in V. rewrite ED in V.
    match goal with |- context [dget p (?x :: rest)] => rewrite V end. rewrite (T4 p I). rewrite map_app. cbn [map]. rewrite (pick_has p l v); [reflexivity|]. unfold has. rewrite ED. exact V.
  - intros p I. cbn [add_log_data data] in I. apply fold_keys in I as [I|I]; [exact (T5 p I)|]. rewrite <- P3. exact I.
Qed.
Theorem C291_further_runs : forall a0 sims more ms, sims <> [] -> Forall (fun s => s_log s <> None) sims -> Forall (plain ms) (readable sims) -> ms <> [] ->
  ~ In (s2l "runm") ms -> ~ In (s2l "run") ms -> Forall (fun s => s_code s = 0%Z /\ s_log s <> None) more -> Forall (plain ms) (readable more) ->
  exists a r a', read_logfiles (analysed a0 sims) = Some (a, r) /\ add_logs more a = Some a' /\
    forall m i s l v, In (lower m) ms -> nth_error (sims ++ more) i = Some s -> s_log s = Some l -> has l (lower m) v -> value_in_run (a_log a') m (Z.of_nat i) = Some v.
Proof.
  intros a0 sims more ms NE AR F NM NR NR2 AM FM. pose proof (all_readable sims AR) as E. assert (readable sims <> []) as NE'.
  { intros K. rewrite K in E. destruct sims; [contradiction|discriminate]. }
  rewrite (read_is a0 sims (plain_single _ _ F)). cbv zeta. rewrite (auto_column ms _ F NE' NM NR).
  set (a1 := Analysis sims _ _ true _). assert (table_of ms (readable sims) (a_log a1)) as T.
  { split; [|split].
    - eexists. split; [reflexivity|]. split; [rewrite map_length, seq_length; reflexivity|]. apply (numbered_app [] _ 0%Q); [intros [|i] x H; discriminate|reflexivity].
    - intros p I. apply picks; [exact (plain_single _ _ F)|exact NE'|]. intros x X. rewrite Forall_forall in F. destruct (F x X) as (_ & _ & H). exact (H p I).
    - intros p I. apply adding_keys in I as [[]|(l & L & I)]. rewrite Forall_forall in F. destruct (F l L) as (_ & FE & _). rewrite <- FE. exact I. }
  clearbody a1. exists a1. eexists.
  assert (forall more ls a, ls <> [] -> Forall (plain ms) ls -> table_of ms ls (a_log a) -> Forall (fun s => s_code s = 0%Z /\ s_log s <> None) more -> Forall (plain ms) (readable more) ->
    exists a', add_logs more a = Some a' /\ table_of ms (ls ++ readable more) (a_log a')) as GO.
  { clear - NM NR2. induction more as [|s more IH]; intros ls a NL FL T AM FM; [exists a; cbn; rewrite app_nil_r; split; [reflexivity|exact T]|].
    inversion AM as [|? ? (CD & SL) AM']. subst. cbn [readable flat_map] in FM. fold (readable more) in FM. cbn [readable flat_map]. fold (readable more). destruct (s_log s) as [l|] eqn:EL; [|contradiction].
    cbn [app] in *. inversion FM as [|? ? PL FM']. subst.
    destruct (add_one ms ls s l a NM NL NR2 T CD EL PL) as (a' & (o & A) & T' & _). cbn [add_logs]. rewrite A.
    destruct (IH (ls ++ [l]) a') as (a2 & A2 & T2); [destruct ls; discriminate|apply Forall_app; split; [exact FL|constructor; [exact PL|constructor]]|exact T'|exact AM'|exact FM'|].
    exists a2. split; [exact A2|]. rewrite <- app_assoc in T2. exact T2. }
  destruct (GO more (readable sims) a1 NE' F T AM FM) as (a' & A & ((c & T1 & T2 & T3) & T4 & T5)). exists a'. split; [reflexivity|]. split; [exact A|].
  intros m i s l v IM NS SL HV.
  assert (Forall (fun s => s_log s <> None) (sims ++ more)) as AR2 by (apply Forall_app; split; [exact AR|eapply Forall_impl; [|exact AM]; intros x (_ & H); exact H]).
  assert (nth_error (readable sims ++ readable more) i = Some l) as NL.
  { assert (nth_error (map s_log (sims ++ more)) i = Some (Some l)) as K by (rewrite nth_error_map, NS; cbn; rewrite SL; reflexivity).
    rewrite (all_readable _ AR2), readable_app, nth_error_map in K. destruct (nth_error (readable sims ++ readable more) i); [cbn in K; injection K as <-; reflexivity|discriminate]. }
  apply (lookup_run _ m (Z.of_nat i) c (map (pick (lower m)) (readable sims ++ readable more)) i v).
  - rewrite T1, dget_cons, str_eqb_refl. reflexivity.
  - intros n I. apply T5 in I. assert (exists x, In x (readable sims)) as (x & X) by (destruct (readable sims) as [|x ?]; [contradiction|exists x; left; reflexivity]).
    rewrite Forall_forall in F. destruct (F x X) as ((_ & _ & W) & FE & _). apply W. rewrite FE. exact I.
  - apply T4. exact IM.
  - rewrite nth_error_map, NL. cbn. rewrite (pick_has _ _ _ HV). reflexivity.
  - rewrite T2. apply nth_error_Some. congruence.
  - intros j x NJ. destruct (T3 j x NJ) as (q & -> & Q). cbn [veq]. rewrite Qeq_bool_iff, Q, inject_Z_injective. lia.
Qed.
Print Assumptions C291_further_runs.
Theorem C291_failed : forall s a, s_code s <> 0%Z -> add_log s a = Some (a, None).
Proof. intros s a H. unfold add_log. destruct (Z.eqb_spec (s_code s) 0); [contradiction|reflexivity]. Qed.
Print Assumptions C291_failed.

(** Three logs of an AC analysis whose "runm" is complex, the second missing; and logs without run numbers. *)
Definition lgr (l : list (string * value)) : lg := Lg [] (map (fun e => (s2l (fst e), [snd e])) l) 0.
Definition fresh : analysis := Analysis [Sim None 1] (lgr [("old", Num 1)]) (Some no_log) false false.
Definition ac_run (k : Q) (v : Q) : sim := Sim (Some (lgr [("runm", Cpx (k + (1 # 100000)) (1 # 3)); ("vout", Num v)])) 0.
Definition mc_run (v : Q) : sim := Sim (Some (lgr [("vout", Num v)])) 0.
Ltac ndup := repeat (constructor; [cbn; intuition discriminate|]); constructor.
Example C286_nonvacuous : let sims := [ac_run (-1) 5; Sim None 1; ac_run 1 7] in
  readable sims <> [] /\ Forall single (readable sims) /\ NoDup [(-1)%Z; 1%Z] /\
  Forall2 (fun l k => exists v, has l (s2l "runm") v /\ tells true v k) (readable sims) [(-1)%Z; 1%Z] /\
  option_map (fun x => (value_in_run (snd x) (s2l "VOUT") (-1), value_in_run (snd x) (s2l "VOUT") 1)) (read_logfiles (analysed fresh sims)) = Some (Some (Num 5), Some (Num 7)).
Proof.
  cbv zeta. split; [discriminate|]. split; [repeat constructor; cbn; try (intuition (subst; reflexivity)); try ndup; intuition (try discriminate; subst; reflexivity)|]. split; [ndup|]. split.
  - constructor; [|constructor; [|constructor]]; (eexists; split; [reflexivity|]; split; [reflexivity|]; vm_compute; reflexivity).
  - vm_compute. reflexivity.
Qed.
Example C287_nonvacuous : let sims := [mc_run 5; mc_run 6; mc_run 7] in
  Forall (fun s => s_log s <> None) sims /\ Forall (plain [s2l "vout"]) (readable sims) /\
  option_map (fun x => value_in_run (snd x) (s2l "vout") 2) (read_logfiles (analysed fresh sims)) = Some (Some (Num 7)).
Proof.
  cbv zeta. split; [repeat constructor; discriminate|]. split; [|vm_compute; reflexivity].
  apply Forall_forall. intros l I. cbn in I. destruct I as [<- |[<- |[<- |[]]]];
    (split; [split; [reflexivity|split; [ndup|intros n K; cbn in K; destruct K as [<- |[]]; reflexivity]]|split; [reflexivity|intros m [<- |[]]; eexists; reflexivity]]).
Qed.
Example C288_nonvacuous :
  option_map (fun x => value_in_run (snd x) (s2l "vout") 1) (read_logfiles (analysed fresh [mc_run 5; Sim None 1; mc_run 7])) = Some (Some (Num 7)).
Proof. vm_compute. reflexivity. Qed.
Example C289_nonvacuous : option_map (fun x => count (snd x)) (read_logfiles (analysed fresh [mc_run 5; mc_run 6; mc_run 7])) = Some 1.
Proof. vm_compute. reflexivity. Qed.
Example C290_nonvacuous : exists a r, read_logfiles (analysed fresh [mc_run 5]) = Some (a, r).
Proof. vm_compute. eexists. eexists. reflexivity. Qed.
Example C291_nonvacuous :
  match read_logfiles (analysed fresh [mc_run 5; mc_run 6]) with
  | Some (a, _) => match add_logs [mc_run 8; mc_run 9] a with Some a' => map (value_in_run (a_log a') (s2l "vout")) [0; 1; 2; 3]%Z | None => [] end
  | None => []
  end = [Some (Num 5); Some (Num 6); Some (Num 8); Some (Num 9)].
Proof. vm_compute. reflexivity. Qed.
