(** The alias traces of RAW files (C260-C265). *)
From Coq Require Import String Ascii List Bool Arith ZArith QArith Lia.
From Verif Require Import PyStr Regex StepsModel EngModel EngProofs StepsProofs EngCaseProofs.
From Verif Require Import AliModel AliSpec AliProofs AliProofs2 AliProofs3 AliProofs4.
Import ListNotations.
Local Open Scope string_scope. Local Open Scope nat_scope. Local Open Scope list_scope.

Lemma trimmed_strip : forall s, trimmed s -> strip s = s.
Proof.
  intros s [NE H]. apply strip_id.
  - destruct s as [|c s]; [exact I|]. apply H. left. reflexivity.
  - destruct (rev s) as [|c r] eqn:E; [exact I|]. apply H. apply in_rev. rewrite E. left. reflexivity.
Qed.
Lemma trimmed_blank : forall s, trimmed s -> ~ In " "%char s.
Proof. intros s [_ H] K. apply H in K. discriminate. Qed.
Lemma cut_at_app : forall c a b, ~ In c a -> cut_at c (a ++ c :: b) = (a, b).
Proof.
  intros c a b. induction a as [|x a IH]; intros N.
  - cbn [app cut_at]. rewrite aeqb_refl. reflexivity.
  - cbn [app cut_at]. rewrite (proj2 (aeqb_neq x c)) by (intros ->; apply N; left; reflexivity). rewrite IH by (intros K; apply N; right; exact K). reflexivity.
Qed.
Lemma header_ok : forall h p a, Forall line_ok h ->
  dot_lines (map line_text h) (Dots p a) = Some (Dots (puts (params_of h) p) (puts (aliases_of h) a)).
Proof.
  intros h. induction h as [|i h IH]; intros p a F; [reflexivity|]. inversion F as [|? ? Hi F']; subst. destruct i as [k v|n f|l].
  - destruct Hi as (K & N & V). cbn [map dot_lines line_text].
    change (startswith (s2l ".") (s2l ".param " ++ k ++ s2l "=" ++ v)) with true. cbv iota. unfold dot_line.
    change (startswith (s2l ".param") (s2l ".param " ++ k ++ s2l "=" ++ v)) with true. cbv iota.
    change (skipn 6 (s2l ".param " ++ k ++ s2l "=" ++ v)) with ((" "%char :: k) ++ "="%char :: v).
    rewrite cut_at_app by (intros [K' | K']; [discriminate|contradiction]).
    assert (strip (" "%char :: k) = k) as -> by (exact (trimmed_strip k K)). rewrite (trimmed_strip v V). cbn [d_params d_aliases]. rewrite IH by exact F'. reflexivity.
  - destruct Hi as (Hn & Hf). cbn [map dot_lines line_text].
    change (startswith (s2l ".") (s2l ".alias " ++ n ++ s2l " " ++ f)) with true. cbv iota. unfold dot_line.
    change (startswith (s2l ".param") (s2l ".alias " ++ n ++ s2l " " ++ f)) with false. cbv iota.
    change (startswith (s2l ".alias") (s2l ".alias " ++ n ++ s2l " " ++ f)) with true. cbv iota.
    change (s2l ".alias " ++ n ++ s2l " " ++ f) with (s2l ".alias" ++ " "%char :: n ++ " "%char :: f).
    rewrite split_on_cons by (vm_compute; intuition discriminate). rewrite split_on_cons by (apply trimmed_blank, Hn).
    rewrite split_on_plain by (apply trimmed_blank, Hf). rewrite (trimmed_strip n Hn), (trimmed_strip f Hf). cbn [d_params d_aliases].
    rewrite IH by exact F'. reflexivity.
  - destruct Hi as [H1 H2]. cbn [map dot_lines line_text]. destruct (startswith (s2l ".") l).
    + unfold dot_line. rewrite H1, H2. rewrite IH by exact F'. reflexivity.
    + rewrite IH by exact F'. reflexivity.
Qed.
Lemma dset_new : forall {A} k (v : A) d, ~ In k (map fst d) -> dset k v d = d ++ [(k, v)].
Proof.
  intros A k v d. induction d as [|[x w] d IH]; intros N; [reflexivity|]. cbn [dset app]. destruct (str_eqb x k) eqn:E.
  - apply str_eqb_eq in E. exfalso. apply N. left. exact E.
  - rewrite IH; [reflexivity|]. intros K. apply N. right. exact K.
Qed.
Lemma puts_fresh : forall {A} (l d : list (str * A)), NoDup (map fst d ++ map fst l) -> puts l d = d ++ l.
Proof.
  intros A l. induction l as [|[k v] l IH]; intros d N; [rewrite app_nil_r; reflexivity|]. change (puts ((k, v) :: l) d) with (puts l (dset k v d)).
  cbn [map fst] in N. pose proof (NoDup_remove_2 _ _ _ N) as N2. rewrite dset_new by (intros K; apply N2, in_or_app; left; exact K).
  rewrite IH; [rewrite <- app_assoc; reflexivity|]. rewrite map_app, <- app_assoc. exact N.
Qed.
Lemma same_refl : forall n, same_name n n = true. Proof. intros n. apply str_eqb_refl. Qed.
Lemma distinct_nodup : forall l, distinct l -> NoDup l.
Proof.
  intros l. induction l as [|n l IH]; intros H; [constructor|]. destruct H as [H D]. constructor; [|exact (IH D)].
  intros K. specialize (H n K). rewrite same_refl in H. discriminate.
Qed.
Lemma find_same : forall (l : list (str * str)) n f k, distinct (map fst l) -> In (n, f) l -> same_name n k = true ->
  find (fun a => str_eqb (lower (fst a)) (lower k)) l = Some (n, f).
Proof.
  intros l n f k. induction l as [|[n' f'] l IH]; intros D H S; [destruct H|]. destruct D as [D1 D2]. cbn [find fst].
  destruct H as [H | H].
  - injection H as -> ->. unfold same_name in S. rewrite S. reflexivity.
  - destruct (str_eqb (lower n') (lower k)) eqn:E; [|exact (IH D2 H S)]. exfalso.
    apply str_eqb_eq in E. unfold same_name in S. apply str_eqb_eq in S. specialize (D1 n ltac:(apply (in_map fst) in H; exact H)).
    cbn [fst] in D1. unfold same_name in D1. rewrite E, <- S in D1. rewrite str_eqb_refl in D1. discriminate.
Qed.
Lemma no_trace : forall (traces : list (str * Q)) k, (forall t, In t traces -> same_name (fst t) k = false) ->
  dget k traces = None /\ find (fun t => str_eqb (lower (fst t)) (lower k)) traces = None.
Proof.
  intros traces k H. split.
  - unfold dget. destruct (find (fun e => str_eqb (fst e) k) traces) as [[n v]|] eqn:E; [|reflexivity]. apply find_some in E. destruct E as [K E].
    cbn in E. apply str_eqb_eq in E. subst n. specialize (H _ K). cbn [fst] in H. rewrite same_refl in H. discriminate.
  - destruct (find (fun t => str_eqb (lower (fst t)) (lower k)) traces) as [t|] eqn:E; [|reflexivity]. apply find_some in E. destruct E as [K E].
    specialize (H _ K). unfold same_name in H. congruence.
Qed.
Lemma get_alias : forall h traces n f k, Forall line_ok h -> In (Alias n f) h -> distinct (map fst (aliases_of h)) -> same_name n k = true ->
  NoDup (map fst (params_of h)) -> (forall t, In t traces -> same_name (fst t) k = false) ->
  get_value (map line_text h) traces k = option_map snd (compute_alias (params_of h) traces n f).
Proof.
  intros h traces n f k F H D S N T. unfold get_value. rewrite header_ok by exact F. destruct (no_trace traces k T) as [-> ->]. cbn [d_aliases d_params].
  rewrite !puts_fresh by (cbn [map app]; (exact N || apply distinct_nodup; exact D)). cbn [app].
  rewrite (find_same _ n f k D); [reflexivity| |exact S]. unfold aliases_of. apply in_flat_map. exists (Alias n f). split; [exact H|]. left. reflexivity.
Qed.

(** C260: the value of an alias is that of its formula.  [h]: the lines of the header; [traces]: the traces of the file with their values at one
    point.  The names of the traces are X(name) with X one of V, I, P and a name of letters, digits and "_", or time or frequency, or have
    a character that formulas do not have; parameters are numbers. *)
Definition parameter (h : list line) (p : str) : option Q := match look p (params_of h) with Some v => scan_eng v | None => look p constants end.
Theorem C260_alias_value : forall h traces e n k q,
  Forall line_ok h -> NoDup (map fst (params_of h)) -> (forall p, In p (params_of h) -> exists z, scan_eng (snd p) = Some z) ->
  NoDup (map fst traces) -> (forall t, In t traces -> plain_trace (fst t) \/ exists c, In c (fst t) /\ foreign c = true) ->
  distinct (map fst (aliases_of h)) -> In (Alias n (text e)) h -> (exists r, n = s2l "I(" ++ r \/ n = s2l "V(" ++ r) ->
  same_name n k = true -> (forall t, In t traces -> same_name (fst t) k = false) ->
  written e -> value (fun t => look t traces) (parameter h) e = Some q ->
  get_value (map line_text h) traces k = Some q.
Proof.
  intros h traces e n k q F NP SP NT PT D H HN S T W V. rewrite (get_alias h traces n (text e) k F H D S NP T). unfold compute_alias.
  assert (exists wt, (if startswith (s2l "I(") n then Some Current else if startswith (s2l "V(") n then Some Voltage else None) = Some wt) as (wt & ->).
  { destruct HN as (r & [-> | ->]); eexists; reflexivity. }
  pose proof (written_shape e W) as SH. rewrite differences_ok, python_ok by exact SH.
  set (used := filter (fun t => occurs (fst t) (text (desugar e))) traces).
  destruct (all_some_ok (fun p => match scan_eng (snd p) with Some q => Some (fst p, q) | None => None end) (params_of h)) as (ps & -> & P1 & P2).
  { intros p K. destruct (SP p K) as (z & ->). eexists. reflexivity. }
  assert (forall t, In t used -> In t traces /\ plain_trace (fst t)) as UP.
  { intros t K. apply filter_In in K. destruct K as [K O]. split; [exact K|]. exact (used_plain e (fst t) SH (PT t K) O). }
  destruct (all_some_ok (fun t => match namify (fst t) with Some n => Some (n, snd t) | None => None end) used) as (ts & -> & T1 & T2).
  { intros t K. destruct (UP t K) as [_ [Hs | (x & a & X & A & E)]]; [rewrite namify_sweep by exact Hs; eexists; reflexivity|].
    rewrite E, namify_trace by assumption. eexists. reflexivity. }
  change (fold_left (fun d p => dset (fst p) (snd p) d) (ps ++ ts) ?c) with (puts (ps ++ ts) c).
  assert (forall l1 l2 d, puts (l1 ++ l2) d = @puts Q l2 (puts l1 d)) as PA by (intros; unfold puts; apply fold_left_app). rewrite PA.
  rewrite (eval_ok _ _ q (written_core e W)); [reflexivity|].
  apply (value_python (fun t => look t traces) (parameter h) _ (fun _ _ _ _ _ _ _ => I)) with (4 := V); [exact W| |].
  - (* traces *)
    intros t v Ht L. apply look_in in L. assert (In (t, v) used) as U by (apply filter_In; split; [exact L|]; cbn [fst]; apply reads_occur, Ht).
    destruct (UP _ U) as [_ PL]. cbn [fst] in PL.
    assert (exists n', namify t = Some n') as (n' & E).
    { destruct PL as [Hs | (x & a & X & A & ->)]; [rewrite namify_sweep by exact Hs|rewrite namify_trace by assumption]; eexists; reflexivity. }
    exists n'. split; [exact E|]. apply puts_in.
    + apply (T2 (t, v) (n', v) U). cbn [fst snd]. rewrite E. reflexivity.
    + intros w K. destruct (T1 _ K) as ([t' v'] & K' & E'). cbn [fst snd] in E'. destruct (namify t') as [m|] eqn:Em; [|discriminate].
      injection E' as -> <-. destruct (UP _ K') as [K2 PL']. cbn [fst] in PL'. assert (t' = t) as -> by (exact (namify_inj _ _ _ PL' PL Em E)).
      exact (NoDup_val traces t _ _ NT K2 L).
  - (* parameters *)
    intros p v Hp L.
    assert (~ is_sweep p /\ forall x a, p <> x :: s2l "__" ++ a ++ s2l "__") as [NS NN].
    { clear - Hp W. revert W Hp. induction e as [a b ex u|p'|p'|x a|a b|a|b|e IHe|e IHe|o e1 IHe1 e2 IHe2]; cbn; intros W H; try contradiction.
      - destruct H as [<- | []]. destruct W as (_ & _ & _ & W). exact W.
      - exact (IHe (proj1 W) H).
      - exact (IHe W H).
      - apply in_app_or in H. destruct H as [H | H]; [exact (IHe1 (proj1 W) H)|exact (IHe2 (proj1 (proj2 W)) H)]. }
    rewrite puts_other.
    2:{ intros [n' w] K E. cbn [fst] in E. subst n'. destruct (T1 _ K) as ([t' v'] & K' & E'). cbn [fst snd] in E'.
        destruct (namify t') as [m|] eqn:Em; [|discriminate]. injection E' as -> _. destruct (UP _ K') as [_ PL]. cbn [fst] in PL.
        destruct PL as [Hs | (x & a & X & A & ->)].
        - rewrite namify_sweep in Em by exact Hs. injection Em as ->. exact (NS Hs).
        - rewrite namify_trace in Em by assumption. injection Em as E. symmetry in E. exact (NN _ _ E). }
    unfold parameter in L. destruct (look p (params_of h)) as [tv|] eqn:E.
    + apply look_in in E. apply puts_in.
      * apply (P2 (p, tv) (p, v) E). cbn [fst snd]. rewrite L. reflexivity.
      * intros w K. destruct (P1 _ K) as ([p' tv'] & K' & E'). cbn [fst snd] in E'. destruct (scan_eng tv') as [z|] eqn:Ez; [|discriminate].
        injection E' as -> ->. assert (tv' = tv) as -> by exact (NoDup_val (params_of h) p _ _ NP K' E). congruence.
    + rewrite puts_other.
      * change (dget p constants = Some v). rewrite <- L. unfold dget, look. destruct (find _ constants) as [[? ?]|]; reflexivity.
      * intros [p' w] K X. cbn [fst] in X. subst p'. destruct (P1 _ K) as ([p' tv'] & K' & E'). cbn [fst snd] in E'.
        destruct (scan_eng tv'); [|discriminate]. injection E' as -> _.
        unfold look in E. destruct (find (fun e => str_eqb (fst e) p) (params_of h)) as [x|] eqn:Fd; [discriminate|].
        pose proof (find_none _ _ Fd _ K') as N. cbn in N. rewrite str_eqb_refl in N. discriminate.
Qed.
Print Assumptions C260_alias_value.

(** The file examples/testfiles/ac_qspice.ascii.qraw has the alias I(R1) with the formula (0.01mho*V(in,out)). *)
Definition r1 : formula := Group (Bin Times (Num (s2l "0") (s2l "01") None Mho) (Diff (s2l "in") (s2l "out"))).
Example C260_nonvacuous :
  text r1 = s2l "(0.01mho*V(in,out))" /\ written r1 /\
  get_value (map s2l ["Title: x"; ".param temp=27"; ".alias I(R1) (0.01mho*V(in,out))"; "Variables:"]) [(s2l "time", 1%Q); (s2l "V(in)", 5%Q); (s2l "V(out)", 3%Q)] (s2l "i(r1)")
    = value (fun t => look t [(s2l "V(in)", 5%Q); (s2l "V(out)", 3%Q)]) (fun _ => None) r1 /\
  value (fun t => look t [(s2l "V(in)", 5%Q); (s2l "V(out)", 3%Q)]) (fun _ => None) r1 <> None.
Proof.
  split; [reflexivity|]. split.
  - assert (forall a, forallb okc a = true -> a <> [] -> unitless a = true -> node a) as N.
    { intros a O NE U. split; [split; [exact NE|exact O]|]. intros l d r -> Dg. apply unitless_app in U. cbn [unitless] in U. rewrite Dg in U.
      apply andb_true_iff in U. destruct U as [U _]. cbn [andb] in U. apply negb_true_iff in U. apply orb_false_iff in U. exact U. }
    cbn [r1 written]. split.
    { split; [split; [discriminate|reflexivity]|]. split; [reflexivity|]. intros _. left. reflexivity. }
    split.
    { split; [apply N; (discriminate || reflexivity)|]. split; [apply N; (discriminate || reflexivity)|]. split; discriminate. }
    cbn. lia.
  - split; [vm_compute; reflexivity|vm_compute; discriminate].
Qed.

(** C261 is false: a formula with a blank, and the whole file cannot be read. *)
Theorem C261_blank_refuted : forall h h' traces k n a b, ~ In " "%char n -> ~ In " "%char a ->
  get_value (h ++ (s2l ".alias " ++ n ++ s2l " " ++ a ++ s2l " " ++ b) :: h') traces k = None.
Proof.
  intros h h' traces k n a b N A. unfold get_value.
  assert (forall d, dot_lines (h ++ (s2l ".alias " ++ n ++ s2l " " ++ a ++ s2l " " ++ b) :: h') d = None) as ->; [|reflexivity].
  induction h as [|l h IH]; intros d.
  - cbn [app dot_lines]. change (startswith (s2l ".") (s2l ".alias " ++ n ++ s2l " " ++ a ++ s2l " " ++ b)) with true. cbv iota. unfold dot_line.
    change (startswith (s2l ".param") (s2l ".alias " ++ n ++ s2l " " ++ a ++ s2l " " ++ b)) with false. cbv iota.
    change (startswith (s2l ".alias") (s2l ".alias " ++ n ++ s2l " " ++ a ++ s2l " " ++ b)) with true. cbv iota.
    change (s2l ".alias " ++ n ++ s2l " " ++ a ++ s2l " " ++ b) with (s2l ".alias" ++ " "%char :: n ++ " "%char :: a ++ " "%char :: b).
    rewrite split_on_cons by (vm_compute; intuition discriminate). rewrite split_on_cons by exact N. rewrite split_on_cons by exact A.
    destruct (split_on " " b) as [|x r] eqn:E; [|reflexivity]. destruct b as [|y b]; [discriminate|]. cbn in E.
    destruct (aeqb y " "); [discriminate|]. destruct (split_on " " b); discriminate.
  - cbn [app dot_lines]. destruct (startswith (s2l ".") l); [|apply IH]. destruct (dot_line l d) as [d'|]; [apply IH|reflexivity].
Qed.
Print Assumptions C261_blank_refuted.
Example C261_nonvacuous : get_value (map s2l [".alias I(R1) (V(a) / 10)"]) [(s2l "V(a)", 5%Q)] (s2l "V(a)") = None /\
  get_value (map s2l [".alias I(R1) (V(a)/10)"]) [(s2l "V(a)", 5%Q)] (s2l "V(a)") = Some 5%Q.
Proof. split; reflexivity. Qed.

(** C262 is false: the unit is also removed inside of names of nodes.  The difference of the nodes 1ohm and 1 is 0 instead of 3. *)
Theorem C262_unit_name_refuted :
  get_value (map s2l [".alias V(d) V(1ohm,1)"]) [(s2l "V(1ohm)", 5%Q); (s2l "V(1)", 2%Q)] (s2l "V(d)") = Some 0%Q /\
  value (fun t => look t [(s2l "V(1ohm)", 5%Q); (s2l "V(1)", 2%Q)]) (fun _ => None) (Diff (s2l "1ohm") (s2l "1")) = Some 3%Q /\
  text (Diff (s2l "1ohm") (s2l "1")) = s2l "V(1ohm,1)".
Proof. split; [vm_compute; reflexivity|]. split; reflexivity. Qed.
Print Assumptions C262_unit_name_refuted.

(** C263 is false: names of nodes with other characters, as those inside of subcircuits, raise. *)
Theorem C263_node_name_refuted : forall v w,
  get_value (map s2l [".alias I(R1) (0.5mho*V(x1:a,b))"]) [(s2l "V(x1:a)", v); (s2l "V(b)", w)] (s2l "I(R1)") = None /\
  get_value (map s2l [".alias I(R1) (0.5mho*V(a,b))"]) [(s2l "V(a)", v); (s2l "V(b)", w)] (s2l "I(R1)") <> None.
Proof. intros v w. split; [vm_compute; reflexivity|vm_compute; discriminate]. Qed.
Print Assumptions C263_node_name_refuted.

(** C264 is false: an alias of another name cannot be read, whatever its formula. *)
Theorem C264_types_refuted : forall h traces n f k,
  Forall line_ok h -> NoDup (map fst (params_of h)) -> distinct (map fst (aliases_of h)) -> In (Alias n f) h ->
  startswith (s2l "I(") n = false -> startswith (s2l "V(") n = false ->
  same_name n k = true -> (forall t, In t traces -> same_name (fst t) k = false) ->
  get_value (map line_text h) traces k = None.
Proof.
  intros h traces n f k F N D H N1 N2 S T. rewrite (get_alias h traces n f k F H D S N T). unfold compute_alias. rewrite N1, N2. reflexivity.
Qed.
Print Assumptions C264_types_refuted.
(** As in examples/testfiles/ac_qspice.ascii.qraw: *)
Example C264_nonvacuous : get_value (map s2l [".param temp=27"; ".alias Omega 2*pi*Frequency"]) [(s2l "Frequency", 50%Q)] (s2l "Omega") = None /\
  value (fun t => look t [(s2l "Frequency", 50%Q)]) (fun p => look p constants)
    (Bin Times (Bin Times (Num (s2l "2") [] None NoUnit) (Par (s2l "pi"))) (Sweep (s2l "Frequency"))) <> None /\
  text (Bin Times (Bin Times (Num (s2l "2") [] None NoUnit) (Par (s2l "pi"))) (Sweep (s2l "Frequency"))) = s2l "2*pi*Frequency".
Proof. split; [reflexivity|]. split; [discriminate|reflexivity]. Qed.

(** C265 is false: with one parameter that is no number none of the aliases can be read, and a parameter named lambda cannot be used. *)
Theorem C265_parameters_refuted :
  (forall h traces n f k p v,
    Forall line_ok h -> NoDup (map fst (params_of h)) -> distinct (map fst (aliases_of h)) -> In (Alias n f) h ->
    In (p, v) (params_of h) -> scan_eng v = None ->
    same_name n k = true -> (forall t, In t traces -> same_name (fst t) k = false) ->
    get_value (map line_text h) traces k = None) /\
  (forall q, get_value (map s2l [".param lambda=2"; ".alias I(R1) (lambda*V(a))"]) [(s2l "V(a)", q)] (s2l "I(R1)") = None) /\
  (forall q, get_value (map s2l [".param lambd=2"; ".alias I(R1) (lambd*V(a))"]) [(s2l "V(a)", q)] (s2l "I(R1)") <> None).
Proof.
  split; [|split; [intros q; vm_compute; reflexivity|intros q; vm_compute; discriminate]].
  intros h traces n f k p v F N D H P SC S T. rewrite (get_alias h traces n f k F H D S N T). unfold compute_alias.
  assert (all_some (fun p => match scan_eng (snd p) with Some q => Some (fst p, q) | None => None end) (params_of h) = None) as ->.
  { induction (params_of h) as [|[p' v'] l IH]; [destruct P|]. cbn [all_some snd fst]. destruct P as [P | P].
    - injection P as -> ->. rewrite SC. reflexivity.
    - inversion N; subst. rewrite (IH ltac:(assumption) P). destruct (scan_eng v'); reflexivity. }
  destruct (if startswith (s2l "I(") n then Some Current else if startswith (s2l "V(") n then Some Voltage else None); reflexivity.
Qed.
Print Assumptions C265_parameters_refuted.
Example C265_nonvacuous : scan_eng (s2l "{2*a}") = None /\ scan_eng (s2l "27") = Some 27%Q /\
  get_value (map s2l [".param x={2*a}"; ".alias I(R1) V(a)"]) [(s2l "V(a)", 5%Q)] (s2l "I(R1)") = None.
Proof. repeat split; vm_compute; reflexivity. Qed.
