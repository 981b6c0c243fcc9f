(** Logs of LTspice: C171-C176, and C62 for the whole reader. *)
From Coq Require Import String Ascii List Bool Arith Lia.
From Verif Require Import PyStr Regex StepsModel StepsSpec StepsProofs LogModel LogSpec LogProofs LtlogModel LtlogSpec LtlogProofs LtlogLoop ColProofs QEdProofs2.
Import ListNotations.
Local Open Scope string_scope. Local Open Scope nat_scope. Local Open Scope list_scope.

Lemma opt_eqb_eq : forall a b, opt_eqb a b = true <-> a = b.
Proof. intros [a|] [b|]; cbn; try (split; [discriminate|discriminate]); try tauto. rewrite str_eqb_eq. split; [intros ->; reflexivity|intros E; injection E as ->; reflexivity]. Qed.
Lemma opt_eqb_refl : forall a, opt_eqb a a = true. Proof. intros a. apply opt_eqb_eq. reflexivity. Qed.
(** The dictionary of the analyses: for each signal its analyses, in order. *)
Definition by_signal {F N} (l : list (@fourier F N)) (d : list (option str * list (@fourier F N))) : Prop :=
  NoDup (map fst d) /\ forall k a, In (k, a) d <-> a <> [] /\ a = filter (fun f => opt_eqb (f_signal f) k) l.
Lemma fadd_keys : forall F N k (x : @fourier F N) d, map fst (fadd k x d) = if existsb (opt_eqb k) (map fst d) then map fst d else map fst d ++ [k].
Proof. induction d as [|[j l] d IH]; [reflexivity|]. cbn [fadd map fst existsb]. destruct (opt_eqb k j); [reflexivity|]. cbn [map fst orb]. rewrite IH. destruct (existsb _ _); reflexivity. Qed.
Lemma fadd_in : forall F N k (x : @fourier F N) d j l, NoDup (map fst d) -> (In (j, l) (fadd k x d) <-> (j <> k /\ In (j, l) d) \/ (j = k /\ ((exists l0, In (k, l0) d /\ l = l0 ++ [x]) \/ (~ In k (map fst d) /\ l = [x])))).
Proof.
  intros F N k x. induction d as [|[i a] d IH]; intros j l ND.
  - cbn. split; [intros [E|[]]; injection E as <- <-; right; auto|]. intros [(_ & [])|(-> & [(l0 & [] & _)|(_ & ->)])]. auto.
  - cbn [map fst] in ND. inversion ND as [|? ? NI ND']; subst. cbn [fadd]. destruct (opt_eqb k i) eqn:E.
    + apply opt_eqb_eq in E. subst i. cbn [In]. split.
      * intros [H|H]; [injection H as <- <-; right; split; [reflexivity|]; left; exists a; auto|]. left. split; [|auto]. intros ->. apply NI. apply in_map_iff. exists (k, l). auto.
      * intros [(H & [K|K])|(-> & [(l0 & [K|K] & ->)|(K & _)])]; [injection K as -> _; congruence|auto|injection K as ->; auto| |].
        -- destruct NI. apply in_map_iff. exists (k, l0). auto.
        -- destruct K. left. reflexivity.
    + assert (NE : k <> i) by (intros ->; rewrite opt_eqb_refl in E; discriminate E). cbn [In]. rewrite (IH j l ND'). split.
      * intros [H|[(A & B)|(-> & [(l0 & A & ->)|(A & ->)])]]; [injection H as <- <-; left; auto|left; auto|right; split; [reflexivity|]; left; exists l0; auto|right; split; [reflexivity|]; right; split; [|reflexivity]; cbn; intros [K|K]; [congruence|tauto]].
      * intros [(A & [B|B])|(-> & [(l0 & [A|A] & ->)|(A & ->)])]; [auto|right; left; auto|injection A as A _; congruence|right; right; split; [reflexivity|]; left; exists l0; auto|right; right; split; [reflexivity|]; right; split; [|reflexivity]; intros K; apply A; right; exact K].
Qed.
Lemma by_signal_snoc : forall F N (l : list (@fourier F N)) d x, by_signal l d -> by_signal (l ++ [x]) (fadd (f_signal x) x d).
Proof.
  intros F N l d x (ND & H). split.
  - rewrite fadd_keys. destruct (existsb (opt_eqb (f_signal x)) (map fst d)) eqn:E; [exact ND|]. apply nodup_snoc; [exact ND|]. intros I. assert (X : existsb (opt_eqb (f_signal x)) (map fst d) = true) by (apply existsb_exists; exists (f_signal x); split; [exact I|apply opt_eqb_refl]). congruence.
  - intros k a. rewrite (fadd_in _ _ (f_signal x) x d k a ND). rewrite filter_app. cbn [filter]. split.
    + intros [(NE & I)|(-> & [(l0 & I & ->)|(NI & ->)])].
      * apply H in I. destruct (opt_eqb (f_signal x) k) eqn:E; [apply opt_eqb_eq in E; congruence|]. rewrite app_nil_r. exact I.
      * rewrite opt_eqb_refl. apply H in I. destruct I as (_ & <-). split; [destruct l0; discriminate|reflexivity].
      * rewrite opt_eqb_refl. split; [discriminate|]. destruct (filter (fun f => opt_eqb (f_signal f) (f_signal x)) l) as [|y z] eqn:E; [reflexivity|]. exfalso. apply NI. apply in_map_iff. exists (f_signal x, y :: z). split; [reflexivity|]. apply H. rewrite E. split; [discriminate|reflexivity].
    + intros (NA & ->). destruct (opt_eqb (f_signal x) k) eqn:E.
      * apply opt_eqb_eq in E. subst k. right. split; [reflexivity|]. destruct (filter (fun f => opt_eqb (f_signal f) (f_signal x)) l) as [|y z] eqn:E.
        -- right. split; [|reflexivity]. intros I. apply in_map_iff in I. destruct I as ([k a] & K & I). cbn in K. subst k. apply H in I. destruct I as (NA' & ->). congruence.
        -- left. exists (y :: z). split; [|reflexivity]. apply H. rewrite E. split; [discriminate|reflexivity].
      * rewrite app_nil_r in *. left. split; [intros ->; rewrite opt_eqb_refl in E; discriminate E|]. apply H. auto.
Qed.
Lemma by_signal_all : forall F N (l : list (@fourier F N)) l0 d, by_signal l0 d -> by_signal (l0 ++ l) (fold_left (fun d f => fadd (f_signal f) f d) l d).
Proof. induction l as [|x l IH]; intros l0 d H; [rewrite app_nil_r; exact H|]. cbn [fold_left]. replace (l0 ++ x :: l) with ((l0 ++ [x]) ++ l) by (rewrite <- app_assoc; reflexivity). apply IH. apply by_signal_snoc. exact H. Qed.
Lemma by_signal_nil : forall F N, by_signal (@nil (@fourier F N)) []. Proof. intros. split; [constructor|]. cbn. intros k a. split; [intros []|]. intros (NA & ->). congruence. Qed.

Lemma cells_put : forall V (conv : str -> V) l d, NoDup (map (fun kv => lower (fst kv)) l) ->
  (forall kv, In kv l -> dget (lower (fst kv)) (fold_left (put conv) l d) = Some [conv (snd kv)]) /\ (forall k, ~ In k (map (fun kv : str * str => lower (fst kv)) l) -> dget k (fold_left (put conv) l d) = dget k d).
Proof.
  intros V conv. induction l as [|kv l IH]; intros d ND; [split; [intros ? []|reflexivity]|]. cbn [map] in ND. inversion ND as [|? ? NI ND']; subst. cbn [fold_left]. destruct (IH (put conv d kv) ND') as (A & B). split.
  - intros x [<-|I]; [|apply A; exact I]. rewrite B by exact NI. unfold put. rewrite dget_dset, str_eqb_refl. reflexivity.
  - intros k K. cbn [map In] in K. rewrite B by tauto. unfold put. rewrite dget_dset. destruct (str_eqb (lower (fst kv)) k) eqn:E; [apply str_eqb_eq in E; tauto|reflexivity].
Qed.

Section Log.
Context {V F N : Type} (conv : str -> V) (tofloat : str -> option F) (toint : str -> option N) (fl : str -> F) (it : str -> N) (is_int : str -> bool).
Definition whole (log : list item) (ts : list table) : list str := flat_map item_lines log ++ concat (map table_lines ts).
Definition no_empty (s : columns V) : Prop := Forall (fun c => snd c <> []) s.
Lemma no_empty_dget : forall s k, no_empty s -> dget k s <> Some [].
Proof. intros s k H E. apply dget_In in E. unfold no_empty in H. rewrite Forall_forall in H. apply (H _ E). reflexivity. Qed.
Lemma whole_log : forall (rm : bool) ss log ts, no_empty ss -> log_ok tofloat toint fl it (negb (length ss =? 0)) log -> Forall (table_ok is_int) ts -> NoDup (map (fun kv => lower (fst kv)) (log_cells log) ++ titles_of ts) ->
  exists r, read_ltlog conv tofloat toint rm ss is_int (whole log ts) = Some r /\
    (forall k, dget (lower k) (t_steps r) = match given k log with [] => dget (lower k) ss | vs => Some (match dget (lower k) ss with Some c => c | None => [] end ++ map conv vs) end) /\
    t_count r = length ss + length (log_steps log) /\
    (forall kv, In kv (log_cells log) -> dget (lower (fst kv)) (t_data r) = Some [conv (snd kv)]) /\
    (rm = true -> Forall (holds_table conv (t_data r)) ts) /\
    (forall k, ~ In k (map (fun kv => lower (fst kv)) (log_cells log)) -> (rm = true -> ~ In k (titles_of ts)) -> dget k (t_data r) = None) /\
    by_signal (log_analyses fl it (length ss) log) (t_fourier r).
Proof.
  intros rm ss log ts HS HL HT ND. unfold read_ltlog, whole.
  match goal with |- context [first_loop _ _ _ _ ?s] => destruct (loop_items conv tofloat toint fl it log (concat (map table_lines ts)) s) as (st & E & M & E1 & E2 & E3 & E4) end; [reflexivity|exact HL|]. cbn in E1, E2, E3, E4.
  rewrite E. assert (ER : first_loop conv tofloat toint (concat (map table_lines ts)) st = Some (st, concat (map table_lines ts))).
  { destruct ts as [|t ts]; cbn [map concat app]; cbn [first_loop]; [rewrite M; reflexivity|]. unfold table_lines at 1. cbn [app first_loop]. rewrite M. reflexivity. }
  rewrite ER. apply NoDup_app_inv in ND. destruct ND as (ND1 & ND2 & ND3).
  destruct (cells_put V conv (log_cells log) [] ND1) as (C1 & C2). rewrite <- E3 in C1, C2.
  assert (ST : forall k, dget (lower k) (l_steps st) = match given k log with [] => dget (lower k) ss | vs => Some (match dget (lower k) ss with Some c => c | None => [] end ++ map conv vs) end).
  { intros k. rewrite E1. rewrite add1_all by (apply no_empty_dget; exact HS). unfold given. rewrite <- (map_map snd conv). destruct (filter _ _); reflexivity. }
  assert (FO : by_signal (log_analyses fl it (length ss) log) (l_fourier st)) by (rewrite E4; apply (by_signal_all F N _ [] []); apply by_signal_nil).
  destruct rm.
  - destruct (read_tables_ok conv is_int ts (l_data st) HT ND2) as (d & Ed & Hh & Hk). rewrite Ed. eexists. split; [reflexivity|]. cbn [t_steps t_count t_data t_fourier].
    split; [exact ST|]. split; [exact E2|]. split; [|split; [|split; [|exact FO]]].
    + intros kv I. rewrite Hk; [apply C1; exact I|]. apply ND3. apply in_map_iff. exists kv. auto.
    + intros _. eapply Forall_impl; [|exact Hh]. intros t H j h Hj. destruct (H j h Hj) as (col & Hd & Hi). exists col. split; [exact Hd|]. clear - Hi. unfold is_col, conv_rows in Hi. revert col Hi. induction (tb_rows t) as [|r rs IH]; intros col Hi; inversion Hi; subst; constructor.
      * rewrite nth_error_map in H1. destruct (nth_error (snd r) j) as [s|]; [|discriminate]. injection H1 as <-. eauto.
      * apply IH. assumption.
    + intros k A B. rewrite Hk by (apply B; reflexivity). rewrite C2 by exact A. reflexivity.
  - eexists. split; [reflexivity|]. cbn [t_steps t_count t_data t_fourier]. split; [exact ST|]. split; [exact E2|]. split; [exact C1|]. split; [discriminate|]. split; [|exact FO]. intros k A _. rewrite C2 by exact A. reflexivity.
Qed.
End Log.

(** ** C62 for the whole reader: steps, tables *)
Theorem C62_whole_log : forall (V F N : Type) (conv : str -> V) (tofloat : str -> option F) (toint : str -> option N) fl it is_int log ts,
  log_ok tofloat toint fl it false log -> Forall (table_ok is_int) ts -> NoDup (map (fun kv => lower (fst kv)) (log_cells log) ++ titles_of ts) ->
  exists r, read_ltlog conv tofloat toint true [] is_int (whole log ts) = Some r /\ t_count r = length (log_steps log) /\
  (forall k, dget (lower k) (t_steps r) = match given k log with [] => None | vs => Some (map conv vs) end) /\
  Forall (holds_table conv (t_data r)) ts /\
  (forall k, ~ In k (map (fun kv => lower (fst kv)) (log_cells log)) -> ~ In k (titles_of ts) -> dget k (t_data r) = None).
Proof.
  intros V F N conv tofloat toint fl it is_int log ts HL HT ND. destruct (whole_log conv tofloat toint fl it is_int true [] log ts (Forall_nil _) HL HT ND) as (r & E & S & C & _ & T & O & _).
  exists r. split; [exact E|]. split; [exact C|]. split; [exact S|]. split; [apply T; reflexivity|]. intros k A B. apply O; auto.
Qed.
Print Assumptions C62_whole_log.

(** ** C171 Measurements of a simulation without steps *)
Theorem C171_measures : forall (V F N : Type) (conv : str -> V) (tofloat : str -> option F) (toint : str -> option N) fl it is_int log,
  log_ok tofloat toint fl it false log -> log_steps log = [] -> NoDup (map (fun kv => lower (fst kv)) (log_cells log)) ->
  exists r, read_ltlog conv tofloat toint true [] is_int (flat_map item_lines log) = Some r /\ t_steps r = [] /\ t_count r = 0 /\
  (forall x, In (Meas x) log -> dget (lower (e_name x)) (t_data r) = Some [conv (e_value x)] /\
     match e_tail x with
     | NoTail => True
     | Interval _ a _ b => dget (lower (e_name x ++ s2l "_FROM")) (t_data r) = Some [conv a] /\ dget (lower (e_name x ++ s2l "_TO")) (t_data r) = Some [conv b]
     | Point _ a => dget (lower (e_name x ++ s2l "_at")) (t_data r) = Some [conv a]
     end) /\
  (forall k, ~ In k (map (fun kv => lower (fst kv)) (log_cells log)) -> dget k (t_data r) = None).
Proof.
  intros V F N conv tofloat toint fl it is_int log HL HS ND.
  assert (ND' : NoDup (map (fun kv => lower (fst kv)) (log_cells log) ++ titles_of [])) by (rewrite app_nil_r; exact ND).
  destruct (whole_log conv tofloat toint fl it is_int true [] log [] (Forall_nil _) HL (Forall_nil _) ND') as (r & E & S & C & D & _ & O & _).
  exists r. unfold whole in E. cbn [map concat] in E. rewrite app_nil_r in E. split; [exact E|]. split; [|split; [rewrite C, HS; reflexivity|split]].
  - unfold read_ltlog in E. match type of E with context [first_loop _ _ _ _ ?s] => destruct (loop_items conv tofloat toint fl it log [] s) as (st & E0 & M & E1 & _) end; [reflexivity|exact HL|]. rewrite app_nil_r in E0. cbn in E1. rewrite HS in E1. cbn in E1. rewrite E0 in E. cbn [first_loop] in E. rewrite M in E. cbn in E. injection E as <-. exact E1.
  - intros x I. assert (IC : forall kv, In kv (measure_cells x) -> dget (lower (fst kv)) (t_data r) = Some [conv (snd kv)]) by (intros kv K; apply D; apply in_flat_map; exists (Meas x); auto).
    unfold measure_cells in IC. split; [exact (IC (e_name x, e_value x) (or_introl eq_refl))|]. destruct (e_tail x) as [|f a w b|w a]; [constructor| |].
    + split; [exact (IC (e_name x ++ s2l "_FROM", a) (or_intror (or_introl eq_refl)))|exact (IC (e_name x ++ s2l "_TO", b) (or_intror (or_intror (or_introl eq_refl))))].
    + exact (IC (e_name x ++ s2l "_at", a) (or_intror (or_introl eq_refl))).
  - intros k K. apply O; [exact K|]. intros _ [].
Qed.
Print Assumptions C171_measures.

Definition ex_float (s : str) : option str := if existsb is_digit s then Some s else None.
Definition ex_id (s : str) : str := s.
Definition ex_measures : list item :=
  [Text (s2l "Circuit: * test" ++ [NLC]); Text [NLC];
   Meas (Measure (s2l "vout_rms") (Some (s2l " ", s2l "RMS(v(out))")) (s2l "1.41109") (Interval (s2l "FROM") (s2l "0") (s2l "TO") (s2l "0.001")));
   Meas (Measure (s2l "fcut") (Some (s2l " ", s2l "v(vout)=vmax/sqrt(2)")) (s2l "(-3.01dB,-45" ++ ["176"%char] ++ s2l ")") (Point (s2l "AT") (s2l "252.921")));
   Meas (Measure (s2l "Gain") None (s2l "8.18e+006") NoTail); Text (s2l "Total elapsed time: 0.1 seconds." ++ [NLC])].
Lemma all_of_dec : forall f s, negb (str_eqb s []) && forallb f s = true -> all_of f s.
Proof. intros f s H. apply andb_true_iff in H. destruct H as (A & B). split; [|exact B]. intros ->. discriminate A. Qed.
Ltac dec_in := apply mem_c_not_In; reflexivity.
Ltac dec_word := split; [discriminate|repeat constructor].
Ltac dec_blank := split; [repeat constructor|split; dec_in].
Ltac keys := repeat apply Forall_cons; try apply Forall_nil; reflexivity.
Example C171_nonvacuous : log_ok ex_float ex_float ex_id ex_id false ex_measures /\ log_steps ex_measures = [] /\ NoDup (map (fun kv => lower (fst kv)) (log_cells ex_measures)) /\
  map l2s (flat_map item_lines ex_measures) = map (fun s => l2s (s2l s ++ [NLC])) ["Circuit: * test"; ""; "vout_rms: RMS(v(out))=1.41109 FROM 0 TO 0.001"; "fcut: v(vout)=vmax/sqrt(2)=(-3.01dB,-45" ++ String "176" ")" ++ " AT 252.921"; "Gain=8.18e+006"; "Total elapsed time: 0.1 seconds."]%string /\
  option_map (fun r => map (fun c => (l2s (fst c), snd c)) (t_data r)) (read_ltlog l2s ex_float ex_float true [] (fun _ => false) (flat_map item_lines ex_measures)) =
   Some [("vout_rms", ["1.41109"]); ("vout_rms_from", ["0"]); ("vout_rms_to", ["0.001"]); ("fcut", ["(-3.01dB,-45" ++ String "176" ")"]%string); ("fcut_at", ["252.921"]); ("gain", ["8.18e+006"])].
Proof.
  split; [|split; [reflexivity|split; [|split; vm_compute; reflexivity]]].
  - cbn [log_ok ex_measures]. split; [keys|]. split; [right; dec_in|]. split; [keys|]. split; [right; dec_in|].
    split; [reflexivity|]. split. { split; [apply all_of_dec; reflexivity|]. split; [reflexivity|]. split; [split; [discriminate|]; split; [apply all_of_dec; reflexivity|]; split; [dec_in|]; split; [dec_in|]; reflexivity|]. split; [apply all_of_dec; reflexivity|]. split; [reflexivity|]. split; [apply all_of_dec; reflexivity|]. split; [reflexivity|]. apply all_of_dec; reflexivity. }
    split; [reflexivity|]. split. { split; [apply all_of_dec; reflexivity|]. split; [reflexivity|]. split; [split; [discriminate|]; split; [apply all_of_dec; reflexivity|]; split; [dec_in|]; split; [dec_in|]; reflexivity|]. split; [apply all_of_dec; reflexivity|]. split; [reflexivity|]. apply all_of_dec; reflexivity. }
    split; [reflexivity|]. split. { split; [apply all_of_dec; reflexivity|]. split; [reflexivity|]. split; [exact I|]. split; [apply all_of_dec; reflexivity|]. exact I. }
    split; [keys|]. split; [right; dec_in|]. exact I.
  - vm_compute. repeat constructor; cbn; intuition discriminate.
Qed.

(** ** C172 Fourier analyses *)
(** For each signal the analyses of the log, in their order, each with the number of its step (from 0; None without steps). *)
Theorem C172_analyses : forall (V F N : Type) (conv : str -> V) (tofloat : str -> option F) (toint : str -> option N) fl it is_int log ts,
  log_ok tofloat toint fl it false log -> Forall (table_ok is_int) ts -> NoDup (map (fun kv => lower (fst kv)) (log_cells log) ++ titles_of ts) ->
  exists r, read_ltlog conv tofloat toint true [] is_int (whole log ts) = Some r /\
    NoDup (map fst (t_fourier r)) /\
    forall signal a, In (signal, a) (t_fourier r) <-> a <> [] /\ a = filter (fun f => opt_eqb (f_signal f) signal) (log_analyses fl it 0 log).
Proof.
  intros V F N conv tofloat toint fl it is_int log ts HL HT ND. destruct (whole_log conv tofloat toint fl it is_int true [] log ts (Forall_nil _) HL HT ND) as (r & E & _ & _ & _ & _ & _ & B). exists r. split; [exact E|]. exact B.
Qed.
Print Assumptions C172_analyses.
Definition ex_row (n f : string) : hrow := HRow (s2l "   ", s2l "   ", s2l " ", s2l " ", s2l "  ", s2l " ") (s2l n) (s2l f) (s2l "1.0e+0") (s2l "1.0") (s2l "-90.0") (s2l "0.0") (s2l " ").
Definition ex_block (sig : string) : block :=
  Block (s2l "all") (s2l sig) (s2l "-0.5") [[NLC]] (s2l "	Frequency" ++ [NLC]) (s2l " Number" ++ [NLC]) [ex_row "1" "1.0e+3"; ex_row "2" "2.0e+3"]
    (Some (Pct (s2l " ") (s2l "0") (s2l "123") (s2l "%"))) (Some (Pct (s2l "   ") (s2l "10") (s2l "5") (s2l "%(0.2%)"))).
Definition ex_log : list item := [Step [(s2l "r", s2l "1")]; Analysis (ex_block "V(a)"); Analysis (ex_block "V(b)"); Text (s2l "x=1" ++ [NLC]); Step [(s2l "R", s2l "2")]; Analysis (ex_block "V(a)")].
Definition ex_table : table := LogSpec.Table (s2l "m") (s2l "step", s2l "MAX(v)") [s2l "FROM"; s2l "TO"] [(s2l "1", [s2l "5"; s2l "0"; s2l "1"]); (s2l "2", [s2l "6"; s2l "0"; s2l "1"])].
Lemma ex_block_ok : forall sig, word (s2l sig) -> block_ok ex_float ex_float ex_id ex_id (ex_block sig).
Proof.
  assert (NB : forall s, forallb (fun c => negb (is_space c)) s = true -> s <> [] -> existsb is_digit s = true -> number ex_float ex_id s).
  { intros s A B C. split; [split; [exact B|]; apply Forall_forall; intros c I; rewrite forallb_forall in A; apply negb_true_iff; exact (A c I)|]. unfold ex_float. rewrite C. reflexivity. }
  assert (RO : forall n f, (n = "1" \/ n = "2")%string -> (f = "1.0e+3" \/ f = "2.0e+3")%string -> hrow_ok ex_float ex_float ex_id ex_id (ex_row n f)).
  { intros n f Hn Hf. cbn. split; [dec_blank|]. split; [repeat (apply Forall_cons; [split; [discriminate|dec_blank]|]); apply Forall_nil|]. split; [dec_blank|]. split; [destruct Hn as [-> | ->]; dec_word|]. split; [destruct Hn as [-> | ->]; reflexivity|].
    split; [destruct Hf as [-> | ->]; repeat (apply Forall_cons; [apply NB; [reflexivity|discriminate|reflexivity]|]); apply Forall_nil|]. split; [|destruct Hn as [-> | ->]; split; discriminate].
    assert (EN : forall s u, hd_error (rev s) <> Some "176"%char -> s <> u ++ ["176"%char]) by (intros s u H ->; rewrite rev_app_distr in H; apply H; reflexivity).
    repeat (apply Forall_cons; [intros u; apply EN; discriminate|]). apply Forall_nil. }
  intros sig W. unfold block_ok. cbn [ex_block b_periods b_signal b_dc b_empty b_rows b_phd b_thd]. split; [left; reflexivity|]. split; [dec_in|]. split; [exact W|]. split; [apply NB; [reflexivity|discriminate|reflexivity]|]. split; [dec_in|].
  split; [repeat constructor|]. split; [repeat (apply Forall_cons; [apply RO; auto|]); apply Forall_nil|].
  split; (split; [repeat constructor|]; split; [apply all_of_dec; reflexivity|]; split; [apply all_of_dec; reflexivity|]; split; [reflexivity|]; split; [dec_in|]; split; [dec_in|]; reflexivity).
Qed.
Lemma ex_log_ok : log_ok ex_float ex_float ex_id ex_id false ex_log /\ Forall (table_ok (forallb is_digit)) [ex_table] /\ NoDup (map (fun kv => lower (fst kv)) (log_cells ex_log) ++ titles_of [ex_table]).
Proof.
  assert (PL : forall s, forallb (fun c => negb (aeqb c " ") && negb (aeqb c "=")) s = true -> plain s) by (intros s H c C; rewrite forallb_forall in H; specialize (H c C); apply andb_true_iff in H; destruct H as (A & B); apply negb_true_iff in A, B; apply aeqb_neq in A, B; auto).
  assert (CE : forall s, forallb (fun c => negb (aeqb c TABC) && negb (aeqb c NLC) && negb (aeqb c "013")) s = true -> cell s).
  { intros s H. split; [|split]; intros C; rewrite forallb_forall in H; specialize (H _ C); discriminate H. }
  split; [|split].
  - cbn [log_ok ex_log]. split; [discriminate|]. split; [apply Forall_cons; [|apply Forall_nil]; split; [apply PL; reflexivity|]; split; [apply PL; reflexivity|]; split; apply CE; reflexivity|].
    split; [apply ex_block_ok; dec_word|]. split; [apply ex_block_ok; dec_word|]. split; [keys|]. split; [left; reflexivity|].
    split; [discriminate|]. split; [apply Forall_cons; [|apply Forall_nil]; split; [apply PL; reflexivity|]; split; [apply PL; reflexivity|]; split; apply CE; reflexivity|].
    split; [apply ex_block_ok; dec_word|]. exact I.
  - apply Forall_cons; [|apply Forall_nil]. split; [discriminate|]. split; [apply CE; reflexivity|]. split; [apply CE; reflexivity|]. split; [apply CE; reflexivity|]. split; [repeat (apply Forall_cons; [apply CE; reflexivity|]); apply Forall_nil|]. split; [reflexivity|]. split; [reflexivity|]. split; [discriminate|].
    repeat (apply Forall_cons; [split; [reflexivity|]; split; [apply CE; reflexivity|]; split; [repeat (apply Forall_cons; [apply CE; reflexivity|]); apply Forall_nil|]; split; reflexivity|]). apply Forall_nil.
  - vm_compute. repeat constructor; cbn; intuition discriminate.
Qed.
Example C172_nonvacuous : log_ok ex_float ex_float ex_id ex_id false ex_log /\ Forall (table_ok (forallb is_digit)) [ex_table] /\ NoDup (map (fun kv => lower (fst kv)) (log_cells ex_log) ++ titles_of [ex_table]) /\
  option_map (fun r => map (fun e => (option_map l2s (fst e), map (fun f => (f_step f, option_map l2s (f_dc f), option_map l2s (f_phd f), option_map l2s (f_thd f), map (fun h => (l2s (h_number h), l2s (h_frequency h), l2s (h_phase h))) (f_harmonics f))) (snd e))) (t_fourier r)) (read_ltlog l2s ex_float ex_float true [] (forallb is_digit) (whole ex_log [ex_table])) =
  let hs := [("1", "1.0e+3", "-90.0"); ("2", "2.0e+3", "-90.0")] in
  Some [(Some "V(a)", [(Some 0, Some "-0.5", Some "0.123", Some "10.5", hs); (Some 1, Some "-0.5", Some "0.123", Some "10.5", hs)]); (Some "V(b)", [(Some 0, Some "-0.5", Some "0.123", Some "10.5", hs)])].
Proof. destruct ex_log_ok as (A & B & C). split; [exact A|]. split; [exact B|]. split; [exact C|]. vm_compute. reflexivity. Qed.
Example C62_whole_nonvacuous : option_map (fun r => (t_count r, map (fun c => (l2s (fst c), snd c)) (t_steps r), map (fun c => (l2s (fst c), snd c)) (t_data r))) (read_ltlog l2s ex_float ex_float true [] (forallb is_digit) (whole ex_log [ex_table])) =
  Some (2, [("r", ["1"; "2"])], [("m", ["5"; "6"]); ("m_from", ["0"; "0"]); ("m_to", ["1"; "1"])]).
Proof. vm_compute. reflexivity. Qed.

(** ** C173 Steps from another file *)
Theorem C173_mout : forall (V F N : Type) (conv : str -> V) (tofloat : str -> option F) (toint : str -> option N) fl it is_int ss log ts,
  ss <> [] -> Forall (fun c => snd c <> []) ss -> log_ok tofloat toint fl it true log -> log_steps log = [] -> Forall (table_ok is_int) ts -> NoDup (titles_of ts) ->
  exists r, read_ltlog conv tofloat toint true ss is_int (whole log ts) = Some r /\ (forall k, dget (lower k) (t_steps r) = dget (lower k) ss) /\ Forall (holds_table conv (t_data r)) ts.
Proof.
  intros V F N conv tofloat toint fl it is_int ss log ts NS HS HL HN HT ND.
  assert (B : negb (length ss =? 0) = true) by (destruct ss; [congruence|reflexivity]).
  assert (NC : log_cells log = []). { clear - HL. induction log as [|[x|b|l|l] log IH]; [reflexivity| | | |]; cbn in HL; unfold log_cells; cbn [flat_map app]; fold (log_cells log); try (apply IH; tauto). destruct HL as (HL & _). discriminate HL. }
  assert (ND' : NoDup (map (fun kv => lower (fst kv)) (log_cells log) ++ titles_of ts)) by (rewrite NC; exact ND).
  destruct (whole_log conv tofloat toint fl it is_int true ss log ts HS) as (r & E & S & _ & _ & T & _ & _); [rewrite B; exact HL|exact HT|exact ND'|]. exists r. split; [exact E|]. split; [|apply T; reflexivity].
  intros k. rewrite S. unfold given. rewrite HN. reflexivity.
Qed.
Print Assumptions C173_mout.
Example C173_nonvacuous : option_map (fun r => (t_count r, t_steps r, map (fun c => (l2s (fst c), snd c)) (t_data r))) (read_ltlog l2s ex_float ex_float true [(s2l "r", ["1"; "2"])] (forallb is_digit) (whole [Text (s2l "a=1" ++ [NLC])] [ex_table])) =
  Some (1, [(s2l "r", ["1"; "2"])], [("m", ["5"; "6"]); ("m_from", ["0"; "0"]); ("m_to", ["1"; "1"])]).
Proof. vm_compute. reflexivity. Qed.
(** But the number of steps is the number of step variables. *)
Theorem C173_count_refuted : forall (V F N : Type) (conv : str -> V) (tofloat : str -> option F) (toint : str -> option N) is_int (name : str) (values : list V) ts,
  values <> [] -> Forall (table_ok is_int) ts -> NoDup (titles_of ts) ->
  exists r, read_ltlog conv tofloat toint true [(name, values)] is_int (whole [] ts) = Some r /\ t_count r = 1.
Proof.
  intros V F N conv tofloat toint is_int name values ts NV HT ND. unfold read_ltlog, whole. cbn [flat_map app length].
  assert (ER : forall st : @lstate V F N, l_mode st = Main -> first_loop conv tofloat toint (concat (map table_lines ts)) st = Some (st, concat (map table_lines ts))).
  { intros st M. destruct ts as [|t ts]; cbn [map concat app]; cbn [first_loop]; [rewrite M; reflexivity|]. unfold table_lines at 1. cbn [app first_loop]. rewrite M. reflexivity. }
  rewrite ER by reflexivity. cbn [l_data]. destruct (read_tables_ok conv is_int ts [] HT ND) as (d & Ed & _). rewrite Ed. eexists. split; reflexivity.
Qed.
Print Assumptions C173_count_refuted.

(** ** C174 Lines that are no measurements *)
(** A line of any word, a colon and a text with "=" and a value in it is taken for a measurement: here the line with the name of the circuit. *)
Theorem C174_circuit_refuted : forall (V F N : Type) (conv : str -> V) (tofloat : str -> option F) (toint : str -> option N) is_int path value,
  ~ In NLC path -> match path with c :: _ => is_space c = false | [] => True end -> all_of value_like value ->
  exists r, read_ltlog conv tofloat toint true [] is_int [s2l "Circuit: " ++ path ++ s2l "=" ++ value ++ [NLC]] = Some r /\ t_data r = [(s2l "circuit", [conv value])].
Proof.
  intros V F N conv tofloat toint is_int path value HP HH HV.
  set (x := Measure (s2l "Circuit") (Some (s2l " ", path)) value NoTail).
  assert (OK : measure_ok x). { split; [apply all_of_dec; reflexivity|]. split; [reflexivity|]. split; [split; [discriminate|]; split; [apply all_of_dec; reflexivity|]; split; [dec_in|]; split; [exact HP|exact HH]|]. split; [exact HV|exact I]. }
  assert (T : s2l "Circuit: " ++ path ++ s2l "=" ++ value ++ [NLC] = measure_text x) by reflexivity. rewrite T.
  unfold read_ltlog. set (s0 := LState Main None NoPeriods None [] (length (@nil (str * list V))) [] 0 []).
  destruct (text_line conv tofloat (measure_text x) s0 (measure_keys x OK) eq_refl) as (A & B). rewrite (loop_main conv tofloat toint _ _ s0 _ eq_refl B A). rewrite (measure_effect conv x s0 eq_refl OK). eexists. split; reflexivity.
Qed.
Print Assumptions C174_circuit_refuted.
Example C174_nonvacuous : option_map (fun r => t_data r) (read_ltlog l2s ex_float ex_float true [] (forallb is_digit) (map (fun s => s2l s ++ [NLC]) ["Circuit: * C:\sim\gain=10.asc"; "WARNING: node tol=1 floating"])) = Some [(s2l "circuit", ["10.asc"]); (s2l "warning", ["1"])].
Proof. vm_compute. reflexivity. Qed.

(** ** C175 Measurements whose name begins with "Harmonic" *)
(** Such a measurement is taken for the title of a table of harmonics: the measurement and the one in the next line are lost, and there is an analysis of no signal. *)
Theorem C175_harmonic_refuted : forall (V F N : Type) (conv : str -> V) (tofloat : str -> option F) (toint : str -> option N) is_int rest next,
  exists r, read_ltlog conv tofloat toint true [] is_int [s2l "Harmonic" ++ rest; next] = Some r /\ t_data r = [] /\ t_fourier r = [(None, [Fourier None NoPeriods None None None [] None])].
Proof.
  intros V F N conv tofloat toint is_int rest next. unfold read_ltlog. set (s0 := LState Main None NoPeriods None [] (length (@nil (str * list V))) [] 0 []).
  assert (A : main_line conv tofloat (s2l "Harmonic" ++ rest) s0 = Some (set_mode Skip s0)) by (unfold main_line; change (s2l "Harmonic" ++ rest) with ("H"%char :: s2l "armonic" ++ rest) at 1; rewrite nonblank by reflexivity; reflexivity).
  rewrite (loop_main conv tofloat toint _ _ s0 _ eq_refl (eq_refl : startswith (s2l "Measurement:") (s2l "Harmonic" ++ rest) = false) A). eexists. split; [reflexivity|]. split; reflexivity.
Qed.
Print Assumptions C175_harmonic_refuted.
Example C175_nonvacuous : read_ltlog l2s ex_float ex_float true [] (forallb is_digit) (map (fun s => s2l s ++ [NLC]) ["Harmonic3: MAX(v(out))=0.1 FROM 0 TO 1"; "gain: a/b=2"; "x: MAX(v)=1"]) = None.
Proof. vm_compute. reflexivity. Qed.

(** ** C176 Reading without measurements *)
(** With steps the measurements are left out; without steps they are read all the same. *)
Theorem C176_not_read : forall (V F N : Type) (conv : str -> V) (tofloat : str -> option F) (toint : str -> option N) fl it is_int log ts,
  log_ok tofloat toint fl it false log -> log_cells log = [] -> Forall (table_ok is_int) ts -> NoDup (titles_of ts) ->
  exists r, read_ltlog conv tofloat toint false [] is_int (whole log ts) = Some r /\ (forall k, dget k (t_data r) = None) /\ t_count r = length (log_steps log) /\
    forall k, dget (lower k) (t_steps r) = match given k log with [] => None | vs => Some (map conv vs) end.
Proof.
  intros V F N conv tofloat toint fl it is_int log ts HL NC HT ND.
  assert (ND' : NoDup (map (fun kv => lower (fst kv)) (log_cells log) ++ titles_of ts)) by (rewrite NC; exact ND).
  destruct (whole_log conv tofloat toint fl it is_int false [] log ts (Forall_nil _) HL HT ND') as (r & E & S & C & _ & _ & O & _). exists r. split; [exact E|]. split; [|split; [exact C|exact S]]. intros k. apply O; [rewrite NC; intros []|discriminate].
Qed.
Print Assumptions C176_not_read.
Example C176_nonvacuous : log_cells ex_log = [] /\ option_map (fun r => (t_count r, t_data r)) (read_ltlog l2s ex_float ex_float false [] (forallb is_digit) (whole ex_log [ex_table])) = Some (2, []).
Proof. split; vm_compute; reflexivity. Qed.
Theorem C176_unstepped_refuted : forall (V F N : Type) (conv : str -> V) (tofloat : str -> option F) (toint : str -> option N) fl it is_int log,
  log_ok tofloat toint fl it false log -> read_ltlog conv tofloat toint false [] is_int (flat_map item_lines log) = read_ltlog conv tofloat toint true [] is_int (flat_map item_lines log).
Proof.
  intros V F N conv tofloat toint fl it is_int log HL. unfold read_ltlog. match goal with |- context [first_loop _ _ _ _ ?s] => destruct (loop_items conv tofloat toint fl it log [] s) as (st & E0 & M & _) end; [reflexivity|exact HL|]. rewrite app_nil_r in E0. rewrite E0. cbn [first_loop]. rewrite M. reflexivity.
Qed.
Print Assumptions C176_unstepped_refuted.
Example C176_unstepped_nonvacuous : option_map (fun r => length (t_data r)) (read_ltlog l2s ex_float ex_float false [] (forallb is_digit) (flat_map item_lines ex_measures)) = Some 6.
Proof. vm_compute. reflexivity. Qed.
