(** Proofs about the export of Fourier analyses. *)
From Coq Require Import String Ascii List Bool Arith Lia.
From Verif Require Import PyStr Regex StepsModel LogModel CompModel LtlogModel ExpSpec ExpModel FourModel FourSpec.
Import ListNotations.
Local Open Scope string_scope. Local Open Scope nat_scope. Local Open Scope list_scope.

Lemma tabbed_sep : forall l, tabbed l = sep_by HT l.
Proof. unfold tabbed. induction l as [|x l IH]; [reflexivity|]. destruct l as [|y l]; [reflexivity|]. change (join TB (x :: y :: l)) with (x ++ TB ++ join TB (y :: l)). rewrite IH. reflexivity. Qed.
Lemma sep_app : forall a b, a <> [] -> b <> [] -> sep_by HT (a ++ b) = sep_by HT a ++ HT :: sep_by HT b.
Proof.
  intros a b N NB. destruct a as [|x a]; [contradiction|]. clear N. revert x. induction a as [|y a IH]; intros x; [destruct b; [contradiction|reflexivity]|].
  change (sep_by HT ((x :: y :: a) ++ b)) with (x ++ HT :: sep_by HT ((y :: a) ++ b)). rewrite IH. change (sep_by HT (x :: y :: a)) with (x ++ HT :: sep_by HT (y :: a)). rewrite <- app_assoc. reflexivity.
Qed.
Lemma line_app : forall a b, a <> [] -> b <> [] -> line (a ++ b) = tabbed a ++ TB ++ line b.
Proof. intros a b N M. unfold line. rewrite sep_app, tabbed_sep by assumption. rewrite <- app_assoc. reflexivity. Qed.

Section Export.
Context {V F N : Type} (showv : V -> str) (showf : F -> str) (shown : N -> str) (below1 minus1 : F -> bool).
Notation fourier := (@fourier F N).
Notation ltlog := (@ltlog V F N).
Notation summary := (summary_fields showf).
Notation vals := (values_of showv).

Definition has_harmonics (log : ltlog) : Prop := forall e, In e (entries log) -> f_harmonics (snd e) <> [].
Definition periods_ok (log : ltlog) : Prop :=
  forall e, In e (entries log) -> match f_periods (snd e) with Periods f => below1 f = false /\ minus1 f = false | NoPeriods => False | AllPeriods => True end.

Lemma cat_some : forall (A : Type) (f : A -> option str) (g : A -> str) l, (forall x, In x l -> f x = Some (g x)) -> cat_opts (map f l) = Some (concat (map g l)).
Proof. intros A f g l H. induction l as [|x l IH]; [reflexivity|]. cbn [map cat_opts concat]. rewrite (H x (or_introl eq_refl)), IH by (intros y I; apply H; right; exact I). reflexivity. Qed.
Lemma row_ok' : forall s p t (a : fourier), f_harmonics a <> [] -> p = shown_periods showf "all" (f_periods a) -> t = summary (s, a) -> summary_row showf s p a = Some (line t).
Proof.
  intros s p t a NH -> ->. unfold summary_row. destruct (f_harmonics a) as [|h hs] eqn:E; [contradiction|]. f_equal. unfold line, summary_fields. cbn [fst snd]. rewrite E. cbn [hd_error option_map or_text].
  cbn [sep_by]. assert (O1 : or_text "None" s = show_signal s) by (destruct s; reflexivity). assert (O2 : or_text "0" (option_map showf (f_dc a)) = show_dc showf (f_dc a)) by (destruct (f_dc a); reflexivity).
  assert (O3 : forall x, or_text "None" (option_map showf x) = show_opt showf x) by (intros [x|]; reflexivity). rewrite O1, O2, !O3. unfold TB, NL1, HT, LFc. repeat (rewrite <- app_assoc; cbn [app]). reflexivity.
Qed.
Lemma step_values_ok : forall (steps : columns V) n, Forall (fun c => n < length (snd c)) steps ->
  step_values showv steps n = Some (map (fun c => match nth_error (snd c) n with Some v => showv v | None => [] end) steps).
Proof.
  intros steps n H. induction H as [|[k l] steps L H IH]; [reflexivity|]. cbn [step_values map snd] in *. rewrite IH. destruct (nth_error l n) eqn:E; [reflexivity|]. apply nth_error_None in E. lia.
Qed.

(** ** The analyses step by step are all the analyses *)
Lemma in_order_ge : forall count k (l : list fourier), in_order count k l -> Forall (fun a => exists n, f_step a = Some n /\ k <= n < count) l.
Proof. intros count k l H. induction H as [|k n a l E L M H IH]; [constructor|]. constructor; [exists n; split; [exact E|lia]|]. eapply Forall_impl; [|exact IH]. intros b (m & B & C). exists m. split; [exact B|lia]. Qed.
Lemma order_split : forall count k (l : list fourier), in_order count k l -> exists l1 l2, l = l1 ++ l2 /\ Forall (fun a => f_step a = Some k) l1 /\ in_order count (S k) l2.
Proof.
  intros count k l H. induction H as [k|k n a l E L M H IH]; [exists [], []; repeat constructor|]. destruct (Nat.eq_dec n k) as [-> | NE].
  - destruct IH as (l1 & l2 & -> & A & B). exists (a :: l1), l2. repeat constructor; assumption.
  - exists [], (a :: l). repeat constructor. econstructor; [exact E|lia|exact M|exact H].
Qed.
Lemma by_step : forall (g : fourier -> str) count n k (l : list fourier), in_order count k l -> count = k + n ->
  concat (map (fun s => concat (map (fun a => if at_step a s then g a else []) l)) (seq k n)) = concat (map g l).
Proof.
  intros g count n. induction n as [|n IH]; intros k l H E.
  - inversion H; [reflexivity|lia].
  - cbn [seq map concat]. destruct (order_split count k l H) as (l1 & l2 & -> & A & B).
    assert (P1 : forall s, concat (map (fun a => if at_step a s then g a else []) l1) = if k =? s then concat (map g l1) else []).
    { clear - A. intros s. induction A as [|a l1 E A IH]; [destruct (k =? s); reflexivity|]. cbn [map concat]. rewrite IH. unfold at_step at 1. rewrite E. destruct (k =? s); reflexivity. }
    assert (P2 : concat (map (fun a => if at_step a k then g a else []) l2) = []).
    { apply in_order_ge in B. clear - B. induction B as [|a l2 (m & E & L) B IH]; [reflexivity|]. cbn [map concat]. rewrite IH. unfold at_step. rewrite E. destruct (Nat.eqb_spec m k); [lia|reflexivity]. }
    rewrite !map_app, !concat_app. rewrite P1, P2, Nat.eqb_refl, app_nil_r. f_equal. rewrite <- (IH (S k) l2 B) by lia. f_equal. apply map_ext_in. intros s I. apply in_seq in I.
    rewrite map_app, concat_app, P1. destruct (Nat.eqb_spec k s); [lia|reflexivity].
Qed.

Lemma entries_concat : forall (g : option str * fourier -> str) (d : list (option str * list fourier)),
  concat (map (fun e => concat (map (fun a => g (fst e, a)) (snd e))) d) = concat (map g (flat_map (fun e => map (fun a => (fst e, a)) (snd e)) d)).
Proof. intros g d. induction d as [|e d IH]; [reflexivity|]. cbn [map concat flat_map]. rewrite map_app, concat_app, IH, map_map. reflexivity. Qed.
Lemma in_entries : forall (log : ltlog) e a, In e (t_fourier log) -> In a (snd e) -> In (fst e, a) (entries log).
Proof. intros log e a E A. unfold entries. apply in_flat_map. exists e. split; [exact E|]. apply (in_map (fun b => (fst e, b))). exact A. Qed.

Lemma summary_ok : forall (log : ltlog), stepped_ok log -> has_harmonics log -> periods_ok log ->
  cat_opts (map (summary_signal showv showf below1 minus1 (t_steps log) (t_count log)) (t_fourier log)) = Some (concat (map (fun e => line (vals log (snd e) ++ summary e)) (entries log))).
Proof.
  intros log SO HH PO. rewrite (cat_some _ _ (fun e => concat (map (fun a => line (vals log a ++ summary (fst e, a))) (snd e)))).
  { f_equal. exact (entries_concat (fun e => line (vals log (snd e) ++ summary e)) (t_fourier log)). }
  intros e E. unfold summary_signal. destruct (t_count log) as [|n] eqn:C.
  - apply cat_some. intros a A. pose proof (in_entries log e a E A) as I. apply row_ok'; [exact (HH _ I)| |unfold values_of; rewrite C; reflexivity].
    specialize (PO _ I). cbn [snd] in PO. unfold periods_plain, shown_periods. destruct (f_periods a) as [|f|]; [reflexivity| |reflexivity]. rewrite (proj2 PO). reflexivity.
  - destruct SO as (NS & LEN & ORD); [lia|]. rewrite Forall_forall in ORD. specialize (ORD e E). rewrite C in *.
    rewrite (cat_some _ _ (fun s => concat (map (fun a => if at_step a s then line (vals log a ++ summary (fst e, a)) else []) (snd e)))).
    { f_equal. apply (by_step (fun a => line (vals log a ++ summary (fst e, a))) (S n)); [exact ORD|reflexivity]. }
    intros s S. apply in_seq in S. rewrite step_values_ok by (eapply Forall_impl; [|exact LEN]; cbn; intros; lia). apply cat_some. intros a A. unfold at_step.
    destruct (f_step a) as [k|] eqn:K; [|reflexivity]. destruct (Nat.eqb_spec k s) as [-> | ]; [|reflexivity]. pose proof (in_entries log e a E A) as I.
    rewrite (row_ok' (fst e) _ (summary (fst e, a))); [|exact (HH _ I)| |reflexivity].
    + cbn [option_map]. f_equal. unfold values_of. rewrite C, K. rewrite line_app; [reflexivity|destruct (t_steps log); [contradiction|discriminate]|discriminate].
    + specialize (PO _ I). cbn [snd] in PO. unfold periods_stepped, shown_periods. destruct (f_periods a) as [|f|]; [reflexivity| |destruct PO]. rewrite (proj1 PO). reflexivity.
Qed.
Lemma hrow_ok : forall s (a : fourier) h, harmonic_row showf shown s a h = line (harmonic_fields showf shown (s, a) h).
Proof.
  intros s a h. unfold harmonic_row, line, harmonic_fields. cbn [fst snd sep_by]. assert (O1 : or_text "None" s = show_signal s) by (destruct s; reflexivity). rewrite O1.
  assert (O2 : periods_raw showf (f_periods a) = shown_periods showf "-1" (f_periods a)) by (destruct (f_periods a); reflexivity). rewrite O2. unfold TB, NL1, HT, LFc. repeat (rewrite <- app_assoc; cbn [app]). reflexivity.
Qed.
Lemma one_step : forall (g : nat -> option str) count k x, k < count -> g k = Some x -> (forall s, s <> k -> g s = Some []) -> cat_opts (map g (seq 0 count)) = Some x.
Proof.
  intros g count k x L G Z.
  assert (P : forall n a, (k < a \/ a + n <= k -> cat_opts (map g (seq a n)) = Some []) /\ (a <= k < a + n -> cat_opts (map g (seq a n)) = Some x)); [|apply P; lia].
  induction n as [|n IH]; intros a; split; intros H; [reflexivity|lia| |]; cbn [seq map cat_opts]; destruct (IH (S a)) as (I1 & I2).
  - rewrite Z by lia. rewrite I1 by lia. reflexivity.
  - destruct (Nat.eq_dec a k) as [-> | NE]; [rewrite G, I1 by lia; rewrite app_nil_r; reflexivity|]. rewrite Z by exact NE. rewrite I2 by lia. reflexivity.
Qed.
Lemma harmonics_ok : forall (log : ltlog), stepped_ok log ->
  cat_opts (map (harmonic_signal showv showf shown (t_steps log) (t_count log)) (t_fourier log))
  = Some (concat (map (fun e => concat (map (fun h => line (vals log (snd e) ++ harmonic_fields showf shown e h)) (f_harmonics (snd e)))) (entries log))).
Proof.
  intros log SO. rewrite (cat_some _ _ (fun e => concat (map (fun a => concat (map (fun h => line (vals log a ++ harmonic_fields showf shown (fst e, a) h)) (f_harmonics a))) (snd e)))).
  { f_equal. exact (entries_concat (fun e => concat (map (fun h => line (vals log (snd e) ++ harmonic_fields showf shown e h)) (f_harmonics (snd e)))) (t_fourier log)). }
  intros e E. unfold harmonic_signal. apply cat_some. intros a A. destruct (t_count log) as [|n] eqn:C.
  - f_equal. f_equal. apply map_ext. intros h. rewrite hrow_ok. unfold values_of. rewrite C. reflexivity.
  - destruct SO as (NS & LEN & ORD); [lia|]. rewrite Forall_forall in ORD. specialize (ORD e E). rewrite C in *. apply in_order_ge in ORD. rewrite Forall_forall in ORD. destruct (ORD a A) as (k & K & L).
    apply (one_step _ (S n) k); [lia| |].
    + unfold at_step. rewrite K, Nat.eqb_refl. rewrite step_values_ok by (eapply Forall_impl; [|exact LEN]; cbn; intros; lia). f_equal. f_equal. apply map_ext. intros h. rewrite hrow_ok.
      unfold values_of. rewrite C, K. rewrite line_app; [reflexivity|destruct (t_steps log); [contradiction|discriminate]|discriminate].
    + intros s NE. unfold at_step. rewrite K. destruct (Nat.eqb_spec k s); [lia|reflexivity].
Qed.
Lemma export_ok : forall (log : ltlog), t_fourier log <> [] -> stepped_ok log -> has_harmonics log -> periods_ok log ->
  export_fourier showv showf shown below1 minus1 log = Some (Some (
    line ((match t_count log with 0 => [] | _ => map fst (t_steps log) end) ++ summary_titles) ++ concat (map (fun e => line (vals log (snd e) ++ summary e)) (entries log)) ++
    between ++ tabbed (map fst (t_steps log)) ++ TB ++ line harmonic_titles ++
    concat (map (fun e => concat (map (fun h => line (vals log (snd e) ++ harmonic_fields showf shown e h)) (f_harmonics (snd e)))) (entries log)) ++ [LFc])).
Proof.
  intros log NE SO HH PO. unfold export_fourier. rewrite summary_ok, harmonics_ok by assumption. destruct (t_fourier log) eqn:E; [contradiction|]. cbv zeta. f_equal. f_equal.
  assert (HD : (match t_count log with 0 => [] | _ => tabbed (map fst (t_steps log)) ++ TB end) ++ tabbed (map s2l ["Signal"; "N-Periods"; "DC Component"; "Fundamental"; "N-Harmonics"; "PHD"; "THD"]) ++ NL1
    = line ((match t_count log with 0 => [] | _ => map fst (t_steps log) end) ++ summary_titles)).
  { destruct (t_count log) eqn:C; [rewrite tabbed_sep; reflexivity|]. destruct SO as (NS & _); [lia|]. rewrite line_app; [|destruct (t_steps log); [contradiction|discriminate]|discriminate]. rewrite <- app_assoc. rewrite (tabbed_sep (map s2l _)). reflexivity. }
  rewrite app_assoc, app_assoc. rewrite <- (app_assoc _ _ NL1). rewrite HD. rewrite <- !app_assoc. f_equal.
Qed.
End Export.

(** ** The log reader gives the analyses in the order of the steps *)
Section Reader.
Context {V F N : Type} (conv : str -> V) (tofloat : str -> option F) (toint : str -> option N).
Notation fourier := (@fourier F N).
Notation lstate := (@lstate V F N).
Definition steps_then (count : nat) (l : list fourier) : Prop := exists l1 l2, l = l1 ++ l2 /\ Forall (fun a => f_step a = None) l1 /\ in_order count 0 l2.
Definition sorted_state (st : lstate) : Prop := Forall (fun e => steps_then (l_count st) (snd e)) (l_fourier st).

Lemma in_order_more : forall c c' k (l : list fourier), c <= c' -> in_order c k l -> in_order c' k l.
Proof. intros c c' k l L H. induction H as [|k n a l E A B H IH]; [constructor|]. econstructor; [exact E|exact A|lia|exact IH]. Qed.
Lemma in_order_snoc : forall n k (l : list fourier) a, in_order (S n) k l -> k <= n -> f_step a = Some n -> in_order (S n) k (l ++ [a]).
Proof.
  intros n k l a H. remember (S n) as c. revert Heqc. induction H as [k|k m b l E A B H IH]; intros -> L F0; cbn [app].
  - econstructor; [exact F0|exact L|lia|constructor].
  - econstructor; [exact E|exact A|exact B|]. apply IH; [reflexivity|lia|exact F0].
Qed.
Lemma steps_then_more : forall c c' (l : list fourier), c <= c' -> steps_then c l -> steps_then c' l.
Proof. intros c c' l L (l1 & l2 & E & A & B). exists l1, l2. split; [exact E|]. split; [exact A|]. exact (in_order_more c c' 0 l2 L B). Qed.
Lemma steps_then_snoc : forall c (l : list fourier) a, steps_then c l -> f_step a = (match c with 0 => None | S k => Some k end) -> steps_then c (l ++ [a]).
Proof.
  intros c l a (l1 & l2 & -> & A & B) E. destruct c as [|n].
  - inversion B; [|lia]. subst. exists (l1 ++ [a]), []. rewrite !app_nil_r. split; [reflexivity|]. split; [apply Forall_app; split; [exact A|constructor; [exact E|constructor]]|constructor].
  - exists l1, (l2 ++ [a]). rewrite app_assoc. split; [reflexivity|]. split; [exact A|]. apply in_order_snoc; [exact B|lia|exact E].
Qed.
Lemma fadd_sorted : forall c k (a : fourier) d, f_step a = (match c with 0 => None | S k => Some k end) -> Forall (fun e => steps_then c (snd e)) d -> Forall (fun e => steps_then c (snd e)) (fadd k a d).
Proof.
  intros c k a d E H. assert (Z : steps_then c []) by (exists [], []; repeat constructor). induction H as [|[j l] d A H IH]; cbn [fadd]; [constructor; [exact (steps_then_snoc c [] a Z E)|constructor]|].
  destruct (opt_eqb k j); constructor; try assumption. cbn [snd] in *. apply steps_then_snoc; assumption.
Qed.
Lemma end_sorted : forall p t r (st : lstate), sorted_state st -> sorted_state (end_table p t r st).
Proof. intros p t r st H. unfold sorted_state, end_table in *. cbn [l_count l_fourier]. apply fadd_sorted; [reflexivity|exact H]. Qed.
Lemma measure_same : forall l (st : lstate), l_count (measure_line conv l st) = l_count st /\ l_fourier (measure_line conv l st) = l_fourier st.
Proof.
  intros l st. unfold measure_line. destruct (l_count st) eqn:C; [|auto]. destruct (re_match mline_re l) as [[e c]|]; [|auto]. destruct (group 1 l c); [|auto]. destruct (group 2 l c); [|auto]. cbn [l_count l_fourier]. auto.
Qed.
Lemma sorted_measure : forall l (st : lstate), sorted_state st -> sorted_state (measure_line conv l st).
Proof. intros l st H. unfold sorted_state in *. destruct (measure_same l st) as (-> & ->). exact H. Qed.
Lemma main_sorted : forall l (st st' : lstate), sorted_state st -> main_line conv tofloat l st = Some st' -> sorted_state st'.
Proof.
  intros l st st' H M. unfold main_line in M. cbv zeta in M. repeat match type of M with
  | (if ?b then _ else _) = _ => destruct b
  | match (if ?b then _ else _) with _ => _ end = _ => destruct b
  | match option_map _ ?x with _ => _ end = _ => destruct x; cbn [option_map] in M
  | match ?x with Some _ => _ | None => _ end = _ => destruct x eqn:?; try discriminate M
  end; try discriminate M; injection M as <-; try (apply sorted_measure); try exact H; unfold sorted_state in *; cbn [l_count l_fourier] in *; try exact H.
  all: eapply Forall_impl; [|exact H]; intros e; apply steps_then_more; match goal with |- _ <= (if ?b then _ else _) => destruct b | _ => idtac end; lia.
Qed.
Lemma table_sorted : forall l p t r (st st' : lstate), sorted_state st -> table_line tofloat toint l p t r st = Some st' -> sorted_state st'.
Proof.
  intros l p t r st st' H M. unfold table_line in M. cbv zeta in M. destruct (startswith _ _); [destruct (percent tofloat _); [|discriminate]; injection M as <-; exact H|].
  destruct (startswith _ _); [destruct (percent tofloat _); [|discriminate]; injection M as <-; exact H|]. destruct (strip_if is_nl l); [injection M as <-; apply end_sorted; exact H|].
  destruct (from_line tofloat toint _); [|discriminate]. injection M as <-. exact H.
Qed.
Lemma loop_sorted : forall ls (st : lstate) st' rest, sorted_state st -> first_loop conv tofloat toint ls st = Some (st', rest) -> sorted_state st'.
Proof.
  induction ls as [|l ls IH]; intros st st' rest H M; cbn [first_loop] in M.
  - injection M as <- _. destruct (l_mode st); [exact H|apply end_sorted; exact H|apply end_sorted; exact H].
  - destruct (l_mode st).
    + destruct (startswith _ l); [injection M as <- _; exact H|]. destruct (main_line conv tofloat l st) as [st1|] eqn:E; [|discriminate]. exact (IH _ _ _ (main_sorted l st st1 H E) M).
    + refine (IH _ _ _ _ M). exact H.
    + destruct (table_line tofloat toint l phd thd rows st) as [st1|] eqn:E; [|discriminate]. exact (IH _ _ _ (table_sorted _ _ _ _ _ _ H E) M).
Qed.
Lemma read_sorted : forall rm steps is_int ls log, read_ltlog conv tofloat toint rm steps is_int ls = Some log -> Forall (fun e => steps_then (t_count log) (snd e)) (t_fourier log).
Proof.
  intros rm steps is_int ls log R. unfold read_ltlog in R. destruct (first_loop _ _ _ _ _) as [[st rest]|] eqn:E; [|discriminate].
  destruct (if rm then _ else _); [|discriminate]. injection R as <-. cbn [t_count t_fourier]. refine (loop_sorted _ _ _ _ _ E). unfold sorted_state. constructor.
Qed.
End Reader.
