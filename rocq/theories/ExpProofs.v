(** Proofs about the readers of exported waveforms. *)
From Coq Require Import String Ascii List Bool Arith Lia.
From Verif Require Import PyStr Regex RegexProofs StepsModel StepsProofs LogModel CompModel CompProofs QlogModel QlogProofs LtlogProofs OpProofs ExpModel ExpSpec.
Import ListNotations.
Local Open Scope string_scope. Local Open Scope nat_scope. Local Open Scope list_scope.

Lemma plain_facts : forall c, plain c = true -> step_char c = true /\ aeqb c "=" = false /\ is_space c = false.
Proof.
  assert (S : forallb (fun n => let c := ascii_of_nat n in implb (plain c) (step_char c && negb (aeqb c "=") && negb (is_space c))) (seq 0 256) = true) by (vm_cast_no_check (eq_refl true)).
  intros c P. rewrite forallb_forall in S. specialize (S (nat_of_ascii c)). cbv zeta in S. rewrite ascii_nat_embedding, P in S. cbn [implb] in S.
  assert (I : In (nat_of_ascii c) (seq 0 256)) by (apply in_seq; pose proof (nat_ascii_bounded c); lia). specialize (S I).
  apply andb_true_iff in S. destruct S as (S & S3). apply andb_true_iff in S. destruct S as (S1 & S2). rewrite negb_true_iff in S2, S3. auto.
Qed.
Lemma digit_eq : forall c, digit c = true -> is_digit c = true.
Proof.
  assert (S : forallb (fun n => let c := ascii_of_nat n in implb (digit c) (is_digit c)) (seq 0 256) = true) by (vm_cast_no_check (eq_refl true)).
  intros c P. rewrite forallb_forall in S. specialize (S (nat_of_ascii c)). cbv zeta in S. rewrite ascii_nat_embedding, P in S. cbn [implb] in S. apply S. apply in_seq; pose proof (nat_ascii_bounded c); lia.
Qed.
Lemma digits_all : forall s, forallb digit s = true -> forallb is_digit s = true.
Proof. intros s H. rewrite forallb_forall in *. intros c I. apply digit_eq, H, I. Qed.

Definition text_of (r : run) : str := sep_by " " (map (fun p => fst p ++ "="%char :: snd p) (r_params r)).
Lemma text_chars : forall l, Forall param_ok l -> forallb step_char (sep_by " " (map (fun p => fst p ++ "="%char :: snd p) l)) = true.
Proof.
  assert (A : forall p, param_ok p -> forallb step_char (fst p ++ "="%char :: snd p) = true).
  { intros [k v] (K & W). cbn [fst snd] in *. rewrite forallb_app. cbn [forallb]. change (step_char "=") with true. cbn [andb]. apply andb_true_iff. split; apply forallb_forall; intros c I; apply plain_facts; [rewrite forallb_forall in K; apply K, I|rewrite forallb_forall in W; apply W, I]. }
  induction l as [|p l IH]; intros H; [reflexivity|]. apply Forall_cons_iff in H. destruct H as (H1 & H2). cbn [map sep_by]. destruct l as [|q l]; [apply A; exact H1|].
  cbn [map]. rewrite forallb_app. apply andb_true_iff. split; [exact (A p H1)|]. cbn [forallb]. change (step_char " ") with true. cbn [andb]. exact (IH H2).
Qed.
Lemma text_nonempty : forall l, l <> [] -> exists a t, sep_by " " (map (fun p : str * str => fst p ++ "="%char :: snd p) l) = a :: t.
Proof. intros [|[[|a k] v] [|q l]] N; [contradiction| | | |]; cbn; eauto. Qed.

(** the line of step information is recognised *)
Lemma repeat_snoc : forall (A : Type) (a : A) n, repeat a n ++ [a] = repeat a (S n).
Proof. intros A a n. induction n as [|n IH]; [reflexivity|]. cbn [repeat app]. rewrite IH. reflexivity. Qed.
Lemma info_match : forall w word no total t gap, (forall (R : Type) p s c (k : @kont R), m w p (s2l word ++ s) c k = k (p + length (s2l word)) s c) ->
  forallb step_char t = true -> t <> [] -> forallb digit no = true -> forallb digit total = true ->
  step_info (info_re w) (s2l "Step Information: " ++ t ++ repeat " "%char (S gap) ++ s2l "(" ++ s2l word ++ s2l ": " ++ no ++ s2l "/" ++ total ++ s2l ")" ++ [LFc])
  = Some (t ++ repeat " "%char gap, no).
Proof.
  intros w word no total t gap W T N D1 D2. rewrite <- repeat_snoc. rewrite <- (app_assoc (repeat _ _)).
  set (line := s2l "Step Information: " ++ t ++ repeat " "%char gap ++ [" "%char] ++ s2l "(" ++ s2l word ++ s2l ": " ++ no ++ s2l "/" ++ total ++ s2l ")" ++ [LFc]).
  assert (P0 : step_char " " = true) by reflexivity.
  assert (GT : forallb step_char (t ++ repeat " "%char gap) = true) by (rewrite forallb_app, T; cbn [andb]; clear - P0; induction gap as [|g IH]; cbn [repeat forallb]; [reflexivity|rewrite P0; exact IH]).
  destruct t as [|a t]; [contradiction|]. cbn [app forallb] in GT. apply andb_true_iff in GT. destruct GT as (GA & GT).
  set (tail := s2l "(" ++ s2l word ++ s2l ": " ++ no ++ s2l "/" ++ total ++ s2l ")" ++ [LFc]) in *.
  assert (TA : exists q, tail = "("%char :: q) by (unfold tail; change (s2l "(") with ["("%char]; cbn [app]; eauto). destruct TA as (q & Q).
  assert (M : exists e c, re_match (info_re w) line = Some (e, (2, (18 + S (length (t ++ repeat " "%char gap)) + 1 + 1 + length (s2l word) + 2, 18 + S (length (t ++ repeat " "%char gap)) + 1 + 1 + length (s2l word) + 2 + length no)) :: (1, (18, 18 + S (length (t ++ repeat " "%char gap)))) :: c)).
  { eexists. exists []. unfold re_match, info_re, line. rewrite m_lits. change (0 + length (s2l "Step Information: ")) with 18.
    change ([Grp 1 (Plus (Chr step_char)); Plus (Chr (fun c => aeqb c " ")); lit "("; w] ++ ?r) with (Grp 1 (Plus (Chr step_char)) :: Plus (Chr (fun c => aeqb c " ")) :: lit "(" :: w :: r).
    rewrite m_seqs_cons, m_grp. unfold Plus at 1. rewrite m_seq. change ((a :: t) ++ repeat " "%char gap ++ [" "%char] ++ tail) with (a :: t ++ repeat " "%char gap ++ [" "%char] ++ tail).
    rewrite m_chr_ok by exact GA. rewrite (app_assoc t). apply m_star_back; [exact GT| |].
    - rewrite m_seqs_cons. cbn [app]. rewrite Q. refine (m_plus_all (fun c => aeqb c " ") " "%char [] _ ("("%char :: q) _ _ _ _ _ _ _); [reflexivity|reflexivity|reflexivity|]. rewrite <- Q. unfold tail.
      rewrite m_seqs_cons. change (s2l "(") with ["("%char]. cbn [app]. unfold lit at 1. rewrite m_chr_ok by reflexivity.
      rewrite m_seqs_cons, W. rewrite m_lits. change (length (s2l ": ")) with 2. rewrite m_seqs_cons, m_grp. apply m_star_all; [apply digits_all; exact D1|reflexivity|].
      rewrite m_seqs_cons. change (s2l "/") with ["/"%char]. cbn [app]. unfold lit at 1. rewrite m_chr_ok by reflexivity. rewrite m_seqs_cons. apply m_star_all; [apply digits_all; exact D2|reflexivity|].
      rewrite m_seqs_cons. change (s2l ")") with [")"%char]. cbn [app]. unfold lit at 1. rewrite m_chr_ok by reflexivity. cbn [seqs]. unfold lit. rewrite m_chr_ok by reflexivity.
      cbn [length]. match goal with |- Some (_, (2, (?a1, ?b1)) :: (1, (?c1, ?d1)) :: _) = Some (_, (2, (?a2, ?b2)) :: (1, (?c2, ?d2)) :: _) => replace a2 with a1 by lia; replace b2 with b1 by lia; replace d2 with d1 by lia end. reflexivity.
    - intros v s' E NV B. rewrite Q in E. cbn [app] in E. destruct v as [|b v]; [contradiction|]. cbn [app] in E. injection E as E1 E2. subst b.
      destruct v as [|b v]; [cbn [app] in E2; subst s'; rewrite m_seqs_cons; apply m_plus_no; reflexivity|]. cbn [app] in E2. injection E2 as E1 _. subst b. cbn [forallb] in B. change (step_char "(") with false in B. apply andb_true_iff in B. destruct B as (_ & B). discriminate B. }
  destruct M as (e & c & M). unfold step_info. fold line. rewrite M. unfold group. cbn [cap Nat.eqb option_map]. f_equal. f_equal.
  - unfold line. eapply slice_at; [rewrite (app_assoc (a :: t)); reflexivity|reflexivity|]. cbn [app length]. reflexivity.
  - eapply slice_at with (a := s2l "Step Information: " ++ ((a :: t) ++ repeat " "%char gap) ++ [" "%char] ++ s2l "(" ++ s2l word ++ s2l ": "); [unfold line, tail; rewrite <- !app_assoc; reflexivity| |reflexivity].
    rewrite !app_length. cbn [app length]. change (length (s2l "Step Information: ")) with 18. change (length (s2l "(")) with 1. change (length (s2l ": ")) with 2. lia.
Qed.

(** ** The assignments *)
Definition tokens (l : list (str * str)) : list str := map (fun p => fst p ++ "="%char :: snd p) l.
Lemma words_tokens : forall ws g, Forall (fun w : str => w <> [] /\ forall a, In a w -> is_space a = false) ws -> words (sep_by " " ws ++ repeat " "%char g) = ws.
Proof.
  assert (B : forall g, forallb is_space (repeat " "%char g) = true) by (induction g as [|g IH]; [reflexivity|exact IH]).
  assert (E : forall w g, w <> [] -> words_ w (repeat " "%char g) = [w]).
  { intros w [|g] N; cbn [repeat words_]; [destruct w; [contradiction|reflexivity]|]. change (is_space " ") with true. cbn [negb]. destruct w; [contradiction|]. f_equal. rewrite <- (app_nil_r (repeat _ _)), words_blank by apply B. reflexivity. }
  intros ws g H. unfold words. induction H as [|w ws (N & S) H IH]; [cbn [sep_by app]; rewrite <- (app_nil_r (repeat _ _)), words_blank by apply B; reflexivity|].
  cbn [sep_by]. destruct ws as [|w2 ws]; [rewrite words_cur by exact S; apply E; exact N|].
  rewrite <- app_assoc, words_cur by exact S. cbn [app]. change (" "%char :: sep_by " " (w2 :: ws) ++ repeat " "%char g) with ([" "%char] ++ sep_by " " (w2 :: ws) ++ repeat " "%char g).
  rewrite words_flush; [f_equal; exact IH|exact N|discriminate|reflexivity].
Qed.
Lemma tokens_words : forall l g, Forall param_ok l -> words (sep_by " " (tokens l) ++ repeat " "%char g) = tokens l.
Proof.
  intros l g H. apply words_tokens. unfold tokens. apply Forall_map. eapply Forall_impl; [|exact H]. intros [k v] (K & W). cbn [fst snd] in *. split; [destruct k; discriminate|].
  intros a I. apply in_app_or in I. destruct I as [I|[<- | I]]; [|reflexivity|]; apply plain_facts; rewrite forallb_forall in *; [apply K|apply W]; exact I.
Qed.
Lemma split_token : forall p, param_ok p -> split_on "=" (fst p ++ "="%char :: snd p) = [fst p; snd p].
Proof.
  intros [k v] (K & W). cbn [fst snd] in *. rewrite split_on_cons; [rewrite split_on_plain; [reflexivity|]|]; intros I; rewrite forallb_forall in *; [apply W in I|apply K in I]; discriminate I.
Qed.
Lemma afters : forall l, Forall param_ok l -> map_some after_eq (tokens l) = Some (map snd l).
Proof. intros l H. induction H as [|p l P H IH]; [reflexivity|]. unfold tokens in *. cbn [map map_some]. unfold after_eq at 1. rewrite split_token by exact P. rewrite IH. reflexivity. Qed.
Lemma befores : forall l, Forall param_ok l -> map before_eq (tokens l) = map fst l.
Proof. intros l H. induction H as [|p l P H IH]; [reflexivity|]. unfold tokens in *. cbn [map]. unfold before_eq at 1. rewrite split_token by exact P. rewrite IH. reflexivity. Qed.

Lemma startswith_prefix : forall p t, startswith p (p ++ t) = true.
Proof. induction p as [|a p IH]; intros t; [reflexivity|]. cbn. rewrite aeqb_refl. apply IH. Qed.
Lemma startswith_ex : forall p s, startswith p s = true -> exists t, s = p ++ t.
Proof. induction p as [|a p IH]; intros s H; [exists s; reflexivity|]. destruct s as [|b s]; [discriminate|]. cbn in H. apply andb_true_iff in H. destruct H as (A & H). apply aeqb_eq in A. subst b. destruct (IH s H) as (t & ->). exists t. reflexivity. Qed.
Lemma info_starts : forall word r, startswith (s2l "Step Information:") (info_line word r) = true.
Proof. intros word r. unfold info_line. change (s2l "Step Information: ") with (s2l "Step Information:" ++ [" "%char]). rewrite <- app_assoc. apply startswith_prefix. Qed.
Lemma row_starts : forall row, row_ok row -> startswith (s2l "Step Information:") (sep_by HT row) = false.
Proof. intros row H. destruct (startswith _ (sep_by HT row)) eqn:E; [|reflexivity]. apply startswith_ex in E. destruct E as (t & E). destruct (H t E). Qed.

Lemma run_word : forall (R : Type) p s c (k : @kont R), m (seqs (lits "Run")) p (s2l "Run" ++ s) c k = k (p + length (s2l "Run")) s c.
Proof. intros R p s c k. pose proof (m_lits R "Run" [] p s c k) as H. rewrite app_nil_r in H. rewrite H. reflexivity. Qed.
Lemma either_word : forall word, word = "Run" \/ word = "Step" -> forall (R : Type) p s c (k : @kont R), m (Alt (seqs (lits "Run")) (seqs (lits "Step"))) p (s2l word ++ s) c k = k (p + length (s2l word)) s c.
Proof.
  intros word [-> | ->] R p s c k; cbn [m].
  - pose proof (run_word R p s c k) as H. rewrite H. destruct (k _ s c); [reflexivity|]. reflexivity.
  - pose proof (m_lits R "Step" [] p s c k) as H. rewrite app_nil_r in H. rewrite H. destruct (m (seqs (lits "Run")) p (s2l "Step" ++ s) c k) eqn:E; [|reflexivity]. discriminate E.
Qed.
Lemma info_known : forall w word names r, (forall (R : Type) p s c (k : @kont R), m w p (s2l word ++ s) c k = k (p + length (s2l word)) s c) ->
  run_ok names r -> names <> [] -> step_info (info_re w) (info_line word r) = Some (sep_by " " (tokens (r_params r)) ++ repeat " "%char (r_gap r), r_no r).
Proof.
  intros w word names r W (D1 & D2 & P & NM & _) N. unfold info_line. apply info_match; [exact W|apply text_chars; exact P| |exact D1|exact D2].
  destruct (text_nonempty (r_params r)) as (a & t & E); [intros E; rewrite E in NM; apply N; rewrite <- NM; reflexivity|]. intros F. pose proof (eq_trans (eq_sym F) E) as G. discriminate G.
Qed.

(** ** The table *)
Lemma fields_tabs : forall l, l <> [] -> concat (map field l) = tabs l ++ [HT].
Proof.
  unfold tabs. intros l N. destruct l as [|x l]; [contradiction|]. clear N. revert x. induction l as [|y l IH]; intros x; [cbn; rewrite app_nil_r; reflexivity|].
  change (concat (map field (x :: y :: l))) with (field x ++ concat (map field (y :: l))). rewrite IH. change (join [TABc] (x :: y :: l)) with (x ++ [TABc] ++ join [TABc] (y :: l)). unfold field. rewrite <- !app_assoc. reflexivity.
Qed.
Lemma tab_rows : forall h rows b no vals out, Forall row_ok rows ->
  tab_lines h (map (sep_by HT) rows) (TState b no vals out) = Some (TState b no vals (out ++ flat_map (fun row => no ++ [HT] ++ vals ++ [HT] ++ sep_by HT row) rows)).
Proof.
  intros h rows b no vals. induction rows as [|row rows IH]; intros out H; [cbn; rewrite app_nil_r; reflexivity|]. apply Forall_cons_iff in H. destruct H as (H1 & H2).
  cbn [map tab_lines flat_map]. unfold tab_line. rewrite row_starts by exact H1. cbn [t_header t_run t_values t_out]. rewrite IH by exact H2. change TABc with HT. rewrite <- !app_assoc. reflexivity.
Qed.
Lemma tab_lines_app : forall h a b st, tab_lines h (a ++ b) st = match tab_lines h a st with Some st' => tab_lines h b st' | None => None end.
Proof. intros h a. induction a as [|x a IH]; intros b st; [reflexivity|]. cbn [app tab_lines]. destruct (tab_line h x st); [apply IH|reflexivity]. Qed.
Definition rows_of (r : run) : str := flat_map (fun row => concat (map field (r_no r :: map snd (r_params r))) ++ sep_by HT row) (r_rows r).
Lemma flat_map_ext' : forall (A B : Type) (f g : A -> list B) l, (forall x, f x = g x) -> flat_map f l = flat_map g l.
Proof. intros A B f g l H. induction l as [|x l IH]; [reflexivity|]. cbn. rewrite H, IH. reflexivity. Qed.
Lemma tab_run : forall word names h r st, word = "Run" \/ word = "Step" -> run_ok names r -> names <> [] ->
  tab_lines h (info_line word r :: map (sep_by HT) (r_rows r)) st =
  Some (TState false (r_no r) (tabs (map snd (r_params r)))
    ((if t_header st then t_out st ++ concat (map field (s2l "Run" :: names)) ++ h else t_out st) ++ rows_of r)).
Proof.
  intros word names h r st W OK N. cbn [tab_lines]. unfold tab_line. rewrite info_starts. unfold tabular_re.
  rewrite (info_known _ word names r) by (try apply either_word; assumption). destruct OK as (D1 & D2 & P & NM & RO).
  rewrite tokens_words, afters, befores by exact P. rewrite NM. rewrite tab_rows by exact RO. f_equal. f_equal. f_equal.
  - destruct (t_header st); [|reflexivity]. f_equal. rewrite fields_tabs by discriminate. unfold tabs. destruct names as [|x names]; [contradiction|]. change (join [TABc] (s2l "Run" :: x :: names)) with (s2l "Run" ++ [TABc] ++ join [TABc] (x :: names)). change HT with TABc. rewrite <- !app_assoc. reflexivity.
  - unfold rows_of. apply flat_map_ext'. intros row. rewrite fields_tabs by discriminate. destruct (r_params r) as [|p l] eqn:E; [contradiction N; rewrite <- NM; reflexivity|]. unfold tabs. cbn [map]. change (join [TABc] (r_no r :: snd p :: map snd l)) with (r_no r ++ [TABc] ++ join [TABc] (snd p :: map snd l)). change HT with TABc. rewrite <- !app_assoc. reflexivity.
Qed.
Lemma tab_runs : forall word names h runs st, word = "Run" \/ word = "Step" -> Forall (run_ok names) runs -> names <> [] -> t_header st = false ->
  option_map t_out (tab_lines h (flat_map (fun r => info_line word r :: map (sep_by HT) (r_rows r)) runs) st) = Some (t_out st ++ flat_map rows_of runs).
Proof.
  intros word names h runs. induction runs as [|r runs IH]; intros st W OK N HD; [cbn; rewrite app_nil_r; reflexivity|]. apply Forall_cons_iff in OK. destruct OK as (O1 & O2).
  cbn [flat_map]. rewrite tab_lines_app, (tab_run word names) by assumption. rewrite IH by (try assumption; reflexivity). cbn [t_out]. rewrite HD, <- app_assoc. reflexivity.
Qed.
Lemma reformat_ok : forall word names header runs, word = "Run" \/ word = "Step" -> names <> [] -> runs <> [] -> Forall (run_ok names) runs ->
  reformat (exported word header runs) = Some (table names header runs).
Proof.
  intros word names header runs W N NR OK. destruct runs as [|r runs]; [contradiction|]. apply Forall_cons_iff in OK. destruct OK as (O1 & O2).
  unfold reformat, exported. cbn [flat_map]. rewrite tab_lines_app, (tab_run word names) by assumption. rewrite (tab_runs word names) by (try assumption; reflexivity). cbn [t_out t_header app].
  f_equal. unfold table. rewrite <- !app_assoc. reflexivity.
Qed.
