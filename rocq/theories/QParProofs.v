(** Proofs about the parameters of a QSPICE schematic (C49). *)
From Coq Require Import String Ascii List Bool Arith ZArith Lia.
From Verif Require Import PyStr EngModel StepsModel EngProofs EngCaseProofs StepsProofs Regex UpdatesModel ParModel ParSpec ParLine ParLine2 ParLine3 QTagModel QTagSpec QTagProofs QEdModel QEdSpec QEdProofs QEdProofs2 QEdProofs3 QParSpec.
Import ListNotations.
Local Open Scope string_scope. Local Open Scope nat_scope. Local Open Scope list_scope.

Notation lookup_line n p := (option_map e_val (find (same_name n) (l_pars p))).
Lemma line_text_marked : forall p, pline_ok p -> marked (length (l_lead p ++ l_word p)) (l_pars p) (finditer R0 (pline_text p)).
Proof.
  intros p (HL & HW & HE & HF & HT & HT2). unfold finditer, pline_text. set (fuel := length (l_lead p ++ l_word p ++ concat (map entry_text (l_pars p)) ++ l_tail p)).
  assert (length (l_pars p) <= fuel) as LFU. { unfold fuel. rewrite !app_length. fold (entries_text (l_pars p)). pose proof (entries_length _ HE). lia. }
  clearbody fuel. fold (entries_text (l_pars p)). rewrite (app_assoc (l_lead p)).
  assert (HT' : forall c, In c (l_tail p) -> begins_value c = false) by (intros c K; apply HT; exact K).
  rewrite find_skip.
  - apply find_marked; [exact HE| | |exact LFU]; [|intros q; apply tail_none; exact HT']. destruct (l_tail p); [exact I|left; exact HT2].
  - rewrite <- app_assoc. apply lead_none; [exact HL|exact HW| |].
    + destruct (l_pars p) as [|e l]; [cbn [entries_text map concat app]; destruct (l_tail p) as [|c t]; [exact I|rewrite HT2; reflexivity]|].
      inversion HE as [|? ? (S1 & S2 & _) _]; subst. unfold entries_text. cbn [map concat]. unfold entry_text at 1. destruct (e_sep e) as [|c r]; [contradiction|]. cbn [app]. rewrite (S1 c (or_introl eq_refl)). reflexivity.
    + apply rest_unset; assumption.
Qed.
Lemma line_cut_text : forall p, pline_text p = (l_lead p ++ l_word p) ++ entries_text (l_pars p) ++ l_tail p.
Proof. intros p. unfold pline_text, entries_text. rewrite <- !app_assoc. reflexivity. Qed.
Lemma find_existsb : forall n (l : list entry), existsb (same_name n) l = false -> find (same_name n) l = None.
Proof. intros n l. induction l as [|x l IH]; intros H; [reflexivity|]. cbn [existsb] in H. apply orb_false_iff in H. destruct H as [H1 H2]. cbn [find]. rewrite H1. apply IH. exact H2. Qed.
Lemma find_after : forall n a e b, existsb (same_name n) a = false -> same_name n e = true -> find (same_name n) (a ++ e :: b) = Some e.
Proof. intros n a e b. induction a as [|x a IH]; intros H S; cbn [app find]; [rewrite S; reflexivity|]. cbn [existsb] in H. apply orb_false_iff in H. destruct H as [H1 H2]. rewrite H1. apply IH; assumption. Qed.
(** what a line gives for a name *)
Lemma line_value : forall n p, pline_ok p ->
  match line_match (pline_text p) n with
  | Some c => exists a e b, l_pars p = a ++ e :: b /\ existsb (same_name n) a = false /\ same_name n e = true /\ group gVALUE (pline_text p) c = Some (e_val e) /\ lookup_line n p = Some (e_val e) /\
       exists k, cap gVALUE c = Some (k, k + length (e_val e)) /\ k = length (l_lead p ++ l_word p ++ entries_text a ++ e_sep e ++ e_par e ++ e_b1 e ++ "="%char :: e_b2 e)
  | None => lookup_line n p = None
  end.
Proof.
  intros n p HP. pose proof (marked_find n _ _ _ (line_text_marked p HP) _ _ _ (line_cut_text p) eq_refl) as H. unfold line_match. change (setting_re any_name) with R0. destruct (existsb (same_name n) (l_pars p)) eqn:EX.
  - destruct H as (a & e & b & bq & c & E & A & S & F & G & C). rewrite F. cbn [option_map snd]. exists a, e, b. split; [exact E|]. split; [exact A|]. split; [exact S|]. split; [exact G|]. rewrite E, find_after by assumption. split; [reflexivity|].
    eexists. split; [rewrite C; do 2 f_equal; unfold entry_text; repeat (rewrite ?app_length; cbn [length]); lia|]. unfold entry_text. repeat (rewrite ?app_length; cbn [length]). lia.
  - rewrite H. cbn [option_map]. rewrite find_existsb by exact EX. reflexivity.
Qed.

(** the qualifier *)
Lemma unqual_dot : forall r, unqual (QUAL ++ "."%char :: r) = "."%char :: r.
Proof. intros r. reflexivity. Qed.
Lemma pline_head : forall p, pline_ok p -> l_lead p = [] -> exists r, pline_text p = "."%char :: r.
Proof. intros p (_ & HW & _) L. destruct (word_shape _ HW) as (q & E & _). unfold pline_text. rewrite L, E. eexists. reflexivity. Qed.
Lemma unqual_pline : forall p, pline_ok p -> l_lead p = [] -> unqual (QUAL ++ pline_text p) = pline_text p.
Proof. intros p H L. destruct (pline_head p H L) as (r & ->). apply unqual_dot. Qed.
Lemma upper_length : forall s, length (upper s) = length s. Proof. intros. apply map_length. Qed.
Lemma upper_app : forall a b, upper (a ++ b) = upper a ++ upper b. Proof. intros. apply map_app. Qed.
Lemma startswith_app : forall a b, startswith a (a ++ b) = true.
Proof. induction a as [|c a IH]; intros b; [reflexivity|]. cbn [app startswith]. rewrite aeqb_refl. apply IH. Qed.
Lemma startswith_inv : forall a s, startswith a s = true -> exists b, s = a ++ b.
Proof. induction a as [|c a IH]; intros s H; [exists s; reflexivity|]. destruct s as [|d s]; [discriminate|]. cbn [startswith] in H. apply andb_true_iff in H. destruct H as (E & H). apply aeqb_eq in E. subst d. destruct (IH s H) as (b & ->). exists b. reflexivity. Qed.
Lemma param_line_pline : forall p, pline_ok p -> l_lead p = [] -> param_line (QUAL ++ pline_text p) = true.
Proof. intros p H L. unfold param_line. rewrite unqual_pline by assumption. destruct H as (_ & HW & _). unfold pline_text. rewrite L. cbn [app]. rewrite upper_app, HW. apply startswith_app. Qed.
Lemma no_param : forall s, no_param_line s -> param_line s = false.
Proof.
  intros s H. destruct (param_line s) eqn:E; [|reflexivity]. exfalso. unfold param_line in E. destruct (lstrip_all (fun c => mem_c c QUAL) s) as (q & Eq & Hq). change (lstrip_if _ s) with (unqual s) in Eq.
  apply startswith_inv in E. destruct E as (b & E). assert (L : 6 <= length (unqual s)). { rewrite <- upper_length, E, app_length. change (length (s2l ".PARAM")) with 6. lia. }
  apply (H q (firstn 6 (unqual s)) (skipn 6 (unqual s))); [rewrite firstn_skipn; exact Eq|intros c K; apply mem_c_In; apply Hq; exact K|].
  unfold upper. rewrite <- firstn_map. change (map upper_c (unqual s)) with (upper (unqual s)). rewrite E. reflexivity.
Qed.
Lemma param_no : forall p, pline_ok p -> l_lead p = [] -> ~ no_param_line (QUAL ++ pline_text p).
Proof. intros p H L K. apply no_param in K. rewrite param_line_pline in K by assumption. discriminate. Qed.

(** ** The value an item gives *)
Definition item_val (x : str) (t : tag) : option str :=
  if head_is TEXT t then match comment_of t with Some false => match text_of t with Some s => if param_line s then match line_match (unqual s) x with Some c => group gVALUE (unqual s) c | None => None end else None | None => None end | _ => None end else None.
Fixpoint first_val (x : str) (store : nat -> tag) (l : list nat) : option str :=
  match l with [] => None | i :: r => match item_val x (store i) with Some v => Some v | None => first_val x store r end end.
Definition ok_items (store : nat -> tag) (l : list nat) : Prop := forall i, In i l -> head_is TEXT (store i) = true ->
    comment_of (store i) = Some true \/ comment_of (store i) = Some false /\ exists s, text_of (store i) = Some s /\ (no_param_line s \/ exists p, s = QUAL ++ pline_text p /\ pline_ok p /\ l_lead p = []).
Lemma find_item : forall x store l, ok_items store l ->
  match find_text store (sets_param x) l with
  | None => False
  | Some None => first_val x store l = None
  | Some (Some (i, s)) => exists p, s = QUAL ++ pline_text p /\ pline_ok p /\ l_lead p = [] /\ first_val x store l = item_val x (store i) /\ exists u w, l = u ++ i :: w /\ forall j, In j u -> item_val x (store j) = None
  end.
Proof.
  intros x store l. induction l as [|i l IH]; intros H; [reflexivity|]. specialize (IH (fun j K => H j (or_intror K))).
  assert (SK : item_val x (store i) = None -> forall o, o = find_text store (sets_param x) l -> match o with None => False | Some None => first_val x store (i :: l) = None
    | Some (Some (j, s)) => exists p, s = QUAL ++ pline_text p /\ pline_ok p /\ l_lead p = [] /\ first_val x store (i :: l) = item_val x (store j) /\ exists u w, i :: l = u ++ j :: w /\ forall k, In k u -> item_val x (store k) = None end).
  { intros IV o ->. cbn [first_val]. rewrite IV. destruct (find_text store (sets_param x) l) as [[[j s]|]|]; [|exact IH|exact IH]. destruct IH as (p & A & B & D & F & u & w & -> & U). exists p. repeat (split; [assumption|]). exists (i :: u), w. split; [reflexivity|]. intros k [<-|K]; [exact IV|apply U; exact K]. }
  cbn [find_text]. destruct (head_is TEXT (store i)) eqn:HT; [|apply SK; [unfold item_val; rewrite HT; reflexivity|reflexivity]].
  destruct (H i (or_introl eq_refl) HT) as [C|(C & s & TX & S)]; rewrite C; [apply SK; [unfold item_val; rewrite HT, C; reflexivity|reflexivity]|].
  rewrite TX. unfold sets_param at 1. destruct S as [NP|(p & -> & HP & HL)].
  - rewrite no_param by exact NP. cbn [andb]. apply SK; [unfold item_val; rewrite HT, C, TX, no_param by exact NP; reflexivity|reflexivity].
  - rewrite param_line_pline, unqual_pline by assumption. cbn [andb]. pose proof (line_value x p HP) as LV. destruct (line_match (pline_text p) x) as [c|] eqn:LM.
    + destruct LV as (a & e & b & E & A & S & G & _). exists p. split; [reflexivity|]. split; [exact HP|]. split; [exact HL|].
      assert (IV : item_val x (store i) = Some (e_val e)) by (unfold item_val; rewrite HT, C, TX, param_line_pline, unqual_pline, LM, G by assumption; reflexivity).
      cbn [first_val]. rewrite IV. split; [reflexivity|]. exists [], l. split; [reflexivity|intros j []].
    + apply SK; [unfold item_val; rewrite HT, C, TX, param_line_pline, unqual_pline, LM by assumption; reflexivity|reflexivity].
Qed.
Lemma item_val_name : forall x n t, upper x = upper n -> item_val x t = item_val n t.
Proof.
  intros x n t EQ. unfold item_val. destruct (head_is TEXT t); [|reflexivity]. destruct (comment_of t) as [[]|]; try reflexivity. destruct (text_of t) as [s|]; [|reflexivity]. destruct (param_line s); [|reflexivity].
  unfold line_match, match_name. rewrite EQ. reflexivity.
Qed.
Lemma first_val_name : forall x n store l, upper x = upper n -> first_val x store l = first_val n store l.
Proof. intros x n store l EQ. induction l as [|i l IH]; [reflexivity|]. cbn [first_val]. rewrite (item_val_name x n _ EQ), IH. reflexivity. Qed.
Lemma get_first : forall x ed, par_texts ed -> get_parameter x ed = first_val x (q_store ed) (q_items ed).
Proof.
  intros x ed (_ & H). unfold get_parameter, get_param_named. pose proof (find_item x _ _ H) as F. destruct (find_text _ _ _) as [[[i s]|]|] eqn:EF; [|symmetry; exact F|destruct F]. destruct F as (p & -> & HP & HL & FV & _). destruct (find_text_some _ _ _ _ _ EF) as (A & B & C & D & E).
  rewrite FV. unfold item_val. rewrite B, C, D, param_line_pline by assumption. reflexivity.
Qed.
Lemma item_pline : forall x t p, head_is TEXT t = true -> comment_of t = Some false -> text_of t = Some (QUAL ++ pline_text p) -> pline_ok p -> l_lead p = [] -> item_val x t = lookup_line x p.
Proof.
  intros x t p A B C HP HL. unfold item_val. rewrite A, B, C, param_line_pline, unqual_pline by assumption. pose proof (line_value x p HP) as LV. destruct (line_match (pline_text p) x); [|congruence]. destruct LV as (a & e & b & _ & _ & _ & G & K & _). congruence.
Qed.
Lemma first_val_app : forall x store a b, first_val x store (a ++ b) = match first_val x store a with Some v => Some v | None => first_val x store b end.
Proof. intros x store. induction a as [|i a IH]; intros b; [reflexivity|]. cbn [app first_val]. destruct (item_val x (store i)); [reflexivity|apply IH]. Qed.
Lemma first_val_none : forall x store a, (forall j, In j a -> item_val x (store j) = None) -> first_val x store a = None.
Proof. intros x store. induction a as [|i a IH]; intros H; [reflexivity|]. cbn [first_val]. rewrite (H i (or_introl eq_refl)). apply IH. intros j K. apply H. right. exact K. Qed.
Lemma first_val_ext : forall x sa sb l, (forall j, In j l -> item_val x (sa j) = item_val x (sb j)) -> first_val x sa l = first_val x sb l.
Proof. intros x sa sb. induction l as [|i l IH]; intros H; [reflexivity|]. cbn [first_val]. rewrite (H i (or_introl eq_refl)), IH; [reflexivity|]. intros j K. apply H. right. exact K. Qed.
Lemma tag_attr_kept : forall i s t t' j, set_attr i (AText s) t = Some t' -> j <> i -> get_attr j t' = get_attr j t.
Proof.
  intros i s t t' j H NE. unfold set_attr in H. destruct (write_token (AText s)) as [x|]; [|discriminate]. destruct (set_nth i x (toks t)) as [l|] eqn:E; [|discriminate]. injection H as <-. destruct (set_nth_spec _ _ _ _ E) as (_ & K & _). unfold get_attr. cbn [toks]. rewrite (K j NE). reflexivity.
Qed.
Lemma text_after_set : forall s t t', startswith (s2l "0x") s = false -> set_attr 8 (AText s) t = Some t' -> text_of t' = Some s.
Proof.
  intros s t t' HX H. destruct (set_text_shape _ _ _ _ HX H) as (pre & old & post & E & L & ->). unfold text_of, get_attr. cbn [toks]. rewrite nth_error_app2 by lia. rewrite L, Nat.sub_diag. cbn [nth_error]. rewrite read_quoted. reflexivity.
Qed.
(** the line with the value replaced *)
Definition with_val (v : str) (e : entry) : entry := {| e_sep := e_sep e; e_par := e_par e; e_b1 := e_b1 e; e_b2 := e_b2 e; e_val := v |}.
Definition new_pline (p : pline) (a b : list entry) (e : entry) (v : str) : pline := {| l_lead := l_lead p; l_word := l_word p; l_pars := a ++ with_val v e :: b; l_tail := l_tail p |}.
Lemma new_pline_ok : forall p a b e v, pline_ok p -> l_pars p = a ++ e :: b -> par_value v -> pline_ok (new_pline p a b e v).
Proof.
  intros p a b e v (HL & HW & HE & HF & HT & HT2) E HV. unfold pline_ok, new_pline. cbn [l_lead l_word l_pars l_tail]. split; [exact HL|]. split; [exact HW|]. rewrite E in HE, HF. split; [|split; [|split; assumption]].
  - apply Forall_app in HE. destruct HE as (Ha & Hb). inversion Hb as [|? ? He Hb']; subst. apply Forall_app. split; [exact Ha|]. constructor; [|exact Hb']. destruct He as (H1 & H2 & H3 & H4 & H5 & H6). unfold entry_ok. cbn. repeat (split; [assumption|]). exact HV.
  - destruct a as [|x a]; exact HF.
Qed.
Lemma find_replace : forall x n a e b v, same_name n e = true -> existsb (same_name n) a = false ->
  option_map e_val (find (same_name x) (a ++ with_val v e :: b)) = if str_eqb (upper x) (upper n) then Some v else option_map e_val (find (same_name x) (a ++ e :: b)).
Proof.
  intros x n a e b v S A. destruct (str_eqb (upper x) (upper n)) eqn:EQ.
  - apply str_eqb_eq in EQ. assert (SX : forall z, same_name x z = same_name n z) by (intros z; unfold same_name; rewrite EQ; reflexivity).
    rewrite find_after; [reflexivity| |rewrite SX; exact S]. rewrite <- A. clear A. induction a as [|z a IH]; [reflexivity|]. cbn [existsb]. rewrite SX, IH. reflexivity.
  - assert (SX : same_name x e = false). { unfold same_name in *. apply str_eqb_eq in S. rewrite S. destruct (str_eqb (upper n) (upper x)) eqn:E2; [apply str_eqb_eq in E2; rewrite E2, str_eqb_refl in EQ; discriminate|reflexivity]. }
    clear A. induction a as [|z a IH]; cbn [app find].
    + assert (same_name x (with_val v e) = false) as -> by exact SX. rewrite SX. reflexivity.
    + destruct (same_name x z); [reflexivity|exact IH].
Qed.
Lemma replace_text : forall p a e b v, l_pars p = a ++ e :: b ->
  let k := length (l_lead p ++ l_word p ++ entries_text a ++ e_sep e ++ e_par e ++ e_b1 e ++ "="%char :: e_b2 e) in
  firstn (k + 3) (QUAL ++ pline_text p) ++ v ++ skipn (k + length (e_val e) + 3) (QUAL ++ pline_text p) = QUAL ++ pline_text (new_pline p a b e v).
Proof.
  intros p a e b v E k. set (X := l_lead p ++ l_word p ++ entries_text a ++ e_sep e ++ e_par e ++ e_b1 e ++ "="%char :: e_b2 e) in *.
  assert (ET : pline_text p = X ++ e_val e ++ entries_text b ++ l_tail p).
  { unfold pline_text. fold (entries_text (l_pars p)). rewrite E, entries_app. change (entries_text (e :: b)) with (entry_text e ++ entries_text b). unfold X, entry_text. rewrite <- !app_assoc. cbn [app]. rewrite <- !app_assoc. reflexivity. }
  assert (EN : pline_text (new_pline p a b e v) = X ++ v ++ entries_text b ++ l_tail p).
  { unfold pline_text, new_pline. cbn [l_lead l_word l_pars l_tail]. fold (entries_text (a ++ with_val v e :: b)). rewrite entries_app. change (entries_text (with_val v e :: b)) with (entry_text (with_val v e) ++ entries_text b). unfold X, entry_text, with_val. cbn [e_sep e_par e_b1 e_b2 e_val]. rewrite <- !app_assoc. cbn [app]. rewrite <- !app_assoc. reflexivity. }
  rewrite ET, EN. replace (k + 3) with (length (QUAL ++ X)) by (rewrite app_length; cbn; lia). replace (k + length (e_val e) + 3) with (length (QUAL ++ X ++ e_val e)) by (rewrite !app_length; cbn [QUAL map length]; lia).
  rewrite (app_assoc QUAL X), firstn_app, firstn_all, Nat.sub_diag. cbn [firstn]. rewrite app_nil_r. rewrite <- (app_assoc QUAL X). f_equal; fold k. rewrite <- app_assoc. f_equal. f_equal.
  assert (ES : QUAL ++ X ++ e_val e ++ entries_text b ++ l_tail p = (QUAL ++ X ++ e_val e) ++ entries_text b ++ l_tail p) by (rewrite <- !app_assoc; reflexivity). rewrite ES. rewrite skipn_app, skipn_all, Nat.sub_diag. reflexivity.
Qed.
Lemma set_first : forall n v ed ed', par_texts ed -> setting_ok (n, v) -> set_parameter n v ed = Some ed' ->
  par_texts ed' /\ forall x, get_parameter x ed' = if str_eqb (upper x) (upper n) then Some v else get_parameter x ed.
Proof.
  intros n v ed ed' HP0 (HN & HV & (G1 & G2 & G3) & HF) H. cbn [fst snd] in *. unfold set_parameter in H. destruct (q_perm ed); [|discriminate]. unfold get_param_named in H. pose proof HP0 as (HB & HP); pose proof (find_item n _ _ HP) as F. destruct (find_text _ _ _) as [[[i s]|]|] eqn:EF; [| |destruct F].
  - destruct F as (p & -> & PK & PL & _ & u & w & EU & UN). destruct (find_text_some _ _ _ _ _ EF) as (A & B & C & D & ST). rewrite unqual_pline in H by assumption. pose proof (line_value n p PK) as LV.
    destruct (line_match (pline_text p) n) as [c|] eqn:LM; [|discriminate]. destruct LV as (a & e & b & E & AE & SN & GV & LK & k & CV & EK). rewrite CV in H. subst k. cbv zeta in H. rewrite (replace_text p a e b v E) in H.
    set (p' := new_pline p a b e v) in *. pose proof (new_pline_ok p a b e v PK E HV) as PK'. assert (PL' : l_lead p' = []) by exact PL.
    destruct (set_attr 8 _ _) as [t'|] eqn:ES; [|discriminate]. injection H as <-. assert (X0 : startswith (s2l "0x") (QUAL ++ pline_text p') = false) by reflexivity.
    pose proof (text_after_set _ _ _ X0 ES) as TX. pose proof (head_set TEXT 7 _ _ _ ES) as HT. assert (CM : comment_of t' = Some false) by (unfold comment_of; rewrite (tag_attr_kept _ _ _ _ 4 ES) by discriminate; exact C).
    assert (HP' : par_texts (end_update n (VStr (l2s v)) UpUpdateParameter (put ed i t'))).
    { split; [exact HB|]. intros j Hj HTj. cbn [end_update put with_store q_items q_store] in *. destruct (j =? i) eqn:EJ; [|apply HP; assumption]. right. split; [exact CM|]. exists (QUAL ++ pline_text p'). split; [exact TX|]. right. exists p'. auto. }
    split; [exact HP'|]. intros x. rewrite (get_first x _ HP'), (get_first x _ HP0). cbn [end_update put with_store q_items q_store].
    assert (IV : item_val x t' = if str_eqb (upper x) (upper n) then Some v else item_val x (q_store ed i)).
    { rewrite (item_pline x t' p') by (try assumption; rewrite HT; exact B). rewrite (item_pline x _ p B C D PK PL). unfold p', new_pline. cbn [l_pars]. rewrite E. apply find_replace; assumption. }
    destruct (str_eqb (upper x) (upper n)) eqn:EQ.
    + rewrite EU. clear EU. induction u as [|j u IH]; cbn [app first_val].
      * rewrite Nat.eqb_refl, IV. reflexivity.
      * destruct (j =? i) eqn:EJ; [rewrite IV; reflexivity|]. assert (item_val x (q_store ed j) = None) as ->.
        { rewrite <- (UN j (or_introl eq_refl)). apply str_eqb_eq in EQ. apply item_val_name. exact EQ. }
        apply IH. intros k Hk. apply UN. right. exact Hk.
    + apply first_val_ext. intros j Hj. destruct (j =? i) eqn:EJ; [|reflexivity]. apply Nat.eqb_eq in EJ. subst j. exact IV.
  - destruct (add_text _ ed) as [ed1|] eqn:EA; [|discriminate]. injection H as <-. unfold add_text in EA. destruct (text_space ed) as [[px py]|]; [|discriminate]. destruct qual_facts as (Q1 & Q2 & Q3).
    assert (PF : forall c, In c (s2l ".param ") -> c <> DQ /\ c <> COLON /\ c <> CR) by (apply Forall_forall; repeat constructor; discriminate).
    destruct HN as (NE & NW). assert (NF : forall c, In c n -> c <> DQ /\ c <> COLON /\ c <> CR). { intros c Hc. rewrite forallb_forall in NW. specialize (NW c Hc). repeat split; intros ->; discriminate NW. }
    set (txt := QUAL ++ s2l ".param " ++ n ++ s2l "=" ++ v) in *.
    destruct (new_text_tag px py txt) as (t & r & ET & PT & RT & HT & TX & CM).
    { repeat apply not_in_app; try assumption; try (intros K; apply PF in K; tauto); try (intros K; apply NF in K; tauto). intros [K|[]]; discriminate. }
    { unfold txt. rewrite !app_assoc. apply no_colon_pre; [|exact G2]. repeat apply not_in_app; try assumption; try (intros K; apply PF in K; tauto); try (intros K; apply NF in K; tauto). intros [K|[]]; discriminate. }
    { repeat apply not_in_app; try assumption; try (intros K; apply PF in K; tauto); try (intros K; apply NF in K; tauto). intros [K|[]]; discriminate. }
    rewrite ET in EA. cbn [option_map fst] in EA. injection EA as <-.
    set (e := {| e_sep := [" "%char]; e_par := n; e_b1 := []; e_b2 := []; e_val := v |}). set (p := {| l_lead := []; l_word := s2l ".param"; l_pars := [e]; l_tail := [] |}).
    assert (PK : pline_ok p). { unfold pline_ok, p. cbn [l_lead l_word l_pars l_tail]. split; [intros ? []|]. split; [reflexivity|]. split; [|split; [exact HF|split; [intros ? []|exact I]]]. constructor; [|constructor]. unfold entry_ok, e. cbn [e_sep e_par e_b1 e_b2 e_val]. split; [intros c [<-|[]]; reflexivity|]. split; [discriminate|]. split; [split; assumption|]. split; [intros ? []|]. split; [intros ? []|]. exact HV. }
    assert (EP : txt = QUAL ++ pline_text p). { unfold txt, pline_text, p, entry_text, e. cbn [l_lead l_word l_pars l_tail map concat e_sep e_par e_b1 e_b2 e_val app]. rewrite !app_nil_r. reflexivity. }
    assert (HP' : par_texts (end_update n (VStr (l2s v)) UpAddParameter (append ed t))).
    { split; [cbn [end_update append q_items q_next]; intros j Hj; apply in_app_or in Hj; destruct Hj as [Hj|[<-|[]]]; [apply HB in Hj; lia|lia]|]. intros j Hj HTj. cbn [end_update append q_items q_store] in *. destruct (j =? q_next ed) eqn:EJ.
      - right. split; [exact CM|]. exists txt. split; [exact TX|]. right. exists p. split; [exact EP|]. split; [exact PK|reflexivity].
      - apply in_app_or in Hj. destruct Hj as [Hj|[<-|[]]]; [apply HP; assumption|rewrite Nat.eqb_refl in EJ; discriminate]. }
    split; [exact HP'|]. intros x. rewrite (get_first x _ HP'), (get_first x _ HP0). cbn [end_update append q_items q_store]. rewrite first_val_app. cbn [first_val]. rewrite Nat.eqb_refl.
    rewrite (item_pline x t p) by (try assumption; try reflexivity; rewrite TX, EP; reflexivity). unfold p. cbn [l_pars find]. change (same_name x e) with (str_eqb (upper n) (upper x)).
    assert (EX : first_val x (fun j => if j =? q_next ed then t else q_store ed j) (q_items ed) = first_val x (q_store ed) (q_items ed)).
    { apply first_val_ext. intros j Hj. destruct (j =? q_next ed) eqn:EJ; [|reflexivity]. apply Nat.eqb_eq in EJ. apply HB in Hj. lia. }
    rewrite EX. destruct (str_eqb (upper x) (upper n)) eqn:EQ.
    + apply str_eqb_eq in EQ. rewrite EQ, str_eqb_refl. cbn [option_map e_val e].
      assert (first_val x (q_store ed) (q_items ed) = None) as ->; [|reflexivity]. rewrite <- F. apply first_val_name. exact EQ.
    + assert (str_eqb (upper n) (upper x) = false) as ->. { destruct (str_eqb (upper n) (upper x)) eqn:E2; [apply str_eqb_eq in E2; rewrite E2, str_eqb_refl in EQ; discriminate|reflexivity]. }
      cbn [option_map]. destruct (first_val x (q_store ed) (q_items ed)); reflexivity.
Qed.
Lemma set_all_first : forall l ed ed', par_texts ed -> Forall setting_ok l -> set_all l ed = Some ed' -> forall f, (forall x, get_parameter x ed = f x) -> forall x, get_parameter x ed' = settings l f x.
Proof.
  induction l as [|[n v] l IH]; intros ed ed' HP HO H f HF x; cbn [set_all settings] in *; [injection H as <-; apply HF|]. inversion HO as [|? ? HO1 HO2]; subst. destruct (set_parameter n v ed) as [e1|] eqn:E; [|discriminate].
  destruct (set_first _ _ _ _ HP HO1 E) as (HP1 & G). apply (IH e1 ed' HP1 HO2 H). intros y. rewrite G, HF. reflexivity.
Qed.
(** setting a parameter that is there always succeeds *)
Lemma set_found : forall n v ed w, par_texts ed -> q_perm ed = Inform -> get_parameter n ed = Some w -> exists ed', set_parameter n v ed = Some ed'.
Proof.
  intros n v ed w HP0 PE H. pose proof HP0 as (_ & HP). rewrite get_first in H by exact HP0. unfold set_parameter, get_param_named. rewrite PE. pose proof (find_item n _ _ HP) as F. destruct (find_text _ _ _) as [[[i s]|]|] eqn:EF; [|congruence|destruct F].
  destruct F as (p & -> & PK & PL & _). destruct (find_text_some _ _ _ _ _ EF) as (A & B & C & D & ST). rewrite unqual_pline by assumption. unfold sets_param in ST. rewrite unqual_pline in ST by assumption. injection ST as ST. apply andb_true_iff in ST. destruct ST as (_ & ST).
  pose proof (line_value n p PK) as LV. destruct (line_match (pline_text p) n) as [c|]; [|discriminate]. destruct LV as (a & e & b & _ & _ & _ & _ & _ & k & CV & _). rewrite CV. unfold set_attr. cbn [write_token]. unfold text_of, get_attr in D. destruct (nth_error (toks (q_store ed i)) 8) as [z|] eqn:NT; [|discriminate].
  unfold set_nth. assert (8 < length (toks (q_store ed i))) as L by (apply nth_error_Some; congruence). apply Nat.ltb_lt in L. rewrite L. eexists. reflexivity.
Qed.
