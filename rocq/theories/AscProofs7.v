(** Parameters of an LTspice schematic. *)
From Coq Require Import String Ascii List Bool Arith ZArith Lia.
From Verif Require QEdModel.
From Verif Require Import PyStr EngModel EngProofs StepsModel StepsProofs Regex CompModel UpdatesModel ParModel ParSpec ParLine ParLine2 ParLine3 QTagModel QTagProofs QParProofs AscModel AscCalls AscSpec AscParSpec AscProofs AscProofs2 AscProofs3 AscProofs4 AscProofs5 AscProofs6.
Import ListNotations.
Local Open Scope string_scope. Local Open Scope nat_scope. Local Open Scope list_scope.

Definition is_par (s : str) : bool := startswith (s2l ".PARAM") (upper s).
Lemma is_par_spec : forall s, is_par s = true <-> is_param_line s.
Proof.
  intros s. unfold is_par. split.
  - intros H. apply startswith_inv in H. destruct H as (b & H). exists (firstn 6 s), (skipn 6 s). split; [symmetry; apply firstn_skipn|]. unfold upper. rewrite <- firstn_map. change (map upper_c s) with (upper s). rewrite H. reflexivity.
  - intros (w & r & -> & H). rewrite upper_app, H. apply startswith_app.
Qed.
Lemma pline_par : forall p, pline_ok p -> l_lead p = [] -> is_par (pline_text p) = true.
Proof. intros p (_ & HW & _) L. unfold is_par, pline_text. rewrite L. cbn [app]. rewrite upper_app, HW. apply startswith_app. Qed.
(** The directives: comments, others, and well-formed parameter lines. *)
Definition dir_ok (t : text) : Prop := t_comment t = true \/ is_par (t_text t) = false \/ exists p, t_text t = pline_text p /\ pline_ok p /\ l_lead p = [].
Definition dir_val (x : str) (t : text) : option str :=
  match sets_param x t with Some c => group gVALUE (t_text t) c | None => None end.
Fixpoint first_val (x : str) (l : list text) : option str :=
  match l with [] => None | t :: r => match dir_val x t with Some v => Some v | None => first_val x r end end.
Lemma sets_pline : forall x t p, t_comment t = false -> t_text t = pline_text p -> pline_ok p -> l_lead p = [] -> sets_param x t = line_match (pline_text p) x.
Proof. intros x t p C E P L. unfold sets_param. rewrite C, E. pose proof (pline_par p P L) as K. unfold is_par in K. rewrite K. reflexivity. Qed.
Lemma dir_pline : forall x t p, t_comment t = false -> t_text t = pline_text p -> pline_ok p -> l_lead p = [] -> dir_val x t = option_map e_val (find (same_name x) (l_pars p)).
Proof.
  intros x t p C E P L. unfold dir_val. rewrite (sets_pline x t p C E P L), E. pose proof (line_value x p P) as LV. destruct (line_match (pline_text p) x) as [c|]; [|symmetry; exact LV]. destruct LV as (a & e & b & _ & _ & _ & G & K & _). rewrite G, K. reflexivity.
Qed.
Lemma sets_some : forall x t c, dir_ok t -> sets_param x t = Some c -> exists p, t_comment t = false /\ t_text t = pline_text p /\ pline_ok p /\ l_lead p = [] /\ dir_val x t <> None.
Proof.
  intros x t c D H. destruct (t_comment t) eqn:C; [unfold sets_param in H; rewrite C in H; discriminate|]. destruct D as [D|[D|(p & E & P & L)]]; [congruence|unfold sets_param in H; rewrite C in H; unfold is_par in D; rewrite D in H; discriminate|].
  exists p. split; [reflexivity|]. split; [exact E|]. split; [exact P|]. split; [exact L|]. unfold dir_val. rewrite H. rewrite (sets_pline x t p C E P L) in H. pose proof (line_value x p P) as LV. rewrite H in LV. destruct LV as (a & e & b & _ & _ & _ & G & _). rewrite E, G. discriminate.
Qed.
Lemma get_first : forall x l, Forall dir_ok l -> match find_dir (sets_param x) l with Some (_, t, c, _) => group gVALUE (t_text t) c | None => None end = first_val x l.
Proof.
  intros x l. induction l as [|t l IH]; intros H; [reflexivity|]. apply Forall_cons_iff in H. destruct H as (D & H). specialize (IH H). cbn [find_dir first_val]. destruct (sets_param x t) as [c|] eqn:S.
  - destruct (sets_some x t c D S) as (p & _ & _ & _ & _ & N). unfold dir_val in *. rewrite S in *. destruct (group gVALUE (t_text t) c); [reflexivity|contradiction].
  - unfold dir_val. rewrite S. rewrite <- IH. destruct (find_dir _ l) as [[[[p u] b] q]|]; reflexivity.
Qed.
Lemma dir_val_name : forall x n t, upper x = upper n -> dir_val x t = dir_val n t.
Proof. intros x n t EQ. unfold dir_val, sets_param, line_match, match_name. rewrite EQ. reflexivity. Qed.
Lemma first_val_app : forall x a b, first_val x (a ++ b) = match first_val x a with Some v => Some v | None => first_val x b end.
Proof. intros x. induction a as [|i a IH]; intros b; [reflexivity|]. cbn [app first_val]. destruct (dir_val x i); [reflexivity|apply IH]. Qed.
Lemma first_val_none : forall x a, (forall t, In t a -> sets_param x t = None) -> first_val x a = None.
Proof. intros x. induction a as [|i a IH]; intros H; [reflexivity|]. cbn [first_val]. unfold dir_val at 1. rewrite (H i (or_introl eq_refl)). apply IH. intros j K. apply H. right. exact K. Qed.
Lemma first_val_name : forall x n l, upper x = upper n -> first_val x l = first_val n l.
Proof. intros x n l EQ. induction l as [|i l IH]; [reflexivity|]. cbn [first_val]. rewrite (dir_val_name x n _ EQ), IH. reflexivity. Qed.
Lemma replaced_pline : forall p a e b v, l_pars p = a ++ e :: b ->
  let k := length (l_lead p ++ l_word p ++ entries_text a ++ e_sep e ++ e_par e ++ e_b1 e ++ "="%char :: e_b2 e) in
  firstn k (pline_text p) ++ v ++ skipn (k + length (e_val e)) (pline_text p) = pline_text (new_pline p a b e v).
Proof.
  intros p a e b v E k. pose proof (replace_text p a e b v E) as H. cbv zeta in H. fold k in H. set (X := pline_text p) in *. clearbody k. change QEdModel.QUAL with ([nth 0 QEdModel.QUAL " "%char; nth 1 QEdModel.QUAL " "%char; nth 2 QEdModel.QUAL " "%char]) in H.
  replace (k + 3) with (S (S (S k))) in H by lia. replace (k + length (e_val e) + 3) with (S (S (S (k + length (e_val e))))) in H by lia. cbn [firstn skipn app] in H. injection H as H. exact H.
Qed.
Definition pars_ok (a : asc) : Prop := Forall dir_ok (a_dirs a).
Lemma get_val : forall x a, pars_ok a -> get_parameter x a = first_val x (a_dirs a).
Proof. intros x a H. apply get_first. exact H. Qed.
Lemma new_entry_ok : forall n v, setting_ok (n, v) -> exists p, s2l ".param " ++ n ++ s2l "=" ++ v = pline_text p /\ pline_ok p /\ l_lead p = [] /\ forall x, option_map e_val (find (same_name x) (l_pars p)) = if str_eqb (upper n) (upper x) then Some v else None.
Proof.
  intros n v (HN & HV & HF). cbn [fst snd] in *. set (e := {| e_sep := [" "%char]; e_par := n; e_b1 := []; e_b2 := []; e_val := v |}). exists {| l_lead := []; l_word := s2l ".param"; l_pars := [e]; l_tail := [] |}.
  split; [unfold pline_text, entry_text, e; cbn [l_lead l_word l_pars l_tail map concat e_sep e_par e_b1 e_b2 e_val app]; rewrite !app_nil_r; reflexivity|]. split; [|split; [reflexivity|]].
  - unfold pline_ok. cbn [l_lead l_word l_pars l_tail]. split; [intros ? []|]. split; [reflexivity|]. split; [|split; [exact HF|split; [intros ? []|exact I]]]. constructor; [|constructor]. unfold entry_ok, e. cbn [e_sep e_par e_b1 e_b2 e_val]. split; [intros c [<-|[]]; reflexivity|]. split; [discriminate|]. split; [exact HN|]. split; [intros ? []|]. split; [intros ? []|]. exact HV.
  - intros x. cbn [l_pars find]. change (same_name x e) with (str_eqb (upper n) (upper x)). destruct (str_eqb (upper n) (upper x)); reflexivity.
Qed.
Lemma eqb_sym_s : forall a b, str_eqb a b = str_eqb b a.
Proof. intros a b. destruct (str_eqb a b) eqn:E; [apply str_eqb_eq in E; subst; symmetry; apply str_eqb_refl|]. destruct (str_eqb b a) eqn:F; [apply str_eqb_eq in F; subst; rewrite str_eqb_refl in E; discriminate|reflexivity]. Qed.
Lemma set_first : forall n v a a', pars_ok a -> setting_ok (n, v) -> set_parameter n v a = Some a' ->
  pars_ok a' /\ forall x, get_parameter x a' = if str_eqb (upper x) (upper n) then Some v else get_parameter x a.
Proof.
  intros n v a a' HP HS H. unfold set_parameter in H. destruct (a_perm a); [|discriminate]. destruct (find_dir (sets_param n) (a_dirs a)) as [[[[p t] c] q]|] eqn:FD.
  - apply find_dir_some in FD. destruct FD as (EQ & ST & NB). unfold pars_ok in HP. rewrite EQ in HP. pose proof HP as HP0. apply Forall_app in HP. destruct HP as (H1 & H2). apply Forall_cons_iff in H2. destruct H2 as (D & H2).
    destruct (sets_some n t c D ST) as (l & C & E & P & L & _). pose proof ST as ST'. rewrite (sets_pline n t l C E P L) in ST'. pose proof (line_value n l P) as LV. rewrite ST' in LV. destruct LV as (u & e & w & EL & AE & SN & GV & LK & k & CV & EK). rewrite CV in H. subst k. injection H as <-.
    rewrite E. rewrite (replaced_pline l u e w v EL). set (l' := new_pline l u w e v). assert (P' : pline_ok l') by (apply new_pline_ok; [exact P|exact EL|apply HS]). assert (L' : l_lead l' = []) by exact L.
    assert (HP' : Forall dir_ok (p ++ with_text t (pline_text l') :: q)) by (apply Forall_app; split; [exact H1|]; constructor; [|exact H2]; right; right; exists l'; auto).
    split; [exact HP'|]. intros x. rewrite get_val by exact HP'. rewrite get_val by (unfold pars_ok; rewrite EQ; exact HP0). cbn [end_update with_dirs a_dirs]. rewrite EQ, !first_val_app. cbn [first_val].
    rewrite (dir_pline x (with_text t (pline_text l')) l' C eq_refl P' L'), (dir_pline x t l C E P L), EL. change (l_pars l') with (u ++ with_val v e :: w). rewrite (find_replace x n u e w v SN AE).
    destruct (str_eqb (upper x) (upper n)) eqn:EN; [|reflexivity]. apply str_eqb_eq in EN. rewrite (first_val_name x n p EN), (first_val_none n p NB). reflexivity.
  - unfold add_text in H. destruct (text_space a) as [xy|]; [|discriminate]. cbn [option_map] in H. injection H as <-. destruct (new_entry_ok n v HS) as (l & E & P & L & FV). set (t := Txt _ _ _ _ _ _ _ _ _).
    assert (HP' : Forall dir_ok (a_dirs a ++ [t])) by (apply Forall_app; split; [exact HP|]; constructor; [|constructor]; right; right; exists l; auto).
    split; [exact HP'|]. intros x. rewrite get_val by exact HP'. rewrite get_val by exact HP. cbn [end_update with_dirs a_dirs]. rewrite first_val_app. cbn [first_val]. rewrite (dir_pline x t l eq_refl E P L), FV, (eqb_sym_s (upper n)).
    destruct (str_eqb (upper x) (upper n)) eqn:EN; [|destruct (first_val x (a_dirs a)); reflexivity]. apply str_eqb_eq in EN. rewrite (first_val_name x n _ EN), (first_val_none n _ (find_dir_none _ _ _ FD)). reflexivity.
Qed.
Lemma set_all_first : forall l a a', pars_ok a -> Forall setting_ok l -> set_all l a = Some a' -> pars_ok a' /\ forall f, (forall x, get_parameter x a = f x) -> forall x, get_parameter x a' = settings l f x.
Proof.
  induction l as [|[n v] l IH]; intros a a' HP HO H; cbn [set_all settings] in *; [injection H as <-; split; [exact HP|auto]|]. inversion HO as [|? ? HO1 HO2]; subst. destruct (set_parameter n v a) as [e1|] eqn:E; [|discriminate].
  destruct (set_first _ _ _ _ HP HO1 E) as (HP1 & G). destruct (IH e1 a' HP1 HO2 H) as (HP2 & K). split; [exact HP2|]. intros f HF x. apply K. intros y. rewrite G, HF. reflexivity.
Qed.
Lemma set_found : forall n v a, pars_ok a -> a_perm a = Inform -> get_parameter n a <> None \/ text_space a <> None -> exists a', set_parameter n v a = Some a'.
Proof.
  intros n v a HP EP H. unfold get_parameter in H. unfold set_parameter. rewrite EP. destruct (find_dir (sets_param n) (a_dirs a)) as [[[[p t] c] q]|] eqn:FD.
  - apply find_dir_some in FD. destruct FD as (EQ & ST & NB). unfold pars_ok in HP. rewrite EQ in HP. apply Forall_app in HP. destruct HP as (_ & H2). apply Forall_cons_iff in H2. destruct H2 as (D & _).
    destruct (sets_some n t c D ST) as (l & C & E & P & L & _). rewrite (sets_pline n t l C E P L) in ST. pose proof (line_value n l P) as LV. rewrite ST in LV. destruct LV as (u & e & w & _ & _ & _ & _ & _ & k & CV & _). rewrite CV. eexists. reflexivity.
  - destruct H as [H|H]; [contradiction|]. unfold add_text. destruct (text_space a); [eexists; reflexivity|contradiction].
Qed.
(** From the items of the file. *)
Lemma shows_pars : forall a f, shows a f -> par_items (f_items f) -> pars_ok a.
Proof.
  intros a f SH H. apply Forall_forall. intros x X. destruct (f2_in_l _ _ _ _ _ _ (sh_dirs _ _ SH) X) as (t & T & N). apply in_notes in T. destruct (note_fields _ _ N) as (_ & _ & TT & TC). unfold dir_ok. rewrite TT, TC. destruct (n_comment t) eqn:C; [left; reflexivity|]. right.
  destruct (H t T C) as [K|K]; [left|right; exact K]. destruct (is_par (n_text t)) eqn:E; [|reflexivity]. apply is_par_spec in E. contradiction.
Qed.
Lemma shows_get : forall a f n, shows a f -> par_items (f_items f) -> first_setting n (f_items f) (get_parameter n a).
Proof.
  intros a f n SH HI. pose proof (shows_pars a f SH HI) as HP. unfold first_setting. unfold get_parameter. destruct (find_dir (sets_param n) (a_dirs a)) as [[[[p t] c] q]|] eqn:FD.
  - left. apply find_dir_some in FD. destruct FD as (EQ & ST & NB). pose proof (sh_dirs _ _ SH) as G. unfold pars_ok in HP. rewrite EQ in G, HP. apply Forall_app in HP. destruct HP as (_ & H2). apply Forall_cons_iff in H2. destruct H2 as (D & _).
    destruct (sets_some n t c D ST) as (l & C & E & P & L & _). rewrite (sets_pline n t l C E P L) in ST. pose proof (line_value n l P) as LV. rewrite ST in LV. destruct LV as (u & e & w & EL & AE & SN & GV & _).
    destruct (f2_split _ _ _ _ _ _ _ G) as (np & y & nq & EN & F1 & F2 & F3). destruct (notes_split _ _ _ _ EN) as (ip & iq & EI & Ep & Eq). destruct (note_fields _ _ F2) as (_ & _ & TT & TC).
    exists ip, y, iq, l, u, e, w. split; [exact EI|]. split; [congruence|]. split; [congruence|]. split; [exact P|]. split; [exact L|]. split; [exact EL|]. split; [apply str_eqb_eq; exact SN|]. split; [rewrite E; exact GV|]. split.
    + intros e' I' K. rewrite <- not_true_iff_false in AE. apply AE. apply existsb_exists. exists e'. split; [exact I'|]. unfold same_name. rewrite K. apply str_eqb_refl.
    + intros t' x' I' C' E' P' L' e' IE K. apply in_notes in I'. rewrite Ep in I'. destruct (f2_in _ _ _ _ _ _ F1 I') as (x & XI & XN). destruct (note_fields _ _ XN) as (_ & _ & XT & XC). specialize (NB x XI).
      rewrite (sets_pline n x x') in NB by congruence. pose proof (line_value n x' P') as LV. rewrite NB in LV. destruct (find (same_name n) (l_pars x')) eqn:FN; [discriminate|]. pose proof (find_none _ _ FN e' IE) as W. unfold same_name in W. rewrite K, str_eqb_refl in W. discriminate.
  - right. split; [reflexivity|]. intros t' x' I' C' E' P' L' e' IE K. apply in_notes in I'. destruct (f2_in _ _ _ _ _ _ (sh_dirs _ _ SH) I') as (x & XI & XN). destruct (note_fields _ _ XN) as (_ & _ & XT & XC). pose proof (find_dir_none _ _ _ FD x XI) as NB.
    rewrite (sets_pline n x x') in NB by congruence. pose proof (line_value n x' P') as LV. rewrite NB in LV. destruct (find (same_name n) (l_pars x')) eqn:FN; [discriminate|]. pose proof (find_none _ _ FN e' IE) as W. unfold same_name in W. rewrite K, str_eqb_refl in W. discriminate.
Qed.
