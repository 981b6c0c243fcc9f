(** Proofs about the parameters of QSPICE components: one line. *)
From Coq Require Import String Ascii List Bool Arith ZArith Lia.
From Verif Require Import PyStr EngModel StepsModel Regex RegexProofs RegexInv RegexMore CompModel CompProofs UpdatesModel QTagModel QTagSpec QEdModel QEdSpec
  ParModel ParSpec ParLine ParLine2 QCmpModel QCmpSpec.
Import ListNotations.
Local Open Scope string_scope. Local Open Scope nat_scope. Local Open Scope list_scope.

Lemma no_sep_none : forall s q, plain_text s -> search_from R0 q s = None.
Proof.
  intros s q (NE & NB). apply search_none. intros x y ->. apply no_any. intros w t -> _ _ S.
  destruct S as (b1 & c & b2 & v & r & -> & _ & [-> | ->] & _); [apply NE|apply NB]; apply in_or_app; right; apply in_or_app; right; apply in_or_app; right; left; reflexivity.
Qed.
Lemma free_none : forall s, plain_text s -> finditer R0 s = [].
Proof. intros s H. unfold finditer. destruct (length s); cbn [find_all]; rewrite no_sep_none by exact H; reflexivity. Qed.

Definition blank_sep (e : entry) : entry := {| e_sep := [" "%char]; e_par := e_par e; e_b1 := e_b1 e; e_b2 := e_b2 e; e_val := e_val e |}.
Lemma blank_sep_ok : forall e, centry_ok e -> entry_ok (blank_sep e).
Proof.
  intros e (S & (N & _) & B1 & B2 & (V & _)). unfold entry_ok, blank_sep. cbn. repeat (split; [|]); try assumption; try apply N; try discriminate.
  intros c [<- | []]. reflexivity.
Qed.
Lemma centry_entry : forall e, centry_ok e -> e_sep e <> [] -> entry_ok e.
Proof. intros e (S & (N & _) & B1 & B2 & (V & _)) NE. unfold entry_ok. repeat split; try assumption; apply N || apply V. Qed.
Lemma cpars_tail : forall l, Forall centry_ok l -> Forall (fun e => e_sep e <> []) l -> Forall entry_ok l.
Proof. induction 1 as [|e l H F IH]; intros S; [constructor|]. inversion S; subst. constructor; [apply centry_entry; assumption|auto]. Qed.

Lemma spaces_none : forall t q, ParSpec.spaces t -> search_from R0 q t = None.
Proof.
  intros t q H. apply search_none. intros x y ->. apply no_any. intros w z E NW W _. destruct w as [|a w]; [contradiction|].
  cbn [forallb] in W. apply andb_true_iff in W. destruct W as (W & _). rewrite (H a) in W; [discriminate|]. rewrite E. apply in_or_app. right. left. reflexivity.
Qed.
Lemma spaces_stop : forall t, ParSpec.spaces t -> stops t.
Proof. intros [|c t] H; [exact I|]. left. apply H. left. reflexivity. Qed.
Lemma find_body : forall e l p tl fuel, centry_ok e -> Forall entry_ok l -> stops tl -> (forall q, search_from R0 q tl = None) -> S (length l) <= fuel ->
  marked p (e :: l) (find_all fuel R0 p (entries_text (e :: l) ++ tl)).
Proof.
  intros e l p tl fuel HE HF HS HN HL. destruct fuel as [|f]; [lia|].
  change (entries_text (e :: l)) with (entry_text e ++ entries_text l). rewrite entry_body, <- !app_assoc. rewrite find_skip by (apply space_not_word; apply HE). cbn [find_all].
  destruct (setting_match any_name (blank_sep e) (p + length (e_sep e)) (entries_text l ++ tl)) as (c & M & CN & CV); [apply blank_sep_ok; exact HE|apply entries_stop; assumption|apply any_taken; apply HE|].
  change (body (blank_sep e)) with (body e) in *. change (e_par (blank_sep e)) with (e_par e) in CN. change (e_val (blank_sep e)) with (e_val e) in CV.
  rewrite (search_hit _ _ _ _ _ M). replace (p + length (e_sep e) + length (body e) - (p + length (e_sep e))) with (length (body e)) by lia. rewrite skipn_app, skipn_all, Nat.sub_diag. cbn [skipn app].
  assert (p + length (e_sep e) + length (body e) = p + length (entry_text e)) as Q by (rewrite entry_body, app_length; lia).
  apply mk_cons; [reflexivity|exact Q|exact CN|exact CV|]. apply find_marked; [exact HF|exact HS|exact HN|lia].
Qed.
Lemma entry_long : forall e, 0 < length (entry_text e).
Proof. intros e. unfold entry_text. rewrite !app_length. cbn [length]. lia. Qed.
Lemma entries_long : forall l, length l <= length (entries_text l).
Proof. induction l as [|e l IH]; [cbn; lia|]. change (entries_text (e :: l)) with (entry_text e ++ entries_text l). rewrite app_length. pose proof (entry_long e). cbn [length]. lia. Qed.
Lemma pars_marked : forall l t, ctext_ok (Pars l t) -> marked 0 l (finditer R0 (ctext_str (Pars l t))).
Proof.
  intros l t (F & S & T). unfold finditer. cbn [ctext_str]. fold (entries_text l). destruct l as [|e l].
  - cbn [entries_text map concat app]. destruct (length t); cbn [find_all]; rewrite spaces_none by exact T; constructor.
  - inversion F as [|? ? FE FL]; subst. cbn [tl] in S. apply find_body; [exact FE|apply cpars_tail; assumption|apply spaces_stop; exact T|intros q; apply spaces_none; exact T|].
    rewrite app_length. pose proof (entries_long (e :: l)). cbn [length] in *. lia.
Qed.

Lemma put_pars : forall ms s l d, map (fun x => group gNAME s (snd x)) ms = map (fun e => Some (e_par e)) l ->
  map (fun x => group gVALUE s (snd x)) ms = map (fun e => Some (e_val e)) l ->
  put_matches s ms d = Some (fold_left (fun d e => pset (PName (e_par e)) (e_val e) d) l d).
Proof.
  induction ms as [|[[b q] c] ms IH]; intros s [|e l] d E1 E2; try discriminate; [reflexivity|].
  cbn [map snd] in E1, E2. injection E1 as A1 E1. injection E2 as A2 E2. cbn [put_matches fold_left]. rewrite A1, A2. apply IH; assumption.
Qed.
Lemma put_line : forall x d, ctext_ok x ->
  put_matches (ctext_str x) (finditer any_setting (ctext_str x)) d =
  Some (fold_left (fun d e => pset (PName (e_par e)) (e_val e) d) (entries_of x) d).
Proof.
  intros [s|l t] d H.
  - change any_setting with R0. rewrite free_none by exact H. reflexivity.
  - pose proof (pars_marked l t H) as M. change any_setting with R0.
    destruct (marked_names 0 l _ M (ctext_str (Pars l t)) [] t eq_refl eq_refl) as (N1 & N2).
    apply put_pars; assumption.
Qed.

(** The first setting of a name in a line. *)
Lemma marked_hit : forall n p l ms, marked p l ms -> forall line pre tl, line = pre ++ entries_text l ++ tl -> length pre = p ->
  match find (fun x => match group gNAME line (snd x) with Some k => str_eqb k n | None => false end) ms with
  | Some (b0, q, c) =>
      exists a e b, l = a ++ e :: b /\ (forall z, In z a -> e_par z <> n) /\ e_par e = n /\
        b0 = p + length (entries_text a) + length (e_sep e) /\ q = p + length (entries_text a) + length (entry_text e) /\
        cap gVALUE c = Some (q - length (e_val e), q)
  | None => forall z, In z l -> e_par z <> n
  end.
Proof.
  intros n p l ms H. induction H as [|p e l b q c ms HB HQ CN CV H IH]; intros line pre tl E L; [intros z []|].
  assert (marked p (e :: l) ((b, q, c) :: ms)) as HM by (constructor; assumption).
  destruct (marked_names _ _ _ HM line pre tl E L) as [N1 _]. cbn [map snd] in N1. injection N1 as N1 _.
  change (entries_text (e :: l)) with (entry_text e ++ entries_text l) in E.
  cbn [find snd]. rewrite N1. destruct (str_eqb (e_par e) n) eqn:X.
  - apply str_eqb_eq in X. exists [], e, l. cbn [entries_text map concat length app]. repeat split; try assumption; [intros z []|lia|lia].
  - apply str_eqb_neq in X.
    assert (line = (pre ++ entry_text e) ++ entries_text l ++ tl) as E' by (rewrite E, <- !app_assoc; reflexivity).
    assert (length (pre ++ entry_text e) = p + length (entry_text e)) as L' by (rewrite app_length; lia).
    specialize (IH line (pre ++ entry_text e) tl E'). rewrite HQ in IH. specialize (IH L').
    destruct (find _ ms) as [[[b0 q0] c0]|].
    + destruct IH as (a & e0 & b1 & -> & A & B & C & D & F). exists (e :: a), e0, b1. split; [reflexivity|].
      split; [intros z [<- | Z]; [exact X|exact (A z Z)]|]. split; [exact B|].
      change (entries_text (e :: a)) with (entry_text e ++ entries_text a). rewrite app_length. subst q. split; [lia|]. split; [lia|exact F].
    + intros z [<- | Z]; [exact X|exact (IH z Z)].
Qed.
Lemma hit_spec : forall n x, ctext_ok x ->
  match line_hit n (ctext_str x) with
  | Some (b0, q, c) =>
      exists l t a e b, x = Pars l t /\ l = a ++ e :: b /\ (forall z, In z a -> e_par z <> n) /\ e_par e = n /\
        b0 = length (entries_text a) + length (e_sep e) /\ q = length (entries_text a) + length (entry_text e) /\
        cap gVALUE c = Some (q - length (e_val e), q)
  | None => forall z, In z (entries_of x) -> e_par z <> n
  end.
Proof.
  intros n [s|l t] H; unfold line_hit; change any_setting with R0.
  - rewrite free_none by exact H. intros z [].
  - pose proof (marked_hit n 0 l _ (pars_marked l t H) (ctext_str (Pars l t)) [] t eq_refl eq_refl) as K.
    destruct (find _ _) as [[[b0 q] c]|]; [|exact K]. destruct K as (a & e & b & K1 & K2 & K3 & K4 & K5 & K6).
    exists l, t, a, e, b. split; [reflexivity|]. split; [exact K1|]. split; [exact K2|]. split; [exact K3|]. split; [lia|]. split; [lia|exact K6].
Qed.

(** What the changes do to the text. *)
Definition new_val (v : str) (e : entry) : entry := {| e_sep := e_sep e; e_par := e_par e; e_b1 := e_b1 e; e_b2 := e_b2 e; e_val := v |}.
Lemma entries_app : forall a b, entries_text (a ++ b) = entries_text a ++ entries_text b.
Proof. intros a b. unfold entries_text. rewrite map_app, concat_app. reflexivity. Qed.
Lemma FLen : forall (a b : str), firstn (length a) (a ++ b) = a.
Proof. intros a b. rewrite firstn_app, Nat.sub_diag, firstn_all. cbn [firstn]. apply app_nil_r. Qed.
Lemma SLen : forall (a b : str), skipn (length a) (a ++ b) = b.
Proof. intros a b. rewrite skipn_app, Nat.sub_diag, skipn_all. reflexivity. Qed.
Lemma replaced_text : forall a e b t v,
  let s := ctext_str (Pars (a ++ e :: b) t) in let q := length (entries_text a) + length (entry_text e) in
  firstn (q - length (e_val e)) s ++ v ++ skipn q s = ctext_str (Pars (a ++ new_val v e :: b) t).
Proof.
  intros a e b t v. cbn zeta. cbn [ctext_str]. fold (entries_text (a ++ e :: b)). fold (entries_text (a ++ new_val v e :: b)).
  rewrite !entries_app. change (entries_text (e :: b)) with (entry_text e ++ entries_text b). change (entries_text (new_val v e :: b)) with (entry_text (new_val v e) ++ entries_text b).
  set (P := entries_text a ++ e_sep e ++ e_par e ++ e_b1 e ++ "="%char :: e_b2 e).
  assert (entries_text a ++ entry_text e = P ++ e_val e) as E by (unfold P, entry_text; rewrite <- !app_assoc; cbn [app]; reflexivity).
  assert (entries_text a ++ entry_text (new_val v e) = P ++ v) as E2 by (unfold P, entry_text, new_val; cbn [e_sep e_par e_b1 e_b2 e_val]; rewrite <- !app_assoc; cbn [app]; reflexivity).
  rewrite <- !app_assoc. rewrite !(app_assoc (entries_text a)). rewrite E, E2.
  assert (length (entries_text a) + length (entry_text e) = length (P ++ e_val e)) as L by (rewrite <- E, app_length; reflexivity).
  rewrite L. replace (length (P ++ e_val e) - length (e_val e)) with (length P) by (rewrite app_length; lia).
  rewrite <- (app_assoc P (e_val e)), FLen, (app_assoc P (e_val e)), SLen, <- !app_assoc. reflexivity.
Qed.
(** without the setting: its blanks go to the next one, or to the end *)
Definition cut_entry (a : list entry) (e : entry) (b : list entry) (t : str) : ctext :=
  match b with
  | [] => Pars a (e_sep e ++ t)
  | x :: r => Pars (a ++ {| e_sep := e_sep e ++ e_sep x; e_par := e_par x; e_b1 := e_b1 x; e_b2 := e_b2 x; e_val := e_val x |} :: r) t
  end.
Lemma cut_text : forall a e b t,
  let s := ctext_str (Pars (a ++ e :: b) t) in
  firstn (length (entries_text a) + length (e_sep e)) s ++ skipn (length (entries_text a) + length (entry_text e)) s = ctext_str (cut_entry a e b t).
Proof.
  intros a e b t. cbn zeta. cbn [ctext_str]. fold (entries_text (a ++ e :: b)).
  assert (ctext_str (cut_entry a e b t) = (entries_text a ++ e_sep e) ++ entries_text b ++ t) as ->.
  { unfold cut_entry. destruct b as [|x r]; cbn [ctext_str].
    - fold (entries_text a). rewrite <- app_assoc. reflexivity.
    - match goal with |- concat (map entry_text ?l) ++ _ = _ => fold (entries_text l) end. rewrite entries_app.
      match goal with |- (_ ++ entries_text (?y :: r)) ++ _ = _ => change (entries_text (y :: r)) with (entry_text y ++ entries_text r) end.
      change (entries_text (x :: r)) with (entry_text x ++ entries_text r). rewrite (entry_body x), (entry_body {| e_sep := e_sep e ++ e_sep x; e_par := e_par x; e_b1 := e_b1 x; e_b2 := e_b2 x; e_val := e_val x |}). unfold body. cbn [e_sep e_par e_b1 e_b2 e_val].
      rewrite <- !app_assoc. cbn [app]. rewrite <- ?app_assoc. reflexivity. }
  rewrite entries_app. change (entries_text (e :: b)) with (entry_text e ++ entries_text b).
  rewrite <- app_length. rewrite <- (app_length (entries_text a) (entry_text e)).
  assert ((entries_text a ++ entry_text e ++ entries_text b) ++ t = (entries_text a ++ e_sep e) ++ body e ++ entries_text b ++ t) as E1
    by (rewrite entry_body, <- !app_assoc; reflexivity).
  assert ((entries_text a ++ entry_text e ++ entries_text b) ++ t = (entries_text a ++ entry_text e) ++ entries_text b ++ t) as E2
    by (rewrite <- !app_assoc; reflexivity).
  rewrite E1 at 1. rewrite E2. rewrite FLen, SLen. reflexivity.
Qed.

Lemma new_val_ok : forall a e b t v, ctext_ok (Pars (a ++ e :: b) t) -> cvalue v -> ctext_ok (Pars (a ++ new_val v e :: b) t).
Proof.
  intros a e b t v (F & S & T) V. apply Forall_app in F. destruct F as (FA & FB). inversion FB as [|? ? (E1 & E2 & E3 & E4 & E5) FB']; subst.
  split; [|split; [|exact T]].
  - apply Forall_app. split; [exact FA|]. constructor; [|exact FB']. unfold centry_ok, new_val. cbn. auto.
  - destruct a as [|x a]; cbn [app tl] in *; [exact S|]. apply Forall_app in S. destruct S as (SA & SB). apply Forall_app. split; [exact SA|].
    inversion SB; subst. constructor; assumption.
Qed.
Lemma cut_ok : forall a e b t, ctext_ok (Pars (a ++ e :: b) t) -> ctext_ok (cut_entry a e b t).
Proof.
  intros a e b t (F & S & T). apply Forall_app in F. destruct F as (FA & FB). inversion FB as [|? ? (E1 & E2 & E3 & E4 & E5) FB']; subst.
  unfold cut_entry. destruct b as [|x r].
  - split; [exact FA|]. split.
    + destruct a as [|x a]; cbn [app tl] in *; [constructor|]. apply Forall_app in S. apply S.
    + intros c C. apply in_app_or in C. destruct C as [C|C]; [exact (E1 c C)|exact (T c C)].
  - inversion FB' as [|? ? (X1 & X2 & X3 & X4 & X5) FR]; subst. split; [|split; [|exact T]].
    + apply Forall_app. split; [exact FA|]. constructor; [|exact FR]. unfold centry_ok. cbn. split; [|auto].
      intros c C. apply in_app_or in C. destruct C as [C|C]; [exact (E1 c C)|exact (X1 c C)].
    + destruct a as [|y a]; cbn [app tl] in *.
      * inversion S; subst. assumption.
      * apply Forall_app in S. destruct S as (SA & SB). apply Forall_app. split; [exact SA|].
        inversion SB as [|? ? SE SB']; subst. inversion SB' as [|? ? SX SR]; subst. constructor; [|exact SR].
        cbn. intros E. apply app_eq_nil in E. destruct E as (E & _). contradiction.
Qed.
Lemma cut_entries : forall a e b t, map (fun z => (e_par z, e_val z)) (entries_of (cut_entry a e b t)) = map (fun z => (e_par z, e_val z)) (a ++ b).
Proof. intros a e b t. unfold cut_entry. destruct b as [|x r]; cbn [entries_of]; [rewrite app_nil_r; reflexivity|]. rewrite !map_app. reflexivity. Qed.
