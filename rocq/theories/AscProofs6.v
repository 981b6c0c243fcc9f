(** Histories of edits of an LTspice schematic; what can be asked of an editor. *)
From Coq Require Import String Ascii List Bool Arith ZArith Lia.
From Verif Require Import PyStr EngModel EngProofs StepsModel StepsProofs LogProofs Regex CompModel UpdatesModel ParModel QTagModel QTagProofs QEdProofs3 QEdProofs4 QParProofs AscModel AscCalls AscSpec AscProofs AscProofs2 AscProofs3 AscProofs4 AscProofs5.
Import ListNotations.
Local Open Scope string_scope. Local Open Scope nat_scope. Local Open Scope list_scope.

(** ** Texts without blanks at the ends *)
Definition edge (s : str) : Prop := match s with [] => True | c :: _ => is_space c = false end.
Lemma lstrip_edge : forall s, edge s -> lstrip s = s.
Proof. intros [|c s] H; [reflexivity|]. cbn in *. rewrite H. reflexivity. Qed.
Lemma edge_lstrip : forall s, edge (lstrip s).
Proof. induction s as [|c s IH]; [exact I|]. unfold lstrip, lstrip_if in *. fold (lstrip_if is_space s) in *. cbn [lstrip_if]. destruct (is_space c) eqn:E; [exact IH|exact E]. Qed.
Lemma strip_iff : forall s, strip s = s <-> edge s /\ edge (rev s).
Proof.
  intros s. split.
  - intros H. split.
    + assert (N : s = [] \/ s <> []) by (destruct s; [left; reflexivity|right; discriminate]). destruct N as [->|N]; [exact I|].
      destruct s as [|c r]; [contradiction|]. cbn. destruct (is_space c) eqn:E; [|reflexivity]. exfalso. clear N. unfold strip, strip_if, rstrip_if in H. cbn [lstrip_if] in H. rewrite E in H.
      assert (L : forall g u, length (lstrip_if g u) <= length u) by (intros g u; induction u as [|x u IH]; cbn [lstrip_if length]; [lia|]; destruct (g x); cbn [length]; lia).
      assert (K : length (rev (lstrip_if is_space (rev (lstrip_if is_space r)))) <= length r) by (rewrite rev_length; etransitivity; [apply L|]; rewrite rev_length; apply L).
      rewrite H in K. cbn [length] in K. lia.
    + rewrite <- H. unfold strip, strip_if, rstrip_if. rewrite rev_involutive. apply edge_lstrip.
  - intros (A & B). unfold strip, strip_if, rstrip_if. change (lstrip_if is_space s) with (lstrip s). rewrite (lstrip_edge s A). change (lstrip_if is_space (rev s)) with (lstrip (rev s)). rewrite (lstrip_edge _ B). apply rev_involutive.
Qed.
Lemma edge_app : forall a b, edge a -> a <> [] -> edge (a ++ b).
Proof. intros [|c a] b H N; [contradiction|exact H]. Qed.
Lemma edge_app_inv : forall a b, a <> [] -> edge (a ++ b) -> edge a.
Proof. intros [|c a] b N H; [contradiction|exact H]. Qed.
Lemma replaced_clean : forall a old b v, a <> [] -> clean (a ++ old ++ b) -> clean v -> v <> [] -> clean (a ++ v ++ b).
Proof.
  intros a old b v NA (A1 & A2 & A3) (V1 & V2 & V3) NV. apply strip_iff in A3. destruct A3 as (E1 & E2). apply strip_iff in V3. destruct V3 as (E3 & E4).
  assert (IN : forall c, ~ In c (a ++ old ++ b) -> ~ In c v -> ~ In c (a ++ v ++ b)).
  { intros c H1 H2 K. apply in_app_or in K. destruct K as [K|K]; [apply H1; apply in_or_app; left; exact K|]. apply in_app_or in K. destruct K as [K|K]; [contradiction|]. apply H1. apply in_or_app. right. apply in_or_app. right. exact K. }
  split; [apply IN; assumption|]. split; [apply IN; assumption|]. apply strip_iff. split; [apply edge_app; [eapply edge_app_inv; eassumption|exact NA]|].
  rewrite !rev_app_distr in *. destruct b as [|x b].
  - cbn [rev app] in *. apply edge_app; [exact E4|]. intros K. apply NV. apply (f_equal (@rev ascii)) in K. rewrite rev_involutive in K. exact K.
  - rewrite <- !app_assoc in *. assert (NB : rev (x :: b) <> []) by (intros K; apply (f_equal (@length ascii)) in K; rewrite rev_length in K; discriminate). apply edge_app; [eapply edge_app_inv; [exact NB|exact E2]|exact NB].
Qed.
Lemma strip_clean : forall s, ~ In LF (strip s) -> ~ In CR (strip s) -> clean (strip s).
Proof. intros s A B. split; [exact A|]. split; [exact B|apply strip_strip]. Qed.

(** ** Well-formed files stay well-formed *)
Lemma added_ok : forall s l l', added s l l' -> clean s -> (forall i, In i l -> item_ok i) -> (forall i, In i l' -> item_ok i) /\ symbols l' = symbols l.
Proof.
  intros s l l' (x & y & -> & _) C OK. split.
  - intros i I. apply (proj1 (by_kind_in _ _)) in I. apply in_app_or in I. destruct I as [I|[<-|[]]]; [apply OK; exact I|]. split; [left; reflexivity|]. split; [cbn; lia|exact C].
  - rewrite symbols_kind. unfold symbols. rewrite flat_map_app. cbn [flat_map app]. apply app_nil_r.
Qed.
Lemma swap_ok : forall p t u q, (forall i, In i (p ++ Note t :: q) -> item_ok i) -> (note_ok t -> note_ok u) -> (forall i, In i (p ++ Note u :: q) -> item_ok i).
Proof.
  intros p t u q OK H i I. apply in_app_or in I. destruct I as [I|[<-|I]]; [apply OK; apply in_or_app; left; exact I| |apply OK; apply in_or_app; right; right; exact I].
  apply H. apply (OK (Note t)). apply in_or_app. right. left. reflexivity.
Qed.
Theorem edited_ok : forall sub e f l', file_ok sub f -> edit_ok sub e -> edited e (f_items f) l' -> file_ok sub (mk (f_version f) (f_sheet f) l').
Proof.
  intros sub e f l' (V & SH & OK & ND & SB) EO ED. unfold file_ok, mk. cbn [f_version f_sheet f_items]. split; [exact V|]. split; [exact SH|].
  assert (ONS : forall ref h, (forall s, In s (symbols (f_items f)) -> s_ref s = ref -> symbol_ok s -> symbol_ok (h s) /\ s_ref (h s) = s_ref s /\ sub (s_name (h s)) (s_ref s) <> None) -> l' = map (on_symbol ref h) (f_items f) ->
     (forall i, In i l' -> item_ok i) /\ NoDup (map s_ref (symbols l')) /\ (forall s, In s (symbols l') -> sub (s_name s) (s_ref s) <> None)).
  { intros ref h HH ->. assert (SO : forall s, In s (symbols (f_items f)) -> symbol_ok s) by (intros s S; apply in_symbols in S; apply (OK _ S)). split; [|split].
    - intros i I. apply in_map_iff in I. destruct I as (j & <- & J). destruct j; try (apply (OK _ J)). cbn [on_symbol]. destruct (str_eqb (s_ref s) ref) eqn:E; [|apply (OK _ J)]. apply str_eqb_eq in E. apply in_symbols in J. apply (HH s J E). apply SO. exact J.
    - rewrite symbols_on, map_map. assert (EQ : map (fun x => s_ref (if str_eqb (s_ref x) ref then h x else x)) (symbols (f_items f)) = map s_ref (symbols (f_items f))); [|rewrite EQ; exact ND].
      apply map_ext_in. intros s S. destruct (str_eqb (s_ref s) ref) eqn:E; [|reflexivity]. apply str_eqb_eq in E. apply (HH s S E (SO s S)).
    - rewrite symbols_on. intros s S. apply in_map_iff in S. destruct S as (s0 & <- & S). destruct (str_eqb (s_ref s0) ref) eqn:E; [|apply SB; exact S]. apply str_eqb_eq in E. destruct (HH s0 S E (SO s0 S)) as (_ & R & N). rewrite R. exact N. }
  assert (SUBL : forall p, l' = filter p (f_items f) -> (forall i, In i l' -> item_ok i) /\ NoDup (map s_ref (symbols l')) /\ (forall s, In s (symbols l') -> sub (s_name s) (s_ref s) <> None)).
  { intros p ->. split; [|split].
    - intros i I. apply filter_In in I. apply OK. apply I.
    - assert (G : forall l, NoDup (map s_ref (symbols l)) -> NoDup (map s_ref (symbols (filter p l))) /\ forall r, In r (map s_ref (symbols (filter p l))) -> In r (map s_ref (symbols l))).
      { clear. unfold symbols. induction l as [|i l IH]; intros H; [split; [constructor|auto]|]. cbn [flat_map filter] in *. rewrite map_app in *.
        assert (H2 : NoDup (map s_ref (flat_map (fun i => match i with Symbol s => [s] | _ => [] end) l))) by (destruct i; cbn [map app] in H; try exact H; apply NoDup_cons_iff in H; apply H).
        destruct (IH H2) as (A & B). destruct (p i); [|split; [exact A|intros r R; apply in_or_app; right; apply B; exact R]]. cbn [flat_map]. rewrite map_app. split.
        - destruct i; cbn [map app] in *; try exact A. apply NoDup_cons_iff in H. destruct H as (H & _). constructor; [|exact A]. intros K. apply H. apply B. exact K.
        - intros r R. apply in_app_or in R. apply in_or_app. destruct R as [R|R]; [left; exact R|right; apply B; exact R]. }
      apply G. exact ND.
    - intros s S. apply in_symbols in S. apply filter_In in S. apply SB. apply in_symbols. apply S. }
  assert (ADD : forall s, added s (f_items f) l' -> clean s -> (forall i, In i l' -> item_ok i) /\ NoDup (map s_ref (symbols l')) /\ (forall s, In s (symbols l') -> sub (s_name s) (s_ref s) <> None)).
  { intros s A C. destruct (added_ok _ _ _ A C OK) as (I & E). rewrite E. auto. }
  assert (SWP : forall p t u q, f_items f = p ++ Note t :: q -> l' = p ++ Note u :: q -> (note_ok t -> note_ok u) -> (forall i, In i l' -> item_ok i) /\ NoDup (map s_ref (symbols l')) /\ (forall s, In s (symbols l') -> sub (s_name s) (s_ref s) <> None)).
  { intros p t u q E -> N. rewrite E in OK. split; [eapply swap_ok; eassumption|]. destruct (other_note p t u q) as (_ & _ & O3 & _). rewrite O3, <- E. auto. }
  destruct e as [ref v|ref x y r|ref m|ref|s|s|pat|n v]; cbn [edited edit_ok] in *.
  - destruct ED as (_ & ->). eapply ONS; [|reflexivity]. intros s S R (A & B & C & D & E & F & G & H). split; [|split; [reflexivity|exact (SB s S)]].
    split; [exact A|]. split; [exact B|]. split; [exact C|]. split; [exact D|]. split; [exact E|]. split; [exact F|]. cbn [put_attr s_attrs]. split.
    + intros e I. apply in_map_iff in I. destruct I as (e0 & <- & I). destruct (str_eqb (fst e0) (s2l "Value")) eqn:Q; [|apply G; exact I]. destruct EO as (CV & NV). destruct (G e0 I) as (K1 & K2 & K3 & _). apply str_eqb_eq in Q. rewrite Q in *.
      split; [exact K1|]. split; [exact K2|]. split; [exact K3|]. split; [exact CV|]. split; [exact NV|]. intros K. discriminate K.
    + rewrite map_map. assert (EQ : map (fun x => fst (if str_eqb (fst x) (s2l "Value") then (s2l "Value", v) else x)) (s_attrs s) = map fst (s_attrs s)); [|rewrite EQ; exact H].
      apply map_ext. intros e. destruct (str_eqb (fst e) (s2l "Value")) eqn:Q; [|reflexivity]. apply str_eqb_eq in Q. rewrite Q. reflexivity.
  - destruct ED as (_ & ->). eapply ONS; [|reflexivity]. intros s S R (A & B & C & D & E & F & G & H). split; [|split; [reflexivity|exact (SB s S)]]. unfold symbol_ok. cbn [put_place s_name s_rot s_wins s_ref s_attrs]. auto 10.
  - destruct ED as (_ & ->). eapply ONS; [|reflexivity]. intros s S R (A & B & C & D & E & F & G & H). destruct EO as (M & N). split; [|split; [reflexivity|]].
    + unfold symbol_ok. cbn [put_name s_name s_rot s_wins s_ref s_attrs]. auto 10.
    + cbn [put_name s_name]. rewrite R. exact N.
  - destruct ED as (_ & ->). eapply SUBL. reflexivity.
  - destruct EO as (N1 & N2). pose proof (strip_clean s N1 N2) as CS. destruct ED as [(_ & p & t & q & E & _ & _ & ->)|(_ & A)]; [|eapply ADD; eassumption]. eapply SWP; [exact E|reflexivity|]. intros (A & B & _). split; [exact A|]. split; [exact B|exact CS].
  - destruct ED as [(p & t & q & E & _ & _ & -> & _)|(-> & _)]; [|auto]. rewrite E in OK. destruct (less_note p t q) as (_ & _ & O3 & _). rewrite O3, <- E. split; [|auto]. intros i I. apply OK. apply in_app_or in I. apply in_or_app. destruct I as [I|I]; [left; exact I|right; right; exact I].
  - eapply SUBL. exact ED.
  - destruct EO as (CV & NV & N1 & N2). destruct ED as [(p & t & q & a & n0 & sep & old & b & E & _ & _ & ET & _ & NS & _ & _ & ->)|A].
    + eapply SWP; [exact E|reflexivity|]. intros (A & B & C). split; [exact A|]. split; [exact B|]. cbn [set_text n_text]. rewrite ET in C.
      replace (a ++ n0 ++ sep ++ v ++ b) with ((a ++ n0 ++ sep) ++ v ++ b) by (rewrite <- !app_assoc; reflexivity). apply (replaced_clean _ old); [|rewrite <- !app_assoc; exact C|exact CV|exact NV].
      intros K. apply NS. apply app_eq_nil in K. destruct K as (_ & K). apply app_eq_nil in K. apply K.
    + eapply ADD; [exact A|]. destruct CV as (C1 & C2 & C3). apply strip_iff in C3. destruct C3 as (_ & E2).
      assert (NI : forall c, ~ In c n -> ~ In c v -> ~ In c (s2l ".param ") -> c <> "="%char -> ~ In c (s2l ".param " ++ n ++ s2l "=" ++ v)).
      { intros c A1 A2 A3 A4 K. apply in_app_or in K. destruct K as [K|K]; [contradiction|]. apply in_app_or in K. destruct K as [K|[K|K]]; [contradiction|congruence|contradiction]. }
      split; [apply NI; [exact N1|exact C1|vm_compute; intuition discriminate|discriminate]|]. split; [apply NI; [exact N2|exact C2|vm_compute; intuition discriminate|discriminate]|].
      apply strip_iff. split; [reflexivity|]. rewrite !rev_app_distr, <- !app_assoc. apply edge_app; [exact E2|]. intros K. apply NV. apply (f_equal (@rev ascii)) in K. rewrite rev_involutive in K. exact K.
Qed.

(** ** Histories *)
Lemma mk_eta : forall f, mk (f_version f) (f_sheet f) (f_items f) = f.
Proof. intros []. reflexivity. Qed.
Theorem calls_edited : forall sub es f a a', file_ok sub f -> Forall (edit_ok sub) es -> shows a f -> calls es a = Some a' ->
  exists l', edited_all es (f_items f) l' /\ shows a' (mk (f_version f) (f_sheet f) l') /\ file_ok sub (mk (f_version f) (f_sheet f) l') /\ a_perm a' = a_perm a.
Proof.
  intros sub. induction es as [|e es IH]; intros f a a' OK EO SH H; cbn [calls] in H.
  - injection H as <-. exists (f_items f). rewrite mk_eta. split; [reflexivity|]. auto.
  - destruct (call e a) as [a1|] eqn:E; [|discriminate]. apply Forall_cons_iff in EO. destruct EO as (EO1 & EO2). destruct (call_edited e a a1 sub f OK EO1 SH E) as (m & ED & S1 & P1). pose proof (edited_ok sub e f m OK EO1 ED) as OK1.
    destruct (IH _ _ _ OK1 EO2 S1 H) as (l' & EA & S2 & OK2 & P2). exists l'. cbn [mk f_version f_sheet f_items] in *. split; [exists m; auto|]. split; [exact S2|]. split; [exact OK2|congruence].
Qed.

(** ** Answers *)
Lemma comps_get : forall a f ref, shows a f -> dget ref (a_comps a) = None /\ (forall s, In (Symbol s) (f_items f) -> s_ref s <> ref) \/
  exists c s, dget ref (a_comps a) = Some c /\ In (Symbol s) (f_items f) /\ s_ref s = ref /\ sym_shows (ref, c) s.
Proof.
  intros a f ref SH. destruct (dget ref (a_comps a)) as [c|] eqn:E.
  - right. destruct (comps_find _ _ _ _ (sh_comps _ _ SH) E) as (s & SI & SR & SS). exists c, s. apply in_symbols in SI. auto.
  - left. split; [reflexivity|]. intros s S K. apply in_symbols in S. assert (I : In ref (map fst (a_comps a))) by (rewrite (shows_keys _ _ SH), <- K; apply in_map; exact S).
    clear -E I. unfold dget in E. induction (a_comps a) as [|[k c] l IH]; [destruct I|]. cbn [find fst map] in *. destruct (str_eqb k ref) eqn:Q; [discriminate|]. destruct I as [->|I]; [rewrite str_eqb_refl in Q; discriminate|]. apply IH; assumption.
Qed.
Lemma find_refs : forall ref l s, NoDup (map s_ref (symbols l)) -> In (Symbol s) l -> s_ref s = ref -> find (fun s => str_eqb (s_ref s) ref) (symbols l) = Some s.
Proof.
  intros ref l s ND I R. apply in_symbols in I. induction (symbols l) as [|x u IH]; [destruct I|]. cbn [find map] in *. apply NoDup_cons_iff in ND. destruct ND as (N1 & N2). destruct I as [->|I].
  - rewrite R, str_eqb_refl. reflexivity.
  - destruct (str_eqb (s_ref x) ref) eqn:Q; [|apply IH; assumption]. apply str_eqb_eq in Q. exfalso. apply N1. rewrite Q, <- R. apply in_map. exact I.
Qed.
Lemma dirs_same : forall a b f, shows a f -> shows b f -> a_dirs a = a_dirs b.
Proof.
  intros a b f SA SB. pose proof (sh_dirs _ _ SA) as F. pose proof (sh_dirs _ _ SB) as G. revert G. generalize (a_dirs b). induction F as [|x t l1 l2 N F IH]; intros d G; inversion G; subst; [reflexivity|]. f_equal; [unfold note_shows in *; congruence|apply IH; assumption].
Qed.
