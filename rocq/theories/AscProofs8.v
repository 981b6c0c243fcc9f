(** What can be asked of an editor; what edits keep. *)
From Coq Require Import String Ascii List Bool Arith ZArith Lia Permutation.
From Verif Require CompFam.
From Verif Require Import PyStr EngModel EngProofs StepsModel StepsProofs Regex CompModel UpdatesModel ParModel QTagModel QTagProofs QParProofs AscModel AscCalls AscSpec AscParSpec AscProofs AscProofs2 AscProofs3 AscProofs4 AscProofs5 AscProofs6 AscProofs7.
Import ListNotations.
Local Open Scope string_scope. Local Open Scope nat_scope. Local Open Scope list_scope.

(** ** Answers *)
Lemma comps_keys : forall a b f, shows a f -> shows b f -> get_components a = get_components b.
Proof. intros a b f A B. unfold get_components. rewrite (shows_keys _ _ A), (shows_keys _ _ B). reflexivity. Qed.
Lemma comps_pair : forall a b f ref, file_ok (fun _ _ => Some false) f -> shows a f -> shows b f ->
  dget ref (a_comps a) = None /\ dget ref (a_comps b) = None \/
  exists c d s, dget ref (a_comps a) = Some c /\ dget ref (a_comps b) = Some d /\ In (Symbol s) (f_items f) /\ s_ref s = ref /\ sym_shows (ref, c) s /\ sym_shows (ref, d) s.
Proof.
  intros a b f ref OK A B. destruct (comps_get a f ref A) as [(EA & NA)|(c & s & EA & IS & RS & SS)]; destruct (comps_get b f ref B) as [(EB & NB)|(d & s2 & EB & IS2 & RS2 & SS2)].
  - left. auto.
  - exfalso. exact (NA s2 IS2 RS2).
  - exfalso. exact (NB s IS RS).
  - right. assert (s2 = s). { destruct OK as (_ & _ & _ & ND & _). pose proof (find_refs ref (f_items f) s ND IS RS). pose proof (find_refs ref (f_items f) s2 ND IS2 RS2). congruence. } subst s2. exists c, d, s. auto 10.
Qed.
Lemma val_same : forall a b f ref, file_ok (fun _ _ => Some false) f -> shows a f -> shows b f -> get_component_value ref a = get_component_value ref b.
Proof.
  intros a b f ref OK A B. unfold get_component_value, get_component. destruct (mem_c COLON ref); [reflexivity|]. destruct (comps_pair a b f ref OK A B) as [(-> & ->)|(c & d & s & -> & -> & IS & RS & S1 & S2)]; [reflexivity|].
  assert (A1 : attrs_show (c_attrs c) s) by apply S1. assert (A2 : attrs_show (c_attrs d) s) by apply S2. rewrite !(attrs_get _ _ _ A1) by reflexivity. rewrite !(attrs_get _ _ _ A2) by reflexivity. reflexivity.
Qed.
Lemma pos_same : forall a b f ref, file_ok (fun _ _ => Some false) f -> shows a f -> shows b f -> get_component_position ref a = get_component_position ref b.
Proof.
  intros a b f ref OK A B. unfold get_component_position, get_component. destruct (mem_c COLON ref); [reflexivity|]. destruct (comps_pair a b f ref OK A B) as [(-> & ->)|(c & d & s & -> & -> & IS & RS & S1 & S2)]; [reflexivity|].
  destruct S1 as (_ & _ & _ & X1 & Y1 & R1 & _). destruct S2 as (_ & _ & _ & X2 & Y2 & R2 & _). cbn [snd option_map] in *. rewrite X1, Y1, X2, Y2. rewrite R1 in R2. injection R2 as ->. reflexivity.
Qed.
Lemma under_hidden : forall k, startswith (s2l "_") k = true -> mem_s k LT_PARAMS = false.
Proof.
  intros k H. destruct (mem_s k LT_PARAMS) eqn:E; [|reflexivity]. unfold mem_s in E. apply existsb_exists in E. destruct E as (x & X & K). apply str_eqb_eq in K. subst x. repeat (destruct X as [<-|X]; [discriminate H|]). destruct X.
Qed.
Lemma flat_skip : forall conv hid l d, (forall e, In e hid -> startswith (s2l "_") (fst e) = true) -> get_flat conv (hid ++ l) d = get_flat conv l d.
Proof. intros conv. induction hid as [|[k v] h IH]; intros l d H; [reflexivity|]. cbn [app get_flat]. rewrite under_hidden by (apply (H (k, v)); left; reflexivity). apply IH. intros e E. apply H. right. exact E. Qed.
Lemma dicts_skip : forall conv hid l, (forall e, In e hid -> startswith (s2l "_") (fst e) = true) -> get_dicts conv (hid ++ l) = get_dicts conv l.
Proof. intros conv. induction hid as [|[k v] h IH]; intros l H; [reflexivity|]. cbn [app get_dicts]. rewrite under_hidden by (apply (H (k, v)); left; reflexivity). apply IH. intros e E. apply H. right. exact E. Qed.
Lemma hidden_all : forall wl ws b, Forall2 win_shows wl ws -> b = [] \/ b = SUBCKT -> forall e, In e (wl ++ b) -> startswith (s2l "_") (fst e) = true.
Proof.
  intros wl ws b F B e E. apply in_app_or in E. destruct E as [E|E].
  - destruct (f2_in_l _ _ _ _ _ _ F E) as (w & _ & (-> & _)). reflexivity.
  - destruct B as [-> | ->]; [destruct E|destruct E as [<-|[]]; reflexivity].
Qed.
Lemma flat_shown : forall conv l s d, attrs_show l s -> get_flat conv l d = get_flat conv (map plain (s_attrs s)) d.
Proof. intros conv l s d (wl & b & -> & F & B). rewrite app_assoc. apply flat_skip. eapply hidden_all; eassumption. Qed.
Lemma params_same : forall conv a b f ref, file_ok (fun _ _ => Some false) f -> shows a f -> shows b f -> get_component_parameters conv ref a = get_component_parameters conv ref b.
Proof.
  intros conv a b f ref OK A B. unfold get_component_parameters, get_component. destruct (mem_c COLON ref); [reflexivity|]. destruct (comps_pair a b f ref OK A B) as [(-> & ->)|(c & d & s & -> & -> & IS & RS & S1 & S2)]; [reflexivity|].
  rewrite (flat_shown conv (c_attrs c) s []) by apply S1. rewrite (flat_shown conv (c_attrs d) s []) by apply S2. reflexivity.
Qed.
Lemma file_ok_any : forall sub f, file_ok sub f -> file_ok (fun _ _ => Some false) f.
Proof. intros sub f (A & B & C & D & E). split; [exact A|]. split; [exact B|]. split; [exact C|]. split; [exact D|]. discriminate. Qed.
Theorem shows_same : forall sub a b f, file_ok sub f -> shows a f -> shows b f -> same_answers a b.
Proof.
  intros sub a b f OK0 A B. pose proof (file_ok_any _ _ OK0) as OK. split; [eapply comps_keys; eassumption|]. split; [intros; eapply val_same; eassumption|]. split; [intros; eapply pos_same; eassumption|]. split; [intros; eapply params_same; eassumption|].
  pose proof (dirs_same a b f A B) as D. split; [intros n; unfold get_parameter|unfold get_all_parameter_names]; rewrite D; reflexivity.
Qed.
(** The answers are those of the items. *)
Lemma shown_value : forall a f s, shows a f -> NoDup (map s_ref (symbols (f_items f))) -> In (Symbol s) (f_items f) -> ~ In COLON (s_ref s) ->
  get_component_value (s_ref s) a = match value_of s (s2l "Value"), value_of s (s2l "Value2") with Some v, Some w => Some (v ++ BLANK :: w) | Some v, None | None, Some v => Some v | None, None => None end.
Proof.
  intros a f s SH ND IS NC. unfold get_component_value, get_component. assert (mem_c COLON (s_ref s) = false) as -> by (destruct (mem_c COLON (s_ref s)) eqn:E; [apply mem_c_In in E; contradiction|reflexivity]).
  destruct (comps_get a f (s_ref s) SH) as [(_ & N)|(c & s2 & EA & IS2 & RS & SS)]; [exfalso; exact (N s IS eq_refl)|]. rewrite EA. assert (s2 = s) by (pose proof (find_refs _ _ _ ND IS eq_refl); pose proof (find_refs _ _ _ ND IS2 RS); congruence). subst s2.
  assert (A1 : attrs_show (c_attrs c) s) by apply SS. rewrite !(attrs_get _ _ _ A1) by reflexivity. change VALUE with (s2l "Value"). change VALUE2 with (s2l "Value2"). destruct (value_of s (s2l "Value")), (value_of s (s2l "Value2")); reflexivity.
Qed.
Lemma shown_position : forall a f s, shows a f -> NoDup (map s_ref (symbols (f_items f))) -> In (Symbol s) (f_items f) -> ~ In COLON (s_ref s) ->
  exists r, get_component_position (s_ref s) a = Some (s_x s, s_y s, r) /\ dget (s_rot s) rotations = Some r.
Proof.
  intros a f s SH ND IS NC. unfold get_component_position, get_component. assert (mem_c COLON (s_ref s) = false) as -> by (destruct (mem_c COLON (s_ref s)) eqn:E; [apply mem_c_In in E; contradiction|reflexivity]).
  destruct (comps_get a f (s_ref s) SH) as [(_ & N)|(c & s2 & EA & IS2 & RS & SS)]; [exfalso; exact (N s IS eq_refl)|]. rewrite EA. assert (s2 = s) by (pose proof (find_refs _ _ _ ND IS eq_refl); pose proof (find_refs _ _ _ ND IS2 RS); congruence). subst s2.
  destruct SS as (_ & _ & _ & X & Y & R & _). cbn [snd] in *. exists (c_rot c). cbn [option_map]. rewrite X, Y. auto.
Qed.

(** ** Simulation commands *)
Definition sim_b (i : item) : bool := match i with Note t => negb (n_comment t) && match command (n_text t) with Some w => is_unique w | None => false end | _ => false end.
Lemma sim_b_spec : forall i, sim_b i = true <-> active_sim i.
Proof.
  intros i. destruct i; cbn [sim_b active_sim]; try (split; [discriminate|contradiction]). rewrite andb_true_iff, negb_true_iff. split.
  - intros (A & B). split; [exact A|]. destruct (command (n_text t)) as [w|] eqn:E; [|discriminate]. eapply command_sim; eassumption.
  - intros (A & B). split; [exact A|]. apply sim_some in B. destruct B as (w & -> & U). exact U.
Qed.
Lemma one_sim_count : forall l, one_sim l <-> length (filter sim_b l) <= 1.
Proof.
  intros l. split.
  - intros H. destruct (filter sim_b l) as [|i [|j w]] eqn:E; cbn [length]; try lia. exfalso.
    assert (G : forall l x w, filter sim_b l = x :: w -> exists p q, l = p ++ x :: q /\ sim_b x = true /\ filter sim_b q = w).
    { clear. induction l as [|i l IH]; intros x w E; [discriminate|]. cbn [filter] in E. destruct (sim_b i) eqn:S; [injection E as <- <-; exists [], l; auto|]. destruct (IH x w E) as (p & q & -> & A & B). exists (i :: p), q. auto. }
    destruct (G _ _ _ E) as (p & q & -> & SI & EQ). destruct (G _ _ _ EQ) as (p2 & q2 & -> & SJ & _). apply (H p i p2 j q2 eq_refl); apply sim_b_spec; assumption.
  - intros H p i q j r -> A B. apply sim_b_spec in A, B. rewrite filter_app in H. cbn [filter] in H. rewrite A, filter_app in H. cbn [filter] in H. rewrite B in H. rewrite app_length in H. cbn [length] in H. rewrite app_length in H. cbn [length] in H. lia.
Qed.
Lemma filter_perm : forall A (p : A -> bool) l l', Permutation l l' -> length (filter p l) = length (filter p l').
Proof. intros A p l l' H. induction H; cbn [filter]; repeat match goal with |- context[if ?b then _ else _] => destruct b end; cbn [length]; congruence. Qed.
Lemma added_note : forall s l l', added s l l' -> exists t, n_text t = s /\ n_comment t = false /\ Permutation l' (l ++ [Note t]) /\ l' = by_kind (l ++ [Note t]).
Proof. intros s l l' (x & y & -> & _). eexists. split; [|split; [|split; [apply by_kind_perm|reflexivity]]]; reflexivity. Qed.
Lemma sim_on : forall ref h l, filter sim_b (map (on_symbol ref h) l) = filter sim_b l.
Proof. intros ref h. induction l as [|i l IH]; [reflexivity|]. destruct i; cbn [map on_symbol filter]; try (rewrite IH; reflexivity). Qed.
Lemma filter_filter_le : forall A (p q : A -> bool) l, length (filter p (filter q l)) <= length (filter p l).
Proof. intros A p q. induction l as [|x l IH]; [cbn; lia|]. cbn [filter]. destruct (q x); cbn [filter]; destruct (p x); cbn [length]; lia. Qed.
Lemma upper_dot : forall c, upper_c c = "."%char -> c = "."%char.
Proof.
  intros c H. assert (K : forall a, aeqb (upper_c a) "." = true -> aeqb a "." = true) by (apply (CompFam.imp_sweep (fun a => aeqb (upper_c a) ".")); vm_cast_no_check (eq_refl true)). apply aeqb_eq. apply K. rewrite H. reflexivity.
Qed.
Lemma param_not_sim : forall s, is_param_line s -> ~ sim_command s.
Proof.
  intros s (w & r & -> & W) (b & u & q & E & HB & HU & HQ & I).
  destruct w as [|w0 w]; [discriminate|]. assert (W0 : w0 = "."%char). { cbn [upper map] in W. assert (upper_c w0 = "."%char) as U by (injection W as W _; exact W). apply upper_dot; exact U. }
  subst w0. destruct b as [|c b]; [|injection E as EC _; subst c; exfalso; specialize (HB "."%char (or_introl eq_refl)); discriminate]. cbn [app] in E.
  assert (UU : exists v, upper (u ++ q) = s2l ".PARAM" ++ v). { rewrite <- E. change (("."%char :: w) ++ r) with (("."%char :: w) ++ r). exists (upper r). rewrite <- W. change ("."%char :: w ++ r) with (("."%char :: w) ++ r). apply upper_app. }
  destruct UU as (v & UU). rewrite upper_app in UU. apply (f_equal (fun l => nth 1 l " "%char)) in UU. change (nth 1 (s2l ".PARAM" ++ v) " "%char) with "P"%char in UU.
  cbn [map In] in I. destruct I as [I|[I|[I|[I|[I|[]]]]]]; rewrite <- I in UU; discriminate UU.
Qed.

Lemma dot_prefix : forall w a b, upper w = s2l ".PARAM" -> forall s sep x y, a ++ b = w ++ s -> b = sep ++ x -> sep <> [] -> (forall c, In c sep -> is_space c = true \/ c = "="%char) -> exists r, a ++ sep ++ y = w ++ r.
Proof.
  intros w a b W s sep x y E -> NS HS. assert (L : length w <= length a).
  { destruct (Nat.le_gt_cases (length w) (length a)) as [L|L]; [exact L|exfalso]. destruct sep as [|c sep]; [contradiction|].
    assert (N : nth_error w (length a) = Some c). { assert (K : nth_error (a ++ (c :: sep) ++ x) (length a) = Some c) by (rewrite nth_error_app2, Nat.sub_diag by lia; reflexivity). rewrite E, nth_error_app1 in K by exact L. exact K. }
    apply nth_error_In in N. assert (U : In (upper_c c) (upper w)) by (apply in_map; exact N). rewrite W in U. destruct (HS c (or_introl eq_refl)) as [S| ->].
    - assert (K : forall a, is_space a = true -> negb (mem_c (upper_c a) (s2l ".PARAM")) = true) by (apply (CompFam.imp_sweep is_space (fun a => negb (mem_c (upper_c a) (s2l ".PARAM")))); vm_cast_no_check (eq_refl true)).
      specialize (K c S). apply negb_true_iff in K. apply mem_c_In in U. congruence.
    - vm_compute in U. intuition discriminate. }
  exists (skipn (length w) a ++ sep ++ y). rewrite (app_assoc w). f_equal. rewrite <- (firstn_skipn (length w) a) at 1. f_equal.
  assert (K : firstn (length w) (a ++ sep ++ x) = w) by (rewrite E, firstn_app, firstn_all, Nat.sub_diag; cbn [firstn]; apply app_nil_r). rewrite firstn_app in K. replace (length w - length a) with 0 in K by lia. cbn [firstn] in K. rewrite app_nil_r in K. exact K.
Qed.
Lemma note_b_false : forall t, ~ sim_command (n_text t) -> sim_b (Note t) = false.
Proof. intros t N. destruct (sim_b (Note t)) eqn:E; [|reflexivity]. apply sim_b_spec in E. destruct E as (_ & E). contradiction. Qed.
Theorem edited_one_sim : forall e l l', edited e l l' -> one_sim l -> one_sim l'.
Proof.
  intros e l l' ED H. apply one_sim_count in H. apply one_sim_count.
  destruct e as [ref v|ref x y r|ref m|ref|s|s|pat|n v]; cbn [edited] in *.
  - destruct ED as (_ & ->). rewrite sim_on. exact H.
  - destruct ED as (_ & ->). rewrite sim_on. exact H.
  - destruct ED as (_ & ->). rewrite sim_on. exact H.
  - destruct ED as (_ & ->). etransitivity; [apply filter_filter_le|exact H].
  - destruct ED as [(SC & p & t & q & -> & A & NB & ->)|(NS & A)].
    + rewrite filter_app in *. cbn [filter] in *. apply sim_b_spec in A. rewrite A in H. rewrite app_length in *. destruct (sim_b (Note (set_text (strip s) t))); cbn [length] in *; lia.
    + destruct (added_note _ _ _ A) as (t & ET & CT & P & _). rewrite (filter_perm _ sim_b _ _ P), filter_app, app_length. cbn [filter]. destruct (sim_b (Note t)) eqn:ST; cbn [length]; [|lia].
      assert (filter sim_b l = []) as ->; [|cbn; lia]. apply sim_b_spec in ST. destruct ST as (_ & ST). rewrite ET in ST. specialize (NS ST). clear -NS. induction l as [|i l IH]; [reflexivity|]. cbn [filter]. destruct (sim_b i) eqn:E; [apply sim_b_spec in E; exfalso; exact (NS i (or_introl eq_refl) E)|]. apply IH. intros j J. apply NS. right. exact J.
  - destruct ED as [(p & t & q & -> & _ & _ & -> & _)|(-> & _)]; [|exact H]. rewrite filter_app, app_length in *. cbn [filter] in H. destruct (sim_b (Note t)); cbn [length] in H; lia.
  - subst l'. etransitivity; [apply filter_filter_le|exact H].
  - destruct ED as [(p & t & q & a & n0 & sep & old & b & -> & CT & PL & ET & EN & NS & HS & NO & ->)|A].
    + rewrite filter_app, app_length in *. cbn [filter] in *. rewrite note_b_false in H by (apply param_not_sim; exact PL). rewrite note_b_false; [exact H|]. cbn [set_text n_text]. apply param_not_sim.
      destruct PL as (w & r & E & W). rewrite ET in E. rewrite (app_assoc a n0) in E. destruct (dot_prefix w (a ++ n0) (sep ++ old ++ b) W r sep (old ++ b) (v ++ b) E eq_refl NS HS) as (r' & K). exists w, r'. split; [|exact W]. rewrite <- K, <- app_assoc. reflexivity.
    + destruct (added_note _ _ _ A) as (t & ET & CT & P & _). rewrite (filter_perm _ sim_b _ _ P), filter_app, app_length. cbn [filter]. rewrite note_b_false; [cbn [length]; lia|]. apply param_not_sim. rewrite ET. exists (s2l ".param"), (s2l " " ++ n ++ s2l "=" ++ v). split; reflexivity.
Qed.
Theorem edited_all_one_sim : forall es l l', edited_all es l l' -> one_sim l -> one_sim l'.
Proof. induction es as [|e es IH]; intros l l' H O; cbn [edited_all] in H; [subst; exact O|]. destruct H as (m & A & B). eapply IH; [exact B|]. eapply edited_one_sim; eassumption. Qed.
(** the command that was added is the active one *)
Theorem added_sim : forall s l l', sim_command (strip s) -> edited (AddInstr s) l l' -> one_sim l -> exists p t q, l' = p ++ Note t :: q /\ n_comment t = false /\ n_text t = strip s /\ forall i, In i (p ++ q) -> ~ active_sim i.
Proof.
  intros s l l' SC ED H. pose proof (edited_one_sim _ _ _ ED H) as O. cbn [edited] in ED.
  assert (G : exists p t q, l' = p ++ Note t :: q /\ n_comment t = false /\ n_text t = strip s).
  { destruct ED as [(_ & p & t & q & _ & (CT & _) & _ & ->)|(_ & A)]; [exists p, (set_text (strip s) t), q; auto|]. destruct (added_note _ _ _ A) as (t & ET & CT & P & _).
    assert (I : In (Note t) l') by (apply (Permutation_in _ (Permutation_sym P)); apply in_or_app; right; left; reflexivity). apply in_split in I. destruct I as (p & q & ->). exists p, t, q. auto. }
  destruct G as (p & t & q & -> & CT & ET). exists p, t, q. split; [reflexivity|]. split; [exact CT|]. split; [exact ET|]. intros i I A. assert (AT : active_sim (Note t)) by (split; [exact CT|rewrite ET; exact SC]).
  apply in_app_or in I. destruct I as [I|I]; apply in_split in I; destruct I as (u & w & ->).
  - apply (O u i w (Note t) q); [rewrite <- app_assoc; reflexivity|exact A|exact AT].
  - apply (O p (Note t) u i w eq_refl AT A).
Qed.

(** ** Comments, wires, flags and drawings *)
Lemma comments_kind : forall l, comments (by_kind l) = comments l.
Proof. intros l. apply (by_kind_only _ _ 3); [lia|]. intros [] K; try reflexivity. exfalso. apply K. reflexivity. Qed.
Lemma untouched_kind : forall l k, k < 6 -> filter (fun i => kind i =? k) (by_kind l) = filter (fun i => kind i =? k) l.
Proof.
  intros l k K. assert (F : forall (p : item -> bool) l, filter p l = flat_map (fun i => if p i then [i] else []) l) by (intros p u; induction u as [|i u IH]; [reflexivity|]; cbn [filter flat_map]; rewrite IH; destruct (p i); reflexivity).
  rewrite !F. apply (by_kind_only _ _ k); [exact K|]. intros i N. apply Nat.eqb_neq in N. rewrite N. reflexivity.
Qed.
Definition other_kind (k : nat) : Prop := k = 0 \/ k = 1 \/ k = 4 \/ k = 5.
Lemma edited_others : forall e l l', edited e l l' -> comments l' = comments l /\ forall k, other_kind k -> filter (fun i => kind i =? k) l' = filter (fun i => kind i =? k) l.
Proof.
  intros e l l' ED.
  assert (ONS : forall ref h, comments (map (on_symbol ref h) l) = comments l /\ forall k, other_kind k -> filter (fun i => kind i =? k) (map (on_symbol ref h) l) = filter (fun i => kind i =? k) l).
  { intros ref h. split.
    - unfold comments. apply proj_map. intros []; reflexivity.
    - intros k K. clear ED. induction l as [|i u IH]; [reflexivity|]. cbn [map filter]. assert (E : kind (on_symbol ref h i) = kind i) by (destruct i; reflexivity). rewrite E. destruct (kind i =? k) eqn:KK; [|exact IH]. f_equal; [|exact IH]. destruct i; try reflexivity. apply Nat.eqb_eq in KK. cbn in KK. unfold other_kind in K. lia. }
  assert (FIL : forall p, (forall i, p i = false -> match i with Symbol _ => True | Note t => n_comment t = false | _ => False end) -> comments (filter p l) = comments l /\ forall k, other_kind k -> filter (fun i => kind i =? k) (filter p l) = filter (fun i => kind i =? k) l).
  { intros p HP. split.
    - unfold comments. apply proj_filter. intros i I. specialize (HP i I). destruct i; try contradiction; [reflexivity|rewrite HP; reflexivity].
    - intros k K. clear ED ONS. induction l as [|i u IH]; [reflexivity|]. cbn [filter]. destruct (p i) eqn:PI; cbn [filter]; rewrite IH; [reflexivity|]. specialize (HP i PI). destruct i; try contradiction; cbn [kind]; unfold other_kind in K; destruct K as [->|[->|[->| ->]]]; reflexivity. }
  assert (SWP : forall p t u q, n_comment t = false -> n_comment u = false -> comments (p ++ Note u :: q) = comments (p ++ Note t :: q) /\ forall k, other_kind k -> filter (fun i => kind i =? k) (p ++ Note u :: q) = filter (fun i => kind i =? k) (p ++ Note t :: q)).
  { intros p t u q CT CU. split; [unfold comments; rewrite !flat_map_app; cbn [flat_map]; rewrite CT, CU; reflexivity|]. intros k K. rewrite !filter_app. cbn [filter kind]. destruct (3 =? k) eqn:E; [|reflexivity]. apply Nat.eqb_eq in E. unfold other_kind in K. lia. }
  assert (ADD : forall s, added s l l' -> comments l' = comments l /\ forall k, other_kind k -> filter (fun i => kind i =? k) l' = filter (fun i => kind i =? k) l).
  { intros s A. destruct (added_note _ _ _ A) as (t & _ & CT & _ & ->). split.
    - rewrite comments_kind. unfold comments. rewrite flat_map_app. cbn [flat_map]. rewrite CT. apply app_nil_r.
    - intros k K. rewrite untouched_kind by (unfold other_kind in K; lia). rewrite filter_app. cbn [filter kind]. destruct (3 =? k) eqn:E; [apply Nat.eqb_eq in E; unfold other_kind in K; lia|apply app_nil_r]. }
  destruct e as [ref v|ref x y r|ref m|ref|s|s|pat|n v]; cbn [edited] in *.
  - destruct ED as (_ & ->). apply ONS.
  - destruct ED as (_ & ->). apply ONS.
  - destruct ED as (_ & ->). apply ONS.
  - destruct ED as (_ & ->). apply FIL. intros [] I; try discriminate. exact Logic.I.
  - destruct ED as [(SC & p & t & q & -> & (A & _) & NB & ->)|(NS & A)]; [|eapply ADD; exact A]. apply SWP; assumption.
  - destruct ED as [(p & t & q & -> & CT & _ & -> & _)|(-> & _)]; [|auto]. split; [unfold comments; rewrite !flat_map_app; cbn [flat_map]; rewrite CT; reflexivity|]. intros k K. rewrite !filter_app. cbn [filter kind]. destruct (3 =? k) eqn:E; [|reflexivity]. apply Nat.eqb_eq in E. unfold other_kind in K. lia.
  - subst l'. apply FIL. intros [] I; try discriminate. apply orb_false_iff in I. apply I.
  - destruct ED as [(p & t & q & a & n0 & sep & old & b & -> & CT & PL & ET & EN & NS & HS & NO & ->)|A]; [|eapply ADD; exact A]. apply SWP; assumption.
Qed.
Theorem edited_all_others : forall es l l', edited_all es l l' -> comments l' = comments l /\ forall k, other_kind k -> filter (fun i => kind i =? k) l' = filter (fun i => kind i =? k) l.
Proof. induction es as [|e es IH]; intros l l' H; cbn [edited_all] in H; [subst; auto|]. destruct H as (m & A & B). destruct (IH _ _ B) as (C1 & C2). destruct (edited_others _ _ _ A) as (D1 & D2). split; [congruence|]. intros k K. rewrite (C2 k K). apply D2. exact K. Qed.
