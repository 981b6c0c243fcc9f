(** LTspice schematics: C50, C51, C101-C112. *)
From Coq Require Import String Ascii List Bool Arith ZArith Lia Permutation.
From Verif Require Import PyStr EngModel StepsModel StepsProofs Regex CompSpec UpdatesModel ParModel ParSpec QTagModel QTagProofs AscModel AscSpec AscParSpec AscCalls AscProofs AscProofs2 AscProofs3 AscProofs5 AscProofs6 AscProofs7 AscProofs8 AscProofs9 AscProofs10 AscProofs11.
Import ListNotations.
Local Open Scope string_scope. Local Open Scope nat_scope. Local Open Scope list_scope.

(** The editor of a file after some edits; what the edits made of the items of the file. *)
Definition reached (sub : str -> str -> option bool) (f : file) (es : list edit) (a : asc) : Prop :=
  exists a0, load sub (file_text f) = Some a0 /\ calls es a0 = Some a.
Definition with_items (f : file) (l : list item) : file := {| f_version := f_version f; f_sheet := f_sheet f; f_items := l |}.
Lemma dget_cons : forall W k k0 (w : W) d, dget k ((k0, w) :: d) = if str_eqb k0 k then Some w else dget k d.
Proof. intros. unfold dget. cbn [find fst]. destruct (str_eqb k0 k); reflexivity. Qed.
Lemma words_lf : forall s cur, CompModel.words_ cur (s ++ [LF]) = CompModel.words_ cur s.
Proof. induction s as [|c s IH]; intros cur; [destruct cur; reflexivity|]. cbn [app CompModel.words_]. destruct (is_space c); rewrite ?IH; reflexivity. Qed.
Lemma reached_shows : forall sub f es a, file_ok sub f -> Forall (edit_ok sub) es -> reached sub f es a ->
  exists l, edited_all es (f_items f) l /\ shows a (with_items f l) /\ file_ok sub (with_items f l) /\ a_perm a = Inform /\ a_ports a = [].
Proof.
  intros sub f es a OK EO (a0 & LD & CA). destruct (load_shows sub f OK) as (b & LD' & SH & _ & _ & PE). assert (b = a0) by congruence. subst b.
  destruct (calls_edited sub es f a0 a OK EO SH CA) as (l & E & S & O & P). exists l. split; [exact E|]. split; [exact S|]. split; [exact O|]. split; [congruence|]. rewrite (calls_ports _ _ _ CA). exact (load_ports _ _ _ OK LD).
Qed.

(** C50: a schematic that is read and saved without edits is the same file, with its items put in order by kind. *)
Theorem C50_round_trip : forall sub f, file_ok sub f -> exists a, load sub (file_text f) = Some a /\ updated a = false /\
  save a = (file_text (grouped f), true) /\ Permutation (f_items (grouped f)) (f_items f).
Proof.
  intros sub f OK. destruct (load_shows sub f OK) as (a & LD & SH & LG & CV & _). exists a. split; [exact LD|]. split; [unfold updated; rewrite CV, LG; reflexivity|]. split; [apply save_shows; [apply OK|exact SH]|]. apply by_kind_perm.
Qed.
(** A file that is in this order, as each one saved is, is written back byte by byte. *)
Theorem C50_same_file : forall sub f, file_ok sub f ->
  (by_kind (f_items f) = f_items f -> exists a, load sub (file_text f) = Some a /\ save a = (file_text f, true)) /\
  exists a, load sub (file_text (grouped f)) = Some a /\ save a = (file_text (grouped f), true).
Proof.
  intros sub f OK. assert (G : forall f, file_ok sub f -> by_kind (f_items f) = f_items f -> exists a, load sub (file_text f) = Some a /\ save a = (file_text f, true)).
  { intros x O K. destruct (C50_round_trip sub x O) as (a & LD & _ & S & _). exists a. split; [exact LD|]. rewrite S. unfold grouped. rewrite K. destruct x; reflexivity. }
  split; [apply G; exact OK|]. apply G; [apply file_ok_kind; exact OK|]. apply by_kind_idem.
Qed.
(** What the editor tells of a symbol of the file. *)
Theorem C50_values : forall sub f a s, file_ok sub f -> load sub (file_text f) = Some a -> In (Symbol s) (f_items f) -> ~ In ":"%char (s_ref s) ->
  get_component_value (s_ref s) a = match value_of s (s2l "Value"), value_of s (s2l "Value2") with Some v, Some w => Some (v ++ s2l " " ++ w) | Some v, None | None, Some v => Some v | None, None => None end /\
  (exists r, get_component_position (s_ref s) a = Some (s_x s, s_y s, r) /\ In (s_rot s, r) [(s2l "R0", 0); (s2l "R90", 90); (s2l "R180", 180); (s2l "R270", 270); (s2l "M0", 360); (s2l "M90", 450); (s2l "M180", 540); (s2l "M270", 630)]%Z) /\
  get_components a = map s_ref (symbols (f_items f)).
Proof.
  intros sub f a s OK LD IS NC. destruct (load_shows sub f OK) as (b & LD' & SH & _). assert (b = a) by congruence. subst b. assert (ND : NoDup (map s_ref (symbols (f_items f)))) by apply OK.
  split; [rewrite (shown_value a f s SH ND IS NC); reflexivity|]. split; [|exact (shows_keys a f SH)]. destruct (shown_position a f s SH ND IS NC) as (r & E & R). exists r. split; [exact E|].
  assert (DI : forall l, dget (s_rot s) l = Some r -> In (s_rot s, r) l) by (clear; induction l as [|[k v] l IH]; intros H; [discriminate|]; rewrite dget_cons in H; destruct (str_eqb k (s_rot s)) eqn:E; [apply str_eqb_eq in E; left; congruence|right; apply IH; exact H]).
  exact (DI rotations R).
Qed.
Print Assumptions C50_round_trip.
Print Assumptions C50_same_file.
Print Assumptions C50_values.

(** C51: edits never leave two simulation commands where there was at most one ... *)
Theorem C51_one_command : forall sub f es a, file_ok sub f -> Forall (edit_ok sub) es -> reached sub f es a -> one_sim (f_items f) ->
  exists l, save a = (file_text (grouped (with_items f l)), true) /\ one_sim l.
Proof.
  intros sub f es a OK EO RE OS. destruct (reached_shows sub f es a OK EO RE) as (l & E & S & O & _). exists l. split; [apply save_shows; [apply O|exact S]|]. exact (edited_all_one_sim es _ _ E OS).
Qed.
(** ... a simulation command that is added is then the one that is active ... *)
Theorem C51_added_command : forall sub f es s a, file_ok sub f -> Forall (edit_ok sub) es -> edit_ok sub (AddInstr s) -> reached sub f (es ++ [AddInstr s]) a -> one_sim (f_items f) -> sim_command (strip s) ->
  exists p t q, save a = (file_text (grouped (with_items f (p ++ Note t :: q))), true) /\ n_comment t = false /\ n_text t = strip s /\ forall i, In i (p ++ q) -> ~ active_sim i.
Proof.
  intros sub f es s a OK EO EO' RE OS SC. assert (F : Forall (edit_ok sub) (es ++ [AddInstr s])) by (apply Forall_app; split; [exact EO|constructor; [exact EO'|constructor]]).
  destruct (reached_shows sub f _ a OK F RE) as (l & E & S & O & _). assert (SP : forall es l1 l2, edited_all (es ++ [AddInstr s]) l1 l2 -> exists m, edited_all es l1 m /\ edited (AddInstr s) m l2).
  { clear. induction es as [|e es IH]; intros l1 l2 H; cbn [app edited_all] in *; [destruct H as (m & H & ->); exists l1; auto|]. destruct H as (m & H1 & H2). destruct (IH _ _ H2) as (m2 & A & B). exists m2. split; [exists m; auto|exact B]. }
  destruct (SP _ _ _ E) as (m & E1 & E2). destruct (added_sim s m l SC E2 (edited_all_one_sim _ _ _ E1 OS)) as (p & t & q & -> & A & B & C). exists p, t, q. split; [apply save_shows; [apply O|exact S]|]. auto.
Qed.
(** ... comments, wires, flags and drawings are never touched. *)
Theorem C51_untouched : forall sub f es a, file_ok sub f -> Forall (edit_ok sub) es -> reached sub f es a ->
  exists l, save a = (file_text (grouped (with_items f l)), true) /\ comments l = comments (f_items f) /\
    filter untouched (by_kind l) = filter untouched (by_kind (f_items f)).
Proof.
  intros sub f es a OK EO RE. destruct (reached_shows sub f es a OK EO RE) as (l & E & S & O & _). exists l. split; [apply save_shows; [apply O|exact S]|]. destruct (edited_all_others es _ _ E) as (A & B). split; [exact A|].
  assert (K : forall l, filter untouched (by_kind l) = flat_map (fun k => filter (fun i => kind i =? k) l) [0; 1; 4; 5]).
  { clear. intros l. unfold by_kind. assert (FK : forall k b, (forall i, kind i = k -> untouched i = b) -> filter untouched (filter (fun i => kind i =? k) l) = if b then filter (fun i => kind i =? k) l else []).
    { intros k b H. induction l as [|i l IH]; [destruct b; reflexivity|]. cbn [filter]. destruct (kind i =? k) eqn:E; [|exact IH]. cbn [filter]. rewrite (H i), IH by (apply Nat.eqb_eq; exact E). destruct b; reflexivity. }
    cbn [flat_map]. rewrite !app_nil_r. repeat (rewrite filter_app). rewrite (FK 0 true), (FK 1 true), (FK 2 false), (FK 3 false), (FK 4 true), (FK 5 true); [reflexivity|..]; intros []; cbn; congruence. }
  rewrite !K. cbn [flat_map]. rewrite !B by (unfold other_kind; auto). reflexivity.
Qed.
Print Assumptions C51_one_command.
Print Assumptions C51_added_command.
Print Assumptions C51_untouched.

(** C101: whatever is edited after reading a schematic, the file that is saved holds what the edits ask for, can be read, and tells the same
    as the editor. *)
Theorem C101_edits_saved : forall sub f es a, file_ok sub f -> Forall (edit_ok sub) es -> reached sub f es a ->
  exists l a2, edited_all es (f_items f) l /\ save a = (file_text (grouped (with_items f l)), true) /\
    load sub (file_text (grouped (with_items f l))) = Some a2 /\ same_answers a a2.
Proof.
  intros sub f es a OK EO RE. destruct (reached_shows sub f es a OK EO RE) as (l & E & S & O & _). destruct (load_shows sub (grouped (with_items f l))) as (a2 & LD & S2 & _); [apply file_ok_kind; exact O|].
  exists l, a2. split; [exact E|]. split; [apply save_shows; [apply O|exact S]|]. split; [exact LD|]. apply (shows_same sub a a2 (grouped (with_items f l))); [apply file_ok_kind; exact O|apply (proj1 (shows_kind _ _)); exact S|exact S2].
Qed.
(** The value of a component is its attribute Value, followed by Value2 after a blank if there is one. *)
Theorem C101_shown : forall sub f es a, file_ok sub f -> Forall (edit_ok sub) es -> reached sub f es a ->
  exists l, edited_all es (f_items f) l /\ forall s, In (Symbol s) l -> ~ In ":"%char (s_ref s) ->
  get_component_value (s_ref s) a = match value_of s (s2l "Value"), value_of s (s2l "Value2") with
                                    | Some v, Some w => Some (v ++ " "%char :: w) | Some v, None => Some v | None, w => w end.
Proof.
  intros sub f es a OK EO RE. destruct (reached_shows sub f es a OK EO RE) as (l & E & S & O & PE & _). exists l. split; [exact E|]. intros s IS NC.
  assert (MC : mem_c COLON (s_ref s) = false) by (destruct (mem_c COLON (s_ref s)) eqn:Q; [apply mem_c_In in Q; contradiction|reflexivity]).
  assert (NDR : NoDup (map s_ref (symbols l))) by apply O.
  destruct (comps_get a _ (s_ref s) S) as [(_ & N)|(c & s2 & EA & IS2 & RS & SS)]; [exfalso; exact (N s IS eq_refl)|]. cbn [with_items f_items] in IS2. assert (s2 = s) by (pose proof (find_refs _ _ _ NDR IS eq_refl); pose proof (find_refs _ _ _ NDR IS2 RS); congruence). subst s2.
  assert (AS : attrs_show (c_attrs c) s) by apply SS. unfold get_component_value, get_component. rewrite MC, EA. rewrite (attrs_get _ _ VALUE AS), (attrs_get _ _ VALUE2 AS) by reflexivity. change VALUE with (s2l "Value"). change VALUE2 with (s2l "Value2").
  destruct (value_of s (s2l "Value")), (value_of s (s2l "Value2")); reflexivity.
Qed.
Print Assumptions C101_shown.
(** A value that is set is there, and nothing else is told differently. *)
Theorem C101_value : forall sub f es a, file_ok sub f -> Forall (edit_ok sub) es -> reached sub f es a ->
  exists l, edited_all es (f_items f) l /\ forall s v, In (Symbol s) l -> ~ In ":"%char (s_ref s) -> value_of s (s2l "Value") <> None -> value_of s (s2l "Value2") = None ->
  exists a', set_component_value (s_ref s) v a = Some a' /\ get_component_value (s_ref s) a' = Some v /\ (forall r, r <> s_ref s -> get_component_value r a' = get_component_value r a) /\
  (forall r, get_component_position r a' = get_component_position r a) /\ get_components a' = get_components a /\ (forall n, get_parameter n a' = get_parameter n a).
Proof.
  intros sub f es a OK EO RE. destruct (reached_shows sub f es a OK EO RE) as (l & E & S & O & PE & _). exists l. split; [exact E|]. intros s v IS NC V1 V2.
  assert (MC : mem_c COLON (s_ref s) = false) by (destruct (mem_c COLON (s_ref s)) eqn:Q; [apply mem_c_In in Q; contradiction|reflexivity]).
  assert (NDR : NoDup (map s_ref (symbols l))) by apply O.
  destruct (comps_get a _ (s_ref s) S) as [(_ & N)|(c & s2 & EA & IS2 & RS & SS)]; [exfalso; exact (N s IS eq_refl)|]. cbn [with_items f_items] in IS2. assert (s2 = s) by (pose proof (find_refs _ _ _ NDR IS eq_refl); pose proof (find_refs _ _ _ NDR IS2 RS); congruence). subst s2.
  assert (AS : attrs_show (c_attrs c) s) by apply SS.
  assert (D1 : dget VALUE (c_attrs c) <> None) by (rewrite (attrs_get _ _ VALUE AS) by reflexivity; change VALUE with (s2l "Value"); destruct (value_of s (s2l "Value")); [discriminate|contradiction]).
  assert (D2 : dget VALUE2 (c_attrs c) = None) by (rewrite (attrs_get _ _ VALUE2 AS) by reflexivity; change VALUE2 with (s2l "Value2"); rewrite V2; reflexivity).
  set (ref := s_ref s) in *. unfold set_component_value. unfold get_component at 1. rewrite MC, EA, PE. destruct (dget VALUE (c_attrs c)) as [old|]; [|contradiction]. eexists. split; [reflexivity|].
  assert (GG : forall r, get_component r (end_update (c_ref c) (VStr (l2s v)) UpUpdateComponentValue (put_comp ref (with_attrs c (dset VALUE (AStr v) (c_attrs c))) a)) = if str_eqb r ref then Some (with_attrs c (dset VALUE (AStr v) (c_attrs c))) else get_component r a).
  { intros r. unfold get_component. cbn [end_update put_comp with_comps a_comps]. rewrite dget_dset. rewrite (eqb_sym_s r ref). destruct (str_eqb ref r) eqn:Q; [apply str_eqb_eq in Q; subst r; rewrite MC; reflexivity|reflexivity]. }
  split; [unfold get_component_value; rewrite GG, str_eqb_refl; cbn [with_attrs c_attrs]; rewrite !dget_dset, str_eqb_refl; change (str_eqb VALUE VALUE2) with false; cbv iota; rewrite D2; reflexivity|].
  split; [intros r NR; unfold get_component_value; rewrite GG; assert (str_eqb r ref = false) as -> by (destruct (str_eqb r ref) eqn:Q; [apply str_eqb_eq in Q; contradiction|reflexivity]); reflexivity|].
  split; [intros r; unfold get_component_position; rewrite GG; destruct (str_eqb r ref) eqn:Q; [|reflexivity]; apply str_eqb_eq in Q; subst r; unfold get_component; rewrite MC, EA; reflexivity|].
  split; [|reflexivity]. unfold get_components. cbn [end_update put_comp with_comps a_comps]. clear -EA. revert EA. generalize (a_comps a). intros d. induction d as [|[k w] d IH]; intros H; [discriminate|]. rewrite dget_cons in H. cbn [dset]. destruct (str_eqb k ref) eqn:Q; cbn [map fst]; [reflexivity|rewrite IH by exact H; reflexivity].
Qed.
Print Assumptions C101_edits_saved.
Print Assumptions C101_value.

(** C102: get_parameter tells the first setting of that name in the directives, whatever its case ... *)
Theorem C102_read : forall sub f a n, file_ok sub f -> par_items (f_items f) -> load sub (file_text f) = Some a -> first_setting n (f_items f) (get_parameter n a).
Proof. intros sub f a n OK PI LD. destruct (load_shows sub f OK) as (b & LD' & SH & _). assert (b = a) by congruence. subst b. apply shows_get; assumption. Qed.
(** ... after any number of settings it tells the last one of that name, and else what it told before. *)
Theorem C102_last_setting : forall sub f a l a', file_ok sub f -> par_items (f_items f) -> load sub (file_text f) = Some a -> Forall setting_ok l -> set_all l a = Some a' ->
  forall n, get_parameter n a' = settings l (fun x => get_parameter x a) n.
Proof. intros sub f a l a' OK PI LD FO SA n. destruct (load_shows sub f OK) as (b & LD' & SH & _). assert (b = a) by congruence. subst b. destruct (set_all_first l a a' (shows_pars a f SH PI) FO SA) as (_ & K). apply K. reflexivity. Qed.
(** A setting fails only when there is no such parameter and the sheet of the file has no size. *)
Theorem C102_set : forall sub f a n v, file_ok sub f -> par_items (f_items f) -> load sub (file_text f) = Some a ->
  get_parameter n a <> None \/ (exists k x y, f_sheet f = k ++ s2l " " ++ z x ++ s2l " " ++ z y /\ one_word k) -> exists a', set_parameter n v a = Some a'.
Proof.
  intros sub f a n v OK PI LD H. destruct (load_shows sub f OK) as (b & LD' & SH & _ & _ & PE). assert (b = a) by congruence. subst b. apply set_found; [exact (shows_pars a f SH PI)|exact PE|]. destruct H as [H|(k & x & y & E & K)]; [left; exact H|right].
  unfold text_space. rewrite (sh_sheet _ _ SH), E. change (k ++ s2l " " ++ z x ++ s2l " " ++ z y) with (join_blank [k; z x; z y]). assert (W : CompModel.words (join_blank [k; z x; z y]) = [k; z x; z y]) by (unfold CompModel.words; rewrite <- words_lf; apply words_join; apply Forall_cons; [exact K|]; apply Forall_cons; [apply int_word|]; apply Forall_cons; [apply int_word|constructor]). rewrite W. unfold z. cbn [ints]. rewrite !py_int_show. discriminate.
Qed.
Print Assumptions C102_read.
Print Assumptions C102_last_setting.
Print Assumptions C102_set.

(** C103: a component parameter that is set is there, the other settings of that component and all else stay, and all of it is in the saved file. *)
Theorem C103_component_parameter : forall conv sub f es a, file_ok sub f -> Forall (edit_ok sub) es -> reached sub f es a ->
  exists l, edited_all es (f_items f) l /\ forall s d1 d2 k v, In (Symbol s) l -> ~ In ":"%char (s_ref s) ->
  line_of s (s2l "SpiceLine") d1 -> line_of s (s2l "SpiceLine2") d2 -> (forall x, In x (map fst d1) -> ~ In x (map fst d2)) ->
  (forall e, In e d1 \/ In e d2 -> conv (snd e) = snd e) -> conv v = v ->
  par_name_ok k -> par_value v -> ~ In k spice_names -> ~ In LF v -> ~ In CR v -> strip v = v ->
  exists a' l' D D' a2, set_component_parameters conv (s_ref s) [(k, Some v)] a = (a', true) /\ l' = map (on_symbol (s_ref s) (put_par d1 d2 k v)) l /\
    get_component_parameters conv (s_ref s) a = Some D /\ get_component_parameters conv (s_ref s) a' = Some D' /\
    (forall x, ~ In x spice_names -> dget x D' = if str_eqb x k then Some (AStr v) else dget x D) /\
    save a' = (file_text (grouped (with_items f l')), true) /\ load sub (file_text (grouped (with_items f l'))) = Some a2 /\ same_answers a' a2.
Proof.
  intros conv sub f es a OK EO RE. destruct (reached_shows sub f es a OK EO RE) as (l & E & S & O & PE & _). exists l. split; [exact E|]. intros s d1 d2 k v IS NC L1 L2 DIS FIX FV K1 K2 K3 NL NCR SV.
  assert (GS : good_setting k v) by (split; [exact K1|]; split; assumption).
  destruct (set_params_shows conv sub (with_items f l) a s d1 d2 k v O S PE IS NC L1 L2 DIS FIX GS NL NCR SV) as (a' & SP & PE' & S' & O'). cbv zeta in S', O'. cbn [with_items f_version f_sheet f_items] in S', O'. set (l' := map (on_symbol (s_ref s) (put_par d1 d2 k v)) l) in *. change (mk (f_version f) (f_sheet f) l') with (with_items f l') in S', O'.
  assert (O8 : NoDup (map fst (s_attrs s))) by (assert (OI : item_ok (Symbol s)) by (apply O; exact IS); cbn [item_ok] in OI; apply OI).
  destruct (shown_params conv sub (with_items f l) a s d1 d2 O S IS NC L1 L2 DIS) as (D & GD & HD).
  assert (IS' : In (Symbol (put_par d1 d2 k v s)) l') by (unfold l'; apply in_map_iff; exists (Symbol s); split; [cbn [on_symbol]; rewrite str_eqb_refl; reflexivity|exact IS]).
  assert (RF : s_ref (put_par d1 d2 k v s) = s_ref s) by (destruct (put_frame s d1 d2 k v L1 DIS) as (_ & _ & _ & _ & _ & R); exact R).
  destruct (shown_params conv sub (with_items f l') a' (put_par d1 d2 k v s) (new1 d1 d2 k v) (new2 d1 d2 k v) O' S') as (D' & GD' & HD'); [exact IS'|rewrite RF; exact NC|apply put_line1; assumption|apply put_line2; assumption|apply put_disjoint; assumption|]. rewrite RF in GD'.
  destruct (load_shows sub (grouped (with_items f l'))) as (a2 & LD & S2 & _); [apply file_ok_kind; exact O'|]. exists a', l', D, D', a2. split; [exact SP|]. split; [reflexivity|]. split; [exact GD|]. split; [exact GD'|]. split; [|split; [apply save_shows; [apply O'|exact S']|split; [exact LD|apply (shows_same sub a' a2 (grouped (with_items f l'))); [apply file_ok_kind; exact O'|apply (proj1 (shows_kind _ _)); exact S'|exact S2]]]].
  intros x NX. rewrite HD, HD'. assert (mem_s x spice_names = false) as -> by (destruct (mem_s x spice_names) eqn:Q; [apply mem_s_In in Q; contradiction|reflexivity]). rewrite put_setting_of by assumption. destruct (str_eqb x k); [cbn [option_map]; rewrite FV; reflexivity|reflexivity].
Qed.
Print Assumptions C103_component_parameter.

(** C104: items that are read but not written back: texts turned by 90 degrees, ports, data flags, widths of lines, symbols with the reference of
    another one. *)
Definition doc (l : list string) : str := concat (map (fun s => s2l s ++ [LF]) l).
Definition plain_sub : str -> str -> option bool := fun _ _ => Some false.
Definition resaved (l : list string) : option str := match load plain_sub (doc l) with Some a => let (t, b) := save a in if b then Some t else None | None => None end.
Theorem C104_items_lost_refuted :
  resaved ["Version 4"; "SHEET 1 880 680"; "TEXT 0 0 VLeft 2 !.op"] = Some (doc ["Version 4"; "SHEET 1 880 680"; "TEXT 0 0 Left 2 !.op"]) /\
  resaved ["Version 4"; "SHEET 1 880 680"; "FLAG 16 32 in"; "IOPIN 16 32 In"] = Some (doc ["Version 4"; "SHEET 1 880 680"; "FLAG 16 32 in"]) /\
  resaved ["Version 4"; "SHEET 1 880 680"; "DATAFLAG 16 32 ""V(a)"""] = Some (doc ["Version 4"; "SHEET 1 880 680"]) /\
  resaved ["Version 4"; "SHEET 1 880 680"; "LINE Wide 0 0 16 16"] = Some (doc ["Version 4"; "SHEET 1 880 680"; "LINE Normal 0 0 16 16"]) /\
  resaved ["Version 4"; "SHEET 1 880 680"; "SYMBOL res 0 0 R0"; "SYMATTR InstName R1"; "SYMBOL cap 16 16 R0"; "SYMATTR InstName R1"] =
    Some (doc ["Version 4"; "SHEET 1 880 680"; "SYMBOL cap 16 16 R0"; "SYMATTR InstName R1"]).
Proof. repeat split; vm_compute; reflexivity. Qed.
Print Assumptions C104_items_lost_refuted.

(** C105: remove_instruction removes the first directive that has the given text in it, and tells whether there was one. *)
Theorem C105_removed : forall sub f es a s a' b, file_ok sub f -> Forall (edit_ok sub) es -> reached sub f es a -> remove_instruction s a = (a', b) ->
  exists l l', edited_all es (f_items f) l /\ edited (RemInstr s) l l' /\ save a' = (file_text (grouped (with_items f l')), true) /\
    (b = true <-> exists t, In (Note t) l /\ n_comment t = false /\ substring s (n_text t)).
Proof.
  intros sub f es a s a' b OK EO RE H. destruct (reached_shows sub f es a OK EO RE) as (l & E & S & O & _).
  assert (CL : call (RemInstr s) a = Some a') by (cbn [call]; rewrite H; reflexivity). destruct (call_edited (RemInstr s) a a' sub _ O I S CL) as (l' & E' & S' & _). cbn [with_items f_items f_version f_sheet] in *.
  pose proof (edited_ok sub (RemInstr s) (with_items f l) l' O I E') as O'. exists l, l'. split; [exact E|]. split; [exact E'|]. split; [change (with_items f l') with (mk (f_version f) (f_sheet f) l'); apply save_shows; [apply O'|exact S']|].
  unfold remove_instruction in H. destruct (find_dir _ (a_dirs a)) as [[[[p t] c] q]|] eqn:FD; injection H as <- <-.
  - split; [|reflexivity]. intros _. apply find_dir_some in FD. destruct FD as (EQ & ST & _). assert (X : In t (a_dirs a)) by (rewrite EQ; apply in_or_app; right; left; reflexivity).
    destruct (f2_in_l _ _ _ _ _ _ (sh_dirs _ _ S) X) as (n & N & NS). apply in_notes in N. destruct (note_fields _ _ NS) as (_ & _ & TT & TC). exists n. split; [exact N|]. rewrite <- TT, <- TC. destruct (t_comment t); [discriminate|]. split; [reflexivity|]. apply is_sub_spec. destruct (is_sub s (t_text t)); [reflexivity|discriminate].
  - split; [discriminate|]. intros (n & N & C & SS). apply in_notes in N. destruct (f2_in _ _ _ _ _ _ (sh_dirs _ _ S) N) as (x & X & NS). destruct (note_fields _ _ NS) as (_ & _ & TT & TC). pose proof (find_dir_none _ _ _ FD x X) as K. cbv beta in K. rewrite TT, TC, C in K. apply is_sub_spec in SS. rewrite SS in K. discriminate.
Qed.
(** When the instruction is a directive of its own and no directive before it has it in its text, that directive is the one removed. *)
Theorem C105_exact : forall l l' p t q s, edited (RemInstr s) l l' -> l = p ++ Note t :: q -> n_comment t = false -> n_text t = s ->
  (forall u, In (Note u) p -> n_comment u = false -> ~ substring s (n_text u)) -> l' = p ++ q.
Proof.
  intros l l' p t q s E EQ C T NB. assert (ST : substring s (n_text t)) by (exists [], []; rewrite app_nil_r; exact T). destruct E as [(p' & t' & q' & EQ' & C' & S' & -> & NB')|(_ & K)].
  - rewrite EQ in EQ'. clear -EQ' NB NB' C C' ST S'. revert p' EQ' NB'. induction p as [|i p IH]; intros p' EQ' NB'.
    + destruct p' as [|j p']; cbn [app] in EQ'; [congruence|]. injection EQ' as EI _. exfalso. apply (NB' t); [left; symmetry; exact EI|exact C|exact ST].
    + destruct p' as [|j p']; cbn [app] in EQ'; [injection EQ' as EI _; exfalso; apply (NB t'); [left; exact EI|exact C'|exact S']|]. injection EQ' as <- EQ'. cbn [app]. f_equal. apply IH; [intros u U; apply NB; right; exact U|exact EQ'|intros u U; apply NB'; right; exact U].
  - exfalso. apply (K t); [subst l; apply in_or_app; right; left; reflexivity|exact C|exact ST].
Qed.
Print Assumptions C105_removed.
Print Assumptions C105_exact.

(** C106: a directive that only has the text in it is removed instead, and of two simulation commands only the first is replaced. *)
Definition after (l : list string) (es : list edit) : option (str * bool) := match load plain_sub (doc l) with Some a => option_map save (calls es a) | None => None end.
Theorem C106_other_instruction_refuted :
  after ["Version 4"; "SHEET 1 880 680"; "TEXT 0 0 Left 2 !.save V(out2)"; "TEXT 0 32 Left 2 !.save V(out)"] [RemInstr (s2l ".save V(out")] =
    Some (doc ["Version 4"; "SHEET 1 880 680"; "TEXT 0 32 Left 2 !.save V(out)"], true) /\
  after ["Version 4"; "SHEET 1 880 680"; "TEXT 0 0 Left 2 !.ic V(a)=1 V(b)=2"; "TEXT 0 32 Left 2 !.ic V(a)=1"] [RemInstr (s2l ".ic V(a)=1")] =
    Some (doc ["Version 4"; "SHEET 1 880 680"; "TEXT 0 32 Left 2 !.ic V(a)=1"], true) /\
  after ["Version 4"; "SHEET 1 880 680"; "TEXT 0 0 Left 2 !.tran 1"; "TEXT 0 32 Left 2 !.dc V1 0 1 1"] [AddInstr (s2l ".ac dec 10 1 10")] =
    Some (doc ["Version 4"; "SHEET 1 880 680"; "TEXT 0 0 Left 2 !.ac dec 10 1 10"; "TEXT 0 32 Left 2 !.dc V1 0 1 1"], true) /\
  (* a directive without a word makes adding a simulation command fail *)
  after ["Version 4"; "SHEET 1 880 680"; "TEXT 0 0 Left 2 !"] [AddInstr (s2l ".tran 1")] = None.
Proof. repeat split; vm_compute; reflexivity. Qed.
Print Assumptions C106_other_instruction_refuted.

(** C107: when updates are denied, values and parameters are not changed: the calls fail and leave the editor as it is. *)
Theorem C107_denied : forall conv a, a_perm a = Deny ->
  (forall ref v, set_component_value ref v a = None) /\ (forall n v, set_parameter n v a = None) /\ (forall ref kw, set_component_parameters conv ref kw a = (a, false)).
Proof.
  intros conv a P. split; [|split].
  - intros ref v. unfold set_component_value. rewrite P. destruct (get_component ref a); reflexivity.
  - intros n v. unfold set_parameter. rewrite P. reflexivity.
  - intros ref kw. unfold set_component_parameters. rewrite P. destruct (get_component ref a); reflexivity.
Qed.
(** C108: ... but components and instructions are removed and added all the same. *)
Theorem C108_denied_refuted : forall a, a_perm a = Deny ->
  (forall ref, get_component ref a <> None -> exists a', remove_component ref a = Some a' /\ get_component ref a' = None /\ updated a' = true) /\
  (forall s t, In t (a_dirs a) -> t_comment t = false -> t_text t = s -> snd (remove_instruction s a) = true /\ length (a_dirs (fst (remove_instruction s a))) < length (a_dirs a)).
Proof.
  intros a P. split.
  - intros ref G. unfold remove_component. destruct (get_component ref a) as [c|]; [|contradiction]. eexists. split; [reflexivity|]. split; [|reflexivity]. unfold get_component. destruct (mem_c COLON ref); [reflexivity|]. cbn [end_update with_comps a_comps]. unfold dget, ddel.
    assert (K : forall d : list (str * comp), find (fun e => str_eqb (fst e) ref) (filter (fun e => negb (str_eqb (fst e) ref)) d) = None) by (induction d as [|e d IH]; [reflexivity|]; cbn [filter]; destruct (str_eqb (fst e) ref) eqn:E; cbn [negb]; [exact IH|]; cbn [find]; rewrite E; exact IH). rewrite K. reflexivity.
  - intros s t T C X. unfold remove_instruction. destruct (find_dir _ (a_dirs a)) as [[[[p u] c] q]|] eqn:FD.
    + apply find_dir_some in FD. destruct FD as (EQ & _). cbn [fst snd end_update with_dirs a_dirs]. split; [reflexivity|]. rewrite EQ, !app_length. cbn [length]. lia.
    + pose proof (find_dir_none _ _ _ FD t T) as K. cbv beta in K. rewrite C, X in K. assert (is_sub s s = true) as Q by (apply is_sub_spec; exists [], []; rewrite app_nil_r; reflexivity). rewrite Q in K. discriminate.
Qed.
Print Assumptions C107_denied.
Print Assumptions C108_denied_refuted.

(** C109: calls that change values, parameters, components or instructions are in the record of updates, and make updated() true. *)
Lemma logged : forall log n v ty, ty <> UpInvalid -> In (Upd n v ty) (add_update log n v ty).
Proof.
  intros log n v ty NI. induction log as [|u log IH]; [left; reflexivity|]. cbn [add_update]. unfold entry_matches at 1. destruct (String.eqb (u_name u) n) eqn:E; cbn [andb]; [|right; exact IH]. apply String.eqb_eq in E.
  destruct ((negb (String.eqb n "INSTRUCTION") || uval_eqb v (u_value u)) && (utype_eqb (u_type u) ty || utype_eqb ty UpInvalid))%bool; [|right; exact IH]. left. rewrite E. destruct ty; try reflexivity. contradiction.
Qed.
Theorem C109_recorded : forall sub f es a, file_ok sub f -> Forall (edit_ok sub) es -> reached sub f es a ->
  (forall ref v a', set_component_value ref v a = Some a' -> updated a' = true /\ In (Upd (l2s ref) (VStr (l2s v)) UpUpdateComponentValue) (a_log a')) /\
  (forall ref a', remove_component ref a = Some a' -> updated a' = true /\ In (Upd (l2s ref) (VStr "") UpDeleteComponent) (a_log a')) /\
  (forall s a', add_instruction s a = Some a' -> updated a' = true /\ In (Upd "INSTRUCTION" (VStr (l2s (strip s))) UpAddInstruction) (a_log a')) /\
  (forall n v a', set_parameter n v a = Some a' -> updated a' = true /\ (In (Upd (l2s n) (VStr (l2s v)) UpUpdateParameter) (a_log a') \/ In (Upd (l2s n) (VStr (l2s v)) UpAddParameter) (a_log a'))) /\
  (forall s a', remove_instruction s a = (a', true) -> updated a' = true /\ exists t, substring s t /\ In (Upd "INSTRUCTION" (VStr (l2s t)) UpDeleteInstruction) (a_log a')).
Proof.
  intros sub f es a OK EO RE. destruct (reached_shows sub f es a OK EO RE) as (l & E & S & O & _). split; [|split; [|split; [|split]]].
  - intros ref v a' H. unfold set_component_value in H. destruct (get_component ref a) as [c|] eqn:GC; [|discriminate]. destruct (a_perm a); [|discriminate]. destruct (dget VALUE _); [|discriminate]. injection H as <-. split; [reflexivity|]. cbn [end_update a_log].
    assert (RC : c_ref c = ref). { unfold get_component in GC. destruct (mem_c COLON ref); [discriminate|]. destruct (comps_get a _ ref S) as [(N & _)|(c2 & s2 & EA & _ & RS & SS)]; [congruence|]. assert (c2 = c) by congruence. subst c2. destruct SS as (_ & R & _). cbn [snd] in R. congruence. }
    rewrite RC. apply logged. discriminate.
  - intros ref a' H. unfold remove_component in H. destruct (get_component ref a); [|discriminate]. injection H as <-. split; [reflexivity|]. apply logged. discriminate.
  - intros s a' H. unfold add_instruction in H. destruct (command _); [|discriminate].
    assert (AD : forall a', option_map (end_update INSTRUCTION (VStr (l2s (strip s))) UpAddInstruction) (add_text (strip s) a) = Some a' -> updated a' = true /\ In (Upd "INSTRUCTION" (VStr (l2s (strip s))) UpAddInstruction) (a_log a')).
    { intros b K. destruct (add_text _ a); [|discriminate]. injection K as <-. split; [reflexivity|]. apply (logged _ "INSTRUCTION"). discriminate. }
    destruct (is_unique _); [destruct (find_unique _) as [[[[p t] q]|]|]; [|apply AD; exact H|discriminate]|destruct (startswith _ _); [discriminate|apply AD; exact H]]. injection H as <-. split; [reflexivity|]. apply (logged _ "INSTRUCTION"). discriminate.
  - intros n v a' H. unfold set_parameter in H. destruct (a_perm a); [|discriminate]. destruct (find_dir _ _) as [[[[p t] c] q]|].
    + destruct (cap _ _) as [[? ?]|]; [|discriminate]. injection H as <-. split; [reflexivity|]. left. apply logged. discriminate.
    + destruct (add_text _ a); [|discriminate]. injection H as <-. split; [reflexivity|]. right. apply logged. discriminate.
  - intros s a' H. unfold remove_instruction in H. destruct (find_dir _ _) as [[[[p t] c] q]|] eqn:FD; [|discriminate]. injection H as <-. split; [reflexivity|]. exists (t_text t). split; [|apply (logged _ "INSTRUCTION"); discriminate]. apply find_dir_some in FD. destruct FD as (_ & ST & _). destruct (t_comment t); [discriminate|]. apply is_sub_spec. destruct (is_sub s (t_text t)); [reflexivity|discriminate].
Qed.
(** C110: moving a component or changing its symbol is not recorded: updated() still tells that nothing was changed. *)
Theorem C110_not_recorded_refuted : forall sub f a a' e, file_ok sub f -> load sub (file_text f) = Some a -> call e a = Some a' ->
  match e with Move _ _ _ _ | SetModel _ _ => True | _ => False end -> updated a' = false /\ a_log a' = [].
Proof.
  intros sub f a a' e OK LD CA KI. destruct (load_shows sub f OK) as (b & LD' & SH & LG & CV & _). assert (b = a) by congruence. subst b. destruct e; try contradiction; cbn [call] in CA.
  - destruct (dget rot rotations); [|discriminate]. unfold set_component_position in CA. destruct (get_component ref a); [|discriminate]. injection CA as <-. unfold updated. cbn [put_comp with_comps a_canvas a_log]. rewrite LG, CV. auto.
  - unfold set_element_model in CA. destruct (get_component ref a); [|discriminate]. injection CA as <-. unfold updated. cbn [put_comp with_comps a_canvas a_log]. rewrite LG, CV. auto.
Qed.
Print Assumptions C109_recorded.
Print Assumptions C110_not_recorded_refuted.

(** C111: a rotation that LTspice does not have is taken, and saving then fails with a part of the schematic in the file. *)
Theorem C111_truncated_refuted :
  match load plain_sub (doc ["Version 4"; "SHEET 1 880 680"; "WIRE 0 0 16 16"; "SYMBOL res 0 0 R0"; "SYMATTR InstName R1"; "SYMATTR Value 1k"; "TEXT 0 0 Left 2 !.op"]) with
  | Some a => option_map save (set_component_position (s2l "R1") 16 16 45 a)
  | None => None
  end = Some (doc ["Version 4"; "SHEET 1 880 680"; "WIRE 0 0 16 16"], false).
Proof. vm_compute. reflexivity. Qed.
(** Whenever some component has such a rotation, saving fails. *)
Theorem C111_never_saved_refuted : forall sub f es a ref x y rot a', file_ok sub f -> Forall (edit_ok sub) es -> reached sub f es a ->
  In rot [45; 135; 225; 315; 405; 495; 585; 675]%Z -> set_component_position ref x y rot a = Some a' -> snd (save a') = false.
Proof.
  intros sub f es a ref x y rot a' OK EO RE RO H. unfold set_component_position in H. destruct (get_component ref a) as [c|] eqn:GC; [|discriminate]. injection H as <-.
  assert (W : forall l, In None l -> snd (write l) = false) by (induction l as [|[s|] l IH]; intros K; [destruct K| |reflexivity]; destruct K as [K|K]; [discriminate|]; cbn [write snd]; apply IH; exact K).
  apply W. do 3 (apply in_or_app; right). apply in_or_app. left. apply in_map_iff. exists (ref, Comp (c_sym c) x y rot (c_ref c) (c_attrs c)). cbn [snd]. split.
  - unfold comp_text. cbn [c_rot]. assert (rot_name rot = None) as ->; [|reflexivity]. destruct RO as [<-|[<-|[<-|[<-|[<-|[<-|[<-|[<-|[]]]]]]]]]; reflexivity.
  - cbn [put_comp with_comps a_comps]. clear -GC. unfold get_component in GC. destruct (mem_c COLON ref); [discriminate|]. revert GC. generalize (a_comps a). intros d. induction d as [|[k w] d IH]; intros H; [discriminate|]. rewrite dget_cons in H. cbn [dset]. destruct (str_eqb k ref) eqn:Q; [left; apply str_eqb_eq in Q; rewrite Q; reflexivity|right; apply IH; exact H].
Qed.
Print Assumptions C111_truncated_refuted.
Print Assumptions C111_never_saved_refuted.

(** C112: parameters of components that are not settings, or removed: None is written as a value, removing what is not there fails, words of SpiceLine that
    are no settings are lost or make the call fail, and removing the last setting leaves a file that cannot be read. *)
Definition res (line : list string) : list string := (["Version 4"; "SHEET 1 880 680"; "SYMBOL res 0 0 R0"; "SYMATTR InstName R1"; "SYMATTR Value 1k"] ++ line)%list.
Definition set_then_save (l : list string) (kw : list (string * option string)) : option (bool * str) :=
  match load plain_sub (doc l) with
  | Some a => let (a', ok) := set_component_parameters (fun s => s) (s2l "R1") (map (fun e => (s2l (fst e), option_map s2l (snd e))) kw) a in Some (ok, fst (save a'))
  | None => None
  end.
Theorem C112_component_parameters_refuted :
  set_then_save (res []) [("Value", None)] = Some (true, doc ["Version 4"; "SHEET 1 880 680"; "SYMBOL res 0 0 R0"; "SYMATTR InstName R1"; "SYMATTR Value None"]) /\
  (exists t, set_then_save (res []) [("tol", None)] = Some (false, t)) /\
  set_then_save (res ["SYMATTR SpiceLine noiseless tol=1"]) [("tol", Some "5")] = Some (true, doc (res ["SYMATTR SpiceLine tol=5"])) /\
  (exists t, set_then_save (res ["SYMATTR SpiceLine noiseless"]) [("tol", Some "5")] = Some (false, t)) /\
  (exists t, set_then_save (res ["SYMATTR SpiceLine tol=1"]) [("tol", None)] = Some (true, t) /\ load plain_sub t = None).
Proof. repeat split; try (eexists; split); try eexists; vm_compute; reflexivity. Qed.
Print Assumptions C112_component_parameters_refuted.

(** C113: scaling a schematic without ports scales each item, and the scaled schematic is what is saved. *)
Theorem C113_scaled : forall sub fx fy f es a, file_ok sub f -> Forall (edit_ok sub) es -> reached sub f es a ->
  exists l a2, edited_all es (f_items f) l /\ let x := with_items f (map (scaled fx fy) l) in
    save (scale fx fy a) = (file_text (grouped x), true) /\ load sub (file_text (grouped x)) = Some a2 /\ same_answers (scale fx fy a) a2 /\ updated (scale fx fy a) = true.
Proof.
  intros sub fx fy f es a OK EO RE. destruct (reached_shows sub f es a OK EO RE) as (l & E & S & O & _ & PO). pose proof (scale_shows fx fy a _ S PO) as S'. pose proof (scaled_ok sub fx fy _ O) as O'. cbn [with_items f_version f_sheet f_items] in S', O'. change (mk (f_version f) (f_sheet f)) with (with_items f) in S', O'.
  destruct (load_shows sub (grouped (with_items f (map (scaled fx fy) l)))) as (a2 & LD & S2 & _); [apply file_ok_kind; exact O'|]. exists l, a2. split; [exact E|]. cbv zeta. split; [apply save_shows; [apply O'|exact S']|]. split; [exact LD|]. split; [|reflexivity].
  apply (shows_same sub _ a2 (grouped (with_items f (map (scaled fx fy) l)))); [apply file_ok_kind; exact O'|apply (proj1 (shows_kind _ _)); exact S'|exact S2].
Qed.
(** C114: a label that is a port is scaled twice. *)
Theorem C114_ports_refuted : forall fx fy a i d x y s, a_ports a = [(i, d)] -> nth_error (a_labels a) i = Some (x, y, s) ->
  nth_error (a_labels (scale fx fy a)) i = Some (fx (fx x), fy (fy y), s) /\
  (forall j x' y' s', j <> i -> nth_error (a_labels a) j = Some (x', y', s') -> nth_error (a_labels (scale fx fy a)) j = Some (fx x', fy y', s')).
Proof.
  intros fx fy a i d x y s P N. unfold scale. cbn [a_labels]. rewrite P. cbn [fold_left fst]. assert (SN : forall l j, nth_error (scale_nth fx fy i l) j = option_map (fun e => if j =? i then scale_label fx fy e else e) (nth_error l j)).
  { intros l j. unfold scale_nth. rewrite nth_error_map. assert (C : forall (l : list (Z * Z * str)) k j, nth_error (combine (seq k (length l)) l) j = option_map (fun e => (k + j, e)) (nth_error l j)).
    { clear. induction l as [|e l IH]; intros k j; [destruct j; reflexivity|]. cbn [length seq combine]. destruct j as [|j]; cbn [nth_error option_map]; [rewrite Nat.add_0_r; reflexivity|]. rewrite IH. destruct (nth_error l j); cbn [option_map]; [|reflexivity]. do 2 f_equal. lia. }
    rewrite C. destruct (nth_error l j); reflexivity. }
  split.
  - rewrite SN, nth_error_map, N, Nat.eqb_refl. reflexivity.
  - intros j x' y' s' NE K. rewrite SN, nth_error_map, K. cbn [option_map]. apply Nat.eqb_neq in NE. rewrite NE. reflexivity.
Qed.
Print Assumptions C113_scaled.
Print Assumptions C114_ports_refuted.

(** ** Cases *)
Definition r1 : symbol := {| s_name := s2l "res"; s_x := -16; s_y := 32; s_rot := s2l "R90"; s_wins := [{| w_num := s2l "0"; w_x := 0; w_y := 56; w_align := s2l "VBottom"; w_size := 2 |}];
  s_ref := s2l "R1"; s_attrs := [(s2l "Value", s2l "1k"); (s2l "SpiceLine", s2l "tol=1 pwr=0.1")] |}.
Definition rc : file := {| f_version := s2l "4"; f_sheet := s2l "1 880 680";
  f_items := [Note {| n_x := 0; n_y := 200; n_align := s2l "Left"; n_size := 2; n_comment := false; n_text := s2l ".tran 1m" |};
    Wire 0 0 16 16; Symbol r1; Flag 0 0 (s2l "out"); Note {| n_x := 0; n_y := 232; n_align := s2l "Left"; n_size := 2; n_comment := true; n_text := s2l "a filter" |};
    Note {| n_x := 0; n_y := 264; n_align := s2l "Left"; n_size := 2; n_comment := false; n_text := s2l ".param a=1" |};
    DLine 0 0 32 32 (s2l "2"); DShape (s2l "CIRCLE") [(0, 0); (8, 8)]%Z []] |}.
Definition rc_edits : list edit := [SetValue (s2l "R1") (s2l "2k"); Move (s2l "R1") 64 64 (s2l "M180"); AddInstr (s2l " .ac dec 10 1 1k"); SetParam (s2l "A") (s2l "5"); RemInstr (s2l ".op")].
Lemma rc_ok : file_ok plain_sub rc.
Proof.
  split; [left; reflexivity|]. split; [split; [vm_compute; tauto || (intros K; repeat destruct K as [K|K]; discriminate || contradiction)|]; split; [vm_compute; intros K; repeat (destruct K as [K|K]; [discriminate|]); exact K|vm_compute; reflexivity]|].
  assert (CL : forall s, (forallb (fun c => negb (aeqb c LF) && negb (aeqb c CR))%bool s && str_eqb (strip s) s)%bool = true -> clean s).
  { intros s H. apply andb_true_iff in H. destruct H as (H & K). rewrite forallb_forall in H. split; [|split; [|apply str_eqb_eq; exact K]]; intros X; apply H in X; vm_compute in X; discriminate. }
  assert (OW : forall s, (negb (str_eqb s []) && forallb (fun c => negb (is_space c)) s)%bool = true -> one_word s).
  { intros s H. apply andb_true_iff in H. destruct H as (H & K). split; [intros ->; discriminate|]. intros c C. rewrite forallb_forall in K. apply K in C. apply negb_true_iff. exact C. }
  split; [|split; [repeat constructor; cbn; intuition discriminate|intros s _; discriminate]].
  intros i I. cbn in I. repeat (destruct I as [<-|I]; [|]); try (destruct I); cbn [item_ok]; try exact I.
  - split; [left; reflexivity|]. split; [vm_compute; discriminate|apply CL; vm_compute; reflexivity].
  - split; [exists [s2l "res"]; split; [discriminate|]; split; [reflexivity|]; intros w [<-|[]]; apply OW; reflexivity|]. split; [right; left; reflexivity|]. split; [intros w [<-|[]]; split; [apply OW; reflexivity|vm_compute; tauto]|].
    split; [repeat constructor; cbn; tauto|]. split; [apply CL; reflexivity|]. split; [discriminate|]. split; [|repeat constructor; cbn; intuition discriminate].
    intros e [<-|[<-|[]]]; (split; [apply OW; reflexivity|]; split; [discriminate|]; split; [reflexivity|]; split; [apply CL; reflexivity|]; split; [discriminate|]; intros K; discriminate K).
  - apply OW; reflexivity.
  - split; [left; reflexivity|]. split; [vm_compute; discriminate|apply CL; vm_compute; reflexivity].
  - split; [left; reflexivity|]. split; [vm_compute; discriminate|apply CL; vm_compute; reflexivity].
  - right. apply OW; reflexivity.
  - split; [left; reflexivity|]. left. split; [right; left; reflexivity|reflexivity].
Qed.

Example C50_nonvacuous : file_ok plain_sub rc /\ (exists a, load plain_sub (file_text rc) = Some a /\ get_component_value (s2l "R1") a = Some (s2l "1k")) /\ by_kind (f_items rc) <> f_items rc.
Proof. split; [exact rc_ok|]. split; [destruct (load plain_sub (file_text rc)) as [a|] eqn:E; [|vm_compute in E; discriminate]; exists a; split; [reflexivity|]; vm_compute in E; injection E as <-; vm_compute; reflexivity|]. discriminate. Qed.
Lemma rc_edits_ok : Forall (edit_ok plain_sub) rc_edits.
Proof.
  assert (NI : forall c s, mem_c c s = false -> ~ In c s) by (intros c s H K; apply mem_c_In in K; congruence).
  assert (CL : forall s, (negb (mem_c LF s) && negb (mem_c CR s) && str_eqb (strip s) s)%bool = true -> clean s).
  { intros s H. apply andb_true_iff in H. destruct H as (H & K). apply andb_true_iff in H. destruct H as (H1 & H2). apply negb_true_iff in H1, H2. split; [apply NI; exact H1|]. split; [apply NI; exact H2|apply str_eqb_eq; exact K]. }
  unfold rc_edits. apply Forall_cons; [split; [apply CL; reflexivity|discriminate]|]. apply Forall_cons; [vm_compute; tauto|]. apply Forall_cons; [split; apply NI; reflexivity|].
  apply Forall_cons; [split; [apply CL; reflexivity|]; split; [discriminate|]; split; apply NI; reflexivity|]. apply Forall_cons; [exact I|constructor].
Qed.
Example C101_nonvacuous : Forall (edit_ok plain_sub) rc_edits /\ exists a, reached plain_sub rc rc_edits a /\
  save a = (doc ["Version 4"; "SHEET 1 880 680"; "WIRE 0 0 16 16"; "FLAG 0 0 out"; "SYMBOL res 64 64 M180"; "WINDOW 0 0 56 VBottom 2"; "SYMATTR InstName R1"; "SYMATTR Value 2k"; "SYMATTR SpiceLine tol=1 pwr=0.1";
    "TEXT 0 200 Left 2 !.ac dec 10 1 1k"; "TEXT 0 232 Left 2 ;a filter"; "TEXT 0 264 Left 2 !.param a=5"; "LINE Normal 0 0 32 32 2"; "CIRCLE Normal 0 0 8 8"], true).
Proof.
  split; [exact rc_edits_ok|]. destruct (load plain_sub (file_text rc)) as [a0|] eqn:E; [|vm_compute in E; discriminate]. destruct (calls rc_edits a0) as [a|] eqn:E2.
  - exists a. split; [exists a0; auto|]. vm_compute in E. injection E as <-. vm_compute in E2. injection E2 as <-. vm_compute. reflexivity.
  - vm_compute in E. injection E as <-. vm_compute in E2. discriminate.
Qed.

(** Its edits keep one simulation command; its parameters are well formed and the settings of its resistor can be changed. *)
Example C51_nonvacuous : one_sim (f_items rc) /\ sim_command (strip (s2l " .ac dec 10 1 1k")) /\ comments (f_items rc) <> [] /\ exists a, reached plain_sub rc ([] ++ [AddInstr (s2l " .ac dec 10 1 1k")]) a.
Proof.
  split; [apply one_sim_count; vm_compute; lia|]. split; [apply (command_sim _ (s2l ".AC")); reflexivity|]. split; [discriminate|].
  destruct (load plain_sub (file_text rc)) as [a0|] eqn:E; [|vm_compute in E; discriminate]. destruct (calls [AddInstr (s2l " .ac dec 10 1 1k")] a0) as [a|] eqn:E2; [exists a, a0; auto|]. vm_compute in E. injection E as <-. vm_compute in E2. discriminate.
Qed.
Definition par_a : pline := {| l_lead := []; l_word := s2l ".param"; l_pars := [{| e_sep := s2l " "; e_par := s2l "a"; e_b1 := []; e_b2 := []; e_val := s2l "1" |}]; l_tail := [] |}.
Lemma num_value : forall d, d <> [] -> forallb digit_like d = true -> par_value d.
Proof. intros d N D. rewrite <- (app_nil_r d). apply Number; [exact N|exact D|reflexivity]. Qed.
Example C102_nonvacuous : par_items (f_items rc) /\ Forall setting_ok [(s2l "a", s2l "7"); (s2l "tau", s2l "3")] /\
  exists a a', load plain_sub (file_text rc) = Some a /\ set_all [(s2l "a", s2l "7"); (s2l "tau", s2l "3")] a = Some a' /\ get_parameter (s2l "A") a' = Some (s2l "7") /\ get_parameter (s2l "tau") a' = Some (s2l "3").
Proof.
  assert (NP : forall s, startswith (s2l ".PARAM") (upper s) = false -> ~ is_param_line s) by (intros s H K; apply is_par_spec in K; unfold is_par in K; congruence).
  split; [|split].
  - intros t I C. cbn in I. repeat destruct I as [I|I]; try discriminate; try contradiction; injection I as <-; cbn [n_text n_comment] in *; try discriminate; try (left; apply NP; reflexivity).
    right. exists par_a. split; [reflexivity|]. split; [|reflexivity]. split; [intros c []|]. split; [reflexivity|]. split; [|split; [reflexivity|split; [intros c []|exact Logic.I]]].
    constructor; [|constructor]. split; [intros c [<-|[]]; reflexivity|]. split; [discriminate|]. split; [split; [discriminate|reflexivity]|]. split; [intros c []|]. split; [intros c []|apply num_value; [discriminate|reflexivity]].
  - repeat (apply Forall_cons; [split; [split; [discriminate|reflexivity]|split; [apply num_value; [discriminate|reflexivity]|reflexivity]]|]). constructor.
  - destruct (load plain_sub (file_text rc)) as [a0|] eqn:E; [|vm_compute in E; discriminate]. destruct (set_all [(s2l "a", s2l "7"); (s2l "tau", s2l "3")] a0) as [a|] eqn:E2.
    + exists a0, a. split; [reflexivity|]. split; [exact E2|]. vm_compute in E. injection E as <-. vm_compute in E2. injection E2 as <-. split; vm_compute; reflexivity.
    + vm_compute in E. injection E as <-. vm_compute in E2. discriminate.
Qed.
Example C103_nonvacuous : line_of r1 (s2l "SpiceLine") [(s2l "tol", s2l "1"); (s2l "pwr", s2l "0.1")] /\ line_of r1 (s2l "SpiceLine2") [] /\ par_name_ok (s2l "temp") /\ par_value (s2l "25") /\ ~ In (s2l "temp") spice_names.
Proof.
  assert (NI : forall x, mem_s x spice_names = false -> ~ In x spice_names) by (intros x H K; apply mem_s_In in K; congruence).
  split; [split; [reflexivity|split; [repeat constructor; cbn; intuition discriminate|]]|].
  - intros e [<-|[<-|[]]]; (split; [split; [discriminate|reflexivity]|split; [apply num_value; [discriminate|reflexivity]|apply NI; reflexivity]]).
  - split; [split; [reflexivity|split; [constructor|intros e []]]|]. split; [split; [discriminate|reflexivity]|]. split; [apply num_value; [discriminate|reflexivity]|apply NI; reflexivity].
Qed.
