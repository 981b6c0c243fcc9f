(** Parameters of QSPICE components: C210-C215. *)
From Coq Require Import String Ascii List Bool Arith ZArith Lia Sorted Permutation.
From Verif Require Import PyStr EngModel EngProofs StepsModel Regex RegexProofs CompModel CompProofs UpdatesModel QTagModel QTagSpec QTagProofs QEdModel QEdSpec
  ParModel ParSpec ParLine ParLine2 ParProofs QEdProofs QEdProofs2 QEdProofs3 QParSpec QParProofs QEdProps QCmpModel QCmpSpec QCmpProofs QCmpProofs2 QCmpProofs3.
Import ListNotations.
Local Open Scope string_scope. Local Open Scope nat_scope. Local Open Scope list_scope.

(** C210: after any sequence of set_parameters calls, get_parameters gives for each name what the calls asked for last, or nothing if it
    was removed last, and for the names the calls did not mention what it gave before; reference, value, drawing and pins are as before,
    and the symbol is again one of this kind, which can be written. *)
Theorem C210_component_parameters : forall y r v xs calls, described y r v xs -> y_perm y = Inform -> plain_text v -> Forall call_ok calls ->
  exists d0 y' xs' d, get_parameters y = Some d0 /\ set_calls calls y = Some y' /\ described y' r v xs' /\ others y' = others y /\
    get_parameters y' = Some d /\ forall n, pget (PName n) d = after_calls n calls (pget (PName n) d0).
Proof.
  intros y r v xs calls (D1 & D2 & D3 & D4 & D5) PM PV CK. assert (state y r v xs) as ST by (repeat (split; [assumption|]); assumption).
  destruct (get_ok _ _ _ _ ST) as (d0 & G0 & A0 & _). destruct (set_calls_ok calls y r v xs ST PV CK) as (y' & xs' & E & ST' & O & A).
  destruct (get_ok _ _ _ _ ST') as (d & G & A1 & _). exists d0, y', xs', d. split; [exact G0|]. split; [exact E|]. destruct ST' as (_ & ST').
  split; [exact ST'|]. split; [exact O|]. split; [exact G|]. intros n. rewrite A1, A, A0. reflexivity.
Qed.
Print Assumptions C210_component_parameters.
(** ... a call that is denied changes nothing. *)
Theorem C210_denied : forall kw y, y_perm y = Deny -> set_parameters kw y = None.
Proof. intros kw y H. unfold set_parameters. rewrite H. reflexivity. Qed.
Print Assumptions C210_denied.
(** ... every change is recorded: the schematic is marked as changed, and its log of updates tells the component, the name, the value
    (none for a removal) and the kind; what it tells of other things stays. *)
Lemma add_update_in : forall log n v ty, ty <> UpInvalid -> In (Upd n v ty) (add_update log n v ty).
Proof.
  intros log n v ty NI. induction log as [|u log IH]; [left; reflexivity|]. cbn [add_update].
  destruct (entry_matches u n v ty) eqn:M; [|right; exact IH]. left. unfold entry_matches in M. apply andb_true_iff in M as (M & _).
  apply andb_true_iff in M as (M & _). apply String.eqb_eq in M. rewrite M. destruct ty; try reflexivity. contradiction.
Qed.
Lemma add_update_other : forall log n v ty u, In u log -> u_name u <> n -> In u (add_update log n v ty).
Proof.
  intros log n v ty u. induction log as [|w log IH]; intros I N; [destruct I|]. cbn [add_update].
  destruct (entry_matches w n v ty) eqn:M.
  - destruct I as [-> |I]; [|right; exact I]. exfalso. apply N. unfold entry_matches in M. apply andb_true_iff in M as (M & _).
    apply andb_true_iff in M as (M & _). apply String.eqb_eq in M. exact M.
  - destruct I as [-> |I]; [left; reflexivity|right; apply IH; assumption].
Qed.
Definition recorded (y y' : sym) (k : str) (v : option str) : Prop :=
  y_canvas y' = true /\
  (exists ty, In (Upd (l2s (y_ref y ++ s2l ":" ++ k)) (match v with Some w => VStr (l2s w) | None => VNone end) ty) (y_log y') /\
     match v with Some _ => ty = UpAddComponentParameter \/ ty = UpUpdateComponentParameter | None => ty = UpDeleteComponentParameter end) /\
  forall u, In u (y_log y) -> u_name u <> l2s (y_ref y ++ s2l ":" ++ k) -> In u (y_log y').
Lemma note_recorded : forall y z k v w ty, y_ref z = y_ref y -> y_log z = y_log y ->
  w = match v with Some x => VStr (l2s x) | None => VNone end ->
  match v with Some _ => ty = UpAddComponentParameter \/ ty = UpUpdateComponentParameter | None => ty = UpDeleteComponentParameter end ->
  recorded y (note z k w ty) k v.
Proof.
  intros y z k v w ty R L -> T. unfold recorded, note. cbn [y_canvas y_log]. rewrite R, L. split; [reflexivity|]. split.
  - exists ty. split; [|exact T]. apply add_update_in. intros E. subst ty. destruct v; [destruct T|]; discriminate.
  - intros u I N. apply add_update_other; assumption.
Qed.
Theorem C210_recorded : forall y k v y', set_parameter k v y = Some y' -> (v = None /\ y' = y) \/ recorded y y' k v.
Proof.
  intros y k v y' H. unfold set_parameter, set_parameters in H. destruct (y_perm y); try discriminate H. cbn [set_each] in H.
  destruct (set_one (skipn 1 (text_ids y)) k v y) as [z|] eqn:E; [|discriminate]. injection H as <-. unfold set_one in E.
  destruct (find_setting (y_store y) k (skipn 1 (text_ids y))) as [[[[i s] [[b e] c]]|]|]; [| |discriminate].
  - destruct v as [v|].
    + destruct (cap gVALUE c) as [[vb ve]|]; [|discriminate]. destruct (set_attr _ _ _) as [t|]; [|discriminate]. injection E as <-.
      right. apply note_recorded; try reflexivity. right. reflexivity.
    + destruct (e - b =? length s).
      * destruct (drop_id i (y_items y)); [|discriminate]. injection E as <-. right. apply note_recorded; reflexivity.
      * destruct (set_attr _ _ _) as [t|]; [|discriminate]. injection E as <-. right. apply note_recorded; reflexivity.
  - destruct v as [v|]; [|injection E as <-; left; split; reflexivity].
    destruct (xy_for_new _) as [[px py]|]; [|discriminate]. destruct (parse _) as [[t r]|]; [|discriminate]. injection E as <-.
    right. apply note_recorded; try reflexivity. left. reflexivity.
Qed.
Print Assumptions C210_recorded.

(** ... a parameter that was not set before goes into a new text "name=value", at the lowest x of the texts, 150 above the highest. *)
Lemma positions_in : forall l ps, positions l = Some ps -> forall p, In p ps <-> exists t, In t l /\ head_is TEXT t = true /\ get_attr 1 t = Some (APair [fst p; snd p]).
Proof.
  induction l as [|t l IH]; intros ps H p; cbn [positions] in H.
  - injection H as <-. split; [intros []|intros (t & [] & _)].
  - destruct (head_is TEXT t) eqn:T.
    + destruct (pair_of (get_attr 1 t)) as [q|] eqn:P; [|discriminate]. destruct (positions l) as [qs|]; [|discriminate]. injection H as <-.
      assert (get_attr 1 t = Some (APair [fst q; snd q])) as A.
      { destruct (get_attr 1 t) as [[ | |l0| ]|]; try discriminate P. destruct l0 as [|a [|b [|c l0]]]; try discriminate P. injection P as <-. reflexivity. }
      split.
      * intros [<- |I]; [exists t; split; [left; reflexivity|split; assumption]|]. apply (IH qs eq_refl) in I as (u & I & U). exists u. split; [right; exact I|exact U].
      * intros (u & [<- |I] & U1 & U2); [left|right; apply (IH qs eq_refl); exists u; repeat split; assumption].
        rewrite A in U2. injection U2 as E1 E2. destruct p, q. cbn in *. congruence.
    + rewrite (IH ps H p). split; intros (u & I & U1 & U2).
      * exists u. split; [right; exact I|split; assumption].
      * destruct I as [<- |I]; [congruence|]. exists u. repeat split; assumption.
Qed.
Lemma fold_min : forall l x, (In (fold_left Z.min l x) (x :: l)) /\ forall z, In z (x :: l) -> (fold_left Z.min l x <= z)%Z.
Proof.
  induction l as [|a l IH]; intros x; cbn [fold_left]; [split; [left; reflexivity|intros z [<- |[]]; lia]|].
  destruct (IH (Z.min x a)) as (H1 & H2). split.
  - destruct H1 as [H1|H1]; [|right; right; exact H1]. rewrite <- H1. destruct (Z.min_dec x a) as [-> | ->]; [left; reflexivity|right; left; reflexivity].
  - intros z [<- |[<- |I]]; [| |apply H2; right; exact I]; (eapply Z.le_trans; [apply H2; left; reflexivity|lia]).
Qed.
Lemma fold_max : forall l x, (In (fold_left Z.max l x) (x :: l)) /\ forall z, In z (x :: l) -> (z <= fold_left Z.max l x)%Z.
Proof.
  induction l as [|a l IH]; intros x; cbn [fold_left]; [split; [left; reflexivity|intros z [<- |[]]; lia]|].
  destruct (IH (Z.max x a)) as (H1 & H2). split.
  - destruct H1 as [H1|H1]; [|right; right; exact H1]. rewrite <- H1. destruct (Z.max_dec x a) as [-> | ->]; [left; reflexivity|right; left; reflexivity].
  - intros z [<- |[<- |I]]; [| |apply H2; right; exact I]; (eapply Z.le_trans; [|apply H2; left; reflexivity]; lia).
Qed.
Theorem C210_new_text : forall y r v xs d k w, described y r v xs -> y_perm y = Inform -> plain_text v -> cname k -> cvalue w ->
  get_parameters y = Some d -> pget (PName k) d = None ->
  exists y' i px py, set_parameter k (Some w) y = Some y' /\ In i (y_items y') /\ ~ In i (y_items y) /\
    text_of (y_store y' i) = Some (k ++ s2l "=" ++ w) /\ get_attr 1 (y_store y' i) = Some (APair [px; py]) /\
    (forall j p q, In j (text_ids y) -> get_attr 1 (y_store y j) = Some (APair [p; q]) -> (px <= p /\ q + 150 <= py)%Z) /\
    (exists j q, In j (text_ids y) /\ get_attr 1 (y_store y j) = Some (APair [px; q])) /\
    (exists j p, In j (text_ids y) /\ get_attr 1 (y_store y j) = Some (APair [p; (py - 150)%Z])).
Proof.
  intros y r v xs d k w (D1 & D2 & D3 & D4 & D5) PM PV KN VW G NK. assert (state y r v xs) as ST by (repeat (split; [assumption|]); assumption).
  destruct (get_ok _ _ _ _ ST) as (d0 & G0 & A0 & _). rewrite G in G0. injection G0 as <-. rewrite A0 in NK.
  destruct (state_ids _ _ _ _ ST) as (r0 & v0 & tids & ID & TR & TV & F2).
  assert (find_setting (y_store y) k (v0 :: tids) = Some None) as FS.
  { pose proof (find_setting_ok (y_store y) k (v0 :: tids)) as FS.
    assert (forall i, In i (v0 :: tids) -> exists s, text_of (y_store y i) = Some s) as TT.
    { intros i [<- |I]; [exists v; exact TV|]. destruct (f2_mid _ _ _ _ _ _ F2 I) as (_ & _ & _ & z & _ & _ & _ & _ & (Z & _) & _). exists (ctext_str z). exact Z. }
    specialize (FS TT). destruct (find_setting (y_store y) k (v0 :: tids)) as [[[[i s] x]|]|]; [|reflexivity|contradiction].
    exfalso. destruct FS as (I & T & L). destruct I as [<- |I].
    - rewrite TV in T. injection T as <-. unfold line_hit in L. change any_setting with R0 in L. rewrite free_none in L by exact PV. discriminate.
    - destruct (f2_mid _ _ _ _ _ _ F2 I) as (u1 & u2 & m1 & z & m2 & _ & EM & _ & Z & _).
      assert (hit (y_store y) k i) as HI by (exists s; split; [exact T|rewrite L; discriminate]).
      apply (hit_names (y_store y) k i z Z) in HI. apply value_none in NK. apply NK. rewrite settings_names, EM, flat_map_app, map_app.
      apply in_or_app. right. cbn [flat_map]. rewrite map_app. apply in_or_app. left. exact HI. }
  unfold set_parameter, set_parameters. rewrite PM, ID. cbn [skipn set_each]. unfold set_one. rewrite FS.
  unfold xy_for_new. destruct (positions_ok (map (y_store y) (y_items y))) as (ps & EP).
  { intros t I T. apply in_map_iff in I as (j & <- & J). destruct D1 as (_ & _ & O3 & _). apply O3. apply filter_In. split; assumption. }
  pose proof (positions_in _ _ EP) as PI. rewrite EP.
  assert (forall j p q, In j (text_ids y) -> get_attr 1 (y_store y j) = Some (APair [p; q]) -> In (p, q) ps) as PJ.
  { intros j p q J A. apply (PI (p, q)). exists (y_store y j). apply filter_In in J as (J1 & J2). split; [apply in_map; exact J1|]. split; assumption. }
  assert (forall p q, In (p, q) ps -> exists j, In j (text_ids y) /\ get_attr 1 (y_store y j) = Some (APair [p; q])) as PK.
  { intros p q I. apply (PI (p, q)) in I as (t & I & T & A). apply in_map_iff in I as (j & <- & J). exists j. split; [apply filter_In; split; assumption|exact A]. }
  destruct ps as [|[x0 y0] ps].
  { exfalso. destruct D1 as (_ & _ & O3 & _). destruct (O3 r0) as (p & q & A); [rewrite ID; left; reflexivity|].
    exact (PJ r0 p q ltac:(rewrite ID; left; reflexivity) A). }
  destruct (fold_min (map fst ps) x0) as (MN1 & MN2). destruct (fold_max (map snd ps) y0) as (MX1 & MX2).
  set (px := fold_left Z.min (map fst ps) x0) in *. set (my := fold_left Z.max (map snd ps) y0) in *.
  pose proof (pars_good _ _ (new_pars k w KN VW)) as GX.
  assert (ctext_str (Pars [{| e_sep := []; e_par := k; e_b1 := []; e_b2 := []; e_val := w |}] []) = k ++ s2l "=" ++ w) as TX
    by (unfold ctext_str, entry_text; cbn [map concat e_sep e_par e_b1 e_b2 e_val app]; rewrite !app_nil_r; reflexivity).
  rewrite TX in GX. destruct (new_param_tag px (my + 150) _ GX) as (t & rest & PA & P1 & P2 & P3 & P4 & P5). rewrite PA.
  destruct (new_symbol y t D1 D2 P1 P2 P3 (ex_intro _ px (ex_intro _ _ P5))) as (_ & _ & Q3 & _).
  eexists. exists (y_next y), px, (my + 150)%Z. split; [reflexivity|]. cbn [note y_items y_store with_y].
  split.
  { assert (In (y_next y) (text_ids y ++ [y_next y])) as K by (apply in_or_app; right; left; reflexivity). rewrite <- Q3 in K.
    apply filter_In in K as (K & _). exact K. }
  split; [intros K; destruct D1 as (_ & O2 & _); apply O2 in K; lia|]. rewrite Nat.eqb_refl. split; [exact P4|]. split; [exact P5|]. split; [|split].
  - intros j p q J A. rewrite <- ID in J. pose proof (PJ j p q J A) as K. split.
    + apply MN2. destruct K as [K|K]; [injection K as -> ->; left; reflexivity|right; apply in_map_iff; exists (p, q); split; [reflexivity|exact K]].
    + assert (q <= my)%Z; [|lia]. apply MX2. destruct K as [K|K]; [injection K as -> ->; left; reflexivity|right; apply in_map_iff; exists (p, q); split; [reflexivity|exact K]].
  - assert (exists q, In (px, q) ((x0, y0) :: ps)) as (q & K).
    { destruct MN1 as [M|M]; [exists y0; left; rewrite <- M; reflexivity|]. apply in_map_iff in M as ([a b] & M & I). cbn in M. subst a. exists b. right. exact I. }
    apply PK in K as (j & J & A). exists j, q. rewrite <- ID. split; assumption.
  - assert (exists p, In (p, my) ((x0, y0) :: ps)) as (p & K).
    { destruct MX1 as [M|M]; [exists x0; left; rewrite <- M; reflexivity|]. apply in_map_iff in M as ([a b] & M & I). cbn in M. subst b. exists a. right. exact I. }
    apply PK in K as (j & J & A). exists j, p. rewrite <- ID. split; [exact J|]. rewrite A. do 3 f_equal. f_equal. lia.
Qed.
Print Assumptions C210_new_text.
(** C214: besides the names, get_parameters gives under the number i, from 2 on, the whole text of the symbol's i-th text (reference and
    value being the texts 0 and 1), and under no other number anything. *)
Theorem C214_texts_by_number : forall y r v xs d, described y r v xs -> get_parameters y = Some d ->
  (forall i, pget (PNum (2 + i)) d = nth_error (map ctext_str xs) i) /\ pget (PNum 0) d = None /\ pget (PNum 1) d = None /\
  forall n, pget (PName n) d = value_in n (settings_of xs).
Proof.
  intros y r v xs d (D1 & D2 & D3 & D4 & D5) G.
  set (z := Sym (y_toks y) (y_store y) (y_items y) (y_next y) (y_ref y) (y_log y) (y_canvas y) Inform).
  assert (state z r v xs) as ST by (split; [reflexivity|]; repeat (split; [assumption|]); assumption).
  destruct (get_ok _ _ _ _ ST) as (d0 & G0 & A0 & B0). change (get_parameters z) with (get_parameters y) in G0. assert (d0 = d) as -> by congruence. split.
  - intros i. rewrite B0. cbn [Nat.add Nat.ltb Nat.leb Nat.sub]. rewrite Nat.sub_0_r. symmetry. apply nth_error_map.
  - split; [rewrite B0; reflexivity|]. split; [rewrite B0; reflexivity|exact A0].
Qed.
Print Assumptions C214_texts_by_number.

(** A resistor with parameters on two texts and a comment; one is changed, one removed with its text, one removed within its text, one added. *)
Definition ctag (s : string) : tag := Tag [s2l "text"; s2l "(100,-50)"; s2l "1"; s2l "7"; s2l "0"; s2l "0x1000000"; s2l "-1"; s2l "-1"; DQ :: s2l s ++ [DQ]] [].
Definition pin_tag : tag := Tag [s2l "pin"; s2l "(0,0)"; s2l "(0,0)"; s2l "1"; s2l "0"; s2l "0"; s2l "0x0"; s2l "-1"; DQ :: s2l "1" ++ [DQ]] [].
Definition line_tag : tag := Tag [s2l "line"; s2l "(0,0)"; s2l "(0,100)"] [].
Definition csym (texts : list string) : sym := open_sym (s2l "R1") (Tag [s2l "symbol"; s2l "R"] (line_tag :: map ctag texts ++ [pin_tag])).
Definition shown (y : sym) : option (list (string * string)) :=
  option_map (fun d => flat_map (fun e => match fst e with PName n => [(l2s n, l2s (snd e))] | PNum _ => [] end) d) (get_parameters y).
Definition texts_of (y : sym) : list (option string) := map (fun i => option_map l2s (text_of (y_store y i))) (text_ids y).
Definition kwargs (l : list (string * option string)) : list (str * option str) := map (fun e => (s2l (fst e), option_map s2l (snd e))) l.
Definition ex_texts : list string := ["R1"; "1k"; "tol=5 temp = 27"; "thin"; "Rser={x+1}"].
Definition ex_calls : list (list (str * option str)) :=
  [kwargs [("temp", Some "85"); ("Rser", None)]; kwargs [("tol", None); ("pwr", Some "0.25")]].
Definition ent (a n b c v : string) : entry := {| e_sep := s2l a; e_par := s2l n; e_b1 := s2l b; e_b2 := s2l c; e_val := s2l v |}.
Definition ex_xs : list ctext := [Pars [ent "" "tol" "" "" "5"; ent " " "temp" " " " " "27"] []; Free (s2l "thin"); Pars [ent "" "Rser" "" "" "{x+1}"] []].

Lemma no_colon_dec : forall s, existsb (aeqb COLON) s = false -> no_colon s.
Proof. intros s H a b ->. rewrite existsb_app in H. cbn [existsb] in H. rewrite aeqb_refl, orb_true_r in H. discriminate. Qed.
Lemma not_in_dec : forall c s, existsb (aeqb c) s = false -> ~ In c s.
Proof. intros c s H K. apply in_split in K. destruct K as (a & b & ->). rewrite existsb_app in H. cbn [existsb] in H. rewrite aeqb_refl, orb_true_r in H. discriminate. Qed.
Lemma good_dec : forall s, existsb (aeqb DQ) s = false -> existsb (aeqb COLON) s = false -> existsb (aeqb CR) s = false -> good_text s.
Proof. intros s A B C. split; [apply not_in_dec; exact A|]. split; [apply no_colon_dec; exact B|apply not_in_dec; exact C]. Qed.
Lemma num_ok : forall s, forallb digit_like (s2l s) = true -> s2l s <> [] -> existsb (aeqb DQ) (s2l s) = false -> existsb (aeqb COLON) (s2l s) = false -> existsb (aeqb CR) (s2l s) = false -> cvalue (s2l s).
Proof. intros s A B C D E. split; [|apply good_dec; assumption]. rewrite <- (app_nil_r (s2l s)). apply Number; [exact B|exact A|reflexivity]. Qed.
Lemma brace_ok : cvalue (s2l "{x+1}").
Proof. split; [|apply good_dec; reflexivity]. apply (Braced (s2l "x+1")); apply not_in_dec; reflexivity. Qed.
Lemma name_ok' : forall s, s2l s <> [] -> forallb name_c (s2l s) = true -> startswith (s2l "0x") (s2l s) = false -> cname (s2l s).
Proof. intros s A B C. split; [split; assumption|exact C]. Qed.
Lemma sp_ok : forall s, forallb (aeqb " ") (s2l s) = true -> ParSpec.spaces (s2l s).
Proof. intros s H c K. rewrite forallb_forall in H. apply H in K. apply aeqb_eq in K. symmetry. exact K. Qed.
Lemma leaf_ok : forall ts, forallb (fun w => negb (str_eqb w []) && forallb (fun c => negb (is_space c) && negb (aeqb c DQ) && negb (aeqb c LT) && negb (aeqb c GT) && negb (aeqb c COLON) && negb (aeqb c CR)) w) ts = true ->
  forall s, existsb (aeqb DQ) (s2l s) = false -> existsb (aeqb COLON) (s2l s) = false -> existsb (aeqb CR) (s2l s) = false ->
  forall last, last = [] \/ last = [DQ :: s2l s ++ [DQ]] ->
  proper (Tag (ts ++ last) []) /\ ~ in_tag CR (Tag (ts ++ last) []).
Proof.
  intros ts H s D C R lst HL. rewrite forallb_forall in H.
  assert (P : forall w, In w ts -> w <> [] /\ forall c, In c w -> is_space c = false /\ c <> DQ /\ c <> LT /\ c <> GT /\ c <> COLON /\ c <> CR).
  { intros w W. apply H in W. apply andb_true_iff in W. destruct W as (W1 & W2). split; [intros ->; discriminate|]. intros c K. rewrite forallb_forall in W2. apply W2 in K.
    rewrite !andb_true_iff, !negb_true_iff in K. destruct K as (((((K1 & K2) & K3) & K4) & K5) & K6).
    repeat split; try assumption; intros ->; rewrite aeqb_refl in *; discriminate. }
  assert (Q : forall w, In w (ts ++ lst) -> In w ts \/ w = DQ :: s2l s ++ [DQ]) by (intros w K; apply in_app_or in K; destruct K as [K|K]; [left; exact K|right]; destruct HL as [-> | ->]; [destruct K|destruct K as [<- |[]]; reflexivity]).
  split.
  - apply P_leaf.
    + apply Forall_forall. intros w K. destruct (Q w K) as [K' | ->].
      * destruct (P w K') as (P1 & P2). left. split; [exact P1|]. intros c KC. apply P2 in KC. tauto.
      * right. exists (s2l s). split; [reflexivity|apply not_in_dec; exact D].
    + apply Forall_forall. intros w K. destruct (Q w K) as [K' | ->].
      * destruct (P w K') as (P1 & P2). intros a b ->. destruct (P2 COLON) as (_ & _ & _ & _ & N & _); [apply in_or_app; right; left; reflexivity|congruence].
      * apply quoted_no_colon. apply no_colon_dec. exact C.
    + intros a z b E. exfalso. assert (In (z ++ [COLON]) (ts ++ lst)) as K by (rewrite E; apply in_or_app; right; left; reflexivity). destruct (Q _ K) as [K' | K'].
      * destruct (P _ K') as (_ & P2). destruct (P2 COLON) as (_ & _ & _ & _ & N & _); [apply in_or_app; right; left; reflexivity|congruence].
      * change (DQ :: s2l s ++ [DQ]) with ((DQ :: s2l s) ++ [DQ]) in K'. apply app_inj_tail in K'. destruct K' as (_ & K'). discriminate K'.
  - intros K. inversion K as [ts0 its a HI HA|ts0 its t HI]; subst; [|destruct HI]. destruct (Q a HI) as [K' | ->].
    + destruct (P a K') as (_ & P2). apply P2 in HA. tauto.
    + destruct HA as [HA|HA]; [discriminate|]. apply in_app_or in HA. destruct HA as [HA|[HA|[]]]; [|discriminate]. revert HA. apply not_in_dec. exact R.
Qed.
Example C210_nonvacuous :
  described (csym ex_texts) (s2l "R1") (s2l "1k") ex_xs /\ y_perm (csym ex_texts) = Inform /\ plain_text (s2l "1k") /\ Forall call_ok ex_calls /\
  shown (csym ex_texts) = Some [("tol", "5"); ("temp", "27"); ("Rser", "{x+1}")] /\
  match set_calls ex_calls (csym ex_texts) with
  | Some y => shown y = Some [("temp", "85"); ("pwr", "0.25")] /\ texts_of y = map Some ["R1"; "1k"; " temp = 85"; "thin"; "pwr=0.25"]
  | None => False
  end.
Proof.
  split; [|split; [reflexivity|split; [split; apply not_in_dec; reflexivity|split; [|split; [vm_compute; reflexivity|vm_compute; split; reflexivity]]]]].
  - split; [|split; [|split; [vm_compute; reflexivity|split]]].
    + split; [vm_compute; repeat constructor; cbn; intuition discriminate|]. split; [intros i H; vm_compute in H |- *; lia|]. split.
      * intros i H. vm_compute in H. exists 100%Z, (-50)%Z. repeat (destruct H as [<- |H]; [vm_compute; reflexivity|]). destruct H.
      * intros a i b E P j J. assert (i = 6 /\ b = []) as (-> & ->); [|destruct J].
        change (y_items (csym ex_texts)) with [0; 1; 2; 3; 4; 5; 6] in E.
        do 7 (destruct a as [|? a]; [injection E as <- <-; try (vm_compute in P; discriminate P); split; reflexivity|injection E as <- E]). destruct a; discriminate E.
    + unfold sym_writable. change (y_items (csym ex_texts)) with [0; 1; 2; 3; 4; 5; 6].
      repeat (apply Forall_cons); try apply Forall_nil; cbn [csym open_sym y_store nth map app kids ex_texts].
      * exact (leaf_ok [s2l "line"; s2l "(0,0)"; s2l "(0,100)"] eq_refl "" eq_refl eq_refl eq_refl [] (or_introl eq_refl)).
      * exact (leaf_ok (removelast (toks (ctag "R1"))) eq_refl "R1" eq_refl eq_refl eq_refl _ (or_intror eq_refl)).
      * exact (leaf_ok (removelast (toks (ctag "1k"))) eq_refl "1k" eq_refl eq_refl eq_refl _ (or_intror eq_refl)).
      * exact (leaf_ok (removelast (toks (ctag ""))) eq_refl "tol=5 temp = 27" eq_refl eq_refl eq_refl _ (or_intror eq_refl)).
      * exact (leaf_ok (removelast (toks (ctag ""))) eq_refl "thin" eq_refl eq_refl eq_refl _ (or_intror eq_refl)).
      * exact (leaf_ok (removelast (toks (ctag ""))) eq_refl "Rser={x+1}" eq_refl eq_refl eq_refl _ (or_intror eq_refl)).
      * exact (leaf_ok (removelast (toks pin_tag)) eq_refl "1" eq_refl eq_refl eq_refl _ (or_intror eq_refl)).
    + unfold ex_xs. repeat (apply Forall_cons); try apply Forall_nil; cbn [ctext_ok].
      * split; [|split; [|intros c []]]; repeat (apply Forall_cons); try apply Forall_nil; [| |discriminate];
          (split; [apply sp_ok; reflexivity|]; split; [apply name_ok'; [discriminate|reflexivity|reflexivity]|]; split; [apply sp_ok; reflexivity|]; split; [apply sp_ok; reflexivity|]; apply num_ok; try reflexivity; discriminate).
      * split; apply not_in_dec; reflexivity.
      * split; [|split; [constructor|intros c []]]. repeat (apply Forall_cons); try apply Forall_nil.
        split; [apply sp_ok; reflexivity|]. split; [apply name_ok'; [discriminate|reflexivity|reflexivity]|]. split; [apply sp_ok; reflexivity|]. split; [apply sp_ok; reflexivity|]. exact brace_ok.
    + vm_compute. repeat constructor; cbn; intuition discriminate.
  - unfold ex_calls, kwargs. repeat (apply Forall_cons); try apply Forall_nil; (split; [vm_compute; repeat constructor; cbn; intuition discriminate|]);
      repeat (apply Forall_cons); try apply Forall_nil; cbn [map fst snd option_map]; (split; [apply name_ok'; [discriminate|reflexivity|reflexivity]|]); try exact I; apply num_ok; try reflexivity; discriminate.
Qed.
Example C214_nonvacuous : option_map (fun d => map (fun i => option_map l2s (pget (PNum i) d)) [0; 1; 2; 3; 4; 5]) (get_parameters (csym ex_texts)) =
  Some [None; None; Some "tol=5 temp = 27"; Some "thin"; Some "Rser={x+1}"; None].
Proof. vm_compute. reflexivity. Qed.

(** Property C211: setting a parameter changes the value that get_parameters gives for it.  It does not when the name stands twice: the
    first setting is changed, the last is read. *)
Theorem C211_set_and_get_twice_refuted :
  let y := csym ["R1"; "1k"; "tol=1"; "tol=2"] in
  shown y = Some [("tol", "2")] /\ option_map (fun y' => (shown y', texts_of y')) (set_parameter (s2l "tol") (Some (s2l "9")) y) =
    Some (Some [("tol", "2")], map Some ["R1"; "1k"; "tol=9"; "tol=2"]).
Proof. vm_compute. repeat split. Qed.
Print Assumptions C211_set_and_get_twice_refuted.
(** Property C212: names of parameters are the same whatever the case of their letters, as SPICE takes them.  They are not: the name in
    another case is added as a second parameter. *)
Theorem C212_case_refuted :
  let y := csym ["C1"; "1u"; "RSER=1"] in
  option_map (fun y' => (shown y', texts_of y')) (set_parameter (s2l "Rser") (Some (s2l "9")) y) =
    Some (Some [("RSER", "1"); ("Rser", "9")], map Some ["C1"; "1u"; "RSER=1"; "Rser=9"]).
Proof. vm_compute. repeat split. Qed.
Print Assumptions C212_case_refuted.
(** Property C213: a parameter that set_parameters sets is one that get_parameters lists afterwards.  It is not when the value of the
    component contains a setting of that name: the value is changed, and get_parameters does not look at the value. *)
Theorem C213_in_the_value_refuted :
  let y := csym ["X1"; "R=1k"; "tol=1"] in
  option_map (fun y' => (shown y', texts_of y')) (set_parameter (s2l "R") (Some (s2l "9")) y) = Some (Some [("tol", "1")], map Some ["X1"; "R=9"; "tol=1"]).
Proof. vm_compute. repeat split. Qed.
Print Assumptions C213_in_the_value_refuted.

(** C215: in a schematic with well-formed directives, get_all_parameter_names gives the names set in its .PARAM directives, and only
    these, in upper case and in order. *)
Lemma names_marked : forall line ms l, map (fun x => group gNAME line (snd x)) ms = map (fun e => Some (e_par e)) l ->
  map (fun x : nat * nat * caps => match group gNAME line (snd x) with Some n => upper n | None => [] end) ms = map (fun e => upper (e_par e)) l.
Proof.
  intros line. induction ms as [|m ms IH]; intros [|e l] E; try discriminate; [reflexivity|]. cbn [map] in *. injection E as E1 E2. rewrite E1, (IH l E2). reflexivity.
Qed.
Lemma pline_names : forall p, pline_ok p -> line_names (pline_text p) = map (fun e => upper (e_par e)) (l_pars p).
Proof.
  intros p H. unfold line_names. change (setting_re any_name) with R0. apply names_marked.
  destruct (marked_names _ _ _ (line_text_marked p H) (pline_text p) (l_lead p ++ l_word p) (l_tail p)) as (N & _); [|reflexivity|exact N].
  unfold pline_text. rewrite <- app_assoc. reflexivity.
Qed.
Lemma directive_names_ok : forall store l, ok_items store l -> exists ns, directive_names store l = Some ns /\
  forall n, In n ns <-> exists i p e, In i l /\ head_is TEXT (store i) = true /\ comment_of (store i) = Some false /\
    text_of (store i) = Some (QUAL ++ pline_text p) /\ pline_ok p /\ l_lead p = [] /\ In e (l_pars p) /\ upper (e_par e) = n.
Proof.
  intros store. induction l as [|i l IH]; intros H; cbn [directive_names].
  - exists []. split; [reflexivity|]. intros n. split; [intros []|intros (i & p & e & [] & _)].
  - destruct (IH (fun j J => H j (or_intror J))) as (ns & E & A). destruct (head_is TEXT (store i)) eqn:T.
    + destruct (H i (or_introl eq_refl) T) as [C|(C & s & TX & S)]; rewrite C.
      * exists ns. split; [exact E|]. intros n. rewrite A. split; intros (j & p & e & J & R); exists j, p, e; (split; [|exact R]).
        -- right. exact J.
        -- destruct J as [<- |J]; [|exact J]. destruct R as (_ & R & _). congruence.
      * rewrite TX, E. eexists. split; [reflexivity|]. intros n. rewrite in_app_iff, A. destruct S as [NP|(p0 & -> & P0 & L0)].
        -- rewrite no_param by exact NP. split; [intros [[]|(j & p & e & J & R)]; exists j, p, e; (split; [right; exact J|exact R])|].
           intros (j & p & e & [<- |J] & R); [|right; exists j, p, e; split; assumption]. exfalso. destruct R as (_ & _ & R1 & R2 & R3 & _). rewrite TX in R1. injection R1 as ->.
           exact (param_no p R2 R3 NP).
        -- rewrite param_line_pline, unqual_pline, pline_names by assumption. split.
           ++ intros [K|(j & p & e & J & R)]; [|exists j, p, e; split; [right; exact J|exact R]]. apply in_map_iff in K. destruct K as (e & K1 & K2).
              exists i, p0, e. split; [left; reflexivity|]. repeat (split; [assumption|]). assumption.
           ++ intros (j & p & e & [<- |J] & R); [left|right; exists j, p, e; split; assumption].
              destruct R as (_ & _ & R1 & R2 & R3 & R4 & R5). assert (pline_text p0 = pline_text p) as EP by (rewrite TX in R1; apply (app_inv_head QUAL); congruence).
              rewrite <- (pline_names p0 P0), EP, (pline_names p R2). apply in_map_iff. exists e. split; assumption.
    + exists ns. split; [exact E|]. intros n. rewrite A. split; intros (j & p & e & J & R); exists j, p, e; (split; [|exact R]).
      * right. exact J.
      * destruct J as [<- |J]; [|exact J]. destruct R as (R & _). congruence.
Qed.
Theorem C215_parameter_names : forall ed, par_texts ed -> exists l, get_all_parameter_names ed = Some l /\
  StronglySorted (fun a b => str_le a b = true) l /\ forall n, In n l <-> sets_name ed n.
Proof.
  intros ed (_ & H). destruct (directive_names_ok (q_store ed) (q_items ed) H) as (ns & E & A). exists (sort_texts ns). unfold get_all_parameter_names. rewrite E.
  split; [reflexivity|]. split; [apply sort_ordered|]. intros n. unfold sets_name. change (s2l "text") with TEXT. rewrite <- A. split; intros K.
  - eapply Permutation_in; [apply Permutation_sym; apply sort_perm|exact K].
  - eapply Permutation_in; [apply sort_perm|exact K].
Qed.
Print Assumptions C215_parameter_names.
Example C215_nonvacuous : par_texts ex_ed /\ get_all_parameter_names ex_ed = Some [s2l "A"; s2l "B"].
Proof. split; [exact (proj1 C49_nonvacuous)|vm_compute; reflexivity]. Qed.
