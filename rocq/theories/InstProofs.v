(** Instances of sub-circuits: proofs. *)
From Coq Require Import String Ascii List Bool Arith ZArith Lia.
From Verif Require Import PyStr EngModel EngProofs EngCaseProofs PTokModel PTokSpec PTokProofs Regex RegexProofs RegexInv RegexMore CompModel CompSpec CompMatch CompFam CompProofs CompRewrite CompSelf CompProps
  SepModel UpdatesModel NetModel NetSpec NetProofs EditModel EditSpec EditProofs InstSpec InstModel.
Import ListNotations.
Local Open Scope string_scope.
Local Open Scope nat_scope.
Local Open Scope list_scope.

Definition any : comp -> comp -> Prop := fun _ _ => True.
Definition flat_top (n : node) : Prop := match top n with Note _ | Directive _ | Part _ => True | _ => False end.
Definition copy_items (h n : str) (items : list item) : list item :=
  IText mark1 :: IText (full h) :: items ++ [IPrim (full (s2l ".ENDS " ++ n)); IText mark2].

Definition inst_kind (it : item) (s : stmt) : Prop := match s with Part c => c_kind c = "X"%char -> match it with IInst _ _ _ => True | _ => False end | _ => True end.
(** entries that show a node: what is written in their place, and for their copies *)
Inductive shows : item -> node -> list stmt -> list stmt -> Prop :=
| W_plain : forall it s w, shown any it s w -> inst_kind it s -> shows it (Node s None) w []
| W_copy : forall o e c w n h items k ws ms, shown any (IInst o e None) (Part c) w -> circuit_name h n -> Forall flat_top k ->
    Forall (fun nd => stmt_ok good_names (top nd)) k -> shows_all items k ws ms ->
    shows (IInst o e (Some (true, copy_items h n items))) (Node (Part c) (Some (n, h, k))) w [Note mark_begin; Circuit h (ws ++ ms) (s2l ".ENDS " ++ n); Note mark_end]
with shows_all : list item -> list node -> list stmt -> list stmt -> Prop :=
| WA_nil : shows_all [] [] [] []
| WA_cons : forall it n w m items l ws ms, shows it n w m -> shows_all items l ws ms -> shows_all (it :: items) (n :: l) (w ++ ws) (m ++ ms).
Scheme shows_mind := Induction for shows Sort Prop with shows_all_mind := Induction for shows_all Sort Prop.
Combined Scheme shows_both from shows_mind, shows_all_mind.

(** lists *)
Lemma shows_app : forall ia la wa ma, shows_all ia la wa ma -> forall ib lb wb mb, shows_all ib lb wb mb -> shows_all (ia ++ ib) (la ++ lb) (wa ++ wb) (ma ++ mb).
Proof. induction 1 as [|it n w m items l ws ms H1 H2 IH]; intros ib lb wb mb H; [exact H|]. cbn [app]. rewrite <- !app_assoc. constructor; [exact H1|apply IH; exact H]. Qed.
Lemma shows_split : forall la items lb ws ms, shows_all items (la ++ lb) ws ms ->
  exists ia ib wa wb ma mb, items = ia ++ ib /\ ws = wa ++ wb /\ ms = ma ++ mb /\ length ia = length la /\ shows_all ia la wa ma /\ shows_all ib lb wb mb.
Proof.
  induction la as [|n la IH]; intros items lb ws ms H; cbn [app] in H.
  - exists [], items, [], ws, [], ms. repeat (split; [reflexivity|]). split; [constructor|exact H].
  - inversion H as [|it n' w m items' l ws' ms' H1 H2]; subst. destruct (IH _ _ _ _ H2) as (ia & ib & wa & wb & ma & mb & -> & -> & -> & L & A & B).
    exists (it :: ia), ib, (w ++ wa), wb, (m ++ ma), mb. rewrite !app_assoc. split; [reflexivity|]. split; [reflexivity|]. split; [reflexivity|]. split; [cbn [length]; rewrite L; reflexivity|]. split; [constructor; assumption|exact B].
Qed.
Lemma shows_len : forall items l ws ms, shows_all items l ws ms -> length items = length l.
Proof. induction 1; cbn [length]; congruence. Qed.

(** what a node shows *)
Lemma shows_part : forall it c o w m, shows it (Node (Part c) o) w m ->
  exists ob e, attrs_now ob e = Some (attrs_of c) /\
    match o with
    | None => (it = IComp ob e \/ it = IInst ob e None) /\ m = []
    | Some (n, h, k) => exists items ws ms, it = IInst ob e (Some (true, copy_items h n items)) /\ circuit_name h n /\ Forall flat_top k /\ Forall (fun nd => stmt_ok good_names (top nd)) k /\ shows_all items k ws ms /\
        m = [Note mark_begin; Circuit h (ws ++ ms) (s2l ".ENDS " ++ n); Note mark_end]
    end.
Proof.
  intros it c o w m H. inversion H as [it' s w' HS HIk|ob e c' w' n h items k ws ms HS HC HF HO HA]; subst.
  - destruct (shown_part any _ _ _ HS) as (ob & e & HH & HA). exists ob, e. split; [exact HA|]. split; [exact HH|reflexivity].
  - destruct (shown_part any _ _ _ HS) as (ob' & e' & HH & HA'). assert (ob' = ob /\ e' = e) as [-> ->] by (destruct HH as [HH|HH]; [discriminate HH|injection HH as -> ->; split; reflexivity]).
    exists ob, e. split; [exact HA'|]. exists items, ws, ms. repeat (split; [reflexivity || assumption|]). reflexivity.
Qed.
Lemma shows_other : forall it s o w m, shows it (Node s o) w m -> (forall c, s <> Part c) -> it = item_of s /\ o = None /\ listed s.
Proof.
  intros it s o w m H N. inversion H as [it' s' w' HS HIk|ob e c' w' n h items k ws ms HS HC HF HO HA]; subst; [|exfalso; eapply N; reflexivity].
  destruct (shown_plain any _ _ _ HS N) as (-> & L & _). repeat (split; [reflexivity|]). exact L.
Qed.

(** finding a designator *)
Lemma find_shows : forall fname ref items l ws ms, shows_all items l ws ms -> no_definition_named ref (map top l) -> find_ref fname (upper ref) items = Some (part_at ref (map top l)).
Proof.
  intros fname ref items l ws ms H. induction H as [|it n w m items l ws ms H1 H2 IH]; intros HD; [reflexivity|]. destruct n as [s o]. cbn [map top] in *.
  assert (no_definition_named ref (map top l)) as HD' by (intros h b t Hi; apply HD with (b := b) (t := t); right; exact Hi). specialize (IH HD').
  destruct s as [x|x|c|h b t|h b t|x b].
  1,2,4,6: destruct (shows_other _ _ _ _ _ H1) as (-> & _ & _); [discriminate|]; cbn [item_of find_ref part_at is_part]; rewrite IH; reflexivity.
  - destruct (shows_part _ _ _ _ _ H1) as (ob & e & HA & HH). assert (it = IComp ob e \/ exists sh, it = IInst ob e sh) as HI.
    { destruct o as [[[n h] k]|]; [destruct HH as (it' & ? & ? & -> & _); right; eexists; reflexivity|destruct HH as [[-> | ->] _]; [left; reflexivity|right; eexists; reflexivity]]. }
    cbn [part_at is_part]. destruct HI as [-> | [sh ->]]; cbn [find_ref]; rewrite HA; cbn [option_map]; rewrite attrs_ref;
      unfold designator; rewrite upper_idem; (destruct (str_eqb _ _); [reflexivity|rewrite IH; reflexivity]).
  - destruct (shows_other _ _ _ _ _ H1) as (-> & _ & _); [discriminate|]. cbn [item_of find_ref part_at is_part].
    destruct (HD h b t (or_introl eq_refl)) as (n & HN & HU). rewrite (name_head fname h n _ HN). assert (str_eqb (upper n) (upper ref) = false) as -> by (apply str_neq; exact HU). rewrite IH. reflexivity.
Qed.
Lemma node_split : forall ref l c o, node_named ref l = Some (c, o) ->
  exists a b, l = a ++ Node (Part c) o :: b /\ part_at ref (map top l) = At (length a) /\ (forall f, on_node ref f l = a ++ f c o :: b) /\ designator c = upper ref.
Proof.
  induction l as [|[s o'] l IH]; intros c o H; [discriminate|]. cbn [node_named] in H.
  assert (forall s', s' = s -> (forall c', s' <> Part c') -> node_named ref l = Some (c, o) -> exists a b, Node s' o' :: l = a ++ Node (Part c) o :: b /\ part_at ref (map top (Node s' o' :: l)) = At (length a) /\ (forall f, on_node ref f (Node s' o' :: l) = a ++ f c o :: b) /\ designator c = upper ref) as K.
  { intros s' _ N H'. destruct (IH c o H') as (a & b & -> & E2 & E3 & E4). exists (Node s' o' :: a), b. split; [reflexivity|]. split; [|split; [|exact E4]].
    - cbn [map top part_at]. assert (is_part ref s' = false) as -> by (destruct s'; try reflexivity; exfalso; eapply N; reflexivity). rewrite E2. reflexivity.
    - intros f. specialize (E3 f). destruct s'; cbn [on_node app]; try (rewrite E3; reflexivity). exfalso; eapply N; reflexivity. }
  destruct s as [x|x|c'|x y z|x y z|x y]; try (apply K; [reflexivity|discriminate|exact H]). destruct (str_eqb (designator c') (upper ref)) eqn:E.
  - injection H as -> ->. exists [], l. split; [reflexivity|]. split; [cbn [map top part_at is_part]; rewrite E; reflexivity|]. split; [intros f; cbn [on_node app]; rewrite E; reflexivity|apply str_eqb_eq; exact E].
  - destruct (IH c o H) as (a & b & -> & E2 & E3 & E4). exists (Node (Part c') o' :: a), b. split; [reflexivity|]. split; [cbn [map top part_at is_part]; rewrite E, E2; reflexivity|].
    split; [intros f; cbn [on_node app]; rewrite E, E3; reflexivity|exact E4].
Qed.
Lemma node_none : forall ref l, node_named ref l = None -> part_at ref (map top l) = NotFound.
Proof.
  induction l as [|[s o] l IH]; intros H; [reflexivity|]. cbn [node_named] in H. destruct s as [x|x|c|x y z|x y z|x y]; cbn [map top part_at is_part]; try (rewrite (IH H); reflexivity).
  destruct (str_eqb (designator c) (upper ref)); [discriminate|rewrite (IH H); reflexivity].
Qed.
Lemma part_node : forall ref l, part_named ref (map top l) = option_map fst (node_named ref l).
Proof. induction l as [|[s o] l IH]; [reflexivity|]. cbn [map top part_named node_named]. destruct s as [x|x|c|x y z|x y z|x y]; try exact IH. destruct (str_eqb (designator c) (upper ref)); [reflexivity|exact IH]. Qed.

(** the entry after an edit of its component *)
Lemma edit_entry : forall it c w o oe e, shown any it (Part c) w -> holder it o oe -> canonical c -> part_ok good_names (edit_comp e c) -> canonical (edit_comp e c) ->
  (c_pars (edit_comp e c) = [] -> c_pars c = []) -> (c_kind c = "X"%char -> c_pars c = [] -> c_pars (edit_comp e c) = []) ->
  exists w', forall it', holder it' o (Some (attrs_of (edit_comp e c))) -> shown any it' (Part (edit_comp e c)) w'.
Proof.
  intros it c w o oe e V3 HH HK HO HK' Hp Hx. destruct (edit_fixed e c) as (F1 & F2 & F3 & F4 & F5 & F6).
  remember (Part c) as s eqn:Es. destruct V3 as [s HO' N|it' c1 HH' HO1|it' c0 c1 HH' ? ? ? ? K1 K2 K3 K4 K5 K6 K7].
  - exfalso. apply (N c). exact Es.
  - injection Es as ->. exists [Part (edited c (edit_comp e c))]. intros i Hi. assert (o = comp_text c) as -> by (destruct HH as [HH|HH]; destruct HH' as [HH'|HH']; congruence).
    apply Sh_edit; auto; exact I.
  - injection Es as ->. exists [Part (edited c0 (edit_comp e c))]. intros i Hi. assert (o = comp_text c0) as -> by (destruct HH as [HH|HH]; destruct HH' as [HH'|HH']; congruence).
    apply Sh_edit; auto; try congruence; try exact I. intros G1 G2. apply Hx; [congruence|]. apply K6; assumption.
Qed.

(** the operation of an edit *)
Definition op_of (en : env) (e : edit) : op :=
  match e with
  | SetValue r v => op_value (e_name en) (upper r) v
  | SetParam r k w => op_param (e_name en) (upper r) k (Some (word_text w))
  | DropParam r k => op_param (e_name en) (upper r) k None
  end.
Definition as_logged (r : str * option str * utype) : logged := match r with (n, v, t) => {| g_name := n; g_value := oval v; g_type := t |} end.
Lemma logs_entry : forall e c, match e with
    | SetValue _ v => [{| g_name := a_ref (attrs_of c); g_value := txt v; g_type := UpUpdateComponentValue |}]
    | SetParam _ k w => [{| g_name := a_ref (attrs_of c) ++ ":"%char :: k; g_value := oval (Some (word_text w)); g_type := par_type (attrs_of c) k (Some (word_text w)) |}]
    | DropParam _ k => [{| g_name := a_ref (attrs_of c) ++ ":"%char :: k; g_value := oval None; g_type := par_type (attrs_of c) k None |}]
    end = map as_logged [entry_of e c].
Proof.
  intros e c. destruct e as [r v|r k w|r k]; try reflexivity. cbn [map as_logged entry_of]. f_equal. f_equal.
  unfold par_type. assert (match a_par (attrs_of c) with Some d => d | None => [] end = map entry (c_pars c)) as -> by (unfold attrs_of; cbn [a_par]; destruct (c_pars c); reflexivity).
  induction (c_pars c) as [|[b q] l IH]; [reflexivity|]. cbn [map existsb]. unfold entry at 1. cbn [pget]. unfold meaning. cbn [fst snd]. destruct (str_eqb (word_text (p_name q)) k); [reflexivity|]. exact IH.
Qed.
Lemma op_comp : forall en e chain ia o oe ib c, find_ref (e_name en) (upper (edit_ref e)) (ia ++ IComp o oe :: ib) = Some (At (length ia)) -> attrs_now o oe = Some (attrs_of c) ->
  match e with DropParam _ _ => c_pars (edit_comp e c) <> [] | _ => True end ->
  op_of en e chain (ia ++ IComp o oe :: ib) = Some (ia ++ IComp o (Some (attrs_of (edit_comp e c))) :: ib, map as_logged [entry_of e c]).
Proof.
  intros en e chain ia o oe ib c HF HA Hd. pose proof (attrs_edit e c Hd) as AE. rewrite <- logs_entry. destruct e as [r v|r k w|r k]; cbn [edit_ref op_of] in *; unfold op_value, op_param; rewrite HF, nth_mid, HA, set_item_mid, AE; reflexivity.
Qed.
Lemma op_inst : forall en e chain ia o oe h ib c, find_ref (e_name en) (upper (edit_ref e)) (ia ++ IInst o oe h :: ib) = Some (At (length ia)) -> attrs_now o oe = Some (attrs_of c) ->
  match e with DropParam _ _ => c_pars (edit_comp e c) <> [] | _ => True end ->
  op_of en e chain (ia ++ IInst o oe h :: ib) = Some (ia ++ IInst o (Some (attrs_of (edit_comp e c))) (match e with SetValue _ _ => None | _ => h end) :: ib, map as_logged [entry_of e c]).
Proof.
  intros en e chain ia o oe h ib c HF HA Hd. pose proof (attrs_edit e c Hd) as AE. rewrite <- logs_entry. destruct e as [r v|r k w|r k]; cbn [edit_ref op_of] in *; unfold op_value, op_param; rewrite HF, nth_mid, HA, set_item_mid, AE; reflexivity.
Qed.

(** definitions *)
Definition def_items (d : def) : list item := IPrim (full (f_head d)) :: map item_of (f_body d) ++ [IPrim (full (f_tail d))].
Definition chain_ok (en : env) (D : str -> option def) (chain : list (list item)) : Prop := forall v, def_named en v chain = Some (option_map def_items (D v)).
Lemma keep_skip : forall f s, keep f s ++ skip f s = s.
Proof. induction s as [|c s IH]; [reflexivity|]. cbn [keep skip]. destruct (f c); [cbn [app]; rewrite IH; reflexivity|reflexivity]. Qed.
Lemma keep_all : forall f s, forallb f (keep f s) = true.
Proof. induction s as [|c s IH]; [reflexivity|]. cbn [keep]. destruct (f c) eqn:E; [cbn [forallb]; rewrite E; exact IH|reflexivity]. Qed.
Lemma keep_app : forall f a r, forallb f a = true -> match r with [] => True | c :: _ => f c = false end -> keep f (a ++ r) = a /\ skip f (a ++ r) = r.
Proof.
  induction a as [|c a IH]; intros r H Hr; cbn [app keep skip].
  - destruct r as [|c r]; [split; reflexivity|]. cbn [keep skip]. rewrite Hr. split; reflexivity.
  - cbn [forallb] in H. apply andb_true_iff in H. destruct H as [H1 H2]. rewrite H1. destruct (IH r H2 Hr) as [-> ->]. split; reflexivity.
Qed.
Lemma name_not_space : forall x, name_char x = true -> is_space x = false.
Proof. intros x Hx. apply negb_true_iff. revert x Hx. clear. apply (imp_sweep name_char (fun x => negb (is_space x))). vm_cast_no_check (eq_refl true). Qed.
Lemma head_parts : forall h n, circuit_name h n -> head_name h = n /\ h = firstn 7 h ++ head_gap h ++ n ++ head_rest h /\ length (firstn 7 h) = 7.
Proof.
  intros h n (kw & b & r & -> & HK & HB & NB & NN & HN & HR).
  assert (length kw = 6) as L6. { apply (f_equal (@length _)) in HK. unfold upper in HK. rewrite map_length in HK. exact HK. }
  assert (skipn 7 ("."%char :: kw ++ b ++ n ++ r) = b ++ n ++ r) as S7. { destruct kw as [|k1 [|k2 [|k3 [|k4 [|k5 [|k6 [|]]]]]]]; try discriminate L6. reflexivity. }
  destruct n as [|n0 n]; [contradiction NN; reflexivity|]. assert (HN' := HN). cbn [forallb] in HN'. apply andb_true_iff in HN'. destruct HN' as [N0 _].
  destruct (keep_app is_space b ((n0 :: n) ++ r) HB) as [K1 K2]; [cbn [app]; apply name_not_space; exact N0|].
  destruct (keep_app name_char (n0 :: n) r HN HR) as [K3 K4].
  unfold head_name, head_gap, head_rest. rewrite S7, K2, K1, K3, K4. split; [reflexivity|].
  replace (firstn 7 ("."%char :: kw ++ b ++ (n0 :: n) ++ r)) with ("."%char :: kw); [split; [reflexivity|cbn [length]; rewrite L6; reflexivity]|].
  destruct kw as [|k1 [|k2 [|k3 [|k4 [|k5 [|k6 [|]]]]]]]; try discriminate L6. reflexivity.
Qed.
(** looking up in a list of entries that hold no definitions *)
Lemma def_simple : forall fname v items l ws ms, shows_all items l ws ms -> Forall flat_top l -> def_among fname v items = Some None.
Proof.
  intros fname v items l ws ms H. induction H as [|it n w m items l ws ms H1 H2 IH]; intros HF; [reflexivity|]. apply Forall_cons_iff in HF. destruct HF as [HF1 HF2]. destruct n as [s o]. unfold flat_top in HF1. cbn [top] in HF1. cbn [def_among].
  assert (NetModel.def_in fname v it = Some None) as ->; [|apply IH; exact HF2].
  destruct s as [x|x|c|x y z|x y z|x y]; try contradiction.
  - destruct (shows_other _ _ _ _ _ H1) as (-> & _); [discriminate|reflexivity].
  - destruct (shows_other _ _ _ _ _ H1) as (-> & _); [discriminate|reflexivity].
  - destruct (shows_part _ _ _ _ _ H1) as (ob & e & _ & HH). destruct o as [[[n h] k]|]; [destruct HH as (? & ? & ? & -> & _)|destruct HH as [[-> | ->] _]]; reflexivity.
Qed.
Lemma re_mark1 : re_match subckt_re mark1 = None. Proof. vm_compute. reflexivity. Qed.
Lemma def_copy : forall en D chain h n items l ws ms, chain_ok en D chain -> shows_all items l ws ms -> Forall flat_top l -> chain_ok en D (copy_items h n items :: chain).
Proof.
  intros en D chain h n items l ws ms HC HS HF v. cbn [def_named]. unfold copy_items.
  assert (def_among (e_name en) v (IText mark1 :: IText (full h) :: items ++ [IPrim (full (s2l ".ENDS " ++ n)); IText mark2]) = Some None) as ->; [|apply HC].
  cbn [def_among NetModel.def_in]. pose proof (def_simple (e_name en) v _ _ _ _ HS HF) as E. revert E. generalize items. clear. induction items as [|i items IH]; intros E; [reflexivity|].
  cbn [app def_among] in *. destruct (NetModel.def_in (e_name en) v i) as [[x|]|]; try discriminate E. apply IH. exact E.
Qed.

(** copying a definition *)
Lemma head_match : forall kw b n r, upper kw = s2l "SUBCKT" -> blank b -> b <> [] -> n <> [] -> forallb name_char n = true -> match r with [] => True | c :: _ => name_char c = false end ->
  exists e c, re_match subckt_re (full ("."%char :: kw ++ b ++ n ++ r)) = Some (e, c) /\ cap 0 c = Some (S (length kw + length b), S (length kw + length b + length n)).
Proof.
  intros kw b n r HK HB NB NN HN HR.
  exists (S (length kw + length b + length n)), [(0, (S (length kw + length b), S (length kw + length b + length n)))]. split; [|reflexivity].
  assert (length kw = 6) as L6. { apply (f_equal (@length _)) in HK. unfold upper in HK. rewrite map_length in HK. exact HK. }
  destruct kw as [|k1 [|k2 [|k3 [|k4 [|k5 [|k6 [|]]]]]]]; try discriminate L6. unfold upper in HK. cbn [map] in HK. injection HK as K1 K2 K3 K4 K5 K6.
  unfold re_match. change subckt_re with (Seq (Chr not_nl) (Seq (Seq (ichar "S") (Seq (ichar "U") (Seq (ichar "B") (Seq (ichar "C") (Seq (ichar "K") (ichar "T")))))) (Seq sp1 (Grp 0 (Plus (Chr name_char)))))).
  unfold full. cbn [app length]. rewrite m_seq_chr by reflexivity. rewrite m_seq. unfold ichar.
  rewrite m_seq_chr by (rewrite K1; reflexivity). rewrite m_seq_chr by (rewrite K2; reflexivity). rewrite m_seq_chr by (rewrite K3; reflexivity).
  rewrite m_seq_chr by (rewrite K4; reflexivity). rewrite m_seq_chr by (rewrite K5; reflexivity). rewrite m_chr_ok by (rewrite K6; reflexivity). rewrite m_seq.
  destruct b as [|b0 b]; [contradiction NB; reflexivity|]. unfold blank in HB. cbn [forallb] in HB. apply andb_true_iff in HB. destruct HB as [HB0 HB].
  destruct n as [|n0 n]; [contradiction NN; reflexivity|]. cbn [forallb] in HN. apply andb_true_iff in HN. destruct HN as [HN0 HN].
  unfold sp1. rewrite <- !app_assoc. cbn [app]. apply m_plus_all; [exact HB0|exact HB| |].
  - apply name_not_space. exact HN0.
  - rewrite m_grp. apply m_plus_all; [exact HN0|exact HN| |].
    + destruct r as [|r0 r]; [reflexivity|exact HR].
    + cbn [length]. reflexivity.
Qed.
Lemma renamed_ok : forall h n0 n, circuit_name h n0 -> forallb name_char n = true -> n <> [] -> circuit_name (head_renamed h n) n.
Proof.
  intros h n0 n HC HN NN. destruct HC as (kw & b & r & -> & HK & HB & NB & NN0 & HN0 & HR).
  assert (length kw = 6) as L6. { apply (f_equal (@length _)) in HK. unfold upper in HK. rewrite map_length in HK. exact HK. }
  assert (skipn 7 ("."%char :: kw ++ b ++ n0 ++ r) = b ++ n0 ++ r) as S7. { destruct kw as [|k1 [|k2 [|k3 [|k4 [|k5 [|k6 [|]]]]]]]; try discriminate L6. reflexivity. }
  assert (firstn 7 ("."%char :: kw ++ b ++ n0 ++ r) = "."%char :: kw) as F7. { destruct kw as [|k1 [|k2 [|k3 [|k4 [|k5 [|k6 [|]]]]]]]; try discriminate L6. reflexivity. }
  destruct n0 as [|m0 n0]; [contradiction NN0; reflexivity|]. assert (HN' := HN0). cbn [forallb] in HN'. apply andb_true_iff in HN'. destruct HN' as [N0 _].
  destruct (keep_app is_space b ((m0 :: n0) ++ r) HB) as [K1 K2]; [cbn [app]; apply name_not_space; exact N0|].
  destruct (keep_app name_char (m0 :: n0) r HN0 HR) as [K3 K4].
  unfold head_renamed, head_gap, head_rest. rewrite S7, F7, K1, K2, K4. exists kw, b, r. split; [reflexivity|]. split; [exact HK|]. split; [exact HB|]. split; [exact NB|]. split; [exact NN|]. split; [exact HN|exact HR].
Qed.
Lemma names_trimmed : forall n, n <> [] -> forallb name_char n = true -> trimmed n.
Proof.
  intros n NN HN. split.
  - destruct n as [|c r]; [contradiction NN; reflexivity|]. exists c, r. split; [reflexivity|]. apply name_not_space. cbn [forallb] in HN. apply andb_true_iff in HN. apply HN.
  - destruct (exists_last NN) as (r & c & ->). exists c, r. split; [reflexivity|]. apply name_not_space. rewrite forallb_app in HN. cbn [forallb] in HN. rewrite !andb_true_iff in HN. apply HN.
Qed.
Lemma ends_found : forall n body t rest, Forall flat_stmt body -> first_word (s2l ".ENDS") t ->
  set_ends n (map item_of body ++ IPrim (full t) :: rest) = Some (map item_of body ++ IPrim (full (s2l ".ENDS " ++ n)) :: rest).
Proof.
  intros n body t rest HB HT. induction HB as [|s body Hs HB IH].
  - cbn [map app set_ends]. rewrite (lc_word _ _ HT). change (str_eqb (s2l ".ENDS") (s2l ".ENDS")) with true. cbv iota. reflexivity.
  - cbn [map app]. destruct s as [x|x|c|x y z|x y z|x y]; try contradiction; cbn [item_of].
    + cbn [set_ends]. rewrite IH. reflexivity.
    + cbn [flat_stmt stmt_ok] in Hs. destruct Hs as (w & Hw & _ & _ & _ & NE). cbn [set_ends]. rewrite (lc_word _ _ Hw). assert (str_eqb w (s2l ".ENDS") = false) as ->. { apply str_neq. intros ->. apply NE. exists (s2l "S"). reflexivity. }
      rewrite IH. reflexivity.
    + cbn [flat_stmt stmt_ok] in Hs. destruct Hs as (HC & _). destruct (lc_part c HC) as (A & _).
      assert (str_eqb [c_kind c] (s2l ".ENDS") = false) as E. { apply str_neq. intros G. apply (f_equal (@length _)) in G. discriminate G. }
      destruct (aeqb (c_kind c) "X"); cbn [set_ends]; rewrite A, E, IH; reflexivity.
Qed.
Lemma clone_flat : forall body, Forall flat_stmt body -> map clone_item (map item_of body) = map item_of body.
Proof. induction 1 as [|s body Hs HB IH]; [reflexivity|]. cbn [map]. rewrite IH. f_equal. destruct s as [x|x|c|x y z|x y z|x y]; try contradiction; try reflexivity. cbn [item_of]. destruct (aeqb (c_kind c) "X"); reflexivity. Qed.
Lemma clone_def : forall d n, def_ok d -> n <> [] -> forallb name_char n = true ->
  clone (def_items d) n = Some (copy_items (head_renamed (f_head d) n) n (map item_of (f_body d))).
Proof.
  intros d n (HN & (b0 & HG) & (r0 & HR) & HS & HB & HT) NN HNn. unfold clone, def_items. cbn [map clone_item app]. rewrite map_app. rewrite clone_flat by exact HB. cbn [map clone_item].
  assert (set_name n (IPrim (full (f_head d)) :: (map item_of (f_body d) ++ [IPrim (full (f_tail d))]) ++ [IText mark2]) = Some (IText (full (head_renamed (f_head d) n)) :: map item_of (f_body d) ++ [IPrim (full (s2l ".ENDS " ++ n)); IText mark2])) as E.
  { cbn [set_name obj_of]. unfold named in HN. destruct (head_parts _ _ HN) as (_ & HH & L7). set (h := f_head d) in *. set (v := head_name h) in *.
    assert (exists e c, re_match subckt_re (full h) = Some (e, c) /\ cap 0 c = Some (length (firstn 7 h ++ head_gap h), length (firstn 7 h ++ head_gap h) + length v)) as (e & c & HM & HC).
    { destruct HN as (kw & b & r & EH & HK & HB' & NB & NN0 & HN0 & HR'). destruct (head_match kw b v r HK HB' NB NN0 HN0 HR') as (e & c & HM & HC). exists e, c. rewrite EH at 1. split; [exact HM|]. rewrite HC.
      assert (length (firstn 7 h ++ head_gap h) = S (length kw + length b)) as ->; [|reflexivity]. rewrite app_length, L7.
      assert (length kw = 6) as L6. { apply (f_equal (@length _)) in HK. unfold upper in HK. rewrite map_length in HK. exact HK. }
      assert (skipn 7 h = b ++ v ++ r) as S7. { rewrite EH. destruct kw as [|k1 [|k2 [|k3 [|k4 [|k5 [|k6 [|]]]]]]]; try discriminate L6. reflexivity. }
      unfold head_gap. rewrite S7. destruct v as [|v0 v']; [contradiction NN0; reflexivity|]. destruct (keep_app is_space b ((v0 :: v') ++ r) HB') as [-> _]; [cbn [app]; apply name_not_space; cbn [forallb] in HN0; apply andb_true_iff in HN0; apply HN0|]. rewrite L6. lia. }
    rewrite HM, HC. pose proof (names_trimmed n NN HNn) as TN.
    assert (full h = (firstn 7 h ++ head_gap h) ++ v ++ (head_rest h ++ [NL])) as EF. { unfold full. rewrite HH at 1. rewrite <- !app_assoc. reflexivity. }
    assert (insert_section (full h) (Z.of_nat (length (firstn 7 h ++ head_gap h))) (Z.of_nat (length (firstn 7 h ++ head_gap h) + length v)) n = Some (strip (full (head_renamed h n)))) as ->.
    { rewrite EF. rewrite (insert_at (firstn 7 h ++ head_gap h) v (head_rest h ++ [NL]) n n []).
      - f_equal. f_equal. unfold head_renamed, full. cbn [app]. rewrite <- !app_assoc. reflexivity.
      - apply trimmed_strip0. exact TN.
      - exact TN.
      - reflexivity.
      - left. reflexivity.
      - right. left. split; [|reflexivity]. rewrite HG. exists (firstn 7 h ++ b0). rewrite app_assoc. reflexivity.
      - intros G. apply (f_equal (@length _)) in G. rewrite !app_length, L7 in G. cbn [length] in G. lia.
      - right. rewrite HR. eexists. reflexivity. }
    rewrite strip_full. rewrite trimmed_strip0.
    2:{ assert (trimmed h) as [TA TB].
        { split.
          - exists "."%char. destruct HN as (kw & b & r & EH & _). rewrite EH. eexists. split; reflexivity.
          - destruct h as [|x y] eqn:Eh; [cbn [firstn length] in L7; lia|]. assert (x :: y <> []) as NE by discriminate. destruct (exists_last NE) as (r & z & Ez). rewrite Ez in *. exists z, r. split; [reflexivity|].
            destruct (is_space z) eqn:Esp; [|reflexivity]. exfalso. unfold strip, strip_if in HS. pose proof (f_equal (@length _) HS) as HL.
            assert (forall s, length (lstrip_if is_space s) <= length s) as LL. { induction s as [|q s IH]; cbn [lstrip_if]; [lia|]. destruct (is_space q); cbn [length]; lia. }
            unfold rstrip_if in HS. 
            assert (rstrip (r ++ [z]) = rstrip r) as RR. { apply rstrip_app_blank. cbn [forallb]. rewrite Esp. reflexivity. }
            assert (forall s, length (rstrip s) <= length s) as RL. { intros s. unfold rstrip, rstrip_if. rewrite rev_length. etransitivity; [apply LL|]. rewrite rev_length. lia. }
            destruct (lstrip_if is_space (r ++ [z])) as [|q0 q] eqn:EL; [cbn in HL; rewrite app_length in HL; cbn [length] in HL; lia|].
            assert (exists q', q0 :: q = q' ++ [z]) as [q' Eq'].
            { clear - EL Esp. revert q0 q EL. induction r as [|a r IH]; intros q0 q EL; cbn [app lstrip_if] in EL; [rewrite Esp in EL; discriminate EL|]. destruct (is_space a); [apply IH; exact EL|]. injection EL as <- <-. exists (a :: r). reflexivity. }
            rewrite Eq' in *. fold (rstrip (q' ++ [z])) in HL. assert (rstrip (q' ++ [z]) = rstrip q') as RR' by (apply rstrip_app_blank; cbn [forallb]; rewrite Esp; reflexivity).
            change (length (rstrip (q' ++ [z])) = length (r ++ [z])) in HL. rewrite RR' in HL. pose proof (RL q'). pose proof (LL (r ++ [z])) as LR. rewrite EL in LR. rewrite !app_length in *. cbn [length] in *. lia. }
        destruct TB as (z & q & Eq & Hz). destruct TA as (a & q' & Ea & Ha). unfold head_renamed. split.
        - destruct (firstn 7 h) as [|f0 f1] eqn:EF7; [discriminate L7|]. exists f0. eexists. split; [reflexivity|]. rewrite HH in Ea. cbn [app] in Ea. injection Ea as -> _. exact Ha.
        - rewrite HR in *. destruct (exists_last (l := " "%char :: r0)) as (r1 & z' & Ez'); [discriminate|]. rewrite Ez'. exists z', (firstn 7 h ++ head_gap h ++ n ++ r1). split; [rewrite !app_assoc; reflexivity|].
          rewrite HH, Ez' in Eq. rewrite !app_assoc in Eq. apply app_inj_tail in Eq. destruct Eq as [_ ->]. exact Hz. }
    rewrite <- app_assoc. cbn [app]. change (head_renamed h n ++ NLs) with (full (head_renamed h n)). cbn [set_ends]. rewrite ends_found by assumption. reflexivity. }
  assert (forall l, set_name n (IText mark1 :: l) = option_map (cons (IText mark1)) (set_name n l)) as SM by (intros l; cbn [set_name obj_of]; rewrite re_mark1; reflexivity).
  rewrite SM. match goal with |- option_map _ ?a = _ => replace a with (Some (IText (full (head_renamed (f_head d) n)) :: map item_of (f_body d) ++ [IPrim (full (s2l ".ENDS " ++ n)); IText mark2])) by (symmetry; exact E) end. reflexivity.
Qed.

(** the name of a copy *)
Lemma name_plain : forall x, name_char x = true -> x <> NL /\ x <> CR.
Proof.
  intros x Hx. assert (negb (aeqb x NL) && negb (aeqb x CR) = true) as H.
  { revert x Hx. clear. apply (imp_sweep name_char (fun x => negb (aeqb x NL) && negb (aeqb x CR))). vm_cast_no_check (eq_refl true). }
  rewrite andb_true_iff, !negb_true_iff, !aeqb_neq in H. exact H.
Qed.
Lemma upper_word : forall x, is_word x = true -> name_char (upper_c x) = true.
Proof. intros x H. revert x H. clear. apply (imp_sweep is_word (fun x => name_char (upper_c x))). vm_cast_no_check (eq_refl true). Qed.
Lemma copy_name_ok : forall c h, comp_ok c -> c_kind c = "X"%char -> circuit_name h (c_val c) -> forallb name_char (copy_name c) = true /\ copy_name c <> [].
Proof.
  intros c h HC HK (kw & b & r & _ & _ & _ & _ & _ & HN & _). unfold copy_name, designator. split.
  - rewrite forallb_app, HN. cbn [forallb andb]. change (name_char "_") with true. cbn [andb]. rewrite HK. destruct HC as (_ & HW & _). unfold upper. cbn [map forallb]. change (name_char (upper_c "X")) with true. cbn [andb].
    apply forallb_forall. intros y Hy. apply in_map_iff in Hy. destruct Hy as (x & <- & Hx). apply upper_word. apply HW. exact Hx.
  - intros G. apply (f_equal (@length _)) in G. rewrite app_length in G. cbn [length] in G. lia.
Qed.
Lemma renamed_part : forall c n, part_ok good_names c -> c_kind c = "X"%char -> forallb name_char n = true -> n <> [] -> part_ok good_names (with_value c n).
Proof.
  intros c n ((Q1 & Q2 & Q3 & Q4 & Q5 & Q6 & Q7 & Q8 & Q9 & f & lo & hi & Hf & Hlo & Hhi & HV & H1 & H2) & HG & HE) HK HN NN. split; [|split; [exact HG|exact HE]].
  split; [exact Q1|]. split; [exact Q2|]. split; [exact Q3|]. split; [exact Q4|]. split; [exact Q5|]. split; [exact Q6|]. split; [exact Q7|]. split; [exact Q8|]. split.
  - intros a Ha. unfold comp_body, with_value in *. cbn [c_kind c_name c_nodes c_gap c_val c_pars c_end c_note] in *.
    assert (In a (c_kind c :: c_name c ++ nodes_text (c_nodes c) ++ c_gap c ++ c_val c ++ line_text (c_pars c) (c_end c ++ note_text (c_note c))) \/ In a n) as [G|G].
    { cbn [In] in Ha |- *. rewrite !in_app_iff in *. tauto. }
    + apply Q9. exact G.
    + apply name_plain. rewrite forallb_forall in HN. apply HN. exact G.
  - assert (f = Instance) as ->. { rewrite HK in Hf. vm_compute in Hf. injection Hf as <- _ _. reflexivity. }
    exists Instance, lo, hi. split; [exact Hf|]. split; [exact Hlo|]. split; [exact Hhi|]. split; [|split; [discriminate|exact H2]].
    split; [exact NN|]. intros x Hx. cbn [with_value c_val] in Hx. rewrite forallb_forall in HN. specialize (HN x Hx). unfold name_char in HN. apply orb_true_iff in HN. destruct HN as [HN|HN]; [left; exact HN|right]. apply aeqb_eq in HN. subst x. left. reflexivity.
Qed.
Lemma not_number_scan : forall v, not_number v -> (forall x, In x v -> is_space x = false) -> scan_eng v = None.
Proof.
  intros v H HS. destruct v as [|c v]; [contradiction|]. cbn [not_number] in H. unfold scan_eng, parse_value.
  assert (exists r, strip (c :: v) = c :: r) as [r ->].
  { assert (is_space c = false) as Hc by (apply HS; left; reflexivity). unfold strip, strip_if. cbn [lstrip_if]. rewrite Hc. unfold rstrip_if. cbn [rev].
    assert (forall s, exists t, lstrip_if is_space (s ++ [c]) = t ++ [c]) as L.
    { induction s as [|x s [t IH]]; cbn [app lstrip_if]; [rewrite Hc; exists []; reflexivity|]. destruct (is_space x); [exists t; exact IH|exists (x :: s); reflexivity]. }
    destruct (L (rev v)) as [t ->]. rewrite rev_app_distr. cbn [rev app]. eexists. reflexivity. }
  cbn zeta. cbn [span]. assert (mem_c c (s2l "0123456789.+-") = false) as ->; [|reflexivity]. destruct (mem_c c (s2l "0123456789.+-")) eqn:E; [|reflexivity]. exfalso. apply H.
  assert (forall l : list ascii, mem_c c l = true -> In c l) as M; [|apply M; exact E]. induction l as [|x l IH]; cbn [mem_c existsb]; [discriminate|]. intros G. apply orb_true_iff in G. destruct G as [G|G]; [left; symmetry; apply aeqb_eq; exact G|right; apply IH; exact G].
Qed.
Lemma instance_value : forall c, comp_ok c -> c_kind c = "X"%char -> forall x, In x (c_val c) -> is_space x = false.
Proof.
  intros c (_ & _ & _ & _ & _ & _ & _ & _ & _ & f & lo & hi & Hf & _ & _ & HV & _) HK x Hx. assert (f = Instance) as ->. { rewrite HK in Hf. vm_compute in Hf. injection Hf as <- _ _. reflexivity. }
  destruct HV as [_ HV]. destruct (HV x Hx) as [H|H].
  - apply negb_true_iff. clear - H. revert x H. apply (imp_sweep is_word (fun x => negb (is_space x))). vm_cast_no_check (eq_refl true).
  - cbn in H. repeat (destruct H as [<-|H]; [reflexivity|]). destruct H.
Qed.
Lemma shadow_new : forall en D chain c d, chain_ok en D chain -> comp_ok c -> c_kind c = "X"%char -> not_number (c_val c) -> D (c_val c) = Some d -> def_ok d -> head_name (f_head d) = c_val c ->
  shadow_of en chain (attrs_of c) None = Some (false, copy_items (head_renamed (f_head d) (copy_name c)) (copy_name c) (map item_of (f_body d))).
Proof.
  intros en D chain c d HCh HC HK HNn HD HDo HNm. unfold shadow_of. cbn [a_val attrs_of]. unfold lookup_def. rewrite (not_number_scan _ HNn (instance_value c HC HK)). rewrite (HCh (c_val c)), HD. cbn [option_map].
  assert (circuit_name (f_head d) (c_val c)) as HH by (rewrite <- HNm; apply HDo). destruct (copy_name_ok c _ HC HK HH) as [N1 N2].
  change (c_val c ++ "_"%char :: a_ref (attrs_of c)) with (copy_name c). rewrite (clone_def d _ HDo N2 N1). reflexivity.
Qed.
Lemma flat_shows : forall body, Forall flat_stmt body -> exists ws, shows_all (map item_of body) (map plain body) ws [].
Proof.
  induction 1 as [|s body Hs HB [ws IH]]; [exists []; constructor|]. cbn [map]. exists (tidy_stmt s ++ ws). change (@nil stmt) with (@nil stmt ++ []). constructor; [|exact IH]. constructor; [|destruct s as [x|x|c|x y z|x y z|x y]; try exact I; cbn [inst_kind item_of]; intros ->; exact I].
  destruct s as [x|x|c|x y z|x y z|x y]; try contradiction.
  - apply (Sh_plain any (Note x)); [left; exact Hs|discriminate].
  - apply (Sh_plain any (Directive x)); [left; exact Hs|discriminate].
  - cbn [item_of tidy_stmt]. apply Sh_part; [|exact Hs]. destruct (aeqb (c_kind c) "X"); [right|left]; reflexivity.
Qed.
Lemma flat_tops : forall body, Forall flat_stmt body -> Forall flat_top (map plain body) /\ Forall (fun nd => stmt_ok good_names (top nd)) (map plain body).
Proof.
  induction 1 as [|s body Hs HB [IH1 IH2]]; [split; constructor|]. cbn [map]. split; (constructor; [|assumption]); destruct s; try contradiction; try exact I; exact Hs.
Qed.
(** edits keep the kinds of the statements *)
Lemma on_node_tops : forall (P : stmt -> Prop) ref f l, Forall (fun n => P (top n)) l -> (forall c o, node_named ref l = Some (c, o) -> P (top (f c o))) -> Forall (fun n => P (top n)) (on_node ref f l).
Proof.
  intros P ref f l H Hf. destruct (node_named ref l) as [[c o]|] eqn:E.
  - destruct (node_split _ _ _ _ E) as (a & b & -> & _ & EO & _). rewrite EO. apply Forall_app in H. destruct H as [H1 H2]. apply Forall_cons_iff in H2. destruct H2 as [_ H2].
    apply Forall_app. split; [exact H1|]. constructor; [apply Hf; reflexivity|exact H2].
  - assert (on_node ref f l = l) as ->; [|exact H]. clear H Hf. induction l as [|[s o] l IH]; [reflexivity|]. cbn [node_named on_node] in *. destruct s as [x|x|c|x y z|x y z|x y]; try (rewrite (IH E); reflexivity).
    destruct (str_eqb (designator c) (upper ref)); [discriminate E|rewrite (IH E); reflexivity].
Qed.
Lemma shown_part_ok : forall it c w, shown any it (Part c) w -> part_ok good_names c.
Proof. intros it c w H. remember (Part c) as s eqn:Es. destruct H as [s HO N|it c' HH HO|it c0 c' HH HO0 HO ? ? ? ? ? ? ? ? ?]; [exfalso; apply (N c); exact Es| |]; injection Es as ->; exact HO. Qed.
Lemma shows_shown : forall it c o w m, shows it (Node (Part c) o) w m -> exists ob e, shown any (match it with IInst a b _ => IInst a b None | x => x end) (Part c) w /\ holder (match it with IInst a b _ => IInst a b None | x => x end) ob e /\
  (it = IComp ob e \/ exists sh, it = IInst ob e sh) /\ attrs_now ob e = Some (attrs_of c).
Proof.
  intros it c o w m H. inversion H as [it' s w' HS HIk|ob e c' w' n h items k ws ms HS HC HF HO HA]; subst.
  - destruct (shown_part any _ _ _ HS) as (ob & e & HH & HA). exists ob, e. destruct HH as [-> | ->].
    + split; [exact HS|]. split; [left; reflexivity|]. split; [left; reflexivity|exact HA].
    + split; [exact HS|]. split; [right; reflexivity|]. split; [right; eexists; reflexivity|exact HA].
  - destruct (shown_part any _ _ _ HS) as (ob' & e' & HH & HA'). assert (ob' = ob /\ e' = e) as [-> ->] by (destruct HH as [HH|HH]; [discriminate HH|injection HH as -> ->; split; reflexivity]).
    exists ob, e. split; [exact HS|]. split; [right; reflexivity|]. split; [right; eexists; reflexivity|exact HA'].
Qed.
Lemma name_copy : forall fname h n items, circuit_name h n -> name_of fname (copy_items h n items) = Some n.
Proof. intros fname h n items H. unfold copy_items. cbn [name_of obj_of]. rewrite re_mark1. exact (name_head fname h n (items ++ [IPrim (full (s2l ".ENDS " ++ n)); IText mark2]) H). Qed.
(** entries around the list that hold no components or definitions *)
Definition inert (i : item) : Prop := match i with IText _ | IPrim _ => True | _ => False end.
Lemma find_after : forall fname ref post, Forall inert post -> find_ref fname ref post = Some NotFound.
Proof. induction 1 as [|i l Hi Hl IH]; [reflexivity|]. destruct i; try contradiction; cbn [find_ref]; rewrite IH; reflexivity. Qed.
Lemma find_frame : forall fname ref pre post, Forall inert pre -> Forall inert post -> forall items x, find_ref fname ref items = Some x ->
  find_ref fname ref (pre ++ items ++ post) = Some (match x with At i => At (length pre + i) | NotFound => NotFound end).
Proof.
  intros fname ref pre post HP HQ items x H. induction HP as [|i pre Hi HP IH].
  - cbn [app length Nat.add]. revert x H. induction items as [|it items IH]; intros x H.
    + injection H as <-. apply (find_after fname ref post HQ).
    + assert (forall y, option_map shift (find_ref fname ref items) = Some y -> option_map shift (find_ref fname ref (items ++ post)) = Some (match y with At i => At i | NotFound => NotFound end)) as K.
      { intros y Hy. destruct (find_ref fname ref items) as [z|]; [|discriminate Hy]. injection Hy as <-. rewrite (IH z eq_refl). destruct z; reflexivity. }
      cbn [app find_ref] in *. destruct it; try (apply K; exact H).
      * destruct (option_map a_ref (attrs_now obj e)) as [q|]; [|discriminate H]. destruct (str_eqb (upper q) ref); [injection H as <-; reflexivity|apply K; exact H].
      * destruct (option_map a_ref (attrs_now obj e)) as [q|]; [|discriminate H]. destruct (str_eqb (upper q) ref); [injection H as <-; reflexivity|apply K; exact H].
      * destruct (name_of fname l) as [q|]; [|discriminate H]. destruct (str_eqb (upper q) ref); [injection H as <-; reflexivity|apply K; exact H].
  - destruct i; try contradiction; cbn [app find_ref]; rewrite IH; destruct x; reflexivity.
Qed.
Lemma copy_frame : forall h n items, exists pre post, copy_items h n items = pre ++ items ++ post /\ Forall inert pre /\ Forall inert post /\ forall items', pre ++ items' ++ post = copy_items h n items'.
Proof. intros h n items. exists [IText mark1; IText (full h)], [IPrim (full (s2l ".ENDS " ++ n)); IText mark2]. split; [reflexivity|]. split; [repeat constructor|]. split; [repeat constructor|]. reflexivity. Qed.

(** names on a path *)
Lemma instance_ref : forall c x, c_kind c = "X"%char -> designator c = upper x -> exists r, upper x = "X"%char :: r.
Proof. intros c x HK HD. rewrite <- HD. unfold designator. rewrite HK. exists (upper (c_name c)). reflexivity. Qed.
Lemma set_item_frame : forall (pre ia : list item) it ib post x, set_item (pre ++ (ia ++ it :: ib) ++ post) (length pre + length ia) x = pre ++ (ia ++ x :: ib) ++ post.
Proof. intros pre ia it ib post x. rewrite <- !app_assoc. cbn [app]. rewrite !app_assoc. rewrite <- app_length. apply set_item_mid. Qed.
Lemma nth_frame : forall (pre ia : list item) it ib post, nth_error (pre ++ (ia ++ it :: ib) ++ post) (length pre + length ia) = Some it.
Proof. intros pre ia it ib post. rewrite <- !app_assoc. cbn [app]. rewrite !app_assoc. rewrite <- app_length. apply nth_mid. Qed.
Definition tops_ok (l : list node) : Prop := Forall flat_top l /\ Forall (fun nd => stmt_ok good_names (top nd)) l.

Theorem change_run : forall en D e, (forall v d, D v = Some d -> head_name (f_head d) = v) -> forall p l k, opens D p l k -> edit_ok e (map top k) -> no_definition_named (edit_ref e) (map top k) ->
  forall items ws ms chain pre post, shows_all items l ws ms -> Forall inert pre -> Forall inert post -> chain_ok en D ((pre ++ items ++ post) :: chain) ->
  exists items' ws' ms', edit_path en Inform (map upper p) (op_of en e) chain (pre ++ items ++ post) = Some (pre ++ items' ++ post, map as_logged (records D p e l)) /\
    shows_all items' (change D p e l) ws' ms' /\ (tops_ok l -> tops_ok (change D p e l)).
Proof.
  intros en D e HNm p l k HOp. induction HOp as [l|x p l c n h kk k' HX HDn HF HK HOp IH|x p l c d k' HX HDn HF HK HCan HNn HD HDo HOp IH];
    intros HE HDe items ws ms chain pre post HS HP HQ HCh.
  - (* the edit itself *)
    destruct HE as (HR & c & HPN & HKc & HOk & HKc' & Hp & Hx & Hd). rewrite part_node in HPN. destruct (node_named (edit_ref e) l) as [[c' o]|] eqn:HF; [|discriminate HPN]. injection HPN as ->.
    destruct (node_split _ _ _ _ HF) as (a & b & EL & EA & EO & EDs). subst l.
    pose proof (find_shows (e_name en) (edit_ref e) _ _ _ _ HS HDe) as FD. rewrite EA in FD.
    destruct (shows_split _ _ _ _ _ HS) as (ia & ib0 & wa & wb & ma & mb & -> & -> & -> & LA & SA & SB). inversion SB as [|it nd w m ib lb wb' mb' S1 S2]; subst.
    pose proof (find_frame _ _ _ _ HP HQ _ _ FD) as FF. rewrite <- LA in FF. cbn match in FF.
    destruct (shows_shown _ _ _ _ _ S1) as (ob & oe & HSh & HH & HI & HA).
    destruct (edit_entry _ _ _ _ _ e HSh HH HKc HOk HKc' Hp Hx) as (w' & HW).
    assert (tops_ok (a ++ Node (Part c) o :: b) -> tops_ok (change D [] e (a ++ Node (Part c) o :: b))) as HT.
    { intros [T1 T2]. cbn [change]. split; (apply on_node_tops with (P := fun s => match s with Note _ | Directive _ | Part _ => True | _ => False end) || apply on_node_tops with (P := stmt_ok good_names)); try assumption.
      - intros c1 o1 _. exact I.
      - intros c1 o1 E1. rewrite HF in E1. injection E1 as <- <-. exact HOk. }
    assert (pre ++ (ia ++ it :: ib) ++ post = (pre ++ ia) ++ it :: (ib ++ post)) as RE by (rewrite <- !app_assoc; reflexivity).
    destruct HI as [-> | [sh ->]].
    + pose proof (op_comp en e chain (pre ++ ia) ob oe (ib ++ post) c ltac:(rewrite <- RE, FF, app_length; reflexivity) HA Hd) as EOp.
      assert (o = None) as -> by (inversion S1; reflexivity).
      exists (ia ++ IComp ob (Some (attrs_of (edit_comp e c))) :: ib), (wa ++ w' ++ wb'), (ma ++ [] ++ mb'). split; [|split; [|exact HT]].
      * cbn [map edit_path records]. rewrite RE, EOp, HF. rewrite <- !app_assoc. reflexivity.
      * cbn [change]. rewrite EO. apply shows_app; [exact SA|]. apply WA_cons; [|exact S2]. assert (c_kind (edit_comp e c) = c_kind c) as EK by apply edit_fixed. assert (inst_kind (IComp ob (Some (attrs_of (edit_comp e c)))) (Part (edit_comp e c))) as IK by (inversion S1 as [it' s w0 HS0 HIk|]; subst; cbn [inst_kind] in *; rewrite EK; exact HIk).
        destruct e; (constructor; [apply HW; left; reflexivity|exact IK]).
    + pose proof (op_inst en e chain (pre ++ ia) ob oe sh (ib ++ post) c ltac:(rewrite <- RE, FF, app_length; reflexivity) HA Hd) as EOp.
      assert (exists m', shows (IInst ob (Some (attrs_of (edit_comp e c))) (match e with SetValue _ _ => None | _ => sh end)) (Node (Part (edit_comp e c)) (match e with SetValue _ _ => None | _ => o end)) w' m') as [m' SM].
      { assert (exists m', shows (IInst ob (Some (attrs_of (edit_comp e c))) sh) (Node (Part (edit_comp e c)) o) w' m') as [m' SM].
        { inversion S1 as [it' s w0 HS0 HIk|ob0 e0 c' w0 n h items k ws ms HS0 HC HFt HO HAl]; subst.
          - destruct HH as [HH|HH]; [discriminate HH|]. assert (sh = None) as -> by (destruct (shown_part any _ _ _ HS0) as (? & ? & [G|G] & _); [discriminate G|injection G as _ _ ->; reflexivity]).
            exists []. constructor; [apply HW; right; reflexivity|intros _; exact I].
          - eexists. exact (W_copy _ _ _ _ _ _ _ _ _ _ (HW _ (or_intror eq_refl)) HC HFt HO HAl). }
        destruct e as [r v|r kk ww|r kk]; [exists []; constructor; [apply HW; right; reflexivity|intros _; exact I]|exists m'; exact SM|exists m'; exact SM]. }
      exists (ia ++ IInst ob (Some (attrs_of (edit_comp e c))) (match e with SetValue _ _ => None | _ => sh end) :: ib), (wa ++ w' ++ wb'), (ma ++ m' ++ mb'). split; [|split; [|exact HT]].
      * cbn [map edit_path records]. rewrite RE, EOp, HF. rewrite <- !app_assoc. reflexivity.
      * cbn [change]. rewrite EO. apply shows_app; [exact SA|]. apply WA_cons; [exact SM|exact S2].
  - (* inside an instance that has a copy *)
    destruct (node_split _ _ _ _ HF) as (a & b & EL & EA & EO & EDs). subst l.
    pose proof (find_shows (e_name en) x _ _ _ _ HS HDn) as FD. rewrite EA in FD.
    destruct (shows_split _ _ _ _ _ HS) as (ia & ib0 & wa & wb & ma & mb & -> & -> & -> & LA & SA & SB). inversion SB as [|it nd w m ib lb wb' mb' S1 S2]; subst.
    pose proof (find_frame _ _ _ _ HP HQ _ _ FD) as FF. rewrite <- LA in FF. cbn match in FF.
    inversion S1 as [|ob oe c' w0 n' h' its k0 ws0 ms0 HSh HCn HFt HOk HAl]; subst.
    assert (attrs_now ob oe = Some (attrs_of c)) as HA. { destruct (shown_part any _ _ _ HSh) as (o1 & e1 & [G|G] & HA); [discriminate G|injection G as -> ->; exact HA]. }
    destruct (copy_frame h n its) as (pre1 & post1 & ECI & HP1 & HQ1 & ECB).
    destruct (IH HE HDe its ws0 ms0 ((pre ++ (ia ++ IInst ob oe (Some (true, copy_items h n its)) :: ib) ++ post) :: chain) pre1 post1 HAl HP1 HQ1) as (its' & ws1 & ms1 & ER & SR & HT).
    { rewrite <- ECI. apply (def_copy en D _ h n its kk ws0 ms0 HCh HAl HFt). }
    destruct (instance_ref c x HK EDs) as [xr EX].
    assert (forall rs, map as_logged (map (inside c) rs) = map (prefixed (a_ref (attrs_of c))) (map as_logged rs)) as KP by (intros rs; rewrite !map_map; apply map_ext; intros [[? ?] ?]; reflexivity).
    exists (ia ++ IInst ob oe (Some (true, copy_items h n its')) :: ib), (wa ++ w ++ wb'), (ma ++ [Note mark_begin; Circuit h (ws1 ++ ms1) (s2l ".ENDS " ++ n); Note mark_end] ++ mb'). split; [|split].
    + cbn [map edit_path]. rewrite EX. change (negb (aeqb "X" "X")) with false. cbv iota. rewrite <- EX. rewrite FF, nth_frame, HA. cbn [shadow_of]. rewrite <- ECI in ER. rewrite ER, ECB. rewrite set_item_frame. cbn [records]. rewrite HF, KP. reflexivity.
    + cbn [change]. rewrite EO. apply shows_app; [exact SA|]. apply WA_cons; [|exact S2]. destruct (HT (conj HFt HOk)) as [T1 T2]. apply W_copy; assumption.
    + intros [T1 T2]. cbn [change]. split; (apply on_node_tops with (P := fun s => match s with Note _ | Directive _ | Part _ => True | _ => False end) || apply on_node_tops with (P := stmt_ok good_names)); try assumption.
      * intros c1 o1 _. destruct o1 as [[[? ?] ?]|]; [exact I|]. destruct (D (c_val c1)); exact I.
      * intros c1 o1 E1. rewrite HF in E1. injection E1 as <- <-. cbn [top]. exact (shown_part_ok _ _ _ HSh).
  - (* inside an instance without a copy *)
    destruct (node_split _ _ _ _ HF) as (a & b & EL & EA & EO & EDs). subst l.
    pose proof (find_shows (e_name en) x _ _ _ _ HS HDn) as FD. rewrite EA in FD.
    destruct (shows_split _ _ _ _ _ HS) as (ia & ib0 & wa & wb & ma & mb & -> & -> & -> & LA & SA & SB). inversion SB as [|it nd w m ib lb wb' mb' S1 S2]; subst.
    pose proof (find_frame _ _ _ _ HP HQ _ _ FD) as FF. rewrite <- LA in FF. cbn match in FF.
    inversion S1 as [it' s w0 HSh HIk|]; subst. pose proof (shown_part_ok _ _ _ HSh) as HPok.
    assert (exists ob oe, it = IInst ob oe None /\ attrs_now ob oe = Some (attrs_of c)) as (ob & oe & -> & HA).
    { destruct (shown_part any _ _ _ HSh) as (ob & oe & HH & HA). exists ob, oe. split; [|exact HA]. destruct HH as [-> |HH]; [|exact HH]. exfalso. exact (HIk HK). }
    assert (comp_ok c) as HCk by apply HPok. pose proof (HNm _ _ HD) as HNd.
    pose proof (shadow_new en D ((pre ++ (ia ++ IInst ob oe None :: ib) ++ post) :: chain) c d HCh HCk HK HNn HD HDo HNd) as ESh.
    assert (circuit_name (f_head d) (c_val c)) as HCN by (rewrite <- HNd; apply HDo). destruct (copy_name_ok c _ HCk HK HCN) as [N1 N2].
    pose proof (renamed_ok _ _ _ HCN N1 N2) as HRn. set (n := copy_name c) in *. set (h := head_renamed (f_head d) n) in *.
    destruct HDo as (_ & _ & _ & _ & HBd & _). destruct (flat_shows _ HBd) as (ws0 & HAl). destruct (flat_tops _ HBd) as [HFt HOk].
    destruct (copy_frame h n (map item_of (f_body d))) as (pre1 & post1 & ECI & HP1 & HQ1 & ECB).
    destruct (IH HE HDe _ ws0 [] ((pre ++ (ia ++ IInst ob oe None :: ib) ++ post) :: chain) pre1 post1 HAl HP1 HQ1) as (its' & ws1 & ms1 & ER & SR & HT).
    { rewrite <- ECI. apply (def_copy en D _ h n _ _ ws0 [] HCh HAl HFt). }
    destruct (instance_ref c x HK EDs) as [xr EX].
    assert (forall rs, map as_logged (map (inside c) rs) = map (prefixed (a_ref (attrs_of c))) (map as_logged rs)) as KP by (intros rs; rewrite !map_map; apply map_ext; intros [[? ?] ?]; reflexivity).
    pose proof (renamed_part c n HPok HK N1 N2) as HPr.
    assert (canonical (with_value c n)) as HCan' by exact HCan.
    destruct (edit_entry _ c _ ob oe (SetValue x n) HSh (or_intror eq_refl) HCan HPr HCan') as (w' & HW); [intros E; exact E|intros _ E; exact E|].
    exists (ia ++ IInst ob (Some (attrs_of (with_value c n))) (Some (true, copy_items h n its')) :: ib), (wa ++ w' ++ wb'), (ma ++ [Note mark_begin; Circuit h (ws1 ++ ms1) (s2l ".ENDS " ++ n); Note mark_end] ++ mb').
    split; [|split].
    + cbn [map edit_path]. rewrite EX. change (negb (aeqb "X" "X")) with false. cbv iota. rewrite <- EX. rewrite FF, nth_frame, HA, ESh. rewrite <- ECI in ER. rewrite ER. cbv iota beta.
      rewrite (name_copy (e_name en) h n _ HRn). rewrite ECB, set_item_frame. cbn [records]. rewrite HF, HD. cbn [map]. rewrite KP. reflexivity.
    + cbn [change]. rewrite EO, HD. apply shows_app; [exact SA|]. apply WA_cons; [|exact S2]. destruct (HT (conj HFt HOk)) as [T1 T2]. apply W_copy; try assumption. apply HW. right. reflexivity.
    + intros [T1 T2]. cbn [change]. split; (apply on_node_tops with (P := fun s => match s with Note _ | Directive _ | Part _ => True | _ => False end) || apply on_node_tops with (P := stmt_ok good_names)); try assumption.
      * intros c1 o1 _. destruct o1 as [[[? ?] ?]|]; [exact I|]. destruct (D (c_val c1)); exact I.
      * intros c1 o1 E1. rewrite HF in E1. injection E1 as <- <-. rewrite HD. cbn [top]. exact HPr.
Qed.

(** reading *)
Lemma opens_denoted : forall D p l k, opens D p l k -> forall ref, denoted D p ref l = option_map fst (node_named ref k).
Proof.
  intros D p l k H. induction H as [l|x p l c n h kk k' HX HDn HF HK HOp IH|x p l c d k' HX HDn HF HK HCan HNn HD HDo HOp IH]; intros ref; [reflexivity| |];
    cbn [denoted]; rewrite HF, HK; change (aeqb "X" "X") with true; cbv iota; cbn [contents]; [apply IH|]. rewrite HD. cbn [option_map]. apply IH.
Qed.
Theorem read_run : forall en D, (forall v d, D v = Some d -> head_name (f_head d) = v) -> forall p l k, opens D p l k -> forall ref, no_definition_named ref (map top k) ->
  forall items ws ms chain pre post, shows_all items l ws ms -> Forall inert pre -> Forall inert post -> chain_ok en D ((pre ++ items ++ post) :: chain) ->
  match node_named ref k with
  | Some (c, _) => exists it, get_path en (map upper p) (upper ref) chain (pre ++ items ++ post) = Some it /\ comp_attrs it = Some (attrs_of c)
  | None => get_path en (map upper p) (upper ref) chain (pre ++ items ++ post) = None
  end.
Proof.
  intros en D HNm p l k HOp. induction HOp as [l|x p l c n h kk k' HX HDn HF HK HOp IH|x p l c d k' HX HDn HF HK HCan HNn HD HDo HOp IH];
    intros ref HDr items ws ms chain pre post HS HP HQ HCh.
  - pose proof (find_shows (e_name en) ref _ _ _ _ HS HDr) as FD. destruct (node_named ref l) as [[c o]|] eqn:HF.
    + destruct (node_split _ _ _ _ HF) as (a & b & EL & EA & EO & EDs). subst l. rewrite EA in FD.
      destruct (shows_split _ _ _ _ _ HS) as (ia & ib0 & wa & wb & ma & mb & -> & -> & -> & LA & SA & SB). inversion SB as [|it nd w m ib lb wb' mb' S1 S2]; subst.
      pose proof (find_frame _ _ _ _ HP HQ _ _ FD) as FF. rewrite <- LA in FF. cbn match in FF. cbn [map get_path]. rewrite FF, nth_frame. exists it. split; [reflexivity|].
      destruct (shows_shown _ _ _ _ _ S1) as (ob & oe & _ & _ & HI & HA). destruct HI as [-> | [sh ->]]; exact HA.
    + rewrite (node_none _ _ HF) in FD. pose proof (find_frame _ _ _ _ HP HQ _ _ FD) as FF. cbn match in FF. cbn [map get_path]. rewrite FF. reflexivity.
  - destruct (node_split _ _ _ _ HF) as (a & b & EL & EA & EO & EDs). subst l.
    pose proof (find_shows (e_name en) x _ _ _ _ HS HDn) as FD. rewrite EA in FD.
    destruct (shows_split _ _ _ _ _ HS) as (ia & ib0 & wa & wb & ma & mb & -> & -> & -> & LA & SA & SB). inversion SB as [|it nd w m ib lb wb' mb' S1 S2]; subst.
    pose proof (find_frame _ _ _ _ HP HQ _ _ FD) as FF. rewrite <- LA in FF. cbn match in FF.
    inversion S1 as [|ob oe c' w0 n' h' its k0 ws0 ms0 HSh HCn HFt HOk HAl]; subst.
    assert (attrs_now ob oe = Some (attrs_of c)) as HA. { destruct (shown_part any _ _ _ HSh) as (o1 & e1 & [G|G] & HA); [discriminate G|injection G as -> ->; exact HA]. }
    destruct (copy_frame h n its) as (pre1 & post1 & ECI & HP1 & HQ1 & _).
    specialize (IH ref HDr its ws0 ms0 ((pre ++ (ia ++ IInst ob oe (Some (true, copy_items h n its)) :: ib) ++ post) :: chain) pre1 post1 HAl HP1 HQ1).
    rewrite <- ECI in IH. specialize (IH (def_copy en D _ h n its kk ws0 ms0 HCh HAl HFt)).
    destruct (instance_ref c x HK EDs) as [xr EX].
    cbn [map get_path]. rewrite EX. change (negb (aeqb "X" "X")) with false. cbv iota. rewrite <- EX. rewrite FF, nth_frame, HA. cbn [shadow_of]. exact IH.
  - destruct (node_split _ _ _ _ HF) as (a & b & EL & EA & EO & EDs). subst l.
    pose proof (find_shows (e_name en) x _ _ _ _ HS HDn) as FD. rewrite EA in FD.
    destruct (shows_split _ _ _ _ _ HS) as (ia & ib0 & wa & wb & ma & mb & -> & -> & -> & LA & SA & SB). inversion SB as [|it nd w m ib lb wb' mb' S1 S2]; subst.
    pose proof (find_frame _ _ _ _ HP HQ _ _ FD) as FF. rewrite <- LA in FF. cbn match in FF.
    inversion S1 as [it' s w0 HSh HIk|]; subst. pose proof (shown_part_ok _ _ _ HSh) as HPok.
    assert (exists ob oe, it = IInst ob oe None /\ attrs_now ob oe = Some (attrs_of c)) as (ob & oe & -> & HA).
    { destruct (shown_part any _ _ _ HSh) as (ob & oe & HH & HA). exists ob, oe. split; [|exact HA]. destruct HH as [-> |HH]; [|exact HH]. exfalso. exact (HIk HK). }
    assert (comp_ok c) as HCk by apply HPok. pose proof (HNm _ _ HD) as HNd.
    pose proof (shadow_new en D ((pre ++ (ia ++ IInst ob oe None :: ib) ++ post) :: chain) c d HCh HCk HK HNn HD HDo HNd) as ESh.
    set (n := copy_name c) in *. set (h := head_renamed (f_head d) n) in *.
    destruct HDo as (_ & _ & _ & _ & HBd & _). destruct (flat_shows _ HBd) as (ws0 & HAl). destruct (flat_tops _ HBd) as [HFt HOk].
    destruct (copy_frame h n (map item_of (f_body d))) as (pre1 & post1 & ECI & HP1 & HQ1 & _).
    specialize (IH ref HDr _ ws0 [] ((pre ++ (ia ++ IInst ob oe None :: ib) ++ post) :: chain) pre1 post1 HAl HP1 HQ1).
    rewrite <- ECI in IH. specialize (IH (def_copy en D _ h n _ _ ws0 [] HCh HAl HFt)).
    destruct (instance_ref c x HK EDs) as [xr EX].
    cbn [map get_path]. rewrite EX. change (negb (aeqb "X" "X")) with false. cbv iota. rewrite <- EX. rewrite FF, nth_frame, HA, ESh. exact IH.
Qed.

(** the definitions of the netlist *)
Lemma find_app : forall {A} (f : A -> bool) a b, find f (a ++ b) = match find f a with Some x => Some x | None => find f b end.
Proof. intros A f a b. induction a as [|x a IH]; [reflexivity|]. cbn [app find]. destruct (f x); [reflexivity|exact IH]. Qed.
Lemma stmt_defs : forall fname v s, Forall named (defs_of s) -> NetModel.def_in fname v (item_of s) = Some (option_map def_items (find (fun d => str_eqb (head_name (f_head d)) v) (defs_of s))).
Proof.
  intros fname v. apply (stmt_ind' (fun s => Forall named (defs_of s) -> NetModel.def_in fname v (item_of s) = Some (option_map def_items (find (fun d => str_eqb (head_name (f_head d)) v) (defs_of s))))); try reflexivity.
  - intros c _. cbn [item_of defs_of find]. destruct (aeqb (c_kind c) "X"); reflexivity.
  - intros h b t _ H. cbn [item_of defs_of find f_head]. cbn [defs_of] in H. apply Forall_cons_iff in H. destruct H as [H _]. unfold named in H. cbn [f_head] in H. cbn [NetModel.def_in].
    rewrite (name_head fname h _ _ H). destruct (str_eqb (head_name h) v); reflexivity.
  - intros l b IH H. cbn [item_of defs_of]. cbn [defs_of] in H. cbn [NetModel.def_in].
    induction IH as [|s b Hs HB IH]; [reflexivity|]. cbn [map concat] in H |- *. apply Forall_app in H. destruct H as [H1 H2]. rewrite (Hs H1), find_app. destruct (find _ (defs_of s)); [reflexivity|]. cbn [option_map]. apply IH. exact H2.
Qed.
Lemma root_defs : forall fname v items l ws ms, shows_all items l ws ms -> Forall named (defs (map top l)) -> def_among fname v items = Some (option_map def_items (InstSpec.def_in (map top l) v)).
Proof.
  intros fname v items l ws ms H. unfold InstSpec.def_in, defs. induction H as [|it n w m items l ws ms H1 H2 IH]; intros HN; [reflexivity|]. cbn [map concat] in *. apply Forall_app in HN. destruct HN as [N1 N2]. cbn [def_among]. rewrite find_app.
  assert (NetModel.def_in fname v it = Some (option_map def_items (find (fun d => str_eqb (head_name (f_head d)) v) (defs_of (top n))))) as ->.
  { destruct n as [s o]. cbn [top] in *. assert ((exists c, s = Part c) \/ forall c, s <> Part c) as [[c ->]|N] by (destruct s; try (right; discriminate); left; eexists; reflexivity).
    - destruct (shows_shown _ _ _ _ _ H1) as (ob & e & _ & _ & [-> | [sh ->]] & _); reflexivity.
    - destruct (shows_other _ _ _ _ _ H1 N) as (-> & _ & _). apply stmt_defs. exact N1. }
  destruct (find _ (defs_of (top n))); [reflexivity|]. cbn [option_map]. apply IH. exact N2.
Qed.
Lemma on_node_defs : forall ref f l, (forall c o, exists c' o', f c o = Node (Part c') o') -> defs (map top (on_node ref f l)) = defs (map top l).
Proof.
  intros ref f l Hf. unfold defs. induction l as [|[s o] l IH]; [reflexivity|]. cbn [on_node]. destruct s as [x|x|c|x y z|x y z|x y]; cbn [map top concat]; try (rewrite IH; reflexivity).
  destruct (str_eqb (designator c) (upper ref)); [destruct (Hf c o) as (c' & o' & ->); reflexivity|cbn [map top concat]; rewrite IH; reflexivity].
Qed.
Lemma change_form : forall D p e, exists ref f, (forall l, change D p e l = on_node ref f l) /\ forall c o, exists c' o', f c o = Node (Part c') o'.
Proof.
  intros D [|x p] e; cbn [change]; eexists _, _; (split; [reflexivity|]); intros c o; cbv beta; [eexists _, _; reflexivity|]. destruct o as [[[n h] k]|]; [eexists _, _; reflexivity|]. destruct (D (c_val c)); eexists _, _; reflexivity.
Qed.
Lemma change_defs : forall D p e l, defs (map top (change D p e l)) = defs (map top l).
Proof. intros D p e l. destruct (change_form D p e) as (ref & f & E & F). rewrite E. apply on_node_defs. exact F. Qed.
Lemma change_length : forall D p e l, length (change D p e l) = length l.
Proof.
  intros D p e l. destruct (change_form D p e) as (ref & f & -> & _). induction l as [|[s o] l IH]; [reflexivity|]. cbn [on_node]. destruct s as [x|x|c|x y z|x y z|x y]; cbn [length]; try (rewrite IH; reflexivity).
  destruct (str_eqb (designator c) (upper ref)); cbn [length]; [reflexivity|rewrite IH; reflexivity].
Qed.
Lemma change_tail : forall D p e l r, (forall n, In n r -> forall c, top n <> Part c) -> change D p e (l ++ r) = change D p e l ++ r.
Proof.
  intros D p e l r H. destruct (change_form D p e) as (ref & f & E & _). rewrite !E. induction l as [|[s o] l IH]; cbn [app].
  - cbn [on_node]. induction r as [|[s o] r IH]; [reflexivity|]. cbn [on_node]. rewrite IH by (intros n Hn; apply H; right; exact Hn). destruct s as [x|x|c|x y z|x y z|x y]; try reflexivity. exfalso. apply (H (Node (Part c) o) (or_introl eq_refl) c). reflexivity.
  - cbn [on_node]. rewrite IH. destruct s as [x|x|c|x y z|x y z|x y]; try reflexivity. destruct (str_eqb (designator c) (upper ref)); reflexivity.
Qed.

(** writing *)
Definition nonend (i : item) : Prop := match i with IPrim s => startswith (s2l ".END") (upper s) = false | _ => True end.
Lemma write_framed : forall A e B ta tb m, Forall nonend A -> Forall nonend B -> startswith (s2l ".END") (upper e) = true ->
  concat_opt (map (fun i => fst (texts i)) A) = Some ta -> concat_opt (map (fun i => fst (texts i)) B) = Some tb ->
  concat_opt (map (fun i => snd (texts i)) (A ++ IPrim e :: B)) = Some m ->
  write_items (A ++ IPrim e :: B) = Some (ta ++ m ++ strip e ++ NLs ++ tb).
Proof.
  intros A e B ta tb m HA HB HE TA TB TM. unfold write_items, assemble. rewrite (map_map (fun i => (i, texts i)) (fun y => snd (snd y))). cbn [snd]. change (map (fun x : item => snd (texts x)) (A ++ IPrim e :: B)) with (map (fun i => snd (texts i)) (A ++ IPrim e :: B)). rewrite TM, map_map. cbn [fst snd].
  assert (forall l, Forall nonend l -> map (fun x => match x with IPrim s => write_prim s (Some m) | _ => fst (texts x) end) l = map (fun i => fst (texts i)) l) as K.
  { induction 1 as [|i l Hi Hl IH]; [reflexivity|]. cbn [map]. rewrite IH. destruct i; try reflexivity. cbn [nonend] in Hi. unfold write_prim. rewrite Hi. reflexivity. }
  rewrite map_app, concat_opt_app. cbn [map concat_opt]. rewrite !K by assumption. rewrite TA. unfold write_prim. rewrite HE. cbn [option_map]. rewrite TB. rewrite <- ?app_assoc. reflexivity.
Qed.
Lemma begins_end : forall l w, first_word w l -> startswith (s2l ".END") (upper (full l)) = true -> begins (s2l ".END") w.
Proof.
  intros l w HW H. pose proof (lc_word w l HW) as E. unfold full in *. destruct (l ++ [NL]) as [|c1 [|c2 [|c3 [|c4 r]]]] eqn:El; try (cbn in H; repeat (apply andb_true_iff in H; destruct H as [? H]); discriminate H).
  unfold upper in H. cbn [map] in H. change (s2l ".END") with ["."%char; "E"%char; "N"%char; "D"%char] in H. cbn [startswith] in H. rewrite !andb_true_iff in H. destruct H as (H1 & H2 & H3 & H4 & _).
  assert (forall x y, aeqb y (upper_c x) = true -> mem_c y (s2l ".END") = true -> word_end x = false /\ upper_c x = y) as K.
  { intros x y Hx Hy. apply aeqb_eq in Hx. subst y. split; [|reflexivity]. apply negb_true_iff. revert x Hy. clear. apply (imp_sweep (fun x => mem_c (upper_c x) (s2l ".END")) (fun x => negb (word_end x))). vm_cast_no_check (eq_refl true). }
  destruct (K _ _ H1 eq_refl) as [W1 U1]. destruct (K _ _ H2 eq_refl) as [W2 U2]. destruct (K _ _ H3 eq_refl) as [W3 U3]. destruct (K _ _ H4 eq_refl) as [W4 U4].
  assert (c1 = "."%char) as ->. { apply aeqb_eq. clear - U1. assert (aeqb (upper_c c1) "." = true) as U by (apply aeqb_eq; exact U1). revert c1 U U1. intros c1 U _. revert c1 U. apply (imp_sweep (fun c => aeqb (upper_c c) ".") (fun c => aeqb c ".")). vm_cast_no_check (eq_refl true). }
  cbn [line_command] in E. change (is_blank ".") with false in E. change (valid_prefix (upper1 ".")) with false in E. change (aeqb "." "+") with false in E. change (mem_c "." (s2l "#;*") || is_nl ".") with false in E. change (aeqb "." ".") with true in E. cbv iota zeta in E. injection E as <-.
  cbn [take_word]. rewrite W2, W3, W4. unfold upper. cbn [map]. rewrite U2, U3, U4. eexists. reflexivity.
Qed.
Lemma shows_nonend : forall it n w m, shows it n w m -> stmt_ok good_names (top n) -> nonend it.
Proof.
  intros it [s o] w m H HO. cbn [top] in HO. destruct s as [x|x|c|x y z|x y z|x y].
  1,2,4,5,6: destruct (shows_other _ _ _ _ _ H) as (-> & _ & _); [discriminate|]; try exact I.
  - cbn [item_of nonend]. cbn [stmt_ok] in HO. destruct HO as (u & HW & _ & _ & _ & NE). destruct (startswith (s2l ".END") (upper (full x))) eqn:E; [|reflexivity]. exfalso. apply NE. apply (begins_end _ _ HW E).
  - destruct (shows_shown _ _ _ _ _ H) as (ob & e & _ & _ & [-> | [sh ->]] & _); exact I.
Qed.
Lemma shows_texts : (forall it n w m, shows it n w m -> texts it = (Some (body_text w), Some (body_text m))) /\
  (forall items l ws ms, shows_all items l ws ms -> concat_opt (map (fun i => fst (texts i)) items) = Some (body_text ws) /\ concat_opt (map (fun i => snd (texts i)) items) = Some (body_text ms) /\
     (Forall (fun nd => stmt_ok good_names (top nd)) l -> Forall nonend items)).
Proof.
  apply shows_both with (P := fun it n w m (_ : shows it n w m) => texts it = (Some (body_text w), Some (body_text m)))
    (P0 := fun items l ws ms (_ : shows_all items l ws ms) => concat_opt (map (fun i => fst (texts i)) items) = Some (body_text ws) /\ concat_opt (map (fun i => snd (texts i)) items) = Some (body_text ms) /\ (Forall (fun nd => stmt_ok good_names (top nd)) l -> Forall nonend items)).
  - intros it s w HS _. rewrite (shown_texts any _ _ _ HS). reflexivity.
  - intros o e c w n h items k ws ms HS HC HF HO HA (T1 & T2 & T3). pose proof (shown_texts any _ _ _ HS) as TT. cbn [texts] in TT |- *. injection TT as TT. rewrite TT.
    assert (write_items (copy_items h n items) = Some (body_text [Note mark_begin; Circuit h (ws ++ ms) (s2l ".ENDS " ++ n); Note mark_end])) as E; [|unfold write_items in E; rewrite E; reflexivity].
    unfold copy_items. change (IText mark1 :: IText (full h) :: items ++ [IPrim (full (s2l ".ENDS " ++ n)); IText mark2]) with ((IText mark1 :: IText (full h) :: items) ++ IPrim (full (s2l ".ENDS " ++ n)) :: [IText mark2]).
    rewrite (write_framed _ _ _ (mark1 ++ full h ++ body_text ws) mark2 (body_text ms)).
    + f_equal. rewrite strip_full. assert (strip (s2l ".ENDS " ++ n) = s2l ".ENDS " ++ n) as ->.
      { destruct HC as (kw & b & r & _ & _ & _ & _ & NN & HN & _). apply trimmed_strip0. destruct (names_trimmed n NN HN) as [_ (z & q & -> & Hz)]. split; [exists "."%char; eexists; split; reflexivity|]. exists z, (s2l ".ENDS " ++ q). split; [rewrite app_assoc; reflexivity|exact Hz]. }
      unfold body_text at 3, body_lines. cbn [map concat stmt_lines]. unfold body_text, body_lines, mark1, mark2, mark_begin, mark_end, full, NLs.
      rewrite map_app, !concat_app. cbn [concat]. rewrite !concat_app. cbn [concat]. rewrite <- ?app_assoc. rewrite ?app_nil_r. cbn [app concat]. rewrite <- ?app_assoc. rewrite ?concat_app. rewrite <- ?app_assoc. reflexivity.
    + constructor; [exact I|]. constructor; [exact I|]. apply T3. exact HO.
    + repeat constructor.
    + reflexivity.
    + cbn [map concat_opt texts fst]. rewrite T1. reflexivity.
    + cbn [map concat_opt texts fst]. rewrite app_nil_r. reflexivity.
    + rewrite map_app, concat_opt_app. cbn [map concat_opt texts snd]. rewrite T2. rewrite !app_nil_r. reflexivity.
  - split; [reflexivity|]. split; [reflexivity|]. intros _. constructor.
  - intros it n w m items l ws ms H1 T H2 (T1 & T2 & T3). cbn [map concat_opt]. rewrite T, T1, T2. cbn [fst snd]. rewrite !body_text_app. split; [reflexivity|]. split; [reflexivity|].
    intros HF. apply Forall_cons_iff in HF. destruct HF as [F1 F2]. constructor; [eapply shows_nonend; eassumption|apply T3; exact F2].
Qed.
(** what is written is what the nodes say *)
Lemma shows_kept : (forall it n w m, shows it n w m -> kept (top n) w /\ keeps (copies n) m) /\ (forall items l ws ms, shows_all items l ws ms -> keeps (map top l) ws /\ keeps (concat (map copies l)) ms).
Proof.
  assert (forall a ra b rb, keeps a ra -> keeps b rb -> keeps (a ++ b) (ra ++ rb)) as KA.
  { intros a ra b rb H HB. induction H as [|s w l r H1 H2 IH]; [exact HB|]. cbn [app]. rewrite <- app_assoc. constructor; assumption. }
  apply shows_both with (P := fun it n w m (_ : shows it n w m) => kept (top n) w /\ keeps (copies n) m) (P0 := fun items l ws ms (_ : shows_all items l ws ms) => keeps (map top l) ws /\ keeps (concat (map copies l)) ms).
  - intros it s w HS _. split; [apply K_stmt; eapply shown_saved; exact HS|constructor].
  - intros o e c w n h items k ws ms HS HC HF HO HA [T1 T2]. split; [apply K_stmt; eapply shown_saved; exact HS|]. cbn [copies].
    assert (forall x, kept (Note x) [Note x]) as KN by (intros x; apply K_stmt; apply V_other; [discriminate|constructor]).
    change [Note mark_begin; Circuit h (ws ++ ms) (s2l ".ENDS " ++ n); Note mark_end] with ([Note mark_begin] ++ [Circuit h (ws ++ ms) (s2l ".ENDS " ++ n)] ++ [Note mark_end] ++ []).
    apply K_cons; [apply KN|]. apply K_cons; [|apply K_cons; [apply KN|constructor]]. apply K_copy. apply KA; assumption.
  - split; constructor.
  - intros it n w m items l ws ms H1 [K1 K2] H2 [K3 K4]. cbn [map concat]. split; [constructor; assumption|apply KA; assumption].
Qed.

(** histories *)
Lemma split_app : forall a s, ~ In ":"%char a -> split_ref (a ++ ":"%char :: s) = a :: split_ref s.
Proof.
  induction a as [|c a IH]; intros s H; [reflexivity|]. cbn [app split_ref]. assert (aeqb c ":" = false) as -> by (apply aeqb_neq; intros ->; apply H; left; reflexivity). rewrite IH by (intros G; apply H; right; exact G). reflexivity.
Qed.
Lemma split_full : forall p r, Forall (fun x => ~ In ":"%char x) p -> ~ In ":"%char r -> ref_path (full_ref p r) = map upper p /\ ref_last (full_ref p r) = upper r.
Proof.
  intros p r HP HR. unfold ref_path, ref_last. assert (split_ref (upper (full_ref p r)) = map upper p ++ [upper r]) as ->.
  { induction HP as [|x p Hx HP IH]; cbn [full_ref map app]; [apply split_plain; apply upper_plain; exact HR|]. unfold upper in *. rewrite map_app. cbn [map]. change (upper_c ":") with ":"%char. rewrite split_app; [rewrite IH; reflexivity|]. apply (upper_plain x). exact Hx. }
  rewrite removelast_last, last_last. split; reflexivity.
Qed.
Lemma opens_plain : forall D p l k, opens D p l k -> Forall (fun x => ~ In ":"%char x) p.
Proof. intros D p l k H. induction H; [constructor|constructor; assumption|constructor; assumption]. Qed.
Theorem changes_run : forall en D, (forall v d, D v = Some d -> head_name (f_head d) = v) ->
  forall es l items ws ms log, shows_all items l ws ms -> changes_ok D es l ->
  (forall l', defs (map top l') = defs (map top l) -> forall its' ws' ms', shows_all its' l' ws' ms' -> chain_ok en D [its']) ->
  exists ed' ws' ms', api_changes en es {| n_items := items; n_log := log; n_perm := Inform |} = Some ed' /\ n_perm ed' = Inform /\ shows_all (n_items ed') (changes D es l) ws' ms' /\ n_log ed' = fold_left log1 (map as_logged (all_records D es l)) log.
Proof.
  intros en D HNm es. induction es as [|[p e] es IH]; intros l items ws ms log HS HO HCh.
  - eexists _, ws, ms. split; [reflexivity|]. split; [reflexivity|]. split; [exact HS|reflexivity].
  - destruct HO as [(k & HOp & HE & HDe) HO]. cbn [fst snd] in *. pose proof (HCh l eq_refl items ws ms HS) as HC0.
    destruct (change_run en D e HNm p l k HOp HE HDe items ws ms [] [] [] HS) as (items' & ws' & ms' & ER & SR & _); [constructor|constructor|cbn [app]; rewrite app_nil_r; exact HC0|].
    cbn [app] in ER. rewrite !app_nil_r in ER. destruct HE as (HR & _). destruct (split_full p (edit_ref e) (opens_plain _ _ _ _ HOp) HR) as [R1 R2].
    assert (api_change en (p, e) {| n_items := items; n_log := log; n_perm := Inform |} = Some {| n_items := items'; n_log := fold_left log1 (map as_logged (records D p e l)) log; n_perm := Inform |}) as EA.
    { destruct e as [r v|r kk w0|r kk]; cbn [api_change fst snd edit_ref op_of] in *; unfold set_component_value, set_component_parameter, run_edit; rewrite R1, R2; cbn [n_perm n_items n_log]; rewrite ER; reflexivity. }
    destruct (IH (change D p e l) items' ws' ms' (fold_left log1 (map as_logged (records D p e l)) log) SR HO) as (ed' & ws2 & ms2 & E2 & P2 & S2 & L2).
    { intros l' El' its' w1 m1 HS'. apply (HCh l' (eq_trans El' (change_defs D p e l)) its' w1 m1 HS'). }
    exists ed', ws2, ms2. split; [cbn [api_changes]; rewrite EA; exact E2|]. split; [exact P2|]. split; [exact S2|]. rewrite L2. cbn [all_records fst snd]. rewrite map_app, fold_left_app. reflexivity.
Qed.
(** statements other than components stay *)
Definition alike (a b : node) : Prop := top b = top a \/ exists c, top b = Part c.
Lemma change_alike : forall D p e l, Forall2 alike l (change D p e l).
Proof.
  intros D p e l. destruct (change_form D p e) as (ref & f & -> & F). assert (forall l, Forall2 alike l l) as R by (induction l0 as [|x l0 IH]; constructor; [left; reflexivity|exact IH]).
  induction l as [|[s o] l IH]; [constructor|]. cbn [on_node]. destruct s as [x|x|c|x y z|x y z|x y]; try (constructor; [left; reflexivity|exact IH]).
  destruct (str_eqb (designator c) (upper ref)); [|constructor; [left; reflexivity|exact IH]]. destruct (F c o) as (c' & o' & ->). constructor; [right; eexists; reflexivity|apply R].
Qed.
Lemma changes_alike : forall D es l, Forall2 alike l (changes D es l).
Proof.
  intros D es. induction es as [|[p e] es IH]; intros l.
  - cbn [changes fold_left]. induction l as [|x l IHl]; constructor; [left; reflexivity|exact IHl].
  - change (changes D ((p, e) :: es) l) with (changes D es (change D p e l)). pose proof (change_alike D p e l) as H1. pose proof (IH (change D p e l)) as H2. revert H2. generalize (changes D es (change D p e l)).
    induction H1 as [|a b la lb HA HB IHB]; intros lc H2; inversion H2 as [|x y lx ly HX HY]; subst; [constructor|]. constructor; [|apply IHB; exact HY].
    destruct HX as [HX|HX]; [|right; exact HX]. destruct HA as [HA|[c HA]]; [left; congruence|right; exists c; congruence].
Qed.
Lemma changes_tail : forall D es l r, (forall n, In n r -> forall c, top n <> Part c) -> changes D es (l ++ r) = changes D es l ++ r.
Proof. intros D es. induction es as [|[p e] es IH]; intros l r H; [reflexivity|]. change (changes D es (change D p e (l ++ r)) = changes D es (change D p e l) ++ r). rewrite change_tail by exact H. apply IH. exact H. Qed.
Lemma changes_length : forall D es l, length (changes D es l) = length l.
Proof. intros D es l. pose proof (changes_alike D es l) as H. induction H; cbn [length]; congruence. Qed.
Lemma changes_defs : forall D es l, defs (map top (changes D es l)) = defs (map top l).
Proof. intros D es. induction es as [|[p e] es IH]; intros l; [reflexivity|]. change (changes D ((p, e) :: es) l) with (changes D es (change D p e l)). rewrite IH. apply change_defs. Qed.
Lemma map_top_plain : forall l, map top (map plain l) = l.
Proof. intros l. rewrite map_map. apply map_id. Qed.

Lemma loaded_shows : forall d, doc_ok good_names d -> exists ws, shows_all (doc_items d) (map plain (statements d)) ws [].
Proof.
  intros d HD. pose proof (loaded_view any d HD) as V. unfold doc_items in *. 
  assert (Forall2 inst_kind (doc_items d) (statements d)) as K.
  { unfold doc_items, statements. apply Forall2_app; [|constructor; [exact I|]].
    - clear V. induction (d_body d) as [|s l IH]; [constructor|]. cbn [map]. constructor; [|exact IH]. destruct s as [x|x|c|x y z|x y z|x y]; try exact I. cbn [item_of inst_kind]. intros ->. exact I.
    - clear V. induction (d_after d) as [|s l IH]; [constructor|]. cbn [map]. constructor; [exact I|exact IH]. }
  unfold doc_items in K. revert V K. generalize (map item_of (d_body d) ++ IPrim (full (d_end d)) :: map (fun l => IText (full l)) (d_after d)). generalize (statements d). unfold view.
  induction l as [|s l IH]; intros items V K; cbn [map] in V; inversion V as [|it sw items' st H1 H2]; subst; [exists []; constructor|]. inversion K as [|a b c e K1 K2]; subst. destruct (IH _ H2 K2) as (ws & HS).
  exists (tidy_stmt s ++ ws). cbn [map]. change (@nil stmt) with (@nil stmt ++ []). constructor; [|exact HS]. constructor; [exact H1|exact K1].
Qed.
Theorem write_changed : forall d D es items ws ms, doc_ok good_names d -> begins (s2l ".END") (upper (d_end d)) ->
  shows_all items (changes D es (map plain (statements d))) ws ms ->
  exists out, write_items items = Some (concat (body_lines out)) /\ keeps (flat d (changes D es (map plain (statements d)))) out.
Proof.
  intros d D es items ws ms HD HE HS. set (tail := plain (Directive (d_end d)) :: map plain (map Note (d_after d))).
  assert (map plain (statements d) = map plain (d_body d) ++ tail) as ES by (unfold statements, tail; rewrite map_app; reflexivity).
  assert (forall n, In n tail -> forall c, top n <> Part c) as HT.
  { intros n [<-|Hn] c; [discriminate|]. rewrite map_map in Hn. apply in_map_iff in Hn. destruct Hn as (x & <- & _). discriminate. }
  rewrite ES, changes_tail in HS by exact HT. rewrite ES, changes_tail by exact HT. set (l1 := changes D es (map plain (d_body d))) in *.
  assert (length l1 = length (d_body d)) as L1 by (unfold l1; rewrite changes_length, map_length; reflexivity).
  destruct (shows_split _ _ _ _ _ HS) as (ia & ib & wa & wb & ma & mb & -> & -> & -> & LA & SA & SB).
  assert (Forall (fun nd => stmt_ok good_names (top nd)) l1) as HO1.
  { destruct HD as (HB & _). unfold body_ok in HB. apply all_Forall in HB. pose proof (changes_alike D es (map plain (d_body d))) as HAl. fold l1 in HAl. clearbody l1. clear - SA HAl HB. revert l1 ia wa ma SA HAl. induction HB as [|s b Hs HB IH]; intros l1 ia wa ma SA HAl; cbn [map] in HAl; inversion HAl as [|x y lx ly HX HY]; subst; [constructor|].
    inversion SA as [|it n w m items l ws ms S1 S2]; subst. constructor; [|eapply IH; eassumption]. destruct y as [ty oy]. cbn [top] in *. destruct HX as [HX|[c HX]]; cbn [top plain] in HX; subst ty; [exact Hs|].
    destruct (shows_shown _ _ _ _ _ S1) as (ob & e & HSh & _). exact (shown_part_ok _ _ _ HSh). }
  destruct (proj2 shows_texts _ _ _ _ SA) as (TA1 & TA2 & TA3). destruct (proj2 shows_texts _ _ _ _ SB) as (TB1 & TB2 & _).
  destruct (proj2 shows_kept _ _ _ _ SA) as (KA1 & KA2). destruct (proj2 shows_kept _ _ _ _ SB) as (KB1 & KB2).
  unfold tail in SB. inversion SB as [|it n w m ib' l ws' ms' S1 S2]; subst. destruct (shows_other _ _ _ _ _ S1) as (-> & _ & _); [discriminate|].
  assert (shown any (item_of (Directive (d_end d))) (Directive (d_end d)) w /\ m = []) as [Sh ->] by (inversion S1; subst; split; [assumption|reflexivity]).
  destruct (shown_plain any _ _ _ Sh) as (_ & _ & ->); [discriminate|].
  assert (Forall nonend ib' /\ ms' = []) as [NB ->].
  { clear - S2. remember (map plain (map Note (d_after d))) as lt eqn:El. revert El. generalize (d_after d). induction S2 as [|it n w m items l ws ms H1 H2 IH]; intros ls El; [split; [constructor|reflexivity]|]. destruct ls as [|x ls]; [discriminate El|]. cbn [map] in El. injection El as -> El.
    destruct (IH ls El) as [N1 ->]. destruct (shows_other _ _ _ _ _ H1) as (-> & _ & _); [discriminate|]. split; [constructor; [exact I|exact N1]|]. inversion H1; subst. reflexivity. }
  assert (keeps (flat d (l1 ++ tail)) (wa ++ (ma ++ []) ++ tidy_stmt (Directive (d_end d)) ++ ws')) as KF.
  { assert (forall a ra b rb, keeps a ra -> keeps b rb -> keeps (a ++ b) (ra ++ rb)) as KA.
    { intros a ra b rb H HB. induction H as [|s w l0 r H1 H2 IH]; [exact HB|]. cbn [app]. rewrite <- app_assoc. constructor; assumption. }
    unfold flat. rewrite <- L1, firstn_app, firstn_all, Nat.sub_diag, skipn_app, skipn_all, Nat.sub_diag. cbn [firstn skipn app]. rewrite app_nil_r. apply KA; [exact KA1|]. apply KA; [|exact KB1]. rewrite map_app, concat_app. apply KA; [exact KA2|exact KB2]. }
  eexists. split; [|exact KF].
  cbn [map concat_opt item_of texts fst] in TB1. change (ia ++ item_of (Directive (d_end d)) :: ib') with (ia ++ IPrim (full (d_end d)) :: ib').
  destruct (concat_opt (map (fun i => fst (texts i)) ib')) as [tb|] eqn:ETB; [|discriminate TB1]. injection TB1 as TB1.
  rewrite (write_framed ia (full (d_end d)) ib' (body_text wa) tb (body_text (ma ++ []))).
  - fold (body_text (wa ++ (ma ++ []) ++ tidy_stmt (Directive (d_end d)) ++ ws')). rewrite !body_text_app. change (Directive (strip (d_end d)) :: ws') with (tidy_stmt (Directive (d_end d)) ++ ws') in TB1. rewrite body_text_app in TB1. rewrite <- TB1. rewrite <- ?app_assoc. reflexivity.
  - apply TA3. exact HO1.
  - exact NB.
  - apply begins_iff. destruct HE as [r HE]. exists (r ++ [NL]). unfold full, upper in *. rewrite map_app, HE. rewrite <- app_assoc. reflexivity.
  - exact TA1.
  - exact ETB.
  - rewrite map_app, concat_opt_app. rewrite TA2. match goal with |- match ?x with _ => _ end = _ => replace x with (Some (body_text [])) by (symmetry; exact TB2) end. rewrite body_text_app. reflexivity.
Qed.
