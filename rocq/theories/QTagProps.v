(** The tags of a QSPICE schematic: C45, C46, C93. *)
From Coq Require Import String Ascii List Bool Arith ZArith Lia.
From Verif Require Import PyStr EngModel StepsModel QTagModel QTagSpec QTagProofs.
Import ListNotations.
Local Open Scope string_scope. Local Open Scope nat_scope. Local Open Scope list_scope.

(** C45: a tree of tags that is written to text and parsed again comes back, whatever follows it in the text; and so does the
    schematic that is saved to a file and read again. *)
Theorem C45_text_round_trip : forall t rest, proper t -> exists rest', parse (out 0 t ++ rest) = Some (t, rest').
Proof. intros t rest H. eexists. apply parse_out. exact H. Qed.
Theorem C45_file_round_trip : forall t, proper t -> ~ in_tag CR t -> read_file (file_text t) = Some t.
Proof. exact file_round. Qed.
Print Assumptions C45_text_round_trip.
Print Assumptions C45_file_round_trip.

Definition ex_text : tag :=
  Tag [s2l "text"; s2l "(-800,-650)"; s2l "1"; s2l "77"; s2l "0"; s2l "0x1000000"; s2l "-1"; s2l "-1"; DQ :: LT :: s2l "a b:c" ++ [GT; LF] ++ s2l ".tran 5m" ++ [DQ]] [].
Definition ex_tree : tag :=
  Tag [s2l "schematic"]
    [Tag [s2l "component"; s2l "(100,-200)"; s2l "0"; s2l "0"]
       [Tag [s2l "symbol"; s2l "V"] [Tag [s2l "description:"; s2l "Independent Voltage Source, DC"] []; ex_text]];
     ex_text].
Example C45_nonvacuous : proper ex_tree /\ ~ in_tag CR ex_tree /\ read_file (file_text ex_tree) = Some ex_tree.
Proof.
  assert (W : forall s, s <> [] -> forallb (fun c => negb (is_space c) && negb (aeqb c DQ) && negb (aeqb c LT) && negb (aeqb c GT)) s = true -> token s).
  { intros s NE H. left. split; [exact NE|]. intros c HC. rewrite forallb_forall in H. specialize (H c HC). apply andb_true_iff in H. destruct H as (H & A). apply andb_true_iff in H. destruct H as (H & B). apply andb_true_iff in H. destruct H as (H & C).
    apply negb_true_iff in H, A, B, C. apply aeqb_neq in A, B, C. auto. }
  assert (Q : forall s, ~ In DQ s -> token (DQ :: s ++ [DQ])) by (intros s H; right; exists s; split; [reflexivity|exact H]).
  assert (N : forall s, (at_colon s = None) -> no_colon s).
  { intros s H a b E. subst s. revert H. induction a as [|c a IH]; [discriminate|]. cbn [app at_colon]. intros H. destruct (aeqb c COLON && _); [discriminate|]. destruct (at_colon (a ++ _)) as [[? ?]|]; [discriminate|]. apply IH. reflexivity. }
  assert (L : forall s, forallb (fun c => negb (aeqb c DQ) && negb (aeqb c LT) && negb (aeqb c GT) && negb (aeqb c LF)) s = true -> label_text s).
  { intros s H c HC. rewrite forallb_forall in H. specialize (H c HC). apply andb_true_iff in H. destruct H as (H & A). apply andb_true_iff in H. destruct H as (H & B). apply andb_true_iff in H. destruct H as (H & C).
    apply negb_true_iff in H, A, B, C. apply aeqb_neq in H, A, B, C. auto. }
  assert (PT : proper ex_text).
  { unfold ex_text. apply P_leaf.
    - repeat (apply Forall_cons; [first [apply W; [discriminate|reflexivity]|apply (Q (LT :: s2l "a b:c" ++ [GT; LF] ++ s2l ".tran 5m")); vm_compute; intuition discriminate]|]). apply Forall_nil.
    - repeat (apply Forall_cons; [apply N; reflexivity|]). apply Forall_nil.
    - intros a x b E. assert (NL : forall y, In y (toks ex_text) -> last y BLANK <> COLON) by (apply Forall_forall; repeat (apply Forall_cons; [vm_compute; discriminate|]); apply Forall_nil).
      exfalso. apply (NL (x ++ [COLON])); [unfold ex_text, toks; rewrite E; apply in_or_app; right; left; reflexivity|]. apply last_last. }
  split; [|split; [|vm_compute; reflexivity]].
  - unfold ex_tree. apply P_node; [discriminate|apply Forall_cons; [apply W; [discriminate|reflexivity]|apply Forall_nil]|]. apply Forall_cons; [|apply Forall_cons; [exact PT|apply Forall_nil]].
    apply P_node; [discriminate|repeat (apply Forall_cons; [apply W; [discriminate|reflexivity]|]); apply Forall_nil|]. apply Forall_cons; [|apply Forall_nil].
    apply P_node; [discriminate|repeat (apply Forall_cons; [apply W; [discriminate|reflexivity]|]); apply Forall_nil|]. apply Forall_cons; [|apply Forall_cons; [exact PT|apply Forall_nil]].
    change (s2l "description:") with (s2l "description" ++ [COLON]). apply P_label; [apply L; reflexivity|apply L; reflexivity|apply N; reflexivity|apply N; reflexivity].
  - assert (G : forall t, forallb (fun a => forallb (fun c => negb (aeqb c CR)) a) (toks t) = true -> (forall k, In k (kids t) -> ~ in_tag CR k) -> ~ in_tag CR t).
    { intros t H K I. inversion I as [ts items a A B|ts items k A B]; subst.
      - cbn [toks] in H. rewrite forallb_forall in H. specialize (H a A). rewrite forallb_forall in H. specialize (H CR B). discriminate.
      - exact (K k A B). }
    assert (GT' : ~ in_tag CR ex_text) by (apply G; [reflexivity|intros k []]).
    unfold ex_tree. apply G; [reflexivity|]. intros k [<-|[<-|[]]]; [|exact GT']. apply G; [reflexivity|]. intros k [<-|[]]. apply G; [reflexivity|]. intros k [<-|[<-|[]]]; [|exact GT']. apply G; [reflexivity|intros k []].
Qed.

(** C46: get_attr after set_attr gives the value back (an integer, a text that does not begin with "0x", a pair of coordinates); the other
    attributes and the children are unchanged; setting fails only where there is no such attribute.  A text "0x..." is written as a number. *)
Definition settable_value (v : attr) : Prop :=
  match v with AInt _ => True | AText s => startswith (s2l "0x") s = false | APair l => length l = 2 | AFloat _ => False end.
Theorem C46_get_after_set : forall t i v, settable_value v ->
  match set_attr i v t with
  | None => length (toks t) <= i
  | Some t' => get_attr i t' = Some v /\ (forall j, j <> i -> get_attr j t' = get_attr j t) /\ kids t' = kids t /\ length (toks t') = length (toks t)
  end.
Proof.
  intros t i v HV. unfold set_attr.
  assert (EW : exists x, write_token v = Some x /\ read_token x = Some v).
  { destruct v as [n|s|l|s]; cbn in HV; [|..|contradiction].
    - eexists; split; [reflexivity|apply read_int].
    - cbn [write_token]. rewrite HV. eexists; split; [reflexivity|apply read_quoted].
    - destruct l as [|x [|y [|z l]]]; try discriminate. eexists; split; [reflexivity|apply read_pair]. }
  destruct EW as (x & -> & ER). destruct (set_nth i x (toks t)) as [l|] eqn:E; cbn [option_map].
  - destruct (set_nth_spec _ _ _ _ E) as (A & B & C). unfold get_attr. cbn [toks kids]. rewrite A. split; [exact ER|]. split; [|split; [reflexivity|exact C]]. intros j N. rewrite (B j N). reflexivity.
  - unfold set_nth in E. destruct (i <? length (toks t)) eqn:L; [discriminate|]. apply Nat.ltb_ge in L. exact L.
Qed.
Print Assumptions C46_get_after_set.
Theorem C46_hexadecimal : forall t i s n t', set_attr i (AText (s2l "0x" ++ s)) t = Some t' -> py_hex s = Some n -> get_attr i t' = Some (AInt n).
Proof.
  intros t i s n t' H HN. unfold set_attr in H. cbn [write_token] in H. assert (startswith (s2l "0x") (s2l "0x" ++ s) = true) as E by reflexivity. rewrite E in H.
  destruct (set_nth i _ (toks t)) as [l|] eqn:EL; [|discriminate]. injection H as <-. destruct (set_nth_spec _ _ _ _ EL) as (A & _). unfold get_attr. cbn [toks]. rewrite A.
  unfold read_token. assert (startswith (s2l "(") (s2l "0x" ++ s) = false) as -> by reflexivity. rewrite E. cbn [andb]. change (skipn 2 (s2l "0x" ++ s)) with s. rewrite HN. reflexivity.
Qed.
Print Assumptions C46_hexadecimal.
Example C46_nonvacuous :
  option_map (get_attr 2) (set_attr 2 (AInt (-45)) ex_text) = Some (Some (AInt (-45))) /\
  option_map (get_attr 1) (set_attr 1 (APair [120; -7]%Z) ex_text) = Some (Some (APair [120; -7]%Z)) /\
  option_map (get_attr 8) (set_attr 8 (AText (s2l "a (b) 5")) ex_text) = Some (Some (AText (s2l "a (b) 5"))) /\
  get_attr 5 ex_text = Some (AInt 16777216) /\ set_attr 9 (AInt 1) ex_text = None.
Proof. vm_compute. repeat split. Qed.

(** C93 (refuted): a text with ": " in it.  Once saved and read again, a text tag whose text contains ": " once is no text tag any more (its first
    token is not "text", it has two tokens), so that a directive is not found in the schematic and a component has a text less;
    with ": " twice, the file cannot be read. *)
Definition text_tag (ws : list str) (s : str) : tag := Tag (s2l "text" :: ws ++ [DQ :: s ++ [DQ]]) [].
Lemma no_colon_end : forall a, ~ In COLON a -> no_colon (a ++ [COLON]).
Proof.
  induction a as [|c a IH]; intros N x y E.
  - destruct x as [|d [|e x]]; discriminate.
  - destruct x as [|d x]; injection E as E1 E2; [subst c; apply N; left; reflexivity|]. apply (IH (fun K => N (or_intror K)) x y E2).
Qed.
Lemma no_colon_free : forall a, ~ In COLON a -> no_colon a.
Proof. intros a N x y ->. apply N, in_or_app. right. left. reflexivity. Qed.
Lemma join_last : forall ts x, ts <> [] -> join_blank (ts ++ [x]) = join_blank ts ++ BLANK :: x.
Proof.
  induction ts as [|a ts IH]; intros x NE; [contradiction|]. destruct ts as [|b ts]; [reflexivity|]. change (a ++ BLANK :: join_blank ((b :: ts) ++ [x]) = (a ++ BLANK :: join_blank (b :: ts)) ++ BLANK :: x). rewrite IH by discriminate. rewrite <- app_assoc. reflexivity.
Qed.
Lemma text_token : token (s2l "text").
Proof. left. split; [discriminate|]. apply Forall_forall. change (s2l "text") with ["t"; "e"; "x"; "t"]%char. repeat (apply Forall_cons; [repeat split; discriminate|]). apply Forall_nil. Qed.
Lemma no_cr_out : forall t, ~ in_tag CR t -> ~ In CR (out 0 t).
Proof. intros t N K. apply N. apply (in_out CR t 0); try discriminate. exact K. Qed.
Lemma text_tokens : forall ws s, Forall word_token ws -> ~ In DQ s -> Forall token (s2l "text" :: ws ++ [DQ :: s ++ [DQ]]).
Proof.
  intros ws s HW HS. apply Forall_cons; [exact text_token|]. apply Forall_app. split; [eapply Forall_impl; [|exact HW]; intros a Ha; left; exact Ha|].
  apply Forall_cons; [right; exists s; split; [reflexivity|exact HS]|apply Forall_nil].
Qed.
Lemma text_line : forall ws s, join_blank (s2l "text" :: ws ++ [DQ :: s ++ [DQ]]) = (join_blank (s2l "text" :: ws) ++ [BLANK; DQ]) ++ s ++ [DQ].
Proof. intros ws s. change (s2l "text" :: ws ++ [DQ :: s ++ [DQ]]) with ((s2l "text" :: ws) ++ [DQ :: s ++ [DQ]]). rewrite join_last by discriminate. rewrite <- app_assoc. reflexivity. Qed.
Lemma line_free : forall ws, Forall word_token ws -> (forall w, In w ws -> ~ In COLON w) -> ~ In COLON (join_blank (s2l "text" :: ws) ++ [BLANK; DQ]).
Proof.
  intros ws HW HC K. apply in_app_or in K. destruct K as [K|[K|[K|[]]]]; [|discriminate|discriminate]. destruct (in_join COLON _ K) as [E|(a & [<-|A] & B)]; [discriminate| |exact (HC a A B)].
  revert B. vm_compute. intuition discriminate.
Qed.

Theorem C93_colon_in_text_refuted : forall hd pre post ws a b,
  Forall token hd -> Forall proper pre -> Forall proper post -> Forall word_token ws -> (forall w, In w ws -> ~ In COLON w) ->
  ~ In COLON a -> ~ In COLON b -> ~ In DQ a -> ~ In DQ b ->
  let t := text_tag ws (a ++ s2l ": " ++ b) in
  ~ in_tag CR (Tag hd (pre ++ t :: post)) ->
  exists x y, read_file (file_text (Tag hd (pre ++ t :: post))) = Some (Tag hd (pre ++ Tag [x; y] [] :: post)) /\ x <> s2l "text".
Proof.
  intros hd pre post ws a b HH HP HQ HW HC CA CB DA DB t NC.
  set (A := (join_blank (s2l "text" :: ws) ++ [BLANK; DQ]) ++ a).
  assert (NA : ~ In COLON A) by (unfold A; intros K; apply in_app_or in K; destruct K as [K|K]; [exact (line_free ws HW HC K)|exact (CA K)]).
  exists (A ++ [COLON]), (b ++ [DQ]). split.
  - apply read_tree; [apply no_cr_out; exact NC|]. intros fuel rest HF. cbn [option_map].
    assert (FT : Forall token (s2l "text" :: ws ++ [DQ :: (a ++ s2l ": " ++ b) ++ [DQ]])).
    { apply text_tokens; [exact HW|]. intros K. apply in_app_or in K. destruct K as [K|K]; [exact (DA K)|]. apply in_app_or in K. destruct K as [K|K]; [revert K; vm_compute; intuition discriminate|exact (DB K)]. }
    apply parse_node; [destruct pre; discriminate|exact HH| |exact HF]. apply Forall2_app; [apply proper_children; exact HP|]. constructor; [|apply proper_children; exact HQ].
    intros fu re Hf. unfold t, text_tag in *. rewrite leaf_line by assumption. rewrite text_line.
    assert (E : (join_blank (s2l "text" :: ws) ++ [BLANK; DQ]) ++ (a ++ s2l ": " ++ b) ++ [DQ] = A ++ COLON :: BLANK :: (b ++ [DQ])).
    { unfold A. rewrite <- !app_assoc. reflexivity. }
    rewrite E. unfold last_tokens. rewrite at_colon_some by (apply no_colon_end; exact NA). rewrite at_colon_none; [reflexivity|]. apply no_colon_free. intros K. apply in_app_or in K. destruct K as [K|[K|[]]]; [exact (CB K)|discriminate].
  - intros E. assert (NB : ~ In BLANK (s2l "text")) by (vm_compute; intuition discriminate). apply NB. rewrite <- E. unfold A. apply in_or_app. left. apply in_or_app. left. apply in_or_app. right. left. reflexivity.
Qed.
Theorem C93_two_colons_refuted : forall hd pre post ws a b c,
  Forall token hd -> Forall proper pre -> Forall proper post -> Forall word_token ws -> (forall w, In w ws -> ~ In COLON w) ->
  ~ In COLON a -> ~ In COLON b -> ~ In DQ a -> ~ In DQ b -> ~ In DQ c ->
  let t := text_tag ws (a ++ s2l ": " ++ b ++ s2l ": " ++ c) in
  ~ in_tag CR (Tag hd (pre ++ t :: post)) ->
  read_file (file_text (Tag hd (pre ++ t :: post))) = None.
Proof.
  intros hd pre post ws a b c HH HP HQ HW HC CA CB DA DB DC t NC.
  set (A := (join_blank (s2l "text" :: ws) ++ [BLANK; DQ]) ++ a).
  assert (NA : ~ In COLON A) by (unfold A; intros K; apply in_app_or in K; destruct K as [K|K]; [exact (line_free ws HW HC K)|exact (CA K)]).
  apply read_tree; [apply no_cr_out; exact NC|]. intros fuel rest HF. cbn [option_map].
  apply parse_bad_node with (pre' := pre); [exact HH|apply proper_children; exact HP| |exact HF].
  intros fu re. unfold t, text_tag. apply leaf_line_none.
  - apply text_tokens; [exact HW|]. intros K. apply in_app_or in K. destruct K as [K|K]; [exact (DA K)|]. apply in_app_or in K. destruct K as [K|K]; [revert K; vm_compute; intuition discriminate|].
    apply in_app_or in K. destruct K as [K|K]; [exact (DB K)|]. apply in_app_or in K. destruct K as [K|K]; [revert K; vm_compute; intuition discriminate|exact (DC K)].
  - rewrite text_line.
    assert (E : (join_blank (s2l "text" :: ws) ++ [BLANK; DQ]) ++ (a ++ s2l ": " ++ b ++ s2l ": " ++ c) ++ [DQ] = A ++ COLON :: BLANK :: (b ++ COLON :: BLANK :: (c ++ [DQ]))).
    { unfold A. rewrite <- !app_assoc. reflexivity. }
    rewrite E. unfold last_tokens. rewrite at_colon_some by (apply no_colon_end; exact NA). rewrite at_colon_some by (apply no_colon_end; exact CB). reflexivity.
Qed.
Print Assumptions C93_colon_in_text_refuted.
Print Assumptions C93_two_colons_refuted.
Definition ex_words : list str := [s2l "(0,0)"; s2l "1"; s2l "0"; s2l "0"; s2l "0x1000000"; s2l "-1"; s2l "-1"].
Example C93_nonvacuous :
  read_file (file_text (Tag [s2l "schematic"] [text_tag ex_words (s2l "Note: .tran 1")])) =
    Some (Tag [s2l "schematic"] [Tag [s2l "text (0,0) 1 0 0 0x1000000 -1 -1 ""Note:"; s2l ".tran 1"""] []]) /\
  read_file (file_text (Tag [s2l "schematic"] [text_tag ex_words (s2l "Note: see: below")])) = None.
Proof. vm_compute. split; reflexivity. Qed.
