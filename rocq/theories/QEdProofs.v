(** Proofs about the editor of QSPICE schematics (C47). *)
From Coq Require Import String Ascii List Bool Arith ZArith Lia.
From Verif Require Import PyStr EngModel StepsModel StepsProofs Regex UpdatesModel ParModel QTagModel QTagSpec QTagProofs QEdModel QEdSpec.
Import ListNotations.
Local Open Scope string_scope. Local Open Scope nat_scope. Local Open Scope list_scope.

(** ** Reading the schematic that was written *)
Fixpoint comps_at (k : nat) (l : list tag) : option (list (str * comp)) :=
  match l with
  | [] => Some []
  | t :: r => if head_is COMPONENT t
              then match ref_value t, comps_at (S k) r with Some (a, v), Some d => Some ((a, Comp k v) :: d) | _, _ => None end
              else comps_at (S k) r
  end.
Lemma dset_new : forall W k (v : W) d, ~ In k (map fst d) -> dset k v d = d ++ [(k, v)].
Proof.
  intros W k v d. induction d as [|[a b] d IH]; intros H; [reflexivity|]. cbn [dset]. destruct (str_eqb a k) eqn:E.
  - apply str_eqb_eq in E. subst. exfalso. apply H. left. reflexivity.
  - cbn [app]. rewrite IH; [reflexivity|]. intros K. apply H. right. exact K.
Qed.
Lemma load_comps_at : forall l k d ds, comps_at k l = Some ds -> NoDup (map fst (d ++ ds)) -> load_comps k l d = Some (d ++ ds).
Proof.
  induction l as [|t l IH]; intros k d ds H N; cbn [comps_at load_comps] in *.
  - injection H as <-. rewrite app_nil_r. reflexivity.
  - destruct (head_is COMPONENT t).
    + destruct (ref_value t) as [[a v]|]; [|discriminate]. destruct (comps_at (S k) l) as [d'|] eqn:E; [|discriminate]. injection H as <-.
      assert (EA : d ++ (a, Comp k v) :: d' = (d ++ [(a, Comp k v)]) ++ d') by (rewrite <- app_assoc; reflexivity). rewrite dset_new.
      * rewrite EA in *. exact (IH (S k) _ _ E N).
      * rewrite map_app in N. cbn [map fst] in N. apply NoDup_remove_2 in N. intros K. apply N. apply in_or_app. left. exact K.
    + exact (IH (S k) d ds H N).
Qed.
Definition same_comp (sa sb : nat -> tag) (a b : str * comp) : Prop := fst a = fst b /\ c_value (snd a) = c_value (snd b) /\ sa (c_tag (snd a)) = sb (c_tag (snd b)).
Lemma comps_at_list : forall store items ds, comp_list store items = Some ds -> forall k (st2 : nat -> tag), (forall j, j < length items -> st2 (k + j) = nth j (map store items) (Tag [] [])) ->
  exists ds', comps_at k (map store items) = Some ds' /\ Forall2 (same_comp store st2) ds ds'.
Proof.
  intros store. induction items as [|i items IH]; intros ds H k st2 HS; cbn [comp_list map comps_at] in *.
  - injection H as <-. exists []. split; [reflexivity|constructor].
  - assert (HS' : forall j, j < length items -> st2 (S k + j) = nth j (map store items) (Tag [] [])).
    { intros j Hj. specialize (HS (S j)). cbn [length nth] in HS. rewrite <- HS by lia. f_equal. lia. }
    change (s2l "component") with COMPONENT in H. destruct (head_is COMPONENT (store i)).
    + destruct (ref_value (store i)) as [[a v]|]; [|discriminate]. destruct (comp_list store items) as [d|]; [|discriminate]. injection H as <-.
      destruct (IH d eq_refl (S k) st2 HS') as (ds' & -> & F). exists ((a, Comp k v) :: ds'). split; [reflexivity|]. constructor; [|exact F].
      split; [reflexivity|]. split; [reflexivity|]. cbn [snd c_tag]. specialize (HS 0). cbn in HS. rewrite Nat.add_0_r in HS. symmetry. apply HS. lia.
    + exact (IH ds H (S k) st2 HS').
Qed.
Lemma same_fst : forall sa sb a b, Forall2 (same_comp sa sb) a b -> map fst a = map fst b.
Proof. induction 1 as [|x y a b (E & _) _ IH]; [reflexivity|]. cbn. rewrite E, IH. reflexivity. Qed.
Lemma map_nth_seq : forall (l : list tag) d, map (fun i => nth i l d) (seq 0 (length l)) = l.
Proof.
  intros l d. assert (G : forall (a b : list tag), map (fun i => nth i (a ++ b) d) (seq (length a) (length b)) = b).
  { intros a b. revert a. induction b as [|x b IH]; intros a; [reflexivity|]. cbn [length seq map]. rewrite app_nth2, Nat.sub_diag by lia. cbn [nth]. f_equal.
    specialize (IH (a ++ [x])). rewrite app_length, Nat.add_1_r, <- app_assoc in IH. exact IH. }
  exact (G [] l).
Qed.
Lemma find_text_same : forall sa sb test la lb, map sa la = map sb lb ->
  match find_text sa test la, find_text sb test lb with
  | None, None => True
  | Some None, Some None => True
  | Some (Some (i, s)), Some (Some (j, s')) => s = s' /\ sa i = sb j
  | _, _ => False
  end.
Proof.
  intros sa sb test. induction la as [|i la IH]; intros [|j lb] E; try discriminate; [exact I|]. cbn [map] in E. injection E as E1 E2. specialize (IH lb E2). cbn [find_text]. rewrite E1.
  destruct (head_is TEXT (sb j)); [|exact IH]. destruct (comment_of (sb j)) as [[]|]; [exact IH| |exact I]. destruct (text_of (sb j)) as [s|]; [|exact I]. destruct (test s) as [[]|]; [split; [reflexivity|exact E1]|exact IH|exact I].
Qed.
Lemma directives_same : forall sa sb la lb, map sa la = map sb lb -> directives sa la = directives sb lb.
Proof.
  intros sa sb. induction la as [|i la IH]; intros [|j lb] E; try discriminate; [reflexivity|]. cbn [map] in E. injection E as E1 E2. specialize (IH lb E2). cbn [directives]. rewrite E1, IH. reflexivity.
Qed.
Lemma elements_same : forall sa sb a b, Forall2 (same_comp sa sb) a b -> elements sa a = elements sb b.
Proof.
  induction 1 as [|[r c] [r' c'] a b (E1 & _ & E3) _ IH]; [reflexivity|]. cbn [fst snd] in *. subst r'. cbn [elements]. rewrite IH. unfold element. rewrite E3. reflexivity.
Qed.
Lemma values_same : forall sa sb a b ref, Forall2 (same_comp sa sb) a b -> option_map c_value (dget ref a) = option_map c_value (dget ref b).
Proof.
  unfold dget. induction 1 as [|[r c] [r' c'] a b (E1 & E2 & _) _ IH]; [reflexivity|]. cbn [fst snd] in *. subst r'. cbn [find fst]. destruct (str_eqb r ref); [cbn; rewrite E2; reflexivity|exact IH].
Qed.
Lemma reload : forall ed path, sound ed -> exists ed2, load path (tree ed) = Some ed2 /\ same_answers ed ed2 /\ sound ed2 /\ tree ed2 = tree ed.
Proof.
  intros ed path (HC & HN & HI & HB). set (l := map (q_store ed) (q_items ed)).
  set (st2 := fun i => nth i l (Tag [] [])).
  destruct (comps_at_list _ _ _ HC 0 st2) as (ds & HD & HF); [intros; reflexivity|].
  assert (HL : load_comps 0 l [] = Some ds).
  { apply (load_comps_at l 0 [] ds HD). cbn [app]. rewrite <- (same_fst _ _ _ _ HF). exact HN. }
  unfold load, tree. cbn [kids toks]. fold l. rewrite HL. cbn [option_map]. eexists. split; [reflexivity|].
  assert (EM : map (q_store ed) (q_items ed) = map st2 (seq 0 (length l))) by (unfold st2; rewrite map_nth_seq; reflexivity).
  split; [|split].
  - split; [exact (same_fst _ _ _ _ HF)|]. split; [|split; [|split]].
    + intros ref. unfold get_component_value, get_component. cbn [q_comps]. destruct (mem_c COLON ref); [reflexivity|]. exact (values_same _ _ _ _ ref HF).
    + intros n. unfold get_parameter, get_param_named. cbn [q_store q_items]. pose proof (find_text_same _ _ (sets_param n) _ _ EM) as K. fold st2.
      destruct (find_text (q_store ed) (sets_param n) (q_items ed)) as [[[i s]|]|], (find_text st2 (sets_param n) (seq 0 (length l))) as [[[j s']|]|]; try contradiction; try reflexivity. destruct K as (<- & _). reflexivity.
    + exact (elements_same _ _ _ _ HF).
    + exact (directives_same _ _ _ _ EM).
  - split; [|split; [|split]]; cbn [q_store q_items q_comps q_next].
    + fold st2. clear HF HL. assert (G : forall m k d, comps_at k m = Some d -> (forall j, j < length m -> st2 (k + j) = nth j m (Tag [] [])) -> comp_list st2 (seq k (length m)) = Some d).
      { induction m as [|t m IH]; intros k d H HS; cbn [comps_at length seq comp_list] in *; [exact H|].
        assert (E0 : st2 k = t) by (specialize (HS 0); cbn in HS; rewrite Nat.add_0_r in HS; apply HS; lia). rewrite E0.
        assert (HS' : forall j, j < length m -> st2 (S k + j) = nth j m (Tag [] [])).
        { intros j Hj. specialize (HS (S j)). cbn [length nth] in HS. rewrite <- HS by lia. f_equal. lia. }
        change (s2l "component") with COMPONENT. destruct (head_is COMPONENT t); [|exact (IH (S k) d H HS')].
        destruct (ref_value t) as [[a v]|]; [|discriminate]. destruct (comps_at (S k) m) as [d'|] eqn:E; [|discriminate]. injection H as <-. rewrite (IH (S k) d' E HS'). reflexivity. }
      apply G; [exact HD|]. intros; reflexivity.
    + rewrite <- (same_fst _ _ _ _ HF). exact HN.
    + apply seq_NoDup.
    + intros i Hi. apply in_seq in Hi. lia.
  - cbn [q_head q_store q_items]. f_equal. unfold l. apply map_nth_seq.
Qed.

(** ** What is written can be read *)
Lemma word_ok : forall s, s <> [] -> forallb (fun c => negb (is_space c) && negb (aeqb c DQ) && negb (aeqb c LT) && negb (aeqb c GT)) s = true -> word_token s.
Proof.
  intros s NE H. split; [exact NE|]. intros c HC. rewrite forallb_forall in H. specialize (H c HC). apply andb_true_iff in H. destruct H as (H & A). apply andb_true_iff in H. destruct H as (H & B). apply andb_true_iff in H. destruct H as (H & C).
  apply negb_true_iff in H, A, B, C. apply aeqb_neq in A, B, C. auto.
Qed.
Lemma schematic_leaf : forall ts, ts = [s2l "schematic"] -> proper (Tag ts []).
Proof.
  intros ts ->. apply P_leaf.
  - constructor; [left; apply word_ok; [discriminate|reflexivity]|constructor].
  - constructor; [|constructor]. intros a b E. assert (K : In COLON (s2l "schematic")) by (rewrite E; apply in_or_app; right; left; reflexivity). revert K. vm_compute. intuition discriminate.
  - intros a x b E. destruct a as [|y a]; [|destruct a; discriminate]. injection E as _ E. symmetry. exact E.
Qed.
Lemma writable_proper : forall ed, writable ed -> proper (tree ed) /\ ~ in_tag CR (tree ed).
Proof.
  intros ed (HH & HF). unfold tree. split.
  - destruct (q_items ed) as [|i l] eqn:E; [apply schematic_leaf; exact HH|]. apply P_node; [discriminate| |].
    + rewrite HH. constructor; [left; apply word_ok; [discriminate|reflexivity]|constructor].
    + apply Forall_map. eapply Forall_impl; [|exact HF]. cbv beta. tauto.
  - intros K. inversion K as [ts items a A B|ts items t A B]; subst.
    + rewrite HH in A. destruct A as [<-|[]]. revert B. vm_compute. intuition discriminate.
    + apply in_map_iff in A. destruct A as (i & <- & A). exact (proj2 (proj1 (Forall_forall _ _) HF i A) B).
Qed.
Lemma writable_file : forall ed, writable ed -> read_file (file_text (tree ed)) = Some (tree ed).
Proof. intros ed H. destruct (writable_proper ed H). apply file_round; assumption. Qed.

(** ** Changing a tag *)
Lemma on_item_split : forall item f l n l', on_item item n f l = Some l' ->
  exists a t b t', l = a ++ t :: b /\ l' = a ++ t' :: b /\ f t = Some t' /\ head_is item t = true /\ length (filter (head_is item) a) = n.
Proof.
  intros item f. induction l as [|x l IH]; intros n l' H; [discriminate|]. cbn [on_item] in H. destruct (head_is item x) eqn:E.
  - destruct n as [|n].
    + destruct (f x) as [x'|] eqn:F; [|discriminate]. injection H as <-. exists [], x, l, x'. auto.
    + destruct (on_item item n f l) as [l0|] eqn:O; [|discriminate]. injection H as <-. destruct (IH n l0 O) as (a & t & b & t' & -> & -> & F & HT & L).
      exists (x :: a), t, b, t'. cbn [filter]. rewrite E. cbn [length]. rewrite L. auto.
  - destruct (on_item item n f l) as [l0|] eqn:O; [|discriminate]. injection H as <-. destruct (IH n l0 O) as (a & t & b & t' & -> & -> & F & HT & L).
    exists (x :: a), t, b, t'. cbn [filter]. rewrite E. auto.
Qed.
Lemma in_items_split : forall item f n t t', in_items item n f t = Some t' ->
  exists a x b x', kids t = a ++ x :: b /\ t' = Tag (toks t) (a ++ x' :: b) /\ f x = Some x' /\ head_is item x = true /\ length (filter (head_is item) a) = n.
Proof.
  intros item f n t t' H. unfold in_items in H. destruct (on_item item n f (kids t)) as [l|] eqn:O; [|discriminate]. injection H as <-.
  destruct (on_item_split _ _ _ _ _ O) as (a & x & b & x' & A & -> & C & D & E). exists a, x, b, x'. auto.
Qed.
Lemma proper_kid : forall ts a x b x', proper (Tag ts (a ++ x :: b)) -> (proper x -> proper x') -> proper (Tag ts (a ++ x' :: b)).
Proof.
  intros ts a x b x' H HX. inversion H as [? ? NE HT HI|? ? ? ? E|]; subst; [|destruct a; discriminate|destruct a; discriminate].
  apply Forall_app in HI. destruct HI as (HA & HB). inversion HB as [|? ? H1 H2]; subst. apply P_node; [destruct a; discriminate|exact HT|]. apply Forall_app. split; [exact HA|constructor; [apply HX; exact H1|exact H2]].
Qed.
Lemma cr_kid : forall ts a x b x', ~ in_tag CR (Tag ts (a ++ x :: b)) -> (~ in_tag CR x -> ~ in_tag CR x') -> ~ in_tag CR (Tag ts (a ++ x' :: b)).
Proof.
  intros ts a x b x' H HX K. inversion K as [? ? w A B|? ? t A B]; subst; [apply H; econstructor 1; eassumption|].
  apply in_app_or in A. destruct A as [A|[A|A]].
  - apply H. econstructor 2; [|exact B]. apply in_or_app. left. exact A.
  - subst t. revert B. apply HX. intros B. apply H. econstructor 2; [|exact B]. apply in_or_app. right. left. reflexivity.
  - apply H. econstructor 2; [|exact B]. apply in_or_app. right. right. exact A.
Qed.
Lemma skipn_mid : forall A (pre post : list A) x, skipn (S (length pre)) (pre ++ x :: post) = post.
Proof. induction pre as [|y pre IH]; intros; [reflexivity|]. exact (IH post x). Qed.
Lemma set_text_shape : forall i s t t', startswith (s2l "0x") s = false -> set_attr i (AText s) t = Some t' ->
  exists pre old post, toks t = pre ++ old :: post /\ length pre = i /\ t' = Tag (pre ++ (DQ :: s ++ [DQ]) :: post) (kids t).
Proof.
  intros i s t t' HX H. unfold set_attr in H. cbn [write_token] in H. rewrite HX in H. unfold set_nth in H. destruct (i <? length (toks t)) eqn:L; [|discriminate]. apply Nat.ltb_lt in L. injection H as <-.
  destruct (nth_error (toks t) i) as [old|] eqn:E; [|apply nth_error_None in E; lia].
  destruct (nth_error_split _ _ E) as (pre & post & E1 & E2). exists pre, old, post. split; [exact E1|]. split; [exact E2|]. f_equal. rewrite E1.
  rewrite <- E2, firstn_app, firstn_all, Nat.sub_diag, firstn_O, app_nil_r. f_equal. f_equal. apply skipn_mid.
Qed.
Lemma quoted_no_colon : forall s, no_colon s -> no_colon (DQ :: s ++ [DQ]).
Proof.
  intros s H a b E. destruct a as [|d a]; [discriminate|]. injection E as _ E. clear d.
  revert a E. induction s as [|c s IH]; intros a E.
  - destruct a as [|x [|y a]]; discriminate.
  - destruct a as [|x a].
    + cbn in E. injection E as E1 E2. subst c. destruct s as [|c s]; [discriminate|]. injection E2 as -> _. apply (H [] s). reflexivity.
    + injection E as -> E. refine (IH _ a E). intros a' b' E'. apply (H (x :: a') b'). rewrite E'. reflexivity.
Qed.
Lemma proper_set_text : forall i s t t', 2 <= i -> startswith (s2l "0x") s = false -> set_attr i (AText s) t = Some t' -> ~ In DQ s -> (kids t = [] -> no_colon s) -> proper t -> proper t'.
Proof.
  intros i s t t' HI HX HS HD HC HP. destruct (set_text_shape _ _ _ _ HX HS) as (pre & old & post & E & L & ->).
  assert (HT : token (DQ :: s ++ [DQ])) by (right; exists s; split; [reflexivity|exact HD]).
  destruct HP as [ts items NE HT0 HI0|ts HT0 NC NE|name text]; cbn [toks kids] in *.
  - subst ts. apply Forall_app in HT0. destruct HT0 as (A & B). inversion B; subst. apply P_node; [exact NE|apply Forall_app; split; [exact A|constructor; assumption]|exact HI0].
  - subst ts. apply Forall_app in HT0, NC. destruct HT0 as (A & B), NC as (A' & B'). inversion B as [|? ? B1 B2]; inversion B' as [|? ? B3 B4]; subst. apply P_leaf.
    + apply Forall_app; split; [exact A|constructor; assumption].
    + apply Forall_app; split; [exact A'|constructor; [apply quoted_no_colon, HC; reflexivity|assumption]].
    + intros a x b E. assert (G : exists y, nth_error (pre ++ old :: post) (length a) = Some (y ++ [COLON])).
      { destruct (Nat.eq_dec (length a) (length pre)) as [K|K].
        - exfalso. assert (E' : nth_error (pre ++ (DQ :: s ++ [DQ]) :: post) (length a) = Some (x ++ [COLON])) by (rewrite E, nth_error_app2, Nat.sub_diag by lia; reflexivity).
          rewrite K, nth_error_app2, Nat.sub_diag in E' by lia. injection E' as E'. assert (F : last (DQ :: s ++ [DQ]) BLANK = last (x ++ [COLON]) BLANK) by (rewrite E'; reflexivity).
          change (DQ :: s ++ [DQ]) with ((DQ :: s) ++ [DQ]) in F. rewrite !last_last in F. discriminate.
        - exists x. assert (E' : nth_error (pre ++ (DQ :: s ++ [DQ]) :: post) (length a) = Some (x ++ [COLON])) by (rewrite E, nth_error_app2, Nat.sub_diag by lia; reflexivity).
          rewrite <- E'. destruct (Nat.lt_ge_cases (length a) (length pre)).
          + rewrite !nth_error_app1 by lia. reflexivity.
          + rewrite !nth_error_app2 by lia. destruct (length a - length pre) as [|k] eqn:EK; [lia|]. reflexivity. }
      destruct G as (y & G). destruct (nth_error_split _ _ G) as (u & w & E2 & EL). specialize (NE u y w E2). subst w.
      assert (LL : length (pre ++ old :: post) = length (a ++ (x ++ [COLON]) :: b)) by (rewrite <- E, !app_length; reflexivity). rewrite E2, !app_length in LL. cbn [length] in LL. destruct b; [reflexivity|cbn in LL; lia].
  - exfalso. destruct pre as [|p1 [|p2 pre]]; cbn in *; try lia. destruct pre; discriminate.
Qed.
Lemma cr_set_text : forall i s t t', startswith (s2l "0x") s = false -> set_attr i (AText s) t = Some t' -> ~ In CR s -> ~ in_tag CR t -> ~ in_tag CR t'.
Proof.
  intros i s t t' HX HS HC HN K. destruct (set_text_shape _ _ _ _ HX HS) as (pre & old & post & E & L & ->). destruct t as [ts items]. cbn [toks kids] in *. subst ts.
  inversion K as [? ? w A B|? ? x A B]; subst; [|apply HN; econstructor 2; eassumption].
  apply in_app_or in A. destruct A as [A|[A|A]].
  - apply HN. econstructor 1; [|exact B]. apply in_or_app. left. exact A.
  - subst w. destruct B as [B|B]; [discriminate|]. apply in_app_or in B. destruct B as [B|[B|[]]]; [exact (HC B)|discriminate].
  - apply HN. econstructor 1; [|exact B]. apply in_or_app. right. right. exact A.
Qed.
Lemma head_set : forall item i v t t', set_attr (S i) v t = Some t' -> head_is item t' = head_is item t.
Proof.
  intros item i v t t' H. unfold set_attr in H. destruct (write_token v) as [x|]; [|discriminate]. destruct (set_nth (S i) x (toks t)) as [l|] eqn:E; [|discriminate]. injection H as <-.
  unfold set_nth in E. destruct (S i <? length (toks t)) eqn:L; [|discriminate]. injection E as <-. unfold head_is. cbn [toks]. destruct (toks t); [discriminate|]. reflexivity.
Qed.
Lemma text_head : forall t, head_is TEXT t = true -> head_is COMPONENT t = false.
Proof. intros t H. unfold head_is in *. destruct (toks t) as [|x l]; [discriminate|]. apply str_eqb_eq in H. subst x. reflexivity. Qed.

(** ** The components *)
Lemma comp_list_ext : forall sa sb items, (forall i, In i items -> sa i = sb i) -> comp_list sa items = comp_list sb items.
Proof.
  intros sa sb. induction items as [|i items IH]; intros H; [reflexivity|]. cbn [comp_list]. rewrite (H i (or_introl eq_refl)), IH; [reflexivity|]. intros j Hj. apply H. right. exact Hj.
Qed.
Lemma comp_list_other : forall sa sb items, (forall i, In i items -> sa i = sb i \/ (head_is COMPONENT (sa i) = false /\ head_is COMPONENT (sb i) = false)) -> comp_list sa items = comp_list sb items.
Proof.
  intros sa sb. induction items as [|i items IH]; intros H; [reflexivity|]. cbn [comp_list]. rewrite IH by (intros j Hj; apply H; right; exact Hj). change (s2l "component") with COMPONENT.
  destruct (H i (or_introl eq_refl)) as [->|(-> & ->)]; reflexivity.
Qed.
Lemma comp_list_in : forall store items ds r c, comp_list store items = Some ds -> In (r, c) ds -> In (c_tag c) items /\ head_is COMPONENT (store (c_tag c)) = true /\ ref_value (store (c_tag c)) = Some (r, c_value c).
Proof.
  intros store. induction items as [|i items IH]; intros ds r c H K; cbn [comp_list] in H; [injection H as <-; destruct K|].
  change (s2l "component") with COMPONENT in H. destruct (head_is COMPONENT (store i)) eqn:E.
  - destruct (ref_value (store i)) as [[a v]|] eqn:R; [|discriminate]. destruct (comp_list store items) as [d|]; [|discriminate]. injection H as <-. destruct K as [K|K].
    + injection K as <- <-. cbn [c_tag c_value]. split; [left; reflexivity|]. split; assumption.
    + destruct (IH d r c eq_refl K) as (A & B). split; [right; exact A|exact B].
  - destruct (IH ds r c H K) as (A & B). split; [right; exact A|exact B].
Qed.
Lemma comp_list_put : forall store items ds id t' ref v v0, comp_list store items = Some ds -> NoDup items -> NoDup (map fst ds) -> In id items ->
  head_is COMPONENT (store id) = true -> ref_value (store id) = Some (ref, v0) -> head_is COMPONENT t' = true -> ref_value t' = Some (ref, v) ->
  comp_list (fun j => if j =? id then t' else store j) items = Some (dset ref (Comp id v) ds).
Proof.
  intros store. induction items as [|i items IH]; intros ds id t' ref v v0 H NI ND HI H0 R0 H1 R1; [destruct HI|]. inversion NI as [|? ? NI1 NI2]; subst. cbn [comp_list] in *.
  change (s2l "component") with COMPONENT in *. destruct (i =? id) eqn:EI.
  - apply Nat.eqb_eq in EI. subst i. rewrite H0, R0 in H. destruct (comp_list store items) as [d|] eqn:EC; [|discriminate]. injection H as <-. rewrite H1, R1.
    rewrite (comp_list_ext _ store) by (intros j Hj; destruct (j =? id) eqn:EJ; [apply Nat.eqb_eq in EJ; subst; contradiction|reflexivity]). rewrite EC. cbn [dset]. rewrite str_eqb_refl. reflexivity.
  - destruct HI as [HI|HI]; [subst; rewrite Nat.eqb_refl in EI; discriminate|]. destruct (head_is COMPONENT (store i)) eqn:HD.
    + destruct (ref_value (store i)) as [[a w]|] eqn:RI; [|discriminate]. destruct (comp_list store items) as [d|] eqn:EC; [|discriminate]. injection H as <-. cbn [map fst] in ND. inversion ND as [|? ? ND1 ND2]; subst.
      rewrite (IH d id t' ref v v0 eq_refl NI2 ND2 HI H0 R0 H1 R1). cbn [dset]. destruct (str_eqb a ref) eqn:EA; [|reflexivity].
      exfalso. apply str_eqb_eq in EA. subst a. apply ND1. clear - EC HI H0 R0. revert d EC. induction items as [|j items IH]; intros d EC; [destruct HI|]. cbn [comp_list] in EC. change (s2l "component") with COMPONENT in EC. destruct HI as [->|HI].
      * rewrite H0, R0 in EC. destruct (comp_list store items); [|discriminate]. injection EC as <-. left. reflexivity.
      * destruct (head_is COMPONENT (store j)); [|exact (IH HI d EC)]. destruct (ref_value (store j)) as [[? ?]|]; [|discriminate]. destruct (comp_list store items) as [d'|]; [|discriminate]. injection EC as <-. right. exact (IH HI d' eq_refl).
    + exact (IH ds id t' ref v v0 H NI2 ND HI H0 R0 H1 R1).
Qed.
Lemma dset_keys : forall W k (v : W) d, In k (map fst d) -> map fst (dset k v d) = map fst d.
Proof.
  intros W k v d. induction d as [|[a b] d IH]; intros H; [destruct H|]. cbn [dset]. destruct (str_eqb a k) eqn:E; [reflexivity|]. cbn [map fst]. rewrite IH; [reflexivity|].
  destruct H as [H|H]; [|exact H]. cbn in H. subst. rewrite str_eqb_refl in E. discriminate.
Qed.
