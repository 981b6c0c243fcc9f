(** What edited netlists mean: proofs about the specification only. *)
From Coq Require Import String Ascii List Bool Arith Lia.
From Verif Require Import PyStr Regex PTokSpec CompSpec CompProps NetSpec NetProofs EditSpec EditProofs InstSpec InstProofs.
Import ListNotations.
Local Open Scope string_scope.
Local Open Scope nat_scope.
Local Open Scope list_scope.

(** one component only *)
Lemma named_on : forall x f l r, (forall c o, exists c' o', f c o = Node (Part c') o' /\ designator c' = designator c) ->
  node_named r (on_node x f l) = if str_eqb (upper r) (upper x) then match node_named x l with Some (c, o) => match f c o with Node (Part c') o' => Some (c', o') | _ => None end | None => None end else node_named r l.
Proof.
  intros x f l r Hf. induction l as [|[s o] l IH]; [destruct (str_eqb _ _); reflexivity|].
  destruct s as [y|y|c|y z w|y z w|y z]; cbn [on_node node_named]; try exact IH.
  destruct (str_eqb (designator c) (upper x)) eqn:E.
  - destruct (Hf c o) as (c' & o' & -> & Ed). cbn [node_named]. rewrite Ed. apply str_eqb_eq in E. rewrite E. destruct (str_eqb (upper x) (upper r)) eqn:E2.
    + apply str_eqb_eq in E2. rewrite E2, str_eqb_refl. reflexivity.
    + assert (str_eqb (upper r) (upper x) = false) as ->; [|reflexivity]. apply str_neq. intros G. rewrite G, str_eqb_refl in E2. discriminate E2.
  - cbn [node_named]. rewrite IH. destruct (str_eqb (designator c) (upper r)) eqn:E2; [|reflexivity]. assert (str_eqb (upper r) (upper x) = false) as ->; [|reflexivity].
    apply str_eqb_eq in E2. rewrite <- E2. exact E.
Qed.
Lemma edit_designator : forall e c, designator (edit_comp e c) = designator c.
Proof. intros e c. destruct (edit_fixed e c) as (A & B & _). unfold designator. rewrite A, B. reflexivity. Qed.

Section Only.
Variable D : str -> option def.
Theorem change_target : forall p e l k, opens D p l k -> denoted D p (edit_ref e) (change D p e l) = option_map (edit_comp e) (denoted D p (edit_ref e) l).
Proof.
  intros p e l k H. induction H as [l|x p l c n h kk k' HX HDn HF HK HOp IH|x p l c d k' HX HDn HF HK HCan HNn HD HDo HOp IH].
  - cbn [change denoted]. rewrite named_on; [|intros c o; eexists _, _; split; [reflexivity|apply edit_designator]]. rewrite str_eqb_refl. destruct (node_named (edit_ref e) l) as [[c o]|]; reflexivity.
  - cbn [change denoted]. rewrite named_on. 2:{ intros c1 [[[n1 h1] k1]|]; [|destruct (D (c_val c1))]; (eexists _, _; split; [reflexivity|]; reflexivity). }
    rewrite str_eqb_refl, HF, HK. change (aeqb "X" "X") with true. cbv iota. cbn [contents]. exact IH.
  - cbn [change denoted]. rewrite named_on. 2:{ intros c1 [[[n1 h1] k1]|]; [|destruct (D (c_val c1))]; (eexists _, _; split; [reflexivity|]; reflexivity). }
    rewrite str_eqb_refl, HF, HD. cbn [with_value c_kind]. rewrite HK. change (aeqb "X" "X") with true. cbv iota. cbn [contents]. rewrite HD. cbn [option_map]. exact IH.
Qed.
Theorem change_others : forall p e l k, opens D p l k -> forall q r, ~ prefix (spelled q r) (spelled p (edit_ref e)) -> ~ prefix (spelled p (edit_ref e)) (spelled q r) ->
  denoted D q r (change D p e l) = denoted D q r l.
Proof.
  intros p e l k H. induction H as [l|x p l c n h kk k' HX HDn HF HK HOp IH|x p l c d k' HX HDn HF HK HCan HNn HD HDo HOp IH]; intros q r N1 N2.
  - assert (forall y, upper y <> upper (edit_ref e) -> node_named y (change D [] e l) = node_named y l) as K.
    { intros y Hy. cbn [change]. rewrite named_on; [|intros c o; eexists _, _; split; [reflexivity|apply edit_designator]]. assert (str_eqb (upper y) (upper (edit_ref e)) = false) as -> by (apply str_neq; exact Hy). reflexivity. }
    destruct q as [|y q]; cbn [denoted]; rewrite K; try reflexivity.
    + intros G. apply N1. unfold spelled. cbn [app map]. rewrite G. exists []. reflexivity.
    + intros G. apply N2. unfold spelled. cbn [app map]. rewrite G. eexists. reflexivity.
  - assert (forall y, node_named y (change D (x :: p) e l) = if str_eqb (upper y) (upper x) then Some (c, Some (n, h, change D p e kk)) else node_named y l) as K.
    { intros y. cbn [change]. rewrite named_on; [rewrite HF; reflexivity|]. intros c1 [[[n1 h1] k1]|]; [|destruct (D (c_val c1))]; (eexists _, _; split; [reflexivity|]; reflexivity). }
    assert (forall y, upper y = upper x -> node_named y l = node_named x l) as KX. { intros y Hy. clear - Hy. induction l as [|[s o] l IH]; [reflexivity|]. cbn [node_named]. rewrite Hy, IH. reflexivity. }
    destruct q as [|y q]; cbn [denoted]; rewrite K; destruct (str_eqb (upper _) (upper x)) eqn:E; try reflexivity; apply str_eqb_eq in E.
    + exfalso. apply N1. unfold spelled. cbn [app map]. rewrite E. eexists. reflexivity.
    + rewrite (KX _ E), HF, HK. change (aeqb "X" "X") with true. cbv iota. cbn [contents]. apply IH; intros [t Ht].
      * apply N1. unfold spelled in *. cbn [app map]. rewrite E, Ht. exists t. reflexivity.
      * apply N2. unfold spelled in *. cbn [app map]. rewrite E, Ht. exists t. reflexivity.
  - assert (forall y, node_named y (change D (x :: p) e l) = if str_eqb (upper y) (upper x) then Some (with_value c (copy_name c), Some (copy_name c, head_renamed (f_head d) (copy_name c), change D p e (map plain (f_body d)))) else node_named y l) as K.
    { intros y. cbn [change]. rewrite named_on; [rewrite HF, HD; reflexivity|]. intros c1 [[[n1 h1] k1]|]; [|destruct (D (c_val c1))]; (eexists _, _; split; [reflexivity|]; reflexivity). }
    assert (forall y, upper y = upper x -> node_named y l = node_named x l) as KX. { intros y Hy. clear - Hy. induction l as [|[s o] l IH]; [reflexivity|]. cbn [node_named]. rewrite Hy, IH. reflexivity. }
    destruct q as [|y q]; cbn [denoted]; rewrite K; destruct (str_eqb (upper _) (upper x)) eqn:E; try reflexivity; apply str_eqb_eq in E.
    + exfalso. apply N1. unfold spelled. cbn [app map]. rewrite E. eexists. reflexivity.
    + rewrite (KX _ E), HF. cbn [with_value c_kind]. rewrite HK. change (aeqb "X" "X") with true. cbv iota. cbn [contents]. rewrite HD. cbn [option_map]. apply IH; intros [t Ht].
      * apply N1. unfold spelled in *. cbn [app map]. rewrite E, Ht. exists t. reflexivity.
      * apply N2. unfold spelled in *. cbn [app map]. rewrite E, Ht. exists t. reflexivity.
Qed.
(** the instances on the way keep everything but the name of their definition *)
Theorem change_way : forall p e l k, opens D p l k -> forall q r t, spelled p (edit_ref e) = spelled q r ++ t -> t <> [] ->
  exists c c', denoted D q r l = Some c /\ denoted D q r (change D p e l) = Some c' /\ same_but_value c c' /\ (c' = c \/ c_val c' = copy_name c).
Proof.
  intros p e l k H. induction H as [l|x p l c n h kk k' HX HDn HF HK HOp IH|x p l c d k' HX HDn HF HK HCan HNn HD HDo HOp IH]; intros q r t E NT.
  - exfalso. unfold spelled in E. apply (f_equal (@length _)) in E. repeat (rewrite ?app_length, ?map_length in E; cbn [length] in E). destruct t; [contradiction NT; reflexivity|cbn [length] in E; lia].
  - assert (forall y, node_named y (change D (x :: p) e l) = if str_eqb (upper y) (upper x) then Some (c, Some (n, h, change D p e kk)) else node_named y l) as K.
    { intros y. cbn [change]. rewrite named_on; [rewrite HF; reflexivity|]. intros c1 [[[n1 h1] k1]|]; [|destruct (D (c_val c1))]; (eexists _, _; split; [reflexivity|]; reflexivity). }
    assert (forall y, upper y = upper x -> node_named y l = node_named x l) as KX. { intros y Hy. clear - Hy. induction l as [|[s o] l IH]; [reflexivity|]. cbn [node_named]. rewrite Hy, IH. reflexivity. }
    unfold spelled in E. destruct q as [|y q]; cbn [app map] in E; injection E as E1 E2; cbn [denoted]; rewrite K, (KX _ (eq_sym E1)), HF, <- E1, str_eqb_refl.
    + exists c, c. split; [reflexivity|]. split; [reflexivity|]. split; [destruct c; reflexivity|left; reflexivity].
    + rewrite HK. change (aeqb "X" "X") with true. cbv iota. cbn [contents]. apply (IH q r t E2 NT).
  - assert (forall y, node_named y (change D (x :: p) e l) = if str_eqb (upper y) (upper x) then Some (with_value c (copy_name c), Some (copy_name c, head_renamed (f_head d) (copy_name c), change D p e (map plain (f_body d)))) else node_named y l) as K.
    { intros y. cbn [change]. rewrite named_on; [rewrite HF, HD; reflexivity|]. intros c1 [[[n1 h1] k1]|]; [|destruct (D (c_val c1))]; (eexists _, _; split; [reflexivity|]; reflexivity). }
    assert (forall y, upper y = upper x -> node_named y l = node_named x l) as KX. { intros y Hy. clear - Hy. induction l as [|[s o] l IH]; [reflexivity|]. cbn [node_named]. rewrite Hy, IH. reflexivity. }
    unfold spelled in E. destruct q as [|y q]; cbn [app map] in E; injection E as E1 E2; cbn [denoted]; rewrite K, (KX _ (eq_sym E1)), HF, <- E1, str_eqb_refl.
    + exists c, (with_value c (copy_name c)). split; [reflexivity|]. split; [reflexivity|]. split; [reflexivity|right; reflexivity].
    + cbn [with_value c_kind]. rewrite HK. change (aeqb "X" "X") with true. cbv iota. cbn [contents]. rewrite HD. cbn [option_map]. apply (IH q r t E2 NT).
Qed.
End Only.

(** Copies along a history: nodes that grew from the statements of a circuit. *)
Section Grown.
Variable D : str -> option def.
Inductive grown1 : stmt -> node -> Prop :=
| G_other : forall s, (forall c, s <> Part c) -> grown1 s (Node s None)
| G_part : forall c0 c, designator c = designator c0 -> c_kind c = c_kind c0 -> (c_kind c0 = "X"%char -> c_val c = c_val c0) -> part_ok good_names c -> grown1 (Part c0) (Node (Part c) None)
| G_copy : forall c0 c d h k, designator c = designator c0 -> c_kind c = "X"%char -> c_kind c0 = "X"%char -> D (c_val c0) = Some d -> c_val c = copy_name c0 -> head_name h = copy_name c0 ->
    part_ok good_names c -> grown (f_body d) k -> grown1 (Part c0) (Node (Part c) (Some (copy_name c0, h, k)))
with grown : list stmt -> list node -> Prop :=
| G_nil : grown [] []
| G_cons : forall s n b k, grown1 s n -> grown b k -> grown (s :: b) (n :: k).
Lemma grown_split : forall b ka n kb, grown b (ka ++ n :: kb) -> exists ba s bb, b = ba ++ s :: bb /\ grown ba ka /\ grown1 s n /\ grown bb kb.
Proof.
  intros b ka. revert b. induction ka as [|x ka IH]; intros b n kb H; cbn [app] in H; inversion H as [|s n' b' k' H1 H2]; subst.
  - exists [], s, b'. repeat split; [constructor|exact H1|exact H2].
  - destruct (IH _ _ _ H2) as (ba & s0 & bb & -> & A & B & C). exists (s :: ba), s0, bb. split; [reflexivity|]. split; [constructor; assumption|]. split; assumption.
Qed.
Lemma grown_app : forall a ka b kb, grown a ka -> grown b kb -> grown (a ++ b) (ka ++ kb).
Proof. intros a ka b kb H HB. induction H; [exact HB|]. cbn [app]. constructor; assumption. Qed.
Lemma grown_plain : forall b, (forall s, In s b -> stmt_ok good_names s \/ forall c, s <> Part c) -> grown b (map plain b).
Proof.
  induction b as [|s b IH]; intros H; [constructor|]. cbn [map]. constructor; [|apply IH; intros x Hx; apply H; right; exact Hx]. destruct (H s (or_introl eq_refl)) as [HO|HN]; [|apply G_other; exact HN].
  destruct s as [x|x|c|x y z|x y z|x y]; try (apply G_other; discriminate). apply G_part; [reflexivity|reflexivity|reflexivity|exact HO].
Qed.
Theorem change_grown : (forall v d, D v = Some d -> head_name (f_head d) = v) -> forall p e l k, opens D p l k -> edit_ok e (map top k) -> (forall r v, e = SetValue r v -> ~ begins (s2l "X") (upper r)) ->
  forall b, grown b l -> grown b (change D p e l).
Proof.
  intros HNm p e l k H. induction H as [l|x p l c n h kk k' HX HDn HF HK HOp IH|x p l c d k' HX HDn HF HK HCan HNn HD HDo HOp IH]; intros HE HV b HG.
  - destruct HE as (_ & c & HPN & _ & HOk & _ & _ & _ & _). rewrite part_node in HPN. destruct (node_named (edit_ref e) l) as [[c' o]|] eqn:HF; [|discriminate HPN]. injection HPN as ->.
    destruct (node_split _ _ _ _ HF) as (la & lb & -> & _ & EO & EDs). cbn [change]. rewrite EO. destruct (grown_split _ _ _ _ HG) as (ba & s & bb & -> & A & B & C). apply grown_app; [exact A|]. constructor; [|exact C].
    destruct (edit_fixed e c) as (F1 & F2 & _).
    assert (c_kind c = "X"%char -> c_val (edit_comp e c) = c_val c) as KV. { destruct e as [r v|r kk w|r kk]; try reflexivity. intros G. exfalso. apply (HV r v eq_refl). cbn [edit_ref] in EDs. rewrite <- EDs. unfold designator. rewrite G. exists (upper (c_name c)). reflexivity. }
    inversion B as [s' N|c0 c1 E1 E2 E3 E4|c0 c1 d h k E1 E2 E3 E4 E5 E6 E7 E8]; subst.
    + exfalso. eapply N. reflexivity.
    + replace (match e with SetValue _ _ => None | _ => None end) with (@None (str * str * list node)) by (destruct e; reflexivity). apply G_part; [rewrite edit_designator; exact E1|congruence| |exact HOk]. intros G. rewrite KV by congruence. apply E3. exact G.
    + assert (match e with SetValue _ _ => None | _ => Some (copy_name c0, h, k) end = Some (copy_name c0, h, k)) as ->.
      { destruct e as [r v|r kk w|r kk]; try reflexivity. exfalso. apply (HV r v eq_refl). cbn [edit_ref] in EDs. rewrite <- EDs. unfold designator. rewrite E2. exists (upper (c_name c)). reflexivity. }
      eapply G_copy; eauto; [rewrite edit_designator; exact E1|congruence|rewrite KV by exact E2; exact E5].
  - destruct (node_split _ _ _ _ HF) as (la & lb & -> & _ & EO & EDs). cbn [change]. rewrite EO. destruct (grown_split _ _ _ _ HG) as (ba & s & bb & -> & A & B & C). apply grown_app; [exact A|]. constructor; [|exact C].
    inversion B as [|?|c0 c1 d h' k E1 E2 E3 E4 E5 E6 E7 E8]; subst. eapply G_copy; eauto.
  - destruct (node_split _ _ _ _ HF) as (la & lb & -> & _ & EO & EDs). cbn [change]. rewrite EO, HD. destruct (grown_split _ _ _ _ HG) as (ba & s & bb & -> & A & B & C). apply grown_app; [exact A|]. constructor; [|exact C].
    inversion B as [s' N|c0 c1 E1 E2 E3 E4|]; subst; [exfalso; eapply N; reflexivity|]. assert (c_val c = c_val c0) as EV by (apply E3; congruence).
    assert (copy_name c = copy_name c0) as EC by (unfold copy_name; rewrite EV, E1; reflexivity).
    pose proof (HNm _ _ HD) as HNd. assert (circuit_name (f_head d) (c_val c)) as HCN by (rewrite <- HNd; apply HDo). destruct (copy_name_ok c _ (proj1 E4) HK HCN) as [N1 N2].
    pose proof (renamed_ok _ _ _ HCN N1 N2) as HRn. destruct (head_parts _ _ HRn) as (HH & _). rewrite EC in *.
    eapply G_copy; [exact E1|exact HK|congruence|rewrite <- EV; exact HD|reflexivity|exact HH|rewrite <- EC; apply renamed_part; try assumption; rewrite EC; assumption|]. apply IH; [exact HE|exact HV|]. apply grown_plain. intros s Hs. destruct HDo as (_ & _ & _ & _ & HB & _).
    rewrite Forall_forall in HB. specialize (HB s Hs). destruct s; try contradiction; left; exact HB.
Qed.
End Grown.

(** Reading the written netlist *)
Lemma part_named_app : forall ref a b, part_named ref (a ++ b) = match part_named ref a with Some c => Some c | None => part_named ref b end.
Proof. induction a as [|s a IH]; intros b; [reflexivity|]. cbn [app part_named]. destruct s as [x|x|c|x y z|x y z|x y]; try apply IH. destruct (str_eqb (designator c) (upper ref)); [reflexivity|apply IH]. Qed.
Lemma copies_no_part : forall ref k, part_named ref (concat (map copies k)) = None.
Proof. induction k as [|[s [[[n h] kk]|]] k IH]; [reflexivity| |]; cbn [map concat copies app part_named]; exact IH. Qed.
Lemma defs_app : forall a b, defs (a ++ b) = defs a ++ defs b.
Proof. intros a b. unfold defs. rewrite map_app, concat_app. reflexivity. Qed.
(** the copies of a list of nodes *)
Definition own_defs (k : list node) : list def := concat (map (fun n => match n with Node _ (Some (nm, h, kk)) => [{| f_head := h; f_body := map top kk ++ concat (map copies kk); f_tail := s2l ".ENDS " ++ nm |}] | _ => [] end) k).
Lemma defs_copies : forall k, defs (concat (map copies k)) = own_defs k.
Proof. induction k as [|[s [[[n h] kk]|]] k IH]; [reflexivity| |]; unfold own_defs in *; cbn [map concat copies app]; [unfold defs in *; cbn [map concat defs_of app]; rewrite IH; reflexivity|exact IH]. Qed.
Lemma find_names : forall v l, find (fun d => str_eqb (head_name (f_head d)) v) l = None <-> ~ In v (map (fun d => head_name (f_head d)) l).
Proof.
  intros v l. induction l as [|d l IH]; cbn [find map]; [split; [intros _ []|reflexivity]|]. destruct (str_eqb (head_name (f_head d)) v) eqn:E.
  - apply str_eqb_eq in E. split; [discriminate|]. intros N. exfalso. apply N. left. exact E.
  - rewrite IH. assert (head_name (f_head d) <> v) as NE by (intros G; rewrite G, str_eqb_refl in E; discriminate E). split; intros N; [intros [G|G]; [exact (NE G)|exact (N G)]|intros G; apply N; right; exact G].
Qed.
Lemma find_one : forall l d, NoDup (map (fun d => head_name (f_head d)) l) -> In d l -> find (fun x => str_eqb (head_name (f_head x)) (head_name (f_head d))) l = Some d.
Proof.
  induction l as [|x l IH]; intros d HN HI; [destruct HI|]. cbn [map] in HN. apply NoDup_cons_iff in HN. destruct HN as [N1 N2]. cbn [find]. destruct HI as [->|HI]; [rewrite str_eqb_refl; reflexivity|].
  assert (str_eqb (head_name (f_head x)) (head_name (f_head d)) = false) as ->; [|apply IH; assumption]. apply str_neq. intros G. apply N1. rewrite G. apply (in_map (fun d => head_name (f_head d))). exact HI.
Qed.

Section Elab.
Variables (lib : str -> option def) (l0 : list stmt).
Let D := defined lib l0.
Hypothesis Hflat : forall v d, D v = Some d -> Forall flat_stmt (f_body d).
Hypothesis Hfresh : fresh D l0.
Definition reserved (v : str) : Prop := exists b c, circuits D l0 b /\ In c (instances b) /\ v = copy_name c.
Lemma own_names : forall b k, grown D b k -> forall v, In v (map (fun d => head_name (f_head d)) (own_defs k)) -> In v (map copy_name (instances b)).
Proof.
  intros b k H. induction H as [|s n b k H1 H2 IH]; intros v HV; [exact HV|]. unfold instances. cbn [map concat]. fold (instances b). rewrite map_app. apply in_or_app.
  unfold own_defs in HV. cbn [map concat] in HV. rewrite map_app in HV. apply in_app_or in HV. destruct HV as [HV|HV]; [|right; apply IH; exact HV]. left.
  inversion H1 as [s' N|c0 c E1 E2 E3 E4|c0 c d h kk E1 E2 E3 E4 E5 E6 E7 E8]; subst; [destruct HV|destruct HV|]. cbn [map f_head In] in HV. destruct HV as [<-|[]]. rewrite E3. change (aeqb "X" "X") with true. cbv iota. left. symmetry. exact E6.
Qed.
Lemma own_nodup : forall b k, grown D b k -> NoDup (map copy_name (instances b)) -> NoDup (map (fun d => head_name (f_head d)) (own_defs k)).
Proof.
  intros b k H. induction H as [|s n b k H1 H2 IH]; intros HN; [constructor|]. unfold instances in HN. cbn [map concat] in HN. fold (instances b) in HN. rewrite map_app in HN.
  unfold own_defs. cbn [map concat]. fold (own_defs k). rewrite map_app.
  inversion H1 as [s' N|c0 c E1 E2 E3 E4|c0 c d h kk E1 E2 E3 E4 E5 E6 E7 E8]; subst.
  - cbn [map app]. apply IH. destruct s as [x|x|c|x y z|x y z|x y]; try exact HN. exfalso. eapply N. reflexivity.
  - cbn [map app]. apply IH. destruct (aeqb (c_kind c0) "X"); cbn [map app] in HN; [apply NoDup_cons_iff in HN; apply HN|exact HN].
  - rewrite E3 in HN. change (aeqb "X" "X") with true in HN. cbn [map app] in *. apply NoDup_cons_iff in HN. destruct HN as [N1 N2]. constructor; [|apply IH; exact N2]. cbn [f_head]. rewrite E6. intros G. apply N1. apply (own_names _ _ H2). exact G.
Qed.
Lemma own_in : forall k s nm h kk, In (Node s (Some (nm, h, kk))) k -> In {| f_head := h; f_body := map top kk ++ concat (map copies kk); f_tail := s2l ".ENDS " ++ nm |} (own_defs k).
Proof.
  intros k s nm h kk H. unfold own_defs. induction k as [|x k IH]; [destruct H|]. cbn [map concat]. apply in_or_app. destruct H as [->|H]; [left; left; reflexivity|right; apply IH; exact H].
Qed.
Lemma grown_in : forall b k, grown D b k -> forall n, In n k -> exists s, In s b /\ grown1 D s n.
Proof. intros b k H. induction H as [|s n b k H1 H2 IH]; intros m HM; [destruct HM|]. destruct HM as [<-|HM]; [exists s; split; [left; reflexivity|exact H1]|]. destruct (IH m HM) as (s' & A & B). exists s'. split; [right; exact A|exact B]. Qed.
Lemma instance_in : forall c b, In (Part c) b -> c_kind c = "X"%char -> In c (instances b).
Proof. intros c b H HK. unfold instances. apply in_concat. exists [c]. split; [|left; reflexivity]. apply in_map_iff. exists (Part c). rewrite HK. split; [reflexivity|exact H]. Qed.
Lemma flat_no_defs : forall b k, Forall flat_stmt b -> grown D b k -> defs (map top k) = [].
Proof.
  intros b k HF H. induction H as [|s n b k H1 H2 IH]; [reflexivity|]. apply Forall_cons_iff in HF. destruct HF as [F1 F2]. unfold defs in *. cbn [map concat]. rewrite (IH F2), app_nil_r.
  inversion H1 as [s' N|c0 c E1 E2 E3 E4|c0 c d h kk E1 E2 E3 E4 E5 E6 E7 E8]; subst; cbn [top defs_of]; try reflexivity. destruct s; try contradiction; reflexivity.
Qed.

(** a scope that holds the nodes [k] *)
Definition reads (R : list stmt) (k : list node) (scopes : list (list stmt)) : Prop :=
  (exists b, circuits D l0 b /\ grown D b k) /\
  (exists F O, scopes = F :: O /\ forall ref, part_named ref F = option_map fst (node_named ref k)) /\
  (forall v, ~ reserved v -> resolve lib v scopes = option_map (fun d => (f_body d, [R])) (D v)) /\
  (forall s nm h kk, In (Node s (Some (nm, h, kk))) k -> resolve lib nm scopes = Some (map top kk ++ concat (map copies kk), scopes)).
Lemma reads_elab : forall R, (forall v, ~ reserved v -> resolve lib v [R] = option_map (fun d => (f_body d, [R])) (D v)) ->
  forall path ref k scopes, reads R k scopes -> elaborated lib path ref scopes = denoted D path ref k.
Proof.
  intros R HR. induction path as [|x p IH]; intros ref k scopes ((b & HB & HG) & (F & O & -> & HP) & HV & HC); cbn [elaborated denoted]; [apply HP|]. rewrite HP.
  destruct (node_named x k) as [[c o]|] eqn:EN; [|reflexivity]. cbn [option_map fst]. destruct (aeqb (c_kind c) "X") eqn:EK; [|reflexivity]. apply aeqb_eq in EK.
  destruct (node_split _ _ _ _ EN) as (ka & kb & Ek & _). assert (In (Node (Part c) o) k) as HI by (rewrite Ek; apply in_or_app; right; left; reflexivity).
  destruct (grown_in _ _ HG _ HI) as (s & Hs & G1).
  inversion G1 as [s' N|c0 c1 E1 E2 E3 E4|c0 c1 d h kk E1 E2 E3 E4 E5 E6 E7 E8]; subst.
  - exfalso. eapply N. reflexivity.
  - assert (c_val c = c_val c0) as EV by (apply E3; congruence). rewrite HV.
    2:{ intros (b' & c' & HB' & HI' & ER). destruct (proj1 Hfresh b' c' HB' HI') as [_ HN]. apply (HN b c0 HB (instance_in _ _ Hs ltac:(congruence))). congruence. }
    cbn [contents]. destruct (D (c_val c)) as [d|] eqn:ED; [|reflexivity]. cbn [option_map]. apply IH. pose proof (Hflat _ _ ED) as HFl.
    assert (grown D (f_body d) (map plain (f_body d))) as Gd.
    { apply grown_plain. intros s Hs'. rewrite Forall_forall in HFl. specialize (HFl s Hs'). destruct s; try contradiction; left; exact HFl. }
    split; [exists (f_body d); split; [right; exists (c_val c), d; split; [exact ED|reflexivity]|exact Gd]|].
    split; [exists (f_body d), [R]; split; [reflexivity|]; intros r; rewrite <- part_node, map_top_plain; reflexivity|].
    split.
    + intros v Hv. cbn [resolve]. unfold InstSpec.def_in. rewrite <- (map_top_plain (f_body d)) at 1. rewrite (flat_no_defs _ _ HFl Gd). cbn [find]. apply (HR v Hv).
    + intros s nm h kk Hin. apply in_map_iff in Hin. destruct Hin as (y & Ey & _). discriminate Ey.
  - cbn [contents]. pose proof (HC _ _ _ _ HI) as HRs. rewrite E5, HRs. apply IH. pose proof (Hflat _ _ E4) as HFl. assert (circuits D l0 (f_body d)) as HBd by (right; exists (c_val c0), d; split; [exact E4|reflexivity]).
    split; [exists (f_body d); split; [exact HBd|exact E8]|].
    split; [exists (map top kk ++ concat (map copies kk)), (F :: O); split; [reflexivity|]; intros r; rewrite part_named_app, copies_no_part, part_node; destruct (option_map fst (node_named r kk)); reflexivity|].
    split.
    + intros v Hv. cbn [resolve]. unfold InstSpec.def_in. rewrite defs_app, (flat_no_defs _ _ HFl E8), defs_copies. cbn [app].
      assert (find (fun x => str_eqb (head_name (f_head x)) v) (own_defs kk) = None) as ->; [|apply (HV v Hv)].
      apply find_names. intros G. apply (own_names _ _ E8) in G. apply in_map_iff in G. destruct G as (c' & <- & Hc'). apply Hv. exists (f_body d), c'. split; [exact HBd|]. split; [exact Hc'|reflexivity].
    + intros s nm h' kk' Hin. destruct (grown_in _ _ E8 _ Hin) as (s' & Hs' & G'). inversion G' as [|?|c2 c3 d2 h2 k2 A1 A2 A3 A4 A5 A6 A7 A8]; subst. 
      cbn [resolve]. unfold InstSpec.def_in. rewrite defs_app, (flat_no_defs _ _ HFl E8), defs_copies. cbn [app]. rewrite <- A6.
      pose proof (find_one (own_defs kk) _ (own_nodup _ _ E8 (proj2 Hfresh _ HBd)) (own_in _ _ _ _ _ Hin)) as FO. cbn [f_head] in FO. rewrite FO. reflexivity.
Qed.
End Elab.

Lemma grown_defs : forall D b k, grown D b k -> defs (map top k) = defs b.
Proof.
  intros D b k H. induction H as [|s n b k H1 H2 IH]; [reflexivity|]. unfold defs in *. cbn [map concat]. rewrite IH. f_equal. inversion H1; subst; reflexivity.
Qed.
Theorem root_elab : forall lib d now, let D := defined lib (statements d) in
  (forall v x, D v = Some x -> Forall flat_stmt (f_body x)) -> fresh D (statements d) -> grown D (statements d) now ->
  forall path ref, elaborated lib path ref [flat d now] = denoted D path ref now.
Proof.
  intros lib d now D HF HFr HG path ref.
  assert (forall v, find (fun x => str_eqb (head_name (f_head x)) v) (defs (flat d now)) = None <-> def_in (statements d) v = None /\ ~ In v (map (fun x => head_name (f_head x)) (own_defs now))) as KN.
  { intros v. unfold def_in. rewrite !find_names, <- (grown_defs _ _ _ HG). unfold flat. rewrite <- (firstn_skipn (length (d_body d)) now) at 4. rewrite map_app, !defs_app, defs_copies, !map_app, !in_app_iff. tauto. }
  assert (forall v, ~ In v (map (fun x => head_name (f_head x)) (own_defs now)) -> def_in (flat d now) v = def_in (statements d) v) as KD.
  { intros v Hv. unfold def_in. rewrite <- (grown_defs _ _ _ HG). unfold flat. rewrite <- (firstn_skipn (length (d_body d)) now) at 4. rewrite map_app, !defs_app, defs_copies, !find_app. apply find_names in Hv. rewrite Hv. reflexivity. }
  assert (circuits D (statements d) (statements d)) as HC by (left; reflexivity).
  assert (forall v, ~ reserved lib (statements d) v -> resolve lib v [flat d now] = option_map (fun x => (f_body x, [flat d now])) (D v)) as HR.
  { intros v Hv. cbn [resolve]. rewrite KD.
    - unfold D, defined. destruct (def_in (statements d) v); reflexivity.
    - intros G. apply (own_names lib (statements d) _ _ HG) in G. apply in_map_iff in G. destruct G as (c & <- & Hc). apply Hv. exists (statements d), c. split; [exact HC|]. split; [exact Hc|reflexivity]. }
  apply (reads_elab lib (statements d) HF HFr (flat d now) HR). split; [exists (statements d); split; assumption|]. split; [|split; [exact HR|]].
  - exists (flat d now), []. split; [reflexivity|]. intros r. unfold flat. rewrite <- part_node. assert (map top now = map top (firstn (length (d_body d)) now) ++ map top (skipn (length (d_body d)) now)) as -> by (rewrite <- map_app, firstn_skipn; reflexivity). rewrite !part_named_app, copies_no_part. reflexivity.
  - intros s nm h kk Hin. destruct (grown_in lib (statements d) _ _ HG _ Hin) as (s' & Hs' & G'). inversion G' as [|?|c2 c3 d2 h2 k2 A1 A2 A3 A4 A5 A6 A7 A8]; subst.
    assert (def_in (statements d) (head_name h) = None) as EN.
    { pose proof (proj1 (proj1 HFr _ _ HC (instance_in _ _ Hs' A3))) as E. unfold D, defined in E. rewrite A6. destruct (def_in (statements d) (copy_name c2)); [discriminate E|reflexivity]. }
    cbn [resolve]. rewrite <- A6. 
    assert (def_in (flat d now) (head_name h) = Some {| f_head := h; f_body := map top kk ++ concat (map copies kk); f_tail := s2l ".ENDS " ++ copy_name c2 |}) as ->; [|reflexivity].
    pose proof (find_one (own_defs now) _ (own_nodup lib (statements d) _ _ HG (proj2 HFr _ HC)) (own_in _ _ _ _ _ Hin)) as FO. cbn [f_head] in FO.
    unfold def_in in *. rewrite <- (grown_defs _ _ _ HG) in EN. rewrite <- (firstn_skipn (length (d_body d)) now) in EN. rewrite map_app, defs_app, find_app in EN.
    unfold flat. rewrite !defs_app, !find_app, defs_copies. destruct (find _ (defs (map top (firstn _ now)))); [discriminate EN|]. rewrite FO. reflexivity.
Qed.
Theorem changes_grown : forall D, (forall v d, D v = Some d -> head_name (f_head d) = v) -> forall es l b, changes_ok D es l -> Forall (fun pe => forall r v, snd pe = SetValue r v -> ~ begins (s2l "X") (upper r)) es ->
  grown D b l -> grown D b (changes D es l).
Proof.
  intros D HNm es. induction es as [|[p e] es IH]; intros l b HO HV HG; [exact HG|]. destruct HO as [(k & HOp & HE & HDe) HO]. apply Forall_cons_iff in HV. destruct HV as [V1 V2]. cbn [fst snd] in *.
  change (changes D ((p, e) :: es) l) with (changes D es (change D p e l)). apply IH; [exact HO|exact V2|]. eapply change_grown; eassumption.
Qed.
