(** Operating points of semiconductor devices: C167-C170. *)
From Coq Require Import String Ascii List Bool Arith Lia.
From Verif Require Import PyStr StepsModel OpModel OpSpec OpProofs.
Import ListNotations.
Local Open Scope string_scope. Local Open Scope nat_scope. Local Open Scope list_scope.

Lemma skip_lines : forall before h rest, Forall (fun l => startswith heading l = false) before -> after_heading (before ++ (heading ++ h) :: rest) = rest.
Proof.
  intros before h rest F. induction F as [|l ls H F IH]; cbn [app after_heading].
  - change (s2l "Semiconductor Device Operating Points:") with heading. assert (E : startswith heading (heading ++ h) = true) by reflexivity. rewrite E. reflexivity.
  - change (s2l "Semiconductor Device Operating Points:") with heading. rewrite H. exact IH.
Qed.

(** ** C167 The dictionary read is the table of the log: kinds, devices, quantities, in order *)
Theorem C167_operating_points : forall (V : Type) (conv : str -> V) before h ks after, Forall (fun l => startswith heading l = false) before ->
  Forall kind_ok ks -> NoDup (map (fun k => lower (k_title k)) ks) -> Forall spaces_only after ->
  op_read conv (before ++ (heading ++ h) :: flat_map kind_lines ks ++ after) = Some (map (kind_table conv) ks).
Proof.
  intros V conv before h ks after FB FK ND FA. unfold op_read. rewrite skip_lines by exact FB. destruct (kinds_ok_lines conv ks after [] None [] FK ND) as (w & devs & E). rewrite E. rewrite <- (app_nil_r after). rewrite empty_lines by exact FA. reflexivity.
Qed.
Print Assumptions C167_operating_points.
(** Looking up: the value of quantity [q] of device [i] of a group. *)
Theorem C167_value : forall (V : Type) (conv : str -> V) ks k g q i dev v, Forall kind_ok ks -> NoDup (map (fun k => lower (k_title k)) ks) ->
  In k ks -> In g (k_groups k) -> In q (g_quantities g) -> nth_error (fields (g_names g)) i = Some dev -> nth_error (fields (snd q)) i = Some v ->
  exists sec quantities, dget (lower (k_title k)) (map (kind_table conv) ks) = Some sec /\ dget dev sec = Some quantities /\ dget (fst (fst q)) quantities = Some (conv v).
Proof.
  intros V conv ks k g q i dev v FK ND IK IG IQ HD HV.
  assert (U : forall (W : Type) (key : str) (x : W) d, NoDup (map fst d) -> In (key, x) d -> dget key d = Some x).
  { intros W key x d N I. apply in_split in I. destruct I as (a & b & ->). apply dget_mid. intros H. rewrite map_app in N. cbn [map fst] in N. apply NoDup_remove_2 in N. apply N. apply in_or_app. left. exact H. }
  rewrite Forall_forall in FK. destruct (FK k IK) as (_ & _ & _ & _ & KG & KD). rewrite Forall_forall in KG. destruct (KG g IG) as (_ & _ & _ & _ & GQ & _).
  exists (flat_map (group_table conv) (k_groups k)), (map (fun q => (fst (fst q), conv (nth i (fields (snd q)) []))) (g_quantities g)).
  assert (LT : i < length (g_names g)) by (assert (L : nth_error (fields (g_names g)) i <> None) by congruence; apply nth_error_Some in L; unfold fields in L; rewrite map_length in L; exact L).
  split; [|split].
  - apply U; [|apply in_map_iff; exists k; split; [reflexivity|exact IK]]. rewrite map_map. exact ND.
  - apply U.
    + assert (E : map fst (flat_map (group_table conv) (k_groups k)) = flat_map (fun g => fields (g_names g)) (k_groups k)); [|rewrite E; exact KD]. clear. induction (k_groups k) as [|g gs IH]; [reflexivity|]. cbn [flat_map]. rewrite map_app, IH. f_equal. pose proof (map_fst_table conv (fields (g_names g)) (g_quantities g)) as T. unfold table_of in T. unfold group_table. assert (LL : length (fields (g_names g)) = length (g_names g)) by (unfold fields; apply map_length). rewrite LL in T. exact T.
    + apply in_flat_map. exists g. split; [exact IG|]. unfold group_table. apply in_map_iff. exists i. split; [|apply in_seq; lia]. f_equal. apply nth_error_nth. exact HD.
  - apply U; [rewrite map_map; exact GQ|]. apply in_map_iff. exists q. split; [|exact IQ]. do 2 f_equal. apply nth_error_nth. exact HV.
Qed.
Print Assumptions C167_value.
Definition ex_rw (l : list string) : row := map (fun w => (s2l "   ", s2l w)) l.
Definition ex_kinds : list kind :=
  [Kind [["010"%char]] (s2l "       ") (s2l "Diodes") [] [Group [] (ex_rw ["d:1"; "d:2"]) [(s2l "Model", true, ex_rw ["dm"; "dx"]); (s2l "Id", true, ex_rw ["3.4e-19"; "1"])]];
   Kind [["010"%char]] (s2l "    ") (s2l "MOSFET Transistors") (s2l " ") [Group [["010"%char]] (ex_rw ["m1"]) [(s2l "Gmb", false, ex_rw ["2"])]; Group [] (ex_rw ["m2"]) [(s2l "Gmb", false, ex_rw ["4"])]]].
Lemma field_dec : forall s, forallb (fun c => negb (is_space c)) s = true -> s <> [] -> field s.
Proof. intros s H N. split; [exact N|]. apply Forall_forall. intros c C. rewrite forallb_forall in H. specialize (H c C). apply negb_true_iff in H. exact H. Qed.
Lemma ex_rw_ok : forall l, forallb (fun w => negb (str_eqb (s2l w) []) && forallb (fun c => negb (is_space c)) (s2l w)) l = true -> row_ok (ex_rw l).
Proof.
  intros l H. apply Forall_forall. intros x X. apply in_map_iff in X. destruct X as (w & <- & W). rewrite forallb_forall in H. specialize (H w W). apply andb_true_iff in H. destruct H as (H1 & H2). cbn [fst snd]. split; [discriminate|]. split; [repeat constructor|]. apply field_dec; [exact H2|]. intros E. rewrite E in H1. discriminate H1.
Qed.
Example C167_nonvacuous : Forall kind_ok ex_kinds /\ NoDup (map (fun k => lower (k_title k)) ex_kinds) /\
  map l2s (flat_map kind_lines ex_kinds) = map (fun s => l2s (s2l s ++ ["010"%char])) [""; "       --- Diodes ---"; "Name:   d:1   d:2"; "Model:   dm   dx"; "Id:   3.4e-19   1"; ""; "    --- MOSFET Transistors --- "; ""; "Name:   m1"; "Gmb   2"; "Name:   m2"; "Gmb   4"] /\
  op_read l2s ((heading ++ ["010"%char]) :: flat_map kind_lines ex_kinds) =
   Some [(s2l "diodes", [(s2l "d:1", [(s2l "Model", "dm"); (s2l "Id", "3.4e-19")]); (s2l "d:2", [(s2l "Model", "dx"); (s2l "Id", "1")])]); (s2l "mosfet transistors", [(s2l "m1", [(s2l "Gmb", "2")]); (s2l "m2", [(s2l "Gmb", "4")])])].
Proof.
  assert (NC : forall s n, rev s = rev s -> match rev s with c :: _ => aeqb c ":" = false | [] => True end -> s <> n ++ s2l ":").
  { intros s n _ H ->. rewrite rev_app_distr in H. cbn in H. discriminate H. }
  split; [|split; [|split; vm_compute; reflexivity]].
  - assert (QO : forall name (colon : bool) r n, forallb (fun c => negb (is_space c)) name = true -> name <> [] -> str_eqb name (s2l "Name") = false -> match name with c :: _ => aeqb c "-" = false | [] => True end -> match rev name with c :: _ => aeqb c ":" = false | [] => True end -> (colon = true \/ name = s2l "Gmb") -> row_ok r -> length r = n ->
       field name /\ name <> s2l "Name" /\ hd_error name <> Some "-"%char /\ (forall m, name <> m ++ s2l ":") /\ (colon = true \/ name = s2l "Gmb") /\ row_ok r /\ length r = n).
    { intros name colon r n A B C D E F G H. split; [apply field_dec; assumption|]. split; [apply str_eqb_neq; exact C|]. split; [destruct name; [discriminate|]; cbn; intros K; injection K as ->; discriminate D|]. split; [intros m; apply NC; [reflexivity|exact E]|]. auto. }
    repeat apply Forall_cons; try apply Forall_nil; unfold kind_ok; cbn [k_empty k_before k_after k_title k_groups].
    + split; [repeat constructor|]. split; [repeat constructor|]. split; [constructor|]. split; [apply mem_c_not_In; reflexivity|]. split; [|vm_compute; repeat constructor; cbn; intuition discriminate]. apply Forall_cons; [|apply Forall_nil].
      split; [constructor|]. split; [discriminate|]. split; [apply ex_rw_ok; reflexivity|]. split; [vm_compute; repeat constructor; cbn; intuition discriminate|]. split; [vm_compute; repeat constructor; cbn; intuition discriminate|].
      repeat apply Forall_cons; try apply Forall_nil; apply QO; try reflexivity; try discriminate; auto; apply ex_rw_ok; reflexivity.
    + split; [repeat constructor|]. split; [repeat constructor|]. split; [repeat constructor|]. split; [apply mem_c_not_In; reflexivity|]. split; [|vm_compute; repeat constructor; cbn; intuition discriminate]. repeat apply Forall_cons; try apply Forall_nil;
      (split; [repeat constructor|]; split; [discriminate|]; split; [apply ex_rw_ok; reflexivity|]; split; [vm_compute; repeat constructor; cbn; intuition discriminate|]; split; [vm_compute; repeat constructor; cbn; intuition discriminate|];
      repeat apply Forall_cons; try apply Forall_nil; apply QO; try reflexivity; try discriminate; auto; apply ex_rw_ok; reflexivity).
  - vm_compute. repeat constructor; cbn; intuition discriminate.
Qed.

(** ** C168 A log without operating points *)
Theorem C168_none : forall (V : Type) (conv : str -> V) ls, Forall (fun l => startswith heading l = false) ls -> op_read conv ls = Some [].
Proof.
  intros V conv ls F. unfold op_read. assert (E : after_heading ls = []) by (induction F as [|l ls H F IH]; [reflexivity|]; cbn [after_heading]; change (s2l "Semiconductor Device Operating Points:") with heading; rewrite H; exact IH). rewrite E. reflexivity.
Qed.
Print Assumptions C168_none.
Example C168_nonvacuous : op_read l2s [s2l "Circuit: x"; s2l "--- Diodes ---"] = Some []. Proof. reflexivity. Qed.

(** ** C169 Blanks at the end of a line, values missing *)
(** A line of values with a blank at its end, or with a value missing, is dropped without an error: the dictionary is what it would be without
    the line. *)
Theorem C169_dropped_refuted : forall (V : Type) (conv : str -> V) name r (st : opstate (V:=V)), field name -> name <> s2l "Name" -> hd_error name <> Some "-"%char -> row_ok r ->
  (length r = length (o_devs st) -> op_line conv (name ++ s2l ":" ++ concat (map (fun gf => fst gf ++ snd gf) r) ++ s2l " " ++ ["010"%char]) st = Some st) /\
  (length r <> length (o_devs st) -> op_line conv (row_line (name ++ s2l ":") r) st = Some st).
Proof.
  intros V conv name r st (NE & NS) NN NH RO.
  assert (FI : (name ++ s2l ":") <> [] /\ Forall (fun c => is_space c = false) (name ++ s2l ":")) by (split; [destruct name; discriminate|apply Forall_app; split; [exact NS|repeat constructor]]).
  destruct FI as (F1 & F2).
  assert (NT : forall t, Regex.re_match title_re (name ++ t) = None) by (intros t; apply no_title; destruct name as [|c name]; [congruence|]; cbn [app]; inversion NS; subst; split; [assumption|]; intros ->; apply NH; reflexivity).
  assert (NM : str_eqb (name ++ s2l ":") (s2l "Name:") = false) by (apply str_eqb_neq; intros E; change (s2l "Name:") with (s2l "Name" ++ s2l ":") in E; apply app_inv_tail in E; exact (NN E)).
  split; intros L.
  - unfold op_line. rewrite NT. assert (RS : rstrip_if LogModel.is_nl (name ++ s2l ":" ++ concat (map (fun gf => fst gf ++ snd gf) r) ++ s2l " " ++ ["010"%char]) = (name ++ s2l ":") ++ concat (map (fun gf => fst gf ++ snd gf) r) ++ s2l " ").
    { rewrite !app_assoc. change (s2l " ") with [" "%char]. rewrite rstrip_keep by reflexivity. reflexivity. }
    rewrite RS. assert (WS : ws_split ((name ++ s2l ":") ++ concat (map (fun gf => fst gf ++ snd gf) r) ++ s2l " ") = (name ++ s2l ":") :: fields r ++ [[]]).
    { unfold ws_split. rewrite ws_word by exact F2. cbn [app]. clear - RO. generalize (name ++ s2l ":") as cur. induction r as [|[g f] r IH]; intros cur; [reflexivity|]. inversion RO as [|? ? (NG & G & NF & FF) F']; subst. cbn [fst snd] in *. cbn [map concat fst snd fields]. destruct g as [|x g]; [congruence|]. inversion G as [|? ? X G']; subst.
      destruct f as [|c f]; [congruence|]. inversion FF as [|? ? C FF']; subst. rewrite <- !app_assoc. cbn [app ws_fields]. rewrite X. f_equal. rewrite ws_skip by assumption. rewrite ws_word by assumption. cbn [app]. rewrite IH by exact F'. reflexivity. }
    rewrite WS. destruct (fields r ++ [[]]) as [|x y] eqn:E; [destruct (fields r); discriminate E|]. rewrite colon_end. cbn [orb]. rewrite NM.
    assert (LX : length (x :: y) = length (o_devs st) + 1) by (rewrite <- E, app_length; cbn [length]; unfold fields; rewrite map_length, L; reflexivity).
    match goal with |- context [?a =? length (o_devs st) + 1] => destruct (Nat.eqb_spec a (length (o_devs st) + 1)) as [K|K]; [exfalso|rewrite andb_false_r; reflexivity] end. change (S (length (x :: y)) = length (o_devs st) + 1) in K. rewrite LX in K. lia.
  - unfold op_line. rewrite row_split by assumption. unfold row_line. rewrite <- app_assoc, NT. destruct (fields r) as [|x y] eqn:E; [reflexivity|]. rewrite colon_end. cbn [orb]. rewrite NM.
    match goal with |- context [?a =? length (o_devs st) + 1] => destruct (Nat.eqb_spec a (length (o_devs st) + 1)) as [K|K]; [exfalso|rewrite andb_false_r; reflexivity] end. change (S (length (x :: y)) = length (o_devs st) + 1) in K. rewrite <- E in K. unfold fields in K. rewrite map_length in K. apply L. lia.
Qed.
Print Assumptions C169_dropped_refuted.
Example C169_nonvacuous : op_read l2s (map (fun s => s2l s ++ ["010"%char]) ["Semiconductor Device Operating Points:"; "--- Diodes ---"; "Name: d1 d2"; "Id: 1 2 "; "Vd: 3"; "CAP: 4 5"]) =
  Some [(s2l "diodes", [(s2l "d1", [(s2l "CAP", "4")]); (s2l "d2", [(s2l "CAP", "5")])])].
Proof. vm_compute. reflexivity. Qed.

(** ** C170 A title that occurs twice *)
(** The devices under the first of two equal titles are lost. *)
Theorem C170_repeated_title_refuted : forall (V : Type) (conv : str -> V) (st : opstate (V:=V)) before t after, spaces_only before -> spaces_only after -> ~ In "010"%char t ->
  exists st', op_line conv (before ++ s2l "--- " ++ t ++ s2l " ---" ++ after ++ ["010"%char]) st = Some st' /\ dget (lower t) (o_data st') = Some [].
Proof.
  intros V conv st before t after HB HA HT. destruct (title_match before t after HB HA HT) as (e & c & E & G). unfold op_line. rewrite E, G. eexists. split; [reflexivity|]. cbn [o_data]. rewrite StepsProofs.dget_dset, str_eqb_refl. reflexivity.
Qed.
Print Assumptions C170_repeated_title_refuted.
Example C170_nonvacuous : op_read l2s (map (fun s => s2l s ++ ["010"%char]) ["Semiconductor Device Operating Points:"; "--- Diodes ---"; "Name: d1"; "Id: 1"; "--- Diodes ---"; "Name: d2"; "Id: 2"]) = Some [(s2l "diodes", [(s2l "d2", [(s2l "Id", "2")])])].
Proof. vm_compute. reflexivity. Qed.
