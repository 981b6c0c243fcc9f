(** Properties C305-C309: the nodes of a netlist (spicelib/editor/spice_subcircuit.py:818-837). *)
From Coq Require Import String Ascii List Bool Arith Lia.
From Verif Require Import PyStr Regex CompModel CompSpec CompProps NetModel NodModel NodSpec NodProofs.
Import ListNotations.
Local Open Scope string_scope.
Local Open Scope nat_scope.
Local Open Scope list_scope.

(** Every node of every statement is listed, once, in the order of first appearance; nothing else is. *)
Theorem C305_nodes_of_statements : forall netlist statements, consists_of netlist statements ->
  exists listed, get_all_nodes netlist = Some listed /\ first_met (nodes_written statements) listed.
Proof.
  intros e cs H. destruct (collect_statements e cs H [] [] first_met_nil) as (r & E & R). exists r. split; [exact E|exact R].
Qed.
Print Assumptions C305_nodes_of_statements.
(** [first_met] determines the list *)
Theorem C305_list_determined : forall all l1 l2, first_met all l1 -> first_met all l2 -> l1 = l2.
Proof.
  intros all l1 l2 (N1 & I1 & O1) (N2 & I2 & O2).
  assert (forall x, In x all -> exists p q, all = p ++ x :: q /\ ~ In x p) as FIRST.
  { intros x. induction all as [|a r IH]; [intros []|]. intros Hx. clear -Hx. induction r as [|b r IH] using rev_ind.
    - destruct Hx as [->|[]]. exists [], []. split; [reflexivity|intros []].
    - destruct (in_dec (list_eq_dec ascii_dec) x (a :: r)) as [Hin|Hout].
      + destruct (IH Hin) as (p & q & E & N). exists p, (q ++ [b]). split; [|exact N]. rewrite app_comm_cons, E, <- app_assoc. reflexivity.
      + rewrite app_comm_cons, in_app_iff in Hx. destruct Hx as [Hx|[->|[]]]; [contradiction|]. exists (a :: r), []. split; [rewrite app_comm_cons; reflexivity|exact Hout]. }
  assert (forall m1 m2 k, l1 = k ++ m1 -> l2 = k ++ m2 -> m1 = m2) as G.
  { induction m1 as [|x m1 IH]; intros m2 k E1 E2.
    - destruct m2 as [|y m2]; [reflexivity|]. exfalso. assert (In y k) as Hy.
      { assert (In y l1) as Y by (apply I1, I2; rewrite E2; apply in_app_iff; right; left; reflexivity). rewrite E1, app_nil_r in Y. exact Y. }
      rewrite E2 in N2. apply NoDup_remove_2 in N2. apply N2. apply in_app_iff. left. exact Hy.
    - destruct m2 as [|y m2].
      + exfalso. assert (In x k) as Hy.
        { assert (In x l2) as Y by (apply I2, I1; rewrite E1; apply in_app_iff; right; left; reflexivity). rewrite E2, app_nil_r in Y. exact Y. }
        rewrite E1 in N1. apply NoDup_remove_2 in N1. apply N1. apply in_app_iff. left. exact Hy.
      + assert (forall (z : str) (a b k' m' : list str), NoDup (k' ++ z :: m') -> k' ++ z :: m' = a ++ z :: b -> a = k') as UNIQ.
        { intros z a b k'. revert a. induction k' as [|c k' IHk]; intros [|d a] m' ND E; cbn [app] in *; [reflexivity| | |].
          - exfalso. injection E as -> E. inversion ND as [|? ? ND1 ND2]. apply ND1. rewrite E. apply in_app_iff. right. left. reflexivity.
          - exfalso. injection E as -> E. inversion ND as [|? ? ND1 ND2]. apply ND1. apply in_app_iff. right. left. reflexivity.
          - injection E as -> E. f_equal. inversion ND as [|? ? ND1 ND2]. apply (IHk a m' ND2 E). }
        assert (x = y) as ->.
        { destruct (FIRST x) as (p & q & Ex & Nx); [apply I1; rewrite E1; apply in_app_iff; right; left; reflexivity|].
          destruct (FIRST y) as (p' & q' & Ey & Ny); [apply I2; rewrite E2; apply in_app_iff; right; left; reflexivity|].
          destruct (O1 p x q Ex Nx) as (a & b & A & HA). destruct (O2 p' y q' Ey Ny) as (a' & b' & A' & HA').
          assert (a = k) as -> by (apply (UNIQ x a b k m1); [rewrite <- E1; exact N1|rewrite <- E1; exact A]).
          assert (a' = k) as -> by (apply (UNIQ y a' b' k m2); [rewrite <- E2; exact N2|rewrite <- E2; exact A']).
          (* the shorter prefix decides *)
          rewrite Ex in Ey. destruct (le_lt_dec (length p) (length p')) as [L|L].
          - destruct (Nat.eq_dec (length p) (length p')) as [EQ|NE].
            + assert (p = p' /\ x :: q = y :: q') as [_ H].
              { clear -Ey EQ. revert p' EQ Ey. induction p as [|c p IHp]; intros [|d p'] EQ Ey; try discriminate; [split; [reflexivity|exact Ey]|].
                cbn [app] in Ey. injection Ey as -> Ey. injection EQ as EQ. destruct (IHp p' EQ Ey) as [-> H]. split; [reflexivity|exact H]. }
              injection H as H _. exact H.
            + exfalso. assert (In x p') as Hx.
              { assert (nth_error (p ++ x :: q) (length p) = Some x) as NT by (rewrite nth_error_app2 by lia; rewrite Nat.sub_diag; reflexivity).
                rewrite Ey in NT. rewrite nth_error_app1 in NT by lia. apply nth_error_In in NT. exact NT. }
              apply HA' in Hx. rewrite E1 in N1. apply NoDup_remove_2 in N1. apply N1. apply in_app_iff. left. exact Hx.
          - exfalso. assert (In y p) as Hy.
            { assert (nth_error (p' ++ y :: q') (length p') = Some y) as NT by (rewrite nth_error_app2 by lia; rewrite Nat.sub_diag; reflexivity).
              rewrite <- Ey in NT. rewrite nth_error_app1 in NT by lia. apply nth_error_In in NT. exact NT. }
            apply HA in Hy. rewrite E2 in N2. apply NoDup_remove_2 in N2. apply N2. apply in_app_iff. left. exact Hy. }
        f_equal. apply (IH m2 (k ++ [y])); rewrite <- app_assoc; assumption. }
  apply (G l1 l2 []); reflexivity.
Qed.
Print Assumptions C305_list_determined.
Example C305_nonvacuous :
  let netlist := [OtherEntry; Statement (Some (comp_text (ex_x "opamp"))) []; OtherEntry; Statement (Some (comp_text ex_c)) []] in
  consists_of netlist [ex_x "opamp"; ex_c] /\ option_map (map l2s) (get_all_nodes netlist) = Some ["in"; "out"; "out+"]%string.
Proof.
  split; [|vm_compute; reflexivity]. apply co_other. apply co_statement; [apply C31_nonvacuous_instance|]. apply co_other. apply co_statement; [apply C31_nonvacuous|]. apply co_nil.
Qed.

(** Whatever the entries: no node is listed twice; entries that are neither components nor instances (comments, directives,
    definitions of sub-circuits) change nothing; an entry more at the end of the netlist leaves the nodes listed where they
    are and adds its own behind them. *)
Theorem C306_list_grows : forall netlist listed, get_all_nodes netlist = Some listed ->
  NoDup listed /\
  get_all_nodes (filter (fun e => match e with OtherEntry => false | _ => true end) netlist) = Some listed /\
  forall e listed', get_all_nodes (netlist ++ [e]) = Some listed' -> exists new, listed' = listed ++ new /\ forall n, In n new -> ~ In n listed.
Proof.
  intros l r H. assert (NoDup r) as ND. { destruct (collect_met l [] [] r first_met_nil H) as (m & M & _). exact M. }
  split; [exact ND|]. split.
  - revert H. unfold get_all_nodes. generalize (@nil str). induction l as [|[t p|] l IH]; intros acc H; cbn [filter collect] in *; [exact H| |apply IH; exact H].
    destruct (nodes_of t); [apply IH; exact H|discriminate].
  - intros e r' H'. assert (NoDup r') as ND'. { destruct (collect_met (l ++ [e]) [] [] r' first_met_nil H') as (m & M & _). exact M. }
    unfold get_all_nodes in H'. rewrite collect_app in H'. unfold get_all_nodes in H. rewrite H in H'. destruct (collect_extends [e] r r' H') as [new ->].
    exists new. split; [reflexivity|]. intros n Hn G. apply in_split in Hn. destruct Hn as (x & y & ->). rewrite app_assoc in ND'. apply NoDup_remove_2 in ND'.
    apply ND'. rewrite !in_app_iff. tauto.
Qed.
Print Assumptions C306_list_grows.
Example C306_nonvacuous : exists l1 l2, let n := [OtherEntry; Statement (Some (s2l "R1 a OUT 1k")) []; OtherEntry] in
  get_all_nodes n = Some l1 /\ get_all_nodes (n ++ [Statement (Some (s2l "R2 OUT 0 1k")) []]) = Some l2 /\ map l2s l1 = ["a"; "OUT"]%string /\ map l2s l2 = ["a"; "OUT"; "0"]%string.
Proof. eexists. eexists. cbv zeta. split; [vm_compute; reflexivity|]. split; [vm_compute; reflexivity|]. split; reflexivity. Qed.

(** "The nodes of every component that the editor reads are listed." Not so: an expression between braces that goes on over a
    second line is read as the component's value, but the pattern is tried here on the text with its line break. *)
Theorem C307_every_component_counts_refuted :
  ~ forall text items obj e a listed, load_text (fun _ => None) false text = Some items -> In (IComp obj e) items -> parse_line obj = Some a ->
      get_all_nodes (entries items) = Some listed -> forall n, In n (a_ports a) -> In n listed.
Proof.
  intros H. pose (t := s2l "* t" ++ ["010"%char] ++ s2l "R1 a b {x+" ++ ["010"%char] ++ s2l "+ y}" ++ ["010"%char] ++ s2l ".end" ++ ["010"%char]).
  destruct (load_text (fun _ => None) false t) as [items|] eqn:E; [|vm_compute in E; discriminate].
  pose (obj := s2l "R1 a b {x+" ++ ["010"%char] ++ s2l "+ y}" ++ ["010"%char]).
  destruct (parse_line obj) as [a|] eqn:P; [|vm_compute in P; discriminate].
  specialize (H t items obj None a [] E). vm_compute in E. injection E as <-. vm_compute in P. injection P as <-.
  refine (H _ eq_refl _ (s2l "b") _).
  - right. left. vm_compute. reflexivity.
  - vm_compute. reflexivity.
  - cbn [a_ports]. right. left. vm_compute. reflexivity.
Qed.
Print Assumptions C307_every_component_counts_refuted.

(** "A node has one entry in the list, however its name is written": SPICE does not distinguish upper and lower case in names,
    and two components on the nodes OUT and out are connected. The list has both. *)
Theorem C308_one_entry_per_node_refuted :
  ~ forall text items listed, load_text (fun _ => None) false text = Some items -> get_all_nodes (entries items) = Some listed -> NoDup (map upper listed).
Proof.
  intros H. pose (t := s2l "* t" ++ ["010"%char] ++ s2l "R1 a OUT 1k" ++ ["010"%char] ++ s2l "R2 out 0 1k" ++ ["010"%char] ++ s2l ".end" ++ ["010"%char]).
  destruct (load_text (fun _ => None) false t) as [items|] eqn:E; [|vm_compute in E; discriminate].
  destruct (get_all_nodes (entries items)) as [l|] eqn:G.
  - specialize (H t items l E G). vm_compute in E. injection E as <-. vm_compute in G. injection G as <-. vm_compute in H.
    inversion H as [|? ? _ H2]. inversion H2 as [|? ? N _]. apply N. left. reflexivity.
  - vm_compute in E. injection E as <-. vm_compute in G. discriminate.
Qed.
Print Assumptions C308_one_entry_per_node_refuted.

(** "The list follows the ports of the components as they are now." It is the text each component was read from that is
    looked at: new ports make no difference at all, and a component made without a text is an error. *)
Theorem C309_ports_followed_refuted :
  (forall before text ports ports' after, get_all_nodes (before ++ Statement text ports :: after) = get_all_nodes (before ++ Statement text ports' :: after)) /\
  (forall before ports after, get_all_nodes (before ++ Statement None ports :: after) = None) /\
  ~ (forall netlist listed t ports n, get_all_nodes netlist = Some listed -> In (Statement t ports) netlist -> In n ports -> In n listed).
Proof.
  assert (G : forall t b ports ports' a acc, (t = None -> False) -> collect acc (b ++ Statement t ports :: a) = collect acc (b ++ Statement t ports' :: a)).
  { intros t b ports ports' a acc _. revert acc. induction b as [|[u p|] b IH]; intros acc; cbn [app collect]; [reflexivity| |apply IH]. destruct (nodes_of u); [apply IH|reflexivity]. }
  assert (N : forall b ports a acc, collect acc (b ++ Statement None ports :: a) = None).
  { intros b ports a. induction b as [|[t p|] b IH]; intros acc; cbn [app collect]; [reflexivity| |apply IH]. destruct (nodes_of t); [apply IH|reflexivity]. }
  split; [|split].
  - intros b t ports ports' a. destruct t as [t|]; [apply G; discriminate|unfold get_all_nodes; rewrite !N; reflexivity].
  - intros b ports a. apply N.
  - intros H. specialize (H [Statement (Some (s2l "R1 a b 1k")) [s2l "a"; s2l "c"]] [s2l "a"; s2l "b"] _ _ (s2l "c") eq_refl (or_introl eq_refl) (or_intror (or_introl eq_refl))).
    vm_compute in H. destruct H as [H|[H|[]]]; discriminate.
Qed.
Print Assumptions C309_ports_followed_refuted.
