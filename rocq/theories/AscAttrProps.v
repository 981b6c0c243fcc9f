(** C103: attributes of LTspice components set as parameters. *)
From Coq Require Import String Ascii List Bool Arith ZArith.
From Verif Require Import PyStr StepsModel StepsProofs UpdatesModel AscModel.
Import ListNotations.
Local Open Scope string_scope. Local Open Scope nat_scope. Local Open Scope list_scope.

(** Whatever has been done before (any editor [a]): Value, Value2, SpiceModel, when the component has them, or has no parameter lines; the
    attribute has the new text, all other attributes and components stay, and the change is recorded. *)
Theorem C103_attribute : forall conv ref a c k v,
  get_component ref a = Some c -> a_perm a = Inform -> In k (map s2l ["Value"; "Value2"; "SpiceModel"]) ->
  (forall l w, In l (map s2l ["SpiceLine"; "SpiceLine2"]) -> dget l (c_attrs c) = Some w -> exists s, w = AStr s) ->
  NoDup (map fst (c_attrs c)) ->
  dget k (c_attrs c) <> None \/ dget (s2l "SpiceLine") (c_attrs c) = None /\ dget (s2l "SpiceLine2") (c_attrs c) = None ->
  exists a' c', set_component_parameters conv ref [(k, Some v)] a = (a', true) /\ get_component ref a' = Some c' /\
    (forall x, dget x (c_attrs c') = if str_eqb k x then Some (AStr (strip v)) else dget x (c_attrs c)) /\
    (forall r, r <> ref -> get_component r a' = get_component r a) /\ a_dirs a' = a_dirs a /\ a_wires a' = a_wires a /\ updated a' = true.
Proof.
  intros conv ref a c k v G P K L ND H. unfold set_component_parameters. rewrite G, P. cbn [set_params]. rewrite G. cbn [option_map].
  assert (KP : mem_s k LT_PARAMS = true) by (destruct K as [<- | [<- | [<- | []]]]; reflexivity).
  assert (KR : mem_s k LT_REDUCED = false) by (destruct K as [<- | [<- | [<- | []]]]; reflexivity).
  assert (GD : forall l, NoDup (map fst l) -> (forall x w, In x (map s2l ["SpiceLine"; "SpiceLine2"]) -> dget x l = Some w -> exists s, w = AStr s) -> exists ps, get_dicts conv l = Some ps /\
     (dget k l <> None -> dget k ps <> None) /\ (dget k l = None -> dget k ps = None) /\ (forall x, dget x l = None -> dget x ps = None)).
  { clear - KP KR. induction l as [|[j w] l IH]; intros N NL; [exists []; split; [reflexivity|]; split; [intros F; exfalso; apply F; reflexivity|]; split; [reflexivity|intros; reflexivity]|]. cbn [map fst] in N. apply NoDup_cons_iff in N. destruct N as (N1 & N).
    assert (DC : forall (W : Type) x (y : W) r z, dget x ((z, y) :: r) = if str_eqb z x then Some y else dget x r) by (intros W x y r z; unfold dget; cbn [find fst]; destruct (str_eqb z x); reflexivity).
    destruct IH as (ps & E & A & B & C); [exact N| |].
    - intros x u I D. apply (NL x u I). rewrite DC. destruct (str_eqb j x) eqn:F; [|exact D]. apply str_eqb_eq in F. subst x. exfalso. apply N1.
      unfold dget in D. destruct (find (fun e => str_eqb (fst e) j) l) as [[y u2]|] eqn:FF; [|discriminate]. apply find_some in FF. destruct FF as (I1 & I2). cbn [fst] in I2. apply str_eqb_eq in I2. subst y. apply (in_map fst) in I1. exact I1.
    - cbn [get_dicts]. rewrite E. destruct (mem_s j LT_PARAMS) eqn:JP.
      + assert (PV : exists pv, (if mem_s j LT_REDUCED then match w with AStr s => Some (match line_dict conv s with [] => PVal w | d => PDict d end) | _ => None end else Some (PVal w)) = Some pv).
        { destruct (mem_s j LT_REDUCED) eqn:JR; [|eauto]. unfold mem_s in JR. apply existsb_exists in JR. destruct JR as (x & X1 & X2). apply str_eqb_eq in X2. subst x. destruct (NL j w X1) as (s & ->); [rewrite DC, str_eqb_refl; reflexivity|]. eauto. }
        destruct PV as (pv & ->). exists ((j, pv) :: ps). split; [reflexivity|]. rewrite !DC. split; [|split].
        * destruct (str_eqb j k); [discriminate|exact A].
        * destruct (str_eqb j k); [discriminate|exact B].
        * intros x. rewrite !DC. destruct (str_eqb j x); [discriminate|apply C].
      + exists ps. split; [reflexivity|]. rewrite !DC. assert (JK : str_eqb j k = false) by (destruct (str_eqb j k) eqn:F; [apply str_eqb_eq in F; subst j; congruence|reflexivity]). rewrite JK. split; [exact A|]. split; [exact B|].
        intros x. rewrite DC. destruct (str_eqb j x); [discriminate|apply C]. }
  destruct (GD (c_attrs c) ND L) as (ps & E & A & B & C).
  assert (S1 : set_one conv k (Some (strip v)) (c_attrs c) None = Some (dset k (AStr (strip v)) (c_attrs c), Some UpUpdateComponentParameter)).
  { unfold set_one. rewrite E. destruct (dget k ps) eqn:DK; [reflexivity|]. destruct H as [H | (H1 & H2)]; [destruct (A H eq_refl)|].
    unfold set_in_line. unfold SPICELINE, SPICELINE2. rewrite (C _ H1), (C _ H2). cbn [later]. rewrite KP. reflexivity. }
  rewrite S1. eexists. exists (with_attrs c (dset k (AStr (strip v)) (c_attrs c))). split; [reflexivity|].
  assert (GP : forall r, get_component r (put_comp ref (with_attrs c (dset k (AStr (strip v)) (c_attrs c))) a) = if mem_c QTagModel.COLON r then None else if str_eqb ref r then Some (with_attrs c (dset k (AStr (strip v)) (c_attrs c))) else dget r (a_comps a)).
  { intros r. unfold get_component, put_comp, with_comps. cbn [a_comps]. rewrite dget_dset. reflexivity. }
  assert (GE : forall r n u t x, get_component r (end_update n u t x) = get_component r x) by reflexivity.
  split; [rewrite GE, GP, str_eqb_refl; unfold get_component in G; destruct (mem_c QTagModel.COLON ref); [discriminate|reflexivity]|].
  split; [intros x; cbn [with_attrs c_attrs]; apply dget_dset|]. split.
  - intros r NR. rewrite GE, GP. unfold get_component. destruct (mem_c QTagModel.COLON r); [reflexivity|]. destruct (str_eqb ref r) eqn:F; [apply str_eqb_eq in F; congruence|reflexivity].
  - repeat split.
Qed.
Print Assumptions C103_attribute.
Definition bjt : comp := Comp (s2l "npn") 0 0 0 (s2l "Q1") [(s2l "InstName", AStr (s2l "Q1")); (s2l "Value", AStr (s2l "2N2222")); (s2l "SpiceLine", AStr (s2l "tol=1"))].
Definition some_asc : asc := Asc [] [] [] [] [(s2l "Q1", bjt)] [] [] [] [] [] false Inform.
Example C103_attribute_nonvacuous : get_component (s2l "Q1") some_asc = Some bjt /\ a_perm some_asc = Inform /\ dget (s2l "Value") (c_attrs bjt) <> None /\
  option_map c_attrs (get_component (s2l "Q1") (fst (set_component_parameters (fun s => s) (s2l "Q1") [(s2l "Value", Some (s2l " BC547 "))] some_asc)))
  = Some [(s2l "InstName", AStr (s2l "Q1")); (s2l "Value", AStr (s2l "BC547")); (s2l "SpiceLine", AStr (s2l "tol=1"))].
Proof. split; [reflexivity|]. split; [reflexivity|]. split; [discriminate|]. vm_compute. reflexivity. Qed.
