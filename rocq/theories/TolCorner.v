(** Proofs about the runs of the worst case and the quick sensitivity analysis (C42, C89). *)
From Coq Require Import String Ascii List Bool Arith ZArith NArith QArith Lia.
From Verif Require Import TolModel TolSpec.
Import ListNotations.
Local Open Scope string_scope. Local Open Scope nat_scope. Local Open Scope list_scope.

(** ** Dictionaries *)
Lemma aget_aset_same : forall {A} k (v : A) d, aget k (aset k v d) = Some v.
Proof. induction d as [|[k' v'] d IH]; cbn; [rewrite String.eqb_refl; reflexivity|]. destruct (String.eqb k k') eqn:E; cbn; [rewrite String.eqb_refl; reflexivity|]. rewrite E. exact IH. Qed.
Lemma aget_aset_other : forall {A} k k2 (v : A) d, k2 <> k -> aget k2 (aset k v d) = aget k2 d.
Proof.
  induction d as [|[k' v'] d IH]; intros N; cbn. { destruct (String.eqb_spec k2 k); [contradiction|reflexivity]. }
  destruct (String.eqb_spec k k') as [->|]; cbn. { destruct (String.eqb_spec k2 k'); [contradiction|reflexivity]. }
  destruct (String.eqb_spec k2 k'); [reflexivity|apply IH; exact N].
Qed.
Lemma aget_In : forall {A} k (d : list (string * A)), In k (map fst d) <-> exists v, aget k d = Some v.
Proof.
  induction d as [|[k' v'] d IH]; cbn. { split; [tauto|intros (v & H); discriminate]. }
  destruct (String.eqb_spec k k') as [->|N]. { split; intros _; [eauto|left; reflexivity]. }
  rewrite <- IH. split; [intros [->|H]; [contradiction|exact H]|tauto].
Qed.
Lemma aget_None : forall {A} k (d : list (string * A)), ~ In k (map fst d) <-> aget k d = None.
Proof. intros A k d. rewrite aget_In. split; [intros H; destruct (aget k d) eqn:E; [exfalso; apply H; eauto|reflexivity]|intros -> (v & H); discriminate]. Qed.
Lemma aset_keys_in : forall {A} k (v : A) d x, In x (map fst (aset k v d)) <-> x = k \/ In x (map fst d).
Proof. induction d as [|[k' v'] d IH]; intros x; cbn; [intuition|]. destruct (String.eqb_spec k k') as [->|N]; cbn; [intuition|rewrite IH; intuition]. Qed.
Lemma aset_NoDup : forall {A} k (v : A) d, NoDup (map fst d) -> NoDup (map fst (aset k v d)).
Proof.
  induction d as [|[k' v'] d IH]; intros H; cbn; [repeat constructor; intros []|]. cbn in H. inversion H as [|? ? NI ND]; subst.
  destruct (String.eqb_spec k k') as [->|N]; cbn; [constructor; assumption|]. constructor; [|apply IH; exact ND].
  rewrite aset_keys_in. intros [->|HI]; [apply N; reflexivity|exact (NI HI)].
Qed.

Definition read (k : kind) (x : string) (e : ed) : option value := match k with KComp => aget x (comps e) | KPar => aget x (pars e) end.
Lemma kind_dec : forall a b : kind, {a = b} + {a <> b}. Proof. decide equality. Qed.

Lemma put_spec : forall k x v e, (k = KComp -> read KComp x e <> None) ->
  exists e', put k x v e = Some e' /\ read k x e' = Some v /\ (forall k' x', (k', x') <> (k, x) -> read k' x' e' = read k' x' e) /\ dirs e' = dirs e.
Proof.
  intros [|] x v e H; cbn [put read] in *.
  - unfold set_comp. destruct (aget x (comps e)) eqn:E; [|exfalso; apply H; reflexivity]. eexists. split; [reflexivity|]. cbn [comps pars dirs].
    split; [apply aget_aset_same|]. split; [|reflexivity]. intros [|] x' N; cbn [read comps pars]; [|reflexivity]. apply aget_aset_other. congruence.
  - eexists. split; [reflexivity|]. cbn [comps pars dirs set_par]. split; [apply aget_aset_same|]. split; [|reflexivity].
    intros [|] x' N; cbn [read comps pars]; [reflexivity|]. apply aget_aset_other. congruence.
Qed.

(** ** One run: the changed bits *)
Section Bits.
  Variables (setting : entry -> bool -> option value) (w : work).
  Hypothesis Hnd : NoDup (snd w).
  Hypothesis Hent : forall x, In x (snd w) -> exists y, aget x (fst w) = Some y.
  Hypothesis Hval : forall x y b, In x (snd w) -> aget x (fst w) = Some y -> exists v, setting y b = Some v.

  (** Every component to be set is in the netlist. *)
  Definition present (e : ed) : Prop := forall x y, In x (snd w) -> aget x (fst w) = Some y -> e_kind y = KComp -> read KComp x e <> None.

  Lemma change_bit_spec : forall run i e, i < length (snd w) -> present e ->
    exists e', change_bit setting w run i e = Some e' /\ dirs e' = dirs e /\
      (forall x y, nth_error (snd w) i = Some x -> aget x (fst w) = Some y -> read (e_kind y) x e' = setting y (N.testbit run (N.of_nat i))) /\
      (forall k x, (forall y, nth_error (snd w) i = Some x -> aget x (fst w) = Some y -> e_kind y <> k) -> read k x e' = read k x e) /\ present e'.
  Proof.
    intros run i e Hi Hp. unfold change_bit. destruct (nth_error (snd w) i) as [x|] eqn:Ex; [|apply nth_error_None in Ex; lia].
    assert (HI : In x (snd w)) by (eapply nth_error_In; exact Ex).
    destruct (Hent x HI) as (y & Ey). rewrite Ey. destruct (Hval x y (N.testbit run (N.of_nat i)) HI Ey) as (v & Ev). rewrite Ev.
    destruct (put_spec (e_kind y) x v e) as (e' & P & R & O & D). { intros K. apply (Hp x y HI Ey K). }
    exists e'. split; [exact P|]. split; [exact D|]. split; [|split].
    - intros x0 y0 E0 Ey0. injection E0 as <-. rewrite Ey in Ey0. injection Ey0 as <-. rewrite Ev. exact R.
    - intros k x0 H0. apply O. intros Eq. injection Eq as -> ->. exact (H0 y eq_refl Ey eq_refl).
    - intros x0 y0 HI0 Ey0 K0. destruct (kind_dec (e_kind y) KComp) as [K|K].
      + destruct (string_dec x0 x) as [->|N]. { rewrite K in R. rewrite R. discriminate. } rewrite O; [apply (Hp x0 y0 HI0 Ey0 K0)|]. congruence.
      + rewrite O; [apply (Hp x0 y0 HI0 Ey0 K0)|]. congruence.
  Qed.

  Lemma nth_inj : forall i j x, nth_error (snd w) i = Some x -> nth_error (snd w) j = Some x -> i = j.
  Proof. intros i j x A B. eapply NoDup_nth_error; [exact Hnd|apply nth_error_Some; rewrite A; discriminate|congruence]. Qed.

  Lemma change_bits_spec : forall run p i e, (forall j, Pos.testbit_nat p j = true -> i + j < length (snd w)) -> present e ->
    exists e', change_bits setting w run p i e = Some e' /\ dirs e' = dirs e /\
      (forall j x y, nth_error (snd w) (i + j) = Some x -> aget x (fst w) = Some y -> Pos.testbit_nat p j = true ->
         read (e_kind y) x e' = setting y (N.testbit run (N.of_nat (i + j)))) /\
      (forall k x, (forall j y, nth_error (snd w) (i + j) = Some x -> aget x (fst w) = Some y -> Pos.testbit_nat p j = true -> e_kind y <> k) ->
         read k x e' = read k x e) /\ present e'.
  Proof.
    intros run. induction p as [q IH|q IH|]; intros i e Hj Hp; cbn [change_bits].
    - destruct (change_bit_spec run i e) as (e1 & E1 & D1 & A1 & B1 & P1); [specialize (Hj 0 eq_refl); lia|exact Hp|]. rewrite E1.
      destruct (IH (S i) e1) as (e2 & E2 & D2 & A2 & B2 & P2); [intros j Tj; specialize (Hj (S j) Tj); lia|exact P1|].
      exists e2. split; [exact E2|]. split; [congruence|]. split; [|split; [|exact P2]].
      + intros [|j] x y Ex Ey T.
        * rewrite Nat.add_0_r in *. rewrite B2; [apply A1; assumption|]. intros j y' Ex' Ey' _ _. pose proof (nth_inj _ _ _ Ex Ex'). lia.
        * replace (i + S j) with (S i + j) in * by lia. apply A2; assumption.
      + intros k x Hk. rewrite B2, B1; [reflexivity| |].
        * intros y Ex Ey. apply (Hk 0 y); [rewrite Nat.add_0_r; exact Ex|exact Ey|reflexivity].
        * intros j y Ex Ey T. apply (Hk (S j) y); [rewrite <- Nat.add_succ_comm; exact Ex|exact Ey|exact T].
    - destruct (IH (S i) e) as (e2 & E2 & D2 & A2 & B2 & P2); [intros j Tj; specialize (Hj (S j) Tj); lia|exact Hp|].
      exists e2. split; [exact E2|]. split; [exact D2|]. split; [|split; [|exact P2]].
      + intros [|j] x y Ex Ey T; [discriminate|]. replace (i + S j) with (S i + j) in * by lia. apply A2; assumption.
      + intros k x Hk. apply B2. intros j y Ex Ey T. apply (Hk (S j) y); [rewrite <- Nat.add_succ_comm; exact Ex|exact Ey|exact T].
    - destruct (change_bit_spec run i e) as (e1 & E1 & D1 & A1 & B1 & P1); [specialize (Hj 0 eq_refl); lia|exact Hp|].
      exists e1. split; [exact E1|]. split; [exact D1|]. split; [|split; [|exact P1]].
      + intros [|j] x y Ex Ey T; [|discriminate]. rewrite Nat.add_0_r in *. apply A1; assumption.
      + intros k x Hk. apply B1. intros y Ex Ey. apply (Hk 0 y); [rewrite Nat.add_0_r; exact Ex|exact Ey|reflexivity].
  Qed.

  Lemma change_run_spec : forall run last e, (forall j, length (snd w) <= j -> N.testbit (N.lxor run last) (N.of_nat j) = false) -> present e ->
    (forall j x y, nth_error (snd w) j = Some x -> aget x (fst w) = Some y -> N.testbit run (N.of_nat j) = N.testbit last (N.of_nat j) ->
       read (e_kind y) x e = setting y (N.testbit last (N.of_nat j))) ->
    exists e', change_run setting w run last e = Some e' /\ dirs e' = dirs e /\
      (forall j x y, nth_error (snd w) j = Some x -> aget x (fst w) = Some y -> read (e_kind y) x e' = setting y (N.testbit run (N.of_nat j))) /\
      (forall k x, (forall j y, nth_error (snd w) j = Some x -> aget x (fst w) = Some y -> e_kind y <> k) -> read k x e' = read k x e) /\ present e'.
  Proof.
    intros run last e Hb Hp Hi. unfold change_run. destruct (N.lxor run last) as [|p] eqn:X.
    - apply N.lxor_eq in X. subst last. exists e. split; [reflexivity|]. split; [reflexivity|]. split; [|split; [reflexivity|exact Hp]].
      intros j x y Ex Ey. apply (Hi j x y Ex Ey eq_refl).
    - assert (HT : forall j, Pos.testbit_nat p j = xorb (N.testbit run (N.of_nat j)) (N.testbit last (N.of_nat j))).
      { intros j. rewrite <- N.lxor_spec, X, Ndigits.Ntestbit_Nbit. reflexivity. }
      destruct (change_bits_spec run p 0 e) as (e' & E & D & A & B & P); [|exact Hp|].
      { intros j T. cbn [plus]. destruct (Nat.lt_ge_cases j (length (snd w))) as [L|L]; [exact L|]. specialize (Hb j L).
        rewrite HT in T. rewrite <- N.lxor_spec, X in T. congruence. }
      exists e'. split; [exact E|]. split; [exact D|]. split; [|split; [|exact P]].
      + intros j x y Ex Ey. destruct (Pos.testbit_nat p j) eqn:T. { apply (A j x y Ex Ey T). }
        rewrite B. { rewrite HT in T. assert (EB : N.testbit run (N.of_nat j) = N.testbit last (N.of_nat j)) by (destruct (N.testbit run (N.of_nat j)), (N.testbit last (N.of_nat j)); cbn in T; congruence).
          rewrite EB. apply (Hi j x y Ex Ey EB). }
        intros j' y' Ex' Ey' T' _. cbn [plus] in Ex'. rewrite (nth_inj _ _ _ Ex Ex') in T. congruence.
      + intros k x Hk. apply B. intros j y Ex Ey T. exact (Hk j y Ex Ey).
  Qed.

  (** ** All runs *)
  Fixpoint gen_runs (todo : list (N * Z)) (last : N) (e : ed) : option (list ed * ed) :=
    match todo with
    | [] => Some ([], e)
    | (run, z) :: rest =>
        match change_run setting w run last e with
        | None => None
        | Some e1 =>
            let e2 := set_par "run" (VNum (inject_Z z)) e1 in
            match gen_runs rest run e2 with None => None | Some (sims, e3) => Some (e2 :: sims, e3) end
        end
    end.

  Hypothesis Hrun : forall y, In "run" (snd w) -> aget "run" (fst w) = Some y -> e_kind y <> KPar.

  Definition shown (e0 : ed) (run : N) (z : Z) (e : ed) : Prop :=
    (forall j x y, nth_error (snd w) j = Some x -> aget x (fst w) = Some y -> read (e_kind y) x e = setting y (N.testbit run (N.of_nat j))) /\
    (forall k x, (forall y, In x (snd w) -> aget x (fst w) = Some y -> e_kind y <> k) -> (k, x) <> (KPar, "run") -> read k x e = read k x e0) /\
    read KPar "run" e = Some (VNum (inject_Z z)) /\ dirs e = dirs e0.

  Lemma gen_runs_spec : forall todo last e e0, present e ->
    Forall (fun rz => (fst rz < 2 ^ N.of_nat (length (snd w)))%N) todo -> (last < 2 ^ N.of_nat (length (snd w)))%N ->
    (forall k x, (forall y, In x (snd w) -> aget x (fst w) = Some y -> e_kind y <> k) -> (k, x) <> (KPar, "run") -> read k x e = read k x e0) ->
    dirs e = dirs e0 ->
    (forall run z rest, todo = (run, z) :: rest -> forall j x y, nth_error (snd w) j = Some x -> aget x (fst w) = Some y ->
       N.testbit run (N.of_nat j) = N.testbit last (N.of_nat j) -> read (e_kind y) x e = setting y (N.testbit last (N.of_nat j))) ->
    exists sims e', gen_runs todo last e = Some (sims, e') /\ Forall2 (fun rz s => shown e0 (fst rz) (snd rz) s) todo sims.
  Proof.
    induction todo as [|[run z] rest IH]; intros last e e0 Hp HF HL HO HD HI.
    - exists [], e. split; [reflexivity|constructor].
    - inversion HF as [|? ? HR HF']; subst. cbn [fst] in HR. cbn [gen_runs].
      assert (SM : forall a j, (a < 2 ^ N.of_nat (length (snd w)))%N -> length (snd w) <= j -> N.testbit a (N.of_nat j) = false).
      { intros a j La Lj. destruct (N.eq_dec a 0) as [->|Na]; [apply N.bits_0|]. apply N.bits_above_log2. apply N.log2_lt_pow2; [lia|].
        apply (N.lt_le_trans _ _ _ La). apply N.pow_le_mono_r; lia. }
      destruct (change_run_spec run last e) as (e1 & E1 & D1 & A1 & B1 & P1); [| exact Hp | exact (HI run z rest eq_refl) |].
      { intros j Lj. rewrite N.lxor_spec, !SM by assumption. reflexivity. }
      rewrite E1. cbv zeta. set (e2 := set_par "run" (VNum (inject_Z z)) e1).
      assert (R2 : forall k x, (k, x) <> (KPar, "run") -> read k x e2 = read k x e1).
      { intros [|] x N; cbn [read e2 set_par comps pars]; [reflexivity|]. apply aget_aset_other. congruence. }
      assert (P2 : present e2). { intros x y HIx Ey K. rewrite R2 by discriminate. exact (P1 x y HIx Ey K). }
      assert (HE2 : forall j x y, nth_error (snd w) j = Some x -> aget x (fst w) = Some y -> read (e_kind y) x e2 = setting y (N.testbit run (N.of_nat j))).
      { intros j x y Ex Ey. rewrite R2; [apply (A1 j x y Ex Ey)|]. intros Eq. injection Eq as K ->. exact (Hrun y (nth_error_In _ _ Ex) Ey K). }
      assert (HO2 : forall k x, (forall y, In x (snd w) -> aget x (fst w) = Some y -> e_kind y <> k) -> (k, x) <> (KPar, "run") -> read k x e2 = read k x e0).
      { intros k x Hk Hx. rewrite R2 by exact Hx. rewrite B1; [apply HO; assumption|]. intros j y Ex Ey. exact (Hk y (nth_error_In _ _ Ex) Ey). }
      destruct (IH run e2 e0) as (sims & e' & E & F); [exact P2|exact HF'|exact HR|exact HO2|cbn; congruence| |].
      { intros run' z' rest' Eq j x y Ex Ey _. rewrite (HE2 j x y Ex Ey). reflexivity. }
      rewrite E. exists (e2 :: sims), e'. split; [reflexivity|]. constructor; [|exact F]. cbn [fst snd].
      split; [exact HE2|]. split; [exact HO2|]. split; [cbn [read e2 set_par pars]; apply aget_aset_same|cbn; congruence].
  Qed.
End Bits.

Lemma wc_runs_gen : forall w todo last e,
  wc_runs w todo last e = gen_runs (fun x b => wc_value b x) w (map (fun r => (r, Z.of_N r)) todo) last e.
Proof. induction todo as [|r t IH]; intros last e; [reflexivity|]. cbn [wc_runs gen_runs map]. destruct (change_run _ w r last e); [|reflexivity]. cbv zeta. rewrite IH. reflexivity. Qed.
Lemma qs_runs_gen : forall w todo last e,
  qs_runs w todo last e = gen_runs qs_value w (map (fun r => ((2 ^ N.of_nat r)%N, Z.of_nat r)) todo) last e.
Proof. induction todo as [|r t IH]; intros last e; [reflexivity|]. cbn [qs_runs gen_runs map]. cbv zeta. destruct (change_run _ w _ last e); [|reflexivity]. rewrite IH. reflexivity. Qed.
