From Coq Require Import String Ascii List Bool Arith QArith Qabs Lqa Lia Sorted.
From Coq Require FinFun.
From Verif Require Import PyStr EngModel StepsModel MrgModel MrgSpec MrgProofs MrgProofs2 MrgProps CrfModel CrfSpec.
Import ListNotations.
Local Open Scope string_scope. Local Open Scope nat_scope. Local Open Scope list_scope.

Fixpoint calls (save : list str) (k : nat) (tasks : list rtask) : list call :=
  match tasks with
  | [] => []
  | t :: r => match k_raw t with
              | Some _ => call_for save k (k_runno t) :: calls save (S k) r
              | None => calls save (S k) r
              end
  end.
Definition all_raw (tasks : list rtask) : bool := forallb (fun t => match k_raw t with Some _ => true | None => false end) tasks.

Lemma add_tasks_calls srcs save : forall tasks k ok st,
  add_tasks srcs save k tasks ok st =
  option_map (fun st' => (ok && all_raw tasks, st')) (add_calls srcs (calls save k tasks) st).
Proof.
  induction tasks as [|t tasks IH]; intros k ok st; cbn [add_tasks calls all_raw forallb].
  - cbn. rewrite andb_true_r. reflexivity.
  - destruct (k_raw t) as [s|].
    + cbn [add_calls]. destruct (add_traces srcs (call_for save k (k_runno t)) st) as [st'|]; [apply IH|reflexivity].
    + rewrite IH. rewrite andb_false_r. reflexivity.
Qed.

Lemma err_pos : (0 < default_error)%Q.
Proof. reflexivity. Qed.

(** The calls for the tasks [r] that follow [pre]. *)
Lemma calls_aligned save ty what n : forall r pre,
  Forall (fun rs => usable n save (snd rs) /\ same_kind (snd rs) ty what) (with_file r) ->
  Forall (aligned (sources (pre ++ r)) n ty what) (calls save (length pre) r).
Proof.
  induction r as [|t r IH]; intros pre F; cbn [calls]; [constructor|].
  assert (length (pre ++ [t]) = S (length pre)) as L by (rewrite app_length; cbn; lia).
  replace (pre ++ t :: r) with ((pre ++ [t]) ++ r) by (rewrite <- app_assoc; reflexivity).
  unfold with_file in F. cbn [flat_map] in F. destruct (k_raw t) as [s|] eqn:K.
  - inversion F as [|x l [U SK] F']; subst. cbn [snd] in *. constructor.
    + assert (sources ((pre ++ [t]) ++ r) (length pre) = s) as ES.
      { unfold sources. rewrite <- app_assoc. cbn [app]. rewrite nth_error_app2, Nat.sub_diag by lia. cbn.
        destruct t as [m q]. cbn in K. subst. reflexivity. }
      destruct U as (U1 & U2 & U3). unfold aligned, call_for. cbn [c_align c_err c_step c_minstep c_src c_names].
      rewrite ES. split; [reflexivity|]. split; [exact err_pos|]. split; [reflexivity|]. split; [reflexivity|].
      split; [exact SK|]. split; [exact U1|]. split; [exact U2|exact U3].
    + rewrite <- L. apply IH. exact F'.
  - rewrite <- L. apply IH. exact F.
Qed.

Lemma calls_length save : forall r k, length (calls save k r) = length (with_file r).
Proof.
  induction r as [|t r IH]; intros k; [reflexivity|]. unfold with_file. cbn [calls flat_map].
  rewrite app_length. destruct (k_raw t); cbn [length]; rewrite IH; reflexivity.
Qed.

Lemma calls_src save : forall r k c, In c (calls save k r) -> k <= c_src c.
Proof.
  induction r as [|t r IH]; intros k c I; [destruct I|]. cbn [calls] in I.
  destruct (k_raw t); [destruct I as [<-|I]; [cbn; lia|]|]; apply IH in I; lia.
Qed.

Lemma wanted_nodup save : NoDup save -> forall r k, NoDup (map fst (wanted (calls save k r))).
Proof.
  intros ND. induction r as [|t r IH]; intros k; cbn [calls]; [constructor|].
  destruct (k_raw t) as [s|]; [|apply IH].
  unfold wanted. cbn [flat_map]. rewrite map_app, map_map. cbn [fst].
  assert (forall (l1 l2 : list (nat * str)), NoDup l1 -> NoDup l2 -> (forall x, In x l1 -> ~ In x l2) -> NoDup (l1 ++ l2)) as NA.
  { induction l1 as [|a l1 IHl]; intros l2 H1 H2 H3; [exact H2|]. inversion H1; subst. cbn [app]. constructor.
    - rewrite in_app_iff. intros [H|H]; [contradiction|]. apply (H3 a); [left; reflexivity|exact H].
    - apply IHl; [assumption|assumption|]. intros x Hx. apply H3. right. exact Hx. }
  apply NA.
  - apply FinFun.Injective_map_NoDup; [|exact ND]. intros a b E. injection E as E. exact E.
  - apply IH.
  - intros [k' x] I1 I2. apply in_map_iff in I1 as (y & E & _). injection E as <- <-.
    apply in_map_iff in I2 as ([[k2 y2] r2] & E & I2). cbn [fst] in E. injection E as -> ->.
    apply in_flat_map in I2 as (c & I2 & I3). apply calls_src in I2.
    apply in_map_iff in I3 as (z & E & _). injection E as E _ _. lia.
Qed.

Lemma wanted_traces_ok save ts : forall r pre ims,
  Forall2 (fun q t' => exists t, has_trace (sources (pre ++ r) (fst (fst q))) 0 (snd (fst q)) t /\
                t_name t' = rename (snd q) (snd (fst q)) /\ t_num t' = st_num t /\ (ordinary (t_name t') -> t_what t' = st_what t) /\
                resampled (st_wave (s_ax (sources (pre ++ r) (fst (fst q)))) 0) (st_wave t 0) ts (t_data t'))
    (wanted (calls save (length pre) r)) ims ->
  Forall2 (is_trace_of ts) (wanted_traces (with_file r) save) ims.
Proof.
  induction r as [|t r IH]; intros pre ims F; cbn [calls] in F.
  - inversion F; subst. constructor.
  - assert (length (pre ++ [t]) = S (length pre)) as L by (rewrite app_length; cbn; lia).
    replace (pre ++ t :: r) with ((pre ++ [t]) ++ r) in F by (rewrite <- app_assoc; reflexivity).
    unfold with_file, wanted_traces. cbn [flat_map]. destruct (k_raw t) as [s|] eqn:K.
    + unfold wanted in F. cbn [flat_map] in F. cbn [app flat_map].
      apply Forall2_app_inv_l in F as (i1 & i2 & F1 & F2 & ->). apply Forall2_app.
      * clear F2 IH.
        assert (sources ((pre ++ [t]) ++ r) (length pre) = s) as ES.
        { unfold sources. rewrite <- app_assoc. cbn [app]. rewrite nth_error_app2, Nat.sub_diag by lia. cbn.
          destruct t as [m q]. cbn in K. subst. reflexivity. }
        cbn [call_for c_src c_names c_ren] in F1. revert i1 F1. generalize save as l. induction l as [|x l IHl]; intros i1 F1;
          cbn [map] in *; inversion F1 as [|? ? ? ? H F1']; subst; constructor.
        -- exact H.
        -- apply IHl. exact F1'.
      * apply (IH (pre ++ [t])). rewrite L. exact F2.
    + cbn [app]. apply (IH (pre ++ [t])). rewrite L. exact F.
Qed.

(** The state after the first task. *)
Lemma first_call title n0 s0 rest save trs :
  Forall2 (fun n t => StepsModel.dget n (s_traces s0) = Some t) save trs ->
  add_traces (sources (Task n0 (Some s0) :: rest)) (call_for save 0 n0) (new_raw title, file_names) =
  Some (Writer (num_type (s_flags s0)) (existsb (str_eqb (s2l "forward")) (s_flags s0)) (existsb (str_eqb (s2l "log")) (s_flags s0))
          (s_plot s0)
          (mk_trace (s_ax_name s0) (st_wave (s_ax s0) 0) (st_what (s_ax s0)) (st_num (s_ax s0))
           :: map (fun nt => mk_trace (rename (AddTag (dec n0)) (fst nt)) (st_wave (snd nt) 0) (st_what (snd nt)) (st_num (snd nt)))
                  (combine save trs)) [] [], file_names).
Proof.
  intros F. unfold add_traces, new_raw. cbn [w_traces]. unfold add_data. cbn [w_traces call_for c_minstep c_src c_step c_names c_ren].
  change (Qltb 0 0) with false. cbn [orb]. cbn [mk_trace t_data]. unfold sources at 1. cbn [nth_error].
  rewrite Nat.eqb_refl. rewrite (append_ok _ _ _ _ _ _ trs) by exact F. reflexivity.
Qed.

Lemma map_combine_len : forall (s0 : source) save trs k,
  Forall2 (fun n t => StepsModel.dget n (s_traces s0) = Some t /\ length (st_wave t 0) = k) save trs ->
  forall r, Forall (fun t => length (t_data t) = k)
    (map (fun nt => mk_trace (rename r (fst nt)) (st_wave (snd nt) 0) (st_what (snd nt)) (st_num (snd nt))) (combine save trs)).
Proof.
  intros s0 save trs k F r. induction F as [|n t l ts (A & B) F IH]; cbn [combine map]; constructor; [exact B|exact IH].
Qed.

Lemma found_first (s0 : source) : forall save, Forall (fun x => exists t, has_trace s0 0 x t) save ->
  exists trs, Forall2 (fun n t => StepsModel.dget n (s_traces s0) = Some t /\ length (st_wave t 0) = length (st_wave (s_ax s0) 0)) save trs.
Proof.
  intros save F. induction F as [|x l (t & T) F (trs & IH)]; [exists []; constructor|].
  exists (t :: trs). constructor; [exact T|exact IH].
Qed.

