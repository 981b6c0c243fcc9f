From Coq Require Import String Ascii List Bool Arith Lia Permutation Sorted.
From Verif Require Import PyStr StepperModel StepperSpec StepperProofs CsvModel CsvSpec.
Import ListNotations.
Local Open Scope string_scope. Local Open Scope nat_scope. Local Open Scope list_scope.

(* ---- the reader reads what the writer writes ---- *)
Definition ends (d c : ascii) : bool := aeqb c d || aeqb c carriage_return.
Definition after_field (d c : ascii) (row : list field) rows (t : str) :=
  if aeqb c d then reads_from d Start row rows t else reads_from d AfterCR row rows t.

Lemma q_neq_ends d c : good_delimiter d -> ends d c = true -> aeqb c quote = false.
Proof.
  intros (H1 & H2 & H3 & _). unfold ends. rewrite orb_true_iff, !aeqb_eq.
  intros [-> | ->]; apply aeqb_neq; [assumption|discriminate].
Qed.

Lemma read_escaped d row rows : forall s acc t,
  reads_from d (InQuoted acc) row rows (flat_map (fun c => if aeqb c DQ then [DQ; DQ] else [c]) s ++ t)
  = reads_from d (InQuoted (acc ++ s)) row rows t.
Proof.
  induction s as [|c s IH]; intros acc t; [rewrite app_nil_r; reflexivity|].
  cbn [flat_map]. rewrite <- app_assoc. destruct (aeqb c DQ) eqn:E.
  - cbn [app reads_from]. change (aeqb DQ quote) with true. cbn [reads_from].
    change (aeqb DQ quote) with true. rewrite IH. apply aeqb_eq in E. subst. rewrite <- app_assoc. reflexivity.
  - cbn [app reads_from]. change quote with DQ. rewrite E. rewrite IH. rewrite <- app_assoc. reflexivity.
Qed.

Lemma read_quoted d c t row rows s : good_delimiter d -> ends d c = true ->
  reads_from d Start row rows (quoted s ++ c :: t) = after_field d c (row ++ [Quoted s]) rows t.
Proof.
  intros G E. unfold quoted. cbn [app]. rewrite <- app_assoc.
  cbn [reads_from]. change (aeqb DQ quote) with true. cbv iota.
  rewrite read_escaped. cbn [app]. cbn [reads_from]. change (aeqb DQ quote) with true. cbv iota.
  rewrite (q_neq_ends d c G E). unfold ends in E. rewrite E. reflexivity.
Qed.

Lemma bare_char d c : ~ (c = d) -> ~ (c = quote) -> ~ (c = carriage_return) -> ~ (c = line_feed) ->
  aeqb c d = false /\ aeqb c quote = false /\ aeqb c carriage_return = false /\ aeqb c line_feed = false.
Proof. intros. repeat split; apply aeqb_neq; assumption. Qed.

Definition clean (d : ascii) (s : str) : Prop :=
  ~ In d s /\ ~ In quote s /\ ~ In carriage_return s /\ ~ In line_feed s.

Lemma read_bare_more d c t row rows : good_delimiter d -> ends d c = true -> forall s acc, clean d s ->
  reads_from d (InBare acc) row rows (s ++ c :: t) = after_field d c (row ++ [Bare (acc ++ s)]) rows t.
Proof.
  intros G E. induction s as [|x s IH]; intros acc (A1 & A2 & A3 & A4).
  - cbn [app reads_from]. unfold ends in E. rewrite E, app_nil_r. reflexivity.
  - cbn [app reads_from].
    destruct (bare_char d x) as (B1 & B2 & B3 & B4); try (intros ->; cbn in *; tauto).
    rewrite B1, B2, B3, B4. cbn [orb]. rewrite IH.
    + rewrite <- app_assoc. reflexivity.
    + cbn in *. repeat split; tauto.
Qed.

Lemma read_bare d c t row rows s : good_delimiter d -> ends d c = true -> clean d s -> s <> [] ->
  reads_from d Start row rows (s ++ c :: t) = after_field d c (row ++ [Bare s]) rows t.
Proof.
  intros G E C N. destruct s as [|x s]; [congruence|]. cbn [app reads_from].
  destruct C as (A1 & A2 & A3 & A4).
  destruct (bare_char d x) as (B1 & B2 & B3 & B4); try (intros ->; cbn in *; tauto).
  rewrite B1, B2, B3, B4. cbn [orb].
  change (Bare (x :: s)) with (Bare ([x] ++ s)). apply read_bare_more; auto.
  cbn in *. repeat split; tauto.
Qed.

Lemma not_special d s : clean d s -> existsb (special d) s = false.
Proof.
  intros (A1 & A2 & A3 & A4). apply Bool.not_true_iff_false. intros H. apply existsb_exists in H.
  destruct H as (x & I & H). unfold special in H. rewrite !orb_true_iff, !aeqb_eq in H.
  destruct H as [[[-> | ->] | ->] | ->]; tauto.
Qed.

Lemma s2l_nil s : s2l s = [] -> s = "".
Proof. destruct s; [reflexivity|discriminate]. Qed.

Lemma read_field d c t row rows v : good_delimiter d -> plain_number d v -> ends d c = true ->
  reads_from d Start row rows (field_text d v ++ c :: t) = after_field d c (row ++ [field_of v]) rows t.
Proof.
  intros G P E. destruct v as [s|s]; cbn [field_text field_of].
  - apply read_quoted; assumption.
  - destruct P as (N & P). rewrite not_special by exact P. apply read_bare; auto.
    intros H. apply N, s2l_nil, H.
Qed.

Lemma after_delim d row rows t : after_field d d row rows t = reads_from d Start row rows t.
Proof. unfold after_field. rewrite aeqb_refl. reflexivity. Qed.

Lemma after_cr d row rows t : good_delimiter d ->
  after_field d CR row rows (LF :: t) = reads_from d Start [] (rows ++ [row]) t.
Proof.
  intros (H1 & H2 & H3 & H4). unfold after_field.
  assert (aeqb CR d = false) as -> by (apply aeqb_neq; intros <-; apply H2; reflexivity).
  cbn [reads_from]. change (aeqb LF line_feed) with true. reflexivity.
Qed.

Lemma read_fields d rows t : good_delimiter d -> forall vs row, vs <> [] -> Forall (plain_number d) vs ->
  reads_from d Start row rows (joined d (map (field_text d) vs) ++ CR :: LF :: t)
  = reads_from d Start [] (rows ++ [row ++ map field_of vs]) t.
Proof.
  intros G. induction vs as [|v vs IH]; intros row N P; [congruence|].
  inversion P as [|? ? Pv Pvs]; subst. destruct vs as [|w vs].
  - cbn [map joined]. rewrite read_field; auto.
    + apply after_cr. assumption.
    + unfold ends. rewrite orb_true_iff. right. reflexivity.
  - change (joined d (map (field_text d) (v :: w :: vs)))
      with (field_text d v ++ d :: joined d (map (field_text d) (w :: vs))).
    rewrite <- app_assoc. cbn [app]. rewrite read_field; auto.
    + rewrite after_delim, IH by (auto; discriminate). rewrite <- app_assoc. reflexivity.
    + unfold ends. rewrite aeqb_refl. reflexivity.
Qed.

Lemma read_row d rows t vs : good_delimiter d -> vs <> [] -> Forall (plain_number d) vs ->
  reads_from d Start [] rows (row_text d vs ++ t) = reads_from d Start [] (rows ++ [map field_of vs]) t.
Proof.
  intros G N P. unfold row_text. rewrite <- app_assoc. cbn [app]. apply (read_fields d rows t G vs []); auto.
Qed.

Lemma read_rows d : good_delimiter d -> forall ls rows,
  Forall (fun vs => vs <> [] /\ Forall (plain_number d) vs) ls ->
  reads_from d Start [] rows (flat_map (row_text d) ls) = Some (rows ++ map (map field_of) ls).
Proof.
  intros G. induction ls as [|vs ls IH]; intros rows F.
  - cbn. rewrite app_nil_r. reflexivity.
  - inversion F as [|? ? [N P] F']; subst. cbn [flat_map map]. rewrite read_row by assumption.
    rewrite IH by assumption. rewrite <- app_assoc. reflexivity.
Qed.

(* ---- dictionaries ---- *)
Lemma vget_vset d k v k' : vget (vset k v d) k' = if String.eqb k' k then Some v else vget d k'.
Proof.
  unfold vget. induction d as [|[x y] d IH]; cbn [vset find fst].
  - destruct (String.eqb k' k) eqn:E; reflexivity.
  - destruct (String.eqb k x) eqn:E; cbn [find fst].
    + apply String.eqb_eq in E. subst. destruct (String.eqb k' x); reflexivity.
    + destruct (String.eqb k' x) eqn:E2; [|exact IH].
      apply String.eqb_eq in E2. subst. rewrite String.eqb_sym, E. reflexivity.
Qed.

Definition add_name (names : list string) (k : string) : list string :=
  if in_dec string_dec k names then names else names ++ [k].

Lemma keys_vset d k v : map fst (vset k v d) = add_name (map fst d) k.
Proof.
  unfold add_name. induction d as [|[x y] d IH]; cbn [vset map fst].
  - destruct in_dec as [[]|]. reflexivity.
  - destruct (String.eqb k x) eqn:E; cbn [map fst].
    + apply String.eqb_eq in E. subst. clear IH. destruct (in_dec string_dec x (x :: map fst d)) as [_|N]; [reflexivity|]. elim N. left. reflexivity.
    + apply String.eqb_neq in E. rewrite IH. destruct (in_dec string_dec k (map fst d)) as [I|I];
        destruct (in_dec string_dec k (x :: map fst d)) as [J|J]; try reflexivity.
      * elim J. right. exact I.
      * elim I. destruct J as [J|J]; [congruence|exact J].
Qed.

Lemma names_after_app names a b : names_after names (a ++ b) = names_after (names_after names a) b.
Proof. revert names. induction a as [|d a IH]; intros names; [reflexivity|]. apply IH. Qed.

Lemma names_after_snoc names a d :
  names_after names (a ++ [d]) = add_name (names_after names a) (snd (d_target d)).
Proof. rewrite names_after_app. reflexivity. Qed.

Lemma add_name_In names k x : In x (add_name names k) <-> In x names \/ x = k.
Proof.
  unfold add_name. destruct in_dec as [I|I].
  - split; [tauto|]. intros [H| ->]; assumption.
  - rewrite in_app_iff. cbn. split; intros [H|H]; auto. destruct H as [->|[]]; auto.
Qed.

Lemma names_after_In : forall dims names x,
  In x (names_after names dims) <-> In x names \/ In x (map (fun d => snd (d_target d)) dims).
Proof.
  induction dims as [|d dims IH]; intros names x; [cbn; tauto|].
  cbn [names_after map In]. fold (add_name names (snd (d_target d))).
  rewrite IH, add_name_In. intuition.
Qed.

Lemma add_name_here names k : In k names -> add_name names k = names.
Proof. intros H. unfold add_name. destruct in_dec; [reflexivity|contradiction]. Qed.

Lemma add_name_NoDup names k : NoDup names -> NoDup (add_name names k).
Proof.
  intros H. unfold add_name. destruct in_dec as [I|I]; [assumption|].
  apply NoDup_app_intro; [assumption|repeat constructor; auto|]. intros x Hx [<-|[]]. contradiction.
Qed.

Lemma names_after_NoDup : forall dims names, NoDup names -> NoDup (names_after names dims).
Proof.
  induction dims as [|d dims IH]; intros names H; [assumption|]. apply IH. apply add_name_NoDup, H.
Qed.

Lemma vget_In d k v : vget d k = Some v -> In (k, v) d.
Proof.
  unfold vget. destruct (find _ d) as [[x y]|] eqn:E; [|discriminate]. intros H. injection H as <-.
  apply find_some in E as [I E]. cbn in E. apply String.eqb_eq in E. subst. exact I.
Qed.

Lemma vget_key d k : In k (map fst d) -> exists v, vget d k = Some v.
Proof.
  unfold vget. intros H. apply in_map_iff in H as ([x y] & E & I). cbn in E. subst.
  destruct (find (fun e => String.eqb k (fst e)) d) as [e|] eqn:F; [eauto|].
  exfalso. apply (find_none _ _ F) in I. cbn in I. rewrite String.eqb_refl in I. discriminate.
Qed.

Lemma vget_none d k : ~ In k (map fst d) -> vget d k = None.
Proof.
  intros H. destruct (vget d k) as [v|] eqn:E; [|reflexivity].
  elim H. apply vget_In in E. apply in_map_iff. exists (k, v). split; [reflexivity|exact E].
Qed.

(* ---- writing the rows ---- *)
Lemma write_rows_ok d names : forall l f rows,
  Forall2 (fun e cells => dict_row names (numbered e) = Some cells) l rows ->
  write_rows d names l f = Written (f ++ flat_map (row_text d) rows).
Proof.
  induction l as [|e l IH]; intros f rows H; inversion H; subst; cbn [write_rows flat_map].
  - rewrite app_nil_r. reflexivity.
  - match goal with H : dict_row _ _ = Some _ |- _ => rewrite H end.
    rewrite (IH _ l'); [|assumption]. rewrite <- app_assoc. reflexivity.
Qed.

Lemma fold_vset_get : forall l d k,
  vget (fold_left (fun d kv => vset (fst kv) (snd kv) d) l d) k
  = match vget (rev l) k with Some v => Some v | None => vget d k end.
Proof.
  induction l as [|[x y] l IH]; intros d k; [reflexivity|].
  cbn [fold_left fst snd rev]. rewrite IH, vget_vset. unfold vget.
  assert (forall a b, find (fun e : string * value => String.eqb k (fst e)) (a ++ b)
            = match find (fun e => String.eqb k (fst e)) a with Some e => Some e
              | None => find (fun e => String.eqb k (fst e)) b end) as FA.
  { induction a as [|z a IHa]; intros b; [reflexivity|]. cbn [app find]. destruct (String.eqb k (fst z)); auto. }
  rewrite FA. cbn [find fst].
  destruct (find _ (rev l)) as [e|]; [reflexivity|]. destruct (String.eqb k x); reflexivity.
Qed.

Lemma vget_perm_NoDup d k v : NoDup (map fst d) -> In (k, v) d -> vget d k = Some v.
Proof.
  unfold vget. induction d as [|[x y] d IH]; cbn [map fst find]; intros N I; [destruct I|].
  inversion N as [|? ? N1 N2]; subst. destruct (String.eqb k x) eqn:E.
  - apply String.eqb_eq in E. subst. destruct I as [I|I]; [injection I as <-; reflexivity|].
    elim N1. apply in_map_iff. exists (x, v). auto.
  - destruct I as [I|I]; [injection I as -> ->; rewrite String.eqb_refl in E; discriminate|]. auto.
Qed.

Lemma vget_rev d k : NoDup (map fst d) -> vget (rev d) k = vget d k.
Proof.
  intros N. destruct (vget d k) as [v|] eqn:E.
  - apply vget_perm_NoDup.
    + rewrite map_rev. apply NoDup_rev. exact N.
    + apply -> in_rev. apply vget_In, E.
  - apply vget_none. intros H. rewrite map_rev, <- in_rev in H. apply vget_key in H as [v E']. congruence.
Qed.

Lemma numbered_get n r k : NoDup (map fst r) -> ~ In "runno" (map fst r) ->
  vget (numbered (n, r)) k
  = if String.eqb k "runno" then Some (VNumber (string_of_list_ascii (dec n))) else vget r k.
Proof.
  intros N I. unfold numbered. cbn [fst snd]. rewrite fold_vset_get, vget_rev by assumption.
  destruct (String.eqb k "runno") eqn:E.
  - apply String.eqb_eq in E. subst. rewrite vget_none by assumption. reflexivity.
  - unfold vget at 2. cbn [find fst]. rewrite E. destruct (vget r k); reflexivity.
Qed.

Lemma fold_vset_keys : forall l d x,
  In x (map fst (fold_left (fun d kv => vset (fst kv) (snd kv) d) l d)) <-> In x (map fst d) \/ In x (map fst l).
Proof.
  induction l as [|[k v] l IH]; intros d x; [cbn; tauto|].
  cbn [fold_left fst snd map In]. rewrite IH, keys_vset, add_name_In. intuition.
Qed.

Lemma numbered_keys n r x : In x (map fst (numbered (n, r))) <-> x = "runno" \/ In x (map fst r).
Proof. unfold numbered. cbn [fst snd]. rewrite fold_vset_keys. cbn. intuition. Qed.

Lemma dict_row_ok names row : (forall x, In x (map fst row) -> In x names) ->
  dict_row names row
  = Some (map (fun k => match vget row k with Some v => v | None => VText "" end) names).
Proof.
  intros H. unfold dict_row.
  assert (forallb (fun e => existsb (String.eqb (fst e)) names) row = true) as ->; [|reflexivity].
  apply forallb_forall. intros e I. apply existsb_exists. exists (fst e).
  rewrite String.eqb_refl. split; [|reflexivity]. apply H, in_map, I.
Qed.

Lemma dict_row_bad names row x : In x (map fst row) -> ~ In x names -> dict_row names row = None.
Proof.
  intros H N. unfold dict_row.
  destruct (forallb _ row) eqn:E; [|reflexivity]. rewrite forallb_forall in E.
  apply in_map_iff in H as (e & <- & I). apply E in I. apply existsb_exists in I as (y & Y & I).
  apply String.eqb_eq in I. subst. contradiction.
Qed.

(* ---- sorting ---- *)
Lemma insert_perm e l : Permutation (e :: l) (insert_run e l).
Proof.
  induction l as [|x l IH]; cbn [insert_run]; [reflexivity|].
  destruct (fst e <=? fst x); [reflexivity|].
  rewrite perm_swap. constructor. exact IH.
Qed.
Lemma sorted_perm i : Permutation i (sorted_runs i).
Proof.
  induction i as [|e i IH]; [constructor|].
  change (sorted_runs (e :: i)) with (insert_run e (sorted_runs i)).
  rewrite <- insert_perm. constructor. exact IH.
Qed.
Lemma insert_sorted e : forall l, StronglySorted le (map fst l) -> StronglySorted le (map fst (insert_run e l)).
Proof.
  induction l as [|x l IH]; intros H; cbn [insert_run].
  - repeat constructor.
  - inversion H as [|? ? H1 H2]; subst. destruct (Nat.leb_spec (fst e) (fst x)) as [L|L].
    + cbn [map]. constructor; [exact H|]. constructor; [exact L|].
      eapply Forall_impl; [|exact H2]. intros; lia.
    + cbn [map]. constructor; [apply IH; assumption|].
      rewrite Forall_forall in *. intros y Hy.
      assert (In y (map fst (e :: l))) as Hy'.
      { eapply Permutation_in; [|exact Hy]. apply Permutation_sym, Permutation_map, insert_perm. }
      destruct Hy' as [<-|Hy']; [lia|auto].
Qed.
Lemma sorted_sorted i : StronglySorted le (map fst (sorted_runs i)).
Proof. induction i as [|e i IH]; [constructor|]. apply insert_sorted, IH. Qed.

Lemma sorted_id i : StronglySorted lt (map fst i) -> sorted_runs i = i.
Proof.
  induction i as [|e i IH]; intros H; [reflexivity|].
  change (sorted_runs (e :: i)) with (insert_run e (sorted_runs i)).
  cbn [map] in H. inversion H as [|? ? H1 H2]; subst. rewrite IH by assumption.
  destruct i as [|x i]; [reflexivity|]. cbn [insert_run].
  cbn [map] in H2. inversion H2; subst. destruct (Nat.leb_spec (fst e) (fst x)); [reflexivity|lia].
Qed.

(* ---- the export ---- *)
Definition row_of (names : list string) (e : nat * values) : list value :=
  VNumber (string_of_list_ascii (dec (fst e)))
  :: map (fun k => match vget (snd e) k with Some v => v | None => VText "" end) names.

Lemma s2l_back s : s2l (string_of_list_ascii s) = s.
Proof. apply list_ascii_of_string_of_list_ascii. Qed.

Lemma plain_dec d n : good_delimiter d -> plain_number d (VNumber (string_of_list_ascii (dec n))).
Proof.
  intros (H1 & H2 & H3 & H4). cbn [plain_number]. rewrite s2l_back. split.
  - intros E. apply (dec_not_nil n). rewrite <- (s2l_back (dec n)), E. reflexivity.
  - repeat split; apply dec_no_char; try reflexivity. exact H4.
Qed.

Lemma export_ok d n first rest i :
  good_delimiter d ->
  sorted_runs i = (n, first) :: rest ->
  Forall (fun e => NoDup (map fst (snd e)) /\ ~ In "runno" (map fst (snd e)) /\
                   (forall x, In x (map fst (snd e)) -> In x (map fst first)) /\
                   Forall (fun kv => plain_number d (snd kv)) (snd e)) ((n, first) :: rest) ->
  exists file, export_step_info d i = Written file /\
    reads d file = Some ((Quoted (s2l "runno") :: map (fun k => Quoted (s2l k)) (map fst first))
                         :: map (fun e => map field_of (row_of (map fst first) e)) ((n, first) :: rest)).
Proof.
  intros G S F. unfold export_step_info. rewrite S.
  rewrite (write_rows_ok d _ _ _ (map (row_of (map fst first)) ((n, first) :: rest))).
  - eexists. split; [reflexivity|]. unfold reads.
    rewrite read_row; [|assumption|discriminate|].
    + rewrite read_rows; [|assumption|].
      * cbn [app]. f_equal. f_equal.
        -- cbn [map field_of]. rewrite !map_map. reflexivity.
        -- rewrite map_map. reflexivity.
      * apply Forall_forall. intros vs I. apply in_map_iff in I as (e & <- & I).
        split; [discriminate|]. unfold row_of. constructor; [apply plain_dec; assumption|].
        rewrite Forall_forall in F. destruct (F e I) as (_ & _ & _ & P).
        apply Forall_forall. intros v Hv. apply in_map_iff in Hv as (k & <- & Hk).
        destruct (vget (snd e) k) as [v|] eqn:E; [|exact Logic.I].
        apply vget_In in E. rewrite Forall_forall in P. apply (P _ E).
    + apply Forall_forall. intros v Hv. apply in_map_iff in Hv as (k & <- & _). exact Logic.I.
  - assert (~ In "runno" (map fst first)) as NR by (inversion F as [|? ? (_ & R & _) _]; exact R).
    clear S. induction F as [|[m r] l (N & R & K & P) F IH]; [constructor|].
    cbn [map]. constructor; [|exact IH]. cbn [fst snd] in *.
    rewrite dict_row_ok.
    + f_equal. cbn [map]. unfold row_of. cbn [fst snd]. f_equal.
      * rewrite numbered_get by assumption. reflexivity.
      * apply map_ext_in. intros k Ik. rewrite numbered_get by assumption.
        destruct (String.eqb k "runno") eqn:E; [|reflexivity].
        apply String.eqb_eq in E. subst k. contradiction.
    + intros x Hx. apply numbered_keys in Hx as [->|Hx]; [left; reflexivity|right; auto].
Qed.

(** A row with a name the first row has not. *)
Lemma write_rows_bad d names : forall l f, (exists e x, In e l /\ In x (map fst (snd e)) /\ ~ In x names) ->
  exists g, write_rows d names l f = BadRow g.
Proof.
  induction l as [|[n r] l IH]; intros f (e & x & I & X & N); [destruct I|].
  cbn [write_rows]. destruct (dict_row names (numbered (n, r))) as [cells|] eqn:E; [|eauto].
  destruct I as [<-|I].
  - cbn [snd] in X. rewrite (dict_row_bad names _ x) in E; [discriminate| |exact N].
    apply numbered_keys. right. exact X.
  - apply IH. exists e, x. auto.
Qed.
