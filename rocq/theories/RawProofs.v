From Coq Require Import String Ascii List Bool Arith Lia.
From Verif Require Import PyStr RawModel RawSpec.
Import ListNotations.
Local Open Scope string_scope.
Local Open Scope nat_scope.
Local Open Scope list_scope.

(** * Slices *)
Lemma skipn_skipn : forall {A} a b (l : list A), skipn a (skipn b l) = skipn (b + a) l.
Proof.
  intros A a b. induction b as [|b IH]; intros l; [reflexivity|].
  destruct l as [|x l]; [rewrite !skipn_nil; reflexivity|]. simpl. apply IH.
Qed.

Lemma slice_slice : forall a w b len bs, a + w <= len -> slice a w (slice b len bs) = slice (b + a) w bs.
Proof.
  intros a w b len bs H. unfold slice. rewrite skipn_firstn_comm, firstn_firstn, skipn_skipn.
  rewrite Nat.min_l by lia. reflexivity.
Qed.

Lemma slice_all : forall bs, slice 0 (length bs) bs = bs.
Proof. intros bs. unfold slice. simpl. apply firstn_all. Qed.

Lemma slice_length : forall off len bs, off + len <= length bs -> length (slice off len bs) = len.
Proof. intros. unfold slice. rewrite firstn_length, skipn_length. lia. Qed.

Lemma read_bytes_ok : forall p off len, off + len <= length (p_data p) ->
  read_bytes p off len = Some (slice off len (p_data p)).
Proof.
  intros p off len H. unfold read_bytes. rewrite (slice_length _ _ _ H), Nat.ltb_irrefl. reflexivity.
Qed.

Lemma map_seq_ext : forall {A} (f g : nat -> A) n, (forall k, k < n -> f k = g k) -> map f (seq 0 n) = map g (seq 0 n).
Proof.
  intros A f g n H. apply map_ext_in. intros k Hk. apply H. apply in_seq in Hk. lia.
Qed.

Lemma widths_S : forall p i x, nth_error (p_info p) i = Some x -> widths p (S i) = widths p i + width (idt x).
Proof.
  intros p. unfold widths. generalize (p_info p). intros l. induction l as [|y l IH]; intros i x H; [destruct i; discriminate|].
  destruct i as [|i]; simpl in H.
  - injection H as ->. simpl. lia.
  - specialize (IH i x H).
    change (width (idt y) + list_sum (map (fun x0 => width (idt x0)) (firstn (S i) l)) =
            width (idt y) + list_sum (map (fun x0 => width (idt x0)) (firstn i l)) + width (idt x)). lia.
Qed.

Lemma widths_mono : forall p i j, i <= j -> widths p i <= widths p j.
Proof.
  intros p i j H. unfold widths. replace (firstn j (p_info p)) with (firstn i (p_info p) ++ firstn (j - i) (skipn i (p_info p))).
  - rewrite map_app, list_sum_app. lia.
  - rewrite <- (firstn_skipn i (firstn j (p_info p))). rewrite firstn_firstn, Nat.min_l by lia.
    rewrite skipn_firstn_comm. reflexivity.
Qed.

Lemma widths_le : forall p i, widths p i <= widths p (length (p_info p)).
Proof.
  intros p i. destruct (Nat.le_gt_cases i (length (p_info p))) as [H|H]; [apply widths_mono; exact H|].
  unfold widths. rewrite !firstn_all2 by lia. lia.
Qed.

Lemma record_widths : forall p, record_size p = widths p (length (p_info p)).
Proof. intros p. unfold record_size, widths. rewrite firstn_all. reflexivity. Qed.

Lemma fast_content : forall p i x, p_fast p = true -> nth_error (p_info p) i = Some x ->
  frombuffer (width (idt x)) (p_npoints p) (slice (p_npoints p * widths p i) (p_npoints p * width (idt x)) (p_data p))
  = content p i x.
Proof.
  intros p i x Hf Hx. unfold frombuffer, content, stored. rewrite Hf. apply map_seq_ext. intros k Hk.
  apply slice_slice. nia.
Qed.

Lemma normal_content : forall p i x, p_fast p = false -> nth_error (p_info p) i = Some x ->
  field (record_size p) (widths p i) (width (idt x)) (p_npoints p) (slice 0 (p_npoints p * record_size p) (p_data p))
  = content p i x.
Proof.
  intros p i x Hf Hx. unfold field, content, stored. rewrite Hf, record_widths. apply map_seq_ext. intros k Hk.
  pose proof (widths_S _ _ _ Hx) as HS. pose proof (widths_le p (S i)) as HL.
  rewrite slice_slice by lia. rewrite slice_slice; [reflexivity|]. nia.
Qed.

(** * Dictionaries *)
Lemma eget_eset : forall k v d k', eget k' (eset k v d) = if str_eqb k k' then Some v else eget k' d.
Proof.
  intros k v d k'. unfold eget. induction d as [|[k1 v1] d IH]; simpl.
  - destruct (str_eqb k k'); reflexivity.
  - destruct (str_eqb k1 k) eqn:E1; simpl.
    + apply str_eqb_eq in E1. subst k1. destruct (str_eqb k k'); reflexivity.
    + destruct (str_eqb k1 k') eqn:E2; [|exact IH].
      destruct (str_eqb k k') eqn:E3; [|reflexivity].
      apply str_eqb_eq in E2, E3. subst. rewrite str_eqb_refl in E1. discriminate.
Qed.

Lemma eset_In : forall k v d e, In e (eset k v d) -> e = (k, v) \/ In e d.
Proof.
  intros k v d e. induction d as [|[k1 v1] d IH]; simpl.
  - intros [<-|[]]. left. reflexivity.
  - destruct (str_eqb k1 k) eqn:E; simpl.
    + apply str_eqb_eq in E. subst k1. intros [<-|H]; [left; reflexivity|right; right; exact H].
    + intros [<-|H]; [right; left; reflexivity|]. destruct (IH H) as [->|G]; [left; reflexivity|right; right; exact G].
Qed.

Lemma eset_In_old : forall k v d k' e', k' <> k -> In (k', e') d -> In (k', e') (eset k v d).
Proof.
  intros k v d k' e' Hne. induction d as [|[k1 v1] d IH]; simpl; [tauto|].
  destruct (str_eqb k1 k) eqn:E; simpl.
  - apply str_eqb_eq in E. subst k1. intros [H|H]; [injection H as -> ->; contradiction|right; exact H].
  - intros [H|H]; [left; exact H|right; apply IH; exact H].
Qed.

Lemma str_in_In : forall n l, str_in n l = true <-> In n l.
Proof.
  intros n l. unfold str_in. rewrite existsb_exists. split.
  - intros [x [Hx E]]. apply str_eqb_eq in E. subst. exact Hx.
  - intros H. exists n. split; [exact H|apply str_eqb_refl].
Qed.

Lemma nodup_names_spec : forall l, nodup_names l = true <-> NoDup l.
Proof.
  induction l as [|x l IH]; simpl; split; intros H; try constructor; try reflexivity.
  - apply andb_true_iff in H. destruct H as [H1 H2]. apply negb_true_iff in H1.
    intros G. apply str_in_In in G. congruence.
  - apply andb_true_iff in H. apply IH. apply H.
  - inversion H; subst. apply andb_true_iff. split; [|apply IH; assumption].
    apply negb_true_iff. destruct (str_in x l) eqn:E; [|reflexivity]. apply str_in_In in E. contradiction.
Qed.

(** * Lazy loading *)
Record LInv (p : plot) (st : rstate) : Prop := {
  l_entry : forall k e, In (k, e) (r_traces st) -> exists i x, nth_error (p_info p) i = Some x /\ iname x = k /\
    e_data e = content p i x /\ e_type e = itype x /\ e_dt e = idt x;
  l_axis : r_axis st = true -> exists x0 e, nth_error (p_info p) 0 = Some x0 /\ eget (iname x0) (r_traces st) = Some e }.

Lemma eget_In : forall k d e, eget k d = Some e -> In (k, e) d.
Proof.
  intros k d e. unfold eget. destruct (find _ d) as [[k' e']|] eqn:E; [|discriminate].
  intros H. injection H as ->. apply find_some in E. destruct E as [E1 E2]. simpl in E2.
  apply str_eqb_eq in E2. subst. exact E1.
Qed.

Lemma complete_nodup : forall p, complete p -> NoDup (map iname (p_info p)).
Proof.
  intros p [_ H]. rewrite <- (map_map iname lower) in H. apply NoDup_map_inv in H. exact H.
Qed.

Lemma name_inj : forall p i j x y, NoDup (map iname (p_info p)) ->
  nth_error (p_info p) i = Some x -> nth_error (p_info p) j = Some y -> iname x = iname y -> i = j /\ x = y.
Proof.
  intros p i j x y H Hx Hy E.
  assert (i = j) as ->.
  { apply (proj1 (NoDup_nth_error (map iname (p_info p))) H).
    - rewrite map_length. apply nth_error_Some. congruence.
    - rewrite !nth_error_map, Hx, Hy. simpl. congruence. }
  split; [reflexivity|congruence].
Qed.

Definition loop_post (p : plot) (names : list str) (i : nat) (st st' : rstate) : Prop :=
  r_axis st' = r_axis st /\
  (forall k e, In (k, e) (r_traces st') -> In (k, e) (r_traces st) \/
     exists j x, nth_error (p_info p) j = Some x /\ iname x = k /\ e = Entry false (itype x) (idt x) (content p j x)) /\
  (forall j x, i <= j -> nth_error (p_info p) j = Some x -> In (iname x) names ->
     eget (iname x) (r_traces st') = Some (Entry false (itype x) (idt x) (content p j x))) /\
  (forall k, (forall j x, i <= j -> nth_error (p_info p) j = Some x -> iname x = k -> ~ In k names) ->
     eget k (r_traces st') = eget k (r_traces st)).

Lemma skipn_nth : forall {A} i (l : list A) x r, skipn i l = x :: r -> nth_error l i = Some x /\ skipn (S i) l = r.
Proof.
  intros A i. induction i as [|i IH]; intros l x r H; destruct l as [|y l]; simpl in *; try discriminate.
  - injection H as -> ->. auto.
  - apply IH. exact H.
Qed.

Lemma loop_post_skip : forall p names i x st st', NoDup (map iname (p_info p)) ->
  nth_error (p_info p) i = Some x -> ~ In (iname x) names -> loop_post p names (S i) st st' -> loop_post p names i st st'.
Proof.
  intros p names i x st st' Hnd Hx Hn (A & B & C & D). split; [exact A|]. split; [exact B|]. split.
  - intros j y Hj Hy Hi. apply C; [|exact Hy|exact Hi].
    destruct (Nat.eq_dec i j) as [->|]; [|lia]. rewrite Hx in Hy. injection Hy as <-. contradiction.
  - intros k Hk. apply D. intros j y Hj. apply Hk. lia.
Qed.

Lemma loop_post_take : forall p names i x st st', NoDup (map iname (p_info p)) ->
  nth_error (p_info p) i = Some x -> In (iname x) names ->
  loop_post p names (S i) (RState (r_axis st) (eset (iname x) (Entry false (itype x) (idt x) (content p i x)) (r_traces st))) st' ->
  loop_post p names i st st'.
Proof.
  intros p names i x st st' Hnd Hx Hn (A & B & C & D). simpl in *. split; [exact A|]. split; [|split].
  - intros k e Hi. destruct (B k e Hi) as [G|G]; [|right; exact G].
    apply eset_In in G. destruct G as [G|G]; [|left; exact G]. injection G as -> ->.
    right. exists i, x. auto.
  - intros j y Hj Hy Hi. destruct (Nat.eq_dec i j) as [<-|].
    + rewrite Hx in Hy. injection Hy as <-. rewrite D.
      * rewrite eget_eset, str_eqb_refl. reflexivity.
      * intros j z Hj' Hz E. exfalso. destruct (name_inj p i j x z Hnd Hx Hz (eq_sym E)). lia.
    + apply C; [lia|exact Hy|exact Hi].
  - intros k Hk. rewrite D.
    + rewrite eget_eset. destruct (str_eqb (iname x) k) eqn:E; [|reflexivity].
      apply str_eqb_eq in E. subst k. exfalso. apply (Hk i x); auto.
    + intros j y Hj. apply Hk. lia.
Qed.

Lemma loop_post_nil : forall p names i st, length (p_info p) <= i -> loop_post p names i st st.
Proof.
  intros p names i st H. split; [reflexivity|]. split; [auto|]. split; [|reflexivity].
  intros j x Hj Hx. apply nth_error_None in H. assert (nth_error (p_info p) j = None) as G; [|congruence].
  apply nth_error_None. apply nth_error_None in H. lia.
Qed.

Lemma fast_loop_ok : forall p names, p_fast p = true -> complete p -> forall infos i st,
  skipn i (p_info p) = infos -> exists st', fast_loop p names infos (p_npoints p * widths p i) st = Some st' /\
    loop_post p names i st st'.
Proof.
  intros p names Hf Hc. pose proof (complete_nodup _ Hc) as Hnd.
  induction infos as [|x infos IH]; intros i st Hsk; simpl.
  - exists st. split; [reflexivity|]. apply loop_post_nil.
    pose proof (skipn_length i (p_info p)) as L. rewrite Hsk in L. simpl in L. lia.
  - destruct (skipn_nth _ _ _ _ Hsk) as [Hx Hsk'].
    pose proof (widths_S _ _ _ Hx) as HS. pose proof (widths_le p (S i)) as HL.
    assert (p_npoints p * widths p i + width (idt x) * p_npoints p = p_npoints p * widths p (S i)) as ES by nia.
    rewrite ES. destruct (str_in (iname x) names) eqn:En.
    + rewrite read_bytes_ok. 2:{ destruct Hc. nia. }
      rewrite (Nat.mul_comm (width (idt x))), (fast_content _ _ _ Hf Hx).
      destruct (IH (S i) (RState (r_axis st) (eset (iname x) (Entry false (itype x) (idt x) (content p i x)) (r_traces st))) Hsk')
        as (st' & E & G). exists st'. split; [exact E|]. apply (loop_post_take _ _ _ _ _ _ Hnd Hx); [|exact G].
      apply str_in_In. exact En.
    + destruct (IH (S i) st Hsk') as (st' & E & G). exists st'. split; [exact E|].
      apply (loop_post_skip _ _ _ _ _ _ Hnd Hx); [|exact G].
      intros F. apply str_in_In in F. congruence.
Qed.

Lemma normal_loop_ok : forall p names, p_fast p = false -> complete p -> forall infos i st,
  skipn i (p_info p) = infos ->
  loop_post p names i st
    (normal_loop p names infos false (widths p i) (slice 0 (p_npoints p * record_size p) (p_data p)) st).
Proof.
  intros p names Hf Hc. pose proof (complete_nodup _ Hc) as Hnd.
  induction infos as [|x infos IH]; intros i st Hsk; simpl.
  - apply loop_post_nil. pose proof (skipn_length i (p_info p)) as L. rewrite Hsk in L. simpl in L. lia.
  - destruct (skipn_nth _ _ _ _ Hsk) as [Hx Hsk']. rewrite <- (widths_S _ _ _ Hx).
    rewrite (normal_content _ _ _ Hf Hx).
    destruct (str_in (iname x) names) eqn:En.
    + apply (loop_post_take _ _ _ _ _ _ Hnd Hx); [apply str_in_In; exact En|]. apply IH. exact Hsk'.
    + apply (loop_post_skip _ _ _ _ _ _ Hnd Hx); [|apply IH; exact Hsk'].
      intros F. apply str_in_In in F. congruence.
Qed.

(** One call of read_trace_data. *)
Definition with_axis (p : plot) (st : rstate) : rstate :=
  match p_info p with
  | x :: _ => if p_has_axis p && negb (r_axis st)
              then RState true (eset (iname x) (Entry true (itype x) (idt x) (content p 0 x)) (r_traces st))
              else st
  | [] => st
  end.
Definition first_read (p : plot) (st : rstate) : nat := if p_has_axis p && negb (r_axis st) then 1 else 0.

Lemma read_ok : forall p st names, complete p -> exists st', read_trace_data p st names = Some st' /\
  loop_post p names (first_read p st) (with_axis p st) st'.
Proof.
  intros p st names Hc. pose proof (complete_nodup _ Hc) as Hnd. unfold read_trace_data, with_axis, first_read.
  destruct (p_fast p) eqn:Hf.
  - destruct (p_info p) as [|x rest] eqn:Ei.
    + exists st. split; [reflexivity|]. apply loop_post_nil. rewrite Ei. simpl. lia.
    + destruct (p_has_axis p && negb (r_axis st)) eqn:Ea.
      * assert (nth_error (p_info p) 0 = Some x) as Hx by (rewrite Ei; reflexivity).
        pose proof (widths_S _ _ _ Hx) as HS. change (widths p 0) with 0 in HS. simpl in HS.
        pose proof (widths_le p 1) as HL. rewrite read_bytes_ok. 2:{ destruct Hc. nia. }
        pose proof (fast_content _ _ _ Hf Hx) as G. change (widths p 0) with 0 in G. rewrite Nat.mul_0_r in G. rewrite G.
        rewrite <- HS. apply fast_loop_ok; [exact Hf|exact Hc|]. rewrite Ei. reflexivity.
      * rewrite <- Ei. pose proof (fast_loop_ok p names Hf Hc (p_info p) 0 st eq_refl) as G.
        change (widths p 0) with 0 in G. rewrite Nat.mul_0_r in G. exact G.
  - rewrite (proj2 (nodup_names_spec _) Hnd). simpl negb. cbn iota.
    rewrite read_bytes_ok. 2:{ destruct Hc. rewrite record_widths. lia. }
    eexists. split; [reflexivity|]. destruct (p_info p) as [|x rest] eqn:Ei.
    + simpl. apply loop_post_nil. rewrite Ei. simpl. lia.
    + assert (nth_error (p_info p) 0 = Some x) as Hx by (rewrite Ei; reflexivity).
      clear Hnd. pose proof (complete_nodup _ Hc) as Hnd.
      cbn [normal_loop]. pose proof (normal_content _ _ _ Hf Hx) as G. change (widths p 0) with 0 in G. rewrite G.
      pose proof (widths_S _ _ _ Hx) as HS. change (widths p 0) with 0 in HS. rewrite <- HS.
      cbn [andb]. destruct (p_has_axis p && negb (r_axis st)) eqn:Ea.
      * apply normal_loop_ok; [exact Hf|exact Hc|]. rewrite Ei. reflexivity.
      * destruct (str_in (iname x) names) eqn:En.
        -- apply (loop_post_take _ _ _ _ _ _ Hnd Hx); [apply str_in_In; exact En|].
           apply normal_loop_ok; [exact Hf|exact Hc|]. rewrite Ei. reflexivity.
        -- apply (loop_post_skip _ _ _ _ _ _ Hnd Hx).
           ++ intros F. apply str_in_In in F. congruence.
           ++ apply normal_loop_ok; [exact Hf|exact Hc|]. rewrite Ei. reflexivity.
Qed.

Lemma with_axis_linv : forall p st, LInv p st -> LInv p (with_axis p st).
Proof.
  intros p st [A B]. unfold with_axis. destruct (p_info p) as [|x rest] eqn:Ei; [constructor; rewrite ?Ei; assumption|].
  destruct (p_has_axis p && negb (r_axis st)); [|constructor; rewrite ?Ei; assumption].
  constructor; simpl.
  - intros k e G. apply eset_In in G. destruct G as [G|G].
    + injection G as -> ->. exists 0, x. simpl. rewrite Ei. auto.
    + rewrite Ei. apply A. exact G.
  - intros _. exists x. eexists. rewrite Ei. split; [reflexivity|]. rewrite eget_eset, str_eqb_refl. reflexivity.
Qed.

Lemma loop_linv : forall p names i st st', NoDup (map iname (p_info p)) ->
  LInv p st -> loop_post p names i st st' -> LInv p st'.
Proof.
  intros p names i st st' Hnd [A B] (P1 & P2 & P3 & P4). constructor.
  - intros k e G. destruct (P2 k e G) as [G1|(j & x & Hx & Hk & ->)]; [apply A; exact G1|].
    exists j, x. auto.
  - intros Ha. rewrite P1 in Ha. destruct (B Ha) as (x0 & e0 & Hx0 & He0).
    destruct (in_dec str_eq_dec (iname x0) names) as [Hin|Hin].
    + destruct (Nat.eq_dec i 0) as [->|Hne].
      * exists x0. eexists. split; [exact Hx0|]. apply P3; [lia|exact Hx0|exact Hin].
      * exists x0, e0. split; [exact Hx0|]. rewrite P4; [exact He0|].
        intros j y Hj Hy E. exfalso. destruct (name_inj p 0 j x0 y Hnd Hx0 Hy (eq_sym E)). lia.
    + exists x0, e0. split; [exact Hx0|]. rewrite P4; [exact He0|]. intros; assumption.
Qed.

Lemma read_linv : forall p st names st', complete p -> LInv p st -> read_trace_data p st names = Some st' -> LInv p st'.
Proof.
  intros p st names st' Hc HI Hr. destruct (read_ok p st names Hc) as (st1 & E & G).
  rewrite E in Hr. injection Hr as <-. eapply loop_linv; [apply complete_nodup; exact Hc| |exact G].
  apply with_axis_linv. exact HI.
Qed.

Lemma fold_inj : forall p i j x y, complete p -> nth_error (p_info p) i = Some x -> nth_error (p_info p) j = Some y ->
  lower (iname x) = lower (iname y) -> i = j /\ x = y.
Proof.
  intros p i j x y [_ H] Hx Hy E.
  assert (i = j) as ->.
  { apply (proj1 (NoDup_nth_error (map (fun x => lower (iname x)) (p_info p))) H).
    - rewrite map_length. apply nth_error_Some. congruence.
    - rewrite !nth_error_map, Hx, Hy. simpl. congruence. }
  split; [reflexivity|congruence].
Qed.

(** After reading the single trace [x]. *)
Lemma read_one : forall p st i x, complete p -> LInv p st -> nth_error (p_info p) i = Some x ->
  exists st' e, read_trace_data p st [iname x] = Some st' /\ LInv p st' /\
    eget (iname x) (r_traces st') = Some e /\ e_data e = content p i x /\ e_type e = itype x /\ e_dt e = idt x.
Proof.
  intros p st i x Hc HI Hx. pose proof (complete_nodup _ Hc) as Hnd.
  destruct (read_ok p st [iname x] Hc) as (st1 & E & G).
  assert (LInv p st1) as HI1 by (eapply read_linv; eassumption).
  exists st1. destruct G as (P1 & P2 & P3 & P4).
  destruct (Nat.le_gt_cases (first_read p st) i) as [Hle|Hgt].
  - eexists. split; [exact E|]. split; [exact HI1|]. split; [apply P3; [exact Hle|exact Hx|left; reflexivity]|]. simpl. auto.
  - assert (i = 0 /\ p_has_axis p && negb (r_axis st) = true) as [-> Ha].
    { unfold first_read in Hgt. destruct (p_has_axis p && negb (r_axis st)); split; try reflexivity; lia. }
    exists (Entry true (itype x) (idt x) (content p 0 x)). split; [exact E|]. split; [exact HI1|]. split; [|simpl; auto].
    rewrite P4.
    + unfold with_axis. destruct (p_info p) as [|x' rest] eqn:Ei; [discriminate|]. simpl in Hx. injection Hx as ->.
      rewrite Ha. simpl. rewrite eget_eset, str_eqb_refl. reflexivity.
    + intros j y Hj Hy Ey. exfalso. destruct (name_inj p 0 j x y Hnd Hx Hy (eq_sym Ey)).
      unfold first_read in Hj. rewrite Ha in Hj. lia.
Qed.

Lemma get_trace_ok : forall p st i x k, complete p -> LInv p st -> nth_error (p_info p) i = Some x ->
  lower k = lower (iname x) ->
  exists st' e, get_trace p st k = Some (st', e) /\ LInv p st' /\
    e_data e = content p i x /\ e_type e = itype x /\ e_dt e = idt x.
Proof.
  intros p st i x k Hc HI Hx Hk. unfold get_trace.
  destruct (eget k (r_traces st)) as [e|] eqn:E1.
  - apply eget_In in E1. destruct (l_entry _ _ HI _ _ E1) as (j & y & Hy & Ey & A & B & C).
    destruct (fold_inj p i j x y Hc Hx Hy) as [<- <-]; [congruence|]. exists st, e. auto.
  - unfold find_fold. destruct (find _ (r_traces st)) as [[k' e]|] eqn:E2.
    + apply find_some in E2. destruct E2 as [E2 E3]. simpl in E3. apply str_eqb_eq in E3.
      destruct (l_entry _ _ HI _ _ E2) as (j & y & Hy & Ey & A & B & C).
      destruct (fold_inj p i j x y Hc Hx Hy) as [<- <-]; [congruence|]. exists st, e. auto.
    + assert (find_info k (p_info p) = Some x) as ->.
      { unfold find_info. destruct (find (fun i0 => str_eqb (iname i0) k) (p_info p)) as [y|] eqn:E3.
        - apply find_some in E3. destruct E3 as [E3 E4]. apply str_eqb_eq in E4.
          apply In_nth_error in E3. destruct E3 as [j Hy].
          destruct (fold_inj p i j x y Hc Hx Hy) as [_ <-]; [congruence|]. reflexivity.
        - destruct (find (fun i0 => str_eqb (lower k) (lower (iname i0))) (p_info p)) as [y|] eqn:E4.
          + apply find_some in E4. destruct E4 as [E4 E5]. apply str_eqb_eq in E5.
            apply In_nth_error in E4. destruct E4 as [j Hy].
            destruct (fold_inj p i j x y Hc Hx Hy) as [_ <-]; [congruence|]. reflexivity.
          + exfalso. pose proof (find_none _ _ E4 x (nth_error_In _ _ Hx)) as G. simpl in G.
            rewrite Hk, str_eqb_refl in G. discriminate. }
      destruct (read_one p st i x Hc HI Hx) as (st' & e & A & B & C & D). rewrite A, C. exists st', e. tauto.
Qed.

Lemma linv0 : forall p, LInv p rstate0.
Proof. intros p. constructor; simpl; [tauto|discriminate]. Qed.

Lemma request_linv : forall p st r st', complete p -> LInv p st -> do_request p st r = Some st' -> LInv p st'.
Proof.
  intros p st r st' Hc HI H. destruct r as [names|k]; simpl in H; [eapply read_linv; eassumption|].
  destruct (get_trace p st k) as [[st1 e]|] eqn:E; [|discriminate]. injection H as <-.
  unfold get_trace in E. destruct (eget k (r_traces st)); [injection E as <- <-; exact HI|].
  destruct (find_fold k (r_traces st)); [injection E as <- <-; exact HI|].
  destruct (find_info k (p_info p)) as [i|]; [|discriminate].
  destruct (read_trace_data p st [iname i]) as [st2|] eqn:E2; [|discriminate].
  destruct (eget (iname i) (r_traces st2)); [|discriminate]. injection E as <- <-. eapply read_linv; eassumption.
Qed.

Lemma do_requests_snoc : forall p rs r, do_requests p (rs ++ [r]) =
  match do_request p (do_requests p rs) r with Some st' => st' | None => do_requests p rs end.
Proof. intros. unfold do_requests. rewrite fold_left_app. reflexivity. Qed.

Lemma requests_linv : forall p rs, complete p -> LInv p (do_requests p rs).
Proof.
  intros p rs Hc. induction rs as [|r rs IH] using rev_ind; [apply linv0|]. rewrite do_requests_snoc.
  destruct (do_request p (do_requests p rs) r) as [st'|] eqn:E; [|exact IH]. eapply request_linv; eassumption.
Qed.

Lemma lazy_content : forall p rs i x k, complete p -> nth_error (p_info p) i = Some x -> lower k = lower (iname x) ->
  exists st e, get_trace p (do_requests p rs) k = Some (st, e) /\
    e_data e = content p i x /\ e_type e = itype x /\ e_dt e = idt x.
Proof.
  intros p rs i x k Hc Hx Hk.
  destruct (get_trace_ok p (do_requests p rs) i x k Hc (requests_linv p rs Hc) Hx Hk) as (st & e & A & _ & B).
  exists st, e. split; assumption.
Qed.

(** The axis. *)
Definition axis_ok (p : plot) (st : rstate) : Prop :=
  r_axis st = true -> forall x0, nth_error (p_info p) 0 = Some x0 ->
    eget (iname x0) (r_traces st) = Some (Entry true (itype x0) (idt x0) (content p 0 x0)).

Lemma axis_read : forall p st names st', complete p -> p_has_axis p = true -> axis_ok p st ->
  (forall x0, nth_error (p_info p) 0 = Some x0 -> In (iname x0) names -> r_axis st = false) ->
  read_trace_data p st names = Some st' ->
  axis_ok p st' /\ (p_info p <> [] -> r_axis st' = true).
Proof.
  intros p st names st' Hc Ha HI Hs Hr. pose proof (complete_nodup _ Hc) as Hnd.
  destruct (read_ok p st names Hc) as (st1 & E & P1 & P2 & P3 & P4).
  rewrite E in Hr. injection Hr as <-.
  assert (axis_ok p (with_axis p st)) as HI1.
  { unfold with_axis. destruct (p_info p) as [|x rest] eqn:Ei; [intros _ x0 G; rewrite Ei in G; discriminate|].
    rewrite Ha. destruct (r_axis st) eqn:Er; simpl; [exact HI|]. intros _ x0 Hx0. rewrite Ei in Hx0. simpl in Hx0.
    injection Hx0 as <-. simpl. rewrite eget_eset, str_eqb_refl. reflexivity. }
  split.
  - intros Hax x0 Hx0. rewrite P1 in Hax. specialize (HI1 Hax x0 Hx0). rewrite P4; [exact HI1|].
    intros j y Hj Hy Ey Hin. destruct (name_inj p 0 j x0 y Hnd Hx0 Hy (eq_sym Ey)) as [<- <-].
    unfold first_read in Hj. rewrite (Hs x0 Hx0 Hin), Ha in Hj. simpl in Hj. lia.
  - intros Hne. rewrite P1. unfold with_axis. destruct (p_info p); [contradiction|]. rewrite Ha.
    destruct (r_axis st) eqn:Er; simpl; [exact Er|reflexivity].
Qed.

Lemma no_axis_empty : forall p rs, complete p -> p_has_axis p = true -> p_info p <> [] ->
  r_axis (do_requests p rs) = false -> r_traces (do_requests p rs) = [].
Proof.
  intros p rs Hc Ha Hne.
  assert (forall st names st', read_trace_data p st names = Some st' -> r_axis st' = true) as Hread.
  { intros st names st' E. destruct (read_ok p st names Hc) as (st1 & E1 & P1 & _). rewrite E1 in E. injection E as <-.
    rewrite P1. unfold with_axis. destruct (p_info p); [contradiction|]. rewrite Ha.
    destruct (r_axis st) eqn:Er; simpl; [exact Er|reflexivity]. }
  induction rs as [|r rs IH] using rev_ind; [reflexivity|]. rewrite do_requests_snoc.
  destruct (do_request p (do_requests p rs) r) as [st'|] eqn:E; [|exact IH].
  destruct r as [names|k]; simpl in E; intros Hf; [rewrite (Hread _ _ _ E) in Hf; discriminate|].
  destruct (get_trace p (do_requests p rs) k) as [[st1 e]|] eqn:Eg; [|discriminate]. injection E as <-.
  unfold get_trace in Eg. destruct (eget k (r_traces (do_requests p rs))); [injection Eg as <- <-; apply IH; exact Hf|].
  destruct (find_fold k (r_traces (do_requests p rs))); [injection Eg as <- <-; apply IH; exact Hf|].
  destruct (find_info k (p_info p)) as [i|]; [|discriminate].
  destruct (read_trace_data p (do_requests p rs) [iname i]) as [st2|] eqn:E2; [|discriminate].
  destruct (eget (iname i) (r_traces st2)); [|discriminate]. injection Eg as <- <-.
  rewrite (Hread _ _ _ E2) in Hf. discriminate.
Qed.

Lemma axis_requests : forall p rs, complete p -> p_has_axis p = true -> Forall (spares_axis p) rs ->
  axis_ok p (do_requests p rs) /\ ((exists r, In r rs /\ known p r) -> p_info p <> [] -> r_axis (do_requests p rs) = true).
Proof.
  intros p rs Hc Ha. induction rs as [|r rs IH] using rev_ind; intros Hs.
  - split; [intros G; discriminate|]. intros [r [[] _]].
  - apply Forall_app in Hs. destruct Hs as [Hs1 Hs2]. inversion Hs2; subst. clear Hs2 H2.
    destruct (IH Hs1) as [A B]. rewrite do_requests_snoc. set (st := do_requests p rs) in *.
    pose proof (requests_linv p rs Hc) as HL. fold st in HL.
    assert (forall st', do_request p st r = Some st' -> axis_ok p st' /\ (p_info p <> [] -> r_axis st' = true \/ (st' = st))) as Hstep.
    { intros st' E. destruct r as [names|k]; simpl in E.
      - destruct (axis_read p st names st' Hc Ha A) with (2 := E) as [X Y].
        + intros x0 Hx0 Hin. exfalso. exact (H1 x0 Hx0 Hin).
        + split; [exact X|]. intros Hne. left. apply Y. exact Hne.
      - destruct (get_trace p st k) as [[st1 e]|] eqn:Eg; [|discriminate]. injection E as <-.
        unfold get_trace in Eg. destruct (eget k (r_traces st)); [injection Eg as <- <-; auto|].
        destruct (find_fold k (r_traces st)) eqn:Eff; [injection Eg as <- <-; auto|].
        destruct (find_info k (p_info p)) as [i|] eqn:Efi; [|discriminate].
        destruct (read_trace_data p st [iname i]) as [st2|] eqn:E2; [|discriminate].
        destruct (eget (iname i) (r_traces st2)); [|discriminate]. injection Eg as <- <-.
        destruct (axis_read p st [iname i] st2 Hc Ha A) with (2 := E2) as [X Y].
        + intros x0 Hx0 [Hin|[]]. destruct (r_axis st) eqn:Er; [|reflexivity]. exfalso.
          assert (lower k = lower (iname x0)) as Hk.
          { unfold find_info in Efi. destruct (find (fun i0 => str_eqb (iname i0) k) (p_info p)) as [y|] eqn:E3.
            - injection Efi as ->. apply find_some in E3. destruct E3 as [_ E3]. apply str_eqb_eq in E3. congruence.
            - apply find_some in Efi. destruct Efi as [_ Efi]. apply str_eqb_eq in Efi. congruence. }
          specialize (A Er x0 Hx0). apply eget_In in A. unfold find_fold in Eff.
          destruct (find (fun e0 => str_eqb (lower k) (lower (fst e0))) (r_traces st)) as [[? ?]|] eqn:E4; [discriminate|].
          pose proof (find_none _ _ E4 _ A) as G. simpl in G. rewrite Hk, str_eqb_refl in G. discriminate.
        + split; [exact X|]. intros Hne. left. apply Y. exact Hne. }
    destruct (do_request p st r) as [st'|] eqn:E.
    + destruct (Hstep st' eq_refl) as [X Y]. split; [exact X|]. intros [r' [Hr' Hk]] Hne.
      destruct (Y Hne) as [G| ->]; [exact G|].
      destruct r as [names|k].
      * simpl in E. destruct (axis_read p st names st Hc Ha A) with (2 := E) as [_ Y'].
        -- intros x0 Hx0 Hin. exfalso. exact (H1 x0 Hx0 Hin).
        -- apply Y'. exact Hne.
      * (* the trace was already there *)
        destruct (r_axis st) eqn:Er; [reflexivity|].
        apply in_app_or in Hr'. destruct Hr' as [Hr'|[<-|[]]]; [apply B; [exists r'; auto|exact Hne]|].
        destruct Hk as (x & Hx & Ek). apply In_nth_error in Hx. destruct Hx as [i Hx].
        exfalso. simpl in E. destruct (get_trace p st k) as [[st1 e]|] eqn:Eg; [|discriminate]. injection E as ->.
        assert (r_traces st = []) as Hemp.
        { apply (no_axis_empty p rs Hc Ha Hne). exact Er. }
        unfold get_trace in Eg. rewrite Hemp in Eg. simpl in Eg.
        destruct (find_info k (p_info p)) as [i0|]; [|discriminate].
        destruct (read_trace_data p st [iname i0]) as [st2|] eqn:E2; [|discriminate].
        destruct (eget (iname i0) (r_traces st2)); [|discriminate]. injection Eg as -> ->.
        destruct (axis_read p st [iname i0] st Hc Ha A) with (2 := E2) as [_ Y'].
        -- intros; exact Er.
        -- rewrite (Y' Hne) in Er. discriminate.
    + split; [exact A|]. intros [r' [Hr' Hk]] Hne.
      apply in_app_or in Hr'. destruct Hr' as [Hr'|[<-|[]]]; [apply B; [exists r'; auto|exact Hne]|].
      exfalso. destruct r as [names|k]; simpl in E.
      * destruct (read_ok p st names Hc) as (st1 & E1 & _). congruence.
      * destruct Hk as (x & Hx & Ek). apply In_nth_error in Hx. destruct Hx as [i Hx].
        destruct (get_trace_ok p st i x k Hc HL Hx (eq_sym Ek)) as (st1 & e & E1 & _). rewrite E1 in E. discriminate.
Qed.

Lemma lazy_axis : forall p rs x0, complete p -> p_has_axis p = true -> nth_error (p_info p) 0 = Some x0 ->
  Forall (spares_axis p) rs -> (exists r, In r rs /\ known p r) ->
  get_axis p (do_requests p rs) = AxData (content p 0 x0).
Proof.
  intros p rs x0 Hc Ha Hx0 Hs Hk. destruct (axis_requests p rs Hc Ha Hs) as [A B].
  assert (p_info p <> []) as Hne by (intros G; rewrite G in Hx0; discriminate).
  specialize (B Hk Hne). unfold get_axis. rewrite B. unfold get_trace_at. rewrite Hx0.
  unfold get_trace. rewrite (A B x0 Hx0). reflexivity.
Qed.

(** * What the writer stores *)
Lemma concat_length : forall {A} r (bl : list (list A)), Forall (fun b => length b = r) bl -> length (concat bl) = length bl * r.
Proof. intros A r bl H. induction H as [|b bl Hb Hbl IH]; simpl; [reflexivity|]. rewrite app_length. lia. Qed.

Lemma slice_app_skip : forall a b off w, slice (length a + off) w (a ++ b) = slice off w b.
Proof.
  intros a b off w. unfold slice. f_equal. rewrite skipn_app. rewrite skipn_all2 by lia.
  replace (length a + off - length a) with off by lia. reflexivity.
Qed.

Lemma slice_app_in : forall a b off w, off + w <= length a -> slice off w (a ++ b) = slice off w a.
Proof.
  intros a b off w H. unfold slice. rewrite skipn_app, firstn_app, skipn_length.
  replace (w - (length a - off)) with 0 by lia. simpl. apply app_nil_r.
Qed.

Lemma slice_concat : forall r bl k, Forall (fun b : list ascii => length b = r) bl -> k < length bl ->
  slice (k * r) r (concat bl) = nth k bl [].
Proof.
  intros r bl k H. revert k. induction H as [|b bl Hb Hbl IH]; intros k Hk; simpl in *; [lia|].
  destruct k as [|k].
  - simpl. unfold slice. simpl. rewrite <- Hb, firstn_app, Nat.sub_diag, firstn_all. simpl. apply app_nil_r.
  - replace (S k * r) with (length b + k * r) by (simpl; lia). rewrite slice_app_skip. apply IH. lia.
Qed.

Lemma map_nth_seq : forall {A} (d : A) (l : list A), map (fun k => nth k l d) (seq 0 (length l)) = l.
Proof.
  intros A d l. induction l as [|x l IH]; simpl; [reflexivity|]. f_equal.
  rewrite <- seq_shift, map_map. exact IH.
Qed.

Definition info_of (t : trace) : info := Info (tname t) (tdt t) (ttype t).

Section Stored.
  Variable w : writer.
  Variable p : plot.
  Hypothesis Hinfo : p_info p = map info_of (w_traces w).
  Hypothesis Hpts : p_npoints p = n_points w.
  Hypothesis Hdata : p_data p = data_bytes w.
  Hypothesis Hgood : Forall (fun t => length (tdata t) = n_points w /\ Forall (fun s => length s = width (tdt t)) (tdata t)) (w_traces w).

  Lemma widths_traces : forall i, widths p i = list_sum (map (fun t => width (tdt t)) (firstn i (w_traces w))).
  Proof. intros i. unfold widths. rewrite Hinfo, firstn_map, map_map. reflexivity. Qed.

  Lemma nth_widths_all : widths p (length (p_info p)) = list_sum (map (fun t => width (tdt t)) (w_traces w)).
  Proof. rewrite widths_traces, Hinfo, map_length, firstn_all. reflexivity. Qed.

  Definition fast_data : list ascii := concat (map (fun t => concat (tdata t)) (w_traces w)).
  Definition row (k : nat) : list ascii := concat (map (fun t => nth k (tdata t) []) (w_traces w)).
  Definition normal_data : list ascii := concat (map row (seq 0 (n_points w))).

  Lemma row_cell : forall ts i t k,
    Forall (fun t => length (tdata t) = n_points w /\ Forall (fun s => length s = width (tdt t)) (tdata t)) ts ->
    nth_error ts i = Some t -> k < n_points w ->
    slice (list_sum (map (fun t => width (tdt t)) (firstn i ts))) (width (tdt t))
          (concat (map (fun t => nth k (tdata t) []) ts)) = nth k (tdata t) [].
  Proof.
    induction ts as [|t0 ts IH]; intros i t k H Ht Hk; [destruct i; discriminate|].
    inversion H as [|x l [Hl Hs] Hts]; subst.
    assert (length (nth k (tdata t0) []) = width (tdt t0)) as Hc.
    { rewrite Forall_forall in Hs. apply Hs. apply nth_In. lia. }
    destruct i as [|i]; simpl in Ht.
    - injection Ht as ->. cbn [firstn map list_sum fold_right concat]. rewrite slice_app_in by lia.
      rewrite <- Hc. apply slice_all.
    - cbn [firstn map concat]. change (list_sum (width (tdt t0) :: ?x)) with (width (tdt t0) + list_sum x).
      rewrite <- Hc at 1. rewrite slice_app_skip. apply IH; assumption.
  Qed.

  Lemma row_length : forall ts k,
    Forall (fun t => length (tdata t) = n_points w /\ Forall (fun s => length s = width (tdt t)) (tdata t)) ts ->
    k < n_points w -> length (concat (map (fun t => nth k (tdata t) []) ts)) = list_sum (map (fun t => width (tdt t)) ts).
  Proof.
    induction ts as [|t0 ts IH]; intros k H Hk; [reflexivity|]. inversion H as [|x l [Hl Hs] Hts]; subst.
    cbn [map concat]. rewrite app_length, (IH k Hts Hk).
    change (list_sum (width (tdt t0) :: ?x)) with (width (tdt t0) + list_sum x). f_equal.
    rewrite Forall_forall in Hs. apply Hs. apply nth_In. lia.
  Qed.

  Lemma normal_rows : Forall (fun b => length b = list_sum (map (fun t => width (tdt t)) (w_traces w))) (map row (seq 0 (n_points w))).
  Proof.
    apply Forall_forall. intros b Hb. apply in_map_iff in Hb. destruct Hb as [k [<- Hk]]. apply in_seq in Hk.
    apply row_length; [exact Hgood|lia].
  Qed.

  Lemma normal_stored : p_fast p = false -> data_bytes w = normal_data ->
    forall i t, nth_error (w_traces w) i = Some t -> content p i (info_of t) = tdata t.
  Proof.
    intros Hf Hd i t Ht. unfold content. rewrite Hpts.
    assert (length (tdata t) = n_points w) as Hlen.
    { rewrite Forall_forall in Hgood. apply (Hgood t). eapply nth_error_In. exact Ht. }
    transitivity (map (fun k => nth k (tdata t) []) (seq 0 (n_points w))); [|rewrite <- Hlen; apply map_nth_seq].
    apply map_seq_ext. intros k Hk.
    unfold stored. rewrite Hf, Hdata, Hd, nth_widths_all, widths_traces. cbn [info_of idt].
    set (r := list_sum (map (fun t => width (tdt t)) (w_traces w))).
    assert (widths p (S i) = widths p i + width (tdt t)) as HS.
    { apply (widths_S p i (info_of t)). rewrite Hinfo, nth_error_map, Ht. reflexivity. }
    pose proof (widths_le p (S i)) as HL. rewrite HS, nth_widths_all, widths_traces in HL. fold r in HL.
    rewrite <- (slice_slice _ _ (k * r) r) by exact HL.
    unfold normal_data. rewrite slice_concat.
    - rewrite nth_indep with (d' := row 0) by (rewrite map_length, seq_length; exact Hk).
      rewrite map_nth, seq_nth by exact Hk. apply row_cell; [exact Hgood|exact Ht|exact Hk].
    - apply normal_rows.
    - rewrite map_length, seq_length. exact Hk.
  Qed.

  Lemma normal_length : length normal_data = n_points w * list_sum (map (fun t => width (tdt t)) (w_traces w)).
  Proof. unfold normal_data. rewrite (concat_length _ _ normal_rows), map_length, seq_length. reflexivity. Qed.

  Lemma fast_cell : forall ts i t k,
    Forall (fun t => length (tdata t) = n_points w /\ Forall (fun s => length s = width (tdt t)) (tdata t)) ts ->
    nth_error ts i = Some t -> k < n_points w ->
    slice (n_points w * list_sum (map (fun t => width (tdt t)) (firstn i ts)) + k * width (tdt t)) (width (tdt t))
          (concat (map (fun t => concat (tdata t)) ts)) = nth k (tdata t) [].
  Proof.
    induction ts as [|t0 ts IH]; intros i t k H Ht Hk; [destruct i; discriminate|].
    inversion H as [|x l [Hl Hs] Hts]; subst. pose proof (concat_length _ _ Hs) as Hc. unfold sample in *. rewrite Hl in Hc.
    destruct i as [|i]; simpl in Ht.
    - injection Ht as ->. cbn [firstn map concat]. change (list_sum []) with 0. rewrite Nat.mul_0_r. cbn [plus].
      rewrite slice_app_in by nia. apply slice_concat; [exact Hs|lia].
    - cbn [firstn map concat]. change (list_sum (width (tdt t0) :: ?x)) with (width (tdt t0) + list_sum x).
      rewrite Nat.mul_add_distr_l, <- Hc, <- Nat.add_assoc, slice_app_skip. apply IH; assumption.
  Qed.

  Lemma fast_stored : p_fast p = true -> data_bytes w = fast_data ->
    forall i t, nth_error (w_traces w) i = Some t -> content p i (info_of t) = tdata t.
  Proof.
    intros Hf Hd i t Ht. unfold content. rewrite Hpts.
    assert (length (tdata t) = n_points w) as Hlen.
    { rewrite Forall_forall in Hgood. apply (Hgood t). eapply nth_error_In. exact Ht. }
    transitivity (map (fun k => nth k (tdata t) []) (seq 0 (n_points w))); [|rewrite <- Hlen; apply map_nth_seq].
    apply map_seq_ext. intros k Hk.
    unfold stored. rewrite Hf, Hdata, Hd, widths_traces, Hpts. cbn [info_of idt].
    apply fast_cell; assumption.
  Qed.

  Lemma fast_length_ts : forall n ts,
    Forall (fun t => length (tdata t) = n /\ Forall (fun s => length s = width (tdt t)) (tdata t)) ts ->
    length (concat (map (fun t => concat (tdata t)) ts)) = n * list_sum (map (fun t => width (tdt t)) ts).
  Proof.
    intros n ts H. induction H as [|t ts [Hl Hs] Hts IH]; [simpl; lia|].
    cbn [map concat]. unfold sample in *. rewrite app_length, IH, (concat_length _ _ Hs), Hl.
    change (list_sum (width (tdt t) :: ?x)) with (width (tdt t) + list_sum x). lia.
  Qed.

  Lemma fast_length : length fast_data = n_points w * list_sum (map (fun t => width (tdt t)) (w_traces w)).
  Proof. apply fast_length_ts. exact Hgood. Qed.
End Stored.

(** * Header *)
Lemma rstrip_none : forall f s, (forall c, In c s -> f c = false) -> rstrip_if f s = s.
Proof.
  intros f s H. unfold rstrip_if. rewrite <- (rev_involutive s) at 2. f_equal.
  destruct (rev s) as [|c r] eqn:E; [reflexivity|]. simpl. rewrite H; [reflexivity|].
  apply in_rev. rewrite E. left. reflexivity.
Qed.

Definition writable (e : encoding) (l : str) : Prop := one_line l /\ (e = Utf8 -> ascii_text l).

Lemma dec8_ascii : forall c, code c < 128 -> dec8 c = c.
Proof. intros c H. unfold dec8. apply Nat.ltb_lt in H. rewrite H. reflexivity. Qed.

Lemma scan8_line : forall l r cur, ~ In NL l -> ascii_text l ->
  scan8 (encode Utf8 l ++ encode Utf8 [NL] ++ r) cur =
    (let l' := rstrip_if is_cr (cur ++ l) in
     if section_start l' then Some ([l'], r)
     else match scan8 r [] with Some (ls, d) => Some (l' :: ls, d) | None => None end).
Proof.
  induction l as [|c l IH]; intros r cur Hn Ha.
  - rewrite app_nil_r. reflexivity.
  - inversion Ha as [|x y Hc Hl]; subst. unfold encode. cbn [flat_map]. unfold enc_c at 1.
    rewrite (proj2 (Nat.ltb_lt _ _) Hc). cbn [app scan8]. rewrite (dec8_ascii c Hc).
    destruct (aeqb c NL) eqn:E.
    { apply aeqb_eq in E. exfalso. apply Hn. left. exact E. }
    fold (encode Utf8 l). change (flat_map (enc_c Utf8) [NL]) with (encode Utf8 [NL]).
    rewrite IH; [|intros G; apply Hn; right; exact G|exact Hl]. rewrite <- app_assoc. reflexivity.
Qed.

Lemma scan16_line : forall l r cur, ~ In NL l ->
  scan16 (encode Utf16 l ++ encode Utf16 [NL] ++ r) cur =
    (let l' := rstrip_if is_cr (cur ++ l) in
     if section_start l' then Some ([l'], r)
     else match scan16 r [] with Some (ls, d) => Some (l' :: ls, d) | None => None end).
Proof.
  induction l as [|c l IH]; intros r cur Hn.
  - rewrite app_nil_r. reflexivity.
  - change (encode Utf16 (c :: l)) with (c :: "000"%char :: encode Utf16 l).
    cbn [app scan16]. unfold dec16. change (code "000" =? 0) with true. cbn iota.
    destruct (aeqb c NL) eqn:E.
    { apply aeqb_eq in E. exfalso. apply Hn. left. exact E. }
    rewrite IH; [|intros G; apply Hn; right; exact G]. rewrite <- app_assoc. reflexivity.
Qed.

Lemma encode_app : forall e a b, encode e (a ++ b) = encode e a ++ encode e b.
Proof. intros. apply flat_map_app. Qed.

Lemma scan_line : forall e l r, writable e l ->
  scan e (encode e (l ++ [NL]) ++ r) =
    (if section_start l then Some ([l], r)
     else match scan e r with Some (ls, d) => Some (l :: ls, d) | None => None end).
Proof.
  intros e l r [[Hn Hr] Ha]. rewrite encode_app, <- app_assoc.
  assert (rstrip_if is_cr l = l) as Hs.
  { apply rstrip_none. intros c Hc. unfold is_cr. apply aeqb_neq. intros ->. contradiction. }
  destruct e; cbn [scan].
  - rewrite scan16_line by exact Hn. cbn [app]. rewrite Hs. reflexivity.
  - rewrite scan8_line; [|exact Hn|apply Ha; reflexivity]. cbn [app]. rewrite Hs. reflexivity.
Qed.

Lemma scan_lines : forall e ls d, Forall (fun l => writable e l /\ section_start l = false) ls ->
  scan e (encode e (lines_text (ls ++ [s2l "Binary:"])) ++ d) = Some (ls ++ [s2l "Binary:"], d).
Proof.
  intros e ls d H. induction H as [|l ls [Hw Hs] Hls IH].
  - unfold lines_text. cbn [app map concat]. rewrite app_nil_r, scan_line; [reflexivity|].
    split; [|intros _; repeat constructor; vm_compute; lia].
    split; intros G; vm_compute in G; repeat (destruct G as [G|G]; [discriminate|]); exact G.
  - unfold lines_text in *. cbn [app map concat]. rewrite encode_app, <- app_assoc, scan_line by exact Hw.
    rewrite Hs, IH. reflexivity.
Qed.

Lemma one_line_app : forall a b, one_line a -> one_line b -> one_line (a ++ b).
Proof. intros a b [A1 A2] [B1 B2]. split; intros G; apply in_app_or in G; tauto. Qed.
Lemma ascii_app : forall a b, ascii_text a -> ascii_text b -> ascii_text (a ++ b).
Proof. intros a b A B. apply Forall_app. auto. Qed.
Lemma writable_app : forall e a b, writable e a -> writable e b -> writable e (a ++ b).
Proof. intros e a b [A1 A2] [B1 B2]. split; [apply one_line_app; assumption|]. intros E. apply ascii_app; auto. Qed.

(** Decidable check for constant texts. *)
Definition plain (s : str) : bool := forallb (fun c => (code c <? 128) && negb (aeqb c NL) && negb (aeqb c CR)) s.
Lemma plain_writable : forall e s, plain s = true -> writable e s.
Proof.
  intros e s H. unfold plain in H. rewrite forallb_forall in H. split.
  - split; intros G; specialize (H _ G); rewrite aeqb_refl in H; simpl in H; rewrite ?andb_false_r in H; discriminate.
  - intros _. apply Forall_forall. intros c Hc. specialize (H c Hc). apply andb_true_iff in H. destruct H as [H _].
    apply andb_true_iff in H. destruct H as [H _]. apply Nat.ltb_lt. exact H.
Qed.

Lemma dec_plain : forall n, plain (dec n) = true.
Proof.
  intros n. unfold plain. pose proof (dec_digits n) as H. rewrite forallb_forall in *. intros c Hc. specialize (H c Hc).
  unfold is_digit in H. apply andb_true_iff in H. destruct H as [H1 H2]. apply Nat.leb_le in H1, H2.
  apply andb_true_iff. split; [apply andb_true_iff; split|].
  - apply Nat.ltb_lt. lia.
  - apply negb_true_iff, aeqb_neq. intros ->. vm_compute in H1. lia.
  - apply negb_true_iff, aeqb_neq. intros ->. vm_compute in H1. lia.
Qed.

Lemma plain_app : forall a b, plain (a ++ b) = plain a && plain b.
Proof. intros. apply forallb_app. Qed.

Lemma pad12_plain : forall s, plain s = true -> plain (pad12 s) = true.
Proof.
  intros s H. unfold pad12. rewrite plain_app, H, andb_true_r. induction (12 - length s) as [|k IH]; [reflexivity|].
  exact IH.
Qed.

Lemma strip_SP : forall s, strip (SP :: s) = strip s.
Proof. reflexivity. Qed.

Lemma strip_repeat : forall k s, strip (repeat SP k ++ s) = strip s.
Proof. induction k as [|k IH]; intros s; [reflexivity|]. cbn [repeat app]. rewrite strip_SP. apply IH. Qed.

Lemma digit_not_space : forall c, is_digit c = true -> is_space c = false.
Proof.
  intros c H. unfold is_digit in H. apply andb_true_iff in H. destruct H as [H1 H2]. apply Nat.leb_le in H1, H2.
  unfold is_space. destruct (Nat.eqb_spec (code c) 32); [lia|].
  destruct (Nat.leb_spec (code c) 13); [lia|]. destruct (Nat.leb_spec (code c) 31); [lia|].
  destruct (Nat.eqb_spec (code c) 133); [lia|]. destruct (Nat.eqb_spec (code c) 160); [lia|].
  rewrite !andb_false_r. reflexivity.
Qed.

Lemma lstrip_dec : forall n r, lstrip_if is_space (dec n ++ r) = dec n ++ r.
Proof.
  intros n r. pose proof (dec_digits n) as H. destruct (dec n) as [|c s] eqn:E; [destruct (dec_not_nil n E)|].
  simpl in *. apply andb_true_iff in H. destruct H as [H _]. rewrite (digit_not_space c H). reflexivity.
Qed.

Lemma strip_dec : forall n, strip (dec n) = dec n.
Proof.
  intros n. unfold strip, strip_if. pose proof (lstrip_dec n []) as H. rewrite app_nil_r in H. rewrite H.
  apply rstrip_none. intros c Hc. apply digit_not_space. pose proof (dec_digits n) as G.
  rewrite forallb_forall in G. apply G. exact Hc.
Qed.

(** The properties stored in the dictionary. *)
Definition header_params (w : writer) : params :=
  [ (s2l "Title", s2l "* spicelib RawWrite");
    (s2l "Date", strip (w_date w));
    (s2l "Plotname", strip (w_plot w));
    (s2l "Flags", strip (str_flags w));
    (s2l "No. Variables", dec (length (w_traces w)));
    (s2l "No. Points", dec (n_points w));
    (s2l "Offset", strip (w_offset w));
    (s2l "Command", s2l "Linear Technology Corporation LTspice XVII") ].

Lemma parse_header : forall w rest, parse_params (header_lines w ++ rest) [] = header_params w.
Proof.
  intros w rest.
  transitivity
  [ (s2l "Title", s2l "* spicelib RawWrite");
    (s2l "Date", strip (w_date w));
    (s2l "Plotname", strip (w_plot w));
    (s2l "Flags", strip (str_flags w));
    (s2l "No. Variables", strip (dec (length (w_traces w))));
    (s2l "No. Points", strip (pad12 (dec (n_points w))));
    (s2l "Offset", strip (w_offset w));
    (s2l "Command", s2l "Linear Technology Corporation LTspice XVII") ].
  - unfold header_lines. remember (var_lines 0 (w_traces w)) as vl. generalize (dec (length (w_traces w))) as a.
    generalize (pad12 (dec (n_points w))) as b. generalize (str_flags w) as c. generalize (w_plot w) as d.
    generalize (w_date w) as f. generalize (w_offset w) as g. intros. reflexivity.
  - unfold header_params. rewrite strip_dec. unfold pad12. rewrite strip_repeat, strip_dec. reflexivity.
Qed.

(** The variables. *)
Lemma split_tab_app : forall a r, ~ In TAB a -> split_tab (a ++ TAB :: r) = a :: split_tab r.
Proof.
  induction a as [|c a IH]; intros r H; simpl.
  - reflexivity.
  - destruct (aeqb c TAB) eqn:E; [apply aeqb_eq in E; exfalso; apply H; left; exact E|].
    rewrite IH; [reflexivity|]. intros G. apply H. right. exact G.
Qed.
Lemma split_tab_last : forall a, ~ In TAB a -> split_tab a = [a].
Proof.
  induction a as [|c a IH]; intros H; simpl; [reflexivity|].
  destruct (aeqb c TAB) eqn:E; [apply aeqb_eq in E; exfalso; apply H; left; exact E|].
  rewrite IH; [reflexivity|]. intros G. apply H. right. exact G.
Qed.

Lemma var_line_split : forall i t, one_cell (tname t) -> one_cell (ttype t) ->
  split_tab (lstrip ([TAB] ++ dec i ++ [TAB] ++ tname t ++ [TAB] ++ ttype t)) = [dec i; tname t; ttype t].
Proof.
  intros i t [_ Hn] [_ Ht]. unfold lstrip. cbn [app].
  change (lstrip_if is_space (TAB :: ?x)) with (lstrip_if is_space x). rewrite lstrip_dec.
  rewrite split_tab_app; [|apply dec_no_char; reflexivity]. rewrite split_tab_app by exact Hn.
  rewrite split_tab_last by exact Ht. reflexivity.
Qed.

Lemma parse_vars_ok : forall (num : dtype) (ts : list trace) (i : nat) (first : bool),
  Forall (fun t => one_cell (tname t) /\ one_cell (ttype t)) ts ->
  match ts with
  | [] => True
  | t0 :: ts' => tdt t0 = (if first then match num with F32 => F64 | x => x end else num) /\ Forall (fun t => tdt t = num) ts'
  end ->
  parse_vars first num (var_lines i ts) = Some (map info_of ts).
Proof.
  intros num ts. induction ts as [|t ts IH]; intros i first H Hd; [reflexivity|].
  inversion H as [|x l [Hn Ht] Hts]; subst. destruct Hd as [Hd0 Hd].
  change (var_lines i (t :: ts)) with (([TAB] ++ dec i ++ [TAB] ++ tname t ++ [TAB] ++ ttype t) :: var_lines (S i) ts).
  cbn [parse_vars]. rewrite (var_line_split i t Hn Ht). rewrite (IH (S i) false Hts).
  - rewrite <- Hd0. reflexivity.
  - destruct ts as [|t1 ts]; [exact I|]. inversion Hd; subst. auto.
Qed.

Lemma after_variables : forall w rest, after_line (s2l "Variables:") (header_lines w ++ rest) = Some (var_lines 0 (w_traces w) ++ rest).
Proof.
  intros w rest. unfold header_lines. generalize (var_lines 0 (w_traces w)) as vl. generalize (dec (length (w_traces w))) as a.
  generalize (pad12 (dec (n_points w))) as b. generalize (str_flags w) as c. generalize (w_plot w) as d.
  generalize (w_date w) as f. generalize (w_offset w) as g. intros. reflexivity.
Qed.

Lemma var_lines_writable : forall e ts i,
  Forall (fun t => one_cell (tname t) /\ one_cell (ttype t)) ts ->
  (e = Utf8 -> Forall (fun t => ascii_text (tname t) /\ ascii_text (ttype t)) ts) ->
  Forall (fun l => writable e l /\ section_start l = false) (var_lines i ts).
Proof.
  intros e ts. induction ts as [|t ts IH]; intros i H Ha; [constructor|].
  inversion H as [|x l [Hn Ht] Hts]; subst.
  assert (e = Utf8 -> ascii_text (tname t) /\ ascii_text (ttype t)) as Ha1.
  { intros E. specialize (Ha E). inversion Ha; subst. assumption. }
  constructor.
  - split.
    + apply writable_app; [apply plain_writable; reflexivity|].
      apply writable_app; [apply plain_writable; apply dec_plain|].
      apply writable_app; [apply plain_writable; reflexivity|].
      apply writable_app; [split; [apply Hn|intros E; apply Ha1; exact E]|].
      apply writable_app; [apply plain_writable; reflexivity|]. split; [apply Ht|intros E; apply Ha1; exact E].
    + reflexivity.
  - apply IH; [exact Hts|]. intros E. specialize (Ha E). inversion Ha; subst. assumption.
Qed.

Lemma flags_plain : forall w, good_writer w -> plain (str_flags w) = true.
Proof.
  intros w H. pose proof (gw_formats _ H) as F. unfold formats in F. destruct (w_traces w) as [|t0 ts]; [contradiction|].
  unfold str_flags. destruct F as [[-> _]|[[-> _]|[-> _]]]; destruct (w_forward w), (w_log w), (w_fast w); vm_compute; reflexivity.
Qed.

Lemma header_writable : forall w, good_writer w ->
  Forall (fun l => writable (w_enc w) l /\ section_start l = false) (header_lines w).
Proof.
  intros w H. unfold header_lines. apply Forall_app. split.
  - assert (writable (w_enc w) (w_plot w)) as W1.
    { split; [apply (gw_plot _ H)|]. intros E. apply (gw_enc _ H E). }
    assert (writable (w_enc w) (w_date w)) as W2.
    { split; [apply (gw_date _ H)|]. intros E. apply (gw_enc _ H E). }
    assert (writable (w_enc w) (w_offset w)) as W3.
    { split; [apply (gw_offset _ H)|]. intros E. apply (gw_enc _ H E). }
    assert (writable (w_enc w) (str_flags w)) as W4 by (apply plain_writable; apply flags_plain; exact H).
    assert (writable (w_enc w) (dec (length (w_traces w)))) as W5 by (apply plain_writable; apply dec_plain).
    assert (writable (w_enc w) (pad12 (dec (n_points w)))) as W6 by (apply plain_writable; apply pad12_plain; apply dec_plain).
    revert W1 W2 W3 W4 W5 W6.
    generalize (dec (length (w_traces w))) as a.
    generalize (pad12 (dec (n_points w))) as b. generalize (str_flags w) as c. generalize (w_plot w) as d.
    generalize (w_date w) as f. generalize (w_offset w) as g. intros.
    repeat (constructor; [split; [first [apply plain_writable; reflexivity |
      apply writable_app; [apply plain_writable; reflexivity|assumption]] | reflexivity]|]). constructor.
  - apply var_lines_writable.
    + apply Forall_forall. intros t Ht. pose proof (gw_traces _ H) as G. rewrite Forall_forall in G.
      destruct (G t Ht) as (A & B & _). auto.
    + intros E. apply (gw_enc _ H E).
Qed.

Definition num_of (w : writer) : dtype :=
  if str_eqb (w_numtype w) complex then C128 else if str_eqb (w_numtype w) double then F64 else F32.

Lemma flags_tests : forall w, good_writer w ->
  strip (str_flags w) = str_flags w /\
  is_sub (s2l "complex") (lower (str_flags w)) = str_eqb (w_numtype w) complex /\
  is_sub (s2l "double") (lower (str_flags w)) = str_eqb (w_numtype w) double /\
  is_sub (s2l "fastaccess") (lower (str_flags w)) = w_fast w.
Proof.
  intros w H. pose proof (gw_formats _ H) as F. unfold formats in F. destruct (w_traces w) as [|t0 ts]; [contradiction|].
  unfold str_flags. destruct F as [[-> _]|[[-> _]|[-> _]]]; destruct (w_forward w), (w_log w), (w_fast w); vm_compute; auto.
Qed.

Definition saved_plot (w : writer) : plot :=
  Plot (header_params w) (length (w_traces w)) (n_points w)
       (negb (existsb (str_eqb (lower (w_plot w))) no_axis_names)) (w_fast w) (map info_of (w_traces w)) (data_bytes w).

Lemma detect_save : forall w, detect (save w) = Some (w_enc w).
Proof.
  intros w. unfold save, header_lines, lines_text. destruct (w_enc w); reflexivity.
Qed.

Lemma open_save : forall w, good_writer w -> open_raw (save w) = Some (saved_plot w).
Proof.
  intros w H. unfold open_raw. rewrite detect_save. unfold save at 1.
  rewrite (scan_lines _ _ _ (header_writable w H)). cbv zeta. rewrite parse_header.
  destruct (flags_tests w H) as (F1 & F2 & F3 & F4).
  assert (pget (s2l "No. Points") (header_params w) = Some (dec (n_points w))) as -> by reflexivity.
  assert (pget (s2l "No. Variables") (header_params w) = Some (dec (length (w_traces w)))) as -> by reflexivity.
  assert (pget (s2l "Plotname") (header_params w) = Some (w_plot w)) as ->.
  { transitivity (Some (strip (w_plot w))); [reflexivity|]. rewrite (proj2 (gw_plot _ H)). reflexivity. }
  assert (pget (s2l "Flags") (header_params w) = Some (str_flags w)) as ->.
  { transitivity (Some (strip (str_flags w))); [reflexivity|]. rewrite F1. reflexivity. }
  assert (pget (s2l "Command") (header_params w) = Some (s2l "Linear Technology Corporation LTspice XVII")) as -> by reflexivity.
  rewrite !undec_dec. rewrite F2, F3, F4.
  pose proof (gw_points _ H) as Hp. pose proof (gw_formats _ H) as Hf. unfold formats in Hf.
  destruct (Nat.eqb_spec (n_points w) 0) as [|_]; [lia|].
  destruct (Nat.eqb_spec (length (w_traces w)) 0) as [E0|_].
  { destruct (w_traces w); [contradiction|discriminate]. }
  change (is_sub (s2l "ltspice") (lower (s2l "Linear Technology Corporation LTspice XVII"))) with true. cbn [orb negb].
  rewrite after_variables, removelast_last.
  rewrite (parse_vars_ok _ (w_traces w)).
  - reflexivity.
  - apply Forall_forall. intros t Ht. pose proof (gw_traces _ H) as G. rewrite Forall_forall in G.
    destruct (G t Ht) as (A & B & _). auto.
  - pose proof (gw_not_ac _ H) as Hac. destruct (w_traces w) as [|t0 ts]; [exact I|].
    destruct Hf as [(E & A & B)|[(E & A)|(E & A)]]; rewrite E in *.
    + assert (str_eqb (lower (w_plot w)) (s2l "ac analysis") = false) as ->.
      { apply str_eqb_neq. apply Hac. discriminate. }
      cbn. auto.
    + assert (str_eqb (lower (w_plot w)) (s2l "ac analysis") = false) as ->.
      { apply str_eqb_neq. apply Hac. discriminate. }
      inversion A; subst. cbn. auto.
    + inversion A; subst. cbn. auto.
Qed.

Lemma good_cells : forall w, good_writer w ->
  Forall (fun t => length (tdata t) = n_points w /\ Forall (fun s => length s = width (tdt t)) (tdata t)) (w_traces w).
Proof.
  intros w H. apply Forall_forall. intros t Ht. pose proof (gw_traces _ H) as G. rewrite Forall_forall in G.
  destruct (G t Ht) as (_ & _ & A & B). auto.
Qed.

Definition consistent (w : writer) : Prop := data_bytes w = if w_fast w then fast_data w else normal_data w.

Lemma saved_complete : forall w, good_writer w -> consistent w -> complete (saved_plot w).
Proof.
  intros w H Hc. split.
  - rewrite (nth_widths_all w (saved_plot w) eq_refl). simpl p_npoints. simpl p_data. rewrite Hc.
    destruct (w_fast w).
    + rewrite (fast_length w (saved_plot w) eq_refl (good_cells w H)). lia.
    + rewrite (normal_length w (saved_plot w) eq_refl (good_cells w H)). lia.
  - simpl. rewrite map_map. exact (gw_names _ H).
Qed.

Lemma saved_content : forall w i t, good_writer w -> consistent w -> nth_error (w_traces w) i = Some t ->
  content (saved_plot w) i (info_of t) = tdata t.
Proof.
  intros w i t H Hc Ht. unfold consistent in Hc. destruct (w_fast w) eqn:Hf.
  - apply (fast_stored w); try reflexivity; [apply good_cells; exact H|exact Hf|exact Hc|exact Ht].
  - apply (normal_stored w); try reflexivity; [apply good_cells; exact H|exact Hf|exact Hc|exact Ht].
Qed.

Lemma saved_nth : forall w i t, nth_error (w_traces w) i = Some t ->
  nth_error (p_info (saved_plot w)) i = Some (info_of t).
Proof. intros w i t Ht. simpl. rewrite nth_error_map, Ht. reflexivity. Qed.

Lemma round_trip : forall w, good_writer w -> consistent w ->
  exists p, open_raw (save w) = Some p /\ same_traces w p.
Proof.
  intros w H Hc. exists (saved_plot w). split; [apply open_save; exact H|].
  pose proof (saved_complete w H Hc) as HC.
  assert (forall n t, nth_error (w_traces w) n = Some t -> exists st e,
     get_trace (saved_plot w) rstate0 (tname t) = Some (st, e) /\ e_type e = ttype t /\ e_dt e = tdt t /\ e_data e = tdata t) as Hn.
  { intros n t Ht.
    destruct (get_trace_ok (saved_plot w) rstate0 n (info_of t) (tname t) HC (linv0 _) (saved_nth _ _ _ Ht) eq_refl)
      as (st & e & A & _ & B & C & D).
    exists st, e. rewrite (saved_content w n t H Hc Ht) in B. auto. }
  constructor.
  - simpl. rewrite map_map. reflexivity.
  - simpl. rewrite map_map. reflexivity.
  - reflexivity.
  - reflexivity.
  - intros t Ht. apply In_nth_error in Ht. destruct Ht as [n Hn']. apply (Hn n t Hn').
  - intros n t Ht. unfold get_trace_at. rewrite (saved_nth _ _ _ Ht). apply (Hn n t Ht).
Qed.

Lemma normal_consistent : forall w, w_fast w = false -> consistent w.
Proof. intros w H. unfold consistent, data_bytes. rewrite H. reflexivity. Qed.
Lemma fast_consistent : forall w, w_fast w = true -> w_numtype w <> complex -> consistent w.
Proof.
  intros w H Hn. unfold consistent, data_bytes. rewrite H. apply str_eqb_neq in Hn. unfold complex in Hn. rewrite Hn. reflexivity.
Qed.

Lemma header_round_trip : forall w, good_writer w -> exists p, open_raw (save w) = Some p /\
  pget (s2l "Plotname") (p_params p) = Some (w_plot w) /\
  pget (s2l "Flags") (p_params p) = Some (str_flags w) /\
  pget (s2l "No. Variables") (p_params p) = Some (dec (length (w_traces w))) /\
  pget (s2l "No. Points") (p_params p) = Some (dec (n_points w)) /\
  pget (s2l "Offset") (p_params p) = Some (w_offset w) /\
  map (fun x => (iname x, itype x, idt x)) (p_info p) = map (fun t => (tname t, ttype t, tdt t)) (w_traces w) /\
  p_nvar p = length (w_traces w) /\ p_npoints p = n_points w /\
  p_data p = data_bytes w.
Proof.
  intros w H. exists (saved_plot w). split; [apply open_save; exact H|].
  destruct (flags_tests w H) as (F1 & _). simpl p_params.
  split. { transitivity (Some (strip (w_plot w))); [reflexivity|]. rewrite (proj2 (gw_plot _ H)). reflexivity. }
  split. { transitivity (Some (strip (str_flags w))); [reflexivity|]. rewrite F1. reflexivity. }
  split; [reflexivity|]. split; [reflexivity|].
  split. { transitivity (Some (strip (w_offset w))); [reflexivity|]. rewrite (proj2 (gw_offset _ H)). reflexivity. }
  split; [|auto]. simpl. rewrite map_map. reflexivity.
Qed.
