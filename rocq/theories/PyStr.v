(** Shared model of the Python [str] operations used by several areas.  A Python string is a list
    of 8-bit characters (the code works on cp1252/latin-1/utf-8 text; characters above 255 are not
    represented, a simplification stated in DESIGN.md). *)
From Coq Require Import String Ascii List Bool Arith Lia NArith ZArith.
Import ListNotations.

Definition str := list ascii.
Definition s2l (s : string) : str := list_ascii_of_string s.
Arguments s2l : simpl never.
Definition l2s (s : str) : string := string_of_list_ascii s.

Definition aeqb : ascii -> ascii -> bool := Ascii.eqb.

Fixpoint str_eqb (a b : str) : bool :=
  match a, b with
  | [], [] => true
  | x :: a', y :: b' => aeqb x y && str_eqb a' b'
  | _, _ => false
  end.

Lemma aeqb_eq : forall x y, aeqb x y = true <-> x = y.
Proof. intros x y. unfold aeqb. apply Ascii.eqb_eq. Qed.

Lemma aeqb_refl : forall x, aeqb x x = true.
Proof. intros x. apply aeqb_eq. reflexivity. Qed.

Lemma aeqb_neq : forall x y, aeqb x y = false <-> x <> y.
Proof. intros x y. unfold aeqb. apply Ascii.eqb_neq. Qed.

Lemma str_eqb_eq : forall a b, str_eqb a b = true <-> a = b.
Proof.
  induction a as [|x a IH]; intros [|y b]; simpl; split; intros H; try reflexivity; try discriminate.
  - apply andb_true_iff in H. destruct H as [H1 H2]. apply aeqb_eq in H1. apply IH in H2. congruence.
  - injection H as -> ->. rewrite aeqb_refl. simpl. apply IH. reflexivity.
Qed.

Lemma str_eqb_refl : forall a, str_eqb a a = true.
Proof. intros a. apply str_eqb_eq. reflexivity. Qed.

Lemma str_eqb_neq : forall a b, str_eqb a b = false <-> a <> b.
Proof.
  intros a b. rewrite <- (str_eqb_eq a b). destruct (str_eqb a b); split; intros H; congruence.
Qed.

Definition str_eq_dec : forall a b : str, {a = b} + {a <> b} := list_eq_dec ascii_dec.

(** Character classes and case mapping: str.isspace on the 256 represented characters, ASCII part of
    str.isdigit/upper/lower. *)
Definition code (c : ascii) : nat := nat_of_ascii c.
Definition is_digit (c : ascii) : bool := (48 <=? code c) && (code c <=? 57).
Definition is_upper (c : ascii) : bool := (65 <=? code c) && (code c <=? 90).
Definition is_lower (c : ascii) : bool := (97 <=? code c) && (code c <=? 122).
Definition is_space (c : ascii) : bool :=
  (code c =? 32) || ((9 <=? code c) && (code c <=? 13)) ||
  ((28 <=? code c) && (code c <=? 31)) || (code c =? 133) || (code c =? 160).
Definition upper_c (c : ascii) : ascii := if is_lower c then ascii_of_nat (code c - 32) else c.
Definition lower_c (c : ascii) : ascii := if is_upper c then ascii_of_nat (code c + 32) else c.
Definition upper (s : str) : str := map upper_c s.
Definition lower (s : str) : str := map lower_c s.

Definition mem_c (c : ascii) (s : str) : bool := existsb (aeqb c) s.

Lemma mem_c_In : forall c s, mem_c c s = true <-> In c s.
Proof.
  intros c s. unfold mem_c. rewrite existsb_exists. split.
  - intros [x [Hx E]]. apply aeqb_eq in E. subst. exact Hx.
  - intros H. exists c. split; [exact H|apply aeqb_refl].
Qed.

Lemma mem_c_not_In : forall c s, mem_c c s = false <-> ~ In c s.
Proof.
  intros c s. rewrite <- mem_c_In. destruct (mem_c c s); split; intros H; congruence.
Qed.

Fixpoint startswith (p s : str) : bool :=
  match p, s with
  | [], _ => true
  | x :: p', y :: s' => aeqb x y && startswith p' s'
  | _ :: _, [] => false
  end.

Lemma startswith_app : forall p s, startswith p s = true <-> exists r, s = p ++ r.
Proof.
  induction p as [|x p IH]; intros s; simpl.
  - split; [intros _; exists s; reflexivity | reflexivity].
  - destruct s as [|y s].
    + split; [discriminate|intros [r H]; discriminate].
    + rewrite andb_true_iff, aeqb_eq, IH. split.
      * intros [-> [r ->]]. exists r. reflexivity.
      * intros [r H]. injection H as -> ->. split; [reflexivity|exists r; reflexivity].
Qed.

Definition endswith (p s : str) : bool := startswith (rev p) (rev s).

Fixpoint lstrip_if (f : ascii -> bool) (s : str) : str :=
  match s with
  | [] => []
  | c :: r => if f c then lstrip_if f r else s
  end.
Definition rstrip_if (f : ascii -> bool) (s : str) : str := rev (lstrip_if f (rev s)).
Definition strip_if (f : ascii -> bool) (s : str) : str := rstrip_if f (lstrip_if f s).
Definition lstrip := lstrip_if is_space.
Definition rstrip := rstrip_if is_space.
Definition strip := strip_if is_space.

(** Substring test (Python's [in] on strings). *)
Fixpoint is_sub (p s : str) : bool :=
  startswith p s || match s with [] => false | _ :: r => is_sub p r end.

(** [before c s, after c s] around the first occurrence of [c] (str.find + slicing). *)
Fixpoint split_at_first (c : ascii) (s : str) : option (str * str) :=
  match s with
  | [] => None
  | x :: r => if aeqb x c then Some ([], r)
              else match split_at_first c r with
                   | Some (a, b) => Some (x :: a, b)
                   | None => None
                   end
  end.
(** around the last occurrence (str.rfind + slicing) *)
Definition split_at_last (c : ascii) (s : str) : option (str * str) :=
  match split_at_first c (rev s) with
  | Some (a, b) => Some (rev b, rev a)
  | None => None
  end.

Lemma split_at_first_app : forall c a b, ~ In c a -> split_at_first c (a ++ c :: b) = Some (a, b).
Proof.
  intros c a b. induction a as [|x a IH]; simpl; intros H.
  - rewrite aeqb_refl. reflexivity.
  - destruct (aeqb x c) eqn:E.
    + apply aeqb_eq in E. exfalso. apply H. left. exact E.
    + rewrite IH; [reflexivity|]. intros Hi. apply H. right. exact Hi.
Qed.

Lemma split_at_first_None : forall c s, split_at_first c s = None <-> ~ In c s.
Proof.
  intros c s. induction s as [|x s IH]; simpl.
  - split; [intros _ []|reflexivity].
  - destruct (aeqb x c) eqn:E.
    + apply aeqb_eq in E. split; [discriminate|]. intros H. exfalso. apply H. left. exact E.
    + apply aeqb_neq in E. destruct (split_at_first c s) as [[a b]|].
      * split; [discriminate|]. intros H. exfalso.
        assert (~ In c s) as Hn by (intros Hi; apply H; right; exact Hi).
        apply IH in Hn. discriminate.
      * split; [|reflexivity]. intros _ [H|H]; [contradiction|]. revert H. apply IH. reflexivity.
Qed.

Lemma split_at_first_Some : forall c s a b, split_at_first c s = Some (a, b) ->
  s = a ++ c :: b /\ ~ In c a.
Proof.
  intros c s. induction s as [|x s IH]; simpl; intros a b H; [discriminate|].
  destruct (aeqb x c) eqn:E.
  - apply aeqb_eq in E. injection H as <- <-. subst. split; [reflexivity|intros []].
  - destruct (split_at_first c s) as [[a' b']|]; [|discriminate].
    injection H as <- <-. destruct (IH a' b' eq_refl) as [-> Hn].
    split; [reflexivity|]. intros [Hi|Hi]; [|exact (Hn Hi)].
    apply aeqb_neq in E. contradiction.
Qed.

Lemma split_at_last_app : forall c a b, ~ In c b -> split_at_last c (a ++ c :: b) = Some (a, b).
Proof.
  intros c a b H. unfold split_at_last.
  rewrite rev_app_distr. simpl. rewrite <- app_assoc. simpl.
  rewrite split_at_first_app.
  - rewrite !rev_involutive. reflexivity.
  - intros Hi. apply H. apply in_rev. exact Hi.
Qed.

(** Decimal printing of a natural number ("%i"), by repeated division. *)
Definition digit_c (d : nat) : ascii := ascii_of_nat (48 + d).

Fixpoint dec_aux (fuel : nat) (n : nat) (acc : str) : str :=
  match fuel with
  | O => acc
  | S f => let acc' := digit_c (n mod 10) :: acc in
           if n / 10 =? 0 then acc' else dec_aux f (n / 10) acc'
  end.
Definition dec (n : nat) : str := dec_aux (S n) n [].

(** Reading a decimal number: None if empty or a non digit occurs. *)
Fixpoint undec_aux (s : str) (acc : nat) : option nat :=
  match s with
  | [] => Some acc
  | c :: r => if is_digit c then undec_aux r (10 * acc + (code c - 48)) else None
  end.
Definition undec (s : str) : option nat :=
  match s with [] => None | _ => undec_aux s 0 end.

Lemma code_digit_c : forall d, d < 10 -> code (digit_c d) = 48 + d.
Proof. intros d H. unfold code, digit_c. apply nat_ascii_embedding. lia. Qed.

Lemma is_digit_digit_c : forall d, d < 10 -> is_digit (digit_c d) = true.
Proof.
  intros d H. unfold is_digit. rewrite code_digit_c by exact H.
  apply andb_true_iff. split; apply Nat.leb_le; lia.
Qed.

Local Opaque Nat.div Nat.modulo Nat.mul.

Lemma dec_aux_app : forall fuel n acc, dec_aux fuel n acc = dec_aux fuel n [] ++ acc.
Proof.
  induction fuel as [|f IH]; intros n acc; cbn [dec_aux]; [reflexivity|].
  destruct (n / 10 =? 0); [reflexivity|].
  rewrite IH. rewrite (IH (n / 10) [digit_c (n mod 10)]). rewrite <- app_assoc. reflexivity.
Qed.

Lemma undec_aux_app : forall a b acc,
  undec_aux (a ++ b) acc = match undec_aux a acc with Some v => undec_aux b v | None => None end.
Proof.
  induction a as [|c a IH]; intros b acc; simpl; [reflexivity|].
  destruct (is_digit c); [apply IH|reflexivity].
Qed.

Lemma undec_dec_aux : forall fuel n, n < fuel -> undec_aux (dec_aux fuel n []) 0 = Some n.
Proof.
  induction fuel as [|f IH]; intros n H; [lia|].
  cbn [dec_aux]. pose proof (Nat.mod_upper_bound n 10 ltac:(lia)) as Hm.
  pose proof (Nat.div_mod n 10 ltac:(lia)) as Hd.
  destruct (n / 10 =? 0) eqn:E.
  - apply Nat.eqb_eq in E. cbn [undec_aux]. rewrite is_digit_digit_c by exact Hm.
    rewrite code_digit_c by exact Hm. f_equal. lia.
  - apply Nat.eqb_neq in E. rewrite dec_aux_app, undec_aux_app.
    rewrite IH; [|apply Nat.lt_le_trans with n; [apply Nat.div_lt; lia|lia]].
    cbn [undec_aux]. rewrite is_digit_digit_c by exact Hm. rewrite code_digit_c by exact Hm.
    f_equal. lia.
Qed.

Lemma dec_aux_digits : forall fuel n acc, forallb is_digit acc = true ->
  forallb is_digit (dec_aux fuel n acc) = true.
Proof.
  induction fuel as [|f IH]; intros n acc H; cbn [dec_aux]; [exact H|].
  pose proof (Nat.mod_upper_bound n 10 ltac:(lia)) as Hm.
  assert (forallb is_digit (digit_c (n mod 10) :: acc) = true) as H'.
  { cbn [forallb]. rewrite is_digit_digit_c by exact Hm. exact H. }
  destruct (n / 10 =? 0); [exact H'|]. apply IH. exact H'.
Qed.

Lemma dec_digits : forall n, forallb is_digit (dec n) = true.
Proof. intros n. apply dec_aux_digits. reflexivity. Qed.

Lemma dec_not_nil : forall n, dec n <> [].
Proof.
  intros n. unfold dec. cbn [dec_aux]. destruct (n / 10 =? 0); [discriminate|].
  rewrite dec_aux_app. intros H. apply app_eq_nil in H. destruct H; discriminate.
Qed.

Lemma undec_dec : forall n, undec (dec n) = Some n.
Proof.
  intros n. unfold undec. pose proof (dec_not_nil n) as H.
  destruct (dec n) as [|c r] eqn:E; [contradiction|].
  rewrite <- E. unfold dec. apply undec_dec_aux. lia.
Qed.

Lemma dec_inj : forall n m, dec n = dec m -> n = m.
Proof.
  intros n m H. pose proof (undec_dec n) as Hn. rewrite H, undec_dec in Hn. congruence.
Qed.

Lemma dec_no_char : forall c n, is_digit c = false -> ~ In c (dec n).
Proof.
  intros c n Hc Hi. pose proof (dec_digits n) as H. rewrite forallb_forall in H.
  rewrite (H c Hi) in Hc. discriminate.
Qed.
