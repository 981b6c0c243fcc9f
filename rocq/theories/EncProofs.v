From Coq Require Import List Bool NArith Lia.
From Verif Require Import EncModel EncSpec.
Import ListNotations.
Local Open Scope N_scope. Local Open Scope list_scope.

Lemma inr_true : forall a b x, a <= x <= b -> inr a b x = true.
Proof. intros a b x H. unfold inr. rewrite (proj2 (N.leb_le _ _)), (proj2 (N.leb_le _ _)) by lia. reflexivity. Qed.
Lemma inr_false : forall a b x, x < a \/ b < x -> inr a b x = false.
Proof. intros a b x H. unfold inr. destruct (N.leb_spec a x), (N.leb_spec x b); try reflexivity; lia. Qed.
Lemma ltb_t : forall a b, a < b -> (a <? b) = true. Proof. intros. apply N.ltb_lt. assumption. Qed.
Lemma ltb_f : forall a b, b <= a -> (a <? b) = false. Proof. intros. apply N.ltb_ge. assumption. Qed.

Ltac divs := repeat match goal with
  | |- context [?a mod ?b] => let q := fresh "q" in let r := fresh "r" in pose proof (N.div_mod a b ltac:(discriminate)); pose proof (N.mod_lt a b ltac:(discriminate)); set (r := a mod b) in *; set (q := a / b) in *; clearbody r q
  | H : context [?a mod ?b] |- _ => pose proof (N.div_mod a b ltac:(discriminate)); pose proof (N.mod_lt a b ltac:(discriminate)); set (a mod b) in *; set (a / b) in *
  end.
Lemma utf8_char : forall c r, scalar c -> utf8 (utf8_bytes c ++ r) = cons_ c (utf8 r).
Proof.
  intros c r S. unfold utf8_bytes. destruct (N.ltb_spec c 128) as [L1|L1].
  { cbn [app utf8]. rewrite ltb_t by exact L1. reflexivity. }
  pose proof (N.div_mod c 64 ltac:(discriminate)) as D0. pose proof (N.mod_lt c 64 ltac:(discriminate)) as M0.
  destruct (N.ltb_spec c 2048) as [L2|L2].
  { set (q := c / 64) in *. set (m := c mod 64) in *. clearbody q m. cbn [app utf8]. rewrite ltb_f by lia. rewrite inr_true by lia. unfold cont. rewrite inr_true by lia. f_equal. lia. }
  assert (E1 : c / 4096 = c / 64 / 64) by (rewrite N.div_div by discriminate; reflexivity). pose proof (N.div_mod (c / 64) 64 ltac:(discriminate)) as D1. pose proof (N.mod_lt (c / 64) 64 ltac:(discriminate)) as M1.
  destruct (N.ltb_spec c 65536) as [L3|L3].
  { rewrite E1. set (q1 := c / 64 / 64) in *. set (m1 := (c / 64) mod 64) in *. set (q := c / 64) in *. set (m := c mod 64) in *. clearbody q1 m1 q m. cbn [app utf8]. rewrite ltb_f by lia. rewrite inr_false by lia. rewrite inr_true by lia.
    assert (inr (if 224 + q1 =? 224 then 160 else 128) (if 224 + q1 =? 237 then 159 else 191) (128 + m1) = true) as ->.
    { apply inr_true. destruct S as [S|S]; destruct (N.eqb_spec (224 + q1) 224), (N.eqb_spec (224 + q1) 237); lia. }
    unfold cont. rewrite inr_true by lia. cbn [andb]. f_equal. lia. }
  assert (E2 : c / 262144 = c / 64 / 64 / 64) by (rewrite !N.div_div by discriminate; reflexivity). pose proof (N.div_mod (c / 64 / 64) 64 ltac:(discriminate)) as D2. pose proof (N.mod_lt (c / 64 / 64) 64 ltac:(discriminate)) as M2.
  rewrite E2, E1. set (q2 := c / 64 / 64 / 64) in *. set (m2 := (c / 64 / 64) mod 64) in *. set (q1 := c / 64 / 64) in *. set (m1 := (c / 64) mod 64) in *. set (q := c / 64) in *. set (m := c mod 64) in *. clearbody q2 m2 q1 m1 q m.
  cbn [app utf8]. assert (57343 < c < 1114112) by (destruct S; lia). rewrite ltb_f by lia. rewrite inr_false by lia. rewrite inr_false by lia. rewrite inr_true by lia.
  assert (inr (if 240 + q2 =? 240 then 144 else 128) (if 240 + q2 =? 244 then 143 else 191) (128 + m2) = true) as ->.
  { apply inr_true. destruct (N.eqb_spec (240 + q2) 240), (N.eqb_spec (240 + q2) 244); lia. }
  unfold cont. rewrite inr_true by lia. rewrite inr_true by lia. cbn [andb]. f_equal. lia.
Qed.
Lemma utf8_text : forall t, Forall scalar t -> utf8 (in_utf8 t) = Some t.
Proof. intros t H. induction H as [|c t S H IH]; [reflexivity|]. unfold in_utf8 in *. cbn [flat_map]. rewrite utf8_char by exact S. rewrite IH. reflexivity. Qed.

Lemma units_le : forall us, Forall (fun u => u < 65536) us -> units true (flat_map (fun u => [u mod 256; u / 256]) us) = Some us.
Proof.
  intros us H. induction H as [|u us L H IH]; [reflexivity|]. cbn [flat_map app units]. rewrite IH. cbn [cons_]. pose proof (N.div_mod u 256 ltac:(discriminate)). repeat f_equal. lia.
Qed.
Lemma of_units_text : forall t, Forall scalar t -> of_units (flat_map utf16_units_of t) = Some t.
Proof.
  intros t H. induction H as [|c t S H IH]; [reflexivity|]. cbn [flat_map]. unfold utf16_units_of at 1. destruct (N.ltb_spec c 65536) as [L|L]; cbn [app of_units].
  - rewrite inr_false by (destruct S; lia). rewrite inr_false by (destruct S; lia). rewrite IH. reflexivity.
  - assert (c < 1114112) by (destruct S; lia). pose proof (N.div_mod (c - 65536) 1024 ltac:(discriminate)). pose proof (N.mod_lt (c - 65536) 1024 ltac:(discriminate)). set (q := (c - 65536) / 1024) in *. set (m := (c - 65536) mod 1024) in *. clearbody q m.
    rewrite inr_true by lia. rewrite inr_true by lia. rewrite IH. cbn [cons_]. do 2 f_equal. lia.
Qed.
Lemma units_small : forall t, Forall scalar t -> Forall (fun u => u < 65536) (flat_map utf16_units_of t).
Proof.
  intros t H. induction H as [|c t S H IH]; [constructor|]. cbn [flat_map]. apply Forall_app. split; [|exact IH]. unfold utf16_units_of. destruct (N.ltb_spec c 65536) as [L|L]; [constructor; [exact L|constructor]|].
  assert (c < 1114112) by (destruct S; lia). pose proof (N.div_mod (c - 65536) 1024 ltac:(discriminate)). pose proof (N.mod_lt (c - 65536) 1024 ltac:(discriminate)). constructor; [|constructor; [|constructor]]; set (q := (c - 65536) / 1024) in *; set (m := (c - 65536) mod 1024) in *; clearbody q m; lia.
Qed.
Lemma utf16_text : forall t, Forall scalar t -> utf16le (in_utf16le t) = Some t.
Proof. intros t H. unfold utf16le, utf16_units, in_utf16le. rewrite units_le by (apply units_small; exact H). apply of_units_text. exact H. Qed.

Lemma newlines_seen : forall t, seen t (newlines t).
Proof.
  assert (H : forall n t, (length t <= n)%nat -> seen t (newlines t)); [|intros t; apply (H (length t)); apply le_n].
  induction n as [|n IH]; intros [|c t] L; cbn [length] in L; try (cbn; constructor); try lia. cbn [newlines].
  destruct (N.eqb_spec c 13) as [->|C]; [|apply seen_other; [exact C|]; apply IH; lia].
  destruct t as [|d t]; [apply seen_cr; [constructor|discriminate]|]. cbn [length] in L. destruct (N.eqb_spec d 10) as [->|D].
  - apply seen_crlf. apply IH. lia.
  - apply seen_cr; [apply IH; cbn [length]; lia|]. cbn. congruence.
Qed.
Lemma seen_newlines : forall t u, seen t u -> newlines t = u.
Proof.
  intros t u H. induction H as [|t u H IH|t u H IH N|c t u C H IH]; cbn [newlines].
  - reflexivity.
  - rewrite !N.eqb_refl, IH. reflexivity.
  - rewrite N.eqb_refl. destruct t as [|d t]; [inversion H; reflexivity|]. destruct (N.eqb_spec d 10) as [->|D]; [contradiction N; reflexivity|]. rewrite IH. reflexivity.
  - destruct (N.eqb_spec c 13); [contradiction|]. rewrite IH. reflexivity.
Qed.
(** ** The search *)
Section Other.
Variable other : enc -> bytes -> option chars.
Variable pattern : chars -> bool.
Definition crash (file : bytes) : Prop := exists c, read other Utf8 file = Some [c] /\ pattern [c] = true.
Lemma accept_step : forall file e r, detect_from other pattern file (e :: r) = Is e /\ acceptable other pattern file e /\ ~ (e = Utf8 /\ crash file) \/
  detect_from other pattern file (e :: r) = detect_from other pattern file r /\ ~ acceptable other pattern file e \/ detect_from other pattern file (e :: r) = IndexError /\ e = Utf8 /\ crash file.
Proof.
  intros file e r. cbn [detect_from]. unfold acceptable, crash. destruct (read other e file) as [[|c t]|] eqn:R.
  - right. left. split; [reflexivity|]. intros (t & E & N & _). congruence.
  - destruct (pattern (c :: t)) eqn:P.
    + destruct e; try (left; split; [reflexivity|]; split; [exists (c :: t); split; [reflexivity|]; split; [discriminate|]; split; [exact P|]; intros (K & _); discriminate K|intros (K & _); discriminate K]).
      destruct t as [|d t]; [right; right; split; [reflexivity|]; split; [reflexivity|]; exists c; auto|]. destruct d as [|p].
      * right. left. split; [reflexivity|]. intros (t0 & E & _ & _ & K). apply K. injection E as <-. auto.
      * left. split; [reflexivity|]. split; [exists (c :: N.pos p :: t); split; [reflexivity|]; split; [discriminate|]; split; [exact P|]; intros (_ & K); cbn in K; discriminate K|]. intros (_ & c0 & K & _). congruence.
    + right. left. split; [reflexivity|]. intros (t0 & E & _ & K & _). injection E as <-. congruence.
  - right. left. split; [reflexivity|]. intros (t & E & _). congruence.
Qed.
Lemma detect_spec : forall file l, match detect_from other pattern file l with
  | Is e => acceptable other pattern file e /\ exists a b, l = a ++ e :: b /\ forall x, In x a -> ~ acceptable other pattern file x
  | NoEncoding => forall e, In e l -> ~ acceptable other pattern file e
  | IndexError => crash file
  end.
Proof.
  intros file l. induction l as [|e r IH]; [intros e []|]. destruct (accept_step file e r) as [(E & A & _)|[(E & A)|(E & _ & C)]]; rewrite E.
  - split; [exact A|]. exists [], r. split; [reflexivity|intros x []].
  - destruct (detect_from other pattern file r) as [e'| |].
    + destruct IH as (B & p & q & -> & N). split; [exact B|]. exists (e :: p), q. split; [reflexivity|]. intros x [<-|X]; [exact A|exact (N x X)].
    + intros x [<-|X]; [exact A|exact (IH x X)].
    + exact IH.
  - exact C.
Qed.
End Other.
