(** Converting a symbol to tags. *)
From Coq Require Import String Ascii List Bool Arith ZArith Lia.
From Verif Require Import PyStr EngModel EngProofs StepsModel StepsProofs LogProofs CompModel CompProofs QTagModel QTagSpec QTagProofs QEdModel QEdProofs QNetModel QNetProofs2 AscModel AscSpec AscProofs AscProofs2 AsyModel AsySpec AsyProofs.
Import ListNotations.
Local Open Scope string_scope. Local Open Scope nat_scope. Local Open Scope list_scope.

(** ** Tags from text *)
Definition good_tok (a : str) : Prop :=
  (a <> [] /\ forall c, In c a -> is_space c = false /\ c <> DQ /\ c <> LT /\ c <> GT /\ c <> COLON /\ c <> CR) \/ (exists q, a = DQ :: q ++ [DQ] /\ quotable q).
Lemma good_lit : forall w, negb (str_eqb w []) && forallb (fun c => negb (is_space c) && negb (aeqb c DQ) && negb (aeqb c LT) && negb (aeqb c GT) && negb (aeqb c COLON) && negb (aeqb c CR)) w = true -> good_tok w.
Proof.
  intros w H. left. apply andb_true_iff in H. destruct H as (W1 & W2). split; [intros ->; discriminate|]. intros c K. rewrite forallb_forall in W2. apply W2 in K.
  rewrite !andb_true_iff, !negb_true_iff in K. destruct K as (((((K1 & K2) & K3) & K4) & K5) & K6). repeat split; try assumption; intros ->; rewrite aeqb_refl in *; discriminate.
Qed.
Lemma leaf_of : forall ts, Forall good_tok ts -> proper (Tag ts []) /\ ~ in_tag CR (Tag ts []) /\ tag_from ts = Some (Tag ts []).
Proof.
  intros ts H. rewrite Forall_forall in H.
  assert (PR : proper (Tag ts [])).
  { apply P_leaf.
    - apply Forall_forall. intros a A. destruct (H a A) as [(N & W)|(q & -> & Q)].
      + left. split; [exact N|]. intros c C. apply W in C. tauto.
      + right. exists q. split; [reflexivity|apply Q].
    - apply Forall_forall. intros a A. destruct (H a A) as [(N & W)|(q & -> & Q)].
      + intros x y E. assert (K : In COLON a) by (rewrite E; apply in_or_app; right; left; reflexivity). apply W in K. tauto.
      + apply quoted_no_colon. apply Q.
    - intros a x b E. assert (K : In (x ++ [COLON]) ts) by (rewrite E; apply in_or_app; right; left; reflexivity). exfalso.
      destruct (H _ K) as [(N & W)|(q & EQ & Q)].
      + assert (C : In COLON (x ++ [COLON])) by (apply in_or_app; right; left; reflexivity). apply W in C. tauto.
      + apply (f_equal (fun s => last s BLANK)) in EQ. rewrite app_comm_cons, !last_last in EQ. discriminate. }
  split; [exact PR|]. split.
  - intros K. inversion K as [ts0 its a HI HA|ts0 its t HI]; subst; [|destruct HI]. destruct (H a HI) as [(N & W)|(q & -> & Q)]; [apply W in HA; tauto|].
    destruct HA as [HA|HA]; [discriminate|]. apply in_app_or in HA. destruct HA as [HA|[HA|[]]]; [|discriminate]. destruct Q as (_ & _ & Q). exact (Q HA).
  - unfold tag_from, parse. rewrite aeqb_refl. change (join_blank ts ++ [GT]) with (QTagProofs.body 0 (Tag ts []) ++ GT :: []). rewrite parse_body; [reflexivity|exact PR|]. lia.
Qed.
Definition numeral (a : str) : Prop := a <> [] /\ forall c, In c a -> is_digit c = true \/ c = "-"%char.
Lemma show_numeral : forall n, numeral (show_int n).
Proof.
  intros n. destruct (show_int_shape n) as (sg & ds & E & SG & NE & DG). rewrite E. split; [destruct sg; [exact NE|discriminate]|]. intros c C. apply in_app_or in C. destruct C as [C|C].
  - destruct SG as [(-> & _)|(-> & _)]; [destruct C|]. destruct C as [<- |[]]. right. reflexivity.
  - left. apply digits_in with (1 := DG). exact C.
Qed.
Lemma numeral_chars : forall a c, numeral a -> In c a -> is_space c = false /\ c <> DQ /\ c <> LT /\ c <> GT /\ c <> COLON /\ c <> CR /\ c <> ","%char.
Proof.
  intros a c (_ & N) C. apply N in C. destruct C as [C| ->]; [|repeat split; try reflexivity; discriminate]. apply digit_cases in C. clear N. revert c C. apply (proj1 (Forall_forall _ _)). repeat constructor; try reflexivity; discriminate.
Qed.
Lemma numeral_good : forall a, numeral a -> good_tok a.
Proof. intros a N. left. split; [apply N|]. intros c C. apply (numeral_chars a c N) in C. tauto. Qed.
Lemma pt_good : forall x y, numeral x -> numeral y -> good_tok (pt x y).
Proof.
  intros x y X Y. left. split; [discriminate|]. intros c C. unfold pt in C. rewrite !in_app_iff in C.
  destruct C as [C|[C|[C|[C|C]]]]; try (apply (numeral_chars _ c X) in C; tauto); try (apply (numeral_chars _ c Y) in C; tauto); destruct C as [<- |[]]; repeat split; try reflexivity; discriminate.
Qed.
Lemma pt_read : forall a b x y, numeral a -> numeral b -> py_int a = Some x -> py_int b = Some y -> read_token (pt a b) = Some (APair [x; y]).
Proof.
  intros a b x y A B PA PB. unfold read_token, pt. set (m := a ++ s2l "," ++ b).
  assert (E : s2l "(" ++ a ++ s2l "," ++ b ++ s2l ")" = "("%char :: m ++ [")"%char]) by (unfold m; rewrite <- !app_assoc; reflexivity).
  rewrite E. assert (startswith (s2l "(") ("("%char :: m ++ [")"%char]) = true) as -> by reflexivity.
  assert (endswith (s2l ")") ("("%char :: m ++ [")"%char]) = true) as -> by (apply (endswith_last ("("%char :: m))). cbn [andb]. rewrite inner_mid.
  unfold m. change (s2l "," ++ b) with (","%char :: b). rewrite split_on_cons; [rewrite split_on_plain|].
  - cbn [all_ints]. rewrite PA, PB. reflexivity.
  - intros K. apply (numeral_chars _ _ B) in K. tauto.
  - intros K. apply (numeral_chars _ _ A) in K. tauto.
Qed.
Lemma fmt_y_num : forall y, numeral (fmt_y y) /\ py_int (fmt_y y) = Some (near4 (- 25 * y)).
Proof.
  intros y. unfold fmt_y. destruct (y =? 0)%Z eqn:E.
  - apply Z.eqb_eq in E. subst y. split; [|reflexivity]. split; [discriminate|]. intros c C. destruct C as [<- |[<- |[]]]; [right|left]; reflexivity.
  - split; [apply show_numeral|apply py_int_show].
Qed.
Lemma cut_point : forall p, good_tok (cut_pt p) /\ read_token (cut_pt p) = Some (APair [cut_x (fst p); cut_y (snd p)]).
Proof. intros p. unfold cut_pt. split; [apply pt_good; apply show_numeral|apply pt_read; try apply show_numeral; apply py_int_show]. Qed.
Lemma fmt_point : forall x y, good_tok (pt (fmt_x x) (fmt_y y)) /\ read_token (pt (fmt_x x) (fmt_y y)) = Some (APair [near4 (25 * x); near4 (- 25 * y)]).
Proof. intros x y. destruct (fmt_y_num y) as (A & B). split; [apply pt_good; [apply show_numeral|exact A]|apply pt_read; [apply show_numeral|exact A|apply py_int_show|exact B]]. Qed.

(** ** Rounding *)
Lemma near4_nearest : forall n, nearest n (near4 n).
Proof.
  intros n. unfold nearest, near4. pose proof (Z.div_mod n 4 ltac:(lia)) as D. pose proof (Z.mod_pos_bound n 4 ltac:(lia)) as B.
  destruct (n mod 4 =? 3)%Z eqn:E3; [apply Z.eqb_eq in E3|apply Z.eqb_neq in E3]; cbn [orb]; [lia|].
  destruct (n mod 4 =? 2)%Z eqn:E2; [apply Z.eqb_eq in E2|apply Z.eqb_neq in E2]; cbn [andb]; [destruct (Z.odd (n / 4)); lia|lia].
Qed.
Lemma quot_truncated : forall n, truncated n (Z.quot n 4).
Proof.
  intros n. unfold truncated. pose proof (Z.quot_rem' n 4) as D. destruct (Z.le_gt_cases 0 n) as [P|P].
  - pose proof (Z.rem_bound_pos n 4 P ltac:(lia)). pose proof (Z.quot_pos n 4 P ltac:(lia)). nia.
  - pose proof (Z.rem_bound_pos_neg n 4 ltac:(lia) ltac:(lia)) as B. assert (Z.quot n 4 <= 0)%Z by (pose proof (Z.quot_le_mono n 0 4 ltac:(lia) ltac:(lia)) as Q; rewrite Z.quot_0_l in Q by lia; exact Q). nia.
Qed.
Lemma grid_exact : forall x, (x mod 4 = 0)%Z -> (cut_x x = 25 * (x / 4) /\ near4 (25 * x) = 25 * (x / 4) /\ cut_y x = - 25 * (x / 4) /\ near4 (- 25 * x) = - 25 * (x / 4))%Z.
Proof.
  intros x M. pose proof (Z.div_mod x 4 ltac:(lia)) as D. rewrite M, Z.add_0_r in D. set (k := (x / 4)%Z) in *. unfold cut_x, cut_y, near4. rewrite D.
  assert (N : forall a, ((a * 4) mod 4 = 0 /\ (a * 4) / 4 = a /\ Z.quot (a * 4) 4 = a)%Z).
  { intros a. rewrite Z.mod_mul, Z.div_mul, Z.quot_mul by lia. auto. }
  replace (25 * (4 * k))%Z with (25 * k * 4)%Z by ring. replace (- 25 * (4 * k))%Z with (- 25 * k * 4)%Z by ring.
  destruct (N (25 * k)%Z) as (-> & -> & ->). destruct (N (- 25 * k)%Z) as (-> & -> & ->). cbn. auto.
Qed.

(** ** The parts of a symbol *)
Ltac toks_ok := repeat (apply Forall_cons); try apply Forall_nil; try (apply good_lit; reflexivity).
Lemma line_tag_ok : forall l, exists t, line_tag l = Some t /\ proper t /\ ~ in_tag CR t /\ head_is (s2l "line") t = true /\ kids t = [] /\
  let '(x1, y1, x2, y2, _) := l in at_point 1 t (cut_x x1, cut_y y1) /\ at_point 2 t (cut_x x2, cut_y y2).
Proof.
  intros [[[[x1 y1] x2] y2] q]. unfold line_tag. destruct (cut_point (x1, y1)) as (A & A'). destruct (cut_point (x2, y2)) as (B & B').
  set (ts := [s2l "line"; cut_pt (x1, y1); cut_pt (x2, y2)] ++ map s2l ["0"; "0"; "0x1000000"; "-1"; "-1"]).
  destruct (leaf_of ts) as (P & C & T); [unfold ts; cbn [app map]; toks_ok; assumption|]. exists (Tag ts []). split; [exact T|]. split; [exact P|]. split; [exact C|].
  split; [reflexivity|]. split; [reflexivity|]. split; [exact A'|exact B'].
Qed.
Definition tag_name (n : str) : str := if str_eqb n (s2l "RECTANGLE") then s2l "rect" else s2l "ellipse".
Lemma shape_tag_ok : forall n p1 p2 q, n = s2l "RECTANGLE" \/ n = s2l "CIRCLE" -> exists t, shape_tag (n, [p1; p2], q) = Some t /\ proper t /\ ~ in_tag CR t /\
  (exists r, toks t = tag_name n :: r) /\ kids t = [] /\ at_point 1 t (cut_x (fst p1), cut_y (snd p1)) /\ at_point 2 t (cut_x (fst p2), cut_y (snd p2)).
Proof.
  intros n p1 p2 q N. destruct (cut_point p1) as (A & A'). destruct (cut_point p2) as (B & B').
  set (ts := [tag_name n; cut_pt p1; cut_pt p2] ++ map s2l (if str_eqb n (s2l "RECTANGLE") then ["0"; "0"; "0"; "0x4000000"; "0x1000000"; "-1"; "0"; "-1"] else ["0"; "0"; "0"; "0x1000000"; "0x1000000"; "-1"; "-1"])).
  assert (E : shape_tag (n, [p1; p2], q) = tag_from ts) by (unfold shape_tag, ts; destruct N as [-> | ->]; reflexivity).
  destruct (leaf_of ts) as (P & C & T); [unfold ts; destruct N as [-> | ->]; cbn [app map]; toks_ok; assumption|]. exists (Tag ts []). split; [rewrite E; exact T|]. split; [exact P|]. split; [exact C|].
  split; [eexists; reflexivity|]. split; [reflexivity|]. split; [exact A'|exact B'].
Qed.
Lemma window_tags_ok : forall ws args, length ws <= length args -> Forall quotable args -> exists l, window_tags ws args = Some l /\
  Forall2 (fun x t => proper t /\ ~ in_tag CR t /\ head_is TEXT t = true /\ text_of t = Some (snd x) /\ at_point 1 t (near4 (25 * t_x (fst x)), near4 (- 25 * t_y (fst x)))%Z) (combine ws args) l.
Proof.
  induction ws as [|w ws IH]; intros args L Q; [exists []; split; [reflexivity|constructor]|]. destruct args as [|a args]; [cbn in L; lia|]. apply Forall_cons_iff in Q. destruct Q as (Q & QS).
  destruct (IH args) as (l & E & F); [cbn in L; lia|exact QS|]. cbn [window_tags combine]. rewrite E.
  destruct (fmt_point (t_x w) (t_y w)) as (A & A').
  set (ts := [s2l "text"; pt (fmt_x (t_x w)) (fmt_y (t_y w))] ++ map s2l ["1"; "7"; "0"; "0x1000000"; "-1"; "-1"] ++ [DQ :: a ++ [DQ]]).
  destruct (leaf_of ts) as (P & C & T); [unfold ts; cbn [app map]; toks_ok; [exact A|right; exists a; split; [reflexivity|exact Q]]|].
  rewrite T. exists (Tag ts [] :: l). split; [reflexivity|]. constructor; [|exact F]. split; [exact P|]. split; [exact C|]. split; [reflexivity|]. split; [|exact A'].
  unfold text_of, get_attr. cbn [toks nth_error ts app map]. rewrite read_quoted. reflexivity.
Qed.
(** ** The attributes of a pin *)
Definition pair_text (e : str * str) : str := fst e ++ s2l "=" ++ snd e ++ s2l ";".
Lemma split_pairs : forall l, (forall k v, In (k, v) l -> ~ In "="%char k /\ ~ In "="%char v /\ ~ In ";"%char k /\ ~ In ";"%char v) ->
  split_on ";" (flat_map pair_text l) = map (fun e => fst e ++ s2l "=" ++ snd e) l ++ [[]].
Proof.
  induction l as [|[k v] l IH]; intros H; [reflexivity|]. cbn [flat_map map]. destruct (H k v (or_introl eq_refl)) as (A & B & C & D).
  assert (E : pair_text (k, v) ++ flat_map pair_text l = (k ++ s2l "=" ++ v) ++ ";"%char :: flat_map pair_text l) by (unfold pair_text; cbn [fst snd]; rewrite <- !app_assoc; reflexivity).
  rewrite E. rewrite split_on_cons; [cbn [app fst snd]; f_equal; apply IH; intros k' v' K; apply H; right; exact K|].
  intros K. rewrite !in_app_iff in K. destruct K as [K|[K|K]]; [exact (C K)| |exact (D K)]. destruct K as [K|[]]. discriminate.
Qed.
Lemma dict_pairs : forall l d, (forall k v, In (k, v) l -> ~ In "="%char k /\ ~ In "="%char v /\ ~ In ";"%char k /\ ~ In ";"%char v) ->
  pin_dict (map (fun e => fst e ++ s2l "=" ++ snd e) l ++ [[]]) d = Some (fold_left (fun d e => dset (fst e) (snd e) d) l d).
Proof.
  induction l as [|[k v] l IH]; intros d H; [reflexivity|]. cbn [map app fst snd pin_dict fold_left]. destruct (H k v (or_introl eq_refl)) as (A & B & _ & _).
  assert (mem_c "="%char (k ++ s2l "=" ++ v) = true) as -> by (apply mem_c_In; apply in_or_app; right; left; reflexivity).
  change (s2l "=" ++ v) with ("="%char :: v). rewrite split_on_cons by exact A. rewrite split_on_plain by exact B. apply IH. intros k' v' K. apply H. right. exact K.
Qed.
Lemma dget_fold : forall l (d : list (str * str)) x, dget x (fold_left (fun d e => dset (fst e) (snd e) d) l d) =
  match find (fun e => str_eqb (fst e) x) (rev l) with Some e => Some (snd e) | None => dget x d end.
Proof.
  induction l as [|[k v] l IH]; intros d x; [reflexivity|]. cbn [fold_left rev fst snd]. rewrite IH.
  assert (FA : forall (p : str * str -> bool) a b, find p (a ++ b) = match find p a with Some y => Some y | None => find p b end) by (intros p a b; induction a as [|y a IHa]; [reflexivity|]; cbn; destruct (p y); [reflexivity|exact IHa]).
  rewrite FA. destruct (find (fun e => str_eqb (fst e) x) (rev l)); [reflexivity|]. cbn [find fst].
  rewrite dget_dset. destruct (str_eqb k x) eqn:E; reflexivity.
Qed.
Lemma pin_tag_ok : forall t p, pin_shown t p -> (exists n, pin_name p = Some n /\ quotable n) ->
  (forall k v, In (k, v) (p_attrs p) -> ~ In "="%char k /\ ~ In "="%char v /\ ~ In ";"%char k /\ ~ In ";"%char v) ->
  exists u, pin_tag t = Some u /\ proper u /\ ~ in_tag CR u /\ head_is (s2l "pin") u = true /\ (exists n, pin_name p = Some n /\ get_attr 8 u = Some (AText n)) /\ at_point 1 u (near4 (25 * p_x p), near4 (- 25 * p_y p))%Z.
Proof.
  intros t p (SX & SY & _ & _ & ST) (n & PN & Q) H. unfold pin_tag. rewrite ST. change (flat_map (fun e => fst e ++ s2l "=" ++ snd e ++ s2l ";") (p_attrs p)) with (flat_map pair_text (p_attrs p)).
  rewrite split_pairs by exact H. rewrite dict_pairs by exact H. rewrite dget_fold.
  unfold pin_name in PN. destruct (find (fun e => str_eqb (fst e) (s2l "PinName")) (rev (p_attrs p))) as [e|] eqn:F; [|discriminate]. cbn [option_map] in PN.
  assert (EN : snd e = n) by congruence. rewrite EN, SX, SY. destruct (fmt_point (p_x p) (p_y p)) as (A & A').
  set (ts := [s2l "pin"; pt (fmt_x (p_x p)) (fmt_y (p_y p)); s2l "(0,0)"] ++ map s2l ["1"; "0"; "0"; "0x1000000"; "-1"] ++ [DQ :: n ++ [DQ]]).
  destruct (leaf_of ts) as (P & C & T); [unfold ts; cbn [app map]; toks_ok; [exact A|right; exists n; split; [reflexivity|exact Q]]|].
  exists (Tag ts []). split; [exact T|]. split; [exact P|]. split; [exact C|]. split; [reflexivity|]. split; [|exact A'].
  exists n. split; [unfold pin_name; rewrite F; cbn; congruence|]. unfold get_attr. cbn [toks nth_error ts app map]. apply read_quoted.
Qed.
