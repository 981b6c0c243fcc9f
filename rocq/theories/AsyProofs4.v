(** Converting a schematic. *)
From Coq Require Import String Ascii List Bool Arith ZArith Lia.
From Verif Require Import PyStr EngModel EngProofs StepsModel StepsProofs LogProofs CompModel CompProofs QTagModel QTagSpec QTagProofs QEdModel QEdProofs QEdProofs3 QNetModel QNetProofs2 AscModel AscSpec AscProofs AscProofs2 AscProofs5 AscProofs11 AsyModel AsySpec AsyProofs AsyProofs2 AsyProofs3.
Import ListNotations.
Local Open Scope string_scope. Local Open Scope nat_scope. Local Open Scope list_scope.

Definition fine (t : tag) : Prop := proper t /\ ~ in_tag CR t.
Lemma ptz_good : forall x y, good_tok (pt (show_int x) (show_int y)).
Proof. intros. apply pt_good; apply show_numeral. Qed.
Lemma ptz_read : forall x y, read_token (pt (show_int x) (show_int y)) = Some (APair [x; y]).
Proof. intros. apply pt_read; try apply show_numeral; apply py_int_show. Qed.
Lemma cut_moved : forall x y, moved truncated (x, y) (cut_x x, cut_y y).
Proof. intros. split; apply quot_truncated. Qed.

Lemma label_tag_ok : forall x y n, quotable n -> startswith (s2l "0x") n = false ->
  exists t, label_tag (x, y, n) = Some t /\ fine t /\ head_is (s2l "net") t = true /\ at_point 1 t (x, y) /\ get_attr 5 t = Some (AText n).
Proof.
  intros x y n Q Z. unfold label_tag. destruct (leaf_of (map s2l ["net"; "(0,0)"; "1"; "13"; "0"; """0"""])) as (_ & _ & T).
  { cbn [map]. toks_ok. right. exists (s2l "0"). split; [reflexivity|]. split; [|split]; [vm_compute; intuition discriminate| |vm_compute; intuition discriminate].
    intros a b E. assert (K : In COLON (s2l "0")) by (rewrite E; apply in_or_app; right; left; reflexivity). vm_compute in K. intuition discriminate. }
  rewrite T. unfold set_attr, write_token. rewrite Z.
  set (ts := [s2l "net"; pt (show_int x) (show_int y); s2l "1"; s2l "13"; s2l "0"; DQ :: n ++ [DQ]]).
  destruct (leaf_of ts) as (P & C & _); [unfold ts; toks_ok; [apply ptz_good|right; exists n; auto]|].
  exists (Tag ts []). split; [reflexivity|]. split; [split; assumption|]. split; [reflexivity|]. split; [apply ptz_read|]. unfold get_attr. cbn [toks nth_error ts]. apply read_quoted.
Qed.
Lemma two_points_ok : forall n a b rest p q, Forall good_tok (map s2l (n :: a :: b :: rest)) ->
  exists t, two_points (n :: a :: b :: rest) p q = Some t /\ fine t /\ head_is (s2l n) t = true /\ at_point 1 t p /\ at_point 2 t q /\ toks t = s2l n :: pt (show_int (fst p)) (show_int (snd p)) :: pt (show_int (fst q)) (show_int (snd q)) :: map s2l rest.
Proof.
  intros n a b rest p q H. unfold two_points. destruct (leaf_of _ H) as (_ & _ & T). rewrite T. cbn [map] in *. apply Forall_cons_iff in H. destruct H as (H1 & H). apply Forall_cons_iff in H. destruct H as (_ & H). apply Forall_cons_iff in H. destruct H as (_ & H).
  set (ts := s2l n :: pt (show_int (fst p)) (show_int (snd p)) :: pt (show_int (fst q)) (show_int (snd q)) :: map s2l rest).
  destruct (leaf_of ts) as (P & C & _); [unfold ts; repeat (apply Forall_cons; [first [exact H1|apply ptz_good]|]); exact H|].
  exists (Tag ts []). split; [reflexivity|]. split; [split; assumption|]. split; [unfold head_is; cbn [toks ts]; apply str_eqb_refl|]. split; [apply ptz_read|]. split; [apply ptz_read|reflexivity].
Qed.
Lemma wire_tag_ok : forall x1 y1 x2 y2, exists t, wire_tag (x1, y1, x2, y2) = Some t /\ fine t /\ head_is (s2l "wire") t = true /\ at_point 1 t (x1, y1) /\ at_point 2 t (x2, y2) /\ get_attr 3 t = Some (AText (s2l "0")).
Proof.
  intros. unfold wire_tag. destruct (two_points_ok "wire" "(0,0)" "(0,0)" ["""0"""] (x1, y1) (x2, y2)) as (t & A & B & C & D & E & F).
  { cbn [map]. toks_ok. right. exists (s2l "0"). split; [reflexivity|]. split; [|split]; [vm_compute; intuition discriminate| |vm_compute; intuition discriminate].
    intros a b E. assert (K : In COLON (s2l "0")) by (rewrite E; apply in_or_app; right; left; reflexivity). vm_compute in K. intuition discriminate. }
  exists t. split; [exact A|]. split; [exact B|]. split; [exact C|]. split; [exact D|]. split; [exact E|]. unfold get_attr. rewrite F. reflexivity.
Qed.
Lemma sheet_line_ok : forall x1 y1 x2 y2 p, exists t, sheet_line (x1, y1, x2, y2, p) = Some t /\ fine t /\ head_is (s2l "line") t = true /\ at_point 1 t (x1, y1) /\ at_point 2 t (x2, y2).
Proof.
  intros. unfold sheet_line. destruct (two_points_ok "line" "(2000,1300)" "(3150,-100)" ["0"; "2"; "0xff0000"; "-1"; "-1"] (x1, y1) (x2, y2)) as (t & A & B & C & D & E & F); [cbn [map]; toks_ok|].
  exists t. auto 6.
Qed.
Lemma sheet_shape_ok : forall n p1 p2 q, n = s2l "RECTANGLE" \/ n = s2l "CIRCLE" -> exists t, sheet_shape (n, [p1; p2], q) = Some t /\ fine t /\ (exists r, toks t = tag_name n :: r) /\ at_point 1 t p1 /\ at_point 2 t p2.
Proof.
  intros n p1 p2 q [-> | ->]; unfold sheet_shape.
  - destruct (two_points_ok "rect" "(1850,1550)" "(3650,-400)" ["0"; "0"; "2"; "0xff0000"; "0x1000000"; "-1"; "0"; "-1"] p1 p2) as (t & A & B & C & D & E & F); [cbn [map]; toks_ok|].
    change (str_eqb (s2l "RECTANGLE") (s2l "RECTANGLE")) with true. cbn match. exists t. split; [exact A|]. split; [exact B|]. split; [eexists; exact F|]. split; assumption.
  - destruct (two_points_ok "ellipse" "(2100,1150)" "(2650,150)" ["0"; "0"; "2"; "0xff0000"; "0x1000000"; "-1"; "-1"] p1 p2) as (t & A & B & C & D & E & F); [cbn [map]; toks_ok|].
    change (str_eqb (s2l "CIRCLE") (s2l "RECTANGLE")) with false. change (str_eqb (s2l "CIRCLE") (s2l "CIRCLE")) with true. cbn match. exists t. split; [exact A|]. split; [exact B|]. split; [eexists; exact F|]. split; assumption.
Qed.
Lemma qual_quotable : forall s, quotable s -> quotable (QUAL ++ s).
Proof.
  intros s (A & B & C). split; [|split].
  - intros K. apply in_app_or in K. destruct K as [K|K]; [vm_compute in K; intuition discriminate|exact (A K)].
  - intros a b E. assert (L : exists a', a = QUAL ++ a').
    { change QUAL with [ascii_of_nat 239; ascii_of_nat 187; ascii_of_nat 191] in *. destruct a as [|x [|y [|u a]]]; cbn [app] in E; try (exfalso; injection E; intros; discriminate).
      injection E as <- <- <- E. exists a. reflexivity. }
    destruct L as (a' & ->). rewrite <- app_assoc in E. apply app_inv_head in E. exact (B a' b E).
  - intros K. apply in_app_or in K. destruct K as [K|K]; [vm_compute in K; intuition discriminate|exact (C K)].
Qed.
Lemma directive_tag_ok : forall t, quotable (t_text t) -> exists u, directive_tag t = Some u /\ fine u /\ head_is TEXT u = true /\ at_point 1 u (t_x t, t_y t) /\ text_of u = Some (QUAL ++ t_text t) /\ get_attr 4 u = Some (AInt 0).
Proof.
  intros t Q. apply qual_quotable in Q. unfold directive_tag. destruct (leaf_of (map s2l ["text"; "(0,0)"; "1"; "7"; "0"; "0x1000000"; "-1"; "-1"; """text"""])) as (_ & _ & T).
  { cbn [map]. toks_ok. right. exists (s2l "text"). split; [reflexivity|]. split; [|split]; [vm_compute; intuition discriminate| |vm_compute; intuition discriminate].
    intros a b E. assert (K : In COLON (s2l "text")) by (rewrite E; apply in_or_app; right; left; reflexivity). vm_compute in K. intuition discriminate. }
  rewrite T. unfold set_attr, write_token. assert (startswith (s2l "0x") (QUAL ++ t_text t) = false) as -> by reflexivity.
  set (ts := [s2l "text"; pt (show_int (t_x t)) (show_int (t_y t)); s2l "1"; s2l "7"; s2l "0"; s2l "0x1000000"; s2l "-1"; s2l "-1"; DQ :: (QUAL ++ t_text t) ++ [DQ]]).
  destruct (leaf_of ts) as (P & C & _); [unfold ts; toks_ok; [apply ptz_good|right; eexists; split; [reflexivity|exact Q]]|].
  exists (Tag ts []). split; [reflexivity|]. split; [split; assumption|]. split; [reflexivity|]. split; [apply ptz_read|]. split; [|reflexivity]. unfold text_of, get_attr. cbn [toks nth_error ts]. rewrite read_quoted. reflexivity.
Qed.
Lemma turned_ok : forall r k, dget r rotations = Some k -> In (r, Z.div (turned k) 45) turns.
Proof.
  intros r k H. apply QEdProofs2.dget_In in H. cbn in H. repeat (destruct H as [H|H]; [assert (E1 : r = fst (r, k)) by reflexivity; assert (E2 : k = snd (r, k)) by reflexivity; rewrite <- H in E1, E2; cbn in E1, E2; subst; vm_compute; tauto|]). destruct H.
Qed.
Lemma component_tag_ok : forall c y, fine y -> head_is SYMBOL y = true -> exists u, component_tag c (Some y) = Some u /\ fine u /\ head_is COMPONENT u = true /\ at_point 1 u (c_x c, c_y c) /\
  get_attr 2 u = Some (AInt (Z.div (turned (c_rot c)) 45)) /\ get_items SYMBOL u = [y].
Proof.
  intros c y (PY & CY) HY. unfold component_tag.
  set (ts := [s2l "component"; pt (show_int (c_x c)) (show_int (c_y c)); show_int (Z.div (turned (c_rot c)) 45); s2l "0"]).
  assert (G : Forall good_tok ts) by (unfold ts; toks_ok; [apply ptz_good|apply numeral_good, show_numeral]).
  destruct (leaf_of ts G) as (P & C & T). rewrite T. cbn [option_map toks kids app]. exists (Tag ts [y]). split; [reflexivity|]. split; [split|].
  - apply P_node; [discriminate| |repeat constructor; exact PY]. inversion P; subst; first [contradiction|assumption|discriminate].
  - intros K. inversion K as [t0 its a HI HA|t0 its u HI HT]; subst; [|destruct HI as [<- |[]]; exact (CY HT)]. apply C. apply I_token with (a := a); assumption.
  - split; [reflexivity|]. split; [apply ptz_read|]. split; [apply read_int|]. unfold get_items. cbn [kids filter]. rewrite HY. reflexivity.
Qed.

(** ** The components *)
Section Lib.
Variable lib : str -> option symfile.
Definition library (n : str) : option str := option_map sym_text (lib n).
Definition named (n : str) (x : symbol) : bool := str_eqb (s_name x) n.
Definition drawn_like (l : list symbol) (n : str) (y : tag) : Prop :=
  exists s0 m, find (named n) l = Some s0 /\ lib n = Some m /\ symbol_drawn m [s_ref s0; value_text s0] y /\ head_is SYMBOL y = true.
Definition stock_ok (stock : list (str * tag)) (pre : list symbol) : Prop :=
  (forall n y, dget n stock = Some y -> drawn_like pre n y) /\ (forall n, dget n stock = None -> find (named n) pre = None).
Lemma find_app : forall A (p : A -> bool) a b, find p (a ++ b) = match find p a with Some y => Some y | None => find p b end.
Proof. intros A p a b. induction a as [|y a IH]; [reflexivity|]. cbn [app find]. destruct (p y); [reflexivity|exact IH]. Qed.
Lemma like_app : forall l r n y, drawn_like l n y -> drawn_like (l ++ r) n y.
Proof. intros l r n y (s0 & m & A & B). exists s0, m. rewrite find_app, A. auto. Qed.
Definition usable (s : symbol) : Prop := quotable (s_ref s) /\ quotable (value_text s) /\ exists m, lib (s_name s) = Some m /\ convertible m /\ length (s_texts m) <= 2.
Lemma symbol_for_ok : forall c s stock pre, usable s -> c_sym c = s_name s -> c_ref c = s_ref s -> dget (s2l "Value") (c_attrs c) = option_map AStr (value_of s (s2l "Value")) -> stock_ok stock pre ->
  exists y stock', symbol_for library c stock = Some (Some y, stock') /\ stock_ok stock' (pre ++ [s]) /\ drawn_like (pre ++ [s]) (s_name s) y.
Proof.
  intros c s stock pre (QR & QV & m & LB & CV & L2) SY RF VA (SA & SB). unfold symbol_for. rewrite SY. destruct (dget (s_name s) stock) as [y|] eqn:G.
  - exists y, stock. split; [reflexivity|]. pose proof (SA _ _ G) as DL. split; [split|apply like_app; exact DL].
    + intros n y' H. apply like_app. apply SA. exact H.
    + intros n H. rewrite find_app, (SB n H). cbn [find]. unfold named. destruct (str_eqb (s_name s) n) eqn:E; [|reflexivity]. apply str_eqb_eq in E. subst n. congruence.
  - unfold library. rewrite LB. cbn [option_map]. destruct (read_shows m) as (a & RA & YA); [apply CV|]. rewrite RA.
    assert (EV : match dget (s2l "Value") (c_attrs c) with Some (AStr v) => Some v | None => Some (s2l "<val>") | Some _ => None end = Some (value_text s)) by (rewrite VA; unfold value_text; destruct (value_of s (s2l "Value")); reflexivity).
    rewrite EV. destruct (to_qsch_ok m a _ _ [s_ref s; value_text s] CV YA L2) as (t & TQ & SD & HS); [apply Forall_cons; [exact QR|apply Forall_cons; [exact QV|apply Forall_nil]]|]. rewrite RF, TQ. cbn [option_map].
    assert (DL : drawn_like (pre ++ [s]) (s_name s) t).
    { exists s, m. rewrite find_app, (SB _ G). cbn [find]. unfold named. rewrite str_eqb_refl. auto. }
    exists t, (dset (s_name s) t stock). split; [reflexivity|]. split; [split|exact DL].
    + intros n y H. rewrite dget_dset in H. destruct (str_eqb (s_name s) n) eqn:E; [|apply like_app; apply SA; exact H]. apply str_eqb_eq in E. subst n. assert (t = y) by congruence. subst y. exact DL.
    + intros n H. rewrite dget_dset in H. destruct (str_eqb (s_name s) n) eqn:E; [discriminate|]. rewrite find_app, (SB n H). cbn [find]. unfold named. rewrite E. reflexivity.
Qed.
Lemma component_tags_ok : forall (l : list (str * AscModel.comp)) ss pre stock, Forall2 sym_shows l ss -> Forall usable ss -> stock_ok stock pre ->
  forall l', l' = map (fun e => (fst e, let c := snd e in AscModel.Comp (c_sym c) (cut_x (c_x c)) (cut_y (c_y c)) (c_rot c) (c_ref c) (c_attrs c))) l ->
  exists us, component_tags library l' stock = Some us /\
    Forall2 (fun s u => fine u /\ head_is COMPONENT u = true /\ at_point 1 u (cut_x (s_x s), cut_y (s_y s)) /\ (exists k, In (s_rot s, k) turns /\ get_attr 2 u = Some (AInt k)) /\
      exists y, get_items SYMBOL u = [y] /\ drawn_like (pre ++ ss) (s_name s) y) ss us.
Proof.
  intros l ss pre stock F. revert pre stock. induction F as [|[r c] s l ss SH F IH]; intros pre stock US ST l' ->; [exists []; split; [reflexivity|constructor]|].
  apply Forall_cons_iff in US. destruct US as (U & US). destruct SH as (_ & RF & SY & X & Y & RT & AT). cbn [fst snd] in *. cbn [map component_tags fst snd].
  set (c' := AscModel.Comp (c_sym c) (cut_x (c_x c)) (cut_y (c_y c)) (c_rot c) (c_ref c) (c_attrs c)).
  destruct (symbol_for_ok c' s stock pre U SY RF) as (y & stock' & E & SO & DL); [apply (attrs_get _ _ _ AT); reflexivity|exact ST|]. rewrite E.
  destruct (component_tag_ok c' y) as (u & EU & FU & HU & PU & AU & GU).
  { destruct DL as (s0 & m & _ & _ & SD & _). apply (sd_proper _ _ _ SD). }
  { destruct DL as (s0 & m & _ & _ & _ & HS). exact HS. }
  rewrite EU. destruct (IH (pre ++ [s]) stock' US SO _ eq_refl) as (us & ES & FS). rewrite ES. exists (u :: us). split; [reflexivity|].
  rewrite <- app_assoc in FS. constructor; [|exact FS]. split; [exact FU|]. split; [exact HU|]. split; [cbn [c_x c_y c'] in PU; rewrite X, Y in PU; exact PU|]. split.
  - exists (Z.div (turned (c_rot c)) 45). split; [apply turned_ok; exact RT|exact AU].
  - exists y. split; [exact GU|]. change (s :: ss) with ([s] ++ ss). rewrite app_assoc. apply like_app. exact DL.
Qed.
End Lib.
