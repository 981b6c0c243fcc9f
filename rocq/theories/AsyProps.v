(** LTspice symbols and the conversion of schematics to QSPICE: C216 to C229
    (spicelib/editor/asy_reader.py, spicelib/scripts/asc_to_qsch.py, spicelib/editor/qsch_editor.py [copy_from]). *)
From Coq Require Import String Ascii List Bool Arith ZArith Lia.
From Verif Require Import PyStr EngModel EngProofs StepsModel StepsProofs LogProofs CompModel CompProofs QTagModel QTagSpec QTagProofs QEdModel QNetModel QNetSpec QNetProofs2 QNetProps AscModel AscSpec AscProofs AscProofs2 AscProps AsyModel AsySpec AsyProofs AsyProofs2 AsyProofs3 AsyProofs4 AsyProofs5 AsyProofs6.
From Verif Require ExpProofs.
Import ListNotations.
Local Open Scope string_scope. Local Open Scope nat_scope. Local Open Scope list_scope.

(** C216: everything in a symbol file is read. *)
Theorem C216_symbol_read : forall m, sym_ok m -> exists s, read_asy (sym_text m) = Some s /\
  y_version s = m_version m /\ y_type s = Some (m_type m) /\ (forall k, dget k (y_attrs s) = attr_of m k) /\ y_lines s = s_lines m /\ y_shapes s = s_shapes m /\
  Forall2 pin_shown (y_pins s) (s_pins m) /\ Forall2 text_shown (y_windows s) (s_texts m).
Proof.
  intros m OK. destruct (read_shows m OK) as (s & R & [A B C D E F G]). exists s. split; [exact R|]. split; [exact A|]. split; [exact B|]. split; [|split; [exact D|split; [exact E|split; [exact C|exact G]]]].
  intros k. rewrite F. apply dget_attrs.
Qed.
Print Assumptions C216_symbol_read.

(** C217: the value of a pin's attribute may contain a blank.  It may not: the file cannot be read. *)
Definition one_pin (k v : str) : symfile := {| m_version := s2l "4"; m_type := s2l "CELL"; m_items := [SPin {| p_x := 0; p_y := 0; p_just := s2l "NONE"; p_off := 0; p_attrs := [(k, v)] |}] |}.
Theorem C217_pin_attribute_with_blank_refuted : forall k v, one_word k -> clean v -> In " "%char v -> read_asy (sym_text (one_pin k v)) = None.
Proof.
  intros k v K V B.
  assert (GL : Forall good_line (sym_lines (one_pin k v))).
  { unfold sym_lines, one_pin. cbn [m_version m_type m_items flat_map sitem_lines p_attrs map fst snd app p_x p_y p_just p_off].
    repeat (apply Forall_cons; [eexists; split; [reflexivity|]|]); [| | |apply Forall_cons; [apply word_ends; lw|apply Forall_cons; [apply word_ends; exact K|apply Forall_cons; [apply clean_ends; exact V|constructor]]]|constructor];
    repeat (apply Forall_cons; [apply word_ends; lw|]); constructor. }
  assert (NL : newlines (sym_text (one_pin k v)) = sym_text (one_pin k v)).
  { apply newlines_id. unfold sym_text. intros L. apply in_concat in L. destruct L as (l & L & L'). rewrite Forall_forall in GL. apply (good_a_line l (GL l L)). exact L'. }
  assert (FL : file_lines (sym_text (one_pin k v)) = sym_lines (one_pin k v)) by (apply file_lines_concat; eapply Forall_impl; [|exact GL]; intros l L; apply (good_a_line l L)).
  unfold read_asy. rewrite NL, FL. unfold sym_lines, one_pin. cbn [m_version m_type m_items flat_map sitem_lines p_attrs map fst snd app p_x p_y p_just p_off]. cbn [asy_lines].
  assert (L1 : asy_line (sp [s2l "Version"; s2l "4"]) (empty_asy, None) = Some (Asy (s2l "4") None [] [] [] [] [], None)) by (vm_compute; reflexivity). rewrite L1.
  assert (L2 : asy_line (sp [s2l "SymbolType"; s2l "CELL"]) (Asy (s2l "4") None [] [] [] [] [], None) = Some (Asy (s2l "4") (Some (s2l "CELL")) [] [] [] [] [], None)) by (vm_compute; reflexivity). rewrite L2.
  assert (L3 : exists st p, asy_line (sp [s2l "PIN"; z 0; z 0; s2l "NONE"; z 0]) (Asy (s2l "4") (Some (s2l "CELL")) [] [] [] [] [], None) = Some (st, Some p)) by (eexists _, _; vm_compute; reflexivity). destruct L3 as (st & p & ->).
  assert (E : asy_line (sp [s2l "PINATTR"; k; v]) (st, Some p) = option_map (fun p' => (st, Some p')) (pin_attr (sp [s2l "PINATTR"; k; v]) p)) by reflexivity. rewrite E.
  assert (N : pin_attr (sp [s2l "PINATTR"; k; v]) p = None); [|rewrite N; reflexivity].
  assert (NK : ~ In " "%char k) by (intros I; apply (proj2 K) in I; discriminate I).
  unfold pin_attr, sp. cbn [join_blank]. assert (EQ : (s2l "PINATTR" ++ BLANK :: k ++ BLANK :: v) ++ [LF] = s2l "PINATTR" ++ " "%char :: k ++ " "%char :: (v ++ [LF])) by (rewrite <- app_assoc; cbn [app]; rewrite <- app_assoc; reflexivity).
  rewrite EQ. rewrite split_on_cons by (vm_compute; intuition discriminate). rewrite split_on_cons by exact NK.
  apply in_split in B. destruct B as (a & b & EV).
  assert (exists a' b', v ++ [LF] = a' ++ " "%char :: b' /\ ~ In " "%char a') as (a' & b' & -> & NA).
  { clear -EV. subst v. rewrite <- app_assoc. cbn [app]. revert b. induction a as [|c a IH]; intros b; [exists [], (b ++ [LF]); split; [reflexivity|intros []]|]. destruct (aeqb c " ") eqn:E.
    - apply aeqb_eq in E. subst. exists [], (a ++ " "%char :: b ++ [LF]). split; [reflexivity|intros []].
    - destruct (IH b) as (a' & b' & E1 & E2). exists (c :: a'), b'. cbn [app]. rewrite E1. split; [reflexivity|]. intros [-> |I]; [discriminate|exact (E2 I)]. }
  rewrite split_on_cons by exact NA. assert (NE : split_on " " b' <> []) by (clear; induction b' as [|c b' IH]; [discriminate|]; cbn [split_on]; destruct (aeqb c " "); [discriminate|]; destruct (split_on " " b'); discriminate). destruct (split_on " " b') as [|x l]; [contradiction|reflexivity].
Qed.
Print Assumptions C217_pin_attribute_with_blank_refuted.

(** C218: a symbol with a prefix, a description and named pins is drawn: its lines, rectangles, circles, texts and pins, each at its place. *)
Theorem C218_symbol_converted : forall m args, convertible m -> length (s_texts m) <= length args -> Forall quotable args ->
  exists s t, read_asy (sym_text m) = Some s /\ to_qsch args s = Some t /\ symbol_drawn m args t /\ read_file (QTagModel.file_text t) = Some t.
Proof.
  intros m args CV L Q. destruct (read_shows m (proj1 CV)) as (s & R & Y). destruct (to_qsch_ok m s _ _ args CV Y L Q) as (t & T & SD & _). exists s, t. split; [exact R|]. split; [exact T|]. split; [exact SD|].
  apply file_round; apply (sd_proper _ _ _ SD).
Qed.
Print Assumptions C218_symbol_converted.

(** C219: on LTspice's grid (multiples of 4) both ways of rounding give the exact place, so that what touched still touches and nothing else does. *)
Theorem C219_on_the_grid : (forall p q, on_grid p -> moved truncated p q \/ moved nearest p q -> q = exactly p) /\
  (forall p p', on_grid p -> on_grid p' -> (exactly p = exactly p' <-> p = p')).
Proof.
  assert (D : forall x, (x mod 4 = 0)%Z -> (x = 4 * (x / 4))%Z) by (intros x M; pose proof (Z.div_mod x 4 ltac:(lia)); lia).
  split.
  - intros [x y] [a b] (GX & GY) H. cbn [fst snd] in *. apply D in GX, GY. unfold exactly. cbn [fst snd]. set (k := (x / 4)%Z) in *. set (j := (y / 4)%Z) in *. unfold moved, truncated, nearest in H. cbn [fst snd] in H.
    assert (a = 25 * k /\ b = - 25 * j)%Z; [|f_equal; lia]. destruct H as [((X & X') & (Y & Y'))|(X & Y)]; [|lia]. split; nia.
  - intros [x y] [a b] (GX & GY) (GA & GB). cbn [fst snd] in *. apply D in GX, GY, GA, GB. unfold exactly. cbn [fst snd]. split; [|intros E; injection E as <- <-; reflexivity]. intros E.
    assert (x / 4 = a / 4 /\ y / 4 = b / 4)%Z as (E1 & E2); [|rewrite GX, GY, E1, E2, <- GA, <- GB; reflexivity]. split; [apply (f_equal fst) in E|apply (f_equal snd) in E]; cbn [fst snd] in E; lia.
Qed.
Print Assumptions C219_on_the_grid.

(** C220: a line that ends at a pin still ends at it.  Off the grid it does not: lines are truncated, pins are rounded. *)
Definition off_grid : symfile := {| m_version := s2l "4"; m_type := s2l "CELL"; m_items :=
  [SLine 6 0 6 8 []; SAttr (s2l "Prefix") (s2l "R"); SAttr (s2l "Description") (s2l "A resistor");
   SPin {| p_x := 6; p_y := 0; p_just := s2l "NONE"; p_off := 0; p_attrs := [(s2l "PinName", s2l "A")] |}] |}.
Theorem C220_lines_and_pins_part_refuted :
  match read_asy (sym_text off_grid) with
  | Some s => option_map (fun t => (map (get_attr 1) (get_items (s2l "line") t), map (get_attr 1) (get_items (s2l "pin") t))) (to_qsch [] s)
  | None => None
  end = Some ([Some (APair [37; 0]%Z)], [Some (APair [38; 0]%Z)]).
Proof. vm_compute. reflexivity. Qed.
Print Assumptions C220_lines_and_pins_part_refuted.

(** C221: a schematic is converted: every component, label, wire, line, rectangle, circle and text is in the new file, which can be read.  If
    the symbols are all different and show two texts each, the schematic that is opened has the components and values of the old one. *)
Definition files (lib : str -> option symfile) (n : str) : option str := option_map sym_text (lib n).
Theorem C221_converted : forall sub lib f, file_ok sub f -> can_convert lib f -> exists text t,
  convert_file sub (files lib) (AscSpec.file_text f) = Some text /\ read_file text = Some t /\ converted lib f t.
Proof.
  intros sub lib f OK CC. destruct (convert_ok lib sub f OK CC) as (a & t & LA & CV & (P & C) & D). exists (QTagModel.file_text t), t. split.
  - unfold convert_file. rewrite LA. change (files lib) with (library lib). rewrite CV. reflexivity.
  - split; [apply file_round; assumption|exact D].
Qed.
Theorem C221_reopened : forall sub lib f, file_ok sub f -> can_convert lib f ->
  NoDup (map s_name (symbols (f_items f))) -> (forall s m, In s (symbols (f_items f)) -> lib (s_name s) = Some m -> length (s_texts m) = 2) ->
  exists text t, convert_file sub (files lib) (AscSpec.file_text f) = Some text /\ read_file text = Some t /\ forall path, exists ed, QEdModel.load path t = Some ed /\
    (forall r, In r (QEdModel.get_components ed) <-> exists s, In s (symbols (f_items f)) /\ s_ref s = r) /\
    (forall s, In s (symbols (f_items f)) -> ~ In ":"%char (s_ref s) -> QEdModel.get_component_value (s_ref s) ed = Some (value_text s)).
Proof.
  intros sub lib f OK CC ND TX. destruct (C221_converted sub lib f OK CC) as (text & t & A & B & C). exists text, t. split; [exact A|]. split; [exact B|]. intros path.
  destruct (reopen_ok lib f t path) as (ed & LD & CO & VA); [apply OK|exact C|intros s m I L; rewrite (TX s m I L); lia|]. exists ed. split; [exact LD|].
  assert (FI : forall s, In s (symbols (f_items f)) -> first_like f s s).
  { unfold first_like. clear -ND. generalize dependent (symbols (f_items f)). intros l. induction l as [|x l IH]; intros ND s I; [destruct I|]. cbn [map] in ND. apply NoDup_cons_iff in ND. destruct ND as (N & ND). cbn [find]. destruct I as [-> |I]; [rewrite str_eqb_refl; reflexivity|].
    destruct (str_eqb (s_name x) (s_name s)) eqn:E; [|apply IH; assumption]. apply str_eqb_eq in E. exfalso. apply N. rewrite E. apply in_map. exact I. }
  split; [|intros s I NC; apply VA; auto]. intros r. rewrite CO. split; [intros (s & I & E & _); exists s; auto|intros (s & I & E); exists s; auto].
Qed.
Print Assumptions C221_converted.
Print Assumptions C221_reopened.

(** C222: with several components of one symbol they are all there.  Only the first is: the symbol, with its texts, is used for all of them. *)
Theorem C222_second_component_lost_refuted : forall sub lib f, file_ok sub f -> can_convert lib f ->
  (forall s m, In s (symbols (f_items f)) -> lib (s_name s) = Some m -> length (s_texts m) = 2) ->
  exists text t, convert_file sub (files lib) (AscSpec.file_text f) = Some text /\ read_file text = Some t /\ forall path, exists ed, QEdModel.load path t = Some ed /\
    forall a s b s' c, symbols (f_items f) = a ++ s :: b ++ s' :: c -> s_name s' = s_name s -> ~ In (s_ref s') (QEdModel.get_components ed).
Proof.
  intros sub lib f OK CC TX. destruct (C221_converted sub lib f OK CC) as (text & t & A & B & C). exists text, t. split; [exact A|]. split; [exact B|]. intros path.
  destruct (reopen_ok lib f t path) as (ed & LD & CO & VA); [apply OK|exact C|intros s m I L; rewrite (TX s m I L); lia|]. exists ed. split; [exact LD|].
  intros a s b s' c E EN I. apply CO in I. destruct I as (x & I & R & F). destruct OK as (_ & _ & _ & ND & _). rewrite E in *.
  assert (X : x = s').
  { assert (I' : In s' (a ++ s :: b ++ s' :: c)) by (apply in_or_app; right; right; apply in_or_app; right; left; reflexivity). revert ND I I' R. generalize (a ++ s :: b ++ s' :: c). clear. intros l. induction l as [|y l IH]; intros ND A B R; [destruct A|]. cbn [map] in ND. apply NoDup_cons_iff in ND. destruct ND as (N & ND).
    destruct A as [-> |A], B as [-> |B]; [reflexivity| | |apply IH; assumption]; exfalso; apply N; [rewrite R|rewrite <- R]; apply in_map; assumption. }
  subst x. unfold first_like in F. rewrite E in F. rewrite find_app in F. destruct (find (fun x => str_eqb (s_name x) (s_name s')) a) as [y|] eqn:FA.
  - apply find_some in FA. destruct FA as (IA & _). assert (y = s') by congruence. subst y. apply in_split in IA. destruct IA as (a1 & a2 & ->). rewrite <- app_assoc, map_app in ND. cbn [app map] in ND.
    apply NoDup_remove_2 in ND. apply ND. apply in_or_app. right. rewrite map_app. apply in_or_app. right. cbn [map]. right. rewrite map_app. apply in_or_app. right. left. reflexivity.
  - cbn [find] in F. rewrite EN, str_eqb_refl in F. assert (s = s') by congruence. subst s'. rewrite map_app in ND. cbn [map] in ND. apply NoDup_remove_2 in ND. apply ND. apply in_or_app. right. rewrite map_app. apply in_or_app. right. left. reflexivity.
Qed.
Print Assumptions C222_second_component_lost_refuted.

(** C223: a symbol that shows more texts than a reference and a value can be converted.  It cannot. *)
Lemma F2_len : forall A B (P : A -> B -> Prop) l r, Forall2 P l r -> length l = length r.
Proof. intros A B P l r F. induction F; cbn [length]; congruence. Qed.
Lemma windows_none : forall ws args, length args < length ws -> window_tags ws args = None.
Proof.
  induction ws as [|w ws IH]; intros args L; [cbn in L; lia|]. cbn [window_tags]. destruct args as [|a args]; [reflexivity|]. rewrite IH by (cbn in L; lia). destruct (tag_from _); reflexivity.
Qed.
Theorem C223_more_texts_refuted : forall m args s, sym_ok m -> read_asy (sym_text m) = Some s -> length args < length (s_texts m) -> to_qsch args s = None.
Proof.
  intros m args s OK R L. destruct (read_shows m OK) as (s' & R' & [_ _ _ _ _ _ G]). assert (s' = s) by congruence. subst s'.
  assert (LW : length (y_windows s) = length (s_texts m)) by exact (F2_len _ _ _ _ _ G).
  unfold to_qsch. rewrite windows_none by lia. destruct (dget (s2l "Prefix") (y_attrs s)) as [[|c p]|]; [reflexivity| |reflexivity]. destruct (dget (s2l "Description") (y_attrs s)); [|reflexivity].
  destruct (map_opt line_tag (y_lines s)); [|reflexivity]. destruct (map_opt shape_tag (y_shapes s)); reflexivity.
Qed.
Print Assumptions C223_more_texts_refuted.

(** C224: a comment stays a comment.  Every text becomes a directive; the netlist of the opened file contains it. *)
Definition titled : file := {| f_version := s2l "4"; f_sheet := s2l "1 880 680"; f_items := [Note {| n_x := 0; n_y := 232; n_align := s2l "Left"; n_size := 2; n_comment := true; n_text := s2l "a filter" |}] |}.
Theorem C224_comments_refuted : (forall lib f t n, converted lib f t -> In n (file_notes f) -> n_comment n = true -> exists u, In u (get_items (s2l "text") t) /\ text_of u = Some (map ascii_of_nat [239; 187; 191] ++ n_text n) /\ comment_of u = Some false) /\
  match convert_file plain_sub (fun _ => None) (AscSpec.file_text titled) with
  | Some text => match read_file text with Some t => match QEdModel.load [] t with Some ed => netlist_directives ed | None => None end | None => None end
  | None => None
  end = Some [s2l "a filter"].
Proof.
  split; [|vm_compute; reflexivity]. intros lib f t n [_ _ _ _ _ _ _ T] I _. revert I. induction T as [|x u l us (_ & A & B) F IH]; intros I; [destruct I|]. destruct I as [-> |I].
  - exists u. split; [left; reflexivity|]. split; [exact A|]. unfold comment_of. rewrite B. reflexivity.
  - destruct (IH I) as (w & W & R). exists w. split; [right; exact W|exact R].
Qed.
Print Assumptions C224_comments_refuted.

(** C225: wires keep their nets apart.  They are all on net 0: whatever pin a wire ends at, unless there is a label, is on node 0. *)
Theorem C225_all_wires_are_ground_refuted : forall lib f t at_place N, converted lib f t -> component_nets at_place t = Some N -> exists labels wires comps g,
  QNetSpec.drawn at_place t labels wires comps /\ map fst N = refs comps /\ Forall2 (nodes_ok labels wires g) (pins comps) (map snd N) /\
  forall p n, QNetSpec.named labels wires p n -> (forall m, ~ In (p, m) labels) -> n = s2l "0".
Proof.
  intros lib f t pl N [_ _ _ CW _ _ _ _] H. destruct (C187_nodes pl t N H) as (L & W & C & g & D & R & F). exists L, W, C, g. split; [exact D|]. split; [exact R|]. split; [exact F|].
  destruct D as (_ & DW & _). change (children "wire" t) with (get_items (s2l "wire") t) in DW.
  assert (Z : forall q r m, In (q, r, m) W -> m = s2l "0").
  { clear -CW DW. revert CW DW. generalize (get_items (s2l "wire") t), (file_wires f). intros us ws CW. revert W. induction CW as [|[[[x1 y1] x2] y2] u ws us (_ & A) F IH]; intros W DW q r m I; inversion DW as [|u' w us' W' IW DW']; subst; [destruct I|]. destruct I as [-> |I]; [|exact (IH _ DW' q r m I)].
    destruct q, r. destruct IW as (_ & _ & E). congruence. }
  intros p n NM NL. destruct NM as [n a b E _|q r n a b _ E _ _].
  - exfalso. apply (NL n). rewrite E. apply in_or_app. right. left. reflexivity.
  - rewrite (Z q r n); [reflexivity|]. rewrite E. apply in_or_app. right. left. reflexivity.
Qed.
Print Assumptions C225_all_wires_are_ground_refuted.

(** C226: arcs are drawn where they were.  The ends of an arc are divided by its radius: an arc that begins at the right of its circle
    begins at (6,0), whatever its circle. *)
Definition one_arc (r cx cy x y : Z) : symfile := {| m_version := s2l "4"; m_type := s2l "CELL"; m_items :=
  [SAttr (s2l "Prefix") (s2l "X"); SAttr (s2l "Description") (s2l "An arc"); SShape (s2l "ARC") [(cx - r, cy - r); (cx + r, cy + r); (cx + r, cy); (x, y)]%Z []] |}.
Theorem C226_arcs_refuted : forall r cx cy x y, (0 < r)%Z -> exists s t u,
  read_asy (sym_text (one_arc r cx cy x y)) = Some s /\ to_qsch [] s = Some t /\ get_items (s2l "arc3p") t = [u] /\ at_point 2 u (6, 0)%Z.
Proof.
  intros r cx cy x y R. assert (OK : sym_ok (one_arc r cx cy x y)).
  { split; [left; reflexivity|]. split; [split; [|split]; [vm_compute; intuition discriminate|vm_compute; intuition discriminate|vm_compute; reflexivity]|]. split.
    - intros i [<- |[<- |[<- |[]]]]; cbn [sitem_ok].
      + split; [lw|]. split; [|split]; [vm_compute; intuition discriminate|vm_compute; intuition discriminate|vm_compute; reflexivity].
      + split; [lw|]. split; [|split]; [vm_compute; intuition discriminate|vm_compute; intuition discriminate|vm_compute; reflexivity].
      + split; [left; reflexivity|]. right. split; reflexivity.
    - cbn. repeat constructor; cbn; intuition discriminate. }
  destruct (read_shows _ OK) as (s & RS & [_ _ YP YL YS YA YT]). cbn [one_arc m_items flat_map app] in *. inversion YP as [E1|]; subst. inversion YT as [E2|]; subst. exists s.
  assert (E1' : y_pins s = []) by (inversion YP; congruence). assert (E2' : y_windows s = []) by (inversion YT; congruence).
  set (p q := pt (show_int (by_radius (2 * r) (50 * (fst q - cx)))) (show_int (by_radius (2 * r) (- 50 * (snd q - cy))))).
  set (ts := [s2l "arc3p"; cut_pt (cx, cy); p (cx + r, cy)%Z; p (x, y)] ++ map s2l ["0"; "0"; "0xff0000"; "-1"; "-1"]).
  assert (AT : arc_tag (cx - r, cy - r)%Z (cx + r, cy + r)%Z (cx + r, cy)%Z (x, y) = Some (Tag ts [])).
  { unfold arc_tag. cbn [fst snd]. replace (cx - r + (cx + r))%Z with (cx * 2)%Z by lia. replace (cy - r + (cy + r))%Z with (cy * 2)%Z by lia. rewrite !Z.div_mul by lia. replace (cx + r - (cx - r))%Z with (2 * r)%Z by lia. rewrite Z.abs_eq by lia.
    destruct (2 * r =? 0)%Z eqn:E; [apply Z.eqb_eq in E; lia|]. apply (leaf_of ts). unfold ts, p. cbn [app map]. toks_ok; try (apply ptz_good). }
  exists (Tag [SYMBOL; s2l "X"] ([Tag [s2l "type:"; s2l "X"] []; Tag [s2l "description:"; s2l "An arc"] []; Tag [s2l "shorted pins:"; s2l "false"] []] ++ [Tag ts []])), (Tag ts []).
  split; [exact RS|]. split.
  - unfold to_qsch. rewrite YA, YL, YS, E1', E2'. cbn [attrs_in flat_map app map fst snd map_opt window_tags]. unfold shape_tag. change (str_eqb (s2l "ARC") (s2l "RECTANGLE")) with false. change (str_eqb (s2l "ARC") (s2l "ARC")) with true. cbn match. rewrite AT. reflexivity.
  - split; [reflexivity|]. unfold at_point, get_attr. cbn [toks ts app nth_error]. unfold p. cbn [fst snd]. replace (cx + r - cx)%Z with r by lia. replace (cy - cy)%Z with 0%Z by lia. rewrite ptz_read. cbn [fst snd].
    unfold by_radius. replace (-50 * 0)%Z with 0%Z by lia. rewrite Z.quot_0_l by lia. replace (50 * r)%Z with (6 * (4 * (2 * r)) + 2 * r)%Z by lia. do 3 f_equal.
    rewrite Z.quot_div_nonneg by lia. symmetry. apply (Z.div_unique_pos _ _ _ (2 * r)); lia.
Qed.
Print Assumptions C226_arcs_refuted.

(** C227: a component whose symbol is not found is left out or an error is reported.  It is written without a symbol, and the file cannot be
    opened again. *)
Theorem C227_symbol_not_found_refuted : forall path,
  option_map (fun text => option_map (fun t => match QEdModel.load path t with Some _ => true | None => false end) (read_file text)) (convert_file plain_sub (fun _ => None) (AscSpec.file_text rc)) = Some (Some false).
Proof. intros path. vm_compute. reflexivity. Qed.
Print Assumptions C227_symbol_not_found_refuted.

(** C228: every symbol can be converted.  One without prefix or without description (a block, for one) cannot. *)
Theorem C228_no_prefix_refuted : forall m args s, sym_ok m -> read_asy (sym_text m) = Some s -> attr_of m (s2l "Prefix") = None \/ attr_of m (s2l "Description") = None -> to_qsch args s = None.
Proof.
  intros m args s OK R H. destruct (C216_symbol_read m OK) as (s' & R' & _ & _ & A & _). assert (s' = s) by congruence. subst s'. unfold to_qsch. rewrite !A. destruct H as [-> | ->]; [reflexivity|]. destruct (attr_of m (s2l "Prefix")) as [[|c p]|]; reflexivity.
Qed.
Print Assumptions C228_no_prefix_refuted.

(** C229: a symbol is a sub-circuit if it is a block or has prefix X; its model is its first attribute of a given list, its library the first
    that names a library file. *)
Inductive first_with {A} (P : str -> A -> Prop) : list str -> A -> Prop :=
| Here k l v : P k v -> first_with P (k :: l) v
| Later k l v : (forall w, ~ P k w) -> first_with P l v -> first_with P (k :: l) v.
Definition library_file (v : str) : Prop := exists a x, In x (map s2l [".lib"; ".sub"; ".cir"; ".txt"]) /\ lower v = a ++ x.
Definition model_keys : list str := map s2l ["Value"; "SpiceModel"; "Value2"; "ModelFile"; "SpiceLine"; "SpiceLine2"; "Def_Sub"].
Definition library_keys : list str := map s2l ["ModelFile"; "SpiceModel"; "SpiceLine"; "SpiceLine2"; "Def_Sub"; "Value"; "Value2"].
Lemma first_of_spec : forall A (f : str -> option A) l v, first_of f l = Some v <-> first_with (fun k w => f k = Some w) l v.
Proof.
  intros A f l v. induction l as [|k l IH]; [split; [discriminate|intros H; inversion H]|]. cbn [first_of]. destruct (f k) as [a|] eqn:E.
  - split; [intros H; apply Here; congruence|]. intros H. inversion H as [? ? ? K|? ? ? K]; subst; [congruence|exfalso; exact (K a E)].
  - rewrite IH. split; [intros H; apply Later; [intros w K; congruence|exact H]|]. intros H. inversion H; subst; [congruence|assumption].
Qed.
Lemma first_with_iff : forall A (P Q : str -> A -> Prop) l v, (forall k w, P k w <-> Q k w) -> first_with P l v <-> first_with Q l v.
Proof.
  assert (H : forall A (P Q : str -> A -> Prop) l v, (forall k w, P k w <-> Q k w) -> first_with P l v -> first_with Q l v).
  { intros A P Q l v E F. induction F as [k l v K|k l v K F IH]; [apply Here; apply E; exact K|apply Later; [intros w W; apply (K w); apply E; exact W|exact IH]]. }
  intros A P Q l v E. split; apply H; intros k w; [apply E|symmetry; apply E].
Qed.
Lemma is_library : forall v, existsb (fun x => endswith (s2l x) (lower v)) [".lib"; ".sub"; ".cir"; ".txt"] = true <-> library_file v.
Proof.
  intros v. rewrite existsb_exists. split.
  - intros (x & I & E). unfold endswith in E. apply ExpProofs.startswith_ex in E. destruct E as (r & E). exists (rev r), (s2l x). split; [apply in_map; exact I|]. apply (f_equal (@rev ascii)) in E. rewrite rev_involutive, rev_app_distr, rev_involutive in E. exact E.
  - intros (a & y & I & E). apply in_map_iff in I. destruct I as (x & <- & I). exists x. split; [exact I|]. unfold endswith. rewrite E, rev_app_distr. apply startswith_refl_app.
Qed.
Theorem C229_kind_of_symbol : forall m, sym_ok m -> exists s, read_asy (sym_text m) = Some s /\
  (is_subcircuit s = true <-> m_type m = s2l "BLOCK" \/ attr_of m (s2l "Prefix") = Some (s2l "X")) /\
  (forall v, get_model s = Some v <-> first_with (fun k w => attr_of m k = Some w) model_keys v) /\
  (forall v, get_library s = Some v <-> first_with (fun k w => attr_of m k = Some w /\ library_file w) library_keys v \/
     (forall w, ~ first_with (fun k w => attr_of m k = Some w /\ library_file w) library_keys w) /\ attr_of m (s2l "SpiceModel") = Some v).
Proof.
  intros m OK. destruct (C216_symbol_read m OK) as (s & R & _ & T & A & _). exists s. split; [exact R|]. split; [|split].
  - unfold is_subcircuit. rewrite T, A, orb_true_iff, str_eqb_eq. destruct (attr_of m (s2l "Prefix")) as [p|]; [rewrite str_eqb_eq; split; (intros [H|H]; [left; exact H|right; congruence])|split; (intros [H|H]; [left; exact H|discriminate H])].
  - intros v. unfold get_model. rewrite first_of_spec. apply first_with_iff. intros k w. rewrite A. reflexivity.
  - intros v. unfold get_library. set (F := fun k => match dget k (y_attrs s) with Some v => if existsb (fun x => endswith (s2l x) (lower v)) [".lib"; ".sub"; ".cir"; ".txt"] then Some v else None | None => None end).
    assert (E : forall k w, F k = Some w <-> attr_of m k = Some w /\ library_file w).
    { intros k w. unfold F. rewrite A. destruct (attr_of m k) as [u|]; [|split; [discriminate|intros (K & _); discriminate]]. destruct (existsb _ _) eqn:X.
      - apply is_library in X. split; [intros K; assert (u = w) by congruence; subst; auto|intros (K & _); exact K].
      - split; [discriminate|]. intros (K & L). assert (u = w) by congruence. subst. apply is_library in L. congruence. }
    assert (S : forall w, first_of F library_keys = Some w <-> first_with (fun k w => attr_of m k = Some w /\ library_file w) library_keys w) by (intros w; rewrite first_of_spec; apply first_with_iff; exact E).
    change (map s2l ["ModelFile"; "SpiceModel"; "SpiceLine"; "SpiceLine2"; "Def_Sub"; "Value"; "Value2"]) with library_keys. destruct (first_of F library_keys) as [w|] eqn:X.
    + split; [intros K; left; apply S; congruence|]. intros [K|(K & _)]; [apply S in K; congruence|exfalso; apply (K w); apply S; reflexivity].
    + rewrite A. split; [intros K; right; split; [|exact K]; intros w W; apply S in W; discriminate|]. intros [K|(_ & K)]; [apply S in K; discriminate|exact K].
Qed.
Print Assumptions C229_kind_of_symbol.

(** ** Cases: the resistor that LTspice comes with, and two schematics *)
Definition res_sym : symfile := {| m_version := s2l "4"; m_type := s2l "CELL"; m_items :=
  [SLine 16 88 16 96 []; SLine 0 80 16 88 (s2l "1"); SShape (s2l "RECTANGLE") [(0, 0); (32, 96)]%Z [];
   SText {| x_x := 36; x_y := 40; x_align := s2l "Left"; x_size := 2; x_word := s2l "0"; x_window := true |};
   SText {| x_x := 36; x_y := 76; x_align := s2l "Left"; x_size := 2; x_word := s2l "3"; x_window := true |};
   SAttr (s2l "Value") (s2l "R"); SAttr (s2l "Prefix") (s2l "r"); SAttr (s2l "Description") (s2l "A resistor"); SAttr (s2l "ModelFile") (s2l "my.LIB");
   SPin {| p_x := 16; p_y := 16; p_just := s2l "NONE"; p_off := 0; p_attrs := [(s2l "PinName", s2l "A"); (s2l "SpiceOrder", s2l "1")] |};
   SPin {| p_x := 16; p_y := 96; p_just := s2l "RIGHT"; p_off := 8; p_attrs := [(s2l "PinName", s2l "B"); (s2l "SpiceOrder", s2l "2")] |}] |}.
Lemma clean_dec : forall s, (negb (mem_c LF s) && negb (mem_c CR s) && str_eqb (strip s) s)%bool = true -> clean s.
Proof.
  intros s H. apply andb_true_iff in H. destruct H as (H & K). apply andb_true_iff in H. destruct H as (A & B). apply negb_true_iff in A, B. split; [apply mem_c_not_In; exact A|]. split; [apply mem_c_not_In; exact B|]. apply str_eqb_eq. exact K.
Qed.
Lemma quotable_dec : forall s, (negb (mem_c DQ s) && negb (mem_c COLON s) && negb (mem_c CR s))%bool = true -> quotable s.
Proof.
  intros s H. rewrite !andb_true_iff, !negb_true_iff in H. destruct H as ((A & B) & C). split; [apply mem_c_not_In; exact A|]. split; [|apply mem_c_not_In; exact C].
  intros a b E. apply mem_c_not_In in B. apply B. rewrite E. apply in_or_app. right. left. reflexivity.
Qed.
Lemma res_ok : sym_ok res_sym.
Proof.
  split; [left; reflexivity|]. split; [apply clean_dec; reflexivity|]. split; [|cbn; repeat constructor; cbn; intuition discriminate].
  intros i I. cbn in I. repeat (destruct I as [<- |I]); try contradiction; cbn [sitem_ok x_word x_align].
  - left. reflexivity.
  - right. lw.
  - split; [left; reflexivity|]. left. split; [left; reflexivity|reflexivity].
  - split; [lw|vm_compute; tauto].
  - split; [lw|vm_compute; tauto].
  - split; [lw|apply clean_dec; reflexivity].
  - split; [lw|apply clean_dec; reflexivity].
  - split; [lw|apply clean_dec; reflexivity].
  - split; [lw|apply clean_dec; reflexivity].
  - split; [vm_compute; tauto|]. intros k v [E|[E|[]]]; injection E as <- <-; (split; [lw|right; lw]).
  - split; [vm_compute; tauto|]. intros k v [E|[E|[]]]; injection E as <- <-; (split; [lw|right; lw]).
Qed.
Lemma res_convertible : convertible res_sym.
Proof.
  split; [exact res_ok|]. split; [|split; [|split]].
  - exists (s2l "R"). split; [reflexivity|]. split; [discriminate|]. split; [intros c C; vm_compute in C; intuition (subst; discriminate)|]. split.
    + intros a b E. assert (K : In COLON (s2l "R")) by (rewrite E; apply in_or_app; right; left; reflexivity). vm_compute in K. intuition discriminate.
    + intros c C. vm_compute in C. intuition (subst; reflexivity).
  - exists (s2l "A resistor"). split; [reflexivity|]. split; [intros c C; vm_compute in C; intuition (subst; discriminate)|].
    intros a b E. assert (K : In COLON (s2l "A resistor")) by (rewrite E; apply in_or_app; right; left; reflexivity). vm_compute in K. intuition discriminate.
  - intros p I. cbn in I. destruct I as [<- |[<- |[]]]; (split; [eexists; split; [reflexivity|apply quotable_dec; reflexivity]|]); intros k v [E|[E|[]]]; injection E as <- <-; vm_compute; intuition discriminate.
  - intros n ps p [E|[]]. injection E as <- <- <-. discriminate.
Qed.
Example C216_nonvacuous : sym_ok res_sym /\ length (sym_text res_sym) = 348.
Proof. split; [exact res_ok|vm_compute; reflexivity]. Qed.
Example C217_nonvacuous : one_word (s2l "PinName") /\ clean (s2l "V out") /\ In " "%char (s2l "V out").
Proof. split; [lw|]. split; [apply clean_dec; reflexivity|vm_compute; tauto]. Qed.
Example C218_nonvacuous : convertible res_sym /\ Forall quotable [s2l "R1"; s2l "1k"] /\ length (s_texts res_sym) <= 2.
Proof. split; [exact res_convertible|]. split; [repeat (apply Forall_cons; [apply quotable_dec; reflexivity|]); constructor|vm_compute; lia]. Qed.
Example C219_nonvacuous : on_grid (16, -96)%Z /\ exactly (16, -96)%Z = (100, 600)%Z /\ moved truncated (16, -96)%Z (100, 600)%Z.
Proof. split; [split; reflexivity|]. split; [reflexivity|]. split; vm_compute; intuition discriminate. Qed.
Definition stock : str -> option symfile := fun n => if str_eqb n (s2l "res") then Some res_sym else None.
Lemma rc_converts : can_convert stock rc.
Proof.
  split; [|split; [|split]].
  - intros s I. cbn in I. destruct I as [<- |[]]. split; [apply quotable_dec; reflexivity|]. split; [apply quotable_dec; reflexivity|]. exists res_sym. split; [reflexivity|]. split; [exact res_convertible|vm_compute; lia].
  - intros x y n [E|[]]. injection E as <- <- <-. split; [apply quotable_dec; reflexivity|reflexivity].
  - intros t [<- |[<- |[<- |[]]]]; apply quotable_dec; reflexivity.
  - intros n ps p [E|[]]. injection E as <- <- <-. discriminate.
Qed.
Example C221_nonvacuous : file_ok plain_sub rc /\ can_convert stock rc /\ NoDup (map s_name (symbols (f_items rc))) /\ (forall s m, In s (symbols (f_items rc)) -> stock (s_name s) = Some m -> length (s_texts m) = 2) /\
  symbols (f_items rc) <> [] /\ file_wires rc <> [] /\ file_flags rc <> [] /\ file_notes rc <> [] /\ file_shapes rc <> [].
Proof.
  split; [exact rc_ok|]. split; [exact rc_converts|]. split; [repeat constructor; cbn; tauto|]. split; [|repeat split; discriminate]. intros s m [<- |[]] E. assert (E1 : Some res_sym = Some m) by exact E. injection E1 as <-. reflexivity.
Qed.
(** A second resistor. *)
Definition r2 : symbol := {| s_name := s2l "res"; s_x := 64; s_y := 32; s_rot := s2l "R0"; s_wins := []; s_ref := s2l "R2"; s_attrs := [(s2l "Value", s2l "2k")] |}.
Definition twins : file := {| f_version := s2l "4"; f_sheet := s2l "1 880 680"; f_items := f_items rc ++ [Symbol r2] |}.
Lemma twins_ok : file_ok plain_sub twins.
Proof.
  destruct rc_ok as (A & B & C & D & E). split; [exact A|]. split; [exact B|]. split; [|split; [repeat constructor; cbn; intuition discriminate|intros s _; discriminate]].
  intros i I. apply in_app_or in I. destruct I as [I|[<- |[]]]; [exact (C i I)|]. cbn [item_ok].
  split; [exists [s2l "res"]; split; [discriminate|]; split; [reflexivity|]; intros w [<- |[]]; lw|]. split; [left; reflexivity|]. split; [intros w []|]. split; [constructor|]. split; [apply clean_dec; reflexivity|]. split; [discriminate|]. split; [|repeat constructor; cbn; tauto].
  intros e [<- |[]]. split; [lw|]. split; [discriminate|]. split; [reflexivity|]. split; [apply clean_dec; reflexivity|]. split; [discriminate|]. intros K; discriminate K.
Qed.
Example C222_nonvacuous : file_ok plain_sub twins /\ can_convert stock twins /\ (forall s m, In s (symbols (f_items twins)) -> stock (s_name s) = Some m -> length (s_texts m) = 2) /\
  symbols (f_items twins) = [] ++ r1 :: [] ++ r2 :: [] /\ s_name r2 = s_name r1 /\
  match convert_file plain_sub (files stock) (AscSpec.file_text twins) with
  | Some text => match read_file text with Some t => match QEdModel.load [] t with Some ed => Some (QEdModel.get_components ed, QEdModel.get_component_value (s2l "R1") ed) | None => None end | None => None end
  | None => None
  end = Some ([s2l "R1"], Some (s2l "1k")).
Proof.
  split; [exact twins_ok|]. split.
  - destruct rc_converts as (A & B & C & D). split; [|split; [exact B|split; [exact C|exact D]]]. intros s [<- |[<- |[]]]; [apply A; left; reflexivity|]. split; [apply quotable_dec; reflexivity|]. split; [apply quotable_dec; reflexivity|]. exists res_sym. split; [reflexivity|]. split; [exact res_convertible|vm_compute; lia].
  - split; [intros s m [<- |[<- |[]]] E; assert (E1 : Some res_sym = Some m) by exact E; injection E1 as <-; reflexivity|]. split; [reflexivity|]. split; [reflexivity|]. vm_compute. reflexivity.
Qed.
Example C223_nonvacuous : length (@nil str) < length (s_texts res_sym).
Proof. vm_compute. lia. Qed.
Definition upright' (p : Z * Z) (o : Z) (q : Z * Z) : option (Z * Z) := Some (fst p + fst q, snd p + snd q)%Z.
(** Two wires that have nothing to do with each other end at the two pins of a resistor: both pins are on node 0. *)
Definition two_wires : file := {| f_version := s2l "4"; f_sheet := s2l "1 880 680"; f_items := [Symbol (put_place 0 0 (s2l "R0") r1); Wire 16 16 64 16; Wire 16 96 64 96] |}.
Example C225_nonvacuous : match convert_file plain_sub (files stock) (AscSpec.file_text two_wires) with
  | Some text => match read_file text with Some t => component_nets upright' t | None => None end
  | None => None
  end = Some [(s2l "R1", [s2l "0"; s2l "0"])].
Proof. vm_compute. reflexivity. Qed.
Definition block : symfile := {| m_version := s2l "4"; m_type := s2l "BLOCK"; m_items := [SPin {| p_x := 0; p_y := 0; p_just := s2l "LEFT"; p_off := 8; p_attrs := [(s2l "PinName", s2l "IN")] |}] |}.
Example C228_nonvacuous : sym_ok block /\ attr_of block (s2l "Prefix") = None.
Proof.
  split; [|reflexivity]. split; [left; reflexivity|]. split; [apply clean_dec; reflexivity|]. split; [|constructor]. intros i [<- |[]]. split; [vm_compute; tauto|]. intros k v [E|[]]. injection E as <- <-. split; [lw|right; lw].
Qed.
Example C229_nonvacuous : first_with (fun k w => attr_of res_sym k = Some w) model_keys (s2l "R") /\ first_with (fun k w => attr_of res_sym k = Some w /\ library_file w) library_keys (s2l "my.LIB").
Proof. split; [apply Here; reflexivity|]. apply Here. split; [reflexivity|]. exists (s2l "my"), (s2l ".lib"). split; [left; reflexivity|reflexivity]. Qed.
