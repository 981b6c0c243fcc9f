(** Saving: the text of the items, grouped by kind. *)
From Coq Require Import String Ascii List Bool Arith ZArith Lia Permutation.
From Verif Require Import PyStr EngModel EngProofs StepsModel StepsProofs LogProofs Regex CompModel UpdatesModel ParModel QTagModel QTagProofs AscModel AscSpec AscProofs AscProofs2.
Import ListNotations.
Local Open Scope string_scope. Local Open Scope nat_scope. Local Open Scope list_scope.

(** ** Grouping *)
Lemma flat_filter : forall A B (g : A -> list B) (p : A -> bool) l, flat_map g (filter p l) = flat_map (fun i => if p i then g i else []) l.
Proof. intros A B g p l. induction l as [|x l IH]; [reflexivity|]. cbn [filter flat_map]. destruct (p x); [cbn [flat_map]; rewrite IH; reflexivity|exact IH]. Qed.
Lemma flat_ext : forall A B (g h : A -> list B) l, (forall x, In x l -> g x = h x) -> flat_map g l = flat_map h l.
Proof. intros A B g h l. induction l as [|x l IH]; intros H; [reflexivity|]. cbn [flat_map]. rewrite (H x (or_introl eq_refl)), IH; [reflexivity|]. intros y Y. apply H. right. exact Y. Qed.
Lemma flat_nil : forall A B (g : A -> list B) l, (forall x, In x l -> g x = []) -> flat_map g l = [].
Proof. intros A B g l. induction l as [|x l IH]; intros H; [reflexivity|]. cbn [flat_map]. rewrite (H x (or_introl eq_refl)), IH; [reflexivity|]. intros y Y. apply H. right. exact Y. Qed.
Lemma by_kind_app : forall B (g : item -> list B) l, flat_map g (by_kind l) = flat_map (fun k => flat_map (fun i => if kind i =? k then g i else []) l) [0; 1; 2; 3; 4; 5].
Proof. intros B g l. unfold by_kind. cbn [flat_map]. rewrite !flat_map_app, !flat_filter. reflexivity. Qed.
Lemma by_kind_only : forall B (g : item -> list B) k l, k < 6 -> (forall i, kind i <> k -> g i = []) -> flat_map g (by_kind l) = flat_map g l.
Proof.
  intros B g k l K H. rewrite by_kind_app.
  assert (Z : forall k', k' <> k -> flat_map (fun i => if kind i =? k' then g i else []) l = []).
  { intros k' K'. apply flat_nil. intros i _. destruct (Nat.eqb_spec (kind i) k'); [|reflexivity]. apply H. lia. }
  assert (E : flat_map (fun i => if kind i =? k then g i else []) l = flat_map g l).
  { apply flat_ext. intros i _. destruct (Nat.eqb_spec (kind i) k); [reflexivity|]. symmetry. apply H. assumption. }
  cbn [flat_map]. destruct k as [|[|[|[|[|[|k]]]]]]; [| | | | | |lia]; rewrite E, ?Z by discriminate; rewrite ?app_nil_r; reflexivity.
Qed.
Lemma wires_kind : forall l, wires (by_kind l) = wires l.
Proof. intros l. apply (by_kind_only _ _ 0); [lia|]. intros [] H; try reflexivity. destruct (H eq_refl). Qed.
Lemma flags_kind : forall l, flags (by_kind l) = flags l.
Proof. intros l. apply (by_kind_only _ _ 1); [lia|]. intros [] H; try reflexivity. destruct (H eq_refl). Qed.
Lemma symbols_kind : forall l, symbols (by_kind l) = symbols l.
Proof. intros l. apply (by_kind_only _ _ 2); [lia|]. intros [] H; try reflexivity. destruct (H eq_refl). Qed.
Lemma notes_kind : forall l, notes (by_kind l) = notes l.
Proof. intros l. apply (by_kind_only _ _ 3); [lia|]. intros [] H; try reflexivity. destruct (H eq_refl). Qed.
Lemma dlines_kind : forall l, dlines (by_kind l) = dlines l.
Proof. intros l. apply (by_kind_only _ _ 4); [lia|]. intros [] H; try reflexivity. destruct (H eq_refl). Qed.
Lemma dshapes_kind : forall l, dshapes (by_kind l) = dshapes l.
Proof. intros l. apply (by_kind_only _ _ 5); [lia|]. intros [] H; try reflexivity. destruct (H eq_refl). Qed.
Lemma perm_under : forall A (x : A) u w v, Permutation w (x :: v) -> Permutation (u ++ w) (x :: u ++ v).
Proof. intros A x u w v H. rewrite H. symmetry. apply Permutation_middle. Qed.
Lemma by_kind_perm : forall l, Permutation (by_kind l) l.
Proof.
  induction l as [|i l IH]; [reflexivity|]. unfold by_kind in *. cbn [flat_map filter] in *. rewrite app_nil_r in *.
  destruct i; cbn [kind Nat.eqb app]; repeat rewrite <- app_comm_cons; (etransitivity; [|constructor; exact IH]).
  - reflexivity.
  - apply perm_under. reflexivity.
  - do 2 apply perm_under. reflexivity.
  - do 3 apply perm_under. reflexivity.
  - do 4 apply perm_under. reflexivity.
  - do 5 apply perm_under. reflexivity.
Qed.
Lemma by_kind_in : forall i l, In i (by_kind l) <-> In i l.
Proof. intros i l. split; apply Permutation_in; [|symmetry]; apply by_kind_perm. Qed.
Lemma shows_kind : forall a f, shows a f <-> shows a (grouped f).
Proof.
  intros a f. split; intros [A B C D E F G H]; constructor; cbn [grouped f_version f_sheet f_items] in *;
  rewrite ?wires_kind, ?flags_kind, ?symbols_kind, ?notes_kind, ?dlines_kind, ?dshapes_kind in *; assumption.
Qed.
Lemma file_ok_kind : forall sub f, file_ok sub f -> file_ok sub (grouped f).
Proof.
  intros sub f (A & B & C & D & E). unfold file_ok, grouped. cbn [f_version f_sheet f_items]. rewrite symbols_kind. split; [exact A|]. split; [exact B|]. split; [|split; [exact D|exact E]].
  intros i I. apply C. apply by_kind_in. exact I.
Qed.
Lemma by_kind_idem : forall l, by_kind (by_kind l) = by_kind l.
Proof.
  intros l. unfold by_kind at 1.
  assert (F : forall k, filter (fun i => kind i =? k) (by_kind l) = if k <? 6 then filter (fun i => kind i =? k) l else []).
  { intros k. assert (E : forall p (u : list item), filter p u = flat_map (fun i => if p i then [i] else []) u) by (intros p u; induction u as [|x u IH]; [reflexivity|]; cbn; rewrite IH; destruct (p x); reflexivity).
    rewrite !E. destruct (Nat.ltb_spec k 6).
    - apply (by_kind_only _ _ k); [assumption|]. intros i K. destruct (Nat.eqb_spec (kind i) k); [contradiction|reflexivity].
    - apply flat_nil. intros i _. destruct (Nat.eqb_spec (kind i) k) as [K|K]; [|reflexivity]. exfalso. destruct i; cbn in K; lia. }
  cbn [flat_map]. rewrite !F. reflexivity.
Qed.

(** ** Text of the pieces *)
Ltac flat := repeat progress (rewrite <- ?app_assoc; cbn [app]).
Lemma num_text_sp : forall a l b, join_blank (a ++ map show_int l ++ b) = join_blank (a ++ map show_int l ++ b).
Proof. reflexivity. Qed.
Lemma rot_back : forall r n, In r rotation_names -> dget r rotations = Some n -> rot_name n = Some r.
Proof. intros r n H E. cbn in H. repeat (destruct H as [<-|H]; [injection E as <-; reflexivity|]). destruct H. Qed.
Lemma window_piece : forall e w, window_ok w -> win_shows e w -> window_text e = window_line w.
Proof.
  intros [k v] w (NW & AW) (K & x & V & X). cbn [fst snd] in *. subst k v. destruct (align_get _ _ _ _ _ _ _ AW X) as (G & TX & TY & _ & TS & _).
  unfold window_text. cbn [fst snd]. change (startswith (s2l "_WINDOW") (s2l "_WINDOW " ++ w_num w)) with true. cbn match. change (skipn 8 (s2l "_WINDOW " ++ w_num w)) with (w_num w).
  rewrite G, TX, TY, TS. change (s2l "WINDOW ") with (s2l "WINDOW" ++ [BLANK]). unfold window_line, sp, num_text, z. cbn [map join_blank]. flat. reflexivity.
Qed.
Lemma attr_piece : forall e, startswith (s2l "_") (fst e) = false -> attr_text (plain e) = attr_line e.
Proof.
  intros [k v] H. cbn [fst] in H. unfold attr_text, plain, attr_line, sp. cbn [fst snd aval_text]. rewrite H. cbn [join_blank]. flat. reflexivity.
Qed.
Lemma comp_piece : forall e s, symbol_ok s -> sym_shows e s -> comp_text (snd e) = Some (concat (item_lines (Symbol s))).
Proof.
  intros [k c] s (_ & R & OW & _ & _ & _ & OA & _) (_ & CR & CS & CX & CY & RD & (wl & b & EA & FW & HB)). cbn [snd] in *. unfold comp_text. rewrite (rot_back _ _ R RD), CR, CS, CX, CY, EA. f_equal.
  assert (W1 : flat_map window_text wl = concat (map window_line (s_wins s))).
  { clear -OW FW. induction FW as [|e w wl ws H F IH]; [reflexivity|]. cbn [flat_map map concat]. rewrite (window_piece e w (OW w (or_introl eq_refl)) H), IH; [reflexivity|]. intros v V. apply OW. right. exact V. }
  assert (W2 : flat_map window_text b = []) by (destruct HB as [-> | ->]; reflexivity).
  assert (W3 : forall l, flat_map window_text (map plain l) = []) by (induction l as [|x l IH]; [reflexivity|exact IH]).
  assert (A1 : flat_map attr_text wl = []).
  { clear -FW. induction FW as [|e w wl ws (K & _) F IH]; [reflexivity|]. cbn [flat_map]. rewrite IH, app_nil_r. unfold attr_text. rewrite K. reflexivity. }
  assert (A2 : flat_map attr_text b = []) by (destruct HB as [-> | ->]; reflexivity).
  assert (A3 : flat_map attr_text (map plain (s_attrs s)) = concat (map attr_line (s_attrs s))).
  { clear -OA. induction (s_attrs s) as [|e l IH]; [reflexivity|]. cbn [map flat_map concat]. rewrite attr_piece by (apply (OA e); left; reflexivity). rewrite IH; [reflexivity|]. intros v V. apply OA. right. exact V. }
  rewrite !flat_map_app, W1, W2, W3, A1, A2, A3, app_nil_r. cbn [app item_lines concat]. rewrite concat_app. cbn [concat]. unfold sp at 1, num_text, z. cbn [map join_blank].
  change (s2l "SYMBOL ") with (s2l "SYMBOL" ++ [BLANK]). flat.
  assert (EI : attr_line (s2l "InstName", s_ref s) = s2l "SYMATTR InstName " ++ s_ref s ++ [LF]).
  { unfold attr_line, sp. cbn [fst snd join_blank]. change (s2l "SYMATTR InstName ") with (s2l "SYMATTR" ++ BLANK :: s2l "InstName" ++ [BLANK]). flat. reflexivity. }
  rewrite EI. flat. reflexivity.
Qed.
Lemma note_piece : forall x t, note_ok t -> note_shows x t -> dir_text x = concat (item_lines (Note t)).
Proof.
  intros x t (A & _) X. destruct (align_get _ _ _ _ _ _ _ (in_or_app _ _ _ (or_introl A)) X) as (G & TX & TY & TT & TS & TC).
  unfold dir_text. rewrite G, TX, TY, TT, TS, TC. cbn [item_lines concat]. unfold sp, num_text, z. cbn [map join_blank]. change (s2l "TEXT ") with (s2l "TEXT" ++ [BLANK]). rewrite app_nil_r, <- ?app_assoc. flat. reflexivity.
Qed.
Lemma seg_piece : forall w x1 y1 x2 y2, w ++ BLANK :: seg_text (x1, y1, x2, y2) = join_blank (w :: map show_int [x1; y1; x2; y2]).
Proof. reflexivity. Qed.
Lemma line_piece : forall x1 y1 x2 y2 p, line_text (x1, y1, x2, y2, p) = concat (item_lines (DLine x1 y1 x2 y2 p)).
Proof.
  intros. cbn [item_lines concat]. rewrite app_nil_r. unfold line_text. cbn [fst snd]. unfold sp, seg_text, num_text, z. change (s2l "LINE Normal ") with (s2l "LINE" ++ BLANK :: s2l "Normal" ++ [BLANK]).
  cbn [map]. destruct p as [|c p]; cbn [styled app style_text join_blank]; flat; reflexivity.
Qed.
Lemma shape_piece : forall n ps p, item_ok (DShape n ps p) -> shape_text (n, ps, p) = concat (item_lines (DShape n ps p)).
Proof.
  intros n ps p (_ & H). cbn [item_lines concat]. rewrite app_nil_r. unfold shape_text, sp, num_text. rewrite coords_show. change (s2l " Normal ") with (BLANK :: s2l "Normal" ++ [BLANK]).
  set (l := map show_int (flat_map (fun q => [fst q; snd q]) ps)). assert (N : l <> []).
  { unfold l. destruct ps; [destruct H as [(_ & H)|(_ & H)]; discriminate|discriminate]. }
  assert (E : join_blank ([n; s2l "Normal"] ++ l ++ styled p) = n ++ BLANK :: s2l "Normal" ++ BLANK :: join_blank (l ++ styled p)).
  { change ([n; s2l "Normal"] ++ l ++ styled p) with (n :: s2l "Normal" :: l ++ styled p). destruct l as [|x l]; [contradiction|]. reflexivity. }
  rewrite E. destruct p as [|c p]; cbn [styled style_text].
  - rewrite app_nil_r. flat. reflexivity.
  - rewrite join_app2 by (try exact N; discriminate). cbn [app join_blank]. flat. reflexivity.
Qed.
Lemma write_some : forall l, write (map Some l) = (concat l, true).
Proof. induction l as [|x l IH]; [reflexivity|]. cbn [map write]. rewrite IH. reflexivity. Qed.
Lemma concat_flat : forall A (g : A -> list str) l, concat (flat_map g l) = flat_map (fun x => concat (g x)) l.
Proof. intros A g l. induction l as [|x l IH]; [reflexivity|]. cbn [flat_map]. rewrite concat_app, IH. reflexivity. Qed.
Lemma concat_map_flat : forall A (h : A -> str) l, concat (map h l) = flat_map h l.
Proof. intros A h l. induction l as [|x l IH]; [reflexivity|]. cbn [map concat flat_map]. rewrite IH. reflexivity. Qed.
Lemma flat_flat : forall A B C (g : A -> list B) (h : B -> list C) l, flat_map h (flat_map g l) = flat_map (fun x => flat_map h (g x)) l.
Proof. intros A B C g h l. induction l as [|x l IH]; [reflexivity|]. cbn [flat_map]. rewrite flat_map_app, IH. reflexivity. Qed.

Lemma sp_two : forall a b, sp [a; b] = a ++ BLANK :: b ++ [LF].
Proof. intros a b. unfold sp. cbn [join_blank]. rewrite <- app_assoc. reflexivity. Qed.

Theorem save_shows : forall a f, (forall i, In i (f_items f) -> item_ok i) -> shows a f -> save a = (file_text (grouped f), true).
Proof.
  intros a f OK [A B C D E F G H].
  assert (OKS : forall s, In s (symbols (f_items f)) -> symbol_ok s).
  { intros s S. apply in_flat_map in S. destruct S as (i & I & S). destruct i; cbn in S; try contradiction. destruct S as [<-|[]]. apply (OK _ I). }
  assert (OKN : forall t, In t (notes (f_items f)) -> note_ok t).
  { intros s S. apply in_flat_map in S. destruct S as (i & I & S). destruct i; cbn in S; try contradiction. destruct S as [<-|[]]. apply (OK _ I). }
  unfold save.
  assert (EC : map (fun e => comp_text (snd e)) (a_comps a) = map Some (map (fun s => concat (item_lines (Symbol s))) (symbols (f_items f)))).
  { clear -H OKS. induction H as [|e s l1 l2 H F IH]; [reflexivity|]. cbn [map]. rewrite (comp_piece e s (OKS s (or_introl eq_refl)) H), IH; [reflexivity|]. intros v V. apply OKS. right. exact V. }
  assert (EN : map (fun t => Some (dir_text t)) (a_dirs a) = map Some (map (fun t => concat (item_lines (Note t))) (notes (f_items f)))).
  { clear -G OKN. induction G as [|e s l1 l2 H F IH]; [reflexivity|]. cbn [map]. rewrite (note_piece e s (OKN s (or_introl eq_refl)) H), IH; [reflexivity|]. intros v V. apply OKN. right. exact V. }
  rewrite EC, EN, A, B, C, D, E, F.
  set (l := f_items f) in *.
  assert (P : forall W (h : W -> str) (u : list W), map (fun w => Some (h w)) u = map Some (map h u)) by (intros; rewrite map_map; reflexivity).
  rewrite (P _ (fun w => s2l "WIRE " ++ seg_text w ++ [LF])), (P _ line_text), (P _ shape_text).
  assert (P2 : map (fun f => let '(x, y, s) := f in Some (s2l "FLAG " ++ num_text [x; y] ++ BLANK :: s ++ [LF])) (flags l) = map Some (map (fun f => let '(x, y, s) := f in s2l "FLAG " ++ num_text [x; y] ++ BLANK :: s ++ [LF]) (flags l))).
  { rewrite map_map. apply map_ext. intros [[x y] s]. reflexivity. }
  rewrite P2. change [Some (s2l "Version " ++ f_version f ++ [LF]); Some (s2l "SHEET " ++ f_sheet f ++ [LF])] with (map Some [s2l "Version " ++ f_version f ++ [LF]; s2l "SHEET " ++ f_sheet f ++ [LF]]).
  rewrite <- !map_app, write_some. f_equal. rewrite !concat_app, !concat_map_flat. unfold file_text, file_lines_of, grouped. cbn [f_version f_sheet f_items concat]. fold l. rewrite concat_flat, by_kind_app. cbn [flat_map]. rewrite !app_nil_r, <- ?app_assoc.
  rewrite !sp_two. change (s2l "Version ") with (s2l "Version" ++ [BLANK]). change (s2l "SHEET ") with (s2l "SHEET" ++ [BLANK]). rewrite <- !app_assoc. cbn [app]. 
  flat.
  match goal with |- _ ++ _ :: _ ++ _ :: _ ++ _ :: _ ++ _ :: ?X = _ ++ _ :: _ ++ _ :: _ ++ _ :: _ ++ _ :: ?Y => enough (E' : X = Y) by (rewrite E'; reflexivity) end.
  repeat apply (f_equal2 (@app ascii)).
  - unfold wires. rewrite flat_flat. apply flat_ext. intros [] _; cbn [kind Nat.eqb flat_map]; try reflexivity.
  - unfold flags. rewrite flat_flat. apply flat_ext. intros [] _; cbn [kind Nat.eqb flat_map]; try reflexivity; rewrite app_nil_r. cbn [item_lines concat]. rewrite app_nil_r. unfold sp, num_text, z. cbn [map join_blank]. change (s2l "FLAG ") with (s2l "FLAG" ++ [BLANK]). flat. reflexivity.
  - unfold symbols. rewrite flat_flat. apply flat_ext. intros [] _; cbn [kind Nat.eqb flat_map]; try reflexivity; rewrite app_nil_r. reflexivity.
  - unfold notes. rewrite flat_flat. apply flat_ext. intros [] _; cbn [kind Nat.eqb flat_map]; try reflexivity; rewrite app_nil_r. reflexivity.
  - unfold dlines. rewrite flat_flat. apply flat_ext. intros [] _; cbn [kind Nat.eqb flat_map]; try reflexivity; rewrite app_nil_r. apply line_piece.
  - unfold dshapes. rewrite flat_flat. apply flat_ext. intros [] I; cbn [kind Nat.eqb flat_map]; try reflexivity; rewrite app_nil_r. apply shape_piece. apply (OK _ I).
Qed.
