(** Reading a symbol file: every item, in order. *)
From Coq Require Import String Ascii List Bool Arith ZArith Lia.
From Verif Require Import PyStr EngModel EngProofs StepsModel StepsProofs LogProofs CompModel CompProofs QTagModel QTagProofs QTagSpec AscModel AscSpec AscProofs AscProofs2 AsyModel AsySpec.
Import ListNotations.
Local Open Scope string_scope. Local Open Scope nat_scope. Local Open Scope list_scope.
Ltac lw := apply lit_word; reflexivity.
Ltac head := rewrite sp_cons by discriminate; reflexivity.

Definition attrs_in (l : list sitem) : list (str * str) := flat_map (fun i => match i with SAttr k v => [(k, v)] | _ => [] end) l.
Record yshows (s : asy) (v : str) (ty : option str) (l : list sitem) : Prop := {
  ys_version : y_version s = v;
  ys_type : y_type s = ty;
  ys_pins : Forall2 pin_shown (y_pins s) (flat_map (fun i => match i with SPin p => [p] | _ => [] end) l);
  ys_lines : y_lines s = flat_map (fun i => match i with SLine a b c d p => [(a, b, c, d, p)] | _ => [] end) l;
  ys_shapes : y_shapes s = flat_map (fun i => match i with SShape n ps p => [(n, ps, p)] | _ => [] end) l;
  ys_attrs : y_attrs s = map (fun e => (fst e, attr_value (fst e) (snd e))) (attrs_in l);
  ys_texts : Forall2 text_shown (y_windows s) (flat_map (fun i => match i with SText t => [t] | _ => [] end) l) }.

Lemma store_pin_with : forall (s : asy) p (up : asy -> asy), (forall s l, with_pins (up s) l = up (with_pins s l)) -> (forall s, y_pins (up s) = y_pins s) ->
  store_pin (up s, p) = up (store_pin (s, p)).
Proof. intros s [p|] up A B; unfold store_pin; cbn [fst snd]; [rewrite B; apply A|reflexivity]. Qed.

(** ** Lines *)
Lemma text_line : forall t, sitem_ok (SText t) -> exists x, text_shown x t /\
  forall s p, asy_lines (sitem_lines (SText t)) (s, p) = Some (with_windows s (y_windows s ++ [x]), p).
Proof.
  intros t (W & A). cbn [sitem_lines]. destruct (align_some (x_x t) (x_y t) (x_word t) (x_size t) (negb (x_window t)) (x_align t) A) as (x & X). exists x.
  split; [destruct (align_get _ _ _ _ _ _ _ A X) as (? & ? & ? & ? & ? & ?); repeat split; assumption|]. intros s p.
  destruct (x_window t); cbn [negb] in X; cbn [asy_lines].
  - set (L := [s2l "WINDOW"; x_word t; z (x_x t); z (x_y t); x_align t; z (x_size t)]).
    assert (EW : words (sp L) = L).
    { apply words_sp. unfold L. apply Forall_cons; [lw|]. apply Forall_cons; [exact W|]. apply Forall_cons; [apply int_word|]. apply Forall_cons; [apply int_word|]. apply Forall_cons; [apply align_word; exact A|]. apply Forall_cons; [apply int_word|constructor]. }
    assert (E : asy_line (sp L) (s, p) = option_map (fun t => (with_windows s (y_windows s ++ [t]), p)) (asy_window (sp L))) by (unfold L; head).
    rewrite E. unfold asy_window. rewrite EW. unfold L, z. rewrite !py_int_show, X. reflexivity.
  - set (L := [s2l "TEXT"; z (x_x t); z (x_y t); x_align t; z (x_size t); x_word t]).
    assert (EW : words (sp L) = L).
    { apply words_sp. unfold L. apply Forall_cons; [lw|]. apply Forall_cons; [apply int_word|]. apply Forall_cons; [apply int_word|]. apply Forall_cons; [apply align_word; exact A|]. apply Forall_cons; [apply int_word|]. apply Forall_cons; [exact W|constructor]. }
    assert (E : asy_line (sp L) (s, p) = option_map (fun o => (match o with Some t => with_windows s (y_windows s ++ [t]) | None => s end, p)) (asy_text (sp L))) by (unfold L; head).
    rewrite E. unfold asy_text. rewrite EW. unfold L, z.
    change [show_int (x_x t); show_int (x_y t); show_int (x_size t)] with (map show_int [x_x t; x_y t; x_size t]). rewrite ints_show, X. reflexivity.
Qed.
Lemma attr_line_ : forall k v (s : asy) p, one_word k -> clean v -> ~ In k (map fst (y_attrs s)) ->
  asy_line (sp [s2l "SYMATTR"; k; v]) (s, p) = Some (with_sattrs s (y_attrs s ++ [(k, attr_value k v)]), p).
Proof.
  intros k v s p K V N.
  assert (E : asy_line (sp [s2l "SYMATTR"; k; v]) (s, p) = Some (with_sattrs s (asy_attr (sp [s2l "SYMATTR"; k; v]) (y_attrs s)), p)) by head.
  assert (A : asy_attr (sp [s2l "SYMATTR"; k; v]) (y_attrs s) = y_attrs s ++ [(k, attr_value k v)]); [|rewrite E, A; reflexivity].
  assert (EL : sp [s2l "SYMATTR"; k; v] = s2l "SYMATTR" ++ BLANK :: k ++ BLANK :: v ++ [LF]).
  { unfold sp. cbn [join_blank]. rewrite <- app_assoc. cbn [app]. rewrite <- app_assoc. reflexivity. }
  rewrite EL. unfold asy_attr. rewrite first_word_app; [|lw|reflexivity]. rewrite first_word_blank, first_word_app; [|exact K|reflexivity].
  assert (strip (BLANK :: v ++ [LF]) = v) as ->.
  { transitivity (strip (v ++ [LF])); [|apply clean_strip_nl; exact V]. reflexivity. }
  rewrite dset_new by exact N. reflexivity.
Qed.
Lemma just_shown : forall j, In j justifications -> one_word j /\ let '(h, v, r) := justify j in beside j h v r.
Proof. intros j H. cbn in H. unfold beside. repeat (destruct H as [<- | H]; [split; [lw|vm_compute; tauto]|]). destruct H. Qed.
Lemma pin_attr_line : forall k v (s : asy) p, one_word k -> v = [] \/ one_word v ->
  asy_line (sp [s2l "PINATTR"; k; v]) (s, Some p) = Some (s, Some (with_text p (t_text p ++ k ++ s2l "=" ++ v ++ s2l ";"))).
Proof.
  intros k v s p K V.
  assert (E : asy_line (sp [s2l "PINATTR"; k; v]) (s, Some p) = option_map (fun p' => (s, Some p')) (pin_attr (sp [s2l "PINATTR"; k; v]) p)) by head.
  rewrite E. clear E.
  assert (NB : forall w, one_word w -> ~ In " "%char w) by (intros w W; apply word_no; [exact W|reflexivity]).
  assert (EL : sp [s2l "PINATTR"; k; v] = s2l "PINATTR" ++ " "%char :: k ++ " "%char :: v ++ [LF]).
  { unfold sp. cbn [join_blank]. rewrite <- app_assoc. cbn [app]. rewrite <- app_assoc. reflexivity. }
  rewrite EL. unfold pin_attr. rewrite split_on_cons by (apply NB; lw). rewrite split_on_cons by (apply NB; exact K). rewrite split_on_plain.
  2: { intros Q. apply in_app_or in Q. destruct Q as [Q|[Q|[]]]; [|discriminate]. destruct V as [-> | V]; [destruct Q|exact (NB v V Q)]. }
  assert (strip (v ++ [LF]) = v) as ->; [|reflexivity].
  destruct V as [-> | V]; [reflexivity|]. apply clean_strip_nl. destruct (word_ends v V) as (A & B). split; [exact A|]. split; [exact B|]. destruct V as (_ & V). apply strip_id; apply stops_all; intros c C; apply V; [|apply in_rev]; exact C.
Qed.
Lemma with_text_same : forall p, with_text p (t_text p ++ []) = p.
Proof. intros []. unfold with_text. cbn. rewrite app_nil_r. reflexivity. Qed.
Lemma pin_attr_lines : forall l (s : asy) p, (forall k v, In (k, v) l -> one_word k /\ (v = [] \/ one_word v)) ->
  asy_lines (map (fun e => sp [s2l "PINATTR"; fst e; snd e]) l) (s, Some p) =
  Some (s, Some (with_text p (t_text p ++ flat_map (fun e => fst e ++ s2l "=" ++ snd e ++ s2l ";") l))).
Proof.
  induction l as [|[k v] l IH]; intros s p H; [cbn; rewrite with_text_same; reflexivity|]. cbn [map asy_lines fst snd].
  destruct (H k v (or_introl eq_refl)) as (K & V). rewrite pin_attr_line by assumption. rewrite IH by (intros; apply H; right; assumption).
  do 3 f_equal. unfold with_text. cbn [t_text t_x t_y t_size t_comment t_h t_v t_vert t_visible flat_map fst snd]. rewrite <- !app_assoc. reflexivity.
Qed.
Lemma pin_lines : forall q, pin_ok q -> exists t, pin_shown t q /\ forall s p, asy_lines (sitem_lines (SPin q)) (s, p) = Some (store_pin (s, p), Some t).
Proof.
  intros q (J & A). destruct (just_shown _ J) as (JW & JB). destruct (justify (p_just q)) as [[h v] r] eqn:EJ.
  set (t0 := Txt (p_x q) (p_y q) [] (p_off q) false h v r true).
  exists (with_text t0 (t_text t0 ++ flat_map (fun e => fst e ++ s2l "=" ++ snd e ++ s2l ";") (p_attrs q))).
  split; [unfold pin_shown; repeat (split; [reflexivity|]); split; [exact JB|reflexivity]|]. intros s p. cbn [sitem_lines asy_lines].
  set (L := [s2l "PIN"; z (p_x q); z (p_y q); p_just q; z (p_off q)]).
  assert (EW : words (sp L) = L).
  { apply words_sp. unfold L. apply Forall_cons; [lw|]. apply Forall_cons; [apply int_word|]. apply Forall_cons; [apply int_word|]. apply Forall_cons; [exact JW|]. apply Forall_cons; [apply int_word|constructor]. }
  assert (E : asy_line (sp L) (s, p) = option_map (fun x => (store_pin (s, p), Some x)) (asy_pin (sp L))) by (unfold L; head).
  rewrite E. unfold asy_pin. rewrite EW. unfold L, z. change [show_int (p_x q); show_int (p_y q); show_int (p_off q)] with (map show_int [p_x q; p_y q; p_off q]). rewrite ints_show, EJ. cbn [option_map].
  rewrite pin_attr_lines by exact A. reflexivity.
Qed.
Lemma sline_line : forall x1 y1 x2 y2 q (s : asy) p, q = [] \/ one_word q ->
  asy_line (sp ([s2l "LINE"; s2l "Normal"; z x1; z y1; z x2; z y2] ++ styled q)) (s, p) = Some (with_drawn s [(x1, y1, x2, y2, q)] [], p).
Proof.
  intros x1 y1 x2 y2 q s p Q. set (L := [s2l "LINE"; s2l "Normal"; z x1; z y1; z x2; z y2] ++ styled q).
  assert (W : words (sp L) = L) by (apply words_sp; unfold L; repeat (apply Forall_cons; [try lw; apply int_word|]); apply styled_words; exact Q).
  assert (E : asy_line (sp L) (s, p) = option_map (fun d => (with_drawn s (fst d) (snd d), p)) (asy_drawing (sp L))) by (unfold L; cbn [app]; head).
  assert (SL : startswith (s2l "LINE") (sp L) = true) by (unfold L; cbn [app]; head).
  rewrite E. unfold asy_drawing. rewrite W, SL. unfold L, z. cbn [app]. change [show_int x1; show_int y1; show_int x2; show_int y2] with (map show_int [x1; y1; x2; y2]). rewrite ints_show.
  destruct q as [|c q]; reflexivity.
Qed.
Lemma sshape_line : forall n ps q (s : asy) p, sitem_ok (SShape n ps q) ->
  asy_line (sp ([n; s2l "Normal"] ++ flat_map (fun q => [z (fst q); z (snd q)]) ps ++ styled q)) (s, p) = Some (with_drawn s [] [(n, ps, q)], p).
Proof.
  intros n ps q s p (P & K). set (L := [n; s2l "Normal"] ++ flat_map (fun q => [z (fst q); z (snd q)]) ps ++ styled q).
  assert (N : one_word n).
  { destruct K as [(K & _)|(-> & _)]; [|lw]. cbn in K. destruct K as [<-|[<-|[]]]; lw. }
  assert (W : words (sp L) = L).
  { apply words_sp. unfold L. apply Forall_cons; [exact N|]. apply Forall_cons; [lw|]. apply Forall_app. split; [|apply styled_words; exact P].
    rewrite coords_show. apply Forall_forall. intros x H. apply in_map_iff in H. destruct H as (u & <- & _). apply int_word. }
  destruct K as [(K & LP)|(-> & LP)].
  - destruct ps as [|[x1 y1] [|[x2 y2] [|? ?]]]; try discriminate. cbn [flat_map app fst snd] in *.
    assert (E : asy_line (sp L) (s, p) = option_map (fun d => (with_drawn s (fst d) (snd d), p)) (asy_drawing (sp L))) by (unfold L; cbn in K; destruct K as [<-|[<-|[]]]; head).
    assert (SL : startswith (s2l "LINE") (sp L) = false) by (unfold L; cbn in K; destruct K as [<-|[<-|[]]]; head).
    rewrite E. unfold asy_drawing. rewrite W, SL. unfold L, z. cbn [app]. change [show_int x1; show_int y1; show_int x2; show_int y2] with (map show_int [x1; y1; x2; y2]). rewrite ints_show.
    assert (str_eqb n (s2l "RECTANGLE") || str_eqb n (s2l "CIRCLE") = true) as -> by (cbn in K; destruct K as [<-|[<-|[]]]; reflexivity).
    destruct q as [|c q]; reflexivity.
  - assert (E : asy_line (sp L) (s, p) = option_map (fun d => (with_drawn s [] [d], p)) (asy_arc (sp L))) by (unfold L; cbn [app]; rewrite sp_cons by discriminate; reflexivity).
    rewrite E. unfold asy_arc. rewrite W. unfold L. cbn [app]. rewrite coords_show.
    assert (LL : length (map show_int (flat_map (fun q : Z * Z => [fst q; snd q]) ps)) = 8) by (destruct ps as [|? [|? [|? [|? [|? ?]]]]]; try discriminate; reflexivity).
    rewrite firstn_app, LL, Nat.sub_diag, skipn_app, LL, Nat.sub_diag, skipn_all2 by lia. rewrite firstn_all2 by lia. cbn [firstn skipn app]. rewrite app_nil_r, ints_show.
    rewrite map_length in LL. rewrite LL. cbn [Nat.eqb]. rewrite points_coords. destruct q as [|c q]; reflexivity.
Qed.

(** ** Items *)
Lemma asy_lines_app : forall l1 l2 s, asy_lines (l1 ++ l2) s = match asy_lines l1 s with Some s' => asy_lines l2 s' | None => None end.
Proof. induction l1 as [|x l1 IH]; intros l2 s; [reflexivity|]. cbn [app asy_lines]. destruct (asy_line x s); [apply IH|reflexivity]. Qed.
Lemma store_attrs : forall st, y_attrs (store_pin st) = y_attrs (fst st).
Proof. intros [s [p|]]; reflexivity. Qed.
Lemma asy_item : forall v ty pre i st, sitem_ok i -> yshows (store_pin st) v ty pre -> NoDup (map fst (attrs_in (pre ++ [i]))) ->
  exists st', asy_lines (sitem_lines i) st = Some st' /\ yshows (store_pin st') v ty (pre ++ [i]).
Proof.
  intros v ty pre i [s p] OK [A B C D E F G] ND.
  destruct i as [t|k w|q|x1 y1 x2 y2 q|n ps q].
  - destruct (text_line t OK) as (x & X & R). exists (with_windows s (y_windows s ++ [x]), p). split; [apply R|].
    assert (SE : store_pin (with_windows s (y_windows s ++ [x]), p) = (fun s => with_windows s (y_windows s ++ [x])) (store_pin (s, p))) by (destruct p; reflexivity).
    rewrite SE. constructor; unfold attrs_in in *; rewrite ?flat_map_app; cbn [flat_map app]; rewrite ?app_nil_r; try assumption.
    apply Forall2_app; [exact G|]. constructor; [exact X|constructor].
  - destruct OK as (K & V). assert (NK : ~ In k (map fst (y_attrs s))).
    { change (y_attrs s) with (y_attrs (fst (s, p))). rewrite <- store_attrs, F, map_map. cbn [fst]. unfold attrs_in in *. rewrite flat_map_app, map_app in ND. cbn [flat_map app map fst] in ND.
      apply NoDup_remove_2 in ND. rewrite app_nil_r in ND. exact ND. }
    exists (with_sattrs s (y_attrs s ++ [(k, attr_value k w)]), p). split; [cbn [sitem_lines asy_lines]; rewrite attr_line_ by assumption; reflexivity|].
    assert (SE : store_pin (with_sattrs s (y_attrs s ++ [(k, attr_value k w)]), p) = (fun s => with_sattrs s (y_attrs s ++ [(k, attr_value k w)])) (store_pin (s, p))) by (destruct p; reflexivity).
    rewrite SE. constructor; unfold attrs_in in *; rewrite ?flat_map_app; cbn [flat_map app]; rewrite ?app_nil_r; try assumption.
    cbn [y_attrs with_sattrs]. rewrite F, map_app. reflexivity.
  - destruct (pin_lines q OK) as (t & T & R). exists (store_pin (s, p), Some t). split; [apply R|].
    assert (SE : store_pin (store_pin (s, p), Some t) = with_pins (store_pin (s, p)) (y_pins (store_pin (s, p)) ++ [t])) by reflexivity.
    rewrite SE. constructor; unfold attrs_in in *; rewrite ?flat_map_app; cbn [flat_map app]; rewrite ?app_nil_r; try assumption.
    cbn [y_pins with_pins]. apply Forall2_app; [exact C|]. constructor; [exact T|constructor].
  - exists (with_drawn s [(x1, y1, x2, y2, q)] [], p). split; [cbn [sitem_lines asy_lines]; rewrite sline_line by exact OK; reflexivity|].
    assert (SE : store_pin (with_drawn s [(x1, y1, x2, y2, q)] [], p) = (fun s => with_drawn s [(x1, y1, x2, y2, q)] []) (store_pin (s, p))) by (destruct p; reflexivity).
    rewrite SE. constructor; unfold attrs_in in *; rewrite ?flat_map_app; cbn [flat_map app]; rewrite ?app_nil_r; cbn [y_lines y_shapes with_drawn]; rewrite ?app_nil_r; try assumption.
    rewrite D. reflexivity.
  - exists (with_drawn s [] [(n, ps, q)], p). split; [cbn [sitem_lines asy_lines]; rewrite sshape_line by exact OK; reflexivity|].
    assert (SE : store_pin (with_drawn s [] [(n, ps, q)], p) = (fun s => with_drawn s [] [(n, ps, q)]) (store_pin (s, p))) by (destruct p; reflexivity).
    rewrite SE. constructor; unfold attrs_in in *; rewrite ?flat_map_app; cbn [flat_map app]; rewrite ?app_nil_r; cbn [y_lines y_shapes with_drawn]; rewrite ?app_nil_r; try assumption.
    rewrite E. reflexivity.
Qed.
Lemma asy_items : forall v ty l pre st, (forall i, In i l -> sitem_ok i) -> yshows (store_pin st) v ty pre -> NoDup (map fst (attrs_in (pre ++ l))) ->
  exists st', asy_lines (flat_map sitem_lines l) st = Some st' /\ yshows (store_pin st') v ty (pre ++ l).
Proof.
  induction l as [|i l IH]; intros pre st OK SH ND.
  - exists st. rewrite app_nil_r. split; [reflexivity|exact SH].
  - destruct (asy_item v ty pre i st (OK i (or_introl eq_refl)) SH) as (s1 & R1 & S1).
    + change (i :: l) with ([i] ++ l) in ND. rewrite app_assoc in ND. unfold attrs_in in *. rewrite (flat_map_app _ (pre ++ [i]) l), map_app in ND.
      revert ND. generalize (map fst (flat_map (fun i => match i with SAttr k v => [(k, v)] | _ => [] end) (pre ++ [i]))). clear. intros a ND.
      induction a as [|x a IHa]; [constructor|]. cbn [app] in ND. apply NoDup_cons_iff in ND. destruct ND as (A & B). constructor; [|apply IHa; exact B]. intros K. apply A. apply in_or_app. left. exact K.
    + destruct (IH (pre ++ [i]) s1) as (s2 & R2 & S2).
      * intros j J. apply OK. right. exact J.
      * exact S1.
      * rewrite <- app_assoc. exact ND.
      * exists s2. cbn [flat_map]. rewrite asy_lines_app, R1. split; [exact R2|]. rewrite <- app_assoc in S2. exact S2.
Qed.
Lemma sitem_good : forall i, sitem_ok i -> Forall good_line (sitem_lines i).
Proof.
  assert (IZ : forall n, no_ends (z n)) by (intros n; apply word_ends; apply int_word).
  assert (ST : forall p, p = [] \/ one_word p -> Forall no_ends (styled p)) by (intros p P; eapply Forall_impl; [|apply styled_words; exact P]; intros w W; apply word_ends; exact W).
  assert (LW : forall w, one_word w -> no_ends w) by (intros w; apply word_ends).
  intros [t|k v|q|x1 y1 x2 y2 p|n ps p] OK; cbn [sitem_lines].
  - destruct OK as (W & A). constructor; [|constructor]. destruct (x_window t); eexists; (split; [reflexivity|]); repeat apply Forall_cons; try apply Forall_nil; try apply IZ; try (apply LW; lw); apply LW; try exact W; apply align_word; exact A.
  - destruct OK as (K & V). constructor; [|constructor]. eexists. split; [reflexivity|]. apply Forall_cons; [apply LW; lw|]. apply Forall_cons; [apply LW; exact K|]. apply Forall_cons; [apply clean_ends; exact V|constructor].
  - destruct OK as (J & A). constructor.
    + eexists. split; [reflexivity|]. apply Forall_cons; [apply LW; lw|]. repeat (apply Forall_cons; [apply IZ|]). apply Forall_cons; [apply LW; apply (just_shown _ J)|]. apply Forall_cons; [apply IZ|constructor].
    + apply Forall_forall. intros l L. apply in_map_iff in L. destruct L as ([k v] & <- & W). destruct (A k v W) as (K & V). eexists. split; [reflexivity|]. cbn [fst snd].
      apply Forall_cons; [apply LW; lw|]. apply Forall_cons; [apply LW; exact K|]. apply Forall_cons; [|constructor]. destruct V as [-> | V]; [split; intros []|apply LW; exact V].
  - constructor; [|constructor]. eexists. split; [reflexivity|]. apply Forall_app. split; [|apply ST; exact OK]. apply Forall_cons; [apply LW; lw|]. apply Forall_cons; [apply LW; lw|]. repeat (apply Forall_cons; [apply IZ|]). constructor.
  - destruct OK as (P & N). constructor; [|constructor]. eexists. split; [reflexivity|]. cbn [app]. apply Forall_cons; [|apply Forall_cons; [apply LW; lw|]].
    + apply LW. destruct N as [(N & _)|(-> & _)]; [|lw]. cbn in N. destruct N as [<-|[<-|[]]]; lw.
    + apply Forall_app. split; [|apply ST; exact P]. rewrite coords_show. apply Forall_forall. intros w W. apply in_map_iff in W. destruct W as (u & <- & _). apply IZ.
Qed.
Theorem read_shows : forall m, sym_ok m -> exists s, read_asy (sym_text m) = Some s /\ yshows s (m_version m) (Some (m_type m)) (m_items m).
Proof.
  intros m (V & TY & OK & ND).
  assert (VW : one_word (m_version m)) by (clear -V; generalize dependent (m_version m); intros r R; cbn in R; repeat (destruct R as [<-|R]; [lw|]); destruct R).
  assert (GL : Forall good_line (sym_lines m)).
  { constructor; [|constructor].
    - eexists. split; [reflexivity|]. apply Forall_cons; [apply word_ends; lw|]. apply Forall_cons; [apply word_ends; exact VW|constructor].
    - eexists. split; [reflexivity|]. apply Forall_cons; [apply word_ends; lw|]. apply Forall_cons; [apply clean_ends; exact TY|constructor].
    - apply Forall_forall. intros l L. apply in_flat_map in L. destruct L as (i & I & L). pose proof (sitem_good i (OK i I)) as F. rewrite Forall_forall in F. apply F. exact L. }
  assert (NL : newlines (sym_text m) = sym_text m).
  { apply newlines_id. unfold sym_text. intros K. apply in_concat in K. destruct K as (l & L & K). rewrite Forall_forall in GL. apply (good_a_line l (GL l L)). exact K. }
  assert (FL : file_lines (sym_text m) = sym_lines m).
  { apply file_lines_concat. eapply Forall_impl; [|exact GL]. intros l L. apply (good_a_line l L). }
  unfold read_asy. rewrite NL, FL. unfold sym_lines. cbn [asy_lines].
  assert (L1 : asy_line (sp [s2l "Version"; m_version m]) (empty_asy, None) = Some (Asy (m_version m) None [] [] [] [] [], None)).
  { assert (E : asy_line (sp [s2l "Version"; m_version m]) (empty_asy, None) = option_map (fun v => (Asy v None [] [] [] [] [], None)) (asy_version (sp [s2l "Version"; m_version m]))) by head.
    rewrite E. unfold asy_version. rewrite words_sp by (apply Forall_cons; [lw|apply Forall_cons; [exact VW|constructor]]).
    assert (existsb (str_eqb (m_version m)) (map s2l ["4"; "4.0"; "4.1"]) = true) as ->; [|reflexivity]. apply existsb_exists. exists (m_version m). split; [exact V|apply str_eqb_refl]. }
  rewrite L1.
  assert (L2 : asy_line (sp [s2l "SymbolType"; m_type m]) (Asy (m_version m) None [] [] [] [] [], None) = Some (Asy (m_version m) (Some (m_type m)) [] [] [] [] [], None)).
  { assert (E : asy_line (sp [s2l "SymbolType"; m_type m]) (Asy (m_version m) None [] [] [] [] [], None) = Some (Asy (m_version m) (Some (strip (m_type m ++ [LF]))) [] [] [] [] [], None)) by reflexivity.
    rewrite E, clean_strip_nl by exact TY. reflexivity. }
  rewrite L2.
  destruct (asy_items (m_version m) (Some (m_type m)) (m_items m) [] (Asy (m_version m) (Some (m_type m)) [] [] [] [] [], None)) as (st & R & S).
  - exact OK.
  - constructor; try reflexivity; constructor.
  - exact ND.
  - rewrite R. exists (store_pin st). split; [reflexivity|exact S].
Qed.
