(** Reading a file: the editor shows its items, grouped by kind. *)
From Coq Require Import String Ascii List Bool Arith ZArith Lia.
From Verif Require Import PyStr EngModel EngProofs StepsModel StepsProofs LogProofs Regex RegexProofs RegexMore CompModel CompProofs UpdatesModel ParModel QTagModel QTagProofs QEdProofs4 AscModel AscSpec AscProofs.
Import ListNotations.
Local Open Scope string_scope. Local Open Scope nat_scope. Local Open Scope list_scope.

(** ** The items of each kind *)
Definition wires (l : list item) : list seg := flat_map (fun i => match i with Wire a b c d => [(a, b, c, d)] | _ => [] end) l.
Definition flags (l : list item) : list (Z * Z * str) := flat_map (fun i => match i with Flag a b c => [(a, b, c)] | _ => [] end) l.
Definition notes (l : list item) : list note := flat_map (fun i => match i with Note t => [t] | _ => [] end) l.
Definition dlines (l : list item) : list (seg * str) := flat_map (fun i => match i with DLine a b c d p => [(a, b, c, d, p)] | _ => [] end) l.
Definition dshapes (l : list item) : list (str * list (Z * Z) * str) := flat_map (fun i => match i with DShape n ps p => [(n, ps, p)] | _ => [] end) l.

Definition note_shows (x : text) (t : note) : Prop := set_align (n_x t) (n_y t) (n_text t) (n_size t) (n_comment t) (n_align t) = Some x.
Definition win_shows (e : str * aval) (w : window) : Prop :=
  fst e = s2l "_WINDOW " ++ w_num w /\ exists x, snd e = AWin x /\ set_align (w_x w) (w_y w) (w_num w) (w_size w) false (w_align w) = Some x.
Definition plain (e : str * str) : str * aval := (fst e, AStr (snd e)).
Definition SUBCKT : list (str * aval) := [(s2l "_SUBCKT", ASub)].
Definition attrs_show (l : list (str * aval)) (s : symbol) : Prop :=
  exists wl b, l = wl ++ b ++ map plain (s_attrs s) /\ Forall2 win_shows wl (s_wins s) /\ (b = [] \/ b = SUBCKT).
Definition sym_shows (e : str * comp) (s : symbol) : Prop :=
  fst e = s_ref s /\ c_ref (snd e) = s_ref s /\ c_sym (snd e) = s_name s /\ c_x (snd e) = s_x s /\ c_y (snd e) = s_y s /\
  dget (s_rot s) rotations = Some (c_rot (snd e)) /\ attrs_show (c_attrs (snd e)) s.
Record shows (a : asc) (f : file) : Prop := {
  sh_version : a_version a = f_version f;
  sh_sheet : a_sheet a = f_sheet f;
  sh_wires : a_wires a = wires (f_items f);
  sh_flags : a_labels a = flags (f_items f);
  sh_lines : a_lines a = dlines (f_items f);
  sh_shapes : a_shapes a = dshapes (f_items f);
  sh_dirs : Forall2 note_shows (a_dirs a) (notes (f_items f));
  sh_comps : Forall2 sym_shows (a_comps a) (symbols (f_items f)) }.
Definition mk (v sh : str) (l : list item) : file := {| f_version := v; f_sheet := sh; f_items := l |}.

(** ** Dictionaries *)
Lemma dset_new : forall W k (v : W) d, ~ In k (map fst d) -> dset k v d = d ++ [(k, v)].
Proof.
  intros W k v d. induction d as [|[a b] d IH]; intros H; [reflexivity|]. cbn [dset]. destruct (str_eqb a k) eqn:E.
  - apply str_eqb_eq in E. subst. exfalso. apply H. left. reflexivity.
  - cbn [app]. f_equal. apply IH. intros K. apply H. right. exact K.
Qed.
Lemma startswith_refl_app : forall p s, startswith p (p ++ s) = true.
Proof. induction p as [|c p IH]; intros s; [reflexivity|]. cbn [startswith app]. rewrite aeqb_refl. apply IH. Qed.

(** ** Lines *)
Lemma sp_cons : forall w l, l <> [] -> sp (w :: l) = w ++ BLANK :: sp l.
Proof. intros w l H. unfold sp. destruct l as [|x l]; [contradiction|]. cbn [join_blank]. rewrite <- app_assoc. reflexivity. Qed.
Lemma words_sp : forall ws, Forall one_word ws -> words (sp ws) = ws.
Proof. intros ws H. apply words_join. exact H. Qed.
Lemma styled_words : forall p, p = [] \/ one_word p -> Forall one_word (styled p).
Proof. intros p [-> | H]; [constructor|]. destruct p; [constructor|]. repeat constructor; apply H. Qed.

Lemma under_two : forall s, startswith (s2l "_W") s = true -> startswith (s2l "_") s = true.
Proof.
  intros [|u s] H; [discriminate|]. change (s2l "_W") with ["_"%char; "W"%char] in H. change (s2l "_") with ["_"%char]. cbn [startswith] in *. apply andb_true_iff in H. destruct H as (-> & _). reflexivity.
Qed.

Section Reading.
Variable sub : str -> str -> option bool.

Ltac lw := apply lit_word; reflexivity.
Ltac head := rewrite sp_cons by discriminate; reflexivity.

(** ** Items that are one line *)
Lemma one_line : forall a cur i l (up : asc -> asc),
  item_lines i = [l] -> (forall a, read_line sub l (a, cur) = Some (up a, cur)) ->
  read_lines sub (item_lines i) (a, cur) = Some (up a, cur).
Proof. intros a cur i l up E H. rewrite E. cbn [read_lines]. rewrite H. reflexivity. Qed.

Lemma read_wire_item : forall x1 y1 x2 y2 a cur, read_line sub (sp [s2l "WIRE"; z x1; z y1; z x2; z y2]) (a, cur) = Some (add_wire a (x1, y1, x2, y2), cur).
Proof.
  intros. assert (W : words (sp [s2l "WIRE"; z x1; z y1; z x2; z y2]) = [s2l "WIRE"; z x1; z y1; z x2; z y2]) by (apply words_sp; repeat constructor; try lw; apply int_word).
  assert (E : read_line sub (sp [s2l "WIRE"; z x1; z y1; z x2; z y2]) (a, cur) = option_map (fun a' => (a', cur)) (read_wire (sp [s2l "WIRE"; z x1; z y1; z x2; z y2]) a)) by head.
  rewrite E. unfold read_wire. rewrite W. unfold z. change [show_int x1; show_int y1; show_int x2; show_int y2] with (map show_int [x1; y1; x2; y2]). rewrite ints_show. reflexivity.
Qed.
Lemma read_flag_item : forall x y n a cur, one_word n -> read_line sub (sp [s2l "FLAG"; z x; z y; n]) (a, cur) = Some (add_label a (x, y, n), cur).
Proof.
  intros x y n a cur N. assert (W : words (sp [s2l "FLAG"; z x; z y; n]) = [s2l "FLAG"; z x; z y; n]) by (apply words_sp; repeat constructor; try lw; try apply int_word; try exact N; apply N).
  assert (E : read_line sub (sp [s2l "FLAG"; z x; z y; n]) (a, cur) = option_map (fun a' => (a', cur)) (read_flag (sp [s2l "FLAG"; z x; z y; n]) a)) by head.
  rewrite E. unfold read_flag. rewrite W. unfold z. change [show_int x; show_int y] with (map show_int [x; y]). rewrite ints_show. reflexivity.
Qed.
Lemma read_dline_item : forall x1 y1 x2 y2 p a cur, p = [] \/ one_word p ->
  read_line sub (sp ([s2l "LINE"; s2l "Normal"; z x1; z y1; z x2; z y2] ++ styled p)) (a, cur) = Some (add_line a (x1, y1, x2, y2, p), cur).
Proof.
  intros x1 y1 x2 y2 p a cur P. set (L := [s2l "LINE"; s2l "Normal"; z x1; z y1; z x2; z y2] ++ styled p).
  assert (W : words (sp L) = L) by (apply words_sp; unfold L; repeat (apply Forall_cons; [try lw; apply int_word|]); apply styled_words; exact P).
  assert (E : read_line sub (sp L) (a, cur) = option_map (fun a' => (a', cur)) (read_drawing (sp L) a)) by (unfold L; cbn [app]; head).
  assert (SL : startswith (s2l "LINE") (sp L) = true) by (unfold L; cbn [app]; head).
  rewrite E. unfold read_drawing. rewrite W, SL. unfold L, z. cbn [app]. change [show_int x1; show_int y1; show_int x2; show_int y2] with (map show_int [x1; y1; x2; y2]). rewrite ints_show.
  destruct p as [|c p]; reflexivity.
Qed.
Lemma points_coords : forall ps, points (flat_map (fun q => [fst q; snd q]) ps) = ps.
Proof. induction ps as [|[x y] ps IH]; [reflexivity|]. cbn [flat_map app points fst snd]. rewrite IH. reflexivity. Qed.
Lemma coords_show : forall ps, flat_map (fun q => [z (fst q); z (snd q)]) ps = map show_int (flat_map (fun q => [fst q; snd q]) ps).
Proof. induction ps as [|[x y] ps IH]; [reflexivity|]. cbn [flat_map app map]. rewrite IH. reflexivity. Qed.
Lemma read_dshape_item : forall n ps p a cur, item_ok (DShape n ps p) ->
  read_line sub (sp ([n; s2l "Normal"] ++ flat_map (fun q => [z (fst q); z (snd q)]) ps ++ styled p)) (a, cur) = Some (add_shape a (n, ps, p), cur).
Proof.
  intros n ps p a cur (P & K). set (L := [n; s2l "Normal"] ++ flat_map (fun q => [z (fst q); z (snd q)]) ps ++ styled p).
  assert (N : one_word n).
  { destruct K as [(K & _)|(-> & _)]; [|lw]. cbn in K. destruct K as [<-|[<-|[]]]; lw. }
  assert (W : words (sp L) = L).
  { apply words_sp. unfold L. apply Forall_cons; [exact N|]. apply Forall_cons; [lw|]. apply Forall_app. split; [|apply styled_words; exact P].
    rewrite coords_show. apply Forall_forall. intros x H. apply in_map_iff in H. destruct H as (q & <- & _). apply int_word. }
  destruct K as [(K & LP)|(-> & LP)].
  - destruct ps as [|[x1 y1] [|[x2 y2] [|? ?]]]; try discriminate. cbn [flat_map app fst snd] in *.
    assert (E : read_line sub (sp L) (a, cur) = option_map (fun a' => (a', cur)) (read_drawing (sp L) a)) by (unfold L; cbn in K; destruct K as [<-|[<-|[]]]; head).
    assert (SL : startswith (s2l "LINE") (sp L) = false) by (unfold L; cbn in K; destruct K as [<-|[<-|[]]]; head).
    rewrite E. unfold read_drawing. rewrite W, SL. unfold L, z. cbn [app]. change [show_int x1; show_int y1; show_int x2; show_int y2] with (map show_int [x1; y1; x2; y2]). rewrite ints_show.
    assert (str_eqb n (s2l "RECTANGLE") || str_eqb n (s2l "CIRCLE") = true) as -> by (cbn in K; destruct K as [<-|[<-|[]]]; reflexivity).
    destruct p as [|c p]; reflexivity.
  - assert (E : read_line sub (sp L) (a, cur) = option_map (fun a' => (a', cur)) (read_arc (sp L) a)) by (unfold L; cbn [app]; rewrite sp_cons by discriminate; reflexivity).
    rewrite E. unfold read_arc. rewrite W. unfold L. cbn [app]. rewrite coords_show.
    assert (LL : length (map show_int (flat_map (fun q : Z * Z => [fst q; snd q]) ps)) = 8) by (destruct ps as [|? [|? [|? [|? [|? ?]]]]]; try discriminate; reflexivity).
    rewrite firstn_app, LL, Nat.sub_diag, skipn_app, LL, Nat.sub_diag, skipn_all2 by lia. rewrite firstn_all2 by lia. cbn [firstn skipn app]. rewrite app_nil_r, ints_show.
    rewrite map_length in LL. rewrite LL. cbn [Nat.eqb]. rewrite points_coords. destruct p as [|c p]; reflexivity.
Qed.
Lemma read_note_item : forall t (a : asc) (cur : option comp), note_ok t -> exists x, note_shows x t /\ forall a cur,
  read_lines sub (item_lines (Note t)) (a, cur) = Some (with_dirs a (a_dirs a ++ [x]), cur).
Proof.
  intros t _ _ H. destruct (align_some (n_x t) (n_y t) (n_text t) (n_size t) (n_comment t) (n_align t)) as (x & X).
  { destruct H as (H & _). apply in_or_app. left. exact H. }
  exists x. split; [exact X|]. intros a cur. set (l := sp [s2l "TEXT"; z (n_x t); z (n_y t); n_align t; z (n_size t); (if n_comment t then s2l ";" else s2l "!") ++ n_text t]).
  change (item_lines (Note t)) with [l]. cbn [read_lines].
  assert (E : read_line sub l (a, cur) = option_map (fun a' => (a', cur)) (option_map (fun o => match o with Some t => with_dirs a (a_dirs a ++ [t]) | None => a end) (read_text l))) by (unfold l; head).
  rewrite E, (read_text_line t x H X l eq_refl). reflexivity.
Qed.

(** ** Symbols *)
Lemma read_symbol_line : forall s a cur, symbol_ok s -> exists r, dget (s_rot s) rotations = Some r /\
  read_line sub (sp [s2l "SYMBOL"; s_name s; z (s_x s); z (s_y s); s_rot s]) (a, cur) = Some (store (a, cur), Some (Comp (s_name s) (s_x s) (s_y s) r [] [])).
Proof.
  intros s a cur ((ws & N & E & W) & R & _).
  assert (RW : one_word (s_rot s)) by (clear -R; generalize dependent (s_rot s); intros r R; cbn in R; repeat (destruct R as [<-|R]; [lw|]); destruct R).
  assert (RD : exists r, dget (s_rot s) rotations = Some r) by (clear -R; generalize dependent (s_rot s); intros r R; cbn in R; repeat (destruct R as [<-|R]; [eexists; reflexivity|]); destruct R).
  destruct RD as (r & RD). exists r. split; [exact RD|].
  set (l := sp [s2l "SYMBOL"; s_name s; z (s_x s); z (s_y s); s_rot s]).
  assert (EL : read_line sub l (a, cur) = option_map (fun c => (store (a, cur), Some c)) (read_symbol l)) by (unfold l; head).
  assert (LW : words l = s2l "SYMBOL" :: ws ++ [z (s_x s); z (s_y s); s_rot s]).
  { unfold l, sp. rewrite E, join_flat by (try exact N; discriminate). apply words_join. apply Forall_cons; [lw|]. apply Forall_app. split; [apply Forall_forall; exact W|]. repeat constructor; try apply int_word; apply RW. }
  rewrite EL. unfold read_symbol. rewrite LW.
  assert (RR : rev (s2l "SYMBOL" :: ws ++ [z (s_x s); z (s_y s); s_rot s]) = s_rot s :: z (s_y s) :: z (s_x s) :: rev (s2l "SYMBOL" :: ws)) by (rewrite app_comm_cons, rev_app_distr; reflexivity).
  rewrite RR, rev_involutive. unfold z. rewrite !py_int_show, RD, E. reflexivity.
Qed.
Lemma read_window_lines : forall ws a c wl, (forall w, In w ws -> window_ok w) -> NoDup (map w_num ws) ->
  (forall w, In w ws -> ~ In (s2l "_WINDOW " ++ w_num w) (map fst wl)) -> c_attrs c = wl ->
  forall rest, exists wl', Forall2 win_shows wl' ws /\ read_lines sub (map window_line ws ++ rest) (a, Some c) = read_lines sub rest (a, Some (with_attrs c (wl ++ wl'))).
Proof.
  induction ws as [|w ws IH]; intros a c wl OK ND FR E rest.
  - exists []. split; [constructor|]. rewrite app_nil_r, <- E. destruct c. reflexivity.
  - destruct (OK w (or_introl eq_refl)) as (NW & AW). destruct (align_some (w_x w) (w_y w) (w_num w) (w_size w) false (w_align w) AW) as (x & X).
    set (e := (s2l "_WINDOW " ++ w_num w, AWin x)).
    cbn [map] in ND. apply NoDup_cons_iff in ND. destruct ND as (ND1 & ND2).
    destruct (IH a (with_attrs c (wl ++ [e])) (wl ++ [e]) (fun w' H => OK w' (or_intror H)) ND2) with (rest := rest) as (wl' & F & G).
    + intros w' H. rewrite map_app. intros K. apply in_app_or in K. destruct K as [K|[K|[]]]; [apply (FR w' (or_intror H) K)|]. cbn [fst e] in K. unfold e in K. cbn [fst] in K. apply app_inv_head in K.
      apply ND1. rewrite K. apply in_map. exact H.
    + reflexivity.
    + exists (e :: wl'). split; [constructor; [|exact F]; split; [reflexivity|]; exists x; split; [reflexivity|exact X]|].
      cbn [map app read_lines].
      assert (EL : read_line sub (window_line w) (a, Some c) = option_map (fun c' => (a, Some c')) (read_window (window_line w) c)) by (unfold window_line; head).
      assert (EW : words (window_line w) = [s2l "WINDOW"; w_num w; z (w_x w); z (w_y w); w_align w; z (w_size w)]).
      { apply words_sp. apply Forall_cons; [lw|]. apply Forall_cons; [exact NW|]. apply Forall_cons; [apply int_word|]. apply Forall_cons; [apply int_word|]. apply Forall_cons; [apply align_word; exact AW|]. apply Forall_cons; [apply int_word|constructor]. }
      rewrite EL. unfold read_window. rewrite EW. unfold z. rewrite !py_int_show, X. cbn [option_map]. rewrite E, dset_new by (apply FR; left; reflexivity). change (s2l "_WINDOW " ++ w_num w, AWin x) with e. etransitivity; [exact G|]. do 3 f_equal. unfold with_attrs. cbn. rewrite <- app_assoc. reflexivity.
Qed.
Lemma read_attr_lines : forall l a c al, (forall e, In e l -> attr_ok e) -> NoDup (map fst l) -> (forall e, In e l -> ~ In (fst e) (map fst al)) -> c_attrs c = al ->
  read_lines sub (map attr_line l) (a, Some c) = Some (a, Some (with_attrs c (al ++ map plain l))).
Proof.
  induction l as [|e l IH]; intros a c al OK ND FR E.
  - cbn. rewrite app_nil_r, <- E. destruct c. reflexivity.
  - destruct (OK e (or_introl eq_refl)) as (K1 & K2 & K3 & K4 & K5 & K6). cbn [map] in ND. apply NoDup_cons_iff in ND. destruct ND as (ND1 & ND2).
    cbn [map read_lines].
    assert (EL : read_line sub (attr_line e) (a, Some c) = option_map (fun c' => (a, Some c')) (read_symattr sub (attr_line e) c)) by (unfold attr_line; head).
    rewrite EL. unfold read_symattr. destruct e as [k v]. rewrite split2_attr by assumption. rewrite clean_strip_nl by assumption. cbn [fst snd] in *.
    assert (str_eqb k (s2l "InstName") = false) as -> by (destruct (str_eqb k (s2l "InstName")) eqn:Q; [apply str_eqb_eq in Q; contradiction|reflexivity]).
    assert ((if str_eqb (upper k) (s2l "PREFIX") then upper v else v) = v) as -> by (destruct (str_eqb (upper k) (s2l "PREFIX")) eqn:Q; [apply str_eqb_eq in Q; apply K6; exact Q|reflexivity]).
    cbn [option_map]. rewrite E, dset_new by (apply (FR (k, v)); left; reflexivity).
    rewrite (IH a _ (al ++ [(k, AStr v)])).
    + do 3 f_equal. unfold with_attrs. cbn. rewrite <- app_assoc. reflexivity.
    + intros e' H. apply OK. right. exact H.
    + exact ND2.
    + intros e' H. rewrite map_app. intros Q. apply in_app_or in Q. destruct Q as [Q|[Q|[]]]; [apply (FR e' (or_intror H) Q)|]. cbn in Q. apply ND1. rewrite Q. apply in_map. exact H.
    + reflexivity.
Qed.
Lemma read_symbol_item : forall s a cur, symbol_ok s -> sub (s_name s) (s_ref s) <> None ->
  exists c, read_lines sub (item_lines (Symbol s)) (a, cur) = Some (store (a, cur), Some c) /\ sym_shows (s_ref s, c) s.
Proof.
  intros s a cur OK SB. destruct (read_symbol_line s a cur OK) as (r & RD & L1). destruct OK as (_ & _ & OW & NW & CR & NR & OA & NA).
  cbn [item_lines read_lines]. rewrite L1.
  destruct (read_window_lines (s_wins s) (store (a, cur)) (Comp (s_name s) (s_x s) (s_y s) r [] []) [] OW NW (fun _ _ K => K) eq_refl (attr_line (s2l "InstName", s_ref s) :: map attr_line (s_attrs s))) as (wl & FW & RW).
  rewrite RW. cbn [app read_lines].
  set (c1 := with_attrs (Comp (s_name s) (s_x s) (s_y s) r [] []) wl).
  assert (EL : read_line sub (attr_line (s2l "InstName", s_ref s)) (store (a, cur), Some c1) = option_map (fun c' => (store (a, cur), Some c')) (read_symattr sub (attr_line (s2l "InstName", s_ref s)) c1)) by (unfold attr_line; head).
  rewrite EL. unfold read_symattr. rewrite split2_attr by (try assumption; lw). rewrite clean_strip_nl by assumption.
  change (str_eqb (s2l "InstName") (s2l "InstName")) with true. cbn match. cbn [c1 c_sym with_attrs]. unfold c1. cbn [c_sym c_x c_y c_rot c_attrs with_attrs].
  destruct (sub (s_name s) (s_ref s)) as [b|]; [|contradiction]. cbn [option_map].
  assert (WN : forall e, In e wl -> startswith (s2l "_W") (fst e) = true).
  { intros e H. assert (HX : exists w, win_shows e w) by (clear -FW H; induction FW; [destruct H|]; destruct H as [<-|H]; [eexists; eassumption|apply IHFW; exact H]). destruct HX as (w & HW & _). rewrite HW. reflexivity. }
  assert (ES : (if b then dset (s2l "_SUBCKT") ASub wl else wl) = wl ++ (if b then SUBCKT else [])).
  { destruct b; [|rewrite app_nil_r; reflexivity]. apply dset_new. intros K. apply in_map_iff in K. destruct K as (e & K & H). apply WN in H. rewrite K in H. discriminate. }
  rewrite ES. rewrite (read_attr_lines (s_attrs s) (store (a, cur)) _ (wl ++ (if b then SUBCKT else [])) OA NA).
  - eexists. split; [reflexivity|]. unfold with_attrs. cbn. split; [reflexivity|]. split; [reflexivity|]. split; [reflexivity|]. split; [reflexivity|]. split; [reflexivity|]. split; [exact RD|].
    exists wl, (if b then SUBCKT else []). split; [rewrite <- app_assoc; reflexivity|]. split; [exact FW|]. destruct b; auto.
  - intros e H K. apply in_map_iff in K. destruct K as (e' & K & H'). destruct (OA e H) as (_ & _ & U & _). rewrite <- K in U. apply in_app_or in H'. destruct H' as [H'|H'].
    + apply WN in H'. apply under_two in H'. rewrite H' in U. discriminate.
    + destruct b; [|destruct H']. destruct H' as [<-|[]]. discriminate.
  - reflexivity.
Qed.

(** ** All items *)
Lemma items_app : forall A (g : item -> list A) pre i, flat_map g (pre ++ [i]) = flat_map g pre ++ g i.
Proof. intros. rewrite flat_map_app. cbn [flat_map]. rewrite app_nil_r. reflexivity. Qed.
Lemma store_with : forall a cur (up : asc -> asc), (forall a l, with_comps (up a) l = up (with_comps a l)) -> (forall a, a_comps (up a) = a_comps a) -> store (up a, cur) = up (store (a, cur)).
Proof. intros a [c|] up H1 H2; [|reflexivity]. unfold store. cbn [fst snd]. rewrite H2, H1. reflexivity. Qed.
Lemma shows_keys : forall a f, shows a f -> map fst (a_comps a) = map s_ref (symbols (f_items f)).
Proof. intros a f H. pose proof (sh_comps _ _ H) as F. clear H. induction F as [|e s l1 l2 (H & _) F IH]; [reflexivity|]. cbn [map]. rewrite H, IH. reflexivity. Qed.
Lemma read_item : forall v sh pre i s, item_ok i -> shows (store s) (mk v sh pre) ->
  (forall t, i = Symbol t -> ~ In (s_ref t) (map s_ref (symbols pre)) /\ sub (s_name t) (s_ref t) <> None) ->
  exists s', read_lines sub (item_lines i) s = Some s' /\ shows (store s') (mk v sh (pre ++ [i])).
Proof.
  intros v sh pre i [a cur] OK SH NEW.
  destruct i as [x1 y1 x2 y2|x y n|t|t|x1 y1 x2 y2 p|n ps p].
  - exists (add_wire a (x1, y1, x2, y2), cur). split; [cbn [item_lines read_lines]; rewrite read_wire_item; reflexivity|].
    rewrite (store_with a cur (fun a => add_wire a (x1, y1, x2, y2))) by reflexivity. destruct SH as [A B C D E F G H].
    constructor; cbn [mk f_version f_sheet f_items] in *; try assumption; unfold wires, flags, notes, dlines, dshapes, symbols in *; rewrite items_app; rewrite ?app_nil_r; try assumption. cbn [a_wires add_wire]. rewrite C. reflexivity.
  - exists (add_label a (x, y, n), cur). split; [cbn [item_lines read_lines]; rewrite read_flag_item by exact OK; reflexivity|].
    rewrite (store_with a cur (fun a => add_label a (x, y, n))) by reflexivity. destruct SH as [A B C D E F G H].
    constructor; cbn [mk f_version f_sheet f_items] in *; try assumption; unfold wires, flags, notes, dlines, dshapes, symbols in *; rewrite items_app; rewrite ?app_nil_r; try assumption. cbn [a_labels add_label]. rewrite D. reflexivity.
  - destruct (NEW t eq_refl) as (NR & SB). destruct (read_symbol_item t a cur OK SB) as (c & RL & SC). exists (store (a, cur), Some c). split; [exact RL|].
    assert (CR : c_ref c = s_ref t) by apply SC.
    assert (ES : store (store (a, cur), Some c) = with_comps (store (a, cur)) (a_comps (store (a, cur)) ++ [(s_ref t, c)])).
    { unfold store at 1. cbn [fst snd]. rewrite CR, dset_new; [reflexivity|]. rewrite (shows_keys _ _ SH). exact NR. }
    rewrite ES. destruct SH as [A B C D E F G H].
    constructor; cbn [mk f_version f_sheet f_items] in *; try assumption; unfold wires, flags, notes, dlines, dshapes, symbols in *; rewrite items_app; rewrite ?app_nil_r; try assumption.
    cbn [a_comps with_comps]. apply Forall2_app; [exact H|]. constructor; [exact SC|constructor].
  - destruct (read_note_item t a cur OK) as (x & NX & RX). exists (with_dirs a (a_dirs a ++ [x]), cur). split; [apply RX|].
    rewrite (store_with a cur (fun a => with_dirs a (a_dirs a ++ [x]))) by reflexivity. destruct SH as [A B C D E F G H].
    constructor; cbn [mk f_version f_sheet f_items] in *; try assumption; unfold wires, flags, notes, dlines, dshapes, symbols in *; rewrite items_app; rewrite ?app_nil_r; try assumption.
    cbn [a_dirs with_dirs]. apply Forall2_app; [exact G|]. constructor; [exact NX|constructor].
  - exists (add_line a (x1, y1, x2, y2, p), cur). split; [cbn [item_lines read_lines]; rewrite read_dline_item by exact OK; reflexivity|].
    rewrite (store_with a cur (fun a => add_line a (x1, y1, x2, y2, p))) by reflexivity. destruct SH as [A B C D E F G H].
    constructor; cbn [mk f_version f_sheet f_items] in *; try assumption; unfold wires, flags, notes, dlines, dshapes, symbols in *; rewrite items_app; rewrite ?app_nil_r; try assumption. cbn [a_lines add_line]. rewrite E. reflexivity.
  - exists (add_shape a (n, ps, p), cur). split; [cbn [item_lines read_lines]; rewrite read_dshape_item by exact OK; reflexivity|].
    rewrite (store_with a cur (fun a => add_shape a (n, ps, p))) by reflexivity. destruct SH as [A B C D E F G H].
    constructor; cbn [mk f_version f_sheet f_items] in *; try assumption; unfold wires, flags, notes, dlines, dshapes, symbols in *; rewrite items_app; rewrite ?app_nil_r; try assumption. cbn [a_shapes add_shape]. rewrite F. reflexivity.
Qed.
Lemma read_lines_app : forall l1 l2 s, read_lines sub (l1 ++ l2) s = match read_lines sub l1 s with Some s' => read_lines sub l2 s' | None => None end.
Proof. induction l1 as [|x l1 IH]; intros l2 s; [reflexivity|]. cbn [app read_lines]. destruct (read_line sub x s); [apply IH|reflexivity]. Qed.
Lemma read_items : forall v sh l pre s, (forall i, In i l -> item_ok i) -> NoDup (map s_ref (symbols (pre ++ l))) ->
  (forall t, In t (symbols l) -> sub (s_name t) (s_ref t) <> None) -> shows (store s) (mk v sh pre) ->
  exists s', read_lines sub (flat_map item_lines l) s = Some s' /\ shows (store s') (mk v sh (pre ++ l)).
Proof.
  induction l as [|i l IH]; intros pre s OK ND SB SH.
  - exists s. rewrite app_nil_r. split; [reflexivity|exact SH].
  - destruct (read_item v sh pre i s (OK i (or_introl eq_refl)) SH) as (s1 & R1 & S1).
    + intros t ->. split; [|apply SB; left; reflexivity]. unfold symbols in *. rewrite flat_map_app, map_app in ND. cbn [flat_map app map] in ND. apply NoDup_remove_2 in ND.
      intros K. apply ND. apply in_or_app. left. exact K.
    + destruct (IH (pre ++ [i]) s1) as (s2 & R2 & S2).
      * intros j J. apply OK. right. exact J.
      * rewrite <- app_assoc. exact ND.
      * intros t T. apply SB. unfold symbols in *. cbn [flat_map]. apply in_or_app. right. exact T.
      * exact S1.
      * exists s2. cbn [flat_map]. rewrite read_lines_app, R1. split; [exact R2|]. rewrite <- app_assoc in S2. exact S2.
Qed.

(** ** The lines of the file *)
Definition a_line (l : str) : Prop := exists b, l = b ++ [LF] /\ ~ In LF b.
Lemma file_lines_concat : forall ls, Forall a_line ls -> file_lines (concat ls) = ls.
Proof.
  assert (G : forall b s, ~ In LF b -> file_lines (b ++ LF :: s) = (b ++ [LF]) :: file_lines s).
  { induction b as [|c b IH]; intros s H; [reflexivity|]. cbn [app file_lines]. destruct (aeqb c LF) eqn:E; [apply aeqb_eq in E; subst; exfalso; apply H; left; reflexivity|].
    rewrite IH by (intros K; apply H; right; exact K). reflexivity. }
  induction ls as [|l ls IH]; intros H; [reflexivity|]. apply Forall_cons_iff in H. destruct H as ((b & -> & NB) & H). cbn [concat]. rewrite <- app_assoc. cbn [app]. rewrite G by exact NB. rewrite IH by exact H. reflexivity.
Qed.
Lemma join_plain : forall c l, c <> BLANK -> (forall w, In w l -> ~ In c w) -> ~ In c (join_blank l).
Proof.
  intros c l B. induction l as [|x l IH]; intros H; [intros []|]. destruct l as [|y l]; [apply H; left; reflexivity|].
  change (join_blank (x :: y :: l)) with (x ++ BLANK :: join_blank (y :: l)). intros K. apply in_app_or in K. destruct K as [K|[K|K]]; [apply (H x (or_introl eq_refl) K)|apply B; symmetry; exact K|]. revert K. apply IH. intros w W. apply H. right. exact W.
Qed.
Lemma word_no : forall w c, one_word w -> is_space c = true -> ~ In c w.
Proof. intros w c (_ & W) S K. rewrite (W c K) in S. discriminate. Qed.
Definition no_ends (w : str) : Prop := ~ In LF w /\ ~ In CR w.
Lemma word_ends : forall w, one_word w -> no_ends w.
Proof. intros w W. split; apply word_no; try exact W; reflexivity. Qed.
Lemma clean_ends : forall w, clean w -> no_ends w.
Proof. intros w (A & B & _). split; assumption. Qed.
Definition good_line (l : str) : Prop := exists ws, l = sp ws /\ Forall no_ends ws.
Lemma good_a_line : forall l, good_line l -> a_line l /\ ~ In CR l.
Proof.
  intros l (ws & -> & F). rewrite Forall_forall in F. unfold sp. split.
  - exists (join_blank ws). split; [reflexivity|]. apply join_plain; [discriminate|]. intros w W. apply (F w W).
  - intros K. apply in_app_or in K. destruct K as [K|[K|[]]]; [|discriminate]. revert K. apply join_plain; [discriminate|]. intros w W. apply (F w W).
Qed.
Lemma item_good : forall i, item_ok i -> Forall good_line (item_lines i).
Proof.
  assert (IZ : forall n, no_ends (z n)) by (intros n; apply word_ends; apply int_word).
  assert (ST : forall p, p = [] \/ one_word p -> Forall no_ends (styled p)) by (intros p P; eapply Forall_impl; [|apply styled_words; exact P]; intros w W; apply word_ends; exact W).
  assert (LW : forall w, one_word w -> no_ends w) by (intros w; apply word_ends).
  assert (AL : forall k v, one_word k -> clean v -> good_line (attr_line (k, v))).
  { intros k v K V. eexists. split; [reflexivity|]. apply Forall_cons; [apply LW; lw|]. apply Forall_cons; [apply LW; exact K|]. apply Forall_cons; [apply clean_ends; exact V|constructor]. }
  intros [x1 y1 x2 y2|x y n|t|t|x1 y1 x2 y2 p|n ps p] OK; cbn [item_lines].
  - constructor; [|constructor]. eexists. split; [reflexivity|]. apply Forall_cons; [apply LW; lw|]. repeat (apply Forall_cons; [apply IZ|]). constructor.
  - constructor; [|constructor]. eexists. split; [reflexivity|]. apply Forall_cons; [apply LW; lw|]. repeat (apply Forall_cons; [apply IZ|]). apply Forall_cons; [apply LW; exact OK|constructor].
  - destruct OK as ((ws & NW & EN & WW) & R & OW & _ & CR & _ & OA & _). constructor; [|apply Forall_app; split].
    + eexists. split; [reflexivity|]. apply Forall_cons; [apply LW; lw|]. apply Forall_cons.
      { rewrite EN. split; apply join_plain; try discriminate; intros w W; apply word_no; try (apply WW; exact W); reflexivity. }
      repeat (apply Forall_cons; [apply IZ|]). apply Forall_cons; [|constructor]. apply LW. clear -R. generalize dependent (s_rot t). intros r R. cbn in R. repeat (destruct R as [<-|R]; [lw|]). destruct R.
    + apply Forall_forall. intros l L. apply in_map_iff in L. destruct L as (w & <- & W). destruct (OW w W) as (A & B). eexists. split; [reflexivity|].
      apply Forall_cons; [apply LW; lw|]. apply Forall_cons; [apply LW; exact A|]. repeat (apply Forall_cons; [apply IZ|]). apply Forall_cons; [apply LW; apply align_word; exact B|]. apply Forall_cons; [apply IZ|constructor].
    + constructor; [apply AL; [lw|exact CR]|]. apply Forall_forall. intros l L. apply in_map_iff in L. destruct L as ([k v] & <- & W). destruct (OA (k, v) W) as (A & _ & _ & B & _). apply AL; assumption.
  - destruct OK as (A & _ & B). constructor; [|constructor]. eexists. split; [reflexivity|]. apply Forall_cons; [apply LW; lw|]. repeat (apply Forall_cons; [apply IZ|]). apply Forall_cons; [apply LW; apply align_word; apply in_or_app; left; exact A|].
    apply Forall_cons; [apply IZ|]. apply Forall_cons; [|constructor]. destruct (clean_ends _ B) as (C & D). destruct (n_comment t); split; (intros K; destruct K as [K|K]; [discriminate|]; contradiction).
  - constructor; [|constructor]. eexists. split; [reflexivity|]. apply Forall_app. split; [|apply ST; exact OK]. apply Forall_cons; [apply LW; lw|]. apply Forall_cons; [apply LW; lw|]. repeat (apply Forall_cons; [apply IZ|]). constructor.
  - destruct OK as (P & N). constructor; [|constructor]. eexists. split; [reflexivity|]. cbn [app]. apply Forall_cons; [|apply Forall_cons; [apply LW; lw|]].
    + apply LW. destruct N as [(N & _)|(-> & _)]; [|lw]. cbn in N. destruct N as [<-|[<-|[]]]; lw.
    + apply Forall_app. split; [|apply ST; exact P]. rewrite coords_show. apply Forall_forall. intros w W. apply in_map_iff in W. destruct W as (q & <- & _). apply IZ.
Qed.

(** ** Loading *)
Theorem load_shows : forall f, file_ok sub f -> exists ed, load sub (file_text f) = Some ed /\ shows ed f /\ a_log ed = [] /\ a_canvas ed = false /\ a_perm ed = Inform.
Proof.
  intros f (V & SH & OK & ND & SB).
  assert (VW : one_word (f_version f)) by (clear -V; generalize dependent (f_version f); intros r R; cbn in R; repeat (destruct R as [<-|R]; [lw|]); destruct R).
  assert (GL : Forall good_line (file_lines_of f)).
  { constructor; [|constructor].
    - eexists. split; [reflexivity|]. apply Forall_cons; [apply word_ends; lw|]. apply Forall_cons; [apply word_ends; exact VW|constructor].
    - eexists. split; [reflexivity|]. apply Forall_cons; [apply word_ends; lw|]. apply Forall_cons; [apply clean_ends; exact SH|constructor].
    - apply Forall_forall. intros l L. apply in_flat_map in L. destruct L as (i & I & L). pose proof (item_good i (OK i I)) as F. rewrite Forall_forall in F. apply F. exact L. }
  assert (NL : newlines (file_text f) = file_text f).
  { apply newlines_id. unfold file_text. intros K. apply in_concat in K. destruct K as (l & L & K). rewrite Forall_forall in GL. apply (good_a_line l (GL l L)). exact K. }
  assert (FL : file_lines (file_text f) = file_lines_of f).
  { apply file_lines_concat. eapply Forall_impl; [|exact GL]. intros l L. apply (good_a_line l L). }
  unfold load. rewrite NL, FL. unfold file_lines_of. cbn [read_lines].
  set (l1 := sp [s2l "Version"; f_version f]). set (l2 := sp [s2l "SHEET"; f_sheet f]).
  assert (R1 : read_line sub l1 (empty, None) = Some (set_version empty (f_version f), None)).
  { assert (E : read_line sub l1 (empty, None) = option_map (fun a' => (a', None)) (read_version l1 empty)) by (unfold l1; head).
    rewrite E. unfold read_version. assert (W : words l1 = [s2l "Version"; f_version f]) by (apply words_sp; apply Forall_cons; [lw|]; apply Forall_cons; [exact VW|constructor]). rewrite W.
    assert (existsb (str_eqb (f_version f)) (map s2l ["4"; "4.0"; "4.1"]) = true) as ->; [|reflexivity]. apply existsb_exists. exists (f_version f). split; [exact V|]. apply str_eqb_eq. reflexivity. }
  rewrite R1.
  assert (R2 : forall a, read_line sub l2 (a, None) = Some (set_sheet a (f_sheet f), None)).
  { intros a. assert (E : read_line sub l2 (a, None) = Some (set_sheet a (strip (skipn 6 l2)), None)) by (unfold l2; head).
    rewrite E. do 3 f_equal. unfold l2, sp. cbn [join_blank]. rewrite <- app_assoc. change (skipn 6 (s2l "SHEET" ++ (BLANK :: f_sheet f) ++ [LF])) with (f_sheet f ++ [LF]). apply clean_strip_nl. exact SH. }
  rewrite R2.
  destruct (read_items (f_version f) (f_sheet f) (f_items f) [] (set_sheet (set_version empty (f_version f)) (f_sheet f), None)) as (s' & RL & S').
  - exact OK.
  - exact ND.
  - exact SB.
  - constructor; try reflexivity; constructor.
  - rewrite RL. exists (store s'). split; [reflexivity|]. split; [destruct f; exact S'|].
    assert (P : forall ls s s', read_lines sub ls s = Some s' -> a_log (fst s') = a_log (fst s) /\ a_canvas (fst s') = a_canvas (fst s) /\ a_perm (fst s') = a_perm (fst s)).
    { clear. assert (Q : forall l s s', read_line sub l s = Some s' -> a_log (fst s') = a_log (fst s) /\ a_canvas (fst s') = a_canvas (fst s) /\ a_perm (fst s') = a_perm (fst s)).
      { intros l [a cur] s' H. unfold read_line in H.
        assert (ST : forall a cur, a_log (store (a, cur)) = a_log a /\ a_canvas (store (a, cur)) = a_canvas a /\ a_perm (store (a, cur)) = a_perm a) by (intros a0 [c|]; repeat split; reflexivity).
        repeat match type of H with (if ?b then _ else _) = _ => destruct b end.
        - destruct (read_symbol l); [|discriminate]. injection H as <-. apply ST.
        - destruct cur; [|discriminate]. destruct (read_window l c); [|discriminate]. injection H as <-. auto.
        - destruct cur; [|discriminate]. destruct (read_symattr sub l c); [|discriminate]. injection H as <-. auto.
        - destruct (read_text l) as [[x|]|]; [| |discriminate]; injection H as <-; auto.
        - unfold read_wire in H. destruct (words l) as [|? [|? [|? [|? [|? [|? ?]]]]]]; try discriminate. destruct (ints _) as [[|? [|? [|? [|? [|? ?]]]]]|]; try discriminate. injection H as <-. auto.
        - unfold read_flag in H. destruct (words l) as [|? [|? [|? [|? [|? ?]]]]]; try discriminate. destruct (ints _) as [[|? [|? [|? ?]]]|]; try discriminate. injection H as <-. auto.
        - unfold read_version in H. destruct (words l) as [|? [|? [|? ?]]]; try discriminate. destruct (existsb _ _); [|discriminate]. injection H as <-. auto.
        - injection H as <-. auto.
        - unfold read_port in H. destruct (words l) as [|? [|? [|? [|? [|? ?]]]]]; try discriminate. destruct (rev (a_labels a)) as [|[[? ?] ?] ?]; [discriminate|]. destruct (ints _) as [[|? [|? [|? ?]]]|]; try discriminate. destruct (_ && _); [|discriminate]. injection H as <-. auto.
        - unfold read_drawing in H. destruct (words l) as [|? [|? [|? [|? [|? [|? st]]]]]]; try discriminate. destruct st as [|? [|? ?]]; try discriminate; destruct (ints _) as [[|? [|? [|? [|? [|? ?]]]]]|]; try discriminate; injection H as <-; cbn [fst]; repeat match goal with |- context [if ?b then _ else _] => destruct b end; auto.
        - unfold read_arc in H. destruct (words l) as [|? [|? ?]]; try discriminate. destruct (ints _); [|discriminate]. destruct (_ =? _); [|discriminate]. destruct (skipn 8 _) as [|? [|? ?]]; try discriminate; injection H as <-; auto.
        - injection H as <-. auto.
        - discriminate. }
      induction ls as [|l ls IH]; intros s s' H; [injection H as <-; auto|]. cbn [read_lines] in H. destruct (read_line sub l s) as [s1|] eqn:E; [|discriminate]. apply IH in H. apply Q in E. destruct H as (A & B & C), E as (D & E & F). rewrite A, B, C, D, E, F. auto. }
    apply P in RL. cbn in RL. destruct s' as [a [c|]]; exact RL.
Qed.
End Reading.
