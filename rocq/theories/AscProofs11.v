(** Scaling of a schematic without ports. *)
From Coq Require Import String Ascii List Bool Arith ZArith Lia.
From Verif Require Import PyStr EngModel EngProofs StepsModel StepsProofs LogProofs Regex CompModel UpdatesModel ParModel QTagModel QTagProofs QEdProofs3 AscModel AscSpec AscParSpec AscCalls AscProofs AscProofs2 AscProofs3 AscProofs5 AscProofs6.
Import ListNotations.
Local Open Scope string_scope. Local Open Scope nat_scope. Local Open Scope list_scope.

(** ** No ports *)
Ltac lw := apply lit_word; reflexivity.
Ltac head := rewrite sp_cons by discriminate; reflexivity.
Lemma store_ports : forall s, a_ports (store s) = a_ports (fst s).
Proof. intros [a [c|]]; reflexivity. Qed.
Lemma read_line_ports : forall sub line s s', startswith (s2l "IOPIN ") line = false -> read_line sub line s = Some s' -> a_ports (fst s') = a_ports (fst s).
Proof.
  intros sub line [a cur] s' NP H. unfold read_line in H. rewrite NP in H.
  assert (OM : forall o (g : asc -> state) s', (forall a', o = Some a' -> a_ports (fst (g a')) = a_ports a) -> option_map g o = Some s' -> a_ports (fst s') = a_ports a) by (intros o g s1 K E; destruct o; [|discriminate]; injection E as <-; apply K; reflexivity).
  destruct (startswith (s2l "SYMBOL") line). { destruct (read_symbol line); [|discriminate]. injection H as <-. cbn [fst]. apply store_ports. }
  destruct (startswith (s2l "WINDOW") line). { destruct cur as [c|]; [|discriminate]. destruct (read_window line c); [|discriminate]. injection H as <-. reflexivity. }
  destruct (startswith (s2l "SYMATTR") line). { destruct cur as [c|]; [|discriminate]. destruct (read_symattr sub line c); [|discriminate]. injection H as <-. reflexivity. }
  destruct (startswith (s2l "TEXT") line). { destruct (read_text line) as [[t|]|]; [| |discriminate]; injection H as <-; reflexivity. }
  destruct (startswith (s2l "WIRE") line). { revert H. apply OM. intros a' E. unfold read_wire in E. repeat match type of E with match ?x with _ => _ end = _ => destruct x; try discriminate end. injection E as <-. reflexivity. }
  destruct (startswith (s2l "FLAG") line). { revert H. apply OM. intros a' E. unfold read_flag in E. repeat match type of E with match ?x with _ => _ end = _ => destruct x; try discriminate end. injection E as <-. reflexivity. }
  destruct (startswith (s2l "Version") line). { revert H. apply OM. intros a' E. unfold read_version in E. repeat match type of E with match ?x with _ => _ end = _ => destruct x; try discriminate end. injection E as <-. reflexivity. }
  destruct (startswith (s2l "SHEET ") line). { injection H as <-. reflexivity. }
  destruct (startswith (s2l "LINE") line || startswith (s2l "RECTANGLE") line || startswith (s2l "CIRCLE") line)%bool.
  { revert H. apply OM. intros a' E. unfold read_drawing in E. repeat match type of E with match ?x with _ => _ end = _ => destruct x; try discriminate end; injection E as <-; cbn [fst]; repeat match goal with |- context [if ?b then _ else _] => destruct b end; reflexivity. }
  destruct (startswith (s2l "ARC") line). { revert H. apply OM. intros a' E. unfold read_arc in E. repeat match type of E with match ?x with _ => _ end = _ => destruct x; try discriminate | (if ?x then _ else _) = _ => destruct x; try discriminate end; injection E as <-; reflexivity. }
  destruct (startswith (s2l "DATAFLAG") line); [|discriminate]. injection H as <-. reflexivity.
Qed.
Lemma read_lines_ports : forall sub ls s s', (forall l, In l ls -> startswith (s2l "IOPIN ") l = false) -> read_lines sub ls s = Some s' -> a_ports (fst s') = a_ports (fst s).
Proof.
  induction ls as [|l ls IH]; intros s s' H E; cbn [read_lines] in E; [injection E as <-; reflexivity|]. destruct (read_line sub l s) as [s1|] eqn:R; [|discriminate]. rewrite (IH s1 s'); [|intros x X; apply H; right; exact X|exact E]. apply (read_line_ports sub l); [apply H; left; reflexivity|exact R].
Qed.
Lemma item_no_port : forall i l, item_ok i -> In l (item_lines i) -> startswith (s2l "IOPIN ") l = false.
Proof.
  intros i l OK I. destruct i as [x1 y1 x2 y2|x y n|s|t|x1 y1 x2 y2 p|n ps p]; cbn [item_lines] in I.
  - destruct I as [<-|[]]. head. - destruct I as [<-|[]]. head.
  - destruct I as [<-|I]; [head|]. apply in_app_or in I. destruct I as [I|I]; [apply in_map_iff in I; destruct I as (w & <- & _); unfold window_line; head|]. destruct I as [<-|I]; [unfold attr_line; head|]. apply in_map_iff in I. destruct I as (w & <- & _). unfold attr_line. head.
  - destruct I as [<-|[]]. head.
  - destruct I as [<-|[]]. cbn [app]. head.
  - destruct I as [<-|[]]. cbn [app]. destruct OK as (_ & K). assert (In n (map s2l ["RECTANGLE"; "CIRCLE"; "ARC"])) as N by (destruct K as [(K & _)|(-> & _)]; [|right; right; left; reflexivity]; destruct K as [<-|[<-|[]]]; [left; reflexivity|right; left; reflexivity]). clear K. destruct N as [<-|[<-|[<-|[]]]]; head.
Qed.
Lemma load_ports : forall sub f a, file_ok sub f -> load sub (file_text f) = Some a -> a_ports a = [].
Proof.
  intros sub f a (V & SH & OK & ND & SB) H. unfold load in H. assert (VW : one_word (f_version f)) by (clear -V; generalize dependent (f_version f); intros r R; cbn in R; repeat (destruct R as [<-|R]; [lw|]); destruct R).
  assert (GL : Forall good_line (file_lines_of f)).
  { constructor; [|constructor].
    - eexists. split; [reflexivity|]. apply Forall_cons; [apply word_ends; lw|]. apply Forall_cons; [apply word_ends; exact VW|constructor].
    - eexists. split; [reflexivity|]. apply Forall_cons; [apply word_ends; lw|]. apply Forall_cons; [apply clean_ends; exact SH|constructor].
    - apply Forall_forall. intros l L. apply in_flat_map in L. destruct L as (i & I & L). pose proof (item_good i (OK i I)) as F. rewrite Forall_forall in F. apply F. exact L. }
  assert (NL : newlines (file_text f) = file_text f).
  { apply newlines_id. unfold file_text. intros K. apply in_concat in K. destruct K as (l & L & K). rewrite Forall_forall in GL. apply (good_a_line l (GL l L)). exact K. }
  assert (FL : file_lines (file_text f) = file_lines_of f) by (apply file_lines_concat; apply Forall_forall; intros l L; rewrite Forall_forall in GL; apply (good_a_line l (GL l L))).
  rewrite NL, FL in H. destruct (read_lines sub (file_lines_of f) (empty, None)) as [s|] eqn:E; [|discriminate]. injection H as <-. rewrite store_ports, (read_lines_ports sub _ _ _) with (2 := E); [reflexivity|].
  intros l [<-|[<-|L]]; [head|head|]. apply in_flat_map in L. destruct L as (i & I & L). apply (item_no_port i); [apply OK; exact I|exact L].
Qed.
Lemma call_ports : forall e a a', call e a = Some a' -> a_ports a' = a_ports a.
Proof.
  assert (TX : forall s a a', add_text s a = Some a' -> a_ports a' = a_ports a) by (intros s a a'; unfold add_text; destruct (text_space a); [|discriminate]; intros H; injection H as <-; reflexivity).
  intros e a a' H. destruct e; cbn [call] in H.
  - unfold set_component_value in H. destruct (get_component ref a), (a_perm a); try discriminate. destruct (dget VALUE _); [|discriminate]. injection H as <-. reflexivity.
  - destruct (dget rot rotations); [|discriminate]. unfold set_component_position in H. destruct (get_component ref a); [|discriminate]. injection H as <-. reflexivity.
  - unfold set_element_model in H. destruct (get_component ref a); [|discriminate]. injection H as <-. reflexivity.
  - unfold remove_component in H. destruct (get_component ref a); [|discriminate]. injection H as <-. reflexivity.
  - unfold add_instruction in H. destruct (command _); [|discriminate]. destruct (is_unique _).
    + destruct (find_unique _) as [[[[p t] q]|]|]; [| |discriminate]; [injection H as <-; reflexivity|]. destruct (add_text _ a) eqn:E; [|discriminate]. injection H as <-. exact (TX _ _ _ E).
    + destruct (startswith _ _); [discriminate|]. destruct (add_text _ a) eqn:E; [|discriminate]. injection H as <-. exact (TX _ _ _ E).
  - injection H as <-. unfold remove_instruction. destruct (find_dir _ _) as [[[[p t] b] q]|]; reflexivity.
  - injection H as <-. reflexivity.
  - unfold set_parameter in H. destruct (a_perm a); [|discriminate]. destruct (find_dir _ _) as [[[[p t] c] q]|].
    + destruct (cap _ _) as [[? ?]|]; [|discriminate]. injection H as <-. reflexivity.
    + destruct (add_text _ a) eqn:E; [|discriminate]. injection H as <-. exact (TX _ _ _ E).
Qed.
Lemma calls_ports : forall es a a', calls es a = Some a' -> a_ports a' = a_ports a.
Proof. induction es as [|e es IH]; intros a a' H; cbn [calls] in H; [injection H as <-; reflexivity|]. destruct (call e a) as [a1|] eqn:E; [|discriminate]. rewrite (IH _ _ H). exact (call_ports _ _ _ E). Qed.

(** ** Scaling *)
Lemma flat_map_map : forall A B C (h : A -> B) (g : B -> list C) l, flat_map g (map h l) = flat_map (fun x => g (h x)) l.
Proof. intros A B C h g l. induction l as [|x l IH]; [reflexivity|]. cbn. rewrite IH. reflexivity. Qed.
Lemma map_proj : forall A B C (h : B -> C) (p : A -> list B) (q : A -> list C) l, (forall i, map h (p i) = q i) -> map h (flat_map p l) = flat_map q l.
Proof. intros A B C h p q l H. induction l as [|x l IH]; [reflexivity|]. cbn. rewrite map_app, IH, H. reflexivity. Qed.
Lemma f2_map2 : forall A B C D (R : A -> B -> Prop) (S : C -> D -> Prop) (g : A -> C) (h : B -> D) l l', (forall a b, R a b -> S (g a) (h b)) -> Forall2 R l l' -> Forall2 S (map g l) (map h l').
Proof. intros A B C D R S g h l l' H F. induction F; constructor; auto. Qed.
Theorem scale_shows : forall f g a x, shows a x -> a_ports a = [] -> shows (scale f g a) (mk (f_version x) (f_sheet x) (map (scaled f g) (f_items x))).
Proof.
  intros f g a x [A B C D E F G H] P. unfold scale. rewrite P. constructor; cbn [a_version a_sheet a_wires a_labels a_lines a_shapes a_dirs a_comps mk f_version f_sheet f_items fold_left]; try assumption.
  - rewrite C. unfold wires. rewrite flat_map_map. apply map_proj. intros []; reflexivity.
  - rewrite D. unfold flags. rewrite flat_map_map. apply map_proj. intros []; reflexivity.
  - rewrite E. unfold dlines. rewrite flat_map_map. apply map_proj. intros []; reflexivity.
  - rewrite F. unfold dshapes. rewrite flat_map_map. apply map_proj. intros []; reflexivity.
  - assert (N : notes (map (scaled f g) (f_items x)) = map (fun t => {| n_x := f (n_x t); n_y := g (n_y t); n_align := n_align t; n_size := n_size t; n_comment := n_comment t; n_text := n_text t |}) (notes (f_items x))) by (unfold notes; rewrite flat_map_map; symmetry; apply map_proj; intros []; reflexivity).
    rewrite N. revert G. apply f2_map2. intros t n S. unfold note_shows in *. cbn. unfold set_align in *. destruct (dget _ align_names) as [[[h v] vis]|]; [|discriminate]. injection S as <-. reflexivity.
  - assert (N : symbols (map (scaled f g) (f_items x)) = map (fun s => put_place (f (s_x s)) (g (s_y s)) (s_rot s) s) (symbols (f_items x))) by (unfold symbols; rewrite flat_map_map; symmetry; apply map_proj; intros []; reflexivity).
    rewrite N. revert H. apply f2_map2. intros e s (S1 & S2 & S3 & S4 & S5 & S6 & S7). unfold sym_shows. cbn [fst snd c_ref c_sym c_x c_y c_rot c_attrs put_place s_ref s_name s_x s_y s_rot]. rewrite S4, S5. auto 10.
Qed.
Lemma scaled_ok : forall sub f g x, file_ok sub x -> file_ok sub (mk (f_version x) (f_sheet x) (map (scaled f g) (f_items x))).
Proof.
  intros sub f g x (A & B & C & D & E). unfold file_ok, mk. cbn [f_version f_sheet f_items]. split; [exact A|]. split; [exact B|].
  assert (N : symbols (map (scaled f g) (f_items x)) = map (fun s => put_place (f (s_x s)) (g (s_y s)) (s_rot s) s) (symbols (f_items x))) by (unfold symbols; rewrite flat_map_map; symmetry; apply map_proj; intros []; reflexivity).
  split; [|split].
  - intros i I. apply in_map_iff in I. destruct I as (j & <- & J). specialize (C j J). destruct j; try exact C. cbn [scaled item_ok] in *. rewrite map_length. exact C.
  - rewrite N, map_map. exact D.
  - rewrite N. intros s S. apply in_map_iff in S. destruct S as (s0 & <- & S). exact (E s0 S).
Qed.
