(** The converted schematic, and reading it again. *)
From Coq Require Import String Ascii List Bool Arith ZArith Lia.
From Verif Require Import PyStr EngModel EngProofs StepsModel StepsProofs LogProofs CompModel CompProofs QTagModel QTagSpec QTagProofs QEdModel QEdProofs QEdProofs3 QNetModel QNetProofs2 AscModel AscSpec AscProofs AscProofs2 AscProofs5 AscProofs11 AsyModel AsySpec AsyProofs AsyProofs2 AsyProofs3 AsyProofs4.
Import ListNotations.
Local Open Scope string_scope. Local Open Scope nat_scope. Local Open Scope list_scope.

Lemma F2_map_l : forall A B C (f : A -> B) (P : B -> C -> Prop) l r, Forall2 P (map f l) r <-> Forall2 (fun a c => P (f a) c) l r.
Proof.
  intros A B C f P l. induction l as [|a l IH]; intros r; split; intros H; inversion H; subst; constructor; try assumption; apply IH; assumption.
Qed.
Lemma each : forall A B (f : A -> option B) (P : A -> B -> Prop) l, (forall x, In x l -> exists y, f x = Some y /\ P x y) -> exists ys, map_opt f l = Some ys /\ Forall2 P l ys.
Proof.
  intros A B f P l H. apply (map_opt_ex A B A f P l l eq (F2_refl _ l)). intros x c I <-. apply H. exact I.
Qed.
Lemma drawn_cut : forall t x1 y1 x2 y2, at_point 1 t (cut_x x1, cut_y y1) -> at_point 2 t (cut_x x2, cut_y y2) -> drawn_as (x1, y1) (x2, y2) t.
Proof. intros. eexists _, _. split; [eassumption|]. split; [eassumption|]. split; apply cut_moved. Qed.
Lemma leaf_fine : fine (Tag [s2l "schematic"] []).
Proof. destruct (leaf_of [s2l "schematic"]) as (P & C & _); [apply Forall_cons; [apply good_lit; reflexivity|apply Forall_nil]|]. split; assumption. Qed.
Lemma node_fine : forall l, Forall fine l -> fine (Tag [s2l "schematic"] l).
Proof.
  intros l F. pose proof leaf_fine as (P0 & C0). destruct l as [|u l]; [split; assumption|]. split.
  - apply P_node; [discriminate| |]; [inversion P0; subst; first [contradiction|assumption|discriminate]|]. eapply Forall_impl; [|exact F]. intros a (A & _). exact A.
  - intros K. inversion K as [t0 its a HI HA|t0 its w HI HT]; subst; [apply C0; apply I_token with (a := a); assumption|]. rewrite Forall_forall in F. destruct (F w HI) as (_ & N). exact (N HT).
Qed.

Section Lib.
Variable lib : str -> option symfile.
Theorem convert_ok : forall sub f, file_ok sub f -> can_convert lib f ->
  exists a t, AscModel.load sub (AscSpec.file_text f) = Some a /\ convert (library lib) a = Some t /\ fine t /\ converted lib f t.
Proof.
  intros sub f OK (CC & CF & CN & CA). destruct (load_shows sub f OK) as (a & LA & SH & _). pose proof (load_ports sub f a OK LA) as NP.
  destruct SH as [_ _ SW SF SL SS SD SC]. exists a.
  assert (US : Forall (usable lib) (symbols (f_items f))) by (apply Forall_forall; intros s I; apply CC; exact I).
  assert (S0 : stock_ok lib [] []) by (split; [intros n y H; discriminate|reflexivity]).
  destruct (component_tags_ok lib _ _ [] [] SC US S0 _ eq_refl) as (cs & EC & FC).
  destruct (each _ _ label_tag (fun l u => fine u /\ head_is (s2l "net") u = true /\ let '(x, y, n) := l in at_point 1 u (x, y) /\ get_attr 5 u = Some (AText n)) (map (scale_label cut_x cut_y) (flags (f_items f)))) as (ls & EL & FL).
  { intros l I. apply in_map_iff in I. destruct I as ([[x y] n] & <- & I). destruct (CF x y n I) as (Q & Z). unfold scale_label. destruct (label_tag_ok (cut_x x) (cut_y y) n Q Z) as (u & A & B & C & D & E). exists u. auto 8. }
  destruct (each _ _ wire_tag (fun w u => fine u /\ head_is (s2l "wire") u = true /\ let '(x1, y1, x2, y2) := w in at_point 1 u (x1, y1) /\ at_point 2 u (x2, y2) /\ get_attr 3 u = Some (AText (s2l "0"))) (map (scale_seg cut_x cut_y) (wires (f_items f)))) as (ws & EW & FW).
  { intros [[[x1 y1] x2] y2] _. destruct (wire_tag_ok x1 y1 x2 y2) as (u & A & B & C & D & E & F). exists u. auto 8. }
  destruct (each _ _ sheet_line (fun l u => fine u /\ head_is (s2l "line") u = true /\ let '(x1, y1, x2, y2, _) := l in at_point 1 u (x1, y1) /\ at_point 2 u (x2, y2)) (map (fun l : seg * str => (scale_seg cut_x cut_y (fst l), snd l)) (dlines (f_items f)))) as (ds & ED & FD).
  { intros [[[[x1 y1] x2] y2] p] _. destruct (sheet_line_ok x1 y1 x2 y2 p) as (u & A & B & C & D & E). exists u. auto 8. }
  destruct (each _ _ (fun s : drawn => sheet_shape (let '(n, ps, p) := s in (n, map (fun q => (cut_x (fst q), cut_y (snd q))) ps, p)))
     (fun s u => fine u /\ (exists r, toks u = tag_name (fst (fst s)) :: r) /\ (fst (fst s) = s2l "RECTANGLE" \/ fst (fst s) = s2l "CIRCLE") /\ exists p1 p2, snd (fst s) = [p1; p2] /\ drawn_as p1 p2 u) (dshapes (f_items f))) as (ss & ES & FS).
  { intros [[n ps] p] I. pose proof (CA n ps p I) as NA. assert (OKI : exists i, In i (f_items f) /\ i = DShape n ps p).
    { unfold dshapes in I. apply in_flat_map in I. destruct I as (i & I & J). exists i. split; [exact I|]. destruct i; cbn in J; try contradiction. destruct J as [J|[]]. congruence. }
    destruct OKI as (i & II & ->). destruct OK as (_ & _ & OKI & _). specialize (OKI _ II). cbn in OKI. destruct OKI as (_ & [(N & L)|(N & _)]); [|contradiction].
    destruct ps as [|p1 [|p2 [|]]]; try discriminate L. assert (N' : n = s2l "RECTANGLE" \/ n = s2l "CIRCLE") by (destruct N as [<- |[<- |[]]]; auto). cbn [map].
    destruct (sheet_shape_ok n (cut_x (fst p1), cut_y (snd p1)) (cut_x (fst p2), cut_y (snd p2)) p N') as (u & A & B & C & D & E). exists u. split; [exact A|]. split; [exact B|]. split; [exact C|]. split; [exact N'|].
    exists p1, p2. split; [reflexivity|]. destruct p1, p2. apply drawn_cut; assumption. }
  assert (ES' : map_opt sheet_shape (map (fun s : drawn => let '(n, ps, p) := s in (n, map (fun q => (cut_x (fst q), cut_y (snd q))) ps, p)) (dshapes (f_items f))) = Some ss).
  { clear -ES. revert ss ES. induction (dshapes (f_items f)) as [|s l IH]; intros ss H; [exact H|]. cbn [map map_opt] in *. destruct (sheet_shape _) as [u|]; [|discriminate H]. destruct (map_opt (fun s : drawn => sheet_shape _) l) as [us|]; [|discriminate H]. rewrite (IH us eq_refl). exact H. }
  destruct (map_opt_ex _ _ _ directive_tag (fun n u => fine u /\ head_is TEXT u = true /\ at_point 1 u (cut_x (n_x n), cut_y (n_y n)) /\ text_of u = Some (QUAL ++ n_text n) /\ get_attr 4 u = Some (AInt 0))
     (map (fun t => Txt (cut_x (t_x t)) (cut_y (t_y t)) (t_text t) (t_size t) (t_comment t) (t_h t) (t_v t) (t_vert t) (t_visible t)) (a_dirs a)) (notes (f_items f)) (fun x n => t_x x = cut_x (n_x n) /\ t_y x = cut_y (n_y n) /\ t_text x = n_text n)) as (ts & ET & FT).
  { apply F2_map_l. revert SD. clear. induction 1 as [|x n l r H F IH]; constructor; [|exact IH]. unfold note_shows, set_align in H. destruct (dget _ align_names) as [[[h v] vis]|]; [|discriminate]. injection H as <-. cbn. auto. }
  { intros x n I (X & Y & T). destruct (directive_tag_ok x) as (u & A & B & C & D & E & F); [rewrite T; apply CN; exact I|]. rewrite X, Y, T in *. exists u. auto 8. }
  exists (Tag [s2l "schematic"] (cs ++ ls ++ ws ++ ds ++ ss ++ ts)). split; [exact LA|]. split.
  { set (a' := scale cut_x cut_y a).
    assert (E1 : component_tags (library lib) (a_comps a') [] = Some cs) by exact EC.
    assert (E2 : map_opt label_tag (a_labels a') = Some ls) by (unfold a', scale; cbn [a_labels]; rewrite NP, SF; exact EL).
    assert (E3 : map_opt wire_tag (a_wires a') = Some ws) by (unfold a', scale; cbn [a_wires]; rewrite SW; exact EW).
    assert (E4 : map_opt sheet_line (a_lines a') = Some ds) by (unfold a', scale; cbn [a_lines]; rewrite SL; exact ED).
    assert (E5 : map_opt sheet_shape (a_shapes a') = Some ss) by (unfold a', scale; cbn [a_shapes]; rewrite SS; exact ES').
    assert (E6 : map_opt directive_tag (a_dirs a') = Some ts) by exact ET.
    unfold convert. cbv zeta. fold a'. rewrite E1, E2, E3, E4, E5, E6. reflexivity. }
  assert (FA : Forall fine (cs ++ ls ++ ws ++ ds ++ ss ++ ts)).
  { repeat (apply Forall_app; split); (eapply F2_Forall_r; [|eassumption]); intros x y K; apply K. }
  split; [apply node_fine; exact FA|].
  assert (HC : Forall (fun t => head_is (s2l "component") t = true) cs) by (eapply F2_Forall_r; [|exact FC]; intros x y K; apply K).
  assert (HL : Forall (fun t => head_is (s2l "net") t = true) ls) by (eapply F2_Forall_r; [|exact FL]; intros x y K; apply K).
  assert (HW : Forall (fun t => head_is (s2l "wire") t = true) ws) by (eapply F2_Forall_r; [|exact FW]; intros x y K; apply K).
  assert (HD : Forall (fun t => head_is (s2l "line") t = true) ds) by (eapply F2_Forall_r; [|exact FD]; intros x y K; apply K).
  assert (HT : Forall (fun t => head_is (s2l "text") t = true) ts) by (eapply F2_Forall_r; [|exact FT]; intros x y K; apply K).
  destruct (shapes_split (dshapes (f_items f)) ss) as (RE & CI & NO); [revert FS; apply F2_impl; intros s u (_ & K); exact K|].
  assert (OTH : forall n k l, Forall (fun t => head_is k t = true) l -> str_eqb k n = false -> filter (head_is n) l = []) by (intros n k l F N; apply (filter_other n k l N F)).
  constructor; unfold get_items; cbn [kids toks]; [reflexivity|..]; rewrite !filter_app.
  - rewrite (filter_all _ cs HC), (OTH (s2l "component") _ ls HL eq_refl), (OTH (s2l "component") _ ws HW eq_refl), (OTH (s2l "component") _ ds HD eq_refl), NO, (OTH (s2l "component") _ ts HT eq_refl) by reflexivity. rewrite !app_nil_r.
    revert FC. apply F2_impl. intros s u (_ & _ & A & B & (y & GY & s0 & m & D1 & D2 & D3 & _)). split; [eexists; split; [exact A|apply cut_moved]|]. split; [exact B|]. exists y, s0, m. auto.
  - rewrite (filter_all _ ls HL), (OTH (s2l "net") _ cs HC eq_refl), (OTH (s2l "net") _ ws HW eq_refl), (OTH (s2l "net") _ ds HD eq_refl), NO, (OTH (s2l "net") _ ts HT eq_refl) by reflexivity. cbn [app]. rewrite !app_nil_r.
    apply F2_map_l in FL. revert FL. apply F2_impl. intros [[x y] n] u (_ & _ & A & B). split; [eexists; split; [exact A|apply cut_moved]|exact B].
  - rewrite (filter_all _ ws HW), (OTH (s2l "wire") _ cs HC eq_refl), (OTH (s2l "wire") _ ls HL eq_refl), (OTH (s2l "wire") _ ds HD eq_refl), NO, (OTH (s2l "wire") _ ts HT eq_refl) by reflexivity. cbn [app]. rewrite !app_nil_r.
    apply F2_map_l in FW. revert FW. apply F2_impl. intros [[[x1 y1] x2] y2] u (_ & _ & A & B & C). split; [apply drawn_cut; assumption|exact C].
  - rewrite (filter_all _ ds HD), (OTH (s2l "line") _ cs HC eq_refl), (OTH (s2l "line") _ ls HL eq_refl), (OTH (s2l "line") _ ws HW eq_refl), NO, (OTH (s2l "line") _ ts HT eq_refl) by reflexivity. cbn [app]. rewrite !app_nil_r.
    apply F2_map_l in FD. revert FD. apply F2_impl. intros [[[[x1 y1] x2] y2] p] u (_ & _ & A & B). apply drawn_cut; assumption.
  - rewrite (OTH (s2l "rect") _ ds HD eq_refl), (OTH (s2l "rect") _ cs HC eq_refl), (OTH (s2l "rect") _ ls HL eq_refl), (OTH (s2l "rect") _ ws HW eq_refl), (OTH (s2l "rect") _ ts HT eq_refl) by reflexivity. cbn [app]. rewrite !app_nil_r. exact RE.
  - rewrite (OTH (s2l "ellipse") _ ds HD eq_refl), (OTH (s2l "ellipse") _ cs HC eq_refl), (OTH (s2l "ellipse") _ ls HL eq_refl), (OTH (s2l "ellipse") _ ws HW eq_refl), (OTH (s2l "ellipse") _ ts HT eq_refl) by reflexivity. cbn [app]. rewrite !app_nil_r. exact CI.
  - rewrite (filter_all _ ts HT), (OTH (s2l "text") _ cs HC eq_refl), (OTH (s2l "text") _ ls HL eq_refl), (OTH (s2l "text") _ ws HW eq_refl), NO, (OTH (s2l "text") _ ds HD eq_refl) by reflexivity. cbn [app].
    revert FT. apply F2_impl. intros n u (_ & _ & A & B & C). split; [eexists; split; [exact A|apply cut_moved]|]. split; [exact B|exact C].
Qed.
End Lib.
