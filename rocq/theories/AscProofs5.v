(** Edits: what they make of the items of the schematic. *)
From Coq Require Import String Ascii List Bool Arith ZArith Lia.
From Verif Require Import PyStr EngModel EngProofs StepsModel StepsProofs LogProofs Regex CompModel UpdatesModel ParModel QTagModel QTagProofs QEdProofs3 QEdProofs4 QParProofs AscModel AscSpec AscParSpec AscCalls AscProofs AscProofs2 AscProofs3 AscProofs4.
Import ListNotations.
Local Open Scope string_scope. Local Open Scope nat_scope. Local Open Scope list_scope.

(** ** Components *)
Lemma proj_map : forall B (g : item -> list B) h l, (forall i, g (h i) = g i) -> flat_map g (map h l) = flat_map g l.
Proof. intros B g h l H. induction l as [|i l IH]; [reflexivity|]. cbn [map flat_map]. rewrite H, IH. reflexivity. Qed.
Lemma symbols_on : forall ref h l, symbols (map (on_symbol ref h) l) = map (fun s => if str_eqb (s_ref s) ref then h s else s) (symbols l).
Proof. intros ref h l. unfold symbols. induction l as [|i l IH]; [reflexivity|]. cbn [map flat_map]. rewrite map_app, IH. destruct i; reflexivity. Qed.
Lemma in_symbols : forall s l, In s (symbols l) <-> In (Symbol s) l.
Proof.
  intros s l. unfold symbols. rewrite in_flat_map. split.
  - intros (i & I & S). destruct i; cbn in S; try contradiction. destruct S as [->|[]]. exact I.
  - intros H. exists (Symbol s). split; [exact H|left; reflexivity].
Qed.
Lemma comps_find : forall comps syms ref c, Forall2 sym_shows comps syms -> dget ref comps = Some c -> exists s, In s syms /\ s_ref s = ref /\ sym_shows (ref, c) s.
Proof.
  intros comps syms ref c F. induction F as [|[k x] s l1 l2 H F IH]; intros D; [discriminate|]. unfold dget in D. cbn [find fst] in D. destruct (str_eqb k ref) eqn:E.
  - apply str_eqb_eq in E. subst k. injection D as ->. exists s. split; [left; reflexivity|]. split; [symmetry; apply H|exact H].
  - destruct (IH D) as (s' & A & B & C). exists s'. split; [right; exact A|]. split; [exact B|exact C].
Qed.
Lemma comps_update : forall comps syms ref c c' h, Forall2 sym_shows comps syms -> NoDup (map s_ref syms) -> dget ref comps = Some c ->
  (forall s, In s syms -> sym_shows (ref, c) s -> sym_shows (ref, c') (h s)) ->
  Forall2 sym_shows (dset ref c' comps) (map (fun s => if str_eqb (s_ref s) ref then h s else s) syms).
Proof.
  intros comps syms ref c c' h F. induction F as [|[k x] s l1 l2 H F IH]; intros ND D HH; [discriminate|]. cbn [map] in *. apply NoDup_cons_iff in ND. destruct ND as (N1 & N2).
  pose proof (proj1 H) as K. cbn [fst] in K. unfold dget in D. cbn [find fst] in D. cbn [dset]. rewrite <- K. destruct (str_eqb k ref) eqn:E.
  - apply str_eqb_eq in E. rewrite E in *. injection D as ->. constructor; [apply HH; [left; reflexivity|exact H]|].
    assert (EQ : map (fun s => if str_eqb (s_ref s) ref then h s else s) l2 = l2).
    { rewrite <- map_id. apply map_ext_in. intros y Y. destruct (str_eqb (s_ref y) ref) eqn:Q; [|reflexivity]. apply str_eqb_eq in Q. exfalso. apply N1. rewrite <- K, <- Q. apply in_map. exact Y. }
    rewrite EQ. exact F.
  - constructor; [exact H|]. apply IH; [exact N2|exact D|]. intros y Y. apply HH. right. exact Y.
Qed.
Lemma comps_remove : forall comps syms ref, Forall2 sym_shows comps syms -> Forall2 sym_shows (ddel ref comps) (filter (fun s => negb (str_eqb (s_ref s) ref)) syms).
Proof.
  intros comps syms ref F. unfold ddel. induction F as [|[k x] s l1 l2 H F IH]; [constructor|]. cbn [filter fst]. pose proof (proj1 H) as K. cbn [fst] in K. rewrite <- K. destruct (str_eqb k ref); cbn [negb]; [exact IH|constructor; assumption].
Qed.
Lemma symbols_remove : forall ref l, symbols (filter (fun i => match i with Symbol s => negb (str_eqb (s_ref s) ref) | _ => true end) l) = filter (fun s => negb (str_eqb (s_ref s) ref)) (symbols l).
Proof.
  intros ref l. induction l as [|i l IH]; [reflexivity|]. destruct i; try exact IH. cbn [filter]. unfold symbols in *. cbn [flat_map app]. cbn [filter]. destruct (str_eqb (s_ref s) ref); cbn [negb]; [exact IH|]. cbn [flat_map app]. rewrite IH. reflexivity.
Qed.
Lemma proj_filter : forall B (g : item -> list B) p l, (forall i, p i = false -> g i = []) -> flat_map g (filter p l) = flat_map g l.
Proof. intros B g p l H. induction l as [|i l IH]; [reflexivity|]. cbn [filter flat_map]. destruct (p i) eqn:E; [cbn [flat_map]; rewrite IH; reflexivity|rewrite (H i E); exact IH]. Qed.
(** Attributes *)
Lemma dset_app_r : forall W k (v : W) l1 l2, ~ In k (map fst l1) -> dset k v (l1 ++ l2) = l1 ++ dset k v l2.
Proof.
  intros W k v l1 l2. induction l1 as [|[a b] l1 IH]; intros H; [reflexivity|]. cbn [app dset]. destruct (str_eqb a k) eqn:E; [apply str_eqb_eq in E; subst; exfalso; apply H; left; reflexivity|]. rewrite IH; [reflexivity|]. intros K. apply H. right. exact K.
Qed.
Lemma dget_app_r : forall W k (l1 l2 : list (str * W)), ~ In k (map fst l1) -> dget k (l1 ++ l2) = dget k l2.
Proof.
  intros W k l1 l2. unfold dget. induction l1 as [|[a b] l1 IH]; intros H; [reflexivity|]. cbn [app find fst]. destruct (str_eqb a k) eqn:E; [apply str_eqb_eq in E; subst; exfalso; apply H; left; reflexivity|]. apply IH. intros K. apply H. right. exact K.
Qed.
Lemma dget_plain : forall k l, dget k (map plain l) = option_map AStr (option_map snd (find (fun e => str_eqb (fst e) k) l)).
Proof. intros k l. unfold dget. induction l as [|[a b] l IH]; [reflexivity|]. cbn [map find plain fst snd]. destruct (str_eqb a k); [reflexivity|exact IH]. Qed.
Lemma dset_plain : forall k v l, NoDup (map fst l) -> find (fun e => str_eqb (fst e) k) l <> None ->
  dset k (AStr v) (map plain l) = map plain (map (fun e => if str_eqb (fst e) k then (k, v) else e) l).
Proof.
  intros k v l. induction l as [|[a b] l IH]; intros ND H; [contradiction|]. cbn [map find plain fst snd dset] in *. apply NoDup_cons_iff in ND. destruct ND as (N1 & N2). destruct (str_eqb a k) eqn:E.
  - apply str_eqb_eq in E. subst a. cbn [map]. f_equal. f_equal. rewrite <- (map_id l) at 1. apply map_ext_in. intros e I. destruct (str_eqb (fst e) k) eqn:Q; [|reflexivity]. apply str_eqb_eq in Q. exfalso. apply N1. rewrite <- Q. apply in_map. exact I.
  - f_equal. apply IH; assumption.
Qed.
Lemma hidden_keys : forall wl ws b k, Forall2 win_shows wl ws -> (b = [] \/ b = SUBCKT) -> startswith (s2l "_") k = false -> ~ In k (map fst (wl ++ b)).
Proof.
  intros wl ws b k F HB K H. apply in_map_iff in H. destruct H as (e & <- & H). apply in_app_or in H. destruct H as [H|H].
  - assert (HX : exists w, win_shows e w) by (clear -F H; induction F; [destruct H|]; destruct H as [<-|H]; [eexists; eassumption|apply IHF; exact H]). destruct HX as (w & E & _). rewrite E in K. discriminate.
  - destruct HB as [-> | ->]; [destruct H|]. destruct H as [<-|[]]. discriminate.
Qed.
Lemma attrs_get : forall l s k, attrs_show l s -> startswith (s2l "_") k = false -> dget k l = option_map AStr (value_of s k).
Proof.
  intros l s k (wl & b & -> & F & HB) K. rewrite app_assoc, dget_app_r by (eapply hidden_keys; eassumption). apply dget_plain.
Qed.
Lemma attrs_set : forall l s k v, attrs_show l s -> startswith (s2l "_") k = false -> NoDup (map fst (s_attrs s)) -> value_of s k <> None -> attrs_show (dset k (AStr v) l) (put_attr k v s).
Proof.
  intros l s k v (wl & b & -> & F & HB) K ND V. exists wl, b. split; [|split; assumption]. rewrite !app_assoc, dset_app_r by (eapply hidden_keys; eassumption). f_equal. apply dset_plain; [exact ND|]. unfold value_of in V. intros Q. rewrite Q in V. apply V. reflexivity.
Qed.

(** ** Directives *)
Lemma notes_split : forall l np t nq, notes l = np ++ t :: nq -> exists p q, l = p ++ Note t :: q /\ notes p = np /\ notes q = nq.
Proof.
  unfold notes. induction l as [|i l IH]; intros np t nq H; [destruct np; discriminate|]. cbn [flat_map] in H. destruct i.
  4:{ cbn [app] in H. destruct np as [|t' np].
      - injection H as -> H. exists [], l. split; [reflexivity|]. split; [reflexivity|exact H].
      - injection H as -> H. destruct (IH _ _ _ H) as (p & q & -> & <- & <-). exists (Note t' :: p), q. split; [reflexivity|]. split; reflexivity. }
  all: destruct (IH _ _ _ H) as (p & q & -> & <- & <-); eexists (_ :: p), q; split; [reflexivity|]; split; reflexivity.
Qed.
Lemma in_notes : forall t l, In t (notes l) <-> In (Note t) l.
Proof.
  intros s l. unfold notes. rewrite in_flat_map. split.
  - intros (i & I & S). destruct i; cbn in S; try contradiction. destruct S as [->|[]]. exact I.
  - intros H. exists (Note s). split; [exact H|left; reflexivity].
Qed.
Lemma note_fields : forall x t, note_shows x t -> t_x x = n_x t /\ t_y x = n_y t /\ t_text x = n_text t /\ t_comment x = n_comment t.
Proof. intros x t H. unfold note_shows, set_align in H. destruct (dget _ _) as [[[h v] vis]|]; [|discriminate]. injection H as <-. auto. Qed.
Lemma note_set_text : forall x t s, note_shows x t -> note_shows (with_text x s) (set_text s t).
Proof. intros x t s H. unfold note_shows, set_align in *. cbn [set_text n_x n_y n_text n_size n_comment n_align]. destruct (dget _ _) as [[[h v] vis]|]; [|discriminate]. injection H as <-. reflexivity. Qed.
Lemma f2_split : forall A B (R : A -> B -> Prop) p x q l, Forall2 R (p ++ x :: q) l -> exists p' y q', l = p' ++ y :: q' /\ Forall2 R p p' /\ R x y /\ Forall2 R q q'.
Proof. intros A B R p x q l H. apply Forall2_app_inv_l in H. destruct H as (l1 & l2 & H1 & H2 & ->). inversion H2; subst. eauto 10. Qed.
Lemma f2_in : forall A B (R : A -> B -> Prop) l l' y, Forall2 R l l' -> In y l' -> exists x, In x l /\ R x y.
Proof. intros A B R l l' y F. induction F; intros H0; [destruct H0|]. destruct H0 as [<-|H0]; [exists x; split; [left; reflexivity|assumption]|]. destruct (IHF H0) as (z & A1 & A2). exists z. split; [right; exact A1|exact A2]. Qed.
Lemma f2_in_l : forall A B (R : A -> B -> Prop) l l' x, Forall2 R l l' -> In x l -> exists y, In y l' /\ R x y.
Proof. intros A B R l l' y F. induction F; intros H0; [destruct H0|]. destruct H0 as [<-|H0]; [exists y0; split; [left; reflexivity|assumption]|]. destruct (IHF H0) as (z & A1 & A2). exists z. split; [right; exact A1|exact A2]. Qed.
Lemma other_note : forall p t t' q, let l := p ++ Note t :: q in let l' := p ++ Note t' :: q in
  wires l' = wires l /\ flags l' = flags l /\ symbols l' = symbols l /\ dlines l' = dlines l /\ dshapes l' = dshapes l /\ notes l' = notes p ++ t' :: notes q.
Proof. intros p t t' q l l'. unfold l, l', wires, flags, symbols, dlines, dshapes, notes. rewrite !flat_map_app. cbn [flat_map app]. repeat split. Qed.
Lemma less_note : forall p t q, let l := p ++ Note t :: q in let l' := p ++ q in
  wires l' = wires l /\ flags l' = flags l /\ symbols l' = symbols l /\ dlines l' = dlines l /\ dshapes l' = dshapes l /\ notes l' = notes p ++ notes q.
Proof. intros p t q l l'. unfold l, l', wires, flags, symbols, dlines, dshapes, notes. rewrite !flat_map_app. cbn [flat_map app]. repeat split. Qed.
(** The place of a new directive *)
Lemma fold_min : forall l a, (fold_left Z.min l a <= a)%Z /\ forall x, In x l -> (fold_left Z.min l a <= x)%Z.
Proof. induction l as [|y l IH]; intros a; cbn [fold_left]; [split; [lia|intros x []]|]. destruct (IH (Z.min a y)) as (A & B). split; [lia|]. intros x [<-|H]; [lia|apply B; exact H]. Qed.
Lemma fold_max : forall l a, (a <= fold_left Z.max l a)%Z /\ forall x, In x l -> (x <= fold_left Z.max l a)%Z.
Proof. induction l as [|y l IH]; intros a; cbn [fold_left]; [split; [lia|intros x []]|]. destruct (IH (Z.max a y)) as (A & B). split; [lia|]. intros x [<-|H]; [lia|apply B; exact H]. Qed.
Lemma corner_point : forall a f i p, shows a f -> In i (f_items f) -> In p (corners i) -> In p (all_points a).
Proof.
  intros a f i p [A B C D E F G H] I P. unfold all_points. destruct i; cbn [corners] in P; try contradiction.
  - apply in_or_app. left. apply in_flat_map. exists (x1, y1, x2, y2). split; [rewrite C; apply in_flat_map; eexists; split; [exact I|left; reflexivity]|exact P].
  - apply in_or_app. right. apply in_or_app. left. destruct P as [<-|[]]. apply in_map_iff. exists (x, y, name). split; [reflexivity|]. rewrite D. apply in_flat_map. eexists; split; [exact I|left; reflexivity].
  - apply in_or_app. right. apply in_or_app. right. apply in_or_app. right. destruct P as [<-|[]]. apply in_symbols in I. destruct (f2_in _ _ _ _ _ _ H I) as (e & EI & (_ & _ & _ & EX & EY & _)). apply in_map_iff. exists e. rewrite EX, EY. auto.
  - apply in_or_app. right. apply in_or_app. right. apply in_or_app. left. destruct P as [<-|[]]. apply in_notes in I. destruct (f2_in _ _ _ _ _ _ G I) as (e & EI & N). apply note_fields in N. destruct N as (EX & EY & _). apply in_map_iff. exists e. rewrite EX, EY. auto.
Qed.
Lemma add_text_added : forall s a a' f, shows a f -> add_text s a = Some a' -> exists l', added s (f_items f) l' /\ shows a' (mk (f_version f) (f_sheet f) l') /\ a_perm a' = a_perm a.
Proof.
  intros s a a' f SH H. unfold add_text in H. destruct (text_space a) as [[x y]|] eqn:T; [|discriminate]. injection H as <-. cbn [fst snd].
  set (n := {| n_x := x; n_y := y; n_align := s2l "Left"; n_size := 2; n_comment := false; n_text := s |}).
  exists (by_kind (f_items f ++ [Note n])). split; [|split; [|reflexivity]].
  - exists x, y. split; [reflexivity|]. intros i p I P. pose proof (corner_point a f i p SH I P) as Q. unfold text_space in T. destruct (words (a_sheet a)) as [|? [|? [|? [|? ?]]]]; try discriminate. destruct (ints _) as [[|? [|? [|? ?]]]|]; try discriminate. injection T as <- <-.
    split; [apply fold_min; apply in_map; exact Q|]. pose proof (proj2 (fold_max (map snd (all_points a)) (-100000)%Z) (snd p) (in_map snd _ _ Q)). lia.
  - apply (shows_kind _ (mk _ _ (f_items f ++ [Note n]))). destruct SH as [A B C D E F G H].
    constructor; cbn [mk f_version f_sheet f_items] in *; try assumption; unfold wires, flags, notes, dlines, dshapes, symbols in *; rewrite items_app; rewrite ?app_nil_r; try assumption.
    cbn [a_dirs with_dirs]. apply Forall2_app; [exact G|]. constructor; [reflexivity|constructor].
Qed.
Lemma shows_log : forall n v ty a f, shows a f -> shows (end_update n v ty a) f.
Proof. intros n v ty a f [A B C D E F G H]. constructor; assumption. Qed.

(** ** Simulation commands *)
Lemma command_sim : forall s w, command s = Some w -> is_unique w = true -> sim_command s.
Proof.
  intros s w H U. unfold command, first_word in H. destruct (span (fun c => negb (is_space c)) (lstrip s)) as [u r] eqn:E. destruct u as [|c u]; [discriminate|]. injection H as <-. cbn [fst] in U. destruct (lstrip_all is_space s) as (b & EB & HB). fold (lstrip s) in EB.
  destruct (span_all _ _ _ _ E) as (EL & HU & HR). exists b, (c :: u), r. split; [rewrite EB at 1; f_equal; exact EL|]. split; [exact HB|]. split; [intros x X; apply negb_true_iff; apply HU; exact X|]. split; [destruct r; [exact I|apply negb_false_iff; exact HR]|].
  unfold is_unique in U. apply existsb_exists in U. destruct U as (x & X & EQ). apply str_eqb_eq in EQ. rewrite <- EQ in X. exact X.
Qed.
Lemma sim_some : forall s, sim_command s -> exists w, command s = Some w /\ is_unique w = true.
Proof.
  intros s (b & w & r & -> & HB & HW & HR & U). exists (upper w). split.
  - unfold command, first_word. assert (N : w <> []) by (intros ->; cbn in U; intuition discriminate).
    assert (EL : lstrip (b ++ w ++ r) = w ++ r).
    { clear -HB HW N. induction b as [|c b IH]; [destruct w as [|c w]; [contradiction|]; cbn; rewrite (HW c (or_introl eq_refl)); reflexivity|]. cbn. rewrite (HB c (or_introl eq_refl)). apply IH. intros x X. apply HB. right. exact X. }
    rewrite EL, (span_app (fun c => negb (is_space c)) w r).
    + destruct w; [contradiction|reflexivity].
    + apply forallb_forall. intros c C. rewrite (HW c C). reflexivity.
    + destruct r as [|c r]; [exact I|]. cbn. rewrite HR. reflexivity.
  - unfold is_unique. apply existsb_exists. exists (upper w). split; [exact U|apply str_eqb_refl].
Qed.
Definition active (x : text) : Prop := t_comment x = false /\ sim_command (t_text x).
Lemma find_unique_spec : forall l, match find_unique l with
  | Some (Some (p, t, q)) => l = p ++ t :: q /\ active t /\ forall u, In u p -> ~ active u
  | Some None => forall u, In u l -> ~ active u
  | None => True
  end.
Proof.
  induction l as [|t l IH]; [intros u []|]. cbn [find_unique].
  set (next := match find_unique l with Some (Some (p, u, q)) => Some (Some (t :: p, u, q)) | o => o end).
  assert (SK : ~ active t -> match next with Some (Some (p, t0, q)) => t :: l = p ++ t0 :: q /\ active t0 /\ (forall u, In u p -> ~ active u) | Some None => forall u, In u (t :: l) -> ~ active u | None => True end).
  { intros NA. unfold next. destruct (find_unique l) as [[[[p u] q]|]|]; [| |exact I].
    - destruct IH as (-> & A & B). split; [reflexivity|]. split; [exact A|]. intros v [<-|V]; [exact NA|apply B; exact V].
    - intros v [<-|V]; [exact NA|apply IH; exact V]. }
  destruct (t_comment t) eqn:TC; [apply SK; intros (A & _); congruence|].
  destruct (command (t_text t)) as [w|] eqn:CM; [|exact I]. destruct (is_unique w) eqn:U.
  - split; [reflexivity|]. split; [split; [exact TC|eapply command_sim; eassumption]|]. intros u [].
  - apply SK. intros (_ & S). apply sim_some in S. destruct S as (w' & A & B). congruence.
Qed.
Lemma active_note : forall x t, note_shows x t -> (active x <-> active_sim (Note t)).
Proof. intros x t H. apply note_fields in H. destruct H as (_ & _ & A & B). unfold active, active_sim. rewrite A, B. reflexivity. Qed.
Lemma find_dir_some : forall B (g : text -> option B) l p t b q, find_dir g l = Some (p, t, b, q) -> l = p ++ t :: q /\ g t = Some b /\ forall u, In u p -> g u = None.
Proof.
  intros B g. induction l as [|x l IH]; intros p t b q H; [discriminate|]. cbn [find_dir] in H. destruct (g x) eqn:E; [injection H as <- <- <- <-; split; [reflexivity|]; split; [exact E|intros u []]|].
  destruct (find_dir g l) as [[[[p' u] b'] q']|]; [|discriminate]. injection H as <- <- <- <-. destruct (IH _ _ _ _ eq_refl) as (-> & A & C). split; [reflexivity|]. split; [exact A|]. intros v [<-|V]; [exact E|apply C; exact V].
Qed.
Lemma find_dir_none : forall B (g : text -> option B) l, find_dir g l = None -> forall u, In u l -> g u = None.
Proof.
  intros B g. induction l as [|x l IH]; intros H u U; [destruct U|]. cbn [find_dir] in H. destruct (g x) eqn:E; [discriminate|]. destruct (find_dir g l) as [[[[p' w] b'] q']|]; [discriminate|]. destruct U as [<-|U]; [exact E|apply IH; [reflexivity|exact U]].
Qed.
Lemma is_sub_spec : forall p s, is_sub p s = true <-> substring p s.
Proof.
  intros p s. unfold substring. split.
  - induction s as [|c s IH]; cbn [is_sub]; intros H; apply orb_true_iff in H; destruct H as [H|H].
    + apply startswith_inv in H. destruct H as (b & H). exists [], b. exact H.
    + discriminate.
    + apply startswith_inv in H. destruct H as (b & H). exists [], b. exact H.
    + destruct (IH H) as (a & b & E). exists (c :: a), b. rewrite E. reflexivity.
  - intros (a & b & ->). induction a as [|c a IH]; cbn [app is_sub].
    + pose proof (startswith_app p b) as H. destruct (p ++ b); cbn [is_sub]; rewrite H; reflexivity.
    + rewrite IH. apply orb_true_r.
Qed.

(** ** Each edit *)
Theorem call_edited : forall e a a' sub f, file_ok sub f -> edit_ok sub e -> shows a f -> call e a = Some a' ->
  exists l', edited e (f_items f) l' /\ shows a' (mk (f_version f) (f_sheet f) l') /\ a_perm a' = a_perm a.
Proof.
  intros e a a' sub f OK EOK SH H. destruct OK as (_ & _ & IOK & ND & _).
  assert (OKS : forall s, In s (symbols (f_items f)) -> symbol_ok s) by (intros s S; apply in_symbols in S; apply (IOK _ S)).
  assert (UPD : forall ref c c' h, dget ref (a_comps a) = Some c -> (forall s, In s (symbols (f_items f)) -> sym_shows (ref, c) s -> sym_shows (ref, c') (h s)) ->
     shows (put_comp ref c' a) (mk (f_version f) (f_sheet f) (map (on_symbol ref h) (f_items f)))).
  { intros ref c c' h D HH. destruct SH as [A B C D' E F G H'].
    assert (PM : forall B (g : item -> list B), (forall i, g (on_symbol ref h i) = g i) -> flat_map g (map (on_symbol ref h) (f_items f)) = flat_map g (f_items f)) by (intros; apply proj_map; assumption).
    constructor; cbn [mk f_version f_sheet f_items put_comp with_comps a_version a_sheet a_wires a_labels a_lines a_shapes a_dirs a_comps]; try assumption.
    - unfold wires. rewrite PM; [exact C|]. intros []; reflexivity.
    - unfold flags. rewrite PM; [exact D'|]. intros []; reflexivity.
    - unfold dlines. rewrite PM; [exact E|]. intros []; reflexivity.
    - unfold dshapes. rewrite PM; [exact F|]. intros []; reflexivity.
    - unfold notes. rewrite PM; [exact G|]. intros []; reflexivity.
    - rewrite symbols_on. eapply comps_update; eassumption. }
  assert (GC : forall ref c, get_component ref a = Some c -> dget ref (a_comps a) = Some c) by (intros ref c K; unfold get_component in K; destruct (mem_c COLON ref); [discriminate|exact K]).
  assert (NU : startswith (s2l "_") VALUE = false) by reflexivity.
  destruct e as [ref v|ref x y r|ref m|ref|s|s|pat|n v]; cbn [call edited] in *.
  - unfold set_component_value in H. destruct (get_component ref a) as [c|] eqn:E; [|discriminate]. destruct (a_perm a) eqn:EP; [|discriminate]. destruct (dget VALUE (c_attrs c)) as [o|] eqn:EV; [|discriminate]. injection H as <-. apply GC in E.
    destruct (comps_find _ _ _ _ (sh_comps _ _ SH) E) as (s & SI & SR & SS). assert (AV : value_of s (s2l "Value") <> None).
    { assert (AS : attrs_show (c_attrs c) s) by apply SS. rewrite (attrs_get _ _ VALUE AS NU) in EV. change (s2l "Value") with VALUE. intros K. rewrite K in EV. discriminate. }
    exists (map (on_symbol ref (put_attr (s2l "Value") v)) (f_items f)). split; [split; [exists s; apply in_symbols in SI; auto|reflexivity]|]. split; [|exact EP].
    apply shows_log. apply (UPD ref c _ _ E). intros s' S' (K1 & K2 & K3 & K4 & K5 & K6 & K7). cbn [fst snd] in *.
    assert (AV' : value_of s' (s2l "Value") <> None) by (rewrite (attrs_get _ _ VALUE K7 NU) in EV; change (s2l "Value") with VALUE; intros K; rewrite K in EV; discriminate).
    split; [exact K1|]. split; [exact K2|]. split; [exact K3|]. split; [exact K4|]. split; [exact K5|]. split; [exact K6|]. apply attrs_set; [exact K7|reflexivity|apply (OKS s' S')|exact AV'].
  - destruct (dget r rotations) as [n|] eqn:ER; [|discriminate]. unfold set_component_position in H. destruct (get_component ref a) as [c|] eqn:E; [|discriminate]. injection H as <-. apply GC in E.
    destruct (comps_find _ _ _ _ (sh_comps _ _ SH) E) as (s & SI & SR & SS). exists (map (on_symbol ref (put_place x y r)) (f_items f)). split; [split; [exists s; apply in_symbols in SI; auto|reflexivity]|]. split; [|reflexivity].
    apply (UPD ref c _ _ E). intros s' S' (K1 & K2 & K3 & K4 & K5 & K6 & K7). cbn [fst snd] in *. split; [exact K1|]. split; [exact K2|]. split; [exact K3|]. split; [reflexivity|]. split; [reflexivity|]. split; [exact ER|]. exact K7.
  - unfold set_element_model in H. destruct (get_component ref a) as [c|] eqn:E; [|discriminate]. injection H as <-. apply GC in E.
    destruct (comps_find _ _ _ _ (sh_comps _ _ SH) E) as (s & SI & SR & SS). exists (map (on_symbol ref (put_name m)) (f_items f)). split; [split; [exists s; apply in_symbols in SI; auto|reflexivity]|]. split; [|reflexivity].
    apply (UPD ref c _ _ E). intros s' S' (K1 & K2 & K3 & K4 & K5 & K6 & K7). cbn [fst snd] in *. split; [exact K1|]. split; [exact K2|]. split; [reflexivity|]. split; [exact K4|]. split; [exact K5|]. split; [exact K6|]. exact K7.
  - unfold remove_component in H. destruct (get_component ref a) as [c|] eqn:E; [|discriminate]. injection H as <-. apply GC in E.
    destruct (comps_find _ _ _ _ (sh_comps _ _ SH) E) as (s & SI & SR & SS). eexists. split; [split; [exists s; apply in_symbols in SI; auto|reflexivity]|]. split; [|reflexivity]. apply shows_log.
    destruct SH as [A B C D' E' F G H'].
    assert (PM : forall B (g : item -> list B), (forall s, g (Symbol s) = []) -> flat_map g (filter (fun i => match i with Symbol s => negb (str_eqb (s_ref s) ref) | _ => true end) (f_items f)) = flat_map g (f_items f)).
    { intros W g Hg. apply proj_filter. intros [] K; try discriminate. apply Hg. }
    constructor; cbn [mk f_version f_sheet f_items with_comps a_version a_sheet a_wires a_labels a_lines a_shapes a_dirs a_comps]; try assumption.
    + unfold wires. rewrite PM; [exact C|reflexivity].
    + unfold flags. rewrite PM; [exact D'|reflexivity].
    + unfold dlines. rewrite PM; [exact E'|reflexivity].
    + unfold dshapes. rewrite PM; [exact F|reflexivity].
    + unfold notes. rewrite PM; [exact G|reflexivity].
    + rewrite symbols_remove. apply comps_remove. exact H'.
  - unfold add_instruction in H. destruct (command (strip s)) as [w|] eqn:CM; [|discriminate]. destruct (is_unique w) eqn:U.
    + assert (SC : sim_command (strip s)) by (eapply command_sim; eassumption). pose proof (find_unique_spec (a_dirs a)) as FU. destruct (find_unique (a_dirs a)) as [[[[p t] q]|]|]; [| |discriminate].
      * injection H as <-. destruct FU as (EQ & AC & NA). pose proof SH as [A B C D' E' F G H']. rewrite EQ in G. destruct (f2_split _ _ _ _ _ _ _ G) as (np & y & nq & EN & F1 & F2 & F3). destruct (notes_split _ _ _ _ EN) as (ip & iq & EI & Ep & Eq).
        exists (ip ++ Note (set_text (strip s) y) :: iq). destruct (other_note ip y (set_text (strip s) y) iq) as (O1 & O2 & O3 & O4 & O5 & O6). split; [|split; [|reflexivity]].
        -- left. split; [exact SC|]. exists ip, y, iq. split; [exact EI|]. split; [apply (active_note _ _ F2); exact AC|]. split; [|reflexivity]. intros i I AI. destruct i; try contradiction. apply in_notes in I. rewrite Ep in I. destruct (f2_in _ _ _ _ _ _ F1 I) as (x & XI & XN). apply (NA x XI). apply (active_note _ _ XN). exact AI.
        -- apply shows_log, shows_log. rewrite EI in *. constructor; cbn [mk f_version f_sheet f_items with_dirs a_version a_sheet a_wires a_labels a_lines a_shapes a_dirs a_comps]; try assumption; try (first [rewrite O1|rewrite O2|rewrite O3|rewrite O4|rewrite O5]; assumption).
           rewrite O6, Ep, Eq. apply Forall2_app; [exact F1|]. constructor; [apply note_set_text; exact F2|exact F3].
      * destruct (add_text (strip s) a) as [a1|] eqn:AT; [|discriminate]. injection H as <-. destruct (add_text_added _ _ _ _ SH AT) as (l' & AD & S' & P'). exists l'. split; [|split; [apply shows_log; exact S'|exact P']].
        right. split; [|exact AD]. intros _ i I AI. destruct i; try contradiction. apply in_notes in I. destruct (f2_in _ _ _ _ _ _ (sh_dirs _ _ SH) I) as (x & XI & XN). apply (FU x XI). apply (active_note _ _ XN). exact AI.
    + destruct (startswith (s2l ".PARAM") w); [discriminate|]. destruct (add_text (strip s) a) as [a1|] eqn:AT; [|discriminate]. injection H as <-. destruct (add_text_added _ _ _ _ SH AT) as (l' & AD & S' & P'). exists l'. split; [|split; [apply shows_log; exact S'|exact P']].
      right. split; [|exact AD]. intros SC. apply sim_some in SC. destruct SC as (w' & A & B). congruence.
  - unfold remove_instruction in H. destruct (find_dir _ (a_dirs a)) as [[[[p t] b] q]|] eqn:FD; cbn [fst] in H; injection H as <-.
    + apply find_dir_some in FD. destruct FD as (EQ & GT & NB). pose proof SH as [A B C D' E' F G H']. rewrite EQ in G. destruct (f2_split _ _ _ _ _ _ _ G) as (np & y & nq & EN & F1 & F2 & F3). destruct (notes_split _ _ _ _ EN) as (ip & iq & EI & Ep & Eq).
      destruct (note_fields _ _ F2) as (_ & _ & TT & TC). destruct (t_comment t) eqn:TCE; [discriminate|]. destruct (is_sub s (t_text t)) eqn:IS; [|discriminate]. apply is_sub_spec in IS.
      exists (ip ++ iq). destruct (less_note ip y iq) as (O1 & O2 & O3 & O4 & O5 & O6). split; [|split; [|reflexivity]].
      * left. exists ip, y, iq. split; [exact EI|]. split; [congruence|]. split; [rewrite <- TT; exact IS|]. split; [reflexivity|]. intros u IU UC US. apply in_notes in IU. rewrite Ep in IU. destruct (f2_in _ _ _ _ _ _ F1 IU) as (x & XI & XN). destruct (note_fields _ _ XN) as (_ & _ & XT & XC). specialize (NB x XI). cbn beta in NB. rewrite XC, UC in NB. rewrite XT in NB. apply is_sub_spec in US. rewrite US in NB. discriminate.
      * apply shows_log. rewrite EI in *. constructor; cbn [mk f_version f_sheet f_items with_dirs a_version a_sheet a_wires a_labels a_lines a_shapes a_dirs a_comps]; try assumption; try (first [rewrite O1|rewrite O2|rewrite O3|rewrite O4|rewrite O5]; assumption).
        rewrite O6, Ep, Eq. apply Forall2_app; assumption.
    + exists (f_items f). split; [|split; [destruct f; exact SH|reflexivity]]. right. split; [reflexivity|]. intros u IU UC US. apply in_notes in IU. destruct (f2_in _ _ _ _ _ _ (sh_dirs _ _ SH) IU) as (x & XI & XN). destruct (note_fields _ _ XN) as (_ & _ & XT & XC).
      pose proof (find_dir_none _ _ _ FD x XI) as NB. cbn beta in NB. rewrite XC, UC, XT in NB. apply is_sub_spec in US. rewrite US in NB. discriminate.
  - unfold remove_Xinstruction in H. cbn [fst] in H. injection H as <-. eexists. split; [reflexivity|]. split; [|reflexivity]. destruct SH as [A B C D' E' F G H'].
    set (keep := fun i => match i with Note t => n_comment t || negb (pat (n_text t)) | _ => true end).
    assert (PM : forall B (g : item -> list B), (forall s, g (Note s) = []) -> flat_map g (filter keep (f_items f)) = flat_map g (f_items f)).
    { intros W g Hg. apply proj_filter. intros [] K; try discriminate. apply Hg. }
    constructor; cbn [mk f_version f_sheet f_items with_comps a_version a_sheet a_wires a_labels a_lines a_shapes a_dirs a_comps]; try assumption.
    + unfold wires. rewrite PM; [exact C|reflexivity].
    + unfold flags. rewrite PM; [exact D'|reflexivity].
    + unfold dlines. rewrite PM; [exact E'|reflexivity].
    + unfold dshapes. rewrite PM; [exact F|reflexivity].
    + assert (EN : notes (filter keep (f_items f)) = filter (fun t => n_comment t || negb (pat (n_text t))) (notes (f_items f))).
      { unfold notes. generalize (f_items f). induction l as [|i l IH]; [reflexivity|]. destruct i; try exact IH. cbn [filter flat_map app]. change (keep (Note t)) with (n_comment t || negb (pat (n_text t))). destruct (n_comment t || negb (pat (n_text t))); [cbn [flat_map app]; f_equal; exact IH|exact IH]. }
      rewrite EN. clear -G. induction G as [|x t l1 l2 N F IH]; [constructor|]. destruct (note_fields _ _ N) as (_ & _ & TT & TC). cbn [filter]. rewrite TT, TC. destruct (n_comment t), (pat (n_text t)); cbn [negb andb orb]; try exact IH; constructor; assumption.
    + unfold symbols. rewrite PM; [exact H'|reflexivity].
  - unfold set_parameter in H. destruct (a_perm a) eqn:EP; [|discriminate]. destruct (find_dir _ (a_dirs a)) as [[[[p t] b] q]|] eqn:FD.
    + apply find_dir_some in FD. destruct FD as (EQ & GT & NB). unfold sets_param in GT. destruct (t_comment t) eqn:TCE; [discriminate|]. destruct (startswith (s2l ".PARAM") (upper (t_text t))) eqn:PL; [|discriminate].
      destruct (line_hit _ _ _ GT) as (u & n0 & sep & old & w & ET & EU & NS & HS & NO & CV). rewrite CV in H. injection H as <-.
      pose proof SH as [A B C D' E' F G H']. rewrite EQ in G. destruct (f2_split _ _ _ _ _ _ _ G) as (np & y & nq & EN & F1 & F2 & F3). destruct (notes_split _ _ _ _ EN) as (ip & iq & EI & Ep & Eq).
      destruct (note_fields _ _ F2) as (_ & _ & TT & TC).
      assert (NT : firstn (length (u ++ n0 ++ sep)) (t_text t) ++ v ++ skipn (length (u ++ n0 ++ sep) + length old) (t_text t) = u ++ n0 ++ sep ++ v ++ w).
      { rewrite ET. replace (u ++ n0 ++ sep ++ old ++ w) with ((u ++ n0 ++ sep) ++ old ++ w) by (rewrite <- !app_assoc; reflexivity). rewrite firstn_app, firstn_all, Nat.sub_diag. cbn [firstn]. rewrite app_nil_r.
        replace ((u ++ n0 ++ sep) ++ old ++ w) with (((u ++ n0 ++ sep) ++ old) ++ w) by (rewrite <- !app_assoc; reflexivity). rewrite <- app_length, skipn_app, skipn_all, Nat.sub_diag. cbn [skipn app]. rewrite <- !app_assoc. reflexivity. }
      rewrite NT. exists (ip ++ Note (set_text (u ++ n0 ++ sep ++ v ++ w) y) :: iq). destruct (other_note ip y (set_text (u ++ n0 ++ sep ++ v ++ w) y) iq) as (O1 & O2 & O3 & O4 & O5 & O6). split; [|split; [|exact EP]].
      * left. exists ip, y, iq, u, n0, sep, old, w. split; [exact EI|]. split; [congruence|]. split.
        { apply startswith_inv in PL. destruct PL as (z' & PL). exists (firstn 6 (n_text y)), (skipn 6 (n_text y)). split; [symmetry; apply firstn_skipn|]. rewrite <- TT. unfold upper. rewrite <- firstn_map. change (map upper_c (t_text t)) with (upper (t_text t)). rewrite PL. reflexivity. }
        rewrite <- TT. auto 10.
      * apply shows_log. rewrite EI in *. constructor; cbn [mk f_version f_sheet f_items with_dirs a_version a_sheet a_wires a_labels a_lines a_shapes a_dirs a_comps]; try assumption; try (first [rewrite O1|rewrite O2|rewrite O3|rewrite O4|rewrite O5]; assumption).
        rewrite O6, Ep, Eq. apply Forall2_app; [exact F1|]. constructor; [apply note_set_text; exact F2|exact F3].
    + destruct (add_text _ a) as [a1|] eqn:AT; [|discriminate]. injection H as <-. destruct (add_text_added _ _ _ _ SH AT) as (l' & AD & S' & P'). exists l'. split; [right; exact AD|]. split; [apply shows_log; exact S'|]. cbn. congruence.
Qed.
