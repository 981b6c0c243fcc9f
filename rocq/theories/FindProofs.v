From Coq Require Import String Ascii List Bool Arith Lia.
From Verif Require Import PyStr FindModel FindSpec.
Import ListNotations.
Local Open Scope string_scope. Local Open Scope nat_scope. Local Open Scope list_scope.

Section Dirs.
Variable P : dir -> Prop.
Hypothesis H : forall files subs, (forall n d, In (n, d) subs -> P d) -> P (Dir files subs).
Fixpoint dir_all (d : dir) : P d :=
  match d with
  | Dir files subs => H files subs ((fix all (l : list (str * dir)) : forall n d, In (n, d) l -> P d :=
      match l with
      | [] => fun n d i => match i with end
      | (m, x) :: r => fun n d i => match i with or_introl e => eq_ind x P (dir_all x) d (f_equal snd e) | or_intror j => all r n d j end
      end) subs)
  end.
End Dirs.

Lemma first_named_some : forall n l f, first_named n l = Some f -> In f l /\ same_name n f.
Proof. intros n l f H. apply find_some in H. destruct H as (I & E). apply str_eqb_eq in E. split; assumption. Qed.
Lemma first_named_none : forall n l, first_named n l = None -> forall f, In f l -> ~ same_name n f.
Proof. intros n l H f I E. apply (find_none _ _ H) in I. cbv beta in I. rewrite E, str_eqb_refl in I. discriminate. Qed.
Definition walks (root : str) (l : list (str * dir)) : list (str * list str) := flat_map (fun e => walk (join root (fst e)) (snd e)) l.
Lemma walk_eq : forall root files subs, walk root (Dir files subs) = (root, files) :: walks root subs.
Proof.
  intros root files subs. cbn [walk]. f_equal. unfold walks. induction subs as [|[n x] r IH]; [reflexivity|]. cbn [flat_map fst snd]. rewrite <- IH. reflexivity.
Qed.
Lemma walk_file : forall d root f p, file_in root d f p <-> exists r files, In (r, files) (walk root d) /\ In f files /\ p = join r f.
Proof.
  induction d as [files subs IH] using dir_all. intros root f p. rewrite walk_eq. split.
  - intros K. inversion K as [? ? ? ? I|? ? ? n d ? ? I J]; subst; [exists root, files; split; [left; reflexivity|auto]|]. apply (IH n d I) in J. destruct J as (r & fl & A & B & C). exists r, fl. split; [|auto]. right. unfold walks. apply in_flat_map. exists (n, d). auto.
  - intros (r & fl & [A|A] & B & ->); [injection A as <- <-; constructor; exact B|]. unfold walks in A. apply in_flat_map in A. destruct A as ([n d] & I & A). apply Below with n d; [exact I|]. apply (IH n d I). exists r, fl. auto.
Qed.
Lemma first_in_some : forall n l p, first_in n l = Some p -> exists r files f, In (r, files) l /\ In f files /\ same_name n f /\ p = join r f.
Proof.
  induction l as [|[r fl] l IH]; intros p H; cbn [first_in] in H; [discriminate|]. destruct (first_named n fl) as [f|] eqn:E.
  - injection H as <-. apply first_named_some in E. exists r, fl, f. destruct E. repeat split; auto. left. reflexivity.
  - destruct (IH p H) as (r' & fl' & f & A & B). exists r', fl', f. split; [right; exact A|exact B].
Qed.
Lemma first_in_none : forall n l, first_in n l = None -> forall r files f, In (r, files) l -> In f files -> ~ same_name n f.
Proof.
  induction l as [|[r0 fl] l IH]; intros H r files f I J; [destruct I|]. cbn [first_in] in H. destruct (first_named n fl) as [g|] eqn:E; [discriminate|]. destruct I as [I|I]; [injection I as <- <-; exact (first_named_none _ _ E f J)|exact (IH H r files f I J)].
Qed.
Lemma split_plain : forall s, ~ In SLASH s -> split_path s = ([], s).
Proof. intros s N. unfold split_path, split_at_last. assert (split_at_first SLASH (rev s) = None) as ->; [apply split_at_first_None; intros K; apply in_rev in K; contradiction|reflexivity]. Qed.
Lemma split_folder : forall h n, ~ In SLASH n -> h <> [] -> endswith [SLASH] h = false -> split_path (h ++ SLASH :: n) = (h, n).
Proof.
  intros h n N NH E. unfold split_path. rewrite split_at_last_app by exact N. unfold endswith in E. cbn [rev app] in E. unfold rstrip_if. destruct (rev h) as [|c r] eqn:R; [exfalso; apply NH; rewrite <- (rev_involutive h), R; reflexivity|].
  cbn [startswith] in E. rewrite andb_true_r in E. cbn [lstrip_if]. rewrite E. rewrite <- R, rev_involutive. destruct h; [contradiction|reflexivity].
Qed.
Lemma find_file_some : forall w c name p, there w c = true -> endswith (s2l ".zip") c = false -> name_ok name -> find_file w c name = Some p -> holds w name c p.
Proof.
  intros w c name p T Z [N|(h & n & -> & N & NH & E)] H; unfold find_file in H.
  - rewrite split_plain in H by exact N. destruct (dir_at w c) as [d|] eqn:D; [|discriminate]. destruct (first_in_some _ _ _ H) as (r & fl & f & A & B & S & ->). apply InFolder with d f; try assumption. apply walk_file. exists r, fl. auto.
  - change (s2l "/" ++ n) with (SLASH :: n) in H. rewrite split_folder in H by assumption. destruct h as [|c0 h0] eqn:EH; [contradiction|]. rewrite <- EH in *. destruct (dir_at w (join c h)) as [d|] eqn:D; [|discriminate]. destruct (first_in_some _ _ _ H) as (r & fl & f & A & B & S & ->).
    apply InSubFolder with h n d f; try assumption; [reflexivity|]. apply walk_file. exists r, fl. auto.
Qed.
Lemma last_slash : forall a b c d, a ++ SLASH :: b = c ++ SLASH :: d -> ~ In SLASH b -> ~ In SLASH d -> a = c /\ b = d.
Proof.
  intros a b c d E B D. pose proof (split_at_last_app SLASH a b B) as S1. rewrite E, (split_at_last_app SLASH c d D) in S1. injection S1 as -> ->. auto.
Qed.
Lemma find_file_none : forall w c name, endswith (s2l ".zip") c = false -> name_ok name -> find_file w c name = None -> forall p, ~ holds w name c p.
Proof.
  intros w c name Z OK H p K. inversion K as [? names f T Z' ZA I S|? d f ? T Z' N D FI S|? h n d f ? T Z' EQ N NH E D FI S]; subst.
  - congruence.
  - unfold find_file in H. rewrite split_plain in H by exact N. rewrite D in H. apply walk_file in FI. destruct FI as (r & fl & A & B & _). exact (first_in_none _ _ H r fl f A B S).
  - unfold find_file in H. change (s2l "/" ++ n) with (SLASH :: n) in H. rewrite split_folder in H by assumption. destruct h as [|c0 h0] eqn:EH; [contradiction|]. rewrite <- EH in *. rewrite D in H. apply walk_file in FI. destruct FI as (r & fl & A & B & _). exact (first_in_none _ _ H r fl f A B S).
Qed.
(** One container. *)
Definition look (w : fs) (name c : str) : answer := search w name [c].
Lemma search_cons : forall w name c r, search w name (c :: r) = match look w name c with NotFound => search w name r | x => x end.
Proof.
  intros w name c r. unfold look. cbn [search]. destruct (there w c); [|reflexivity]. destruct (endswith (s2l ".zip") c).
  - destruct (zip_at w c) as [names|]; [|reflexivity]. destruct (first_named name names); reflexivity.
  - destruct (find_file w c name); reflexivity.
Qed.
Lemma look_spec : forall w name c, name_ok name -> match look w name c with Found p => holds w name c p | NotFound => (forall p, ~ holds w name c p) /\ readable w c | Raises => ~ readable w c end.
Proof.
  intros w name c OK. unfold look. cbn [search]. destruct (there w c) eqn:T; [|split; [intros p K; inversion K; congruence|intros X; congruence]].
  destruct (endswith (s2l ".zip") c) eqn:Z.
  - destruct (zip_at w c) as [names|] eqn:ZA; [|intros R; exact (R T Z ZA)]. destruct (first_named name names) as [f|] eqn:E.
    + apply first_named_some in E. destruct E as (I & S). apply InZip with names; assumption.
    + split; [|intros _ _; congruence]. intros p K. inversion K as [? names' f T' Z' ZA' I S| |]; subst; try congruence. assert (names' = names) by congruence. subst. exact (first_named_none _ _ E f I S).
  - destruct (find_file w c name) as [p|] eqn:E; [apply find_file_some; assumption|]. split; [apply find_file_none; assumption|intros _ K; congruence].
Qed.
Theorem search_found : forall w name l p, name_ok name -> search w name l = Found p ->
  exists a c b, l = a ++ c :: b /\ holds w name c p /\ forall c', In c' a -> (forall p', ~ holds w name c' p') /\ readable w c'.
Proof.
  intros w name l p OK. induction l as [|c l IH]; intros H; [discriminate|]. rewrite search_cons in H. pose proof (look_spec w name c OK) as L. destruct (look w name c) as [q| |]; [|destruct (IH H) as (a & c' & b & -> & A & B)|discriminate].
  - injection H as <-. exists [], c, l. split; [reflexivity|]. split; [exact L|intros c' []].
  - exists (c :: a), c', b. split; [reflexivity|]. split; [exact A|]. intros x [<-|X]; [exact L|exact (B x X)].
Qed.
Theorem search_none : forall w name l, name_ok name -> (search w name l = NotFound <-> forall c, In c l -> (forall p, ~ holds w name c p) /\ readable w c).
Proof.
  intros w name l OK. induction l as [|c l IH]; [split; [intros _ c []|reflexivity]|]. rewrite search_cons. pose proof (look_spec w name c OK) as L. destruct (look w name c) as [q| |].
  - split; [discriminate|]. intros K. exfalso. destruct (K c (or_introl eq_refl)) as (K1 & _). exact (K1 q L).
  - rewrite IH. split; [intros K x [<-|X]; [exact L|exact (K x X)]|]. intros K x X. apply K. right. exact X.
  - split; [discriminate|]. intros K. exfalso. apply L. apply (K c (or_introl eq_refl)).
Qed.
(** A file in the folder itself comes before those below. *)
Theorem search_top : forall w name c l files subs f, ~ In SLASH name -> there w c = true -> endswith (s2l ".zip") c = false -> dir_at w c = Some (Dir files subs) -> In f files -> same_name name f ->
  exists g, In g files /\ same_name name g /\ search w name (c :: l) = Found (join c g).
Proof.
  intros w name c l files subs f N T Z D I S. cbn [search]. rewrite T, Z. unfold find_file. rewrite split_plain by exact N. rewrite D, walk_eq. cbn [first_in]. destruct (first_named name files) as [g|] eqn:E; [|exfalso; exact (first_named_none _ _ E f I S)].
  apply first_named_some in E. destruct E. exists g. auto.
Qed.
