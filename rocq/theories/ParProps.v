(** Properties C35, C76, C77, C78: the parameters of a netlist (spicelib/editor/spice_subcircuit.py). *)
From Coq Require Import String Ascii List Bool Arith Lia Sorted Permutation.
From Verif Require Import PyStr EngModel PTokModel PTokSpec Regex CompModel CompSpec CompProofs CompProps SepModel UpdatesModel NetModel NetSpec NetProofs NetProps EditModel EditSpec EditProofs EditProps CmdSpec CmdProofs CmdProps
  ParModel ParSpec ParLine ParLine2 ParLine3 ParProofs.
Import ListNotations.
Local Open Scope string_scope.
Local Open Scope nat_scope.
Local Open Scope list_scope.

(** what the settings do to the map and to the names *)
Lemma same_name_upper : forall n x e, upper x = upper n -> same_name x e = same_name n e.
Proof. intros n x e H. unfold same_name. rewrite H. reflexivity. Qed.
Lemma find_same : forall n x l, upper x = upper n -> find (same_name x) l = find (same_name n) l.
Proof. intros n x l H. induction l as [|e l IH]; [reflexivity|]. cbn [find]. rewrite (same_name_upper n x e H), IH. reflexivity. Qed.
Lemma find_cut : forall n (l : list entry), existsb (same_name n) l = true -> exists a e b, l = a ++ e :: b /\ existsb (same_name n) a = false /\ same_name n e = true.
Proof.
  intros n l H. induction l as [|x l IH]; [discriminate|]. cbn [existsb] in H. destruct (same_name n x) eqn:X; [exists [], x, l; auto|]. destruct (IH H) as (a & e & b & -> & A & S). exists (x :: a), e, b. cbn [existsb]. rewrite X, A. auto.
Qed.
Lemma find_none_iff : forall p (l : list entry), existsb p l = false -> find p l = None.
Proof. intros p l. induction l as [|x l IH]; intros H; [reflexivity|]. cbn [existsb] in H. apply orb_false_iff in H. destruct H as [H1 H2]. cbn [find]. rewrite H1. apply IH. exact H2. Qed.
Lemma find_mid : forall x a e e' b, same_name x e = false -> same_name x e' = false -> find (same_name x) (a ++ e :: b) = find (same_name x) (a ++ e' :: b).
Proof. intros x a e e' b H1 H2. induction a as [|y a IH]; cbn [app find]; [rewrite H1, H2; reflexivity|]. destruct (same_name x y); [reflexivity|exact IH]. Qed.
Lemma find_gone : forall x a e b, same_name x e = false -> find (same_name x) (a ++ e :: b) = find (same_name x) (a ++ b).
Proof. intros x a e b H1. induction a as [|y a IH]; cbn [app find]; [rewrite H1; reflexivity|]. destruct (same_name x y); [reflexivity|exact IH]. Qed.
Lemma other_name : forall n x e, upper x <> upper n -> same_name n e = true -> same_name x e = false.
Proof. intros n x e H S. unfold same_name in *. apply str_eqb_eq in S. apply str_neq. congruence. Qed.
Lemma line_cut : forall n P, existsb (same_name n) (entries P) = true -> exists Pa p Pb, P = Pa ++ Params p :: Pb /\ existsb (same_name n) (entries Pa) = false /\ existsb (same_name n) (l_pars p) = true.
Proof.
  intros n P. induction P as [|x P IH]; intros H; [discriminate|]. rewrite entries_cons, existsb_app in H. destruct x as [p|s].
  - destruct (existsb (same_name n) (l_pars p)) eqn:E; [exists [], p, P; auto|]. destruct (IH H) as (Pa & q & Pb & -> & A & X). exists (Params p :: Pa), q, Pb. rewrite entries_cons, existsb_app, E. auto.
  - destruct (IH H) as (Pa & q & Pb & -> & A & X). exists (Other s :: Pa), q, Pb. auto.
Qed.
Lemma set_cases : forall n v P, exists A e B, entries (run_pcmd (SetPar n v) P) = A ++ e :: B /\ existsb (same_name n) A = false /\ same_name n e = true /\ e_val e = v /\
  if existsb (same_name n) (entries P) then exists e0, entries P = A ++ e0 :: B /\ e_par e0 = e_par e else entries P = A ++ B /\ e_par e = n.
Proof.
  intros n v P. cbn [run_pcmd]. destruct (existsb (same_name n) (entries P)) eqn:EX.
  - destruct (line_cut n P EX) as (Pa & p & Pb & -> & A & X). destruct (find_cut n _ X) as (a & e & b & E & A2 & S). exists (entries Pa ++ a), (put_value v e), (b ++ entries Pb). rewrite on_line_first by assumption. rewrite !entries_split, !entries_cons. cbn [set_line l_pars].
    rewrite E, on_entry_first by assumption. rewrite <- !app_assoc. cbn [app]. split; [reflexivity|]. split; [rewrite existsb_app, A, A2; reflexivity|]. split; [exact S|]. split; [reflexivity|]. exists e. split; [rewrite <- app_assoc; reflexivity|reflexivity].
  - unfold insert_from_end. assert (entries P = entries (firstn (length P - 2) P) ++ entries (skipn (length P - 2) P)) as EP by (rewrite <- entries_split, firstn_skipn; reflexivity).
    rewrite entries_split, entries_cons. cbn [new_line l_pars app]. eexists _, _, _. split; [reflexivity|]. rewrite EP, existsb_app in EX. apply orb_false_iff in EX. destruct EX as [EX _]. split; [exact EX|].
    split; [apply str_eqb_eq; reflexivity|]. split; [reflexivity|]. split; [exact EP|reflexivity].
Qed.
Lemma drop_cases : forall n P, existsb (same_name n) (entries P) = true ->
  exists A e B, entries P = A ++ e :: B /\ existsb (same_name n) A = false /\ same_name n e = true /\ map (fun e => (e_par e, e_val e)) (entries (run_pcmd (DropPar n) P)) = map (fun e => (e_par e, e_val e)) (A ++ B).
Proof.
  intros n P EX. destruct (line_cut n P EX) as (Pa & p & Pb & -> & A & X). destruct (find_cut n _ X) as (a & e & b & E & A2 & S). exists (entries Pa ++ a), e, (b ++ entries Pb). cbn [run_pcmd]. rewrite on_line_first by assumption. rewrite !entries_split, !entries_cons.
  rewrite E. rewrite <- !app_assoc. cbn [app]. split; [reflexivity|]. split; [rewrite existsb_app, A, A2; reflexivity|]. split; [exact S|]. unfold drop_line. rewrite E, drop_first by assumption.
  destruct b as [|x r]; destruct a as [|y a]; cbn [app l_pars]; repeat (rewrite ?map_app; cbn [map e_par e_val app]); rewrite <- ?app_assoc; cbn [app]; try reflexivity.
Qed.
Lemma find_pair : forall x l l', map (fun e => (e_par e, e_val e)) l = map (fun e => (e_par e, e_val e)) l' -> option_map e_val (find (same_name x) l) = option_map e_val (find (same_name x) l').
Proof.
  intros x. induction l as [|e l IH]; intros [|e' l'] H; try discriminate H; [reflexivity|]. cbn [map] in H. injection H as H1 H2 H3. cbn [find]. assert (same_name x e = same_name x e') as -> by (unfold same_name; rewrite H1; reflexivity).
  destruct (same_name x e'); [cbn [option_map]; congruence|apply IH; exact H3].
Qed.
Lemma names_pair : forall l l', map (fun e => (e_par e, e_val e)) l = map (fun e => (e_par e, e_val e)) l' -> map (fun e => upper (e_par e)) l = map (fun e => upper (e_par e)) l'.
Proof. induction l as [|e l IH]; intros [|e' l'] H; try discriminate H; [reflexivity|]. cbn [map] in *. injection H as H1 H2 H3. rewrite H1, (IH _ H3). reflexivity. Qed.
Lemma find_names : forall x l, find (same_name x) l = None <-> ~ In (upper x) (map (fun e => upper (e_par e)) l).
Proof.
  intros x l. induction l as [|e l IH]; [cbn; tauto|]. cbn [find map In]. destruct (same_name x e) eqn:S.
  - apply str_eqb_eq in S. split; [discriminate|]. intros H. exfalso. apply H. left. exact S.
  - rewrite IH. assert (upper (e_par e) <> upper x) as N. { intros G. unfold same_name in S. rewrite G, (proj2 (str_eqb_eq _ _) eq_refl) in S. discriminate S. } tauto.
Qed.
Lemma lookup_names : forall x P, lookup x P <> None <-> In (upper x) (names P).
Proof.
  intros x P. unfold lookup, names. pose proof (find_names x (entries P)) as H. destruct (find (same_name x) (entries P)) eqn:F.
  - split; [intros _|discriminate]. destruct (in_dec (list_eq_dec ascii_dec) (upper x) (map (fun e => upper (e_par e)) (entries P))) as [I|I]; [exact I|]. apply H in I. discriminate I.
  - split; [intros G; contradiction G; reflexivity|]. intros G. exfalso. apply (proj1 H eq_refl). exact G.
Qed.
Lemma existsb_names : forall n l, existsb (same_name n) l = false -> ~ In (upper n) (map (fun e => upper (e_par e)) l).
Proof. intros n l H. apply find_names. apply find_none_iff. exact H. Qed.

(** One call: the parameter of that name, in any letter case, has the value given, and every other keeps its value. *)
Theorem C35_set : forall n v P x, lookup x (run_pcmd (SetPar n v) P) = if str_eqb (upper x) (upper n) then Some v else lookup x P.
Proof.
  intros n v P x. destruct (set_cases n v P) as (A & e & B & E & X & S & V & H). unfold lookup. rewrite E. destruct (str_eqb (upper x) (upper n)) eqn:U.
  - apply str_eqb_eq in U. rewrite (find_same n x _ U), find_app by exact X. cbn [find]. rewrite S. cbn [option_map]. rewrite V. reflexivity.
  - assert (upper x <> upper n) as U' by (intros G; apply str_eqb_eq in G; congruence). destruct (existsb (same_name n) (entries P)).
    + destruct H as (e0 & -> & PE). rewrite (find_mid x A e e0 B); [reflexivity|exact (other_name n x e U' S)|]. apply (other_name n x); [exact U'|]. unfold same_name in *. rewrite PE. exact S.
    + destruct H as [-> _]. rewrite find_gone by exact (other_name n x e U' S). reflexivity.
Qed.
Print Assumptions C35_set.
(** Removing one: no parameter of that name is left, and every other keeps its value. *)
Theorem C35_drop : forall n P x, NoDup (names P) -> existsb (same_name n) (entries P) = true ->
  lookup x (run_pcmd (DropPar n) P) = if str_eqb (upper x) (upper n) then None else lookup x P.
Proof.
  intros n P x ND EX. destruct (drop_cases n P EX) as (A & e & B & E & X & S & M). unfold lookup. rewrite (find_pair x _ _ M), E. destruct (str_eqb (upper x) (upper n)) eqn:U.
  - apply str_eqb_eq in U. unfold names in ND. rewrite E, map_app in ND. cbn [map] in ND. apply NoDup_remove_2 in ND. rewrite <- map_app in ND.
    replace (find (same_name x) (A ++ B)) with (@None entry); [reflexivity|]. symmetry. apply find_names. rewrite U. apply str_eqb_eq in S. rewrite <- S. exact ND.
  - assert (upper x <> upper n) as U' by (intros G; apply str_eqb_eq in G; congruence). rewrite find_gone by exact (other_name n x e U' S). reflexivity.
Qed.
Print Assumptions C35_drop.
(** A name is set in one place only: this stays so. *)
Lemma names_once : forall k P, pcmd_ok k P -> NoDup (names P) -> NoDup (names (run_pcmd k P)).
Proof.
  intros [n v|n] P HO ND; unfold names in *.
  - destruct (set_cases n v P) as (A & e & B & E & X & S & V & H). rewrite E. destruct (existsb (same_name n) (entries P)) eqn:EX.
    + destruct H as (e0 & E0 & PE). rewrite E0 in ND. rewrite map_app in *. cbn [map] in *. rewrite <- PE. exact ND.
    + destruct H as [E0 PE]. apply existsb_names in EX. rewrite E0 in ND, EX. rewrite map_app in *. cbn [map]. rewrite PE. apply NoDup_Add with (a := upper n) (l := map (fun e => upper (e_par e)) A ++ map (fun e => upper (e_par e)) B); [apply Add_app|]. split; assumption.
  - destruct HO as (_ & EX & _). destruct (drop_cases n P EX) as (A & e & B & E & X & S & M). rewrite (names_pair _ _ M). rewrite E, map_app in ND. cbn [map] in ND. apply NoDup_remove_1 in ND. rewrite map_app. exact ND.
Qed.
Lemma after_ext : forall ks f g, (forall x, f x = g x) -> forall x, after ks f x = after ks g x.
Proof.
  induction ks as [|k ks IH]; intros f g H x; [apply H|]. destruct k; cbn [after]; apply IH; intros y; unfold put_in; destruct (str_eqb (upper y) (upper n)); [reflexivity|apply H|reflexivity|apply H].
Qed.
Lemma run_after : forall ks P, pcmds_ok ks P -> NoDup (names P) -> NoDup (names (run_pcmds ks P)) /\ forall x, lookup x (run_pcmds ks P) = after ks (fun x => lookup x P) x.
Proof.
  induction ks as [|k ks IH]; intros P HO ND; [split; [exact ND|reflexivity]|]. destruct HO as [H1 H2]. change (run_pcmds (k :: ks) P) with (run_pcmds ks (run_pcmd k P)).
  destruct (IH _ H2 (names_once k P H1 ND)) as [A B]. split; [exact A|]. intros x. rewrite B. destruct k as [n v|n]; cbn [after]; apply after_ext; intros y.
  - rewrite C35_set. reflexivity.
  - destruct H1 as (_ & EX & _). rewrite C35_drop by assumption. reflexivity.
Qed.
(** Property C35: a netlist is loaded, any commands are made (they may edit components and instructions), then any settings and
    removals of parameters.  Reading any name gives what a map from names to values, in any letter case, holds after these calls; an
    error stands for no value; the names listed are exactly those of the map, in upper case, each once, in order; the file written
    has every statement, the settings being those made. *)
Theorem C35_history : forall en inc d ks js P items ed, doc_ok good_names d -> includes_found inc d ->
  load_lines inc false (doc_lines d) = Some items -> n_items ed = items -> n_perm ed <> Deny -> cmds_ok ks (statements d) ->
  run_cmds ks (statements d) = map to_stmt P -> Forall pstmt_ok P -> NoDup (names P) -> pcmds_ok js P ->
  exists ed1 ed2, do_cmds en ks ed = Some ed1 /\ do_pcmds js ed1 = Some ed2 /\
    (forall n, get_parameter n (n_items ed2) = after js (fun n => lookup n P) n) /\
    (exists l, get_all_parameter_names (n_items ed2) = Some l /\ StronglySorted (fun a b => str_le a b = true) l /\ NoDup l /\
       forall n, In n l <-> upper n = n /\ after js (fun n => lookup n P) n <> None) /\
    exists out, write_items (n_items ed2) = Some (concat (body_lines out)) /\ saved (map to_stmt (run_pcmds js P)) out.
Proof.
  intros en inc d ks js P items ed HD HI HL HE HP HO HM HPk HN HJ. rewrite (load_doc inc good_names d false HD HI) in HL. injection HL as <-.
  destruct (cmds_run (fun _ _ => True) en ks ed (map (fun s => (s, tidy_stmt s)) (statements d))) as (ed1 & st1 & E1 & P1 & V1 & M1).
  { exact HP. } { rewrite HE. apply loaded_view. exact HD. } { rewrite map_fst_pair. exact HO. } { auto. } { auto. }
  rewrite map_fst_pair, HM in M1. destruct (pars_run (fun _ _ => True) js ed1 st1 P) as (ed2 & st2 & E2 & P2 & V2 & M2 & F2); try assumption; [rewrite P1; exact HP|].
  destruct (run_after js P HJ HN) as [N2 R2]. exists ed1, ed2. split; [exact E1|]. split; [exact E2|]. split; [|split].
  - intros n. rewrite (get_shown_par _ n _ _ _ V2 M2 F2). apply R2.
  - exists (sort_texts (names (run_pcmds js P))). split; [unfold get_all_parameter_names; rewrite (names_shown _ _ _ _ V2 M2 F2); reflexivity|]. split; [apply sort_ordered|]. split; [eapply Permutation_NoDup; [apply sort_perm|exact N2]|].
    intros n. rewrite <- R2, lookup_names. split.
    + intros H. apply (Permutation_in _ (Permutation_sym (sort_perm _))) in H. assert (upper n = n) as U. { unfold names in H. apply in_map_iff in H. destruct H as (e & <- & _). apply upper_idem. } rewrite U. auto.
    + intros [U H]. rewrite U in H. eapply Permutation_in; [apply sort_perm|exact H].
  - exists (concat (map snd st2)). split; [apply (view_write _ _ _ V2)|]. rewrite <- M2. apply (view_saved _ _ _ V2).
Qed.
Print Assumptions C35_history.
(** The permission counts here too (property C37). *)
Theorem C37_denied_parameter : forall n v ed, n_perm ed = Deny -> set_parameter n v ed = None.
Proof. intros n v ed H. unfold set_parameter. rewrite H. reflexivity. Qed.
Print Assumptions C37_denied_parameter.

(** A netlist with parameters on two lines; one is changed, one added, one removed, one removed with its line. *)
Definition ex_entry (s p b v : string) : entry := {| e_sep := s2l s; e_par := s2l p; e_b1 := s2l b; e_b2 := s2l b; e_val := s2l v |}.
Definition ex_p1 : pline := {| l_lead := s2l " "; l_word := s2l ".param"; l_pars := [ex_entry "  " "b" " " "{2*y}"; ex_entry " " "Ab" "" "1k"]; l_tail := s2l "  ; first" |}.
Definition ex_p2 : pline := {| l_lead := []; l_word := s2l ".PARAM"; l_pars := [ex_entry " " "y" "" "5u"]; l_tail := [] |}.
Definition ex_body_P : list pstmt := [Other (Note (s2l "* title")); Params ex_p1; Other (Directive (s2l ".op")); Params ex_p2].
Definition ex_P : list pstmt := ex_body_P ++ [Other (Directive (s2l ".end"))].
Definition ex_pdoc : doc := {| d_body := map to_stmt ex_body_P; d_end := s2l ".end"; d_after := [] |}.
Definition ex_js : list pcmd := [SetPar (s2l "AB") (s2l "2.2k"); SetPar (s2l "Gain") (s2l "{1/b}"); DropPar (s2l "Y"); SetPar (s2l "GAIN") (s2l """x y"""); DropPar (s2l "gain")].
(** the name stands in one place of the text *)
Lemma once_by_place : forall n p, length (filter (fun k => str_eqb (upper (firstn (length n) (skipn k (pline_text p)))) (upper n)) (seq 0 (S (length (pline_text p))))) <= 1 -> set_once n p.
Proof.
  intros n p H x y Hx Hy. assert (forall x, setting_at n x (pline_text p) -> x = firstn (length x) (pline_text p) /\ In (length x) (filter (fun k => str_eqb (upper (firstn (length n) (skipn k (pline_text p)))) (upper n)) (seq 0 (S (length (pline_text p)))))) as K.
  { intros z (w & b1 & c & b2 & v & q & E & U & _). rewrite E. split; [rewrite firstn_app, Nat.sub_diag, firstn_all; cbn [firstn]; rewrite app_nil_r; reflexivity|]. apply filter_In. split.
    - apply in_seq. rewrite app_length. lia.
    - rewrite skipn_app, Nat.sub_diag, skipn_all. cbn [app skipn]. assert (length n = length w) as -> by (pose proof (f_equal (@length _) U) as UL; unfold upper in UL; rewrite !map_length in UL; symmetry; exact UL).
      rewrite firstn_app, Nat.sub_diag, firstn_all. cbn [firstn]. rewrite app_nil_r. apply str_eqb_eq. exact U. }
  destruct (K x Hx) as [X1 X2]. destruct (K y Hy) as [Y1 Y2]. remember (filter _ _) as l. destruct l as [|k [|k' l]]; [destruct X2| |cbn [length] in H; lia]. destruct X2 as [X2|[]]. destruct Y2 as [Y2|[]]. rewrite X1, Y1, <- X2, <- Y2. reflexivity.
Qed.
Ltac chars := let c := fresh "c" in let H := fresh "H" in intros c H; vm_compute in H; repeat (destruct H as [<- | H]; [vm_compute; repeat split; try reflexivity; discriminate|]); destruct H.
Ltac not_in := let G := fresh "G" in intros G; vm_compute in G; repeat (destruct G as [G|G]; [discriminate G|]); destruct G.
Lemma ex_pline_ok : pline_ok ex_p1 /\ pline_ok ex_p2.
Proof.
  split; (split; [chars|]; split; [reflexivity|]; split; [|split; [reflexivity|]; split; [chars|reflexivity || exact I]]);
    repeat (constructor; [split; [chars|]; split; [discriminate|]; split; [split; [discriminate|reflexivity]|]; split; [chars|]; split; [chars|]|]); try constructor.
  - apply (Braced (s2l "2*y")); not_in.
  - apply (Number (s2l "1") (s2l "k")); [discriminate|reflexivity|reflexivity].
  - apply (Number (s2l "5") (s2l "u")); [discriminate|reflexivity|reflexivity].
Qed.
Example C35_nonvacuous :
  doc_ok good_names ex_pdoc /\ includes_found (fun _ => None) ex_pdoc /\ statements ex_pdoc = map to_stmt ex_P /\ Forall pstmt_ok ex_P /\ NoDup (names ex_P) /\ pcmds_ok ex_js ex_P /\
  map (fun n => option_map l2s (after (firstn 2 ex_js) (fun n => lookup n ex_P) (s2l n))) ["ab"; "B"; "y"; "GAIN"; "q"] = [Some "2.2k"; Some "{2*y}"; Some "5u"; Some "{1/b}"; None] /\
  l2s (concat (body_lines (map to_stmt (run_pcmds (firstn 3 ex_js) ex_P)))) =
    lines_text ["* title"; ".param  b = {2*y} Ab= 2.2k  ; first"; ".op"; ".PARAM Gain={1/b}  ; Batch instruction"; "* SpiceEditor removed empty .PARAM line"; ".end"].
Proof.
  destruct ex_pline_ok as [O1 O2]. assert (is_directive (s2l ".op")) as OP by (apply (ex_directive ".op" ".op" ""); try reflexivity; try discriminate; [eexists; reflexivity| |]; intros [r G]; discriminate G).
  split; [|split; [|split; [|split; [|split; [|split; [|split]]]]]]; try (vm_compute; reflexivity).
  - split; [|split].
    + cbn [ex_pdoc d_body ex_body_P map to_stmt]. split; [|split; [|split; [|split; [|exact I]]]].
      * exists [], (s2l "* title"). split; [reflexivity|]. split; [intros c []|left; right; right; left; reflexivity].
      * cbn [stmt_ok]. apply pline_directive. exact O1.
      * exact OP.
      * cbn [stmt_ok]. apply pline_directive. exact O2.
    + exists (s2l ".END"). split; [apply (ex_word _ [] (s2l ".end") []); try reflexivity; eexists; reflexivity|]. exists []. reflexivity.
    + intros l [].
  - cbn. repeat split.
  - unfold ex_P, ex_body_P. cbn [app]. apply Forall_cons; [exact I|]. apply Forall_cons; [exact O1|]. apply Forall_cons; [vm_compute; discriminate|]. apply Forall_cons; [exact O2|]. apply Forall_cons; [vm_compute; discriminate|]. apply Forall_nil.
  - vm_compute. repeat (constructor; [not_in|]). constructor.
  - unfold ex_js. split; [|split; [|split; [|split; [|split; [|exact I]]]]].
    + split; [split; [discriminate|reflexivity]|]. split; [apply (Number (s2l "2.2") (s2l "k")); [discriminate|reflexivity|reflexivity]|vm_compute; intros G; reflexivity].
    + split; [split; [discriminate|reflexivity]|]. split; [apply (Braced (s2l "1/b")); not_in|vm_compute; intros G; reflexivity].
    + split; [split; [discriminate|reflexivity]|]. split; [reflexivity|]. intros p Hp X. vm_compute in Hp. repeat (destruct Hp as [Hp|Hp]; [first [discriminate Hp | injection Hp as <-; first [discriminate X | split; [apply once_by_place; vm_compute; repeat constructor|exact I]]]|]). destruct Hp.
    + split; [split; [discriminate|reflexivity]|]. split; [apply (Quoted (s2l "x y")); not_in|vm_compute; intros G; reflexivity].
    + split; [split; [discriminate|reflexivity]|]. split; [reflexivity|]. intros p Hp X. vm_compute in Hp. repeat (destruct Hp as [Hp|Hp]; [first [discriminate Hp | injection Hp as <-; first [discriminate X | split; [apply once_by_place; vm_compute; repeat constructor|exact I]]]|]). destruct Hp.
Qed.

(** Property C76: every name can be read and set.  A parameter whose name begins with the letter E or a digit, first on its line, is not
    seen: reading it is an error, ".PARAM" counts as a name, and setting it adds a second definition.  This holds whatever its value. *)
Definition par_text (lines : list string) (n : string) : option string :=
  match load_lines (fun _ => None) false (map (fun s => full (s2l s)) lines) with Some items => option_map l2s (get_parameter (s2l n) items) | None => None end.
Definition par_names (lines : list string) : option (list string) :=
  match load_lines (fun _ => None) false (map (fun s => full (s2l s)) lines) with Some items => option_map (map l2s) (get_all_parameter_names items) | None => None end.
Definition set_to (n : string) (v : option string) : editor -> option editor := set_parameter (s2l n) (option_map s2l v).
Theorem C76_first_name_not_seen_refuted :
  let net := ["* t"; ".param err=1 gain=2"; "R1 a b {err}"; ".op"; ".end"] in
  par_text net "err" = None /\ par_text net "gain" = Some "2" /\ par_names net = Some ["GAIN"; "PARAM"] /\ par_text net "param" = Some "err" /\
  edit_text net (set_to "err" (Some "3")) = Some (lines_text ["* t"; ".param err=1 gain=2"; "R1 a b {err}"; ".PARAM err=3  ; Batch instruction"; ".op"; ".end"]).
Proof. repeat split; vm_compute; reflexivity. Qed.
Print Assumptions C76_first_name_not_seen_refuted.
(** Property C77: the value of a parameter is all of it, whatever its form.  An expression without braces is read, and replaced, up to its
    first operator; one that begins with a name, or stands in single quotes, is not seen; settings in comments are. *)
Theorem C77_part_of_the_value_refuted :
  let net := ["* t"; ".param x=2*y"; ".param y=10 ; was y2=5"; ".param z=y"; ".param q='2*y'"; ".op"; ".end"] in
  par_text net "x" = Some "2" /\ par_text net "z" = None /\ par_text net "q" = None /\ par_text net "y2" = Some "5" /\ par_names net = Some ["X"; "Y"; "Y2"] /\
  edit_text net (set_to "x" (Some "7")) = Some (lines_text ["* t"; ".param x= 7 *y"; ".param y=10 ; was y2=5"; ".param z=y"; ".param q='2*y'"; ".op"; ".end"]) /\
  edit_text net (set_to "z" (Some "7")) = Some (lines_text ["* t"; ".param x=2*y"; ".param y=10 ; was y2=5"; ".param z=y"; ".param q='2*y'"; ".PARAM z=7  ; Batch instruction"; ".op"; ".end"]).
Proof. repeat split; vm_compute; reflexivity. Qed.
Print Assumptions C77_part_of_the_value_refuted.
(** Property C78: setting None removes that parameter and no other.  It cuts the name out of longer names and of expressions as well, and
    a parameter that does not exist is added with the value "None". *)
Theorem C78_removes_more_refuted :
  edit_text ["* t"; ".param a=1 ba=2 c=3"; ".op"; ".end"] (set_to "a" None) = Some (lines_text ["* t"; ".param  b c=3"; ".op"; ".end"]) /\
  edit_text ["* t"; ".param a=1 b={2*a +1}"; ".op"; ".end"] (set_to "a" None) = Some (lines_text ["* t"; ".param  b={2*}"; ".op"; ".end"]) /\
  edit_text ["* t"; "* u"; ".param a=1"; ".op"; ".end"] (set_to "b" None) = Some (lines_text ["* t"; "* u"; ".param a=1"; ".PARAM b=None  ; Batch instruction"; ".op"; ".end"]) /\
  par_text ["* t"; ".param  b c=3"; ".op"; ".end"] "ba" = None.
Proof. repeat split; vm_compute; reflexivity. Qed.
Print Assumptions C78_removes_more_refuted.
