(** Proofs for histories of commands on a netlist. *)
From Coq Require Import String Ascii List Bool Arith Lia.
From Verif Require Import PyStr EngModel EngProofs EngCaseProofs PTokModel PTokSpec PTokProofs Regex RegexProofs RegexInv RegexMore CompModel CompSpec CompMatch CompFam CompProofs CompRewrite CompSelf CompProps
  SepModel UpdatesModel NetModel NetSpec NetProofs EditModel EditSpec EditProofs NetProps CmdSpec.
Import ListNotations.
Local Open Scope string_scope.
Local Open Scope nat_scope.
Local Open Scope list_scope.

(** first words *)
Lemma drop_blanks_app : forall b r, blanks b -> drop_blanks (b ++ r) = drop_blanks r.
Proof.
  induction b as [|c b IH]; intros r H; [reflexivity|]. cbn [app drop_blanks]. assert (aeqb c " " || aeqb c "009" = true) as -> by (destruct (H c (or_introl eq_refl)) as [-> | ->]; reflexivity).
  apply IH. intros x Hx. apply H. right. exact Hx.
Qed.
Lemma until_take : forall l, until_blank l = take_word l.
Proof. induction l as [|c l IH]; [reflexivity|]. cbn [until_blank take_word]. unfold word_end, is_blank, is_nl. change LF with NL. change SepModel.CR with CR. rewrite IH. rewrite <- !orb_assoc. reflexivity. Qed.
Lemma word1_first : forall w l, first_word w l -> word1 l = w.
Proof.
  intros w l (b & u & r & -> & Hb & (v & ->) & Hu & Hr & ->). unfold word1. rewrite drop_blanks_app by exact Hb. change (drop_blanks (("."%char :: v) ++ r)) with (("."%char :: v) ++ r).
  rewrite until_take, take_word_app; [reflexivity|exact Hu|exact Hr].
Qed.
Lemma lc_more : forall w l k, first_word w l -> line_command (full l ++ k) = Some w.
Proof.
  intros w l k (b & u & r & -> & Hb & (v & ->) & Hu & Hr & ->). unfold full. rewrite <- !app_assoc, lc_blanks by exact Hb.
  cbn [app line_command]. change (is_blank ".") with false. cbv iota. cbn zeta. change (upper1 ".") with "."%char. change (valid_prefix ".") with false. cbv iota.
  change (aeqb "." "+") with false. change (mem_c "." (s2l "#;*") || is_nl ".") with false. change (aeqb "." ".") with true. cbv iota.
  do 2 f_equal. apply (take_word_app ("."%char :: v) (r ++ NL :: k)); [exact Hu|].
  destruct r as [|c r]; [cbn; unfold ends_word; auto|exact Hr].
Qed.
Lemma upper_word : forall u, (forall c, In c u -> ~ ends_word c) -> forall c, In c (upper u) -> ~ ends_word c.
Proof.
  intros u H c Hc. apply in_map_iff in Hc. destruct Hc as (x & <- & Hx). specialize (H x Hx). intros G. apply H. apply word_end_iff. apply word_end_iff in G. clear - G. revert x G.
  apply (imp_sweep (fun x => word_end (upper_c x)) word_end). vm_cast_no_check (eq_refl true).
Qed.
Lemma lc_upper : forall w l, first_word w l -> line_command w = Some w.
Proof.
  intros w l (b & u & r & -> & Hb & (v & ->) & Hu & Hr & ->). pose proof (upper_word _ Hu) as Hw. change (upper ("."%char :: v)) with ("."%char :: upper v) in *.
  cbn [line_command]. change (is_blank ".") with false. cbv iota. cbn zeta. change (upper1 ".") with "."%char. change (valid_prefix ".") with false. cbv iota.
  change (aeqb "." "+") with false. change (mem_c "." (s2l "#;*") || is_nl ".") with false. change (aeqb "." ".") with true. cbv iota. f_equal.
  rewrite <- (app_nil_r ("."%char :: upper v)) at 1. rewrite take_word_app; [|exact Hw|exact I]. change (upper ("."%char :: upper v)) with ("."%char :: upper (upper v)). rewrite upper_idem. reflexivity.
Qed.
Lemma rstrip_prefix : forall s, exists k, s = rstrip s ++ k.
Proof.
  intros s. assert (forall t, exists k, t = k ++ lstrip t) as L.
  { induction t as [|c t (k & IH)]; [exists []; reflexivity|]. change (lstrip (c :: t)) with (if is_space c then lstrip t else c :: t). destruct (is_space c); [exists (c :: k); cbn [app]; f_equal; exact IH|exists []; reflexivity]. }
  destruct (L (rev s)) as (k & H). exists (rev k). change (rstrip s) with (rev (lstrip (rev s))). rewrite <- rev_app_distr, <- H, rev_involutive. reflexivity.
Qed.
Lemma control_word : forall h, first_word (s2l ".CONTROL") h -> first_word (s2l ".CONTROL") (rstrip h).
Proof.
  intros h (b & u & r & -> & Hb & (v & ->) & Hu & Hr & E). destruct (exists_last (l := "."%char :: v)) as (u' & x & Eu); [discriminate|].
  assert (is_space x = false) as Sx.
  { assert (upper_c x = "L"%char) as G. { rewrite Eu in E. unfold upper in E. rewrite map_app in E. apply (f_equal (fun k => last k "0"%char)) in E. cbn [map] in E. rewrite last_last in E. symmetry. exact E. }
    assert (aeqb (upper_c x) "L" = true) as G' by (apply aeqb_eq; exact G). clear - G'. apply negb_true_iff. revert x G'. apply (imp_sweep (fun x => aeqb (upper_c x) "L") (fun x => negb (is_space x))). vm_cast_no_check (eq_refl true). }
  exists b, ("."%char :: v), (rstrip r). split; [|split; [exact Hb|split; [exists v; reflexivity|split; [exact Hu|split; [|exact E]]]]].
  - rewrite Eu. rewrite <- !app_assoc. cbn [app]. rewrite !(app_assoc b u'). apply rstrip_cons. exact Sx.
  - destruct (rstrip_prefix r) as (k & Ek). destruct (rstrip r) as [|c q]; [exact I|]. rewrite Ek in Hr. exact Hr.
Qed.

(** simulation commands *)
Lemma unique_eq : forall w, existsb (str_eqb w) unique_commands = existsb (str_eqb w) simulations.
Proof. reflexivity. Qed.
Lemma not_sim : forall w, (forall u, In u simulations -> w <> u) -> existsb (str_eqb w) simulations = false.
Proof. intros w H. destruct (existsb (str_eqb w) simulations) eqn:E; [|reflexivity]. apply existsb_exists in E. destruct E as (u & Hu & E). apply str_eqb_eq in E. destruct (H u Hu E). Qed.
Lemma sims_not_inc : forall u r, In u simulations -> s2l ".INC" ++ r <> u.
Proof. intros u r H. cbn in H. repeat (destruct H as [<-|H]; [discriminate|]). destruct H. Qed.
Lemma sims_not_end : forall u r, In u simulations -> s2l ".END" ++ r <> u.
Proof. intros u r H. cbn in H. repeat (destruct H as [<-|H]; [discriminate|]). destruct H. Qed.
Lemma part_unique : forall c, part_ok good_names c -> is_unique (comp_text c) = Some false.
Proof.
  intros c (HC & _). unfold is_unique. destruct (lc_part c HC) as (E & _). rewrite E. cbn [option_map]. f_equal. rewrite unique_eq. apply not_sim. intros u H. cbn in H. repeat (destruct H as [<-|H]; [discriminate|]). destruct H.
Qed.
Lemma shown_unique : forall Q it s w, shown Q it s w -> match prim_obj it with None => sim_stmt s = false | Some o => is_unique o = Some (sim_stmt s) end.
Proof.
  intros Q it s w H. destruct H as [s HO N|it c [-> | ->] HC|it c0 c [-> | ->] HC0]; try (apply part_unique; assumption).
  destruct s as [l|l|c|h b t|h b t|l b]; cbn [item_of prim_obj sim_stmt]; [reflexivity| |destruct (N c eq_refl)| |reflexivity|].
  - assert (exists u, first_word u l) as (u & Hu) by (destruct HO as [(u & Hu & _)|(l' & u & E & Hu & _)]; [exists u; exact Hu|injection E as <-; exists u; exact Hu]).
    unfold is_unique. rewrite (lc_word u l Hu). cbn [option_map]. unfold is_sim. rewrite (word1_first u l Hu). reflexivity.
  - destruct HO as [(Hh & _)|(l' & u & E & _)]; [|discriminate E]. unfold is_unique. cbn [map concat]. rewrite (lc_more _ (rstrip h) _ (control_word h Hh)). reflexivity.
  - destruct HO as [((u & Hu & (r & ->)) & _)|(l' & u & E & _)]; [|discriminate E]. unfold is_unique. rewrite (lc_word _ l Hu). reflexivity.
Qed.

(** texts *)
Lemma obj_text : forall Q it s w, shown Q it s w -> (forall c, s <> Part c) ->
  prim_obj it = (if is_instruction s then Some (stmt_text s) else None) /\ any_text it = match s with Circuit _ _ _ => None | _ => Some (stmt_text s) end.
Proof.
  intros Q it s w H N. destruct (shown_plain _ _ _ _ H N) as (-> & _ & _). destruct s as [l|l|c|h b t|h b t|l b]; try destruct (N c eq_refl);
    cbn [item_of prim_obj is_instruction stmt_text stmt_lines any_text concat]; rewrite ?app_nil_r; split; reflexivity.
Qed.
Lemma part_obj : forall Q it c w, shown Q it (Part c) w -> exists c0, part_ok good_names c0 /\ prim_obj it = Some (comp_text c0) /\ any_text it = Some (comp_text c0).
Proof.
  intros Q it c w H. remember (Part c) as s eqn:Es. destruct H as [s HO N|it c' HH HC|it c0 c' HH HC0]; [destruct (N c Es)|exists c'|exists c0]; (split; [assumption|destruct HH as [-> | ->]; split; reflexivity]).
Qed.
Lemma part_head : forall c, part_ok good_names c -> exists r, comp_text c = c_kind c :: r /\ valid_prefix (c_kind c) = true.
Proof. intros c (HC & _). destruct (lc_part c HC) as (_ & V & _). unfold comp_text, comp_body. eexists. split; [reflexivity|exact V]. Qed.
Lemma valid_head : forall c, valid_prefix c = true -> is_space c = false /\ c <> "."%char /\ lower_c c <> "."%char.
Proof.
  intros c H. assert (negb (is_space c) && negb (aeqb c ".") && negb (aeqb (lower_c c) ".") = true) as G.
  { revert c H. apply (imp_sweep valid_prefix (fun c => negb (is_space c) && negb (aeqb c ".") && negb (aeqb (lower_c c) "."))). vm_cast_no_check (eq_refl true). }
  rewrite !andb_true_iff, !negb_true_iff, !aeqb_neq in G. tauto.
Qed.
Lemma strip_head : forall c r, is_space c = false -> exists q, strip (c :: r) = c :: q.
Proof. intros c r H. rewrite strip_rstrip by exact H. pose proof (rstrip_cons [] c r H) as E. cbn [app] in E. rewrite E. eexists. reflexivity. Qed.
Lemma directive_head : forall l k, is_directive l -> exists q, strip (l ++ k) = "."%char :: q.
Proof.
  intros l k (w & (b & u & r & -> & Hb & (v & ->) & _) & _). rewrite <- !app_assoc. cbn [app]. change (strip (b ++ "."%char :: v ++ r ++ k)) with (rstrip (lstrip (b ++ "."%char :: v ++ r ++ k))). assert (lstrip (b ++ "."%char :: v ++ r ++ k) = "."%char :: v ++ r ++ k) as E.
  { clear - Hb. induction b as [|c b IH]; [reflexivity|]. cbn [app]. change (lstrip (c :: b ++ "."%char :: v ++ r ++ k)) with (if is_space c then lstrip (b ++ "."%char :: v ++ r ++ k) else c :: b ++ "."%char :: v ++ r ++ k). assert (is_space c = true) as -> by (destruct (Hb c (or_introl eq_refl)) as [-> | ->]; reflexivity). apply IH. intros x Hx. apply Hb. right. exact Hx. }
  rewrite E. pose proof (rstrip_cons [] "."%char (v ++ r ++ k) eq_refl) as E2. cbn [app] in E2. rewrite E2. eexists. reflexivity.
Qed.
Lemma shown_says : forall Q it s w l, shown Q it s w -> is_directive l -> same_text l it = says l s.
Proof.
  intros Q it s w l H HD. unfold same_text, says. destruct s as [x|x|c|x y z|x y z|x y]; try (destruct (obj_text _ _ _ _ H) as [-> _]; [discriminate|]; cbn [is_instruction andb]; reflexivity).
  destruct (part_obj _ _ _ _ H) as (c0 & HC & -> & _). cbn [is_instruction andb]. apply str_neq. destruct (part_head c0 HC) as (r & -> & V). destruct (valid_head _ V) as (S & D & _).
  destruct (strip_head _ r S) as (q & ->). destruct (directive_head l [] HD) as (q' & E). rewrite app_nil_r in E. rewrite E. intros G. injection G as G _. apply D. exact G.
Qed.
Lemma shown_back : forall Q it s w, shown Q it s w -> is_backanno it = backanno s.
Proof.
  intros Q it s w H. unfold is_backanno, backanno. destruct s as [x|x|c|x y z|x y z|x y]; try (destruct (obj_text _ _ _ _ H) as [-> _]; [discriminate|]; cbn [is_instruction andb]; reflexivity).
  destruct (part_obj _ _ _ _ H) as (c0 & HC & -> & _). cbn [is_instruction andb]. destruct (part_head c0 HC) as (r & -> & V). destruct (valid_head _ V) as (_ & _ & D).
  apply begins_false. intros (k & G). cbn [lower map] in G. injection G as G _. apply D. exact G.
Qed.
Lemma shown_matched : forall Q it s w pat, shown Q it s w -> (forall c, part_ok good_names c -> pat (comp_text c) = false) -> to_remove pat it = matched pat s.
Proof.
  intros Q it s w pat H HP. unfold to_remove, matched. destruct s as [x|x|c|x y z|x y z|x y]; try (destruct (obj_text _ _ _ _ H) as [_ ->]; [discriminate|]; reflexivity).
  destruct (part_obj _ _ _ _ H) as (c0 & HC & _ & ->). apply HP. exact HC.
Qed.

(** positions *)
Lemma find_view : forall Q p q items st, view Q items st -> (forall it s w, shown Q it s w -> p it = q s) -> find_first p items = find_first q (map fst st).
Proof. intros Q p q items st H HP. induction H as [|it [s w] items st H1 H2 IH]; [reflexivity|]. cbn [find_first map fst snd] in *. rewrite (HP _ _ _ H1), IH. reflexivity. Qed.
Lemma find_unique_view : forall Q items st, view Q items st -> find_unique items = Some (find_first sim_stmt (map fst st)).
Proof.
  intros Q items st H. induction H as [|it [s w] items st H1 H2 IH]; [reflexivity|]. cbn [find_unique find_first map fst snd] in *. pose proof (shown_unique _ _ _ _ H1) as U. rewrite IH.
  destruct (prim_obj it) as [o|]; rewrite U; [destruct (sim_stmt s); reflexivity|reflexivity].
Qed.
Lemma find_first_some : forall {A} (p : A -> bool) l i, find_first p l = Some i ->
  exists a y b, l = a ++ y :: b /\ length a = i /\ existsb p l = true /\ p y = true /\ (forall x, replace_first p x l = a ++ x :: b) /\ delete_first p l = a ++ b /\ (forall x, insert_before p x l = a ++ x :: y :: b).
Proof.
  induction l as [|y l IH]; intros i H; [discriminate|]. cbn [find_first] in H. destruct (p y) eqn:E.
  - injection H as <-. exists [], y, l. cbn [existsb replace_first delete_first insert_before]. rewrite E. repeat split; auto.
  - destruct (find_first p l) as [j|]; [|discriminate]. injection H as <-. destruct (IH j eq_refl) as (a & z & b & -> & L & X & Z & R & D & B). exists (y :: a), z, b.
    cbn [existsb replace_first delete_first insert_before app]. rewrite E, X, D. split; [reflexivity|]. split; [cbn [length]; f_equal; exact L|]. split; [reflexivity|]. split; [exact Z|].
    split; [intros x; rewrite R; reflexivity|]. split; [reflexivity|]. intros x. rewrite B. reflexivity.
Qed.
Lemma find_first_none : forall {A} (p : A -> bool) l, find_first p l = None -> existsb p l = false /\ delete_first p l = l.
Proof.
  induction l as [|y l IH]; intros H; [split; reflexivity|]. cbn [find_first] in H. destruct (p y) eqn:E; [discriminate|]. destruct (find_first p l); [discriminate|]. destruct (IH eq_refl) as [X D].
  cbn [existsb delete_first]. rewrite E, X, D. split; reflexivity.
Qed.
Lemma insert_mid : forall {A} (a : list A) b x, insert_item (a ++ b) (length a) x = a ++ x :: b.
Proof. intros A a b x. unfold insert_item. rewrite firstn_app, firstn_all, skipn_app, skipn_all, Nat.sub_diag. cbn [firstn skipn]. rewrite app_nil_r. reflexivity. Qed.
Lemma delete_mid : forall {A} (a : list A) y b, delete_item (a ++ y :: b) (length a) = a ++ b.
Proof. intros A a y b. unfold delete_item. rewrite firstn_app, firstn_all, Nat.sub_diag, skipn_app, (skipn_all2 a) by lia. replace (S (length a) - length a) with 1 by lia. cbn [firstn skipn app]. rewrite app_nil_r. reflexivity. Qed.
Lemma view_length : forall Q items st, view Q items st -> length items = length st.
Proof. intros Q items st H. induction H; [reflexivity|]. cbn [length]. f_equal. assumption. Qed.
Lemma view_cut : forall Q items st n, view Q items st -> view Q (firstn n items) (firstn n st) /\ view Q (skipn n items) (skipn n st).
Proof.
  intros Q items st n H. revert n. induction H as [|it sw items st H1 H2 IH]; intros n; [destruct n; split; constructor|]. destruct n as [|n]; [split; [constructor|constructor; assumption]|].
  destruct (IH n) as [A B]. cbn [firstn skipn]. split; [constructor; assumption|exact B].
Qed.
Lemma insert_view : forall Q items st n it s w, view Q items st -> shown Q it s w ->
  view Q (insert_item items n it) (firstn n st ++ (s, w) :: skipn n st) /\ map fst (firstn n st ++ (s, w) :: skipn n st) = firstn n (map fst st) ++ s :: skipn n (map fst st).
Proof.
  intros Q items st n it s w H1 H2. destruct (view_cut Q items st n H1) as [A B]. split.
  - unfold insert_item. apply view_app; [exact A|]. constructor; assumption.
  - rewrite map_app. cbn [map fst]. rewrite firstn_map, skipn_map. reflexivity.
Qed.

(** the calls *)
Definition place_of (p : position) : place := match p with BeforePart r => Before r | AfterPart r => After r | LastPart => AtEnd end.
Definition do_cmd (en : env) (k : cmd) (ed : editor) : option editor :=
  match k with
  | Edit e => do_edit en e ed
  | AddPart c p => add_component en (comp_text c) (place_of p) ed
  | RemovePart r => remove_component en r ed
  | AddLine l nl => add_instruction en (if nl then full l else l) ed
  | RemoveLine l => option_map snd (remove_instruction l ed)
  | RemoveMatching pat => option_map snd (remove_matching pat ed)
  end.
Fixpoint do_cmds (en : env) (ks : list cmd) (ed : editor) : option editor :=
  match ks with [] => Some ed | k :: r => match do_cmd en k ed with Some ed' => do_cmds en r ed' | None => None end end.
Definition steps_to (Q : comp -> comp -> Prop) (en : env) (k : cmd) (ed : editor) (st : list (stmt * list stmt)) : Prop :=
  exists ed' st', do_cmd en k ed = Some ed' /\ n_perm ed' = n_perm ed /\ view Q (n_items ed') st' /\ map fst st' = run_cmd k (map fst st).
Lemma index_shown : forall Q en r items st a b c, view Q items st -> plain_name r (map fst st) -> part_at r (map fst st) = At (length a) -> map fst st = a ++ Part c :: b ->
  index_of en r items = Some (length a).
Proof. intros Q en r items st a b c HV (HR & HD) HA HE. destruct (plain_ref _ HR) as [R1 R2]. unfold index_of. rewrite R1, R2. rewrite (find_shown Q (e_name en) r _ _ HV HD), HA. reflexivity. Qed.
Lemma part_split : forall Q en r items st, view Q items st -> plain_name r (map fst st) -> part_named r (map fst st) <> None ->
  exists ia it ib sa s w sb, items = ia ++ it :: ib /\ st = sa ++ (s, w) :: sb /\ view Q ia sa /\ view Q ib sb /\ shown Q it s w /\ index_of en r items = Some (length ia) /\
    exists c, s = Part c /\ forall f, on_part r f (map fst st) = map fst sa ++ f c ++ map fst sb.
Proof.
  intros Q en r items st HV HP HN. destruct (part_named r (map fst st)) as [c|] eqn:HF; [|contradiction HN; reflexivity]. destruct (part_at_named _ _ _ HF) as (a & b & EL & EA & EO & _).
  destruct (view_split Q _ _ _ _ _ HV EL) as (ia & it & ib & sa & w & sb & EI & ES & LA & V1 & V2 & V3 & M1 & M2). exists ia, it, ib, sa, (Part c), w, sb.
  split; [exact EI|]. split; [exact ES|]. split; [exact V1|]. split; [exact V2|]. split; [exact V3|]. split; [rewrite LA; eapply index_shown; eassumption|].
  exists c. split; [reflexivity|]. intros f. rewrite EO, M1, M2. reflexivity.
Qed.
Lemma part_shown : forall Q c, part_ok good_names c -> shown Q (IComp (comp_text c) None) (Part c) [Part (tidy c)].
Proof. intros Q c H. apply Sh_part; [left; reflexivity|exact H]. Qed.
Lemma part_parsed : forall c, part_ok good_names c -> parse_line (comp_text c) = Some (attrs_of c).
Proof. intros c (HC & HN & _). apply comp_read; [exact HC|apply good_names_ok; exact HN]. Qed.
Lemma allowed : forall (P : permission) (A : Type) (x y : A), P <> Deny -> (match P with Deny => x | _ => y end) = y.
Proof. intros [] A x y H; [contradiction H; reflexivity|reflexivity|reflexivity]. Qed.
Lemma add_part_step : forall Q en c p ed st, n_perm ed <> Deny -> view Q (n_items ed) st -> cmd_ok (AddPart c p) (map fst st) -> steps_to Q en (AddPart c p) ed st.
Proof.
  intros Q en c p ed st HP HV (HC & HO). unfold steps_to. cbn [do_cmd]. unfold add_component. rewrite allowed by exact HP. rewrite part_parsed by exact HC. destruct p as [r|r|]; cbn [place_of run_cmd].
  - destruct HO as [HN HF]. destruct (part_split Q en r _ _ HV HN HF) as (ia & it & ib & sa & s & w & sb & EI & ES & V1 & V2 & V3 & IX & c0 & -> & ON). rewrite IX.
    eexists _, (sa ++ (Part c, [Part (tidy c)]) :: (Part c0, w) :: sb). split; [reflexivity|]. split; [reflexivity|]. cbn [n_items note_update]. split.
    + rewrite EI, insert_mid. apply view_app; [exact V1|]. constructor; [apply part_shown; exact HC|]. constructor; assumption.
    + rewrite ON, map_app. reflexivity.
  - destruct HO as [HN HF]. destruct (part_split Q en r _ _ HV HN HF) as (ia & it & ib & sa & s & w & sb & EI & ES & V1 & V2 & V3 & IX & c0 & -> & ON). rewrite IX. cbn [option_map].
    eexists _, (sa ++ (Part c0, w) :: (Part c, [Part (tidy c)]) :: sb). split; [reflexivity|]. split; [reflexivity|]. cbn [n_items note_update]. split.
    + rewrite EI. replace (ia ++ it :: ib) with ((ia ++ [it]) ++ ib) by (rewrite <- app_assoc; reflexivity). replace (S (length ia)) with (length (ia ++ [it])) by (rewrite app_length; cbn [length]; lia).
      rewrite insert_mid, <- app_assoc. cbn [app]. apply view_app; [exact V1|]. constructor; [exact V3|]. constructor; [apply part_shown; exact HC|exact V2].
    + rewrite ON, map_app. reflexivity.
  - destruct (insert_view Q _ _ (length (n_items ed) - 2) _ _ _ HV (part_shown Q c HC)) as [A B]. eexists _, _. split; [reflexivity|]. split; [reflexivity|]. cbn [n_items note_update]. split; [exact A|].
    rewrite B. unfold insert_from_end. rewrite map_length, (view_length Q _ _ HV). reflexivity.
Qed.
Lemma remove_part_step : forall Q en r ed st, n_perm ed <> Deny -> view Q (n_items ed) st -> cmd_ok (RemovePart r) (map fst st) -> steps_to Q en (RemovePart r) ed st.
Proof.
  intros Q en r ed st HP HV (HN & HF). unfold steps_to. cbn [do_cmd run_cmd]. unfold remove_component. rewrite allowed by exact HP.
  destruct (part_split Q en r _ _ HV HN HF) as (ia & it & ib & sa & s & w & sb & EI & ES & V1 & V2 & V3 & IX & c0 & -> & ON). rewrite IX.
  eexists _, (sa ++ sb). split; [reflexivity|]. split; [reflexivity|]. cbn [n_items note_update]. split; [rewrite EI, delete_mid; apply view_app; assumption|]. rewrite ON, map_app. reflexivity.
Qed.
(** instructions *)
Lemma ends_nl : forall l, endswith NLs (full l) = true.
Proof. intros l. unfold endswith, full. rewrite rev_app_distr. reflexivity. Qed.
Lemma not_ends_nl : forall l, ~ In NL l -> endswith NLs l = false.
Proof.
  intros l H. unfold endswith. destruct (startswith (rev NLs) (rev l)) eqn:E; [|reflexivity]. apply begins_iff in E. destruct E as (r & E). exfalso. apply H. rewrite <- (rev_involutive l), E. apply in_rev. rewrite rev_involutive. left. reflexivity.
Qed.
Lemma says_full : forall l s, says (full l) s = says l s.
Proof. intros l s. unfold says. rewrite strip_full. reflexivity. Qed.
Lemma same_full : forall l it, same_text (full l) it = same_text l it.
Proof. intros l it. unfold same_text. rewrite strip_full. reflexivity. Qed.
Lemma split_found : forall Q items st (q : stmt -> bool) i, view Q items st -> find_first q (map fst st) = Some i ->
  exists ia it ib sa s w sb, items = ia ++ it :: ib /\ length ia = i /\ st = sa ++ (s, w) :: sb /\ view Q ia sa /\ view Q ib sb /\ shown Q it s w /\ existsb q (map fst st) = true /\
    (forall x, replace_first q x (map fst st) = map fst sa ++ x :: map fst sb) /\ delete_first q (map fst st) = map fst sa ++ map fst sb /\
    (forall x, insert_before q x (map fst st) = map fst sa ++ x :: s :: map fst sb).
Proof.
  intros Q items st q i HV H. destruct (find_first_some _ _ _ H) as (a & y & b & EL & L & X & Y & R & D & B).
  destruct (view_split Q _ _ _ _ _ HV EL) as (ia & it & ib & sa & w & sb & EI & ES & LA & V1 & V2 & V3 & M1 & M2). exists ia, it, ib, sa, y, w, sb.
  split; [exact EI|]. split; [congruence|]. split; [exact ES|]. split; [exact V1|]. split; [exact V2|]. split; [exact V3|]. split; [exact X|]. rewrite M1, M2. auto.
Qed.
Lemma add_line_step : forall Q en l nl ed st, n_perm ed <> Deny -> view Q (n_items ed) st -> cmd_ok (AddLine l nl) (map fst st) -> steps_to Q en (AddLine l nl) ed st.
Proof.
  intros Q en l nl ed st HP HV (HD & HW & HN). unfold steps_to. cbn [do_cmd run_cmd]. unfold add_instruction. rewrite allowed by exact HP.
  cbv zeta. match goal with |- context [if endswith NLs ?x then ?y else ?z] => replace (if endswith NLs x then y else z) with (full l) by (destruct nl; [rewrite ends_nl; reflexivity|rewrite not_ends_nl by exact HN; reflexivity]) end.
  pose proof HD as (w & Hw & W1 & W2 & W3 & W4). rewrite (lc_word w l Hw). unfold is_unique. rewrite (lc_upper w l Hw). cbn [option_map]. rewrite unique_eq.
  rewrite (word1_first w l Hw) in HW.
  assert (shown Q (IPrim (full l)) (Directive l) [Directive (strip l)]) as HS by (apply (Sh_plain Q (Directive l)); [left; exact HD|discriminate]).
  assert (item_for en (full l) w = IPrim (full l)) as HI.
  { unfold item_for. rewrite begins_false by exact W3. destruct (word_dot w l Hw) as (v & ->). destruct v; reflexivity. }
  rewrite !(str_neq _ _ W2).
  assert (is_sim l = existsb (str_eqb w) simulations) as HM by (unfold is_sim; rewrite (word1_first w l Hw); reflexivity).
  assert ((is_sim l && existsb sim_stmt (map fst st) = false) -> exists ed' st',
    match find_first (same_text (full l)) (n_items ed) with
    | Some _ => Some ed
    | None => Some (note_update ed (insert_item (n_items ed) (insert_place (n_items ed)) (item_for en (full l) w)) (s2l "INSTRUCTION") (strip (full l)) UpAddInstruction)
    end = Some ed' /\ n_perm ed' = n_perm ed /\ view Q (n_items ed') st' /\ map fst st' = add_line l (map fst st)) as ADD.
  { intros HX. unfold add_line. rewrite HX. rewrite (find_view Q (same_text (full l)) (says l) _ _ HV) by (intros it s w' G; rewrite same_full; apply (shown_says Q _ _ _ _ G HD)).
    destruct (find_first (says l) (map fst st)) as [i|] eqn:F.
    - destruct (find_first_some _ _ _ F) as (_ & _ & _ & _ & _ & X & _). rewrite X. exists ed, st. auto.
    - destruct (find_first_none _ _ F) as [X _]. rewrite X. rewrite HI. unfold insert_place. rewrite (find_view Q is_backanno backanno _ _ HV) by (intros it s w' G; apply (shown_back Q _ _ _ G)).
      destruct (find_first backanno (map fst st)) as [i|] eqn:FB.
      + destruct (split_found Q _ _ _ _ HV FB) as (ia & it & ib & sa & s & w' & sb & EI & LI & ES & V1 & V2 & V3 & XB & _ & _ & IB). rewrite XB.
        eexists _, (sa ++ (Directive l, [Directive (strip l)]) :: (s, w') :: sb). split; [reflexivity|]. split; [reflexivity|]. cbn [n_items note_update]. split.
        * rewrite EI, <- LI, insert_mid. apply view_app; [exact V1|]. constructor; [exact HS|]. constructor; assumption.
        * rewrite IB, map_app. reflexivity.
      + destruct (find_first_none _ _ FB) as [XB _]. rewrite XB. destruct (insert_view Q _ _ (length (n_items ed) - 1) _ _ _ HV HS) as [A B]. eexists _, _. split; [reflexivity|]. split; [reflexivity|].
        cbn [n_items note_update]. split; [exact A|]. rewrite B. unfold insert_from_end. rewrite map_length, (view_length Q _ _ HV). reflexivity. }
  rewrite <- HM. destruct (is_sim l) eqn:SI.
  - rewrite (find_unique_view Q _ _ HV). destruct (find_first sim_stmt (map fst st)) as [i|] eqn:F.
    + destruct (split_found Q _ _ _ _ HV F) as (ia & it & ib & sa & s & w' & sb & EI & LI & ES & V1 & V2 & V3 & X & R & _).
      eexists _, (sa ++ (Directive l, [Directive (strip l)]) :: sb). split; [reflexivity|]. split; [reflexivity|]. cbn [n_items note_update]. split.
      * rewrite EI, <- LI, set_item_mid. apply view_app; [exact V1|]. constructor; assumption.
      * unfold add_line. rewrite SI, X. cbn [andb]. rewrite R, map_app. reflexivity.
    + apply ADD. destruct (find_first_none _ _ F) as [-> _]. reflexivity.
  - rewrite str_neq by exact HW. apply ADD. reflexivity.
Qed.
Lemma remove_line_step : forall Q en l ed st, n_perm ed <> Deny -> view Q (n_items ed) st -> is_directive l ->
  steps_to Q en (RemoveLine l) ed st /\ option_map fst (remove_instruction l ed) = Some (existsb (says l) (map fst st)).
Proof.
  intros Q en l ed st HP HV HD. unfold steps_to. cbn [do_cmd run_cmd]. unfold remove_instruction. rewrite allowed by exact HP.
  rewrite (find_view Q (same_text l) (says l) _ _ HV) by (intros it s w' G; apply (shown_says Q _ _ _ _ G HD)). destruct (find_first (says l) (map fst st)) as [i|] eqn:F.
  - destruct (split_found Q _ _ _ _ HV F) as (ia & it & ib & sa & s & w' & sb & EI & LI & ES & V1 & V2 & V3 & X & _ & D & _). rewrite X. split; [|reflexivity].
    eexists _, (sa ++ sb). split; [reflexivity|]. split; [reflexivity|]. cbn [n_items note_update]. split; [rewrite EI, <- LI, delete_mid; apply view_app; assumption|]. rewrite D, map_app. reflexivity.
  - destruct (find_first_none _ _ F) as [X D]. rewrite X. split; [|reflexivity]. exists ed, st. rewrite D. auto.
Qed.
Lemma remove_matching_step : forall Q en pat ed st, n_perm ed <> Deny -> view Q (n_items ed) st -> (forall c, part_ok good_names c -> pat (comp_text c) = false) ->
  steps_to Q en (RemoveMatching pat) ed st /\ option_map fst (remove_matching pat ed) = Some (existsb (matched pat) (map fst st)).
Proof.
  intros Q en pat ed st HP HV HM.
  assert (exists st', view Q (filter (fun it => negb (to_remove pat it)) (n_items ed)) st' /\ map fst st' = filter (fun s => negb (matched pat s)) (map fst st)) as (st' & V & M).
  { induction HV as [|it [s w] items st H1 H2 IH]; [exists []; split; [constructor|reflexivity]|]. destruct IH as (st' & V & M). cbn [filter map fst snd] in *. rewrite (shown_matched Q _ _ _ pat H1 HM).
    destruct (negb (matched pat s)); [exists ((s, w) :: st'); split; [constructor; assumption|cbn [map fst]; f_equal; exact M]|exists st'; auto]. }
  assert ((match filter (to_remove pat) (n_items ed) with [] => false | _ => true end) = existsb (matched pat) (map fst st)) as X.
  { clear V M st'. induction HV as [|it [s w] items st H1 H2 IH]; [reflexivity|]. cbn [filter existsb map fst snd] in *. rewrite (shown_matched Q _ _ _ pat H1 HM). destruct (matched pat s); [reflexivity|exact IH]. }
  split.
  - unfold steps_to. cbn [do_cmd run_cmd]. unfold remove_matching. destruct (n_perm ed) eqn:E; [contradiction HP; reflexivity| |]; eexists _, st'; (split; [reflexivity|split; [cbn [snd n_perm]; rewrite ?E; reflexivity|split; [exact V|exact M]]]).
  - unfold remove_matching. destruct (n_perm ed) eqn:E; [contradiction HP; reflexivity| |]; cbn [option_map fst]; rewrite X; reflexivity.
Qed.
Theorem cmd_step : forall (Q : comp -> comp -> Prop) en k ed st, n_perm ed <> Deny -> view Q (n_items ed) st -> cmd_ok k (map fst st) ->
  (forall c, Q c c) -> (forall c0 c e, Q c0 c -> Q c0 (edit_comp e c)) -> steps_to Q en k ed st.
Proof.
  intros Q en k ed st HP HV HO Q0 QS. destruct k as [e|c p|r|l nl|l|pat].
  - destruct HO as [HO [_ HD]]. destruct (edit_step Q en e ed st HP HV HO HD Q0) as (ed' & st' & H); [intros c0 c; apply QS|]. exists ed', st'. exact H.
  - apply add_part_step; assumption.
  - apply remove_part_step; assumption.
  - apply add_line_step; assumption.
  - apply remove_line_step; assumption.
  - apply remove_matching_step; assumption.
Qed.
Theorem cmds_run : forall (Q : comp -> comp -> Prop) en ks ed st, n_perm ed <> Deny -> view Q (n_items ed) st -> cmds_ok ks (map fst st) ->
  (forall c, Q c c) -> (forall c0 c e, Q c0 c -> Q c0 (edit_comp e c)) ->
  exists ed' st', do_cmds en ks ed = Some ed' /\ n_perm ed' = n_perm ed /\ view Q (n_items ed') st' /\ map fst st' = run_cmds ks (map fst st).
Proof.
  intros Q en ks. induction ks as [|k ks IH]; intros ed st HP HV HO Q0 QS.
  - exists ed, st. repeat split; auto.
  - destruct HO as [HO1 HO2]. destruct (cmd_step Q en k ed st HP HV HO1 Q0 QS) as (ed1 & st1 & E1 & P1 & V1 & M1).
    destruct (IH ed1 st1) as (ed2 & st2 & E2 & P2 & V2 & M2); [rewrite P1; exact HP|exact V1|rewrite M1; exact HO2|exact Q0|exact QS|].
    exists ed2, st2. split; [cbn [do_cmds]; rewrite E1; exact E2|]. split; [congruence|]. split; [exact V2|]. rewrite M2, M1. reflexivity.
Qed.
Lemma components_shown : forall Q pre items st, view Q items st ->
  get_components pre items = Some (filter (fun d => match d with c :: _ => pre c | [] => false end) (designators (map fst st))).
Proof.
  intros Q pre items st H. induction H as [|it [s w] items st H1 H2 IH]; [reflexivity|]. cbn [fst snd map] in *. unfold designators in *. destruct s as [l|l|c|h b t|h b t|l b].
  1,2,4,5,6: destruct (shown_plain _ _ _ _ H1) as (-> & _ & _); [discriminate|]; cbn [item_of get_components map concat app]; exact IH.
  destruct (shown_part _ _ _ _ H1) as (o & e & HH & HA). cbn [map concat app filter]. destruct HH as [-> | ->]; cbn [get_components]; rewrite HA, IH; cbn [option_map]; rewrite attrs_ref; reflexivity.
Qed.
Lemma designator_not_empty : forall c, designator c <> [].
Proof. intros c. unfold designator. discriminate. Qed.
Lemma Forall2_in_r : forall {A B} (P : A -> B -> Prop) l m y, Forall2 P l m -> In y m -> exists x, P x y.
Proof. intros A B P l m y H. induction H as [|x z l m H1 H2 IH]; intros I; [destruct I|]. destruct I as [<-|I]; [exists x; exact H1|apply IH; exact I]. Qed.
