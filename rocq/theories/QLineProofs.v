From Coq Require Import String Ascii List Bool Arith ZArith Lia.
From Verif Require Import PyStr EngModel StepsModel Regex ParModel QTagModel QTagProofs QEdModel QNetModel QNetSpec QNetProofs2 QLineSpec.
Import ListNotations.
Local Open Scope string_scope. Local Open Scope nat_scope. Local Open Scope list_scope.

Lemma join_mid : forall name nodes l, nodes <> [] -> l <> [] -> join_blank (name :: join_blank nodes :: l) = join_blank (name :: nodes ++ l).
Proof.
  assert (J : forall nodes l, nodes <> [] -> l <> [] -> join_blank (nodes ++ l) = join_blank nodes ++ BLANK :: join_blank l).
  { induction nodes as [|a nodes IH]; intros l N L; [contradiction|]. destruct nodes as [|b nodes]; [cbn [app join_blank]; destruct l; [contradiction|reflexivity]|].
    change ((a :: b :: nodes) ++ l) with (a :: b :: (nodes ++ l)). change (join_blank (a :: b :: nodes ++ l)) with (a ++ BLANK :: join_blank ((b :: nodes) ++ l)).
    rewrite IH by (discriminate || exact L). change (join_blank (a :: b :: nodes)) with (a ++ BLANK :: join_blank (b :: nodes)). rewrite <- app_assoc. reflexivity. }
  intros name nodes l N L. destruct nodes as [|a nodes]; [contradiction|]. destruct l as [|b l]; [contradiction|].
  change (join_blank (name :: join_blank (a :: nodes) :: b :: l)) with (name ++ BLANK :: (join_blank (a :: nodes) ++ BLANK :: join_blank (b :: l))).
  change (join_blank (name :: (a :: nodes) ++ b :: l)) with (name ++ BLANK :: join_blank ((a :: nodes) ++ b :: l)). rewrite J by discriminate. reflexivity.
Qed.
Lemma mem_false : forall (l : list string) s, existsb (fun x => str_eqb s (s2l x)) l = false -> ~ In s (map s2l l).
Proof. intros l s H I. apply in_map_iff in I. destruct I as (x & <- & I). assert (existsb (fun y => str_eqb (s2l x) (s2l y)) l = true) as K by (apply existsb_exists; exists x; split; [exact I|apply str_eqb_refl]). congruence. Qed.
Lemma mem_true : forall (l : list string) s, existsb (fun x => str_eqb s (s2l x)) l = true -> In s (map s2l l).
Proof. intros l s H. apply existsb_exists in H. destruct H as (x & I & E). apply str_eqb_eq in E. subst s. apply in_map. exact I. Qed.
Lemma or_eqb : forall s a b, str_eqb s a || str_eqb s b = true -> s = a \/ s = b.
Proof. intros s a b H. apply orb_true_iff in H. rewrite !str_eqb_eq in H. exact H. Qed.
Lemma filled_all : forall typ ports, filled typ ports = all_nodes typ ports.
Proof.
  intros typ ports. unfold filled, all_nodes, nodes_needed. change (sign 165) with [YEN]. change (sign 195) with [ATILDE]. change (sign 128) with [EURO]. change (sign 163) with [POUND]. change unused with YEN.
  destruct (str_eqb typ [YEN] || str_eqb typ [ATILDE]); [reflexivity|]. destruct (str_eqb typ [EURO]); [reflexivity|]. destruct (str_eqb typ [POUND]); [reflexivity|]. cbn. rewrite app_nil_r. reflexivity.
Qed.
Lemma some_inj : forall A (a b : A), Some a = Some b -> a = b.
Proof. intros A a b H. injection H as H. exact H. Qed.
Lemma element_ok : forall verilog name typ symbol model params nodes block, nodes <> [] -> typ <> sign 216 ->
  element_line verilog name typ symbol model params nodes = Some block -> exists words, device name model symbol nodes typ words /\ block = [join_blank words ++ params].
Proof.
  intros verilog name typ symbol model params nodes block NN NO H. unfold element_line, blanks in H.
  destruct (str_eqb typ (s2l "X")) eqn:KX.
  { apply str_eqb_eq in KX. subst typ. apply some_inj in H; subst block. exists (name :: nodes ++ [model]). split; [|rewrite join_mid by (exact NN || discriminate); reflexivity]. apply D_plain. vm_compute. intuition discriminate. }
  destruct (str_eqb typ (s2l "QP") || str_eqb typ (s2l "QN")) eqn:KQ.
  { apply or_eqb in KQ. assert (IQ : In typ (map s2l ["QP"; "QN"])) by (cbn [map]; destruct KQ as [-> | ->]; [left|right; left]; reflexivity).
    destruct (existsb (fun x => str_eqb symbol (s2l x)) ["NPNS"; "PNPS"; "LPNP"]) eqn:KS.
    - destruct nodes as [|a [|b [|c [|d r]]]]; try discriminate. cbn [nth_error] in H. apply some_inj in H; subst block. apply mem_true in KS.
      exists (name :: a :: b :: c :: (s2l "[" ++ d ++ s2l "]") :: r ++ [model; if is_sub (s2l "PNP") symbol then s2l "PNP" else s2l "NPN"]). split.
      + eapply D_substrate; [exact IQ|reflexivity|]. destruct KS as [<- | [<- | [<- | []]]]; [left; split; reflexivity|right; split; [left; reflexivity|reflexivity]|right; split; [right; left; reflexivity|reflexivity]].
      + cbn [firstn skipn]. rewrite join_mid by discriminate. reflexivity.
    - apply some_inj in H; subst block. exists (name :: nodes ++ [s2l "[0]"; model; symbol]). split; [|rewrite join_mid by (exact NN || discriminate); reflexivity]. apply D_bipolar; [exact IQ|apply mem_false; exact KS]. }
  destruct (str_eqb typ (s2l "MN") || str_eqb typ (s2l "MP")) eqn:KM.
  { apply or_eqb in KM. assert (IM : In typ (map s2l ["MN"; "MP"])) by (cbn [map]; destruct KM as [-> | ->]; [left|right; left]; reflexivity).
    set (pol := if str_eqb symbol (s2l "NMOSB") || str_eqb symbol (s2l "PMOSB") then firstn 4 symbol else symbol) in *.
    assert (HP : symbol = pol /\ ~ In symbol (map s2l ["NMOSB"; "PMOSB"]) \/ symbol = s2l "NMOSB" /\ pol = s2l "NMOS" \/ symbol = s2l "PMOSB" /\ pol = s2l "PMOS").
    { unfold pol. destruct (str_eqb symbol (s2l "NMOSB")) eqn:S1; [apply str_eqb_eq in S1; subst symbol; right; left; split; reflexivity|]. destruct (str_eqb symbol (s2l "PMOSB")) eqn:S2; [apply str_eqb_eq in S2; subst symbol; right; right; split; reflexivity|].
      left. split; [reflexivity|]. intros I. apply (mem_false ["NMOSB"; "PMOSB"] symbol); [cbn [existsb]; rewrite S1, S2; reflexivity|exact I]. }
    destruct nodes as [|a [|b [|c [|d r]]]]; try (apply some_inj in H; subst block; eexists; split; [apply D_mos with (pol := pol); [exact IM|exact HP|intros ? ? ?; discriminate]|rewrite join_mid by discriminate; reflexivity]); [contradiction|].
    apply some_inj in H; subst block. eexists. split; [eapply D_mos3 with (pol := pol); [exact IM|exact HP|reflexivity]|]. rewrite join_mid by discriminate. reflexivity. }
  destruct (str_eqb typ (s2l "T")) eqn:KT.
  { apply str_eqb_eq in KT. subst typ. apply some_inj in H; subst block. eexists. split; [apply D_line|]. rewrite join_mid by (exact NN || discriminate). reflexivity. }
  destruct (str_eqb typ (s2l "JN") || str_eqb typ (s2l "JP")) eqn:KJ.
  { apply or_eqb in KJ. assert (IJ : In typ (map s2l ["JN"; "JP"])) by (cbn [map]; destruct KJ as [-> | ->]; [left|right; left]; reflexivity).
    apply some_inj in H; subst block. destruct (startswith (s2l "Pwr") symbol) eqn:SP.
    - assert (E : symbol = s2l "Pwr" ++ skipn 3 symbol).
      { destruct symbol as [|a [|b [|c r]]]; try discriminate SP; cbn in SP; change (s2l "Pwr") with (["P"; "w"; "r"]%char) in SP; cbn [startswith] in SP; repeat rewrite andb_true_iff in SP; try (destruct SP as (? & SP)); try (destruct SP as (? & SP)); try discriminate.
        destruct SP as (S3 & _). apply aeqb_eq in S3. apply aeqb_eq in H, H0. subst. reflexivity. }
      eexists. split; [eapply D_power; [exact IJ|exact E]|]. rewrite join_mid by (exact NN || discriminate). reflexivity.
    - eexists. split; [eapply D_jfet; [exact IJ|]|rewrite join_mid by (exact NN || discriminate); reflexivity]. intros r ->. discriminate SP. }
  change [CROSS] with (sign 215) in H. destruct (str_eqb typ (sign 215)) eqn:KC.
  { apply str_eqb_eq in KC. subst typ. apply some_inj in H; subst block. eexists. split; [apply D_cross|reflexivity]. }
  destruct (str_eqb typ (s2l "ZP") || str_eqb typ (s2l "ZN")) eqn:KZ.
  { apply or_eqb in KZ. assert (IZ : In typ (map s2l ["ZP"; "ZN"])) by (cbn [map]; destruct KZ as [-> | ->]; [left|right; left]; reflexivity).
    apply some_inj in H; subst block. eexists. split; [eapply D_mesfet; exact IZ|]. rewrite join_mid by (exact NN || discriminate). reflexivity. }
  change [OSLASH] with (sign 216) in H. destruct (str_eqb typ (sign 216)) eqn:KO; [apply str_eqb_eq in KO; contradiction|].
  apply some_inj in H; subst block. eexists. split; [eapply D_plain|rewrite join_mid by (exact NN || discriminate); reflexivity].
  apply orb_false_iff in KQ, KM, KJ, KZ. destruct KQ, KM, KJ, KZ. unfold other_kinds. intros I. apply in_app_or in I.
  destruct I as [I|[I|[I|[]]]]; [|rewrite I, str_eqb_refl in KC; discriminate|rewrite I, str_eqb_refl in KO; discriminate].
  cbn [map] in I. repeat (destruct I as [I|I]; [rewrite I, str_eqb_refl in *; discriminate|]). exact I.
Qed.
Lemma type_ok : forall s value typ symbol, type_of s value = Some (typ, symbol) -> kind s value typ symbol /\ typ <> [].
Proof.
  intros s value typ symbol H. unfold type_of in H. destruct (1 <? length (toks s)) eqn:L.
  - apply Nat.ltb_lt in L. destruct (get_text_attr 1 s) as [a|] eqn:GA; [|discriminate]. unfold get_text1 in H. destruct (get_items _ s) as [|b [|b' r]] eqn:GI; try discriminate.
    destruct (match toks b with _ :: x :: _ => x | _ => [] end) as [|c r] eqn:EB; [discriminate|]. injection H as <- <-. split; [|discriminate]. left. split; [lia|]. split; [exact GA|].
    exists b. split; [exact GI|]. split; [symmetry; exact EB|discriminate].
  - apply Nat.ltb_ge in L. unfold get_text in H. change (s2l "type" ++ [COLON]) with (s2l "type:") in H. change (get_items (s2l "type:") s) with (children "type:" s) in H.
    assert (NV : forall P : Prop, (verilog_module s -> P) -> (exists a c r, children "type:" s = [a] /\ second a = c :: r /\ c = OSLASH) -> P) by (intros P K (a & c & r & A & B & ->); apply K; exists a, r; split; assumption).
    unfold verilog_module in *. assert (X0 : (forall a, children "type:" s = [a] -> forall r, second a <> OSLASH :: r) -> Some (s2l "X", s2l "X") = Some (typ, symbol) -> kind s value typ symbol /\ typ <> []).
    { intros N K. injection K as <- <-. split; [|discriminate]. right. split; [exact L|]. right. split; [|split; reflexivity]. intros (a & r & A & B). exact (N a A r B). }
    destruct (children "type:" s) as [|a [|b r]] eqn:CT.
    + change (aeqb "X" OSLASH) with false in H. apply X0; [intros a K; discriminate|exact H].
    + unfold second in X0. destruct (toks a) as [|x [|y z]] eqn:TA.
      * apply X0; [intros a' K r; injection K as <-; rewrite TA; discriminate|exact H].
      * apply X0; [intros a' K r; injection K as <-; rewrite TA; discriminate|exact H].
      * destruct y as [|c r]; [apply X0; [intros a' K r; injection K as <-; rewrite TA; discriminate|exact H]|]. destruct (aeqb c OSLASH) eqn:EC.
        { apply aeqb_eq in EC. subst c. injection H as <- <-. split; [|discriminate]. right. split; [exact L|]. left. split; [|split; reflexivity]. exists a, r. split; [exact CT|]. unfold second. rewrite TA. reflexivity. }
        { apply X0; [|exact H]. intros a' K r'. injection K as <-. rewrite TA. intros K. injection K as -> _. rewrite aeqb_refl in EC. discriminate. }
    + change (aeqb "X" OSLASH) with false in H. apply X0; [intros a' K; discriminate|exact H].
Qed.
Lemma name_ok : forall typ ref, typ <> [] -> ref = [] \/ known_as typ ref (netlist_name typ ref).
Proof.
  intros [|c r] [|d r'] H; try contradiction; [left; reflexivity|]. right. exists c, r, d, r'. split; [reflexivity|]. split; [reflexivity|]. cbn [netlist_name].
  destruct (aeqb c d) eqn:E; [apply aeqb_eq in E; left; split; [exact E|reflexivity]|apply aeqb_neq in E; right; split; [exact E|reflexivity]].
Qed.
Lemma params_ok : forall l t, param_text l = Some t -> exists extra, Forall2 (fun t x => get_text_attr 8 t = Some x) l extra /\ t = flat_map (fun x => " "%char :: decap x) extra.
Proof.
  induction l as [|x l IH]; intros t H; cbn [param_text] in H; [injection H as <-; exists []; split; [constructor|reflexivity]|]. destruct (get_text_attr 8 x) as [a|] eqn:E; [|discriminate].
  destruct (param_text l) as [b|]; [|discriminate]. injection H as <-. destruct (IH b eq_refl) as (extra & F & ->). exists (a :: extra). split; [constructor; assumption|]. reflexivity.
Qed.
Lemma library_eq : forall s, get_text (s2l "library file") [] s = library s.
Proof. intros s. unfold get_text, library, second. change (s2l "library file" ++ [COLON]) with (s2l "library file:"). change (get_items (s2l "library file:") s) with (children "library file:" s). destruct (children "library file:" s) as [|a [|b r]]; reflexivity. Qed.
Lemma bar_ok : forall l, startswith (s2l "|") l = true <-> exists r, l = "|"%char :: r.
Proof. intros [|c l]; [split; [discriminate|intros (r & H); discriminate]|]. change (startswith (s2l "|") (c :: l)) with (aeqb "|" c && true). rewrite andb_true_r, aeqb_eq. split; [intros <-; exists l; reflexivity|intros (r & H); injection H as <- _; reflexivity]. Qed.
Lemma all_nodes_some : forall typ ports, ports <> [] -> all_nodes typ ports <> [].
Proof. intros typ [|a l] H; [contradiction|]. unfold all_nodes. intros K. discriminate K. Qed.
Lemma share_ok : forall embed verilog hs ref item ports enabled value sub sh, share_of embed verilog hs ref item ports enabled value = Some sh ->
  lines_of embed (Part ref item ports enabled value sub) (s_lines sh).
Proof.
  intros embed verilog hs ref item ports enabled value sub sh H. unfold share_of in H. unfold lines_of. change (get_items SYMBOL item) with (children "symbol" item) in H.
  destruct (children "symbol" item) as [|s [|s' r]] eqn:CS; [injection H as <-; left; split; [right; discriminate|reflexivity]| |injection H as <-; left; split; [right; discriminate|reflexivity]].
  destruct enabled; cbn [negb] in H; [|injection H as <-; left; split; [left; reflexivity|reflexivity]]. right. split; [reflexivity|].
  destruct (type_of s value) as [[typ symbol]|] eqn:TY; [|discriminate]. apply type_ok in TY. destruct TY as (KD & TN). destruct (get_items TEXT s) as [|t1 [|t2 more]] eqn:GT; try discriminate.
  destruct (get_text_attr 8 t2) as [model|] eqn:GM; [|discriminate]. destruct (param_text more) as [params|] eqn:PT; [|discriminate]. apply params_ok in PT. destruct PT as (extra & FE & ->).
  rewrite library_eq in H. rewrite filled_all in H. set (name := netlist_name typ ref) in *. set (model' := if startswith (s2l "|") (library s) then name ++ BULLET :: model else model) in *.
  destruct (element_line verilog name typ symbol model' _ (all_nodes typ ports)) as [line|] eqn:EL; [|discriminate].
  exists s, t1, t2, more, typ, symbol, model, name, extra. split; [reflexivity|]. split; [exact KD|]. split; [exact GT|]. split; [exact GM|]. split; [exact FE|]. split; [apply name_ok; exact TN|].
  intros NP NR NO. destruct (element_ok _ _ _ _ _ _ _ _ (all_nodes_some typ ports NP) NO EL) as (words & DV & ->).
  exists words, (if startswith (s2l "|") (library s) then embed name (library s) else []), model'. split; [exact DV|]. split.
  - destruct (if str_eqb typ (s2l "X") && hs then option_map (fun p : str => Some (model', p)) (sub_ports s) else Some None) as [sb|]; [|discriminate]. injection H as <-. cbn [s_lines]. reflexivity.
  - unfold model', own_library. destruct (startswith (s2l "|") (library s)) eqn:B; [left|right]; (split; [|split; reflexivity]).
    + apply bar_ok. exact B.
    + intros K. apply bar_ok in K. congruence.
Qed.
Definition shares (embed : str -> str -> list str) (verilog : str -> option (list str)) (parts : list part) : list (option share) :=
  map (fun p => match p with Part ref item ports enabled value sub => share_of embed verilog (match sub with Some _ => true | None => false end) ref item ports enabled value end) parts.
Definition bodies (embed : str -> str -> list str) (lib_path : str -> str) (parts : list part) : list (option (list str)) :=
  map (fun p => match p with Part _ _ _ _ _ (Some b) => write_sheet embed lib_path (fun _ => None) b | _ => None end) parts.
Lemma write_eq : forall embed lib_path verilog parts texts,
  write_sheet embed lib_path verilog (Sheet parts texts) = assemble lib_path (shares embed verilog parts) (bodies embed lib_path parts) texts.
Proof.
  intros embed lib_path verilog parts texts. cbn [write_sheet]. f_equal. induction parts as [|[r i po e v [b|]] parts IH]; [reflexivity| |]; cbn [bodies map]; f_equal; exact IH.
Qed.
Lemma write_split : forall embed lib_path verilog parts texts out, write_sheet embed lib_path verilog (Sheet parts texts) = Some out -> exists ss d t,
  Forall2 (fun p sh => match p with Part ref item ports enabled value sub => share_of embed verilog (match sub with Some _ => true | None => false end) ref item ports enabled value = Some sh end) parts ss /\
  definitions (combine ss (bodies embed lib_path parts)) [] = Some d /\ text_lines texts = Some t /\
  out = flat_map s_lines ss ++ d ++ t ++ map (fun l => s2l ".lib " ++ lib_path l) (add_new (libs ss) []).
Proof.
  intros embed lib_path verilog parts texts out H. rewrite write_eq in H. unfold assemble in H. destruct (map_opt (fun x => x) (shares embed verilog parts)) as [ss|] eqn:M; [|discriminate].
  destruct (definitions _ []) as [d|] eqn:D; [|discriminate]. destruct (text_lines texts) as [t|]; [|discriminate]. injection H as <-. exists ss, d, t. split; [|split; [exact D|split; reflexivity]].
  clear D. apply map_opt_ok in M. unfold shares in M. revert ss M. induction parts as [|[r i po e v b] parts IH]; intros ss M; inversion M; subst; constructor; [assumption|]. apply IH. assumption.
Qed.
