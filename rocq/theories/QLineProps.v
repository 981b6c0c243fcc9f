(** The lines of the netlist of a QSPICE schematic: C190 - C197 (spicelib/editor/qsch_editor.py, [save_netlist]). *)
From Coq Require Import String Ascii List Bool Arith ZArith Lia.
From Verif Require Import PyStr EngModel StepsModel Regex ParModel QTagModel QTagProofs QEdModel QNetModel QNetSpec QNetProofs2 QNetProps QLineSpec QLineProofs QLineProofs2 QLineProofs3.
Import ListNotations.
Local Open Scope string_scope. Local Open Scope nat_scope. Local Open Scope list_scope.

Lemma F2_map_r : forall A B C (P : A -> C -> Prop) (f : B -> C) l r, Forall2 (fun x y => P x (f y)) l r -> Forall2 P l (map f r).
Proof. intros A B C P f l r F. induction F; constructor; assumption. Qed.
Lemma F2_ex : forall A B C (P : A -> B -> C -> Prop) l r, Forall2 (fun x y => exists z, P x y z) l r -> exists zs, Forall2 (fun x z => P x (snd z) (fst z)) l zs /\ map snd zs = r.
Proof. intros A B C P l r F. induction F as [|x y l r (z & H) F (zs & G & E)]; [exists []; split; [constructor|reflexivity]|]. exists ((z, y) :: zs). split; [constructor; assumption|cbn; rewrite E; reflexivity]. Qed.
Lemma combine_split : forall A B (l : list A) (r : list B) a x y b, combine l r = a ++ (x, y) :: b -> length l = length r -> exists l1 l2 r1 r2, l = l1 ++ x :: l2 /\ r = r1 ++ y :: r2 /\ a = combine l1 r1 /\ length l1 = length r1.
Proof.
  intros A B. induction l as [|u l IH]; intros [|v r] a x y b H L; cbn in *; try lia; [destruct a; discriminate|]. destruct a as [|z a].
  - injection H as <- <- _. exists [], l, [], r. repeat split; reflexivity.
  - injection H as <- H. destruct (IH r a x y b H ltac:(lia)) as (l1 & l2 & r1 & r2 & -> & -> & -> & L'). exists (u :: l1), l2, (v :: r1), r2. repeat split; cbn; congruence.
Qed.
Lemma F2_cut : forall A B (P : A -> B -> Prop) l l1 x l2, Forall2 P l (l1 ++ x :: l2) -> exists a p b, l = a ++ p :: b /\ Forall2 P a l1 /\ P p x /\ Forall2 P b l2.
Proof.
  intros A B P l l1. revert l. induction l1 as [|y l1 IH]; intros l x l2 F; cbn [app] in F; inversion F; subst.
  - eexists [], _, _. repeat split; [constructor|assumption|assumption].
  - destruct (IH _ _ _ H3) as (a & p & b & -> & Fa & Pp & Fb). eexists (_ :: a), p, b. repeat split; [constructor; assumption|assumption|assumption].
Qed.
Lemma bodies_at : forall embed lib_path a p b r1 y r2, bodies embed lib_path (a ++ p :: b) = r1 ++ y :: r2 -> length a = length r1 -> y = match p with Part _ _ _ _ _ (Some s) => write_sheet embed lib_path (fun _ => None) s | _ => None end.
Proof.
  intros embed lib_path. induction a as [|q a IH]; intros p b [|z r1] y r2 H L; cbn in L; try lia; cbn [app bodies map] in H.
  - injection H as <- _. reflexivity.
  - injection H as _ H. eapply IH; [exact H|lia].
Qed.
(** The whole file. *)
Lemma layout : forall embed lib_path path verilog parts texts lines, netlist embed lib_path path verilog (Sheet parts texts) = Some lines -> exists ss defs tb ls,
  lines = file_of path (map s_lines ss) defs tb (map lib_path ls) /\
  Forall2 (fun p sh => match p with Part ref item ports enabled value sub => share_of embed verilog (match sub with Some _ => true | None => false end) ref item ports enabled value = Some sh end) parts ss /\
  definitions (combine ss (bodies embed lib_path parts)) [] = Some (flat_map definition_lines defs) /\ NoDup (map (fun x => fst (fst x)) defs) /\
  (forall m, In m (map (fun x => fst (fst x)) defs) <-> exists sh nd, In sh ss /\ s_sub sh = Some (m, nd)) /\
  (forall m nd b, In (m, nd, b) defs -> exists a r l1 sh l2, parts = a ++ r :: l2 /\ ss = l1 ++ sh :: skipn (S (length a)) ss /\ length l1 = length a /\ s_sub sh = Some (m, nd) /\
     match r with Part _ _ _ _ _ (Some s) => write_sheet embed lib_path (fun _ => None) s | _ => None end = Some b /\ forall sh' nd', In sh' l1 -> s_sub sh' <> Some (m, nd')) /\
  Forall2 text_lines_of texts tb /\ NoDup ls /\ (forall l, In l ls <-> exists sh, In sh ss /\ s_lib sh = Some l).
Proof.
  intros embed lib_path path verilog parts texts lines H. unfold netlist in H. destruct (write_sheet embed lib_path verilog (Sheet parts texts)) as [out|] eqn:W; [|discriminate]. cbn [option_map] in H. apply some_inj in H. subst lines.
  destruct (write_split _ _ _ _ _ _ W) as (ss & d & t & F & D & T & ->). destruct (texts_ok _ _ T) as (tb & FT & ->). destruct (defs_ok _ _ _ D) as (defs & -> & N & A & B).
  assert (LB : length ss = length (bodies embed lib_path parts)) by (unfold bodies; rewrite map_length; symmetry; clear - F; induction F; cbn; congruence).
  exists ss, defs, tb, (add_new (libs ss) []). split; [|split; [exact F|split; [exact D|split; [exact N|split; [|split; [|split; [exact FT|split]]]]]]].
  - unfold file_of. rewrite <- flat_map_concat_map. rewrite map_map. rewrite <- !app_assoc. reflexivity.
  - intros m. rewrite A. split; [intros (_ & sh & b & nd & I & E); exists sh, nd; split; [eapply in_combine_l; exact I|exact E]|]. intros (sh & nd & I & E). split; [intros []|].
    apply In_nth_error in I. destruct I as (n & I). destruct (nth_error (bodies embed lib_path parts) n) as [b|] eqn:EB; [|apply nth_error_None in EB; assert (n < length ss) by (apply nth_error_Some; congruence); lia].
    exists sh, b, nd. split; [|exact E]. clear - I EB. revert n I EB. generalize (bodies embed lib_path parts) as bs. induction ss as [|s0 ss IH]; intros bs [|n] I EB; try discriminate; destruct bs as [|b0 bs]; try discriminate; cbn in *; [left; congruence|right; eapply IH; eassumption].
  - intros m nd b I. destruct (B m nd b I) as (a & sh & r & E & SE & NF). destruct (combine_split _ _ _ _ _ _ _ _ E LB) as (l1 & l2 & r1 & r2 & E1 & E2 & -> & L1). rewrite E1 in F. destruct (F2_cut _ _ _ _ _ _ _ F) as (pa & p & pb & -> & Fa & Pp & Fb).
    assert (LP : length l1 = length pa) by (clear - Fa; induction Fa; cbn; congruence). exists pa, p, l1, sh, pb. split; [reflexivity|]. split.
    { rewrite E1. rewrite <- LP. f_equal. f_equal. clear. induction l1; [reflexivity|]. cbn. exact IHl1. }
    split; [exact LP|]. split; [exact SE|]. split; [symmetry; eapply bodies_at; [exact E2|lia]|]. intros sh' nd' I'. apply In_nth_error in I'. destruct I' as (n & I'). destruct (nth_error r1 n) as [b1|] eqn:EB; [|apply nth_error_None in EB; assert (n < length l1) by (apply nth_error_Some; congruence); lia].
    apply (NF sh' b1 nd'). clear - I' EB. revert r1 n I' EB. induction l1 as [|s0 ss IH]; intros bs [|n] I EB; try discriminate; destruct bs as [|b0 bs]; try discriminate; cbn in *; [left; congruence|right; eapply IH; eassumption].
  - apply (add_new_ok (libs ss) []).
  - intros l. rewrite (proj2 (add_new_ok (libs ss) []) l), libs_In. split; [intros (K & _); exact K|intros K; split; [exact K|intros []]].
Qed.

(** C190: every component of the schematic is written in the order of the schematic as the lines its symbol asks for: none if it is
    disabled; else one with its name, its nodes, its value and its parameters. *)
Theorem C190_component_lines : forall embed lib_path path verilog parts texts lines, netlist embed lib_path path verilog (Sheet parts texts) = Some lines ->
  exists blocks defs tb ls, lines = file_of path blocks defs tb ls /\ Forall2 (lines_of embed) parts blocks.
Proof.
  intros embed lib_path path verilog parts texts lines H. destruct (layout _ _ _ _ _ _ _ H) as (ss & defs & tb & ls & E & F & _). exists (map s_lines ss), defs, tb, (map lib_path ls). split; [exact E|].
  apply F2_map_r. eapply F2_impl; [|exact F]. intros [ref item ports enabled value sub] sh K. eapply share_ok. exact K.
Qed.
Print Assumptions C190_component_lines.

(** C191: no two components get the same name. *)
Theorem C191_names : forall embed lib_path path verilog parts texts lines, netlist embed lib_path path verilog (Sheet parts texts) = Some lines ->
  NoDup (map ref_of parts) -> (forall p, In p parts -> ~ In acute (ref_of p)) ->
  exists named defs tb ls, lines = file_of path (map snd named) defs tb ls /\ Forall2 (fun p x => named_lines embed p (fst x) (snd x)) parts named /\ NoDup (map fst named).
Proof.
  intros embed lib_path path verilog parts texts lines H N A. destruct (layout _ _ _ _ _ _ _ H) as (ss & defs & tb & ls & E & F & _).
  assert (G : Forall2 (fun p b => exists name, named_lines embed p name b) parts (map s_lines ss)).
  { apply F2_map_r. eapply F2_impl; [|exact F]. intros [ref item ports enabled value sub] sh K. eapply share_head. exact K. }
  destruct (F2_ex _ _ _ (fun p b n => named_lines embed p n b) _ _ G) as (zs & FZ & EZ). exists zs, defs, tb, (map lib_path ls). rewrite EZ. split; [exact E|]. split; [exact FZ|]. eapply names_differ; eassumption.
Qed.
Print Assumptions C191_names.

(** C192: the texts of the schematic are written line by line, in their order; comments are not. *)
Theorem C192_texts : forall embed lib_path path verilog parts texts lines, netlist embed lib_path path verilog (Sheet parts texts) = Some lines ->
  exists blocks defs tb ls, lines = file_of path blocks defs tb ls /\ Forall2 text_lines_of texts tb.
Proof.
  intros embed lib_path path verilog parts texts lines H. destruct (layout _ _ _ _ _ _ _ H) as (ss & defs & tb & ls & E & _ & _ & _ & _ & _ & F & _). exists (map s_lines ss), defs, tb, (map lib_path ls). split; assumption.
Qed.
Print Assumptions C192_texts.

(** The same holds of the directives of an editor (C47), whatever edits led to it. *)
Lemma directives_eq : forall store l, directives store l = text_lines (filter (head_is TEXT) (map store l)).
Proof. intros store. induction l as [|i l IH]; [reflexivity|]. cbn [directives map filter]. destruct (head_is TEXT (store i)); [cbn [text_lines]; rewrite IH; reflexivity|exact IH]. Qed.
Theorem C192_editor : forall ed lines, netlist_directives ed = Some lines -> exists tb, Forall2 text_lines_of (children "text" (tree ed)) tb /\ lines = concat tb.
Proof. intros ed lines H. unfold netlist_directives in H. rewrite directives_eq in H. exact (texts_ok _ _ H). Qed.
Print Assumptions C192_editor.

(** C193: each library a component needs is included exactly once, and no other. *)
Theorem C193_libraries : forall embed lib_path path verilog parts texts lines, netlist embed lib_path path verilog (Sheet parts texts) = Some lines ->
  exists blocks defs tb ls, lines = file_of path blocks defs tb (map lib_path ls) /\ NoDup ls /\ forall l, In l ls <-> exists p, In p parts /\ needs p l.
Proof.
  intros embed lib_path path verilog parts texts lines H. destruct (layout _ _ _ _ _ _ _ H) as (ss & defs & tb & ls & E & F & _ & _ & _ & _ & _ & N & L). exists (map s_lines ss), defs, tb, ls. split; [exact E|]. split; [exact N|]. intros l. rewrite L. split.
  - intros (sh & I & K). destruct (F2_In_r _ _ _ _ _ _ F I) as ([ref item ports enabled value sub] & IP & Q). exists (Part ref item ports enabled value sub). split; [exact IP|]. eapply share_lib; eassumption.
  - intros ([ref item ports enabled value sub] & IP & K). destruct (F2_In_l _ _ _ _ _ _ F IP) as (sh & I & Q). exists sh. split; [exact I|]. eapply share_lib; eassumption.
Qed.
Print Assumptions C193_libraries.

(** C194: each sub-circuit that is used is defined exactly once, with the lines of its schematic: that of the first instance. *)
Theorem C194_subcircuits : forall embed lib_path path verilog parts texts lines, netlist embed lib_path path verilog (Sheet parts texts) = Some lines -> (forall p, In p parts -> ref_of p <> []) ->
  exists blocks defs tb ls, lines = file_of path blocks defs tb ls /\ NoDup (map (fun x => fst (fst x)) defs) /\
    (forall m, In m (map (fun x => fst (fst x)) defs) <-> exists p nodes body, In p parts /\ instance_of p m nodes body) /\
    (forall m nodes inner, In (m, nodes, inner) defs -> exists a p b body, parts = a ++ p :: b /\ instance_of p m nodes body /\ write_sheet embed lib_path (fun _ => None) body = Some inner /\
       forall q nodes' body', In q a -> ~ instance_of q m nodes' body').
Proof.
  intros embed lib_path path verilog parts texts lines H NR. destruct (layout _ _ _ _ _ _ _ H) as (ss & defs & tb & ls & E & F & _ & N & A & B & _). exists (map s_lines ss), defs, tb, (map lib_path ls). split; [exact E|]. split; [exact N|]. split.
  - intros m. rewrite A. split.
    + intros (sh & nd & I & K). destruct (F2_In_r _ _ _ _ _ _ F I) as ([ref item ports enabled value sub] & IP & Q). destruct (proj1 (share_sub _ _ _ _ _ _ _ _ _ m nd Q) K) as (body & IO). exists (Part ref item ports enabled value sub), nd, body. split; assumption.
    + intros ([ref item ports enabled value sub] & nd & body & IP & IO). destruct (F2_In_l _ _ _ _ _ _ F IP) as (sh & I & Q). exists sh, nd. split; [exact I|]. exact (proj2 (share_sub _ _ _ _ _ _ _ _ _ m nd Q) (NR _ IP) body IO).
  - intros m nd b I. destruct (B m nd b I) as (a & p & l1 & sh & pb & EP & ES & L & SE & WB & NF). rewrite ES in F. destruct (F2_cut _ _ _ _ _ _ _ F) as (a' & p' & b' & EP' & Fa & Pp & _).
    assert (LA : length a' = length a) by (rewrite <- L; clear - Fa; induction Fa; cbn; congruence). rewrite EP in EP'. assert (EQ : a' = a /\ p' = p /\ b' = pb).
    { clear - EP' LA. revert a' LA EP'. induction a as [|x a IH]; intros [|y a'] L E; cbn in *; try lia; injection E as -> E; [subst; auto|destruct (IH a' ltac:(lia) E) as (-> & -> & ->); auto]. }
    destruct EQ as (-> & -> & ->). destruct p as [ref item ports enabled value sub]. destruct (proj1 (share_sub _ _ _ _ _ _ _ _ _ m nd Pp) SE) as (body & IO). pose proof IO as IO2. unfold instance_of in IO2. destruct IO2 as (_ & -> & _).
    exists a, (Part ref item ports enabled value (Some body)), pb, body. split; [exact EP|]. split; [exact IO|]. split; [exact WB|]. intros [ref' item' ports' enabled' value' sub'] nd' body' IQ IO'.
    destruct (F2_In_l _ _ _ _ _ _ Fa IQ) as (sh' & IS & Q). apply (NF sh' nd' IS). refine (proj2 (share_sub _ _ _ _ _ _ _ _ _ m nd' Q) _ body' IO'). apply (NR (Part ref' item' ports' enabled' value' sub')). rewrite EP. apply in_or_app. left. exact IQ.
Qed.
Print Assumptions C194_subcircuits.

(** C195: an edit in the schematic of an instance is in the netlist.  It is not if an earlier instance has the same model: whatever the
    schematic of the later one is, the same lines are written. *)
Theorem C195_second_instance_refuted : forall embed lib_path path verilog a x b y c texts m nx ny body_x body_y body_y', ref_of x <> [] -> ref_of y <> [] -> instance_of x m nx body_x -> instance_of y m ny body_y ->
  netlist embed lib_path path verilog (Sheet (a ++ x :: b ++ y :: c) texts) = netlist embed lib_path path verilog (Sheet (a ++ x :: b ++ with_sub y body_y' :: c) texts).
Proof.
  intros embed lib_path path verilog a x b y c texts m nx ny bx by1 by2 RX RY IX IY. unfold netlist. f_equal. rewrite !write_eq.
  destruct x as [rx itx px ex vx sx]. destruct y as [ry ity py ey vy sy]. cbn [with_sub ref_of] in *. pose proof IX as (_ & -> & _). pose proof IY as (_ & -> & _).
  unfold assemble. assert (SH : shares embed verilog (a ++ Part rx itx px ex vx (Some bx) :: b ++ Part ry ity py ey vy (Some by2) :: c) = shares embed verilog (a ++ Part rx itx px ex vx (Some bx) :: b ++ Part ry ity py ey vy (Some by1) :: c)).
  { unfold shares. rewrite !map_app. cbn [map]. rewrite !map_app. reflexivity. }
  rewrite SH. destruct (map_opt (fun z => z) (shares embed verilog (a ++ Part rx itx px ex vx (Some bx) :: b ++ Part ry ity py ey vy (Some by1) :: c))) as [ss|] eqn:M; [|reflexivity].
  assert (DE : definitions (combine ss (bodies embed lib_path (a ++ Part rx itx px ex vx (Some bx) :: b ++ Part ry ity py ey vy (Some by1) :: c))) [] = definitions (combine ss (bodies embed lib_path (a ++ Part rx itx px ex vx (Some bx) :: b ++ Part ry ity py ey vy (Some by2) :: c))) []); [|rewrite DE; reflexivity].
  apply map_opt_ok in M. unfold shares in M. rewrite map_app in M. cbn [map] in M. rewrite map_app in M. cbn [map] in M.
  apply Forall2_app_inv_l in M. destruct M as (s1 & s2 & M1 & M2 & ->). inversion M2 as [|? shx ? s3 HX M3]; subst. apply Forall2_app_inv_l in M3. destruct M3 as (s4 & s5 & M4 & M5 & ->). inversion M5 as [|? shy ? s6 HY M6]; subst.
  assert (L1 : length s1 = length a) by (apply eq_sym; rewrite <- (map_length (fun p => match p with Part ref item ports enabled value sub => share_of embed verilog (match sub with Some _ => true | None => false end) ref item ports enabled value end) a); clear - M1; induction M1; cbn; congruence).
  assert (L4 : length s4 = length b) by (apply eq_sym; rewrite <- (map_length (fun p => match p with Part ref item ports enabled value sub => share_of embed verilog (match sub with Some _ => true | None => false end) ref item ports enabled value end) b); clear - M4; induction M4; cbn; congruence).
  assert (CB : forall A B (l1 l2 : list A) (r1 r2 : list B), length l1 = length r1 -> combine (l1 ++ l2) (r1 ++ r2) = combine l1 r1 ++ combine l2 r2) by (intros A B l1; induction l1 as [|? l1 IH]; intros l2 [|? r1] r2 L; cbn in L; try lia; [reflexivity|cbn; f_equal; apply IH; lia]).
  unfold bodies. rewrite !map_app. cbn [map]. rewrite !map_app. cbn [map]. rewrite !(CB _ _ s1) by (rewrite map_length; exact L1). cbn [combine]. rewrite !(CB _ _ s4) by (rewrite map_length; exact L4). cbn [combine].
  eapply defs_ignore.
  - refine (proj2 (share_sub embed verilog rx itx px ex vx (Some bx) shx m nx HX) RX bx IX).
  - refine (proj2 (share_sub embed verilog ry ity py ey vy (Some by1) shy m ny HY) RY by1 IY).
Qed.
Print Assumptions C195_second_instance_refuted.

(** C196: a value in angle brackets is written without them; a text without a bracket is written as it is. *)
Theorem C196_brackets : (forall w v, w <> [] -> forallb word_char w = true -> ~ In NLc v -> decap (w ++ s2l "=<" ++ v ++ s2l ">") = w ++ s2l "=" ++ v) /\ (forall s, ~ In "<"%char s -> decap s = s).
Proof. split; [intros w v N W V; apply decap_one; assumption|apply decap_plain]. Qed.
Print Assumptions C196_brackets.
Example C196_nonvacuous : decap (s2l "W=<5u>") = s2l "W=5u" /\ decap (s2l "5 M=2") = s2l "5 M=2".
Proof. split; vm_compute; reflexivity. Qed.
(** C197: so are several values in one text.  They are not: the first bracket pairs with the last. *)
Theorem C197_two_brackets_refuted : decap (s2l "W=<5u> L=<2u>") = s2l "W=5u> L=<2u".
Proof. vm_compute. reflexivity. Qed.
Print Assumptions C197_two_brackets_refuted.

(** Two resistors, one disabled, a transistor, and two instances of a sub-circuit. *)
Definition ex_dev (kind typ ref v : string) (more : list tag) : tag :=
  Tag [tok "component"; tok "(0,0)"; tok "0"; tok "0"] [Tag [tok "symbol"; tok kind] ([Tag [tok "type:"; tok typ] []; ex_txt ref; ex_txt v] ++ more)].
Definition ex_block (ref v : string) : tag :=
  Tag [tok "component"; tok "(0,0)"; tok "0"; tok "0"] [Tag [tok "symbol"] [Tag [tok "type:"; tok "X"] []; ex_txt ref; ex_txt v; ex_pin "(0,200)" "a"; ex_pin "(0,-200)" "b"]].
Definition ex_lib (l : string) : tag := Tag [tok "library file:"; tok l] [].
Definition ex_text (comment s : string) : tag := Tag [tok "text"; tok "(100,150)"; tok "1"; tok "7"; tok comment; tok "0x1000000"; tok "-1"; tok "-1"; quo s] [].
Definition ex_inner (v : string) : sheet := Sheet [Part (s2l "R1") (ex_res "(0,0)" "R1" v) (map s2l ["a"; "b"]) true (s2l v) None] [].
Definition ex_sheet (v : string) : sheet :=
  Sheet [Part (s2l "R1") (ex_res "(0,0)" "R1" "1k") (map s2l ["in"; "out"]) true (s2l "1k") None;
         Part (s2l "R2") (ex_res "(0,0)" "R2" "2k") (map s2l ["in"; "out"]) false (s2l "2k") None;
         Part (s2l "M1") (ex_dev "NMOS" "MN" "M1" "BSS123" [ex_txt "W=<5u>"; ex_lib "NMOS.txt"]) (map s2l ["d"; "g"; "0"]) true (s2l "BSS123") None;
         Part (s2l "M2") (ex_dev "NMOS" "MN" "M2" "BSS123" [ex_lib "NMOS.txt"]) (map s2l ["d"; "g"; "0"]) true (s2l "BSS123") None;
         Part (s2l "X1") (ex_block "X1" "amp") (map s2l ["in"; "out"]) true (s2l "amp") (Some (ex_inner "5k"));
         Part (s2l "U2") (ex_block "U2" "amp") (map s2l ["out"; "0"]) true (s2l "amp") (Some (ex_inner v))]
        [ex_text "0" ".tran 1\n.param a=1"; ex_text "1" "a note"].
Definition ex_lines : list str :=
  map s2l ["* a.qsch"; "R1 in out 1k"; "M1 d g 0 0 BSS123 NMOS W=5u"; "M2 d g 0 0 BSS123 NMOS"; "X1 in out amp"] ++ [s2l "X" ++ acute :: s2l "U2 out 0 amp"] ++
  map s2l [""; ".subckt amp a b"; "R1 a b 5k"; ".ends amp"; ""; ".tran 1"; ".param a=1"; ".lib NMOS.txt"; ".end"].
Example C190_nonvacuous : netlist (fun _ _ => []) (fun l => l) (s2l "a.qsch") (fun _ => None) (ex_sheet "6k") = Some ex_lines /\ netlist (fun _ _ => []) (fun l => l) (s2l "a.qsch") (fun _ => None) (ex_sheet "7k") = Some ex_lines.
Proof. split; vm_compute; reflexivity. Qed.
Example C195_nonvacuous : instance_of (Part (s2l "U2") (ex_block "U2" "amp") (map s2l ["out"; "0"]) true (s2l "amp") (Some (ex_inner "6k"))) (s2l "amp") (s2l "a b") (ex_inner "6k").
Proof.
  split; [reflexivity|]. split; [reflexivity|]. eexists _, _, _, _, _, _, _, (map s2l ["a"; "b"]). split; [reflexivity|]. split.
  { right. split; [cbn; lia|]. right. split; [|split; reflexivity]. intros (x & r & K & L). vm_compute in K. injection K as <-. discriminate L. }
  split; [reflexivity|]. split; [reflexivity|]. split; [right; exists "X"%char, [], "U"%char, (s2l "2"); split; [reflexivity|]; split; [reflexivity|]; right; split; [discriminate|reflexivity]|].
  split; [right; split; [intros (r & K); discriminate K|reflexivity]|]. split; [|reflexivity]. repeat constructor.
Qed.
