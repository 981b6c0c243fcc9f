(** The alias of a formula has the value of the formula. *)
From Coq Require Import String Ascii List Bool Arith ZArith QArith Lia.
From Verif Require Import PyStr Regex StepsModel EngModel EngProofs StepsProofs EngCaseProofs.
From Verif Require Import AliModel AliSpec AliProofs AliProofs2 AliProofs3.
Import ListNotations.
Local Open Scope string_scope. Local Open Scope nat_scope. Local Open Scope list_scope.

(** ** From the specification to what the proofs need *)
Lemma plain_okc : forall a, plain a -> a <> [] /\ forallb okc a = true.
Proof. intros a [NE A]. split; [exact NE|]. exact A. Qed.
Lemma node_ok : forall a, node a -> name_ok a.
Proof. intros a [[NE A] U]. split; [exact NE|]. split; [exact A|]. apply no_unit_unitless, U. Qed.
Lemma sweep_ok : forall n, is_sweep n -> name_ok n /\ ident n.
Proof.
  intros n H.
  assert (exists w, lower n = w /\ (w = s2l "time" \/ w = s2l "frequency")) as (w & E & W) by (destruct H as [H | H]; eexists; split; [exact H| auto | exact H | auto]).
  assert (forall c, In c n -> okc c = true /\ is_digit c = false) as X.
  { intros c K. assert (In (lower_c c) w) as L by (rewrite <- E; unfold lower; apply in_map, K).
    assert (mem_c (lower_c c) (s2l "timefrquncy") = true) as M.
    { apply mem_c_In. destruct W as [-> | ->]; repeat (destruct L as [<- | L]; [vm_compute; tauto|]); destruct L. }
    assert (implb (mem_c (lower_c c) (s2l "timefrquncy")) (okc c && negb (is_digit c)) = true) as Y.
    { apply (sweep1 (fun c => implb (mem_c (lower_c c) (s2l "timefrquncy")) (okc c && negb (is_digit c)))). vm_cast_no_check (eq_refl true). }
    rewrite M in Y. cbn [implb] in Y. apply andb_true_iff in Y. destruct Y as [Y1 Y2]. apply negb_true_iff in Y2. split; assumption. }
  assert (n <> []) as NE. { intros ->. destruct W as [-> | ->]; discriminate E. }
  assert (forallb okc n = true) as O by (apply forallb_forall; intros c K; exact (proj1 (X c K))).
  assert (unitless n = true) as U.
  { clear - X. induction n as [|c n IH]; [reflexivity|]. cbn [unitless]. rewrite (proj2 (X c (or_introl eq_refl))). cbn [andb negb].
    apply IH. intros d K. apply X. right. exact K. }
  split; [split; [exact NE|split; assumption]|]. split; [exact NE|]. split; [exact O|]. split.
  - destruct n as [|c n]; [contradiction|]. exact (proj2 (X c (or_introl eq_refl))).
  - intros K. assert (existsb (fun k => str_eqb (lower k) (s2l "time") || str_eqb (lower k) (s2l "frequency")) keywords = true) as B.
    { apply existsb_exists. exists n. split; [exact K|]. rewrite E. destruct W as [-> | ->]; reflexivity. }
    vm_compute in B. discriminate.
Qed.
Lemma written_shape : forall e, written e -> shape e.
Proof.
  intros e. induction e as [a b ex u|p|p|x a|a b|a|b|e IHe|e IHe|o e1 IHe1 e2 IHe2]; intros W; cbn in W |- *.
  - destruct W as (A & B & X). split; [exact A|]. split; [exact B|]. destruct ex as [[neg x]|]; [exact X|exact I].
  - apply node_ok, W.
  - apply sweep_ok, W.
  - split; [apply W|apply node_ok, W].
  - destruct W as (A & B & NA & NB). repeat split; try assumption; try (apply node_ok; assumption); apply node_ok in A; apply node_ok in B; firstorder.
  - destruct W as [A N]. split; [apply node_ok, A|exact N].
  - destruct W as [A N]. split; [apply node_ok, A|exact N].
  - apply IHe, W.
  - apply IHe, W.
  - split; [apply IHe1, W|apply IHe2, W].
Qed.
Lemma python_ident : forall x a, In x (s2l "VIP") -> name_ok a -> ident (python_name x a).
Proof.
  intros x a X A. destruct (okc_python_name x a X A) as (NE & O & _). split; [exact NE|]. split; [exact O|]. split.
  - exact (vip_no_digit x X).
  - intros K. assert (existsb (fun k => match k with c :: d :: _ => mem_c c (s2l "VIP") && aeqb d "_" | _ => false end) keywords = true) as B.
    { apply existsb_exists. exists (python_name x a). split; [exact K|]. unfold python_name. change (s2l "__") with ["_"%char; "_"%char]. cbn [app].
      rewrite (proj2 (mem_c_In x _) X). reflexivity. }
    vm_compute in B. discriminate.
Qed.
Lemma strength_python : forall e, strength (pythonic e) = strength e.
Proof. intros e. destruct e; reflexivity. Qed.
Lemma written_core : forall e, written e -> core (pythonic e).
Proof.
  intros e. induction e as [a b ex u|p|p|x a|a b|a|b|e IHe|e IHe|o e1 IHe1 e2 IHe2]; intros W.
  - split; [exact W|reflexivity].
  - destruct W as (N & D & K & _). apply node_ok in N. split; [apply N|]. split; [apply N|]. split; [exact D|exact K].
  - exact (proj2 (sweep_ok p W)).
  - apply python_ident; [apply W|apply node_ok, W].
  - destruct W as (A & B & _). cbn. split; [|split].
    + apply python_ident; [exact vV|apply node_ok, A].
    + apply python_ident; [exact vV|apply node_ok, B].
    + lia.
  - apply python_ident; [exact vV|apply node_ok, W].
  - cbn. split; [|lia]. apply python_ident; [exact vV|apply node_ok, W].
  - destruct W as [W L]. split; [apply IHe, W|]. change (2 <= strength (pythonic e)). rewrite strength_python. exact L.
  - exact (IHe W).
  - destruct W as (W1 & W2 & L).
    change (core (pythonic e1) /\ core (pythonic e2) /\ match o with Plus | Minus => 1 <= strength (pythonic e2) | _ => 1 <= strength (pythonic e1) /\ 2 <= strength (pythonic e2) end).
    rewrite !strength_python. split; [apply IHe1, W1|]. split; [apply IHe2, W2|exact L].
Qed.

(** The traces and parameters a formula looks at. *)
Fixpoint reads (e : formula) : list str :=
  match e with
  | Num _ _ _ _ | Par _ => []
  | Sweep n => [n]
  | Tr x a => [trace_text x a]
  | Diff a b => [trace_text "V" a; trace_text "V" b]
  | ToGround a | FromGround a => [trace_text "V" a]
  | Neg e | Group e => reads e
  | Bin _ a b => reads a ++ reads b
  end.
Fixpoint pars (e : formula) : list str :=
  match e with Par p => [p] | Neg e | Group e => pars e | Bin _ a b => pars a ++ pars b | _ => [] end.

Lemma namify_trace : forall x a, In x (s2l "VIP") -> plain a -> namify (trace_text x a) = Some (python_name x a).
Proof.
  intros x a X P. unfold namify.
  assert (existsb (str_eqb (lower (trace_text x a))) [s2l "time"; s2l "frequency"] = false) as ->.
  { unfold trace_text. change (s2l "(") with ["("%char]. cbn [app lower map]. change (lower_c "(") with "("%char.
    repeat (destruct X as [<- | X]; [reflexivity|]). destruct X. }
  unfold m_name, trace_text. change (s2l "(") with ["("%char]. change (s2l ")") with [")"%char]. cbn [app].
  rewrite (proj2 (mem_c_In x (s2l "VIP")) X). destruct P as [NE A].
  unfold call1. rewrite aeqb_refl. change (aeqb "(" "(") with true. cbn [andb].
  rewrite span_app; [|apply word_all, A|reflexivity]. destruct a; [contradiction|]. reflexivity.
Qed.
Lemma namify_sweep : forall n, is_sweep n -> namify n = Some n.
Proof. intros n H. unfold namify. destruct H as [-> | ->]; reflexivity. Qed.

Lemma value_python : forall tv pv env, (forall x a v, In x (s2l "VIP") -> name_ok a -> In (trace_text x a) (reads (Tr x a)) -> tv (trace_text x a) = Some v -> True) ->
  forall e q, written e ->
  (forall n v, In n (reads e) -> tv n = Some v -> exists n', namify n = Some n' /\ env n' = Some v) ->
  (forall p v, In p (pars e) -> pv p = Some v -> env p = Some v) ->
  value tv pv e = Some q -> value env env (pythonic e) = Some q.
Proof.
  intros tv pv env _. 
  assert (forall x a v, In x (s2l "VIP") -> node a -> (forall n w, In n [trace_text x a] -> tv n = Some w -> exists n', namify n = Some n' /\ env n' = Some w) ->
            tv (trace_text x a) = Some v -> env (python_name x a) = Some v) as T.
  { intros x a v X N H V. destruct (H _ v (or_introl eq_refl) V) as (n' & E & L). rewrite namify_trace in E by (exact X || apply N).
    injection E as <-. exact L. }
  intros e. induction e as [a b ex u|p|p|x a|a b|a|b|e IHe|e IHe|o e1 IHe1 e2 IHe2]; intros q W R P V.
  - exact V.
  - exact (P p q (or_introl eq_refl) V).
  - destruct (R p q (or_introl eq_refl) V) as (n' & E & L). rewrite namify_sweep in E by exact W. injection E as <-. exact L.
  - destruct W as [X N]. exact (T x a q X N R V).
  - destruct W as (A & B & _). cbn [value] in V. apply lift2_some in V. destruct V as (v & w & V1 & V2 & V).
    change (lift2 (compute Minus) (env (python_name "V" a)) (env (python_name "V" b)) = Some q).
    rewrite (T "V"%char a v vV A) by (assumption || (intros n z [<- | []] Z; apply R; [left; reflexivity|exact Z])).
    rewrite (T "V"%char b w vV B) by (assumption || (intros n z [<- | []] Z; apply R; [right; left; reflexivity|exact Z])). exact V.
  - destruct W as [A _]. exact (T "V"%char a q vV A R V).
  - destruct W as [B _]. cbn [value] in V. destruct (tv (trace_text "V" b)) as [v|] eqn:E; [|discriminate].
    change (option_map Qopp (env (python_name "V" b)) = Some q). rewrite (T "V"%char b v vV B R E). exact V.
  - cbn [value] in V. destruct (value tv pv e) as [v|] eqn:E; [|discriminate]. change (option_map Qopp (value env env (pythonic e)) = Some q).
    rewrite (IHe v (proj1 W) R P eq_refl). exact V.
  - exact (IHe q W R P V).
  - cbn [value] in V. apply lift2_some in V. destruct V as (v & w & V1 & V2 & V). destruct W as (W1 & W2 & _).
    change (lift2 (compute o) (value env env (pythonic e1)) (value env env (pythonic e2)) = Some q).
    rewrite (IHe1 v W1), (IHe2 w W2); try assumption; intros; (apply R || apply P); try assumption; cbn; apply in_or_app; auto.
Qed.

(** ** What occurs in the text *)
Lemma starts_app : forall p s, startswith p (p ++ s) = true.
Proof. intros p s. induction p as [|c p IH]; [reflexivity|]. cbn [app startswith]. rewrite aeqb_refl. exact IH. Qed.
Lemma occurs_here : forall p s t, occurs p (s ++ p ++ t) = true.
Proof.
  intros p s t. induction s as [|c s IH].
  - cbn [app]. destruct (p ++ t) as [|c r] eqn:E; cbn [occurs]; rewrite <- E, starts_app; reflexivity.
  - cbn [app occurs]. rewrite IH. apply orb_true_r.
Qed.
Lemma startswith_split : forall p s, startswith p s = true -> exists t, s = p ++ t.
Proof.
  intros p. induction p as [|c p IH]; intros s H; [exists s; reflexivity|]. destruct s as [|d s]; [discriminate|]. cbn [startswith] in H.
  apply andb_true_iff in H. destruct H as [E H]. apply aeqb_eq in E. subst d. destruct (IH s H) as (t & ->). exists t. reflexivity.
Qed.
Lemma occurs_split : forall p s, occurs p s = true -> exists a b, s = a ++ p ++ b.
Proof.
  intros p s. induction s as [|c s IH]; intros H; cbn [occurs] in H; apply orb_true_iff in H; destruct H as [H | H].
  - apply startswith_split in H. destruct H as (t & E). exists [], t. exact E.
  - discriminate.
  - apply startswith_split in H. destruct H as (t & E). exists [], t. exact E.
  - destruct (IH H) as (a & b & E). exists (c :: a), b. rewrite E. reflexivity.
Qed.
Lemma occurs_in : forall p a s b, occurs p s = true -> occurs p (a ++ s ++ b) = true.
Proof. intros p a s b H. apply occurs_split in H. destruct H as (x & y & ->). rewrite <- !app_assoc. rewrite app_assoc. apply occurs_here. Qed.
Lemma reads_occur : forall e n, In n (reads e) -> occurs n (text (desugar e)) = true.
Proof.
  intros e n. induction e as [a b ex u|p|p|x a|a b|a|b|e IHe|e IHe|o e1 IHe1 e2 IHe2]; cbn [reads]; intros H.
  - destruct H.
  - destruct H.
  - destruct H as [<- | []]. pose proof (occurs_here p [] []) as X. rewrite app_nil_r in X. exact X.
  - destruct H as [<- | []]. pose proof (occurs_here (trace_text x a) [] []) as X. rewrite app_nil_r in X. exact X.
  - change (text (desugar (Diff a b))) with (s2l "(" ++ (trace_text "V" a ++ "-"%char :: trace_text "V" b) ++ s2l ")").
    destruct H as [<- | [<- | []]].
    + rewrite <- app_assoc. apply occurs_here.
    + change ("-"%char :: trace_text "V" b) with (["-"%char] ++ trace_text "V" b). rewrite <- !app_assoc. rewrite !app_assoc. rewrite <- app_assoc. apply occurs_here.
  - destruct H as [<- | []]. pose proof (occurs_here (trace_text "V" a) [] []) as X. rewrite app_nil_r in X. exact X.
  - destruct H as [<- | []]. change (text (desugar (FromGround b))) with (s2l "(-" ++ trace_text "V" b ++ s2l ")"). apply occurs_here.
  - change (text (desugar (Neg e))) with ("-"%char :: text (desugar e)). cbn [occurs]. rewrite (IHe H). apply orb_true_r.
  - change (text (desugar (Group e))) with (s2l "(" ++ text (desugar e) ++ s2l ")"). apply occurs_in, IHe, H.
  - change (text (desugar (Bin o e1 e2))) with (text (desugar e1) ++ op_text o :: text (desugar e2)). apply in_app_or in H. destruct H as [H | H].
    + exact (occurs_in n [] _ (op_text o :: text (desugar e2)) (IHe1 H)).
    + change (op_text o :: text (desugar e2)) with ([op_text o] ++ text (desugar e2)). rewrite app_assoc.
      pose proof (occurs_in n (text (desugar e1) ++ [op_text o]) _ [] (IHe2 H)) as X. rewrite app_nil_r in X. exact X.
Qed.
Definition clean (s : str) : bool := forallb (fun c => negb (foreign c)) s.
Lemma clean_app : forall a b, clean a = true -> clean b = true -> clean (a ++ b) = true.
Proof. intros a b A B. unfold clean in *. rewrite forallb_app, A, B. reflexivity. Qed.
Lemma clean_okc : forall w, forallb okc w = true -> clean w = true.
Proof. intros w H. unfold clean. rewrite forallb_forall in *. intros c K. pose proof (okc_word c (H c K)) as X. apply negb_true_iff. apply X. Qed.
Lemma clean_text : forall e, shape e -> clean (text e) = true.
Proof.
  intros e. induction e as [a b ex u|p|p|x a|a b|a|b|e IHe|e IHe|o e1 IHe1 e2 IHe2]; intros W.
  - destruct W as ([_ A] & B & X). cbn [text]. rewrite num_text_eq. repeat apply clean_app.
    + apply clean_okc, digits_okc, A.
    + destruct b as [|c b]; [reflexivity|]. apply (clean_app ["."%char]); [reflexivity|]. apply clean_okc, digits_okc, B.
    + destruct ex as [[neg x]|]; [|reflexivity]. apply (clean_app ["e"%char]); [reflexivity|]. apply clean_app; [destruct neg; reflexivity|].
      apply clean_okc, digits_okc, X.
    + destruct u; reflexivity.
  - apply clean_okc, W.
  - apply clean_okc, W.
  - destruct W as [X A]. rewrite text_tr. apply (clean_app [x; "("%char]).
    + repeat (destruct X as [<- | X]; [reflexivity|]). destruct X.
    + apply clean_app; [apply clean_okc, A|reflexivity].
  - destruct W as (A & B & _). rewrite text_diff. apply (clean_app ["V"%char; "("%char]); [reflexivity|]. apply clean_app; [apply clean_okc, A|].
    apply (clean_app [","%char]); [reflexivity|]. apply clean_app; [apply clean_okc, B|reflexivity].
  - destruct W as [A _]. rewrite text_tog. apply (clean_app ["V"%char; "("%char]); [reflexivity|]. apply clean_app; [apply clean_okc, A|reflexivity].
  - destruct W as [A _]. rewrite text_fromg. apply (clean_app ["V"%char; "("%char; "0"%char; ","%char]); [reflexivity|]. apply clean_app; [apply clean_okc, A|reflexivity].
  - apply (clean_app ["-"%char]); [reflexivity|]. apply IHe, W.
  - cbn [text]. apply clean_app; [reflexivity|]. apply clean_app; [apply IHe, W|reflexivity].
  - cbn [text]. apply clean_app; [apply IHe1, W|]. apply (clean_app [op_text o]); [destruct o; reflexivity|]. apply IHe2, W.
Qed.
Lemma text_not_empty : forall e, shape e -> text e <> [].
Proof.
  intros e. induction e as [a b ex u|p|p|x a|a b|a|b|e IHe|e IHe|o e1 IHe1 e2 IHe2]; intros W; try discriminate; try apply W.
  - destruct W as ([NE _] & _). destruct a; [contradiction|discriminate].
  - cbn [text]. destruct (text e1); discriminate.
Qed.
Lemma used_plain : forall e n, shape e -> (plain_trace n \/ exists c, In c n /\ foreign c = true) -> occurs n (text (desugar e)) = true -> plain_trace n.
Proof.
  intros e n W [H | (c & K & F)] O; [exact H|]. exfalso. apply occurs_split in O. destruct O as (a & b & E).
  pose proof (clean_text _ (shape_desugar e W)) as C. rewrite E in C. unfold clean in C. rewrite forallb_forall in C.
  specialize (C c ltac:(apply in_or_app; right; apply in_or_app; left; exact K)). rewrite F in C. discriminate.
Qed.

(** ** The variables *)
Definition puts {A} (l d : list (str * A)) : list (str * A) := fold_left (fun d p => dset (fst p) (snd p) d) l d.
Lemma puts_other : forall {A} (l d : list (str * A)) k, (forall e, In e l -> fst e <> k) -> dget k (puts l d) = dget k d.
Proof.
  intros A l. induction l as [|[k' v] l IH]; intros d k H; [reflexivity|]. change (dget k (puts l (dset k' v d)) = dget k d). rewrite (IH (dset k' v d) k).
  - rewrite dget_dset. rewrite (proj2 (str_eqb_neq k' k)) ; [reflexivity|]. exact (H (k', v) (or_introl eq_refl)).
  - intros e K. apply H. right. exact K.
Qed.
Lemma puts_in : forall {A} (l d : list (str * A)) k v, In (k, v) l -> (forall w, In (k, w) l -> w = v) -> dget k (puts l d) = Some v.
Proof.
  intros A l. induction l as [|[k' v'] l IH]; intros d k v H U; [destruct H|]. change (dget k (puts l (dset k' v' d)) = Some v).
  destruct (existsb (fun e => str_eqb (fst e) k) l) eqn:E.
  - apply existsb_exists in E. destruct E as ([k2 w] & K & E). cbn in E. apply str_eqb_eq in E. subst k2.
    assert (w = v) as -> by (apply U; right; exact K). apply IH; [exact K|]. intros z Z. apply U. right. exact Z.
  - assert (forall e, In e l -> fst e <> k) as N.
    { intros e K X. assert (existsb (fun e => str_eqb (fst e) k) l = true) as Y; [|congruence]. apply existsb_exists. exists e. split; [exact K|].
      apply str_eqb_eq. exact X. }
    change (dget k (puts l (dset k' v' d)) = Some v). rewrite puts_other by exact N. rewrite dget_dset.
    destruct H as [H | H]; [|exfalso; exact (N _ H eq_refl)]. injection H as <- <-. rewrite str_eqb_refl. reflexivity.
Qed.
Lemma all_some_ok : forall {A B} (f : A -> option B) l, (forall x, In x l -> exists y, f x = Some y) ->
  exists r, all_some f l = Some r /\ (forall y, In y r -> exists x, In x l /\ f x = Some y) /\ (forall x y, In x l -> f x = Some y -> In y r).
Proof.
  intros A B f l. induction l as [|x l IH]; intros H.
  - exists []. repeat split; intros; contradiction.
  - destruct (H x (or_introl eq_refl)) as (y & E). destruct (IH (fun z K => H z (or_intror K))) as (r & E2 & P & Q).
    exists (y :: r). cbn [all_some]. rewrite E, E2. split; [reflexivity|]. split.
    + intros z [<- | K]; [exists x; split; [left; reflexivity|exact E]|]. destruct (P z K) as (w & K1 & K2). exists w. split; [right; exact K1|exact K2].
    + intros z w [<- | K] F; [left; congruence|]. right. exact (Q z w K F).
Qed.
Lemma python_name_inj : forall x a y b, python_name x a = python_name y b -> x = y /\ a = b.
Proof.
  intros x a y b H. unfold python_name in H. change (s2l "__") with ["_"%char; "_"%char] in H. cbn [app] in H. injection H as <- H.
  split; [reflexivity|]. apply app_inv_tail in H. exact H.
Qed.
Lemma sweep_no_name : forall x a, ~ is_sweep (python_name x a).
Proof.
  intros x a H. unfold python_name in H. change (s2l "__") with ["_"%char; "_"%char] in H. cbn [app] in H. unfold is_sweep in H. cbn [lower map] in H.
  change (lower_c "_") with "_"%char in H. destruct H as [H | H]; apply (f_equal (fun s => nth 1 s "x"%char)) in H; vm_compute in H; discriminate.
Qed.
Lemma namify_inj : forall n m r, plain_trace n -> plain_trace m -> namify n = Some r -> namify m = Some r -> n = m.
Proof.
  intros n m r [Hn | (x & a & X & A & ->)] [Hm | (y & b & Y & B & ->)] E F.
  - rewrite namify_sweep in E, F by assumption. congruence.
  - rewrite namify_sweep in E by assumption. rewrite namify_trace in F by assumption. exfalso. apply (sweep_no_name y b). congruence.
  - rewrite namify_sweep in F by assumption. rewrite namify_trace in E by assumption. exfalso. apply (sweep_no_name x a). congruence.
  - rewrite namify_trace in E, F by assumption. assert (python_name x a = python_name y b) as K by congruence. apply python_name_inj in K.
    destruct K as [-> ->]. reflexivity.
Qed.
Lemma look_in : forall {A} k (l : list (str * A)) v, look k l = Some v -> In (k, v) l.
Proof.
  intros A k l v H. unfold look in H. destruct (find (fun e => str_eqb (fst e) k) l) as [[k' w]|] eqn:E; [|discriminate]. cbn in H. injection H as <-.
  apply find_some in E. destruct E as [K E]. cbn in E. apply str_eqb_eq in E. subst k'. exact K.
Qed.
Lemma NoDup_val : forall {A} (l : list (str * A)) k v w, NoDup (map fst l) -> In (k, v) l -> In (k, w) l -> v = w.
Proof.
  intros A l k v w N H K. induction l as [|[k' z] l IH]; [destruct H|]. cbn in N. inversion N as [|? ? N1 N2]; subst.
  destruct H as [H | H], K as [K | K].
  - congruence.
  - injection H as -> ->. exfalso. apply N1. apply (in_map fst) in K. exact K.
  - injection K as -> ->. exfalso. apply N1. apply (in_map fst) in H. exact H.
  - exact (IH N2 H K).
Qed.
