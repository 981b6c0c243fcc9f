(** Evaluation of a formula. *)
From Coq Require Import String Ascii List Bool Arith ZArith QArith Lia.
From Verif Require Import PyStr Regex StepsModel EngModel EngProofs StepsProofs EngCaseProofs.
From Verif Require Import AliModel AliSpec AliProofs AliProofs2.
Import ListNotations.
Local Open Scope string_scope. Local Open Scope nat_scope. Local Open Scope list_scope.

Definition ident (p : str) : Prop := p <> [] /\ forallb okc p = true /\ match p with c :: _ => is_digit c = false | [] => False end /\ ~ In p keywords.
Definition num_ok (a b : str) (ex : option (bool * str)) : Prop :=
  digits_ a /\ forallb is_digit b = true /\ match ex with Some (_, x) => digits_ x | None => b = [] -> a = s2l "0" \/ startswith (s2l "0") a = false end.
(** Formulas that Python reads. *)
Fixpoint core (e : formula) : Prop :=
  match e with
  | Num a b ex u => num_ok a b ex /\ u = NoUnit
  | Par p | Sweep p => ident p
  | Neg e => core e /\ 2 <= strength e
  | Group e => core e
  | Bin o e1 e2 => core e1 /\ core e2 /\ match o with Plus | Minus => 1 <= strength e2 | _ => 1 <= strength e1 /\ 2 <= strength e2 end
  | _ => False
  end.

Lemma number_dec : forall ds, number ds = dec_number ds. Proof. reflexivity. Qed.
Lemma follow_point : forall rest, follow rest -> fraction rest = ([], rest).
Proof. intros [|c r] F; [reflexivity|]. unfold fraction. destruct (endc_facts c F) as (_ & _ & _ & N & _). rewrite (proj2 (aeqb_neq c ".") N). reflexivity. Qed.
Lemma follow_exp : forall rest, follow rest -> read_exponent rest = None.
Proof.
  intros [|c r] F; [reflexivity|]. unfold read_exponent. destruct (endc_facts c F) as (_ & _ & _ & _ & N1 & N2 & _).
  rewrite (proj2 (aeqb_neq c "e") N1), (proj2 (aeqb_neq c "E") N2). reflexivity.
Qed.
Lemma follow_no_point : forall rest, follow rest -> startswith (s2l ".") rest = false.
Proof.
  intros [|c r] F; [reflexivity|]. destruct (endc_facts c F) as (_ & _ & _ & N & _). change (s2l ".") with ["."%char]. cbn [startswith].
  rewrite (proj2 (aeqb_neq "." c)) by congruence. reflexivity.
Qed.
Definition exp_text (ex : option (bool * str)) : str := match ex with None => [] | Some (neg, x) => "e"%char :: sign_text neg ++ x end.
Lemma exp_read : forall ex rest, match ex with Some (_, x) => digits_ x | None => True end -> follow rest ->
  read_exponent (exp_text ex ++ rest) = match ex with Some (neg, x) => Some (neg, x, rest) | None => None end.
Proof.
  intros [[neg x]|] rest X F; [|apply follow_exp, F]. cbn [exp_text app]. unfold read_exponent. change (aeqb "e" "e") with true. cbn [orb].
  rewrite <- app_assoc. assert (signed (sign_text neg ++ x ++ rest) = (neg, x ++ rest)) as -> by (destruct neg; reflexivity).
  destruct X as [NE D]. rewrite span_app; [|exact D|apply follow_stops, F]. destruct x; [contradiction|reflexivity].
Qed.
Lemma num_text_eq : forall a b ex, num_text a b ex = a ++ match b with [] => [] | _ => "."%char :: b end ++ exp_text ex.
Proof. reflexivity. Qed.
Lemma read_number_ok : forall a b ex rest, num_ok a b ex -> follow rest -> read_number (num_text a b ex ++ rest) = Some (num_value a b ex, rest).
Proof.
  intros a b ex rest ([NE A] & B & X) F. unfold read_number. rewrite num_text_eq. rewrite <- !app_assoc.
  assert (match ex with Some (_, x) => digits_ x | None => True end) as X' by (destruct ex as [[neg x]|]; [exact X|exact I]).
  assert (stops is_digit (exp_text ex ++ rest)) as SE by (destruct ex as [[neg x]|]; [reflexivity|apply follow_stops, F]).
  assert (span is_digit (a ++ match b with [] => [] | _ => "."%char :: b end ++ exp_text ex ++ rest) = (a, match b with [] => [] | _ => "."%char :: b end ++ exp_text ex ++ rest)) as ->.
  { apply span_app; [exact A|]. destruct b as [|c b]; [exact SE|reflexivity]. }
  assert (fraction (match b with [] => [] | _ => "."%char :: b end ++ exp_text ex ++ rest) = (b, exp_text ex ++ rest)) as ->.
  { destruct b as [|c b].
    - cbn [app]. destruct ex as [[neg x]|]; [reflexivity|]. apply follow_point, F.
    - cbn [app]. unfold fraction. change (aeqb "." ".") with true. cbv iota. apply (span_app is_digit (c :: b)); [exact B|exact SE]. }
  destruct (a ++ b) as [|c ab] eqn:E; [destruct a; [contradiction|discriminate]|]. rewrite <- E. clear c ab E.
  rewrite exp_read by assumption. unfold num_value. destruct ex as [[neg x]|]; [reflexivity|]. cbn [exp_text app].
  destruct b as [|d b].
  - cbn [app]. rewrite follow_no_point by exact F. destruct (X eq_refl) as [-> | S].
    + reflexivity.
    + rewrite S. reflexivity.
  - change (startswith (s2l ".") (("."%char :: d :: b) ++ rest)) with true. cbv iota. reflexivity.
Qed.

Section Env.
Variable env : str -> option Q.
Notation Value := (value env env).
Lemma p_sum_S : forall f s, p_sum env (S f) s = match p_term env f s with Some (v, r) => l_sum env f v r | None => None end. Proof. reflexivity. Qed.
Lemma p_term_S : forall f s, p_term env (S f) s = match p_unary env f s with Some (v, r) => l_term env f v r | None => None end. Proof. reflexivity. Qed.
Lemma l_sum_S : forall f v c r, l_sum env (S f) v (c :: r) =
  if aeqb c "+" then match p_term env f r with Some (w, r') => l_sum env f (v + w)%Q r' | None => None end
  else if aeqb c "-" then match p_term env f r with Some (w, r') => l_sum env f (v - w)%Q r' | None => None end
  else Some (v, c :: r). Proof. reflexivity. Qed.
Lemma l_term_S : forall f v c r, l_term env (S f) v (c :: r) =
  if aeqb c "*" then match p_unary env f r with Some (w, r') => l_term env f (v * w)%Q r' | None => None end
  else if aeqb c "/" then match p_unary env f r with Some (w, r') => if Qeq_bool w 0 then None else l_term env f (v / w)%Q r' | None => None end
  else Some (v, c :: r). Proof. reflexivity. Qed.
Lemma p_unary_S : forall f c r, p_unary env (S f) (c :: r) =
  if aeqb c "-" then match p_unary env f r with Some (w, r') => Some ((- w)%Q, r') | None => None end
  else if aeqb c "+" then p_unary env f r else p_atom env f (c :: r). Proof. reflexivity. Qed.
Lemma p_atom_S : forall f c r, p_atom env (S f) (c :: r) =
  if aeqb c "(" then match p_sum env f r with Some (v, d :: r') => if aeqb d ")" then Some (v, r') else None | _ => None end
  else if is_digit c || aeqb c "." then read_number (c :: r)
  else match span is_word (c :: r) with
       | ([], _) => None
       | (w, t) => if existsb (str_eqb w) keywords then None else match env w with Some v => Some (v, t) | None => None end
       end. Proof. reflexivity. Qed.
Definition sfollow (rest : str) : Prop := match rest with [] => True | c :: _ => In c (s2l "+-)") end.
Lemma sfollow_follow : forall rest, sfollow rest -> follow rest.
Proof. intros [|c r] H; [exact I|]. cbn in *. unfold endc. apply mem_c_In. repeat (destruct H as [<- | H]; [vm_compute; tauto|]). destruct H. Qed.
Definition A_ (e : formula) (v : Q) : Prop := forall rest f, follow rest -> 4 * length (text e ++ rest) + 1 <= f -> p_atom env f (text e ++ rest) = Some (v, rest).
Definition U_ (e : formula) (v : Q) : Prop := forall rest f, follow rest -> 4 * length (text e ++ rest) + 2 <= f -> p_unary env f (text e ++ rest) = Some (v, rest).
Definition T_ (e : formula) (v : Q) : Prop := forall rest f y, follow rest -> (forall f', 4 * length rest + 1 <= f' -> l_term env f' v rest = y) ->
  4 * length (text e ++ rest) + 3 <= f -> p_term env f (text e ++ rest) = y.
Definition S_ (e : formula) (v : Q) : Prop := forall rest f y, sfollow rest -> (forall f', 4 * length rest + 1 <= f' -> l_sum env f' v rest = y) ->
  4 * length (text e ++ rest) + 4 <= f -> p_sum env f (text e ++ rest) = y.

Lemma l_term_end : forall f v rest, sfollow rest -> 1 <= f -> l_term env f v rest = Some (v, rest).
Proof.
  intros [|f] v rest H F; [lia|]. destruct rest as [|c r]; [reflexivity|]. cbn in H. repeat (destruct H as [<- | H]; [reflexivity|]). destruct H.
Qed.
Lemma T_S : forall e v, T_ e v -> S_ e v.
Proof.
  intros e v H rest f y R K F. destruct f as [|f]; [lia|]. rewrite p_sum_S.
  rewrite (H rest f (Some (v, rest))); [|apply sfollow_follow, R| |lia].
  - apply K. rewrite app_length in F. lia.
  - intros f' F'. apply l_term_end; [exact R|lia].
Qed.
Lemma U_T : forall e v, U_ e v -> T_ e v.
Proof.
  intros e v H rest f y R K F. destruct f as [|f]; [lia|]. rewrite p_term_S. rewrite (H rest f R) by lia. apply K. rewrite app_length in F. lia.
Qed.
Definition head_ok (s : str) : Prop := match s with c :: _ => c <> "-"%char /\ c <> "+"%char | [] => False end.
Lemma A_U : forall e v, head_ok (text e) -> A_ e v -> U_ e v.
Proof.
  intros e v D H rest f R F. destruct f as [|f]; [lia|]. pose proof (H rest f R) as X. destruct (text e) as [|c s]; [contradiction|].
  cbn [app]. rewrite p_unary_S. destruct D as [D1 D2]. rewrite (proj2 (aeqb_neq c "-") D1), (proj2 (aeqb_neq c "+") D2).
  change (c :: s ++ rest) with ((c :: s) ++ rest). apply X. lia.
Qed.
Definition P_ (e : formula) (v : Q) : Prop := (3 <= strength e -> A_ e v) /\ (2 <= strength e -> U_ e v) /\ (1 <= strength e -> T_ e v) /\ S_ e v.
Lemma P_A : forall e v, head_ok (text e) -> A_ e v -> P_ e v.
Proof. intros e v D H. pose proof (A_U e v D H) as U. pose proof (U_T e v U) as T. repeat split; intros; try assumption. apply T_S, T. Qed.
Lemma P_U : forall e v, strength e = 2 -> U_ e v -> P_ e v.
Proof. intros e v D U. pose proof (U_T e v U) as T. split; [intros; lia|]. repeat split; intros; try assumption. apply T_S, T. Qed.
Lemma P_T : forall e v, strength e = 1 -> T_ e v -> P_ e v.
Proof. intros e v D T. split; [intros; lia|]. split; [intros; lia|]. repeat split; intros; try assumption. apply T_S, T. Qed.
Lemma P_S : forall e v, strength e = 0 -> S_ e v -> P_ e v.
Proof. intros e v D T. repeat split; intros; try lia. assumption. Qed.

Lemma kw_false : forall p, ~ In p keywords -> existsb (str_eqb p) keywords = false.
Proof.
  intros p H. destruct (existsb (str_eqb p) keywords) eqn:E; [|reflexivity]. apply existsb_exists in E. destruct E as (k & K & E).
  apply str_eqb_eq in E. subst k. contradiction.
Qed.
Lemma ident_head : forall p, ident p -> head_ok p.
Proof.
  intros [|c p] (NE & O & _); [contradiction|]. cbn [forallb] in O. apply andb_true_iff in O.
  destruct (okc_word c (proj1 O)) as (_ & _ & _ & _ & _ & N1 & N2 & _). split; assumption.
Qed.
Lemma name_atom : forall p v e, ident p -> env p = Some v -> text e = p -> A_ e v.
Proof.
  intros p v e I E X rest f R F. destruct f as [|f]; [lia|]. rewrite X. destruct I as (NE & O & D & K). destruct p as [|c p]; [contradiction|].
  cbn [app]. rewrite p_atom_S. pose proof O as O'. cbn [forallb] in O. apply andb_true_iff in O. destruct O as [Oc O].
  destruct (okc_word c Oc) as (_ & _ & N1 & _ & _ & _ & _ & _ & _ & N2 & _).
  rewrite (proj2 (aeqb_neq c "(") N1), D, (proj2 (aeqb_neq c ".") N2). cbn [orb].
  change (c :: p ++ rest) with ((c :: p) ++ rest). rewrite span_app.
  - rewrite kw_false by exact K. rewrite E. reflexivity.
  - apply word_all, O'.
  - destruct rest as [|d r]; [exact I|]. cbn. destruct (endc_facts d R) as (_ & N & _). exact N.
Qed.
Lemma digit_head : forall c, is_digit c = true -> c <> "("%char /\ c <> "-"%char /\ c <> "+"%char.
Proof. intros c H. repeat split; intros ->; discriminate. Qed.

Lemma lift2_some : forall g x y z, lift2 g x y = Some z -> exists a b, x = Some a /\ y = Some b /\ g a b = Some z.
Proof. intros g [a|] [b|] z H; try discriminate. exists a, b. repeat split. exact H. Qed.
Lemma evaluates : forall e, core e -> forall v, Value e = Some v -> P_ e v.
Proof.
  intros e. induction e as [a b ex u|p|p|x a|a b|a|b|e IHe|e IHe|o e1 IHe1 e2 IHe2]; intros C v V; try contradiction.
  - destruct C as [N ->]. cbn [value] in V. injection V as <-. pose proof N as ([NE A] & _). apply P_A.
    + destruct a as [|c a]; [contradiction|]. cbn [forallb] in A. apply andb_true_iff in A. destruct (digit_head c (proj1 A)) as (_ & D1 & D2). split; assumption.
    + intros rest f R F. destruct f as [|f]; [lia|]. cbn [text unit_text]. rewrite app_nil_r.
      pose proof (read_number_ok a b ex rest N R) as RN. destruct a as [|c a]; [contradiction|].
      change (num_text (c :: a) b ex ++ rest) with (c :: (a ++ match b with [] => [] | _ => "."%char :: b end ++ exp_text ex) ++ rest) in *.
      rewrite p_atom_S. cbn [forallb] in A. apply andb_true_iff in A. destruct A as [Ac A]. destruct (digit_head c Ac) as (D0 & _).
      rewrite (proj2 (aeqb_neq c "(") D0), Ac. cbn [orb]. exact RN.
  - apply P_A; [apply ident_head, C|]. exact (name_atom p v (Par p) C V eq_refl).
  - apply P_A; [apply ident_head, C|]. exact (name_atom p v (Sweep p) C V eq_refl).
  - destruct C as [C L]. cbn [value] in V. destruct (Value e) as [w|] eqn:E; [|discriminate]. injection V as <-.
    destruct (IHe C w eq_refl) as (_ & U & _). specialize (U L). apply P_U; [reflexivity|]. intros rest f R F. destruct f as [|f]; [lia|].
    cbn [text app]. rewrite p_unary_S. change (aeqb "-" "-") with true. cbv iota. cbn [text app length] in F. rewrite (U rest f R) by lia. reflexivity.
  - cbn [value] in V. destruct (IHe C v V) as (_ & _ & _ & S). apply P_A; [split; discriminate|]. intros rest f R F. destruct f as [|f]; [lia|].
    cbn [text] in *. change (s2l "(") with ["("%char] in *. change (s2l ")") with [")"%char] in *. cbn [app] in *. rewrite <- app_assoc in *. cbn [app length] in *.
    rewrite p_atom_S. change (aeqb "(" "(") with true. cbv iota. rewrite (S (")"%char :: rest) f (Some (v, ")"%char :: rest))).
    + reflexivity.
    + vm_compute. tauto.
    + intros [|f'] F'; [lia|]. reflexivity.
    + lia.
  - destruct C as (C1 & C2 & L). cbn [value] in V. apply lift2_some in V. destruct V as (w1 & w2 & V1 & V2 & V).
    specialize (IHe1 C1 w1 V1). specialize (IHe2 C2 w2 V2). destruct IHe1 as (_ & _ & T1 & S1). destruct IHe2 as (_ & U2 & T2 & _).
    destruct o; cbn [compute] in V.
    + injection V as <-. apply P_S; [reflexivity|]. intros rest f y R K F. cbn [text op_text] in *. rewrite <- app_assoc in *. cbn [app] in *.
      apply S1; [vm_compute; tauto| |exact F]. intros f' F'. destruct f' as [|f']; [lia|]. rewrite l_sum_S. change (aeqb "+" "+") with true. cbv iota.
      cbn [length] in F'. rewrite (T2 L rest f' (Some (w2, rest))); [apply K; rewrite app_length in F'; lia|apply sfollow_follow, R| |lia].
      intros f'' F''. apply l_term_end; [exact R|lia].
    + injection V as <-. apply P_S; [reflexivity|]. intros rest f y R K F. cbn [text op_text] in *. rewrite <- app_assoc in *. cbn [app] in *.
      apply S1; [vm_compute; tauto| |exact F]. intros f' F'. destruct f' as [|f']; [lia|]. rewrite l_sum_S. change (aeqb "-" "+") with false. change (aeqb "-" "-") with true. cbv iota.
      cbn [length] in F'. rewrite (T2 L rest f' (Some (w2, rest))); [apply K; rewrite app_length in F'; lia|apply sfollow_follow, R| |lia].
      intros f'' F''. apply l_term_end; [exact R|lia].
    + injection V as <-. destruct L as [L1 L2]. apply P_T; [reflexivity|]. intros rest f y R K F. cbn [text op_text] in *. rewrite <- app_assoc in *. cbn [app] in *.
      apply (T1 L1); [vm_compute; tauto| |exact F]. intros f' F'. destruct f' as [|f']; [lia|]. rewrite l_term_S. change (aeqb "*" "*") with true. cbv iota.
      cbn [length] in F'. rewrite (U2 L2 rest f' R) by lia. apply K. rewrite app_length in F'. lia.
    + destruct (Qeq_bool w2 0) eqn:Z; [discriminate|]. injection V as <-. destruct L as [L1 L2]. apply P_T; [reflexivity|].
      intros rest f y R K F. cbn [text op_text] in *. rewrite <- app_assoc in *. cbn [app] in *.
      apply (T1 L1); [vm_compute; tauto| |exact F]. intros f' F'. destruct f' as [|f']; [lia|]. rewrite l_term_S. change (aeqb "/" "*") with false. change (aeqb "/" "/") with true. cbv iota.
      cbn [length] in F'. rewrite (U2 L2 rest f' R) by lia. rewrite Z. apply K. rewrite app_length in F'. lia.
Qed.
Lemma eval_ok : forall e v, core e -> Value e = Some v -> py_eval env (text e) = Some v.
Proof.
  intros e v C V. unfold py_eval. destruct (evaluates e C v V) as (_ & _ & _ & S). pose proof (S [] (4 * length (text e) + 4) (Some (v, []))) as X.
  rewrite app_nil_r in X. rewrite X; [reflexivity|exact I| |lia]. intros [|f'] F'; [cbn in F'; lia|reflexivity].
Qed.
End Env.
