(** The five substitutions on the text of a formula. *)
From Coq Require Import String Ascii List Bool Arith ZArith QArith Lia.
From Verif Require Import PyStr Regex StepsModel EngModel EngProofs StepsProofs EngCaseProofs.
From Verif Require Import AliModel AliSpec AliProofs.
Import ListNotations.
Local Open Scope string_scope. Local Open Scope nat_scope. Local Open Scope list_scope.

(** What is needed of a formula for the substitutions. *)
Definition name_ok (p : str) : Prop := p <> [] /\ forallb okc p = true /\ unitless p = true.
Fixpoint shape (e : formula) : Prop :=
  match e with
  | Num a b ex _ => digits_ a /\ forallb is_digit b = true /\ match ex with Some (_, x) => digits_ x | None => True end
  | Par p | Sweep p => name_ok p
  | Tr x a => In x (s2l "VIP") /\ name_ok a
  | Diff a b => name_ok a /\ name_ok b /\ a <> s2l "0" /\ b <> s2l "0"
  | ToGround a | FromGround a => name_ok a /\ a <> s2l "0"
  | Neg e | Group e => shape e
  | Bin _ a b => shape a /\ shape b
  end.
Fixpoint mapf (g : formula -> formula) (e : formula) : formula :=
  match e with
  | Neg e => Neg (mapf g e)
  | Group e => Group (mapf g e)
  | Bin o a b => Bin o (mapf g a) (mapf g b)
  | _ => g e
  end.
Definition leaf (e : formula) : Prop := match e with Neg _ | Group _ | Bin _ _ _ => False | _ => True end.

Section Pass.
Variables (m : str -> option (str * str)) (g : formula -> formula).
Hypothesis Mc : forall c r, In c (s2l "+-*/()") -> m (c :: r) = None.
Hypothesis Ml : forall e rest o, leaf e -> shape e -> follow rest -> Sub m rest o -> Sub m (text e ++ rest) (text (g e) ++ o).
Lemma pass_follow : forall e, shape e -> forall rest o, follow rest -> Sub m rest o -> Sub m (text e ++ rest) (text (mapf g e) ++ o).
Proof.
  intros e. induction e as [? ? ? ?|?|?|? ?|? ?|?|?|e IHe|e IHe|o' e1 IHe1 e2 IHe2]; intros W rest o F R; try (cbn [mapf]; apply Ml; [exact I|exact W|exact F|exact R]).
  - cbn [mapf text app]. apply S_copy; [apply Mc; vm_compute; tauto|]. apply IHe; assumption.
  - cbn [mapf text]. change (s2l "(") with ["("%char]. change (s2l ")") with [")"%char]. cbn [app]. rewrite <- !app_assoc. cbn [app].
    apply S_copy; [apply Mc; vm_compute; tauto|]. apply IHe; [exact W|reflexivity|]. apply S_copy; [apply Mc; vm_compute; tauto|]. exact R.
  - destruct W as [W1 W2]. cbn [mapf text]. rewrite <- !app_assoc. cbn [app]. apply IHe1; [exact W1|destruct o'; reflexivity|].
    apply S_copy; [apply Mc; destruct o'; vm_compute; tauto|]. apply IHe2; assumption.
Qed.
Lemma pass : forall e, shape e -> sub m (text e) = text (mapf g e).
Proof.
  intros e W. apply sub_ok. pose proof (pass_follow e W [] [] I (S_nil m)) as X. rewrite !app_nil_r in X. exact X.
Qed.
End Pass.

(** ** The leaves *)
Lemma okc_no_paren : forall w, forallb okc w = true -> no_paren w = true.
Proof.
  intros w H. unfold no_paren. rewrite forallb_forall in *. intros c K. destruct (okc_word c (H c K)) as (_ & _ & N & _).
  apply negb_true_iff. apply aeqb_neq. exact N.
Qed.
Lemma no_paren_app : forall a b, no_paren a = true -> no_paren b = true -> no_paren (a ++ b) = true.
Proof. intros a b A B. unfold no_paren in *. rewrite forallb_app, A, B. reflexivity. Qed.
Lemma num_no_paren : forall a b ex u, digits_ a -> forallb is_digit b = true -> match ex with Some (_, x) => digits_ x | None => True end ->
  no_paren (num_text a b ex ++ unit_text u) = true.
Proof.
  intros a b ex u [_ A] B X. unfold num_text. repeat apply no_paren_app.
  - apply okc_no_paren, digits_okc, A.
  - destruct b as [|c b]; [reflexivity|]. apply (no_paren_app ["."%char]); [reflexivity|]. apply okc_no_paren, digits_okc, B.
  - destruct ex as [[neg x]|]; [|reflexivity]. destruct X as [_ X].
    apply (no_paren_app ["e"%char]); [reflexivity|]. apply no_paren_app; [destruct neg; reflexivity|]. apply okc_no_paren, digits_okc, X.
  - destruct u; reflexivity.
Qed.
Lemma span_name : forall a t, name_ok a -> noword t = true -> span is_word (a ++ t) = (a, t).
Proof.
  intros a t (_ & A & _) N. apply span_app; [apply word_all, A|]. destruct t as [|c t]; [exact I|]. cbn in *. apply negb_true_iff. exact N.
Qed.
Lemma call1_name : forall x cl a t, name_ok a -> noword t = true ->
  call1 x cl (x :: "("%char :: a ++ t) = if startswith cl t then Some (a, skipn (length cl) t) else None.
Proof.
  intros x cl a t A N. unfold call1. rewrite aeqb_refl. change (aeqb "(" "(") with true. cbn [andb]. rewrite (span_name _ _ A N).
  destruct A as (A & _). destruct a; [contradiction|reflexivity].
Qed.
(** A name other than "0" followed by something. *)
Lemma zero_head : forall a y t p z, name_ok a -> (a = s2l "0" -> y <> z) -> okc z = false -> startswith ("0"%char :: z :: p) (a ++ y :: t) = false.
Proof.
  intros a y t p z (NE & A & _) H Z. destruct a as [|c a]; [contradiction|]. cbn [app startswith].
  destruct (aeqb "0" c) eqn:E; [|reflexivity]. apply aeqb_eq in E. subst c. cbn [andb].
  destruct a as [|d a].
  - cbn [app startswith]. rewrite (proj2 (aeqb_neq z y)); [reflexivity|]. intros ->. apply H; reflexivity.
  - cbn [app startswith]. cbn [forallb] in A. apply andb_true_iff in A. destruct A as [_ A]. apply andb_true_iff in A. destruct A as [A _].
    rewrite (proj2 (aeqb_neq z d)); [reflexivity|]. intros ->. congruence.
Qed.

Lemma paren_chars : forall m, paren_only m -> forall c r, In c (s2l "+-*/()") -> m (c :: r) = None.
Proof. intros m (_ & _ & _ & D) c r H. apply D. intros K. repeat (destruct H as [<- | H]; [vm_compute in K; intuition discriminate|]). destruct H. Qed.
(** Leaves without parenthesis. *)
Lemma word_leaf : forall m w rest o, paren_only m -> no_paren w = true -> follow rest -> Sub m rest o -> Sub m (w ++ rest) (w ++ o).
Proof. intros. apply paren_copy; try assumption. apply follow_head. assumption. Qed.
Lemma call_leaf : forall m x body rest o, paren_only m -> m (x :: "("%char :: body ++ rest) = None -> no_paren body = true -> follow rest -> Sub m rest o ->
  Sub m ((x :: "("%char :: body) ++ rest) ((x :: "("%char :: body) ++ o).
Proof. intros. cbn [app]. apply paren_call; try assumption. apply follow_head. assumption. Qed.
Lemma text_tr : forall x a, text (Tr x a) = x :: "("%char :: a ++ [")"%char]. Proof. reflexivity. Qed.
Lemma text_diff : forall a b, text (Diff a b) = "V"%char :: "("%char :: a ++ ","%char :: b ++ [")"%char]. Proof. reflexivity. Qed.
Lemma text_tog : forall a, text (ToGround a) = "V"%char :: "("%char :: a ++ [","%char; "0"%char; ")"%char]. Proof. reflexivity. Qed.
Lemma text_fromg : forall b, text (FromGround b) = "V"%char :: "("%char :: "0"%char :: ","%char :: b ++ [")"%char]. Proof. reflexivity. Qed.
Lemma np_name : forall a, name_ok a -> no_paren a = true. Proof. intros a (_ & A & _). apply okc_no_paren, A. Qed.
Lemma np1 : forall a, name_ok a -> no_paren (a ++ [")"%char]) = true. Proof. intros. apply no_paren_app; [apply np_name; assumption|reflexivity]. Qed.
Lemma np2 : forall a b, name_ok a -> name_ok b -> no_paren (a ++ ","%char :: b ++ [")"%char]) = true.
Proof. intros. apply no_paren_app; [apply np_name; assumption|]. apply (no_paren_app [","%char]); [reflexivity|]. apply np1. assumption. Qed.

Ltac plain_leaf P := apply word_leaf; [exact P| |assumption|assumption].

(** *** V(a,0) *)
Definition g1 (e : formula) : formula := match e with ToGround a => Tr "V" a | _ => e end.
Lemma leaf1 : forall e rest o, leaf e -> shape e -> follow rest -> Sub m_second_zero rest o -> Sub m_second_zero (text e ++ rest) (text (g1 e) ++ o).
Proof.
  intros e rest o L W F R. destruct e as [a b ex u|p|p|x a|a b|a|b|e|e|o' e1 e2]; try contradiction; cbn [g1].
  - plain_leaf p1. destruct W as (A & B & X). apply num_no_paren; assumption.
  - plain_leaf p1. apply np_name, W.
  - plain_leaf p1. apply np_name, W.
  - destruct W as [X A]. rewrite text_tr. apply call_leaf; [exact p1| |apply np1; exact A|exact F|exact R].
    unfold m_second_zero. rewrite <- app_assoc. cbn [app]. destruct (aeqb x "V") eqn:E.
    + apply aeqb_eq in E. subst x. rewrite call1_name by (exact A || reflexivity). reflexivity.
    + unfold call1. rewrite E. reflexivity.
  - destruct W as (A & B & NA & NB). rewrite text_diff. apply call_leaf; [exact p1| |apply np2; assumption|exact F|exact R].
    unfold m_second_zero. rewrite <- app_assoc. cbn [app]. rewrite <- app_assoc. cbn [app]. rewrite call1_name by (exact A || reflexivity).
    change (s2l ",0)") with [","%char; "0"%char; ")"%char]. cbn [startswith]. change (aeqb "," ",") with true. cbn [andb].
    fold (startswith ["0"%char; ")"%char] (b ++ ")"%char :: rest)). rewrite zero_head; [reflexivity|exact B|intros K; contradiction|reflexivity].
  - destruct W as [A NA]. rewrite text_tog, text_tr. cbn [app]. rewrite <- !app_assoc. cbn [app].
    apply (S_hit' m_second_zero "V"%char _ ("V"%char :: "("%char :: a ++ [")"%char]) rest o).
    + unfold m_second_zero. rewrite call1_name by (exact A || reflexivity). reflexivity.
    + cbn [length]. rewrite app_length. cbn [length]. lia.
    + cbn [app]. rewrite <- app_assoc. reflexivity.
    + exact R.
  - destruct W as [B NB]. rewrite text_fromg.
    change ("V"%char :: "("%char :: "0"%char :: ","%char :: b ++ [")"%char]) with ("V"%char :: "("%char :: (s2l "0" ++ ","%char :: b ++ [")"%char])).
    assert (name_ok (s2l "0")) as Z by (split; [discriminate|split; reflexivity]).
    apply call_leaf; [exact p1| |apply np2; assumption|exact F|exact R].
    unfold m_second_zero. rewrite <- app_assoc. cbn [app]. rewrite <- app_assoc. cbn [app]. rewrite call1_name by (exact Z || reflexivity).
    change (s2l ",0)") with [","%char; "0"%char; ")"%char]. cbn [startswith]. change (aeqb "," ",") with true. cbn [andb].
    fold (startswith ["0"%char; ")"%char] (b ++ ")"%char :: rest)). rewrite zero_head; [reflexivity|exact B|intros K; contradiction|reflexivity].
Qed.

(** *** V(0,b) *)
Definition g2 (e : formula) : formula := match e with FromGround b => Group (Neg (Tr "V" b)) | _ => e end.
Lemma first_zero_other : forall x w, (x = "V"%char -> startswith ["0"%char; ","%char] w = false) -> m_first_zero (x :: "("%char :: w) = None.
Proof.
  intros x w H. unfold m_first_zero. change (s2l "V(0,") with ["V"%char; "("%char; "0"%char; ","%char].
  change (startswith ["V"%char; "("%char; "0"%char; ","%char] (x :: "("%char :: w)) with (aeqb "V" x && startswith ["0"%char; ","%char] w)%bool.
  destruct (aeqb "V" x) eqn:E; [|reflexivity]. apply aeqb_eq in E. rewrite H by congruence. reflexivity.
Qed.
Lemma leaf2 : forall e rest o, leaf e -> shape e -> follow rest -> Sub m_first_zero rest o -> Sub m_first_zero (text e ++ rest) (text (g2 e) ++ o).
Proof.
  intros e rest o L W F R. destruct e as [a b ex u|p|p|x a|a b|a|b|e|e|o' e1 e2]; try contradiction; cbn [g2].
  - plain_leaf p2. destruct W as (A & B & X). apply num_no_paren; assumption.
  - plain_leaf p2. apply np_name, W.
  - plain_leaf p2. apply np_name, W.
  - destruct W as [X A]. rewrite text_tr. apply call_leaf; [exact p2| |apply np1; exact A|exact F|exact R].
    apply first_zero_other. intros _. rewrite <- app_assoc. cbn [app]. apply zero_head; [exact A|discriminate|reflexivity].
  - destruct W as (A & B & NA & NB). rewrite text_diff. apply call_leaf; [exact p2| |apply np2; assumption|exact F|exact R].
    apply first_zero_other. intros _. rewrite <- app_assoc. cbn [app]. apply zero_head; [exact A|intros K; contradiction|reflexivity].
  - destruct W as [A NA]. rewrite text_tog. apply call_leaf; [exact p2| |apply no_paren_app; [apply np_name; exact A|reflexivity]|exact F|exact R].
    apply first_zero_other. intros _. rewrite <- app_assoc. cbn [app]. apply zero_head; [exact A|intros K; contradiction|reflexivity].
  - destruct W as [B NB]. rewrite text_fromg. cbn [app]. rewrite <- app_assoc. cbn [app].
    apply (S_hit' m_first_zero "V"%char _ (s2l "(-V(" ++ b ++ s2l "))") rest o).
    + unfold m_first_zero. change (startswith (s2l "V(0,") ("V"%char :: "("%char :: "0"%char :: ","%char :: b ++ ")"%char :: rest)) with true. cbv iota.
      cbn [skipn]. rewrite span_name by (exact B || reflexivity). destruct B as (NE & _). destruct b; [contradiction|reflexivity].
    + cbn [length]. rewrite app_length. cbn [length]. lia.
    + cbn [text]. unfold trace_text. change (s2l "(-V(") with ["("%char; "-"%char; "V"%char; "("%char]. change (s2l "(") with ["("%char].
      change (s2l ")") with [")"%char]. change (s2l "))") with [")"%char; ")"%char]. cbn [app]. rewrite <- !app_assoc. reflexivity.
    + exact R.
Qed.

(** *** V(a,b) *)
Definition diff3 (a b : str) : formula := Group (Bin Minus (Tr "V" a) (Tr "V" b)).
Definition g3 (e : formula) : formula :=
  match e with Diff a b => diff3 a b | ToGround a => diff3 a (s2l "0") | FromGround b => diff3 (s2l "0") b | _ => e end.
Lemma zero_name : name_ok (s2l "0").
Proof. split; [discriminate|split; reflexivity]. Qed.
Lemma diff_hit : forall a b rest o, name_ok a -> name_ok b -> Sub m_difference rest o ->
  Sub m_difference (("V"%char :: "("%char :: a ++ ","%char :: b ++ [")"%char]) ++ rest) (text (diff3 a b) ++ o).
Proof.
  intros a b rest o A B R. cbn [app]. rewrite <- app_assoc. cbn [app]. rewrite <- app_assoc. cbn [app].
  apply (S_hit' m_difference "V"%char _ (s2l "(V(" ++ a ++ s2l ")-V(" ++ b ++ s2l "))") rest o).
  - unfold m_difference. rewrite call1_name by (exact A || reflexivity).
    change (startswith (s2l ",") (","%char :: b ++ ")"%char :: rest)) with true. cbv iota.
    change (skipn (length (s2l ",")) (","%char :: b ++ ")"%char :: rest)) with (b ++ ")"%char :: rest).
    rewrite span_name by (exact B || reflexivity). destruct B as (NE & _). destruct b; [contradiction|reflexivity].
  - cbn [length]. rewrite app_length. cbn [length]. rewrite app_length. cbn [length]. lia.
  - unfold diff3. cbn [text]. unfold trace_text. change (s2l "(V(") with ["("%char; "V"%char; "("%char]. change (s2l "(") with ["("%char].
    change (s2l ")") with [")"%char]. change (s2l "))") with [")"%char; ")"%char]. change (s2l ")-V(") with [")"%char; "-"%char; "V"%char; "("%char].
    cbn [op_text app]. repeat (rewrite <- !app_assoc; cbn [app]). reflexivity.
  - exact R.
Qed.
Lemma leaf3 : forall e rest o, leaf e -> shape e -> follow rest -> Sub m_difference rest o -> Sub m_difference (text e ++ rest) (text (g3 e) ++ o).
Proof.
  intros e rest o L W F R. destruct e as [a b ex u|p|p|x a|a b|a|b|e|e|o' e1 e2]; try contradiction; cbn [g3].
  - plain_leaf p3. destruct W as (A & B & X). apply num_no_paren; assumption.
  - plain_leaf p3. apply np_name, W.
  - plain_leaf p3. apply np_name, W.
  - destruct W as [X A]. rewrite text_tr. apply call_leaf; [exact p3| |apply np1; exact A|exact F|exact R].
    unfold m_difference. rewrite <- app_assoc. cbn [app]. destruct (aeqb x "V") eqn:E.
    + apply aeqb_eq in E. subst x. rewrite call1_name by (exact A || reflexivity). reflexivity.
    + unfold call1. rewrite E. reflexivity.
  - destruct W as (A & B & NA & NB). apply diff_hit; assumption.
  - destruct W as [A NA]. apply (diff_hit a (s2l "0")); [exact A|exact zero_name|exact R].
  - destruct W as [B NB]. apply (diff_hit (s2l "0") b); [exact zero_name|exact B|exact R].
Qed.

(** *** The names of the traces *)
Definition python_name (x : ascii) (a : str) : str := x :: s2l "__" ++ a ++ s2l "__".
Definition g4 (e : formula) : formula := match e with Tr x a => Par (python_name x a) | _ => e end.
Lemma name_other : forall x a t, name_ok a -> startswith (s2l ")") t = false -> noword t = true -> m_name (x :: "("%char :: a ++ t) = None.
Proof.
  intros x a t A S N. unfold m_name. rewrite call1_name by assumption. rewrite S. destruct (mem_c x (s2l "VIP")); reflexivity.
Qed.
Lemma name_hit : forall x a t, In x (s2l "VIP") -> name_ok a -> m_name (x :: "("%char :: a ++ ")"%char :: t) = Some (python_name x a, t).
Proof.
  intros x a t X A. unfold m_name. rewrite (proj2 (mem_c_In x (s2l "VIP")) X). rewrite call1_name by (exact A || reflexivity). reflexivity.
Qed.
Lemma leaf4 : forall e rest o, leaf e -> shape e -> follow rest -> Sub m_name rest o -> Sub m_name (text e ++ rest) (text (g4 e) ++ o).
Proof.
  intros e rest o L W F R. destruct e as [a b ex u|p|p|x a|a b|a|b|e|e|o' e1 e2]; try contradiction; cbn [g4].
  - plain_leaf p4. destruct W as (A & B & X). apply num_no_paren; assumption.
  - plain_leaf p4. apply np_name, W.
  - plain_leaf p4. apply np_name, W.
  - destruct W as [X A]. rewrite text_tr. cbn [app]. rewrite <- app_assoc. cbn [app].
    apply (S_hit' m_name x _ (python_name x a) rest o); [apply name_hit; assumption| |reflexivity|exact R].
    cbn [length]. rewrite app_length. cbn [length]. lia.
  - destruct W as (A & B & NA & NB). rewrite text_diff. apply call_leaf; [exact p4| |apply np2; assumption|exact F|exact R].
    rewrite <- app_assoc. apply name_other; [exact A|reflexivity|reflexivity].
  - destruct W as [A NA]. rewrite text_tog. apply call_leaf; [exact p4| |apply no_paren_app; [apply np_name; exact A|reflexivity]|exact F|exact R].
    rewrite <- app_assoc. apply name_other; [exact A|reflexivity|reflexivity].
  - destruct W as [B NB]. rewrite text_fromg.
    change ("V"%char :: "("%char :: "0"%char :: ","%char :: b ++ [")"%char]) with ("V"%char :: "("%char :: (s2l "0" ++ ","%char :: b ++ [")"%char])).
    apply call_leaf; [exact p4| |apply np2; [exact zero_name|exact B]|exact F|exact R].
    rewrite <- app_assoc. apply name_other; [exact zero_name|reflexivity|reflexivity].
Qed.

(** *** Units *)
Definition g5 (e : formula) : formula := match e with Num a b ex _ => Num a b ex NoUnit | _ => e end.
Lemma unit_char : forall c r, is_digit c = false -> m_unit (c :: r) = None.
Proof. intros c r H. unfold m_unit. cbn [span]. rewrite H. reflexivity. Qed.
Lemma unit_digits : forall ds t, forallb is_digit ds = true -> ds <> [] -> stops is_digit t ->
  m_unit (ds ++ t) = if startswith (s2l "mho") t || startswith (s2l "ohm") t then Some (ds, skipn 3 t) else None.
Proof. intros ds t D NE S. unfold m_unit. rewrite span_app by assumption. destruct ds; [contradiction|reflexivity]. Qed.
(** Digits followed by something that is no unit. *)
Lemma digits_copy : forall ds t o, forallb is_digit ds = true -> stops is_digit t -> (startswith (s2l "mho") t || startswith (s2l "ohm") t = false) ->
  Sub m_unit t o -> Sub m_unit (ds ++ t) (ds ++ o).
Proof.
  intros ds t o D S N R. apply copy_word; [|exact R]. intros u v -> NE. rewrite forallb_app in D. apply andb_true_iff in D.
  rewrite unit_digits; [rewrite N; reflexivity|exact (proj2 D)|exact NE|exact S].
Qed.
Lemma follow_noword : forall rest, follow rest -> noword rest = true.
Proof. intros [|c r] H; [reflexivity|]. cbn. destruct (endc_facts c H) as (_ & -> & _). reflexivity. Qed.
Lemma follow_stops : forall rest, follow rest -> stops is_digit rest.
Proof. intros [|c r] H; [exact I|]. cbn. destruct (endc_facts c H) as (_ & _ & -> & _). reflexivity. Qed.
Lemma follow_no_unit : forall rest, follow rest -> startswith (s2l "mho") rest || startswith (s2l "ohm") rest = false.
Proof. intros [|c r] H; [reflexivity|]. unfold follow, endc in H. apply mem_c_In in H. repeat (destruct H as [<- | H]; [reflexivity|]). destruct H. Qed.
(** The last digits of a number, with the unit. *)
Lemma last_digits : forall ds u rest o, digits_ ds -> follow rest -> Sub m_unit rest o -> Sub m_unit (ds ++ unit_text u ++ rest) (ds ++ o).
Proof.
  intros ds u rest o [NE D] F R. destruct u.
  - cbn [unit_text app]. apply digits_copy; [exact D|apply follow_stops, F|apply follow_no_unit, F|exact R].
  - destruct ds as [|c ds]; [contradiction|]. cbn [app].
    apply (S_hit' m_unit c _ (c :: ds) rest o); [|rewrite !app_length; cbn; lia|reflexivity|exact R].
    exact (unit_digits (c :: ds) (s2l "mho" ++ rest) D NE eq_refl).
  - destruct ds as [|c ds]; [contradiction|]. cbn [app].
    apply (S_hit' m_unit c _ (c :: ds) rest o); [|rewrite !app_length; cbn; lia|reflexivity|exact R].
    exact (unit_digits (c :: ds) (s2l "ohm" ++ rest) D NE eq_refl).
Qed.
Lemma unit_leaf : forall w rest o, unitless w = true -> follow rest -> Sub m_unit rest o -> Sub m_unit (w ++ rest) (w ++ o).
Proof. intros. apply unit_copy; [assumption|apply follow_noword; assumption|assumption]. Qed.
Lemma unit_call : forall x a rest o, is_digit x = false -> name_ok a -> noword rest = true -> Sub m_unit rest o ->
  Sub m_unit (x :: "("%char :: a ++ rest) (x :: "("%char :: a ++ o).
Proof.
  intros x a rest o X A N R. apply S_copy; [apply unit_char, X|]. apply S_copy; [apply unit_char; reflexivity|]. apply unit_copy; [apply A|exact N|exact R].
Qed.
Lemma vip_no_digit : forall x, In x (s2l "VIP") -> is_digit x = false.
Proof. intros x H. repeat (destruct H as [<- | H]; [reflexivity|]). destruct H. Qed.
Lemma unit_pair : forall a b rest o, name_ok a -> name_ok b -> Sub m_unit rest o ->
  Sub m_unit (("V"%char :: "("%char :: a ++ ","%char :: b ++ [")"%char]) ++ rest) (("V"%char :: "("%char :: a ++ ","%char :: b ++ [")"%char]) ++ o).
Proof.
  intros a b rest o A B R. cbn [app]. repeat (rewrite <- !app_assoc; cbn [app]). apply unit_call; [reflexivity|exact A|reflexivity|].
  apply S_copy; [apply unit_char; reflexivity|]. apply unit_copy; [apply B|reflexivity|]. apply S_copy; [apply unit_char; reflexivity|]. exact R.
Qed.
Lemma leaf5 : forall e rest o, leaf e -> shape e -> follow rest -> Sub m_unit rest o -> Sub m_unit (text e ++ rest) (text (g5 e) ++ o).
Proof.
  intros e rest o L W F R. destruct e as [a b ex u|p|p|x a|a b|a|b|e|e|o' e1 e2]; try contradiction; cbn [g5].
  - destruct W as (A & B & X). cbn [text unit_text]. rewrite app_nil_r. unfold num_text. rewrite <- !app_assoc.
    destruct ex as [[neg x]|].
    + assert (Sub m_unit (match b with [] => [] | _ => "."%char :: b end ++ ("e"%char :: sign_text neg ++ x) ++ unit_text u ++ rest)
                         (match b with [] => [] | _ => "."%char :: b end ++ ("e"%char :: sign_text neg ++ x) ++ o)) as Y.
      { assert (Sub m_unit (("e"%char :: sign_text neg ++ x) ++ unit_text u ++ rest) (("e"%char :: sign_text neg ++ x) ++ o)) as Z.
        { cbn [app]. rewrite <- !app_assoc. apply S_copy; [apply unit_char; reflexivity|].
          destruct neg; cbn [sign_text app]; (apply S_copy; [apply unit_char; reflexivity|]); apply last_digits; assumption. }
        destruct b as [|c b]; [exact Z|]. cbn [app]. apply S_copy; [apply unit_char; reflexivity|].
        apply (digits_copy (c :: b)); [exact B|reflexivity|reflexivity|exact Z]. }
      apply digits_copy; [apply A| | |exact Y]; destruct b; reflexivity.
    + destruct b as [|c b].
      * cbn [app]. apply last_digits; assumption.
      * cbn [app]. apply digits_copy; [apply A|reflexivity|reflexivity|]. apply S_copy; [apply unit_char; reflexivity|].
        apply (last_digits (c :: b)); [split; [discriminate|exact B]|exact F|exact R].
  - apply unit_leaf; [apply W|exact F|exact R].
  - apply unit_leaf; [apply W|exact F|exact R].
  - destruct W as [X A]. rewrite text_tr. cbn [app]. rewrite <- !app_assoc. cbn [app]. apply unit_call; [apply vip_no_digit, X|exact A|reflexivity|].
    apply S_copy; [apply unit_char; reflexivity|]. exact R.
  - destruct W as (A & B & _). apply unit_pair; assumption.
  - destruct W as [A _]. exact (unit_pair a (s2l "0") rest o A zero_name R).
  - destruct W as [B _]. exact (unit_pair (s2l "0") b rest o zero_name B R).
Qed.
Lemma unit_chars : forall c r, In c (s2l "+-*/()") -> m_unit (c :: r) = None.
Proof. intros c r H. apply unit_char. repeat (destruct H as [<- | H]; [reflexivity|]). destruct H. Qed.

(** ** All of them *)
Lemma okc_python_name : forall x a, In x (s2l "VIP") -> name_ok a -> name_ok (python_name x a).
Proof.
  intros x a X (NE & A & U). unfold python_name. split; [discriminate|split].
  - assert (okc x = true) as Ox by (repeat (destruct X as [<- | X]; [reflexivity|]); destruct X).
    change (forallb okc (x :: s2l "__" ++ a ++ s2l "__")) with (okc x && (true && (true && forallb okc (a ++ s2l "__"))))%bool.
    rewrite Ox, forallb_app, A. reflexivity.
  - pose proof (vip_no_digit x X) as D. change (x :: s2l "__" ++ a ++ s2l "__") with (x :: "_"%char :: "_"%char :: a ++ s2l "__"). cbn [unitless]. rewrite D.
    rewrite (unitless_under a U). reflexivity.
Qed.
Lemma shape_map : forall g, (forall e, leaf e -> shape e -> shape (g e)) -> forall e, shape e -> shape (mapf g e).
Proof.
  intros g H e. induction e as [? ? ? ?|?|?|? ?|? ?|?|?|e IHe|e IHe|o' e1 IHe1 e2 IHe2]; intros W; try (apply H; [exact I|exact W]).
  - apply IHe, W.
  - apply IHe, W.
  - split; [apply IHe1, W|apply IHe2, W].
Qed.
Lemma vV : In "V"%char (s2l "VIP"). Proof. vm_compute. tauto. Qed.
Lemma shape1 : forall e, leaf e -> shape e -> shape (g1 e).
Proof. intros e L W. destruct e; try contradiction; try exact W. split; [exact vV|apply W]. Qed.
Lemma shape2 : forall e, leaf e -> shape e -> shape (g2 e).
Proof. intros e L W. destruct e; try contradiction; try exact W. split; [exact vV|apply W]. Qed.
Lemma shape3 : forall e, leaf e -> shape e -> shape (g3 e).
Proof.
  intros e L W. destruct e; try contradiction; try exact W; cbn; (split; split); try exact vV; try exact zero_name; apply W.
Qed.
Lemma shape4 : forall e, leaf e -> shape e -> shape (g4 e).
Proof. intros e L W. destruct e; try contradiction; try exact W. apply okc_python_name; apply W. Qed.

Definition desugar (e : formula) : formula := mapf g3 (mapf g2 (mapf g1 e)).
Definition pythonic (e : formula) : formula := mapf g5 (mapf g4 (desugar e)).
Lemma shape_desugar : forall e, shape e -> shape (desugar e).
Proof. intros e W. unfold desugar. apply shape_map; [exact shape3|]. apply shape_map; [exact shape2|]. apply shape_map; [exact shape1|]. exact W. Qed.
Lemma differences_ok : forall e, shape e -> differences (text e) = text (desugar e).
Proof.
  intros e W. unfold differences, desugar.
  rewrite (pass m_second_zero g1 (paren_chars _ p1) leaf1 e W).
  rewrite (pass m_first_zero g2 (paren_chars _ p2) leaf2) by (apply shape_map; [exact shape1|exact W]).
  apply (pass m_difference g3 (paren_chars _ p3) leaf3). apply shape_map; [exact shape2|]. apply shape_map; [exact shape1|exact W].
Qed.
Lemma python_ok : forall e, shape e -> python_formula (text e) = text (pythonic e).
Proof.
  intros e W. unfold python_formula, pythonic. rewrite differences_ok by exact W. pose proof (shape_desugar e W) as D.
  rewrite (pass m_name g4 (paren_chars _ p4) leaf4 _ D).
  apply (pass m_unit g5 unit_chars leaf5). apply shape_map; [exact shape4|exact D].
Qed.
