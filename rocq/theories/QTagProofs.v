(** Proofs about the tags of a QSPICE schematic (C45, C46, C93). *)
From Coq Require Import String Ascii List Bool Arith ZArith Lia.
From Verif Require Import PyStr EngModel StepsModel QTagModel QTagSpec EngProofs StepsProofs.
Import ListNotations.
Local Open Scope string_scope. Local Open Scope nat_scope. Local Open Scope list_scope.

(** Text in which quotes come in pairs, and tag signs and line ends only between quotes. *)
Inductive balanced : str -> Prop :=
| B_nil : balanced []
| B_char c s : c <> DQ -> c <> LT -> c <> GT -> c <> LF -> balanced s -> balanced (c :: s)
| B_quote q s : ~ In DQ q -> balanced s -> balanced (DQ :: q ++ DQ :: s).
Lemma balanced_app : forall s t, balanced s -> balanced t -> balanced (s ++ t).
Proof.
  intros s t Hs Ht. induction Hs as [|c s H1 H2 H3 H4 HB IH|q s Hq HB IH]; [exact Ht|apply B_char; assumption|].
  assert (E : (DQ :: q ++ DQ :: s) ++ t = DQ :: q ++ DQ :: (s ++ t)) by (cbn; rewrite <- app_assoc; reflexivity). rewrite E. apply B_quote; assumption.
Qed.

Lemma to_quote_app : forall q r, ~ In DQ q -> to_quote (q ++ DQ :: r) = Some (q, r).
Proof.
  unfold to_quote. induction q as [|c q IH]; intros r H; cbn [app split_at_first].
  - rewrite aeqb_refl. reflexivity.
  - assert (aeqb c DQ = false) as -> by (apply aeqb_neq; intros ->; apply H; left; reflexivity). rewrite IH; [reflexivity|]. intros K. apply H. right. exact K.
Qed.
Lemma parse_balanced : forall s, balanced s -> forall fuel seg ts items rest, length (s ++ rest) < fuel ->
  exists fuel', length rest < fuel' /\ parse_from fuel seg ts items (s ++ rest) = parse_from fuel' (seg ++ s) ts items rest.
Proof.
  induction 1 as [|c s H1 H2 H3 H4 HB IH|q s Hq HB IH]; intros fuel seg ts items rest HF.
  - exists fuel. rewrite app_nil_r. split; [exact HF|reflexivity].
  - destruct fuel as [|f]; [lia|]. cbn [app parse_from].
    assert (aeqb c LT = false) as -> by (apply aeqb_neq; exact H2). assert (aeqb c DQ = false) as -> by (apply aeqb_neq; exact H1).
    assert (aeqb c GT = false) as -> by (apply aeqb_neq; exact H3). assert (aeqb c LF = false) as -> by (apply aeqb_neq; exact H4).
    destruct (IH f (seg ++ [c]) ts items rest) as (f' & L & E); [cbn in HF; lia|]. exists f'. split; [exact L|]. rewrite E. rewrite <- app_assoc. reflexivity.
  - destruct fuel as [|f]; [lia|]. cbn [app parse_from]. assert (aeqb DQ LT = false) as -> by reflexivity. rewrite aeqb_refl.
    assert (ER : (q ++ DQ :: s) ++ rest = q ++ DQ :: (s ++ rest)) by (rewrite <- app_assoc; reflexivity). rewrite ER, to_quote_app by exact Hq.
    destruct (IH f (seg ++ DQ :: q ++ [DQ]) ts items rest) as (f' & L & E).
    { change (length ((DQ :: q ++ DQ :: s) ++ rest)) with (S (length ((q ++ DQ :: s) ++ rest))) in HF. rewrite ER, app_length in HF. cbn in HF. lia. }
    exists f'. split; [exact L|]. rewrite E. f_equal. rewrite <- app_assoc. cbn. rewrite <- app_assoc. reflexivity.
Qed.

Lemma word_balanced : forall a, (forall c, In c a -> is_space c = false /\ c <> DQ /\ c <> LT /\ c <> GT) -> balanced a.
Proof.
  induction a as [|c a IH]; intros H; [constructor|]. destruct (H c (or_introl eq_refl)) as (A & B & C & D).
  constructor; auto. - intros ->. discriminate A. - apply IH. intros x Hx. apply H. right. exact Hx.
Qed.
Lemma token_balanced : forall a, token a -> balanced a.
Proof. intros a [(_ & H)|(q & -> & H)]; [apply word_balanced; exact H|]. apply (B_quote q []); [exact H|constructor]. Qed.
Lemma label_balanced : forall s, label_text s -> balanced s.
Proof. induction s as [|c s IH]; intros H; [constructor|]. destruct (H c (or_introl eq_refl)) as (A & B & C & D). constructor; auto. apply IH. intros x Hx. apply H. right. exact Hx. Qed.
Lemma blank_balanced : forall s, balanced s -> balanced (BLANK :: s).
Proof. intros. constructor; auto; discriminate. Qed.
Lemma join_balanced : forall ts, Forall token ts -> balanced (join_blank ts).
Proof.
  induction 1 as [|a ts Ha HT IH]; [constructor|]. cbn [join_blank]. destruct ts as [|b ts]; [apply token_balanced; exact Ha|].
  apply balanced_app; [apply token_balanced; exact Ha|]. apply blank_balanced. exact IH.
Qed.
Lemma spaces_balanced : forall n, balanced (spaces n).
Proof. intros n. unfold spaces. induction (2 * n) as [|k IH]; cbn; [constructor|apply blank_balanced; exact IH]. Qed.

(** ** smart_split *)
Lemma chunks_blank : forall f s, split_chunks (S f) (BLANK :: s) = split_chunks f s. Proof. reflexivity. Qed.
Lemma chunks_spaces : forall k f, split_chunks f (repeat BLANK k) = [].
Proof. induction k as [|k IH]; intros [|f]; try reflexivity. cbn [repeat]. rewrite chunks_blank. apply IH. Qed.
Lemma smart_spaces : forall n, smart_split (spaces n) = []. Proof. intros. apply chunks_spaces. Qed.
Lemma plain_word : forall a, (forall c, In c a -> is_space c = false /\ c <> DQ /\ c <> LT /\ c <> GT) -> forallb plain_c a = true.
Proof.
  intros a H. apply forallb_forall. intros c Hc. destruct (H c Hc) as (A & B & _). unfold plain_c. rewrite A. assert (aeqb c DQ = false) as -> by (apply aeqb_neq; exact B). reflexivity.
Qed.
Lemma span_word : forall a s, forallb plain_c a = true -> (s = [] \/ exists r, s = BLANK :: r) -> span plain_c (a ++ s) = (a, s).
Proof.
  induction a as [|c a IH]; intros s H Hs; cbn [app].
  - destruct Hs as [->|(r & ->)]; reflexivity.
  - cbn in H. apply andb_true_iff in H. destruct H as (A & B). cbn [span]. rewrite A, (IH s B Hs). reflexivity.
Qed.
Lemma chunks_token : forall a f s, token a -> (s = [] \/ exists r, s = BLANK :: r) -> 0 < f -> split_chunks f (a ++ s) = a :: split_chunks (f - 1) s.
Proof.
  intros a [|f] s HT Hs HF; [lia|]. replace (S f - 1) with f by lia. destruct HT as [(N & H)|(q & -> & H)].
  - destruct a as [|c a]; [contradiction|]. pose proof (plain_word _ H) as P.
    assert (PC : plain_c c = true) by (cbn in P; apply andb_true_iff in P; apply P).
    change (split_chunks (S f) ((c :: a) ++ s)) with (if plain_c c then let (x, b) := span plain_c ((c :: a) ++ s) in x :: split_chunks f b else if aeqb c DQ then match to_quote (a ++ s) with Some (q, b) => (DQ :: q ++ [DQ]) :: split_chunks f b | None => split_chunks f (a ++ s) end else split_chunks f (a ++ s)).
    rewrite PC, (span_word (c :: a) s P Hs). reflexivity.
  - cbn [app split_chunks]. assert (plain_c DQ = false) as -> by reflexivity. rewrite aeqb_refl.
    assert (E : (q ++ [DQ]) ++ s = q ++ DQ :: s) by (rewrite <- app_assoc; reflexivity). rewrite E, to_quote_app by exact H. reflexivity.
Qed.
Lemma token_len : forall a, token a -> 0 < length a.
Proof. intros a [(N & _)|(q & -> & _)]; [destruct a; [contradiction|cbn; lia]|cbn; lia]. Qed.
Lemma chunks_join : forall ts f, Forall token ts -> length (join_blank ts) <= f -> split_chunks f (join_blank ts) = ts.
Proof.
  induction ts as [|a ts IH]; intros f HT HL; [destruct f; reflexivity|]. inversion HT as [|? ? Ha HT']; subst. pose proof (token_len a Ha) as La. cbn [join_blank] in *.
  destruct ts as [|b ts].
  - rewrite <- (app_nil_r a) at 1. rewrite chunks_token; [|exact Ha|left; reflexivity|lia]. destruct (f - 1); reflexivity.
  - rewrite app_length in HL. cbn [length] in HL. rewrite chunks_token; [|exact Ha|right; eexists; reflexivity|lia]. f_equal.
    destruct (f - 1) as [|g] eqn:E; [lia|]. rewrite chunks_blank. apply IH; [exact HT'|lia].
Qed.
Lemma smart_join : forall ts, Forall token ts -> smart_split (join_blank ts) = ts.
Proof. intros. apply chunks_join; [assumption|lia]. Qed.

(** ** Labels *)
Lemma at_colon_none : forall s, no_colon s -> at_colon s = None.
Proof.
  induction s as [|c s IH]; intros H; [reflexivity|]. cbn [at_colon]. destruct (aeqb c COLON && _) eqn:E.
  - exfalso. apply andb_true_iff in E. destruct E as (A & B). apply aeqb_eq in A. subst c. destruct s as [|d s]; [discriminate|]. apply aeqb_eq in B. subst d. apply (H [] s). reflexivity.
  - rewrite IH; [reflexivity|]. intros a b K. apply (H (c :: a) b). rewrite K. reflexivity.
Qed.
Lemma at_colon_some : forall name text, no_colon (name ++ [COLON]) -> at_colon (name ++ COLON :: BLANK :: text) = Some (name, text).
Proof.
  induction name as [|c name IH]; intros text H; [reflexivity|]. cbn [app at_colon].
  assert (E : aeqb c COLON && match name ++ COLON :: BLANK :: text with d :: _ => aeqb d BLANK | [] => false end = false).
  { destruct (aeqb c COLON) eqn:A; [|reflexivity]. apply aeqb_eq in A. subst c. destruct name as [|d name]; [reflexivity|]. cbn. apply aeqb_neq. intros ->. apply (H [] (name ++ [COLON])). reflexivity. }
  rewrite E, IH; [reflexivity|]. intros a b K. apply (H (c :: a) b). cbn. rewrite K. reflexivity.
Qed.

Lemma no_colon_blank : forall x y, no_colon x -> (forall z, x <> z ++ [COLON]) -> no_colon y -> no_colon (x ++ BLANK :: y).
Proof.
  induction x as [|c x IH]; intros y HX HE HY a b K.
  - destruct a as [|d a]; [discriminate|]. injection K as _ K. exact (HY a b K).
  - destruct a as [|d a]; injection K as -> K.
    + destruct x as [|e x]; [exact (HE [] eq_refl)|]. injection K as -> K. exact (HX [] x eq_refl).
    + refine (IH y _ _ HY a b K); [intros a' b' E; apply (HX (d :: a') b'); rewrite E; reflexivity|intros z E; apply (HE (d :: z)); rewrite E; reflexivity].
Qed.
Lemma no_colon_join : forall ts, Forall no_colon ts -> (forall a x b, ts = a ++ (x ++ [COLON]) :: b -> b = []) -> no_colon (join_blank ts).
Proof.
  induction ts as [|x ts IH]; intros HT HE; [intros [|? a] b K; discriminate|]. inversion HT as [|? ? HX HT']; subst. destruct ts as [|y ts]; [exact HX|].
  cbn [join_blank] in *. apply no_colon_blank; [exact HX| |apply IH; [exact HT'|]].
  - intros z ->. specialize (HE [] z (y :: ts) eq_refl). discriminate.
  - intros a z b E. apply (HE (x :: a) z b). rewrite E. reflexivity.
Qed.

(** ** Round trip *)
Section TagInd.
  Variable P : tag -> Prop.
  Hypothesis H : forall ts items, Forall P items -> P (Tag ts items).
  Fixpoint tag_ind' (t : tag) : P t :=
    match t with Tag ts items => H ts items ((fix go l : Forall P l := match l with [] => Forall_nil P | x :: r => Forall_cons x (tag_ind' x) (go r) end) items) end.
End TagInd.

(** The text between the opening and the closing sign. *)
Definition body (level : nat) (t : tag) : str :=
  match t with
  | Tag ts [] => join_blank ts
  | Tag ts items => join_blank ts ++ LF :: flat_map (out (S level)) items ++ spaces level
  end.
Lemma out_body : forall level t, out level t = spaces level ++ LT :: body level t ++ [GT; LF].
Proof. intros level [ts [|x items]]; cbn [out body]; [reflexivity|]. f_equal. f_equal. rewrite <- !app_assoc. cbn. rewrite <- !app_assoc. reflexivity. Qed.

Lemma parse_children : forall level items items' ts fuel rest,
  Forall2 (fun t t' => forall fuel rest, length (body (S level) t ++ GT :: rest) < fuel -> parse_from fuel [] [] [] (body (S level) t ++ GT :: rest) = Some (t', rest)) items items' ->
  forall done, length (flat_map (out (S level)) items ++ rest) < fuel ->
  exists fuel', length rest < fuel' /\ parse_from fuel [] ts done (flat_map (out (S level)) items ++ rest) = parse_from fuel' [] ts (done ++ items') rest.
Proof.
  intros level items items' ts fuel rest HC. revert fuel. induction HC as [|t t' items items' HT HC IH]; intros fuel done HF.
  - exists fuel. rewrite app_nil_r. split; [exact HF|reflexivity].
  - cbn [flat_map]. rewrite <- app_assoc. rewrite out_body.
    set (more := flat_map (out (S level)) items ++ rest) in *.
    assert (EB : (spaces (S level) ++ LT :: body (S level) t ++ [GT; LF]) ++ more = spaces (S level) ++ (LT :: body (S level) t ++ GT :: LF :: more)).
    { rewrite <- app_assoc. f_equal. cbn. f_equal. rewrite <- app_assoc. reflexivity. }
    assert (EL : length (flat_map (out (S level)) (t :: items) ++ rest) = length (spaces (S level) ++ (LT :: body (S level) t ++ GT :: LF :: more))).
    { cbn [flat_map]. rewrite <- app_assoc. fold more. rewrite out_body, EB. reflexivity. }
    rewrite EL in HF. rewrite EB.
    destruct (parse_balanced (spaces (S level)) (spaces_balanced _) fuel [] ts done _ HF) as (f1 & L1 & E1). rewrite E1. cbn [app].
    destruct f1 as [|f1]; [lia|]. cbn [parse_from]. rewrite aeqb_refl. cbn [length] in L1.
    rewrite (HT f1 (LF :: more)) by lia. cbn [tl].
    destruct (IH f1 (done ++ [t'])) as (f2 & L2 & E2).
    { rewrite app_length in L1. cbn [length] in L1. lia. }
    exists f2. split; [exact L2|]. rewrite E2. rewrite <- app_assoc. reflexivity.
Qed.
Lemma parse_bad_child : forall level t ts fuel rest done,
  (forall fuel rest, parse_from fuel [] [] [] (body (S level) t ++ GT :: rest) = None) ->
  length (out (S level) t ++ rest) < fuel -> parse_from fuel [] ts done (out (S level) t ++ rest) = None.
Proof.
  intros level t ts fuel rest done HT HF. rewrite out_body in *.
  assert (EB : (spaces (S level) ++ LT :: body (S level) t ++ [GT; LF]) ++ rest = spaces (S level) ++ (LT :: body (S level) t ++ GT :: LF :: rest)).
  { rewrite <- app_assoc. f_equal. cbn. f_equal. rewrite <- app_assoc. reflexivity. }
  rewrite EB in *. destruct (parse_balanced (spaces (S level)) (spaces_balanced _) fuel [] ts done _ HF) as (f1 & L1 & E1). rewrite E1. cbn [app].
  destruct f1 as [|f1]; [lia|]. cbn [parse_from]. rewrite aeqb_refl. rewrite HT. reflexivity.
Qed.

Lemma parse_node : forall ts its its' level fuel rest, its <> [] -> Forall token ts ->
  Forall2 (fun t t' => forall fuel rest, length (body (S level) t ++ GT :: rest) < fuel -> parse_from fuel [] [] [] (body (S level) t ++ GT :: rest) = Some (t', rest)) its its' ->
  length (body level (Tag ts its) ++ GT :: rest) < fuel ->
  parse_from fuel [] [] [] (body level (Tag ts its) ++ GT :: rest) = Some (Tag ts its', rest).
Proof.
  intros ts its its' level fuel rest NE HT HC HF.
  assert (EB : body level (Tag ts its) ++ GT :: rest = join_blank ts ++ (LF :: flat_map (out (S level)) its ++ spaces level ++ GT :: rest)).
  { destruct its as [|x its]; [contradiction|]. cbn [body]. rewrite <- !app_assoc. cbn [app]. rewrite <- !app_assoc. reflexivity. }
  rewrite EB in *. destruct (parse_balanced _ (join_balanced ts HT) fuel [] [] [] _ HF) as (f1 & L1 & E1). rewrite E1. cbn [app]. destruct f1 as [|f1]; [lia|].
  cbn [parse_from]. assert (aeqb LF LT = false) as -> by reflexivity. assert (aeqb LF DQ = false) as -> by reflexivity. assert (aeqb LF GT = false) as -> by reflexivity. rewrite aeqb_refl.
  rewrite smart_join by exact HT. cbn [app]. cbn [length] in L1.
  destruct (parse_children level its its' ts f1 (spaces level ++ GT :: rest) HC []) as (f2 & L2 & E2); [lia|].
  rewrite E2. cbn [app]. destruct (parse_balanced _ (spaces_balanced level) f2 [] ts its' _ L2) as (f3 & L3 & E3). rewrite E3. cbn [app]. destruct f3 as [|f3]; [lia|].
  cbn [parse_from]. assert (aeqb GT LT = false) as -> by reflexivity. assert (aeqb GT DQ = false) as -> by reflexivity. rewrite aeqb_refl.
  assert (EL : last_tokens (spaces level) = Some []).
  { unfold last_tokens. rewrite at_colon_none, smart_spaces; [reflexivity|]. intros a b K. assert (In COLON (spaces level)) by (rewrite K; apply in_or_app; right; left; reflexivity). unfold spaces in H. apply repeat_spec in H. discriminate. }
  rewrite EL, app_nil_r. reflexivity.
Qed.
Lemma parse_bad_node : forall ts pre t post pre' level fuel rest, Forall token ts ->
  Forall2 (fun t t' => forall fuel rest, length (body (S level) t ++ GT :: rest) < fuel -> parse_from fuel [] [] [] (body (S level) t ++ GT :: rest) = Some (t', rest)) pre pre' ->
  (forall fuel rest, parse_from fuel [] [] [] (body (S level) t ++ GT :: rest) = None) ->
  length (body level (Tag ts (pre ++ t :: post)) ++ GT :: rest) < fuel ->
  parse_from fuel [] [] [] (body level (Tag ts (pre ++ t :: post)) ++ GT :: rest) = None.
Proof.
  intros ts pre t post pre' level fuel rest HT HC HB HF.
  assert (EB : body level (Tag ts (pre ++ t :: post)) ++ GT :: rest = join_blank ts ++ (LF :: flat_map (out (S level)) pre ++ out (S level) t ++ flat_map (out (S level)) post ++ spaces level ++ GT :: rest)).
  { transitivity ((join_blank ts ++ LF :: flat_map (out (S level)) (pre ++ t :: post) ++ spaces level) ++ GT :: rest); [destruct pre; reflexivity|].
    rewrite flat_map_app. cbn [flat_map]. rewrite <- !app_assoc. cbn [app]. rewrite <- !app_assoc. reflexivity. }
  rewrite EB in *. destruct (parse_balanced _ (join_balanced ts HT) fuel [] [] [] _ HF) as (f1 & L1 & E1). rewrite E1. cbn [app]. destruct f1 as [|f1]; [lia|].
  cbn [parse_from]. assert (aeqb LF LT = false) as -> by reflexivity. assert (aeqb LF DQ = false) as -> by reflexivity. assert (aeqb LF GT = false) as -> by reflexivity. rewrite aeqb_refl.
  rewrite smart_join by exact HT. cbn [app]. cbn [length] in L1.
  destruct (parse_children level pre pre' ts f1 (out (S level) t ++ flat_map (out (S level)) post ++ spaces level ++ GT :: rest) HC []) as (f2 & L2 & E2); [lia|].
  rewrite E2. apply parse_bad_child; [exact HB|exact L2].
Qed.
Lemma parse_body : forall t, proper t -> forall level fuel rest, length (body level t ++ GT :: rest) < fuel ->
  parse_from fuel [] [] [] (body level t ++ GT :: rest) = Some (t, rest).
Proof.
  induction t as [ts items IH] using tag_ind'. intros HP level fuel rest HF. inversion HP as [? ? NE HT HI|? HT NC0 NCE|name text HN HX NC1 NC2]; subst.
  - apply parse_node; [exact NE|exact HT| |exact HF]. clear HF HP NE. induction items as [|x items IHi]; [constructor|].
    inversion IH as [|? ? H1 H2]; subst. inversion HI as [|? ? H3 H4]; subst. constructor; [|apply IHi; assumption].
    intros fu re Hf. apply H1; assumption.
  - pose proof (no_colon_join ts NC0 NCE) as NC. cbn [body] in *. destruct (parse_balanced _ (join_balanced ts HT) fuel [] [] [] _ HF) as (f1 & L1 & E1). rewrite E1. cbn [app]. destruct f1 as [|f1]; [lia|].
    cbn [parse_from]. assert (aeqb GT LT = false) as -> by reflexivity. assert (aeqb GT DQ = false) as -> by reflexivity. rewrite aeqb_refl.
    unfold last_tokens. rewrite at_colon_none by exact NC. rewrite smart_join by exact HT. reflexivity.
  - cbn [body join_blank] in *. assert (BB : balanced ((name ++ [COLON]) ++ BLANK :: text)).
    { apply balanced_app; [apply balanced_app; [apply label_balanced; exact HN|constructor; try discriminate; constructor]|apply blank_balanced, label_balanced; exact HX]. }
    destruct (parse_balanced _ BB fuel [] [] [] _ HF) as (f1 & L1 & E1). rewrite E1. cbn [app]. destruct f1 as [|f1]; [lia|].
    cbn [parse_from]. assert (aeqb GT LT = false) as -> by reflexivity. assert (aeqb GT DQ = false) as -> by reflexivity. rewrite aeqb_refl.
    unfold last_tokens. assert (EA : (name ++ [COLON]) ++ BLANK :: text = name ++ COLON :: BLANK :: text) by (rewrite <- app_assoc; reflexivity). rewrite EA, at_colon_some by exact NC1. rewrite at_colon_none by exact NC2. reflexivity.
Qed.

Lemma parse_out : forall t rest, proper t -> parse (out 0 t ++ rest) = Some (t, LF :: rest).
Proof.
  intros t rest HP. rewrite out_body. change (spaces 0) with (@nil ascii). cbn [app]. unfold parse. rewrite aeqb_refl.
  assert (E : (body 0 t ++ [GT; LF]) ++ rest = body 0 t ++ GT :: (LF :: rest)) by (rewrite <- app_assoc; reflexivity). rewrite E. apply parse_body; [exact HP|lia].
Qed.

(** The fuel is enough for every text. *)
Lemma parse_rest : forall f seg ts items s t r, parse_from f seg ts items s = Some (t, r) -> length r < length s.
Proof.
  induction f as [|f IH]; intros seg ts items s t r H; [discriminate|]. cbn [parse_from] in H. destruct s as [|c s]; [discriminate|]. cbn [length].
  destruct (aeqb c LT).
  - destruct (parse_from f [] [] [] s) as [[ch re]|] eqn:E1; [|discriminate]. apply IH in E1. apply IH in H. destruct re; cbn in *; lia.
  - destruct (aeqb c DQ).
    + destruct (to_quote s) as [[q re]|] eqn:EQ; [|discriminate]. apply IH in H. assert (length re <= length s); [|lia].
      clear - EQ. unfold to_quote in EQ. revert q re EQ. induction s as [|x s IH]; intros q re H; [discriminate|]. cbn in H. destruct (aeqb x DQ); [injection H as <- <-; cbn; lia|].
      destruct (split_at_first DQ s) as [[a b]|]; [|discriminate]. injection H as <- <-. specialize (IH a b eq_refl). cbn. lia.
    + destruct (aeqb c GT).
      * destruct (last_tokens seg); [|discriminate]. injection H as <- <-. lia.
      * destruct (aeqb c LF); apply IH in H; lia.
Qed.
Lemma to_quote_len : forall s q r, to_quote s = Some (q, r) -> length r <= length s.
Proof.
  unfold to_quote. induction s as [|x s IH]; intros q re H; [discriminate|]. cbn in H. destruct (aeqb x DQ); [injection H as <- <-; cbn; lia|].
  destruct (split_at_first DQ s) as [[a b]|]; [|discriminate]. injection H as <- <-. specialize (IH a b eq_refl). cbn. lia.
Qed.
Lemma parse_fuel : forall f g seg ts items s, length s < f -> length s < g -> parse_from f seg ts items s = parse_from g seg ts items s.
Proof.
  induction f as [|f IH]; intros g seg ts items s Hf Hg; [lia|]. destruct g as [|g]; [lia|]. cbn [parse_from]. destruct s as [|c s]; [reflexivity|]. cbn [length] in Hf, Hg.
  destruct (aeqb c LT).
  - rewrite (IH g [] [] [] s) by lia. destruct (parse_from g [] [] [] s) as [[ch re]|] eqn:E1; [|reflexivity]. apply parse_rest in E1. apply IH; destruct re; cbn in *; lia.
  - destruct (aeqb c DQ).
    + destruct (to_quote s) as [[q re]|] eqn:EQ; [|reflexivity]. apply to_quote_len in EQ. apply IH; lia.
    + destruct (aeqb c GT); [reflexivity|]. destruct (aeqb c LF); apply IH; lia.
Qed.

(** ** The file *)
Lemma newlines_id : forall s, ~ In CR s -> newlines s = s.
Proof.
  induction s as [|c s IH]; intros H; [reflexivity|]. cbn [newlines]. destruct (aeqb c CR) eqn:E; [apply aeqb_eq in E; subst; exfalso; apply H; left; reflexivity|].
  rewrite IH; [reflexivity|]. intros K. apply H. right. exact K.
Qed.
Lemma in_join : forall c ts, In c (join_blank ts) -> c = BLANK \/ exists a, In a ts /\ In c a.
Proof.
  induction ts as [|x ts IH]; [intros []|]. cbn [join_blank]. destruct ts as [|y ts].
  - intros H. right. exists x. split; [left; reflexivity|exact H].
  - intros H. apply in_app_or in H. destruct H as [H|[H|H]]; [right; exists x; split; [left; reflexivity|exact H]|left; congruence|].
    destruct (IH H) as [E|(a & A & B)]; [left; exact E|right; exists a; split; [right; exact A|exact B]].
Qed.
Lemma in_out : forall c t level, c <> BLANK -> c <> LT -> c <> GT -> c <> LF -> In c (out level t) -> in_tag c t.
Proof.
  intros c. induction t as [ts items IH] using tag_ind'. intros level NB NL NG NF H. rewrite out_body in H.
  assert (NS : forall n, ~ In c (spaces n)) by (intros n K; apply repeat_spec in K; congruence).
  apply in_app_or in H. destruct H as [H|[H|H]]; [exfalso; exact (NS _ H)|congruence|]. apply in_app_or in H. destruct H as [H|[H|[H|[]]]]; [|congruence|congruence].
  assert (J : In c (join_blank ts) -> in_tag c (Tag ts items)).
  { intros K. destruct (in_join c ts K) as [E|(a & A & B)]; [congruence|]. econstructor 1; eassumption. }
  destruct items as [|x items]; cbn [body] in H; [exact (J H)|]. apply in_app_or in H. destruct H as [H|[H|H]]; [exact (J H)|congruence|].
  apply in_app_or in H. destruct H as [H|H]; [|exfalso; exact (NS _ H)]. apply in_flat_map in H. destruct H as (y & Y & H).
  econstructor 2; [exact Y|]. exact (proj1 (Forall_forall _ _) IH y Y (S level) NB NL NG NF H).
Qed.
Lemma file_round : forall t, proper t -> ~ in_tag CR t -> read_file (file_text t) = Some t.
Proof.
  intros t HP NC. unfold read_file. assert (E : newlines (file_text t) = file_text t).
  { apply newlines_id. unfold file_text. intros K. apply in_app_or in K. destruct K as [K|K].
    - revert K. vm_compute. intuition discriminate.
    - apply in_app_or in K. destruct K as [K|[K|[]]]; [|discriminate]. apply NC. apply (in_out CR t 0); try discriminate. exact K. }
  rewrite E. unfold file_text. assert (startswith HEADER (HEADER ++ out 0 t ++ [LF]) = true) as -> by reflexivity.
  change (skipn 4 (HEADER ++ out 0 t ++ [LF])) with (out 0 t ++ [LF]). rewrite parse_out by exact HP. reflexivity.
Qed.

(** ** Numbers *)
Fixpoint show_go (fuel : nat) (n : Z) (acc : str) : str :=
  match fuel with O => acc | S f => if (n <? 10)%Z then digit_of_Z n :: acc else show_go f (n / 10)%Z (digit_of_Z (n mod 10) :: acc) end.
Lemma show_nat_go : forall n, show_nat n = show_go (S (Z.to_nat (Z.log2 n))) n []. Proof. reflexivity. Qed.
Definition val (ds : str) : Z := fold_left (fun a c => 10 * a + Z_of_digit c)%Z ds 0%Z.
Lemma show_go_val : forall f n acc, (0 <= n < 2 ^ Z.of_nat (S f))%Z ->
  exists ds, show_go (S f) n acc = ds ++ acc /\ ds <> [] /\ forallb is_digit ds = true /\ val ds = n.
Proof.
  induction f as [|f IH]; intros n acc H.
  - change (2 ^ Z.of_nat 1)%Z with 2%Z in H. cbn [show_go]. assert ((n <? 10)%Z = true) as -> by (apply Z.ltb_lt; lia).
    destruct (digit_facts n) as (A & B); [lia|]. exists [digit_of_Z n]. split; [reflexivity|]. split; [discriminate|]. unfold val. cbn [forallb fold_left]. rewrite A, B. split; [reflexivity|lia].
  - cbn [show_go]. destruct (n <? 10)%Z eqn:E.
    + apply Z.ltb_lt in E. destruct (digit_facts n) as (A & B); [lia|]. exists [digit_of_Z n]. split; [reflexivity|]. split; [discriminate|]. unfold val. cbn [forallb fold_left]. rewrite A, B. split; [reflexivity|lia].
    + apply Z.ltb_ge in E. destruct (IH (n / 10)%Z (digit_of_Z (n mod 10) :: acc)) as (ds & D1 & D2 & D3 & D4).
      { split; [apply Z.div_pos; lia|]. rewrite Nat2Z.inj_succ, Z.pow_succ_r in H by lia. apply Z.div_lt_upper_bound; lia. }
      assert (M : (0 <= n mod 10 < 10)%Z) by (apply Z.mod_pos_bound; lia). destruct (digit_facts (n mod 10) M) as (A & B).
      exists (ds ++ [digit_of_Z (n mod 10)]). split; [|split; [|split]].
      * change (show_go (S f) (n / 10) (digit_of_Z (n mod 10) :: acc) = (ds ++ [digit_of_Z (n mod 10)]) ++ acc). rewrite D1, <- app_assoc. reflexivity.
      * destruct ds; discriminate.
      * rewrite forallb_app, D3. cbn. rewrite A. reflexivity.
      * unfold val in *. rewrite fold_left_app, D4. cbn [fold_left]. rewrite B. pose proof (Z.div_mod n 10 ltac:(lia)). lia.
Qed.
Lemma show_nat_val : forall n, (0 <= n)%Z -> exists ds, show_nat n = ds /\ ds <> [] /\ forallb is_digit ds = true /\ val ds = n.
Proof.
  intros n H. rewrite show_nat_go. destruct (show_go_val (Z.to_nat (Z.log2 n)) n []) as (ds & A & B).
  - split; [exact H|]. rewrite Nat2Z.inj_succ, Z2Nat.id by apply Z.log2_nonneg. destruct (Z.eq_dec n 0) as [->|N]; [reflexivity|]. apply Z.log2_spec. lia.
  - exists ds. rewrite app_nil_r in A. split; [exact A|exact B].
Qed.
Lemma int_digits_val : forall ds acc b, forallb is_digit ds = true -> (ds <> [] \/ b = true) ->
  int_digits acc b ds = Some (fold_left (fun a c => 10 * a + Z_of_digit c)%Z ds acc).
Proof.
  induction ds as [|c ds IH]; intros acc b H K; [destruct K as [K| ->]; [contradiction|reflexivity]|]. cbn [forallb] in H. apply andb_true_iff in H. destruct H as (A & B).
  cbn [int_digits fold_left]. rewrite A. apply IH; [exact B|right; reflexivity].
Qed.
Lemma digit_not : forall c, is_digit c = true -> is_space c = false /\ aeqb c "-" = false /\ aeqb c "+" = false /\ aeqb c "(" = false /\ aeqb c DQ = false /\ aeqb c "x" = false /\ aeqb c "," = false.
Proof. intros c H. apply digit_cases in H. revert c H. apply Forall_forall. vm_compute. repeat constructor. Qed.
Lemma show_int_shape : forall n, exists sg ds, show_int n = sg ++ ds /\ (sg = [] /\ val ds = n \/ sg = ["-"%char] /\ val ds = (- n)%Z) /\ ds <> [] /\ forallb is_digit ds = true.
Proof.
  intros n. unfold show_int. destruct (n <? 0)%Z eqn:E.
  - apply Z.ltb_lt in E. destruct (show_nat_val (- n)) as (ds & A & B & C & D); [lia|]. exists ["-"%char], ds. rewrite A. repeat split; try assumption. right. split; [reflexivity|exact D].
  - apply Z.ltb_ge in E. destruct (show_nat_val n) as (ds & A & B & C & D); [lia|]. exists [], ds. rewrite A. repeat split; try assumption. left. split; [reflexivity|exact D].
Qed.
Lemma digits_in : forall ds c, forallb is_digit ds = true -> In c ds -> is_digit c = true.
Proof. intros ds c H. exact (proj1 (forallb_forall _ _) H c). Qed.
Lemma show_int_chars : forall n c, In c (show_int n) -> is_space c = false /\ aeqb c DQ = false /\ aeqb c "," = false /\ aeqb c "(" = false /\ aeqb c "x" = false.
Proof.
  intros n c H. destruct (show_int_shape n) as (sg & ds & E & S & _ & D). rewrite E in H. apply in_app_or in H. destruct H as [H|H].
  - destruct S as [(-> & _)|(-> & _)]; [destruct H|destruct H as [<-|[]]; vm_compute; auto].
  - apply (digits_in _ _ D), digit_not in H. tauto.
Qed.
Lemma stops_all : forall f s, (forall c, In c s -> f c = false) -> stops f s.
Proof. intros f [|c s] H; [exact I|]. cbn. apply H. left. reflexivity. Qed.
Lemma py_int_show : forall n, py_int (show_int n) = Some n.
Proof.
  intros n. unfold py_int. rewrite strip_id; [|apply stops_all; intros c H; apply (show_int_chars n c H)|apply stops_all; intros c H; apply in_rev in H; apply (show_int_chars n c H)].
  destruct (show_int_shape n) as (sg & ds & E & S & NE & D). rewrite E. destruct S as [(-> & V)|(-> & V)].
  - cbn [app]. destruct ds as [|c ds]; [contradiction|]. destruct (digit_not c (digits_in _ c D (or_introl eq_refl))) as (_ & A & B & _). rewrite A, B.
    rewrite int_digits_val; [|exact D|left; discriminate]. unfold val in V. rewrite V. reflexivity.
  - cbn [app]. assert (aeqb "-" "-" = true) as -> by reflexivity. rewrite int_digits_val; [|exact D|left; exact NE]. unfold val in V. rewrite V. cbn. rewrite Z.opp_involutive. reflexivity.
Qed.
Lemma aeqb_sym : forall a b, aeqb a b = aeqb b a. Proof. exact Ascii.eqb_sym. Qed.
Lemma start_no : forall x p a s, aeqb x a = false -> startswith (x :: p) (a :: s) = false.
Proof. intros x p a s H. cbn. rewrite H. reflexivity. Qed.
Lemma read_int : forall n, read_token (show_int n) = Some (AInt n).
Proof.
  intros n. unfold read_token. rewrite py_int_show. unfold quoted.
  assert (E : exists a r, show_int n = a :: r) by (destruct (show_int_shape n) as ([|? ?] & [|b ds] & E & _ & NE & _); try contradiction; rewrite E; eexists; eexists; reflexivity).
  destruct E as (a & r & E). rewrite E.
  assert (CA : forall c, In c (a :: r) -> is_space c = false /\ aeqb c DQ = false /\ aeqb c "," = false /\ aeqb c "(" = false /\ aeqb c "x" = false) by (rewrite <- E; apply show_int_chars).
  destruct (CA a (or_introl eq_refl)) as (_ & QA & _ & PA & _).
  assert (SP : startswith (s2l "(") (a :: r) = false) by (apply start_no; rewrite aeqb_sym; exact PA).
  assert (SQ : startswith [DQ] (a :: r) = false) by (apply start_no; rewrite aeqb_sym; exact QA).
  assert (SX : startswith (s2l "0x") (a :: r) = false).
  { change (s2l "0x") with ["0"%char; "x"%char]. cbn [startswith]. destruct (aeqb "0" a); [|reflexivity]. cbn [andb]. destruct r as [|b r]; [reflexivity|]. destruct (CA b (or_intror (or_introl eq_refl))) as (_ & _ & _ & _ & X). rewrite aeqb_sym, X. reflexivity. }
  rewrite SP, SX, SQ. reflexivity.
Qed.
Lemma endswith_last : forall (s : str) c, endswith [c] (s ++ [c]) = true.
Proof. intros s c. unfold endswith. rewrite rev_app_distr. cbn. rewrite aeqb_refl. reflexivity. Qed.
Lemma inner_mid : forall a s b, inner (a :: s ++ [b]) = s.
Proof. intros. unfold inner. cbn [tl]. apply removelast_last. Qed.
Lemma quoted_mid : forall s, quoted (DQ :: s ++ [DQ]) = true.
Proof. intros s. unfold quoted. change (DQ :: s ++ [DQ]) with ((DQ :: s) ++ [DQ]). rewrite endswith_last. reflexivity. Qed.
Lemma read_quoted : forall s, read_token (DQ :: s ++ [DQ]) = Some (AText s).
Proof.
  intros s. unfold read_token. assert (startswith (s2l "(") (DQ :: s ++ [DQ]) = false) as -> by reflexivity. assert (startswith (s2l "0x") (DQ :: s ++ [DQ]) = false) as -> by reflexivity.
  cbn [andb]. rewrite quoted_mid, inner_mid. reflexivity.
Qed.
Lemma read_pair : forall x y, read_token (s2l "(" ++ show_int x ++ s2l "," ++ show_int y ++ s2l ")") = Some (APair [x; y]).
Proof.
  intros x y. unfold read_token. set (m := show_int x ++ s2l "," ++ show_int y).
  assert (E : s2l "(" ++ show_int x ++ s2l "," ++ show_int y ++ s2l ")" = "("%char :: m ++ [")"%char]) by (unfold m; rewrite <- !app_assoc; reflexivity).
  rewrite E. assert (startswith (s2l "(") ("("%char :: m ++ [")"%char]) = true) as -> by reflexivity.
  assert (endswith (s2l ")") ("("%char :: m ++ [")"%char]) = true) as -> by (apply (endswith_last ("("%char :: m))). cbn [andb]. rewrite inner_mid.
  unfold m. change (s2l "," ++ show_int y) with (","%char :: show_int y). rewrite split_on_cons; [rewrite split_on_plain|].
  - cbn [all_ints]. rewrite !py_int_show. reflexivity.
  - intros K. apply show_int_chars in K. destruct K as (_ & _ & K & _). discriminate.
  - intros K. apply show_int_chars in K. destruct K as (_ & _ & K & _). discriminate.
Qed.
Lemma set_nth_spec : forall i x l l', set_nth i x l = Some l' -> nth_error l' i = Some x /\ (forall j, j <> i -> nth_error l' j = nth_error l j) /\ length l' = length l.
Proof.
  unfold set_nth. intros i x l l' H. destruct (i <? length l) eqn:E; [|discriminate]. apply Nat.ltb_lt in E. injection H as <-.
  assert (L : length (firstn i l) = i) by (apply firstn_length_le; lia). split; [|split].
  - rewrite nth_error_app2 by lia. rewrite L, Nat.sub_diag. reflexivity.
  - intros j N. destruct (Nat.lt_ge_cases j i) as [K|K].
    + rewrite nth_error_app1 by lia. rewrite <- (firstn_skipn i l) at 2. rewrite nth_error_app1 by lia. reflexivity.
    + rewrite nth_error_app2 by lia. rewrite L. destruct (j - i) as [|k] eqn:EK; [lia|]. cbn [nth_error]. rewrite <- (firstn_skipn (S i) l) at 2.
      rewrite nth_error_app2 by (rewrite firstn_length; lia). rewrite firstn_length_le by lia. f_equal. lia.
  - rewrite app_length, L. change (i + S (length (skipn (S i) l)) = length l). pose proof (skipn_length (S i) l). lia.
Qed.

(** ** Texts with ": " *)
Lemma proper_children : forall level items, Forall proper items ->
  Forall2 (fun t t' => forall fuel rest, length (body (S level) t ++ GT :: rest) < fuel -> parse_from fuel [] [] [] (body (S level) t ++ GT :: rest) = Some (t', rest)) items items.
Proof. induction 1 as [|t items H HI IH]; constructor; [|exact IH]. intros. apply parse_body; assumption. Qed.
Lemma leaf_line : forall ts level fuel rest, Forall token ts -> length (body level (Tag ts []) ++ GT :: rest) < fuel ->
  parse_from fuel [] [] [] (body level (Tag ts []) ++ GT :: rest) = match last_tokens (join_blank ts) with Some l => Some (Tag l [], rest) | None => None end.
Proof.
  intros ts level fuel rest HT HF. cbn [body] in *. destruct (parse_balanced _ (join_balanced ts HT) fuel [] [] [] _ HF) as (f1 & L1 & E1). rewrite E1. cbn [app]. destruct f1 as [|f1]; [lia|].
  cbn [parse_from]. assert (aeqb GT LT = false) as -> by reflexivity. assert (aeqb GT DQ = false) as -> by reflexivity. rewrite aeqb_refl. destruct (last_tokens _); reflexivity.
Qed.
Lemma leaf_line_none : forall ts level fuel rest, Forall token ts -> last_tokens (join_blank ts) = None ->
  parse_from fuel [] [] [] (body level (Tag ts []) ++ GT :: rest) = None.
Proof.
  intros ts level fuel rest HT HN. destruct (Nat.lt_ge_cases (length (body level (Tag ts []) ++ GT :: rest)) fuel) as [K|K].
  - rewrite leaf_line by assumption. rewrite HN. reflexivity.
  - cbn [body] in *. clear -HT HN K.
    (* with less fuel nothing is found either *)
    assert (G : forall f g seg us items s t r, f <= g -> parse_from f seg us items s = Some (t, r) -> parse_from g seg us items s = Some (t, r)).
    { induction f as [|f IH]; intros g seg us items s t r L H; [discriminate|]. destruct g as [|g]; [lia|]. cbn [parse_from] in *. destruct s as [|c s]; [discriminate|].
      destruct (aeqb c LT).
      - destruct (parse_from f [] [] [] s) as [[ch re]|] eqn:E1; [|discriminate]. rewrite (IH g _ _ _ _ _ _ ltac:(lia) E1). apply IH; [lia|exact H].
      - destruct (aeqb c DQ); [destruct (to_quote s) as [[q re]|]; [|discriminate]; apply IH; [lia|exact H]|].
        destruct (aeqb c GT); [exact H|]. destruct (aeqb c LF); apply IH; try lia; exact H. }
    destruct (parse_from fuel [] [] [] (join_blank ts ++ GT :: rest)) as [[t r]|] eqn:E; [|reflexivity]. exfalso.
    apply (G _ (S (length (join_blank ts ++ GT :: rest)))) in E; [|lia].
    pose proof (leaf_line ts 0 (S (length (join_blank ts ++ GT :: rest))) rest HT) as LL. cbn [body] in LL. rewrite LL, HN in E; [discriminate|lia].
Qed.
Lemma read_tree : forall t (r : option tag), ~ In CR (out 0 t) ->
  (forall fuel rest, length (body 0 t ++ GT :: rest) < fuel -> parse_from fuel [] [] [] (body 0 t ++ GT :: rest) = option_map (fun x => (x, rest)) r) ->
  read_file (file_text t) = r.
Proof.
  intros t r NC HP. unfold read_file. assert (E : newlines (file_text t) = file_text t).
  { apply newlines_id. unfold file_text. intros K. apply in_app_or in K. destruct K as [K|K].
    - revert K. vm_compute. intuition discriminate.
    - apply in_app_or in K. destruct K as [K|[K|[]]]; [|discriminate]. exact (NC K). }
  rewrite E. unfold file_text. assert (startswith HEADER (HEADER ++ out 0 t ++ [LF]) = true) as -> by reflexivity.
  change (skipn 4 (HEADER ++ out 0 t ++ [LF])) with (out 0 t ++ [LF]). rewrite out_body. change (spaces 0) with (@nil ascii). cbn [app].
  assert (E2 : (body 0 t ++ [GT; LF]) ++ [LF] = body 0 t ++ GT :: [LF; LF]) by (rewrite <- app_assoc; reflexivity). unfold parse. rewrite aeqb_refl, E2, HP by lia. destruct r; reflexivity.
Qed.
