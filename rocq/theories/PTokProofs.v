(** Proofs about parameter texts. *)
From Coq Require Import String Ascii List Bool Arith Lia.
From Verif Require Import PyStr EngModel EngProofs PTokModel PTokSpec.
Import ListNotations.
Local Open Scope string_scope.
Local Open Scope list_scope.

Lemma special_in : forall c, In c special <-> (c = "{" \/ c = "}" \/ c = "'" \/ c = DQ)%char.
Proof. intros c. unfold special. cbv -[In]. simpl. intuition auto. Qed.
Lemma not_special : forall c, ~ In c special -> (aeqb c DQ || aeqb c SQ) = false /\ aeqb c "{" = false /\ aeqb c "}" = false.
Proof.
  intros c H. rewrite special_in in H. rewrite orb_false_iff, !aeqb_neq. unfold SQ. intuition auto.
Qed.

Lemma tok_plain : forall t cur s, (forall c, In c t -> ~ In c special /\ c <> ","%char /\ c <> "="%char /\ is_space c = false) ->
  tokenize None false cur (t ++ s) = tokenize None false (cur ++ t) s.
Proof.
  induction t as [|c t IH]; intros cur s H; [rewrite app_nil_r; reflexivity|].
  destruct (H c (or_introl eq_refl)) as (A & B & C & D). destruct (not_special c A) as (E1 & E2 & E3).
  cbn [app tokenize]. rewrite E1, E2, E3, D. apply aeqb_neq in B. apply aeqb_neq in C. rewrite B, C. cbn [orb andb negb].
  rewrite IH by (intros x Hx; apply H; right; exact Hx). rewrite <- app_assoc. reflexivity.
Qed.
Lemma tok_braced : forall t cur s, (forall c, In c t -> ~ In c special) ->
  tokenize None true cur (t ++ s) = tokenize None true (cur ++ t) s.
Proof.
  induction t as [|c t IH]; intros cur s H; [rewrite app_nil_r; reflexivity|].
  destruct (not_special c (H c (or_introl eq_refl))) as (E1 & E2 & E3).
  cbn [app tokenize]. rewrite E1, E2, E3, !andb_false_r.
  rewrite IH by (intros x Hx; apply H; right; exact Hx). rewrite <- app_assoc. reflexivity.
Qed.
Lemma tok_quoted : forall q t cur s, (forall c, In c t -> c <> q /\ c <> "{"%char /\ c <> "}"%char) ->
  tokenize (Some q) false cur (t ++ s) = tokenize (Some q) false (cur ++ t) s.
Proof.
  intros q. induction t as [|c t IH]; intros cur s H; [rewrite app_nil_r; reflexivity|].
  destruct (H c (or_introl eq_refl)) as (A & B & C). apply aeqb_neq in B. apply aeqb_neq in C.
  cbn [app tokenize]. rewrite B, C, !andb_false_r.
  assert (aeqb q c = false) as E by (apply aeqb_neq; intros ->; apply A; reflexivity). rewrite E.
  destruct (aeqb c DQ || aeqb c SQ); rewrite IH by (intros x Hx; apply H; right; exact Hx); rewrite <- app_assoc; reflexivity.
Qed.
Lemma tok_piece : forall p cur s, piece_ok p -> tokenize None false cur (in_text p ++ s) = tokenize None false (cur ++ in_text p) s.
Proof.
  intros [t|t|q t] cur s H; cbn [in_text piece_ok] in *.
  - apply tok_plain. apply H.
  - cbn [app tokenize]. change (aeqb "{" DQ || aeqb "{" SQ) with false. change (aeqb "{" "{") with true. cbv iota.
    rewrite <- app_assoc, tok_braced by exact H. cbn [app tokenize].
    change (aeqb "}" DQ || aeqb "}" SQ) with false. change (aeqb "}" "{") with false. change (aeqb "}" "}") with true. cbv iota.
    rewrite <- !app_assoc. reflexivity.
  - destruct H as [Hq H]. cbn [app tokenize].
    assert (aeqb q DQ || aeqb q SQ = true) as E by (destruct Hq as [<-|[<-|[]]]; reflexivity). rewrite E. cbv iota zeta.
    rewrite <- app_assoc, tok_quoted by exact H. cbn [app tokenize]. rewrite E. rewrite aeqb_refl. rewrite <- !app_assoc. reflexivity.
Qed.
Lemma tok_word : forall w cur s, Forall piece_ok w -> tokenize None false cur (word_text w ++ s) = tokenize None false (cur ++ word_text w) s.
Proof.
  induction w as [|p w IH]; intros cur s H; [rewrite app_nil_r; reflexivity|]. inversion H as [|? ? Hp Hw]; subst.
  unfold word_text in *. cbn [map concat]. rewrite <- app_assoc, tok_piece, IH, <- app_assoc by assumption. reflexivity.
Qed.

(** the first and last characters of a value are no blanks *)
Lemma quote_cases : forall q, In q ["034"; "039"]%char -> is_space q = false /\ q <> ","%char /\ q <> "="%char.
Proof. intros q [<-|[<-|[]]]; repeat split; discriminate. Qed.
Lemma piece_ends : forall p, piece_ok p -> exists c u d v, in_text p = c :: u /\ in_text p = v ++ [d] /\
  is_space c = false /\ is_space d = false /\ c <> ","%char /\ c <> "="%char.
Proof.
  intros [t|t|q t] H; cbn [in_text piece_ok] in *.
  - destruct H as [N H]. destruct t as [|c t]; [contradiction|]. destruct (@exists_last _ (c :: t) N) as (v & d & E).
    destruct (H c (or_introl eq_refl)) as (_ & A & B & C).
    assert (In d (c :: t)) as Hd by (rewrite E; apply in_or_app; right; left; reflexivity).
    destruct (H d Hd) as (_ & _ & _ & D).
    exists c, t, d, v. rewrite <- E. repeat split; assumption.
  - exists "{"%char, (t ++ ["}"%char]), "}"%char, ("{"%char :: t). repeat split; discriminate.
  - destruct H as [Hq H]. destruct (quote_cases q Hq) as (A & B & C). exists q, (t ++ [q]), q, (q :: t). repeat split; assumption.
Qed.
Lemma word_ends : forall w, word_ok w -> exists c u d v, word_text w = c :: u /\ word_text w = v ++ [d] /\
  is_space c = false /\ is_space d = false /\ c <> ","%char /\ c <> "="%char.
Proof.
  intros w [N H]. destruct w as [|p w]; [contradiction|].
  destruct (@exists_last _ (p :: w) N) as (w0 & p0 & E).
  assert (piece_ok p0) as H0. { rewrite Forall_forall in H. apply H. rewrite E. apply in_or_app. right. left. reflexivity. }
  inversion H as [|? ? Hp Hw]; subst. destruct (piece_ends p Hp) as (c & u & _ & _ & E1 & _ & A & _ & B & C).
  destruct (piece_ends p0 H0) as (_ & _ & d & v & _ & E2 & _ & D & _ & _).
  exists c, (u ++ word_text w), d, (word_text w0 ++ v). unfold word_text. repeat split; try assumption.
  - cbn [map concat]. rewrite E1. reflexivity.
  - rewrite E, map_app, concat_app. cbn [map concat]. rewrite app_nil_r, E2, app_assoc. reflexivity.
Qed.
Lemma word_strip : forall w, word_ok w -> strip (word_text w) = word_text w.
Proof.
  intros w H. destruct (word_ends w H) as (c & u & d & v & E1 & E2 & A & B & _). apply strip_id.
  - rewrite E1. exact A.
  - rewrite E2, rev_app_distr. exact B.
Qed.
Lemma word_nonempty : forall w, word_ok w -> word_text w <> [].
Proof. intros w H. destruct (word_ends w H) as (c & u & _ & _ & E & _). rewrite E. discriminate. Qed.
Lemma word_not_op : forall w, word_ok w -> str_eqb (word_text w) (s2l "=") = false /\ str_eqb (word_text w) (s2l ",") = false.
Proof.
  intros w H. destruct (word_ends w H) as (c & u & _ & _ & E & _ & _ & _ & A & B). rewrite E.
  split; apply str_eqb_neq; intros G; injection G as -> _; [apply B|apply A]; reflexivity.
Qed.
Lemma push_word : forall w l, word_ok w -> push (word_text w) l = word_text w :: l.
Proof.
  intros w l H. unfold push. pose proof (word_nonempty w H) as N. rewrite (word_strip w H). destruct (word_text w); [contradiction|reflexivity].
Qed.

Lemma space_facts : forall c, is_space c = true ->
  (aeqb c DQ || aeqb c SQ) = false /\ aeqb c "{" = false /\ aeqb c "}" = false /\ (aeqb c "," || aeqb c "=") = false.
Proof.
  intros c H. rewrite !orb_false_iff, !aeqb_neq.
  repeat split; intros ->; discriminate H.
Qed.
Lemma tok_blank : forall b s, blank b -> tokenize None false [] (b ++ s) = tokenize None false [] s.
Proof.
  unfold blank. induction b as [|c b IH]; intros s H; [reflexivity|]. cbn [forallb] in H. apply andb_true_iff in H. destruct H as [A B].
  destruct (space_facts c A) as (E1 & E2 & E3 & E4). cbn [app tokenize]. rewrite E1, E2, E3, E4, A. cbn [andb negb push]. apply IH. exact B.
Qed.
(** after a value: a blank, a comma or the end *)
Lemma tok_word_end : forall w, word_ok w -> tokenize None false [] (word_text w) = [word_text w].
Proof.
  intros w H. rewrite <- (app_nil_r (word_text w)) at 1. rewrite tok_word by apply H. cbn [app tokenize]. apply push_word. exact H.
Qed.
Lemma tok_word_blank : forall w b s, word_ok w -> blank b -> b <> [] ->
  tokenize None false [] (word_text w ++ b ++ s) = word_text w :: tokenize None false [] s.
Proof.
  intros w b s H Hb Nb. rewrite tok_word by apply H. cbn [app]. destruct b as [|c b]; [contradiction|].
  unfold blank in Hb. cbn [forallb] in Hb. apply andb_true_iff in Hb. destruct Hb as [A B].
  destruct (space_facts c A) as (E1 & E2 & E3 & E4). cbn [app tokenize]. rewrite E1, E2, E3, E4, A. cbn [andb negb].
  rewrite push_word by exact H. f_equal. apply tok_blank. exact B.
Qed.
Lemma tok_word_comma : forall w s, word_ok w ->
  tokenize None false [] (word_text w ++ ","%char :: s) = word_text w :: s2l "," :: tokenize None false [] s.
Proof.
  intros w s H. rewrite tok_word by apply H. cbn [app]. pose proof (word_nonempty w H) as N. pose proof (word_strip w H) as S.
  cbn [tokenize]. change (aeqb "," DQ || aeqb "," SQ) with false. change (aeqb "," "{") with false. change (aeqb "," "}") with false.
  change (aeqb "," "," || aeqb "," "=") with true. cbn [andb negb]. destruct (word_text w); [contradiction|]. rewrite S. reflexivity.
Qed.
(** a name, its equal sign and the blanks around it *)
Lemma tok_name : forall w b1 b2 s, word_ok w -> blank b1 -> blank b2 ->
  exists eqs, (eqs = [] \/ eqs = [s2l "="]) /\
  tokenize None false [] (word_text w ++ b1 ++ "="%char :: b2 ++ s) = word_text w :: eqs ++ tokenize None false [] s.
Proof.
  intros w b1 b2 s H H1 H2. destruct b1 as [|c b1].
  - exists [s2l "="]. split; [right; reflexivity|]. rewrite tok_word by apply H. cbn [app].
    pose proof (word_nonempty w H) as N. pose proof (word_strip w H) as S.
    cbn [tokenize]. change (aeqb "=" DQ || aeqb "=" SQ) with false. change (aeqb "=" "{") with false. change (aeqb "=" "}") with false.
    change (aeqb "=" "," || aeqb "=" "=") with true. cbn [andb negb]. destruct (word_text w); [contradiction|]. rewrite S.
    rewrite tok_blank by exact H2. reflexivity.
  - exists []. split; [left; reflexivity|]. rewrite tok_word_blank; [|exact H|exact H1|discriminate]. cbn [app]. f_equal.
    cbn [tokenize]. change (aeqb "=" DQ || aeqb "=" SQ) with false. change (aeqb "=" "{") with false. change (aeqb "=" "}") with false.
    change (aeqb "=" "," || aeqb "=" "=") with true. cbn [andb negb]. apply tok_blank. exact H2.
Qed.

(** tokens of one parameter followed by a blank or the end *)
Definition more_tokens (l : list (str * word)) : list str := concat (map (fun bw => [s2l ","; word_text (snd bw)]) l).
Definition starts_blank (s : str) (s' : str) : Prop := (s = [] /\ s' = []) \/ exists b, blank b /\ b <> [] /\ s = b ++ s'.
Lemma tok_more : forall more w s s', word_ok w -> Forall (fun bw => blank (fst bw) /\ word_ok (snd bw)) more -> starts_blank s s' ->
  tokenize None false [] (word_text w ++ concat (map (fun bw => ","%char :: fst bw ++ word_text (snd bw)) more) ++ s)
  = word_text w :: more_tokens more ++ tokenize None false [] s'.
Proof.
  induction more as [|[b v] more IH]; intros w s s' Hw Hm Hs; unfold more_tokens in *; cbn [map concat app fst snd].
  - destruct Hs as [[-> ->]|(b & Hb & Nb & ->)].
    + rewrite app_nil_r. apply tok_word_end. exact Hw.
    + apply tok_word_blank; assumption.
  - inversion Hm as [|? ? [Hb Hv] Hm']; subst. cbn [fst snd] in *.
    rewrite tok_word_comma by exact Hw. rewrite <- !app_assoc. rewrite tok_blank by exact Hb.
    rewrite (IH v s s' Hv Hm' Hs). reflexivity.
Qed.
Lemma tok_param : forall p s s', param_ok p -> starts_blank s s' -> exists eqs, (eqs = [] \/ eqs = [s2l "="]) /\
  tokenize None false [] (param_text p ++ s)
  = word_text (p_name p) :: eqs ++ word_text (p_value p) :: more_tokens (p_more p) ++ tokenize None false [] s'.
Proof.
  intros p s s' (H1 & H2 & H3 & H4 & H5) Hs. unfold param_text. rewrite <- !app_assoc. cbn [app]. rewrite <- !app_assoc.
  destruct (tok_name (p_name p) (p_b1 p) (p_b2 p)
    (word_text (p_value p) ++ concat (map (fun bw => ","%char :: fst bw ++ word_text (snd bw)) (p_more p)) ++ s) H1 H2 H3) as (eqs & E & ->).
  exists eqs. split; [exact E|]. rewrite (tok_more (p_more p) (p_value p) s s' H4 H5 Hs). reflexivity.
Qed.

(** running the tokens *)
Definition as_pval (l : list str) : pval := match l with [v] => One v | _ => Many l end.
Definition settled (d : pdict) (k : option str) : pst := {| ps_d := d; ps_key := None; ps_last := k; ps_list := false |}.
Lemma pget_none : forall d k, ~ In k (map fst d) -> pget d k = None.
Proof.
  induction d as [|[k' v] d IH]; intros k H; [reflexivity|]. cbn [map fst] in H. cbn [pget].
  destruct (str_eqb k' k) eqn:E; [apply str_eqb_eq in E; exfalso; apply H; left; exact E|]. apply IH. intros G. apply H. right. exact G.
Qed.
Lemma pset_new : forall d k v, ~ In k (map fst d) -> pset d k v = d ++ [(k, v)].
Proof.
  induction d as [|[k' v'] d IH]; intros k v H; [reflexivity|]. cbn [map fst] in H. cbn [pset].
  destruct (str_eqb k' k) eqn:E; [apply str_eqb_eq in E; exfalso; apply H; left; exact E|].
  rewrite IH by (intros G; apply H; right; exact G). reflexivity.
Qed.
Lemma pget_last : forall d k v, ~ In k (map fst d) -> pget (d ++ [(k, v)]) k = Some v.
Proof.
  induction d as [|[k' v'] d IH]; intros k v H; cbn [app pget]; [rewrite str_eqb_refl; reflexivity|]. cbn [map fst] in H.
  destruct (str_eqb k' k) eqn:E; [apply str_eqb_eq in E; exfalso; apply H; left; exact E|]. apply IH. intros G. apply H. right. exact G.
Qed.
Lemma pset_last : forall d k v v', ~ In k (map fst d) -> pset (d ++ [(k, v)]) k v' = d ++ [(k, v')].
Proof.
  induction d as [|[k' v0] d IH]; intros k v v' H; cbn [app pset]; [rewrite str_eqb_refl; reflexivity|]. cbn [map fst] in H.
  destruct (str_eqb k' k) eqn:E; [apply str_eqb_eq in E; exfalso; apply H; left; exact E|].
  rewrite IH by (intros G; apply H; right; exact G). reflexivity.
Qed.
Lemma prun_app : forall a b st, prun st (a ++ b) = match prun st a with Some st' => prun st' b | None => None end.
Proof. induction a as [|t a IH]; intros b st; cbn [app prun]; [reflexivity|]. destruct (pstep st t); [apply IH|reflexivity]. Qed.

Definition name_ok (k : str) : Prop := ~ In k keywords /\ ~ In k verilog_types /\ is_number k = false.
Lemma mem_s_not : forall k l, ~ In k l -> mem_s k l = false.
Proof.
  intros k l H. unfold mem_s. destruct (existsb (str_eqb k) l) eqn:E; [|reflexivity]. apply existsb_exists in E.
  destruct E as (x & Hx & E). apply str_eqb_eq in E. subst. contradiction.
Qed.
Lemma run_more : forall more d k vs rest, ~ In k (map fst d) -> k <> [] -> Forall (fun bw => blank (fst bw) /\ word_ok (snd bw)) more -> vs <> [] ->
  prun (settled (d ++ [(k, as_pval vs)]) (Some k)) (more_tokens more ++ rest)
  = prun (settled (d ++ [(k, as_pval (vs ++ map (fun bw => word_text (snd bw)) more))]) (Some k)) rest.
Proof.
  induction more as [|[b w] more IH]; intros d k vs rest Hk Nk Hm Nv.
  - cbn [map more_tokens concat app]. rewrite app_nil_r. reflexivity.
  - inversion Hm as [|? ? [Hb Hw] Hm']; subst. cbn [fst snd] in *. unfold more_tokens. cbn [map concat app fst snd prun].
    unfold pstep at 1. cbn [ps_d ps_key ps_last ps_list settled]. change (str_eqb (s2l ",") (s2l "=")) with false. change (str_eqb (s2l ",") (s2l ",")) with true.
    cbv iota. destruct k as [|k0 k]; [contradiction|]. rewrite pget_last by exact Hk. cbn [prun].
    unfold pstep at 1. cbn [ps_d ps_key ps_last ps_list]. destruct (word_not_op w Hw) as [-> ->]. rewrite pget_last by exact Hk.
    assert (match as_pval vs with
      | Many l => Some {| ps_d := pset (d ++ [(k0 :: k, as_pval vs)]) (k0 :: k) (Many (l ++ [word_text w])); ps_key := None; ps_last := Some (k0 :: k); ps_list := false |}
      | One v => Some {| ps_d := pset (d ++ [(k0 :: k, as_pval vs)]) (k0 :: k) (Many [v; word_text w]); ps_key := None; ps_last := Some (k0 :: k); ps_list := false |}
      | Flag => Some {| ps_d := pset (d ++ [(k0 :: k, as_pval vs)]) (k0 :: k) (Many [s2l "True"; word_text w]); ps_key := None; ps_last := Some (k0 :: k); ps_list := false |}
      end = Some (settled (d ++ [(k0 :: k, as_pval (vs ++ [word_text w]))]) (Some (k0 :: k)))) as ->.
    { unfold as_pval. destruct vs as [|v1 [|v2 vs]]; [contradiction| |]; cbn [app]; rewrite pset_last by exact Hk; reflexivity. }
    fold (more_tokens more).
    rewrite (IH d (k0 :: k) (vs ++ [word_text w]) rest Hk Nk Hm') by (destruct vs; discriminate). rewrite <- app_assoc. reflexivity.
Qed.
Lemma run_param : forall p d last eqs rest, param_ok p -> ~ In (word_text (p_name p)) (map fst d) -> name_ok (word_text (p_name p)) ->
  (eqs = [] \/ eqs = [s2l "="]) ->
  prun (settled d last) (word_text (p_name p) :: eqs ++ word_text (p_value p) :: more_tokens (p_more p) ++ rest)
  = prun (settled (d ++ [(fst (meaning p), as_pval (snd (meaning p)))]) (Some (word_text (p_name p)))) rest.
Proof.
  intros p d last eqs rest (H1 & H2 & H3 & H4 & H5) Hk (N1 & N2 & N3) He. cbn [prun]. unfold pstep at 1. cbn [ps_d ps_key ps_last ps_list settled].
  destruct (word_not_op _ H1) as [-> ->]. rewrite (mem_s_not _ _ N1), (mem_s_not _ _ N2), N3.
  set (k := word_text (p_name p)) in *.
  assert (match match last with Some _ => None | None => None end with
    | Some v => match last with Some l => Some (settled (pset d l (One (pjoin v k))) last) | None => Some {| ps_d := d; ps_key := Some k; ps_last := last; ps_list := false |} end
    | None => Some {| ps_d := d; ps_key := Some k; ps_last := last; ps_list := false |} end = Some {| ps_d := d; ps_key := Some k; ps_last := last; ps_list := false |}) as X
    by (destruct last; reflexivity).
  unfold settled in X. rewrite X. clear X. rewrite prun_app.
  assert (prun {| ps_d := d; ps_key := Some k; ps_last := last; ps_list := false |} eqs = Some {| ps_d := d; ps_key := Some k; ps_last := last; ps_list := false |}) as ->
    by (destruct He as [-> | ->]; reflexivity).
  cbn [prun]. unfold pstep at 1. cbn [ps_d ps_key ps_last ps_list]. destruct (word_not_op _ H4) as [-> ->].
  rewrite pset_new by exact Hk. unfold meaning. fold k. cbn [fst snd].
  assert (k <> []) as Nk by (apply word_nonempty; exact H1).
  exact (run_more (p_more p) d k [word_text (p_value p)] rest Hk Nk H5 ltac:(discriminate)).
Qed.

Lemma line_starts : forall l tail, line_ok l tail -> exists s', starts_blank (line_text l tail) s' /\
  match l with (b, p) :: r => s' = param_text p ++ line_text r tail | [] => s' = [] end.
Proof.
  intros [|[b p] r] tail [H Ht]; unfold line_text in *; cbn [map concat app fst snd].
  - exists []. split; [|reflexivity]. destruct tail as [|c t]; [left; split; reflexivity|]. right. exists (c :: t).
    split; [exact Ht|]. split; [discriminate|]. rewrite app_nil_r. reflexivity.
  - inversion H as [|? ? (Hb & Nb & Hp) Hr]; subst. cbn [fst snd] in *.
    exists (param_text p ++ line_text r tail). split; [|reflexivity]. right. exists b. split; [exact Hb|]. split; [exact Nb|].
    unfold line_text. rewrite <- !app_assoc. reflexivity.
Qed.
Definition entry (bp : str * param) : str * pval := (fst (meaning (snd bp)), as_pval (snd (meaning (snd bp)))).
Lemma run_line : forall l tail d last s', line_ok l tail ->
  (match l with (b, p) :: r => s' = param_text p ++ line_text r tail | [] => s' = [] end) ->
  Forall (fun bp => name_ok (fst (meaning (snd bp)))) l ->
  NoDup (map fst d ++ map (fun bp => fst (meaning (snd bp))) l) ->
  exists last', prun (settled d last) (tokenize None false [] s') = Some (settled (d ++ map entry l) last').
Proof.
  induction l as [|[b p] l IH]; intros tail d last s' Hl Hs Hn Hd.
  - subst s'. exists last. cbn [map]. rewrite app_nil_r. reflexivity.
  - subst s'. destruct Hl as [Hl Ht]. inversion Hl as [|? ? (Hb & Nb & Hp) Hl']; subst. inversion Hn as [|? ? Hn1 Hn2]; subst. cbn [fst snd] in *.
    destruct (line_starts l tail (conj Hl' Ht)) as (s2 & S1 & S2).
    destruct (tok_param p (line_text l tail) s2 Hp S1) as (eqs & He & ->).
    rewrite run_param; [|exact Hp| |exact Hn1|exact He].
    + cbn [map] in *. destruct (IH tail (d ++ [entry (b, p)]) (Some (word_text (p_name p))) s2 (conj Hl' Ht) S2 Hn2) as (last' & E).
      * rewrite map_app. cbn [map]. rewrite <- app_assoc. exact Hd.
      * exists last'. rewrite <- app_assoc in E. exact E.
    + cbn [map fst snd meaning] in Hd. apply NoDup_remove_2 in Hd. intros G. apply Hd. apply in_or_app. left. exact G.
Qed.
Theorem parse_line : forall l tail, line_ok l tail ->
  Forall (fun bp => name_ok (fst (meaning (snd bp)))) l -> NoDup (map (fun bp => fst (meaning (snd bp))) l) ->
  parse_params (line_text l tail) = Some (map entry l).
Proof.
  intros l tail Hl Hn Hd. unfold parse_params, tokenize_params.
  destruct (line_starts l tail Hl) as (s2 & S1 & S2).
  assert (tokenize None false [] (line_text l tail) = tokenize None false [] s2) as ->.
  { destruct S1 as [[E ->]|(b & Hb & Nb & ->)]; [rewrite E; reflexivity|apply tok_blank; exact Hb]. }
  destruct (run_line l tail [] None s2 Hl S2 Hn) as (last' & E); [exact Hd|].
  unfold settled in E. rewrite E. reflexivity.
Qed.
