(** Proofs about the export of logs (C159). *)
From Coq Require Import String Ascii List Bool Arith Lia.
From Verif Require Import PyStr StepsModel StepsProofs ColModel ColSpec.
Import ListNotations.
Local Open Scope string_scope. Local Open Scope nat_scope. Local Open Scope list_scope.

(** A line: its fields, each but the first after the separator. *)
Definition tail_of (c : ascii) (l : list str) : str := concat (map (fun x => c :: x) l).
Definition line_of (c : ascii) (l : list str) : str := match l with [] => [] | x :: r => x ++ tail_of c r end.
Lemma tail_app : forall c l m, tail_of c (l ++ m) = tail_of c l ++ tail_of c m.
Proof. intros. unfold tail_of. rewrite map_app, concat_app. reflexivity. Qed.
Lemma split_line_of : forall c l, l <> [] -> Forall (fun x => ~ In c x) l -> split_on c (line_of c l) = l.
Proof.
  intros c [|x l] N F; [congruence|]. clear N. cbn [line_of]. inversion F; subst. clear F. revert x H1. induction l as [|y l IH]; intros x H1.
  - cbn [tail_of map concat]. rewrite app_nil_r. apply split_on_plain. exact H1.
  - cbn [tail_of map concat app]. rewrite split_on_cons by exact H1. f_equal. inversion H2; subst. apply IH; assumption.
Qed.
Lemma split_lines_of : forall n ls t, Forall (fun x => ~ In n x) ls -> split_on n (concat (map (fun x => x ++ [n]) ls) ++ t) = ls ++ split_on n t.
Proof.
  intros n ls t F. induction F as [|x ls H F IH]; [reflexivity|]. cbn [map concat app]. rewrite <- !app_assoc. cbn [app]. rewrite split_on_cons by exact H. f_equal. exact IH.
Qed.
Lemma titles_ok : forall c title n col, 0 < n -> regular n col -> titles [c] title col = Some (tail_of c (headings (title, col))).
Proof.
  intros c title n col HN (L & w & W & F). unfold titles, headings. cbn [fst snd]. destruct col as [|x col]; [cbn in L; lia|]. destruct x as [x|xs]; cbn [texts length].
  - cbn. rewrite app_nil_r. reflexivity.
  - destruct (Nat.ltb_spec 1 (length xs)) as [K|K]; destruct (Nat.leb_spec (length xs) 1) as [K2|K2]; try lia.
    + unfold tail_of. rewrite map_map. reflexivity.
    + cbn. rewrite app_nil_r. reflexivity.
Qed.
Lemma head_steps_ok : forall c n cols size t, 0 < n -> Forall (fun tc => regular n (snd tc)) cols -> size = None \/ size = Some n ->
  head_steps [c] cols size t = inl (match cols with [] => size | _ => Some n end, t ++ tail_of c (flat_map headings cols)).
Proof.
  intros c n cols size t HN F. revert size t. induction F as [|[title col] cols H F IH]; intros size t S; cbn [head_steps flat_map].
  - cbn. rewrite app_nil_r. reflexivity.
  - assert (LC : length col = n) by apply H. rewrite (titles_ok c title n col HN H), LC. destruct S as [-> | ->].
    + rewrite IH by (right; reflexivity). rewrite tail_app, app_assoc. destruct cols; reflexivity.
    + rewrite Nat.eqb_refl. rewrite IH by (right; reflexivity). rewrite tail_app, app_assoc. destruct cols; reflexivity.
Qed.
Lemma head_data_ok : forall c n cols size t, 0 < n -> Forall (fun tc => regular n (snd tc)) cols -> size = None \/ size = Some n ->
  head_data [c] cols size t = inl (match cols with [] => size | _ => Some n end, t ++ tail_of c (flat_map headings cols)).
Proof.
  intros c n cols size t HN F. revert size t. induction F as [|[title col] cols H F IH]; intros size t S; cbn [head_data flat_map].
  - cbn. rewrite app_nil_r. reflexivity.
  - assert (LC : length col = n) by apply H. rewrite (titles_ok c title n col HN H), LC. destruct S as [-> | ->].
    + rewrite IH by (right; reflexivity). rewrite tail_app, app_assoc. destruct cols; reflexivity.
    + rewrite IH by (right; reflexivity). rewrite tail_app, app_assoc. destruct cols; reflexivity.
Qed.
Lemma row_ok : forall c n cols i, Forall (fun tc => regular n (snd tc)) cols -> i < n ->
  exists cs, row_cells i cols = Some cs /\ concat (map (cell_text [c]) cs) = tail_of c (flat_map (row_of i) cols).
Proof.
  intros c n cols i F HI. induction F as [|[title col] cols (L & _) F (cs & E & T)]; [exists []; split; reflexivity|]. cbn [row_cells flat_map snd] in *. destruct (nth_error col i) as [x|] eqn:EX; [|apply nth_error_None in EX; lia].
  rewrite E. exists (x :: cs). split; [reflexivity|]. cbn [map concat]. rewrite T, tail_app. f_equal. unfold row_of. cbn [snd]. rewrite EX. destruct x; [cbn; rewrite app_nil_r; reflexivity|reflexivity].
Qed.
Definition fields (prefix : option str) (steps data : list (str * list cell)) (i : nat) : list str :=
  match prefix with Some p => [p] | None => [] end ++ [dec (i + 1)] ++ flat_map (row_of i) (steps ++ data).
Lemma rows_ok : forall c n prefix count steps data todo t, Forall (fun tc => regular n (snd tc)) steps -> Forall (fun tc => regular n (snd tc)) data -> (count = 0 -> steps = []) -> (forall i, In i todo -> i < n) ->
  rows prefix [c] count steps data todo t = Exported (t ++ concat (map (fun x => x ++ [NLc]) (map (fun i => line_of c (fields prefix steps data i)) todo))).
Proof.
  intros c n prefix count steps data todo t F1 F2 HC. revert t. induction todo as [|i todo IH]; intros t HT; cbn [rows map concat]; [rewrite app_nil_r; reflexivity|].
  destruct (row_ok c n steps i F1 (HT i (or_introl eq_refl))) as (a & Ea & Ta). destruct (row_ok c n data i F2 (HT i (or_introl eq_refl))) as (b & Eb & Tb).
  assert (ES : (if Nat.eqb count 0 then Some [] else row_cells i steps) = Some a). { destruct (Nat.eqb_spec count 0) as [K|K]; [|exact Ea]. rewrite (HC K) in Ea. cbn in Ea. exact Ea. }
  rewrite ES, Eb, IH by (intros j J; apply HT; right; exact J). f_equal. rewrite <- !app_assoc. f_equal. rewrite Ta, Tb. unfold fields. rewrite flat_map_app.
  destruct prefix as [p|]; cbn [app line_of]; rewrite <- ?app_assoc.
  - change (tail_of c (dec (i + 1) :: flat_map (row_of i) steps ++ flat_map (row_of i) data)) with ((c :: dec (i + 1)) ++ tail_of c (flat_map (row_of i) steps ++ flat_map (row_of i) data)). rewrite tail_app. cbn [app]. rewrite <- !app_assoc. reflexivity.
  - rewrite tail_app, <- !app_assoc. reflexivity.
Qed.
Lemma dec_clean : forall c n, is_digit c = false -> ~ In c (dec n).
Proof. intros c n H. apply dec_no_char. exact H. Qed.
Lemma clean_headings : forall c col, is_digit c = false -> c <> "_"%char -> clean_col c col -> Forall (fun x => clean_text c x) (headings col).
Proof.
  intros c [title col] HD HU ((T1 & T2) & _). unfold headings. cbn [fst snd] in *. destruct col as [|x col]; [constructor; [split; assumption|constructor]|]. destruct (length (texts x) <=? 1); [constructor; [split; assumption|constructor]|].
  apply Forall_forall. intros y Y. apply in_map_iff in Y. destruct Y as (k & <- & _). split; rewrite !in_app_iff; intros [X|[X|X]].
  - exact (T1 X).
  - destruct X as [X|[]]. congruence.
  - exact (dec_clean c k HD X).
  - exact (T2 X).
  - destruct X as [X|[]]. discriminate X.
  - exact (dec_clean NLc k eq_refl X).
Qed.
Lemma clean_row : forall c i col, clean_col c col -> Forall (fun x => clean_text c x) (row_of i col).
Proof.
  intros c i [title col] (_ & F). unfold row_of. cbn [snd] in *. destruct (nth_error col i) as [x|] eqn:E; [|constructor]. rewrite Forall_forall in F. apply F. apply nth_error_In in E. exact E.
Qed.
Lemma Forall_flat : forall A B (f : A -> list B) (P : B -> Prop) l, (forall x, In x l -> Forall P (f x)) -> Forall P (flat_map f l).
Proof. intros A B f P l H. apply Forall_forall. intros y Y. apply in_flat_map in Y. destruct Y as (x & X & Y). specialize (H x X). rewrite Forall_forall in H. apply H. exact Y. Qed.
Lemma nl_line : forall c l, c <> NLc -> Forall (fun x => ~ In NLc x) l -> ~ In NLc (line_of c l).
Proof.
  intros c l N F. assert (T : forall l, Forall (fun x => ~ In NLc x) l -> ~ In NLc (tail_of c l)).
  { clear l F. intros l F. induction F as [|x l H F IH]; [intros []|]. cbn [tail_of map concat]. rewrite in_app_iff. intros [[X|X]|X]; [congruence|exact (H X)|exact (IH X)]. }
  destruct F as [|x l H F]; [intros []|]. cbn [line_of]. rewrite in_app_iff. intros [X|X]; [exact (H X)|exact (T l F X)].
Qed.

Lemma export_ok : forall c term prefix count n steps data, 0 < n -> data <> [] -> (count = 0 -> steps = []) ->
  Forall (fun tc => regular n (snd tc)) (steps ++ data) -> Forall (clean_col c) (steps ++ data) -> (forall p, prefix = Some p -> clean_text c p) ->
  is_digit c = false -> ~ In c (s2l "_stepuser info") -> c <> NLc ->
  exists t, export_data prefix [c] term count steps data = Exported t /\ map (split_on c) (split_on NLc t) = table prefix n (steps ++ data) ++ [[[]]].
Proof.
  intros c term prefix count n steps data HN HD HC HR CL HP DG SP NL. apply Forall_app in HR. destruct HR as (R1 & R2).
  unfold export_data. destruct data as [|d0 data0]; [congruence|]. cbv iota. set (data := d0 :: data0) in *. clearbody data. cbv zeta.
  rewrite (head_steps_ok c n steps None _ HN R1 (or_introl eq_refl)). rewrite (head_data_ok c n data _ _ HN R2); [|destruct steps; auto].
  assert (ES : (match match data with [] => match steps with [] => None | _ => Some n end | _ => Some n end with Some k => k | None => 0 end) = n) by (destruct data; [congruence|reflexivity]). rewrite ES.
  rewrite (rows_ok c n) by (try assumption; intros i I; apply in_seq in I; lia). eexists. split; [reflexivity|].
  set (hd := match prefix with Some _ => [s2l "user info"] | None => [] end ++ [s2l "step"] ++ flat_map headings (steps ++ data)).
  assert (EH : (((match prefix with Some _ => s2l "user info" ++ [c] | None => [] end ++ s2l "step") ++ tail_of c (flat_map headings steps)) ++ tail_of c (flat_map headings data)) = line_of c hd).
  { unfold hd. rewrite flat_map_app. destruct prefix; cbn [app line_of]; rewrite <- !app_assoc.
    - change (tail_of c (s2l "step" :: flat_map headings steps ++ flat_map headings data)) with ((c :: s2l "step") ++ tail_of c (flat_map headings steps ++ flat_map headings data)). rewrite tail_app. cbn [app]. rewrite <- ?app_assoc. reflexivity.
    - rewrite tail_app. reflexivity. }
  rewrite EH. set (fl := map (fields prefix steps data) (seq 0 n)).
  assert (EL : concat (map (fun x => x ++ [NLc]) (map (fun i => line_of c (fields prefix steps data i)) (seq 0 n))) = concat (map (fun x => x ++ [NLc]) (map (line_of c) fl))) by (unfold fl; rewrite (map_map (fields prefix steps data)); reflexivity).
  rewrite EL. change (line_of c hd ++ [NLc]) with ((fun x => x ++ [NLc]) (line_of c hd)).
  assert (EC : (line_of c hd ++ [NLc]) ++ concat (map (fun x => x ++ [NLc]) (map (line_of c) fl)) = concat (map (fun x => x ++ [NLc]) (map (line_of c) (hd :: fl))) ++ []) by (cbn [map concat]; rewrite app_nil_r; reflexivity).
  cbv beta. rewrite EC.
  assert (CW : forall w, (forall x, In x w -> In x (s2l "_stepuser info")) -> ~ In NLc w -> clean_text c w) by (intros w W N; split; [intros X; apply SP, W, X|exact N]).
  assert (CF : Forall (fun l => l <> [] /\ Forall (clean_text c) l) (hd :: fl)).
  { rewrite Forall_forall in CL. constructor.
    - split; [unfold hd; destruct prefix; discriminate|]. unfold hd. apply Forall_app. split.
      + destruct prefix; constructor; [|constructor]. apply CW; [|vm_compute; intuition discriminate]. intros x X. vm_compute in X |- *. intuition.
      + constructor; [apply CW; [|vm_compute; intuition discriminate]; intros x X; vm_compute in X |- *; intuition|]. apply Forall_flat. intros x X. apply clean_headings; [exact DG|intros ->; apply SP; left; reflexivity|apply CL; exact X].
    - apply Forall_forall. intros l L. unfold fl in L. apply in_map_iff in L. destruct L as (i & <- & _). unfold fields. split; [destruct prefix; discriminate|]. apply Forall_app. split.
      + destruct prefix as [p|]; constructor; [apply HP; reflexivity|constructor].
      + constructor; [split; [apply dec_clean; exact DG|apply dec_clean; reflexivity]|]. apply Forall_flat. intros x X. apply clean_row. apply CL. exact X. }
  rewrite split_lines_of.
  2:{ apply Forall_forall. intros x X. apply in_map_iff in X. destruct X as (l & <- & L). rewrite Forall_forall in CF. destruct (CF l L) as (_ & K). apply nl_line; [exact NL|]. eapply Forall_impl; [|exact K]. intros y Y. apply Y. }
  rewrite map_app. f_equal. rewrite map_map. unfold table. fold hd. change (map (fun i => match prefix with Some p => [p] | None => [] end ++ [dec (i + 1)] ++ flat_map (row_of i) (steps ++ data)) (seq 0 n)) with fl.
  rewrite <- (map_id (hd :: fl)) at 2. apply map_ext_in. intros l L. rewrite Forall_forall in CF. destruct (CF l L) as (K1 & K2). apply split_line_of; [exact K1|]. eapply Forall_impl; [|exact K2]. intros y Y. apply Y.
Qed.
