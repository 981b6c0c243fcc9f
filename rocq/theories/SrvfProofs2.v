From Coq Require Import String Ascii List Bool Arith ZArith Lia Permutation.
From Verif Require Import PyStr RunnerModel SimModel SimSpec SimProps SrvfModel ClnSpec SrvfSpec SrvfProofs.
From Verif Require ClnModel ClnProofs ClnProofs3.
Import ListNotations.
Local Open Scope string_scope. Local Open Scope nat_scope. Local Open Scope list_scope.

Lemma raw_ext : forall m, raw_extension m = raw_name m.
Proof. intros []; reflexivity. Qed.
Lemma extract_other : forall out files d p, (forall f, In f (map fst files) -> p <> Path out f) -> extract out files d p = d p.
Proof.
  intros out files. induction files as [|f l IH]; intros d p H; [reflexivity|]. unfold extract. cbn [fold_left]. change (extract out l (vput (Path out (fst f)) (Some (Plain (snd f))) d) p = d p). rewrite IH; [apply vput_other; apply H; left; reflexivity|intros g G; apply H; right; exact G].
Qed.
Lemma extract_sent : forall out files d f text, sent files f = Some text -> extract out files d (Path out f) = Some (Plain text).
Proof.
  intros out files. assert (G : forall d f acc text, (match acc with Some t => d (Path out f) = Some (Plain t) | None => True end) -> fold_left (fun acc x => if str_eqb (fst x) f then Some (snd x) else acc) files acc = Some text -> extract out files d (Path out f) = Some (Plain text)).
  { induction files as [|x l IH]; intros d f acc text A E; [cbn [fold_left] in E; subst acc; exact A|]. cbn [fold_left] in E. unfold extract. cbn [fold_left]. refine (IH _ f _ text _ E). clear E. destruct (str_eqb (fst x) f) eqn:K.
    - apply str_eqb_eq in K. rewrite <- K. apply vput_same.
    - apply str_eqb_neq in K. destruct acc as [t|]; [|exact I]. rewrite vput_other; [exact A|]. intros J. injection J as J. congruence. }
  intros d f text E. exact (G d f None text I E).
Qed.
Lemma vfinish_in_spec : forall m no ret l d l' d', vfinish_in m no ret l d = (l', d') -> (l' = l /\ d' = d /\ forall t, In t l -> j_no t = no -> j_end t <> None) \/
  exists a t b t', l = a ++ t :: b /\ j_no t = no /\ j_end t = None /\ l' = a ++ t' :: b /\ vfinish m ret t d = (t', d').
Proof.
  intros m no ret. induction l as [|t l IH]; intros d l' d' E; cbn [vfinish_in] in E; [left; injection E as <- <-; split; [reflexivity|split; [reflexivity|intros t []]]|].
  destruct (Nat.eqb_spec (j_no t) no) as [N|N]; cbn [andb] in E.
  - destruct (jended t) eqn:J; cbn [negb] in E.
    + destruct (vfinish_in m no ret l d) as (r, k) eqn:F. injection E as <- <-. destruct (IH _ _ _ F) as [(-> & -> & H)|(a & u & b & u' & -> & U1 & U2 & -> & U3)]; [left; split; [reflexivity|]; split; [reflexivity|]; intros u [<- |I] K; [unfold jended in J; destruct (j_end t); [discriminate|discriminate J]|exact (H u I K)]|].
      right. exists (t :: a), u, b, u'. auto.
    + destruct (vfinish m ret t d) as (t', k) eqn:F. injection E as <- <-. right. exists [], t, l, t'. split; [reflexivity|]. split; [exact N|]. split; [unfold jended in J; destruct (j_end t); [discriminate J|reflexivity]|]. split; [reflexivity|exact F].
  - destruct (vfinish_in m no ret l d) as (r, k) eqn:F. injection E as <- <-. destruct (IH _ _ _ F) as [(-> & -> & H)|(a & u & b & u' & -> & U1 & U2 & -> & U3)]; [left; split; [reflexivity|]; split; [reflexivity|]; intros u [<- |I] K; [contradiction|exact (H u I K)]|]. right. exists (t :: a), u, b, u'. auto.
Qed.
Lemma erase_run_spec : forall no l d l' d', erase_run no l d = (l', d') -> (l' = l /\ d' = d /\ forall t, In t l -> j_no t <> no) \/ exists a t b, l = a ++ t :: b /\ j_no t = no /\ l' = a ++ b /\ d' = erase_files t d.
Proof.
  intros no. induction l as [|t l IH]; intros d l' d' E; cbn [erase_run] in E; [injection E as <- <-; left; split; [reflexivity|split; [reflexivity|intros t []]]|].
  destruct (Nat.eqb_spec (j_no t) no) as [N|N].
  - injection E as <- <-. right. exists [], t, l. auto.
  - destruct (erase_run no l d) as (r, k) eqn:F. injection E as <- <-. destruct (IH _ _ _ F) as [(-> & -> & H)|(a & u & b & -> & U1 & -> & ->)]; [left; split; [reflexivity|]; split; [reflexivity|]; intros u [<- |I]; [exact N|exact (H u I)]|right; exists (t :: a), u, b; auto].
Qed.
Lemma session_In : forall s l runs, session s l = Some runs -> In (s, runs) l.
Proof. intros s. induction l as [|(k, v) l IH]; intros runs E; [discriminate E|]. cbn [session] in E. destruct (Nat.eqb_spec k s) as [-> |N]; [injection E as <-; left; reflexivity|right; apply IH; exact E]. Qed.
Lemma add_run_In : forall s n l s' runs, In (s', runs) (add_run s n l) -> In (s', runs) l \/ (s' = s /\ exists r, In (s, r) l /\ runs = r ++ [n]).
Proof.
  intros s n. induction l as [|(k, v) l IH]; intros s' runs I; [destruct I|]. cbn [add_run] in I. destruct (Nat.eqb_spec k s) as [-> |N].
  - destruct I as [E|I]; [injection E as <- <-; right; split; [reflexivity|]; exists v; split; [left; reflexivity|reflexivity]|left; right; exact I].
  - destruct I as [E|I]; [left; left; exact E|]. destruct (IH _ _ I) as [J|(-> & r & J & ->)]; [left; right; exact J|right; split; [reflexivity|]; exists r; split; [right; exact J|reflexivity]].
Qed.

Section Step.
Variables (m : sim) (out : str).
Notation job_inv := (job_inv m out). Notation inv := (inv m out). Notation file_of := (file_of out).
(** All of a job's files are its own. *)
Lemma erase_mine : forall h d sess t, job_inv h d sess t -> (forall p, ~ run_file out p (j_no t) -> erase_files t d p = d p) /\ (forall p, d p = None -> erase_files t d p = None).
Proof.
  intros h d sess t (b & sf & s & ext & files & I & N & _ & _ & _ & E). destruct (own_exts m) as (X1 & X2 & X3 & X4).
  assert (MY : forall p e, In e run_exts -> ~ run_file out p (j_no t) -> p <> file_of b (j_no t) e) by (intros p e J H ->; apply H; exists b, e; split; [reflexivity|exact J]).
  unfold erase_files. rewrite N. unfold end_inv in E. destruct (j_end t) as [x|].
  - destruct E as (ret & _ & EL & ER & _ & EZ). split.
    + intros p H. assert (A1 : vdel (file_of b (j_no t) sf) d p = d p) by (apply vdel_other; apply MY; [apply net_ext; exact I|exact H]).
      assert (A2 : vdel (j_log x) (vdel (file_of b (j_no t) sf) d) p = d p) by (rewrite vdel_other; [exact A1|]; destruct EL as [-> | ->]; apply MY; assumption).
      assert (A3 : vdel_opt (j_raw x) (vdel (j_log x) (vdel (file_of b (j_no t) sf) d)) p = d p) by (destruct ER as [-> | ->]; cbn [vdel_opt]; [exact A2|rewrite vdel_other; [exact A2|apply MY; assumption]]).
      destruct (j_zip x) as [z|]; cbn [vdel_opt]; [|exact A3]. destruct EZ as (-> & _). rewrite vdel_other; [exact A3|apply MY; assumption].
    + intros p H. destruct (j_zip x); cbn [vdel_opt]; [apply vdel_none|]; (destruct (j_raw x); cbn [vdel_opt]; [apply vdel_none|]; repeat apply vdel_none; exact H).
  - split; [intros p H; apply vdel_other; apply MY; [apply net_ext; exact I|exact H]|intros p H; apply vdel_none; exact H].
Qed.
(** The end of a run. *)
Lemma finish_mine : forall h d sess t ret t' d', job_inv h d sess t -> j_end t = None -> vfinish m ret t d = (t', d') ->
  j_no t' = j_no t /\ j_end t' <> None /\ (forall p, ~ run_file out p (j_no t) -> d' p = d p) /\ (forall p, d p = None -> d' p = None \/ run_file out p (j_no t)) /\ job_inv (h ++ [VEnd (j_no t) ret]) d' sess t'.
Proof.
  intros h d sess t ret t' d' (b & sf & s & ext & files & I & N & R & T & Q & E) NE F. rewrite NE in E. destruct E as (P & Z0 & F0 & RT). destruct (own_exts m) as (X1 & X2 & X3 & X4). destruct (prod_own m sf) as (P1 & P2). set (n := j_no t) in *.
  assert (NX : In sf (netlists ++ map s2l [".log"; ".fail"; ".raw"; ".qraw"])) by (apply in_or_app; left; exact I).
  assert (RX : In (raw_name m) (netlists ++ map s2l [".log"; ".fail"; ".raw"; ".qraw"])) by (apply in_or_app; right; destruct m; cbn; tauto).
  assert (LX : In (s2l ".log") (netlists ++ map s2l [".log"; ".fail"; ".raw"; ".qraw"])) by (apply in_or_app; right; cbn; tauto).
  assert (FX : In (s2l ".fail") (netlists ++ map s2l [".log"; ".fail"; ".raw"; ".qraw"])) by (apply in_or_app; right; cbn; tauto).
  assert (MY : forall p e, In e run_exts -> ~ run_file out p n -> p <> file_of b n e) by (intros p e J H ->; apply H; exists b, e; split; [reflexivity|exact J]).
  assert (NEQ : forall e e', In e run_exts -> In e' run_exts -> e <> e' -> file_of b n e <> file_of b n e') by (intros e e' J J' K L; apply file_of_inj in L; [tauto|exact J|exact J']).
  assert (WE : forall e, wrote (h ++ [VEnd n ret]) n e = wrote h n e) by (intros e; rewrite wrote_app; reflexivity).
  assert (RE : returned (h ++ [VEnd n ret]) n = Some ret) by (rewrite returned_app, Nat.eqb_refl; reflexivity).
  assert (SN : forall e, In e [raw_name m; s2l ".log"; s2l ".fail"; s2l ".zip"] -> file_of b n sf <> file_of b n e) by (intros e J; apply NEQ; [apply net_ext; exact I|destruct J as [<- |[<- |[<- |[<- |[]]]]]; assumption|intros K; symmetry in K; exact (own_not_net m e sf J I K)]).
  assert (LZ : s2l ".log" <> s2l ".zip") by discriminate. assert (FZ : s2l ".fail" <> s2l ".zip") by discriminate. assert (RZ : raw_name m <> s2l ".zip") by (destruct m; discriminate). assert (LF : s2l ".log" <> s2l ".fail") by discriminate.
  pose proof (P _ P1) as PR. pose proof (P _ P2) as PL.
  (* the archive *)
  assert (ZF : forall raw le d1, (raw = None \/ raw = Some (file_of b n (raw_name m))) -> In le [s2l ".log"; s2l ".fail"] ->
     exists z, zip_files raw (file_of b n le) d1 = (z, match z with Some z => vput z (Some (Zip (match raw with Some r => member d1 r | None => [] end ++ member d1 (file_of b n le)))) d1 | None => d1 end) /\
       (z = None \/ z = Some (file_of b n (s2l ".zip"))) /\ (z = None <-> match raw with Some r => member d1 r | None => [] end ++ member d1 (file_of b n le) = [])).
  { intros raw le d1 HR HL. unfold zip_files, member, there. assert (SL : with_suffix (file_of b n le) (s2l ".zip") = file_of b n (s2l ".zip")) by (apply suffix_file; destruct HL as [<- |[<- |[]]]; assumption). rewrite SL.
    destruct HR as [-> | ->]; [|rewrite (suffix_file out b n (raw_name m) (s2l ".zip") RX)].
    - destruct (d1 (file_of b n le)); (first [exists (Some (file_of b n (s2l ".zip"))); split; [reflexivity|]|exists None; split; [reflexivity|]]); (split; [tauto|]); split; intros K; try discriminate K; reflexivity.
    - destruct (d1 (file_of b n (raw_name m))), (d1 (file_of b n le)); (first [exists (Some (file_of b n (s2l ".zip"))); split; [reflexivity|]|exists None; split; [reflexivity|]]); (split; [tauto|]); split; intros K; try discriminate K; reflexivity. }
  unfold vfinish in F. rewrite N in F. unfold raw_of in F. rewrite raw_ext, !(suffix_file out b n sf) in F by exact NX. fold n in F.
  assert (DONE : forall raw le d1 z (MEM : match raw with Some r => member d1 r | None => [] end ++ member d1 (file_of b n le) = delivery m out b n h ret),
     (raw = None \/ raw = Some (file_of b n (raw_name m))) -> In le [s2l ".log"; s2l ".fail"] -> (forall p, ~ run_file out p n -> d1 p = d p) -> d1 (file_of b n sf) = d (file_of b n sf) ->
     zip_files raw (file_of b n le) d1 = (z, d') -> t' = {| j_no := n; j_net := file_of b n sf; j_end := Some {| j_ret := ret; j_raw := raw; j_log := file_of b n le; j_zip := z |} |} ->
     j_no t' = n /\ j_end t' <> None /\ (forall p, ~ run_file out p n -> d' p = d p) /\ job_inv (h ++ [VEnd n ret]) d' sess t').
  { intros raw le d1 z MEM HR HL FR FN ZE ->. destruct (ZF raw le d1 HR HL) as (z' & ZE' & Z1 & Z2). rewrite MEM in *. rewrite ZE' in ZE. injection ZE as -> ED. cbn [j_no j_end]. split; [reflexivity|]. split; [discriminate|].
    split; [intros p H; rewrite <- ED; destruct Z1 as [-> | ->]; [apply FR; exact H|rewrite vput_other; [apply FR; exact H|apply MY; assumption]]|].
    exists b, sf, s, ext, files. cbn [j_no j_net j_end]. split; [exact I|]. split; [reflexivity|]. split; [apply in_or_app; left; exact R|].
    split; [intros text K; rewrite <- ED; apply T in K; rewrite N in K; destruct Z1 as [-> | ->]; [rewrite FN; exact K|rewrite vput_other; [rewrite FN; exact K|apply SN; cbn; tauto]]|].
    split; [exact Q|]. exists ret. split; [exact RE|]. cbn [j_log j_raw j_zip]. split; [destruct HL as [<- |[<- |[]]]; tauto|]. split; [exact HR|]. rewrite !(delivery_ext m out h) by exact WE. split; [intros p c K; rewrite <- MEM in K; unfold member in K; apply in_app_or in K; destruct K as [K|K]; [right; destruct raw as [r|]; [|destruct K]; destruct (d1 r); [|destruct K]; destruct K as [K|[]]; injection K as <- <-; reflexivity|left; destruct (d1 (file_of b n le)); [|destruct K]; destruct K as [K|[]]; injection K as <- <-; reflexivity]|]. destruct Z1 as [-> | ->].
    - apply Z2. reflexivity.
    - split; [reflexivity|]. rewrite <- ED. split; [apply vput_same|]. intros K. apply Z2 in K. discriminate K. }
  assert (NN : forall p, ~ run_file out p n -> d' p = d p -> True) by tauto. clear NN.
  assert (DEC : (forall p, ~ run_file out p n -> d' p = d p) -> forall p, d p = None -> d' p = None \/ run_file out p n).
  { intros H p K. destruct (d' p) eqn:D'; [|left; reflexivity]. right.
    assert (DP : forall e, In e run_exts -> {p = file_of b n e} + {p <> file_of b n e}) by (intros e _; destruct (ClnModel.same_path p (file_of b n e)) eqn:SP; [left; apply ClnProofs.same_path_eq; exact SP|right; intros J; apply ClnProofs.same_path_eq in J; congruence]).
    assert (DL : (exists e, In e run_exts /\ p = file_of b n e) \/ ~ exists e, In e run_exts /\ p = file_of b n e).
    { generalize DP. generalize run_exts. induction l as [|e l IH]; intros G; [right; intros (e & [] & _)|]. destruct (G e (or_introl eq_refl)) as [-> |K1]; [left; exists e; split; [left; reflexivity|reflexivity]|]. destruct (IH (fun e' J => G e' (or_intror J))) as [(e' & J & L)|K2]; [left; exists e'; split; [right; exact J|exact L]|right; intros (e' & [<- |J] & L); [contradiction|apply K2; exists e'; auto]]. }
    destruct DL as [(e & J & ->)|NL]; [exists b, e; auto|]. exfalso. clear DP.
    assert (X : d' p = d p); [|congruence].
    revert F. destruct (Z.eqb ret 0); [|destruct (d (file_of b n (s2l ".log")))]; cbv beta iota zeta; rewrite ?(suffix_file out b n (s2l ".log") (s2l ".fail") LX).
    - destruct (ZF (Some (file_of b n (raw_name m))) (s2l ".log") d) as (z & -> & Z1 & _); [tauto|cbn; tauto|]. intros F. injection F as _ <-. destruct Z1 as [-> | ->]; [reflexivity|apply vput_other; intros ->; apply NL; exists (s2l ".zip"); auto].
    - match goal with |- context [zip_files None (file_of b n (s2l ".fail")) ?d1] => destruct (ZF None (s2l ".fail") d1) as (z & -> & Z1 & _) end; [tauto|cbn; tauto|]. intros F. injection F as _ <-.
      assert (Y : vput (file_of b n (s2l ".fail")) (Some c0) (vput (file_of b n (s2l ".log")) None d) p = d p) by (rewrite !vput_other; [reflexivity| |]; intros ->; apply NL; [exists (s2l ".log")|exists (s2l ".fail")]; auto).
      destruct Z1 as [-> | ->]; [exact Y|rewrite vput_other; [exact Y|intros ->; apply NL; exists (s2l ".zip"); auto]].
    - destruct (ZF None (s2l ".log") d) as (z & -> & Z1 & _); [tauto|cbn; tauto|]. intros F. injection F as _ <-. destruct Z1 as [-> | ->]; [reflexivity|apply vput_other; intros ->; apply NL; exists (s2l ".zip"); auto]. }
  assert (GOAL : j_no t' = n /\ j_end t' <> None /\ (forall p, ~ run_file out p n -> d' p = d p) /\ job_inv (h ++ [VEnd n ret]) d' sess t').
  { unfold delivery, part in DONE. destruct (Z.eqb ret 0) eqn:ER; [|destruct (d (file_of b n (s2l ".log"))) as [c|] eqn:DL]; cbv beta iota zeta in F; rewrite ?(suffix_file out b n (s2l ".log") (s2l ".fail") LX) in F.
    - destruct (zip_files (Some (file_of b n (raw_name m))) (file_of b n (s2l ".log")) d) as (z, d2) eqn:ZE. injection F as F1 F2. subst d2. apply (DONE (Some (file_of b n (raw_name m))) (s2l ".log") d z); [|tauto|cbn; tauto|reflexivity|reflexivity|exact ZE|symmetry; exact F1].
      unfold member. rewrite PR, PL. destruct (wrote h n (raw_name m)), (wrote h n (s2l ".log")); reflexivity.
    - match goal with H : context [zip_files None ?l ?d1] |- _ => destruct (zip_files None l d1) as (z, d2) eqn:ZE end. injection F as F1 F2. subst d2. apply (DONE None (s2l ".fail") (vput (file_of b n (s2l ".fail")) (Some c) (vput (file_of b n (s2l ".log")) None d)) z); [|tauto|cbn; tauto| | |exact ZE|symmetry; exact F1].
      + unfold member. rewrite vput_same. destruct (wrote h n (s2l ".log")); cbn [option_map] in PL; [injection PL as ->; reflexivity|discriminate PL].
      + intros p H. rewrite !vput_other; [reflexivity| |]; apply MY; assumption.
      + rewrite !vput_other; [reflexivity| |]; apply SN; cbn; tauto.
    - destruct (zip_files None (file_of b n (s2l ".log")) d) as (z, d2) eqn:ZE. injection F as F1 F2. subst d2. apply (DONE None (s2l ".log") d z); [|tauto|cbn; tauto|reflexivity|reflexivity|exact ZE|symmetry; exact F1].
      unfold member. rewrite DL. destruct (wrote h n (s2l ".log")); [discriminate PL|reflexivity]. }
  destruct GOAL as (G1 & G2 & G3 & G4). split; [exact G1|]. split; [exact G2|]. split; [exact G3|]. split; [apply DEC; exact G3|exact G4].
Qed.
End Step.
