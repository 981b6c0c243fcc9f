(** C278-C285: simulators made from a path or a command (simulator.py). *)
From Coq Require Import String Ascii List Bool Arith Lia.
From Verif Require Import PyStr ExeModel ExeSpec ExeProofs.
Import ListNotations.
Local Open Scope string_scope. Local Open Scope nat_scope. Local Open Scope list_scope.

Definition found (sys : system) (e : str) : Prop := s_exists sys e = true \/ s_which sys e = true.

Lemma found_b sys e : s_exists sys e || s_which sys e = true <-> found sys e.
Proof. unfold found. apply orb_true_iff. Qed.

Lemma no_backslash s : ~ In "\"%char s -> mem_c "\" s = false.
Proof. apply mem_c_not_In. Qed.

(** C278: a text that is no existing path and has no backslash is read as a shell reads a command: the simulator's command is exactly
    the words, if the first is the path of an existing file or a program that is found; a text that is no command line is refused, an
    empty one and one whose first word is not found raise FileNotFoundError. Other classes keep their attributes. *)
Theorem C278_words : forall sys cls s pname st, s_exists sys s = false -> ~ In "\"%char s ->
  (forall w ws, command_line (w :: ws) s -> plain_path w -> found sys w ->
     exists st', create_from sys cls (AText s) pname st = Created cls st' /\ spice_exe (st' cls) = w :: ws /\
       (forall n, pname = Some n -> process_name (st' cls) = n) /\ forall k, k <> cls -> st' k = st k) /\
  (forall w ws, command_line (w :: ws) s -> plain_path w -> ~ found sys w -> create_from sys cls (AText s) pname st = NotFound) /\
  (command_line [] s -> create_from sys cls (AText s) pname st = NotFound) /\
  (create_from sys cls (AText s) pname st = BadQuotes <-> forall ws, ~ command_line ws s).
Proof.
  intros sys cls s pname st NX NB. unfold create_from, exe_parts. rewrite NX, (no_backslash s NB).
  split; [|split; [|split]].
  - intros w ws C P F. apply split_iff in C. rewrite C, (posix_plain w P). apply found_b in F. rewrite F.
    eexists. split; [reflexivity|]. unfold set_attrs. rewrite Nat.eqb_refl. split; [reflexivity|]. split.
    + intros n ->. reflexivity.
    + intros k N. apply Nat.eqb_neq in N. rewrite N. reflexivity.
  - intros w ws C P F. apply split_iff in C. rewrite C, (posix_plain w P).
    destruct (s_exists sys w || s_which sys w) eqn:E; [apply found_b in E; contradiction|reflexivity].
  - intros C. apply split_iff in C. rewrite C. reflexivity.
  - split.
    + intros H ws C. apply split_iff in C. rewrite C in H. destruct ws as [|w ws]; [discriminate|].
      destruct (s_exists sys (posix w) || s_which sys (posix w)); discriminate.
    + intros H. destruct (shlex_split s) as [ws|] eqn:E; [|reflexivity]. apply split_iff in E. exfalso. exact (H ws E).
Qed.
Print Assumptions C278_words.

(** C279: a Path, an existing path and a text with a backslash are one path, whatever blanks and quotes are in it. *)
Theorem C279_one_path : forall sys cls pname st,
  (forall p, plain_path p -> found sys p ->
     exists st', create_from sys cls (APath p) pname st = Created cls st' /\ spice_exe (st' cls) = [p]) /\
  (forall p, plain_path p -> s_exists sys p = true ->
     exists st', create_from sys cls (AText p) pname st = Created cls st' /\ spice_exe (st' cls) = [p]) /\
  (forall s, In "\"%char s -> s_exists sys s = false -> plain_path (s_win sys s) ->
     (found sys (s_win sys s) -> exists st', create_from sys cls (AText s) pname st = Created cls st' /\ spice_exe (st' cls) = [s_win sys s]) /\
     (~ found sys (s_win sys s) -> create_from sys cls (AText s) pname st = NotFound)).
Proof.
  intros sys cls pname st. unfold create_from, exe_parts. split; [|split].
  - intros p P F. rewrite (posix_plain p P). apply found_b in F. rewrite F. eexists. split; [reflexivity|].
    unfold set_attrs. rewrite Nat.eqb_refl. reflexivity.
  - intros p P X. rewrite X, (posix_plain p P), X. cbn [orb]. eexists. split; [reflexivity|].
    unfold set_attrs. rewrite Nat.eqb_refl. reflexivity.
  - intros s B X P. apply mem_c_In in B. rewrite X, B, (posix_plain _ P). split.
    + intros F. apply found_b in F. rewrite F. eexists. split; [reflexivity|]. unfold set_attrs. rewrite Nat.eqb_refl. reflexivity.
    + intros F. destruct (s_exists sys (s_win sys s) || s_which sys (s_win sys s)) eqn:E; [apply found_b in E; contradiction|reflexivity].
Qed.
Print Assumptions C279_one_path.

(** A case: a loader in quotes and a program with a blank in its path. *)
Definition ex_sys : system :=
  System (fun p => str_eqb p (s2l "/opt/my wine/wine") || str_eqb p (s2l "/s/x") || str_eqb p (s2l "./sim") || str_eqb p (s2l "sim"))
    (fun p => str_eqb p (s2l "/w/drive_c/lib") || str_eqb p (s2l "/w/drive_c/users/me/lib")) (fun _ => false)
    (fun s => s) (fun _ => s2l "me/lib") (fun s => s) false.
Lemma spelled_plain : forall w, Forall (fun c => ~ blank c /\ ~ quote c) w -> spelled w w.
Proof. intros w F. induction F as [|c w (A & B) F IH]; constructor; assumption. Qed.
Lemma plain_chars w : forallb (fun c => negb (is_blank c) && negb (is_quote c)) w = true -> Forall (fun c => ~ blank c /\ ~ quote c) w.
Proof.
  intros H. rewrite forallb_forall in H. apply Forall_forall. intros c I. specialize (H c I). apply andb_true_iff in H as (A & B).
  apply negb_true_iff in A, B. split; [apply blank_false; exact A|apply quote_false; exact B].
Qed.
Example C278_nonvacuous :
  let s := s2l "'/opt/my wine/wine'  /p/sim.exe -b" in
  s_exists ex_sys s = false /\ ~ In "\"%char s /\ command_line [s2l "/opt/my wine/wine"; s2l "/p/sim.exe"; s2l "-b"] s /\
  plain_path (s2l "/opt/my wine/wine") /\ found ex_sys (s2l "/opt/my wine/wine").
Proof.
  intros s. split; [vm_compute; reflexivity|]. split; [apply mem_c_not_In; vm_compute; reflexivity|]. split; [apply split_iff; vm_compute; reflexivity|].
  split.
  - right. exists (s2l "opt/my wine/wine"). split; [reflexivity|].
    assert (forall p, real_part p = true -> mem_c "/" p = false -> part p) as H.
    { intros p A B. apply mem_c_not_In in B. unfold real_part in A. apply andb_true_iff in A as (A1 & A2). apply negb_true_iff in A1, A2.
      apply str_eqb_neq in A1. apply str_eqb_neq in A2. repeat split; assumption. }
    change (s2l "opt/my wine/wine") with (s2l "opt" ++ s2l "/" ++ s2l "my wine" ++ s2l "/" ++ s2l "wine").
    apply td_cons; [apply H; reflexivity|]. apply td_cons; [apply H; reflexivity|]. apply td_one. apply H; reflexivity.
  - left. vm_compute. reflexivity.
Qed.
Example C279_nonvacuous :
  s_exists ex_sys (s2l "/s/x") = true /\
  exists st', create_from ex_sys 0 (AText (s2l "/s/x")) None (fun _ => Attrs [] []) = Created 0 st' /\ spice_exe (st' 0) = [s2l "/s/x"].
Proof. split; [vm_compute; reflexivity|]. eexists. split; [vm_compute; reflexivity|vm_compute; reflexivity]. Qed.

(** ** C282: a simulator that was made is available *)
Lemma pieces_no : forall s p, In p (pieces s) -> ~ In "/"%char p.
Proof.
  induction s as [|c s IH]; intros p I; [destruct I as [<-|[]]; intros []|]. cbn [pieces] in I.
  destruct (aeqb c "/") eqn:E; [destruct I as [<-|I]; [intros []|apply IH; exact I]|].
  destruct (pieces s) as [|q qs] eqn:P.
  - destruct I as [<-|[]]. intros [->|[]]. rewrite aeqb_refl in E. discriminate.
  - destruct I as [<-|I]; [|apply IH; right; exact I]. intros [->|I]; [rewrite aeqb_refl in E; discriminate|].
    apply (IH q); [left; reflexivity|exact I].
Qed.
Lemma parts_part s p : In p (parts s) -> part p.
Proof.
  unfold parts. intros I. apply filter_In in I as (I & R). pose proof (pieces_no s p I) as N. unfold real_part in R.
  apply andb_true_iff in R as (A1 & A2). apply negb_true_iff in A1, A2. apply str_eqb_neq in A1. apply str_eqb_neq in A2.
  repeat split; assumption.
Qed.
Lemma slashed_tidy : forall l, l <> [] -> Forall part l -> tidy (slashed l).
Proof.
  intros l NE F. induction F as [|p l P F IH]; [contradiction|]. cbn [slashed]. destruct l as [|q l]; [constructor; exact P|].
  constructor; [exact P|]. apply IH. discriminate.
Qed.
Lemma root_cases s : root s = [] \/ root s = s2l "/" \/ root s = s2l "//".
Proof.
  destruct s as [|c s]; [left; reflexivity|]. destruct (aeqb c "/") eqn:E; [|apply aeqb_neq in E; left; apply root_none; exact E].
  apply aeqb_eq in E. subst c. right. destruct s as [|c s]; [left; reflexivity|].
  destruct (aeqb c "/") eqn:E; [|apply aeqb_neq in E; left; apply root_one; exact E].
  apply aeqb_eq in E. subst c. destruct s as [|c s]; [right; reflexivity|].
  destruct c as [[] [] [] [] [] [] [] []]; (left; reflexivity) || (right; reflexivity).
Qed.
Lemma posix_idem s : posix (posix s) = posix s.
Proof.
  unfold posix at 2 3. destruct (parts s) as [|p ps] eqn:E.
  - cbn [slashed]. rewrite app_nil_r. destruct (root_cases s) as [-> |[-> | ->]]; reflexivity.
  - assert (Forall part (p :: ps)) as F by (rewrite <- E; apply Forall_forall; intros q I; apply (parts_part s); exact I).
    pose proof (slashed_tidy (p :: ps) ltac:(discriminate) F) as T. set (t := slashed (p :: ps)) in *. clearbody t.
    pose proof (root_cases s) as R.
    destruct (tidy_head t T) as (c & r & -> & N). destruct R as [-> |[-> | ->]].
    + cbn [app]. apply posix_plain. left. exact T.
    + change (s2l "/" ++ c :: r) with ("/"%char :: c :: r). apply posix_plain. right. exists (c :: r). split; [reflexivity|exact T].
    + change (s2l "//" ++ c :: r) with ("/"%char :: "/"%char :: c :: r). unfold posix.
      assert (root ("/"%char :: "/"%char :: c :: r) = s2l "//") as ->.
      { apply aeqb_neq in N. destruct c as [[] [] [] [] [] [] [] []]; try reflexivity. discriminate N. }
      assert (parts ("/"%char :: "/"%char :: c :: r) = parts (c :: r)) as -> by reflexivity.
      destruct (tidy_parts (c :: r) T) as (-> & _). reflexivity.
Qed.

Theorem C282_available : forall sys cls g pname st st', create_from sys cls g pname st = Created cls st' ->
  is_available sys (st' cls) = true.
Proof.
  intros sys cls g pname st st' H. unfold create_from in H.
  assert (forall e ws, exe_parts sys g = Some (e :: ws) -> posix e = e) as N.
  { intros e ws E. unfold exe_parts in E. destruct g as [t|s].
    - injection E as <- _. apply posix_idem.
    - destruct (s_exists sys s); [injection E as <- _; apply posix_idem|]. destruct (mem_c "\" s); [injection E as <- _; apply posix_idem|].
      destruct (shlex_split s) as [[|w l]|]; try discriminate. injection E as <- _. apply posix_idem. }
  destruct (exe_parts sys g) as [[|e ws]|]; try discriminate. destruct (s_exists sys e || s_which sys e) eqn:F; [|discriminate].
  injection H as <-. unfold is_available, set_attrs. rewrite Nat.eqb_refl. cbn [spice_exe]. rewrite (N e ws eq_refl). exact F.
Qed.
Print Assumptions C282_available.

(** ** C283, C284: library directories *)
Lemma startswith_false p s : startswith p s = false <-> ~ exists r, s = p ++ r.
Proof. rewrite <- startswith_app. destruct (startswith p s); intuition congruence. Qed.

Lemma before_drive_ok : forall s a, before_drive s = Some a <-> wine_root s a.
Proof.
  assert (forall s a, before_drive s = Some a -> wine_root s a) as H1.
  { induction s as [|c s IH]; intros a H; [discriminate|]. cbn [before_drive] in H.
    destruct (startswith drive (c :: s)) eqn:E.
    - injection H as <-. apply startswith_app in E as (r & E). split; [exists r; exact E|]. intros a' b' _. cbn. lia.
    - destruct (before_drive s) as [a1|] eqn:B; [|discriminate]. injection H as <-. destruct (IH a1 eq_refl) as ((b & Hb) & M).
      split; [exists b; rewrite Hb; reflexivity|]. intros a' b' Q. destruct a' as [|d a'].
      + exfalso. apply startswith_false in E. apply E. exists b'. exact Q.
      + cbn [app] in Q. injection Q as _ Q. apply M in Q. cbn [length]. lia. }
  assert (forall s a b, s = a ++ drive ++ b -> before_drive s <> None) as H2.
  { induction s as [|c s IH]; intros a b Q H; [destruct a; discriminate|]. cbn [before_drive] in H.
    destruct (startswith drive (c :: s)) eqn:E; [discriminate|]. destruct a as [|d a].
    - apply startswith_false in E. apply E. exists b. exact Q.
    - injection Q as _ Q. apply (IH a b Q). destruct (before_drive s); [discriminate|reflexivity]. }
  intros s a. split; [apply H1|]. intros ((b & Q) & M). destruct (before_drive s) as [a1|] eqn:B; [|exfalso; exact (H2 s a b Q B)].
  destruct (H1 s a1 B) as ((b1 & Q1) & M1). apply M in Q1 as L1. apply M1 in Q as L2. f_equal.
  assert (firstn (length a1) s = a1) as F1 by (rewrite Q1, firstn_app, Nat.sub_diag, firstn_all; cbn [firstn]; apply app_nil_r).
  assert (firstn (length a) s = a) as F2 by (rewrite Q at 1; rewrite firstn_app, Nat.sub_diag, firstn_all; cbn [firstn]; apply app_nil_r).
  rewrite <- F1, <- F2. f_equal. lia.
Qed.
Lemma before_drive_none s : not_wine s -> before_drive s = None.
Proof.
  intros N. destruct (before_drive s) as [a|] eqn:B; [|reflexivity]. apply before_drive_ok in B as ((b & Q) & _). exfalso. exact (N a b Q).
Qed.

Lemma none_not_wine : forall s, before_drive s = None -> not_wine s.
Proof.
  induction s as [|c s IH]; intros H a b Q; [destruct a; discriminate|]. cbn [before_drive] in H.
  destruct (startswith drive (c :: s)) eqn:E; [discriminate|]. destruct a as [|d a].
  - apply startswith_false in E. apply E. exists b. exact Q.
  - injection Q as _ Q. apply (IH (ltac:(destruct (before_drive s); [discriminate|reflexivity])) a b Q).
Qed.

Definition is_dir (sys : system) (p : str) : bool := s_exists sys p && s_isdir sys p.

Lemma skip_tilde x : skipn 1 (s2l "~" ++ x) = x.
Proof. reflexivity. Qed.

(** C283: under wine (the path of the executable has "/drive_c/" in it), a library path on drive C is that directory of the wine
    installation, one that begins with ~ is in the user's directory there, and others are taken as they are; without wine, ~ is the
    user's home directory. The result is that directory if it exists, else None. *)
Theorem C283_library_directory : forall sys path,
  (forall exe a d, wine_root exe a -> ~ (exists x, a = s2l "~" ++ x) -> stands_for sys a path d ->
     expand_dir sys path (Some exe) = if is_dir sys d then Some d else None) /\
  (forall exe, match exe with Some e => not_wine e | None => True end ->
     (forall x, path = s2l "~" ++ x -> expand_dir sys path exe = if is_dir sys (s_user sys path) then Some (s_user sys path) else None) /\
     (~ (exists x, path = s2l "~" ++ x) -> expand_dir sys path exe = if is_dir sys path then Some path else None)).
Proof.
  intros sys path. split.
  - intros exe a d W NT S1. apply before_drive_ok in W. unfold expand_dir. rewrite W. cbn [option_map].
    assert (forall b, startswith (s2l "~") ((a ++ drive) ++ b) = false) as NS.
    { intros b. destruct a as [|c a]; [reflexivity|]. apply startswith_false. intros (r & E). cbn [app] in E.
      change (s2l "~" ++ r) with ("~"%char :: r) in E. injection E as -> _. apply NT. exists a. reflexivity. }
    destruct S1 as [c x C|x|p N1 N2 N3].
    + assert (startswith (s2l "~") (c :: s2l ":/" ++ x) = false) as -> by (destruct C as [-> | ->]; reflexivity).
      assert (startswith (s2l "C:/") (c :: s2l ":/" ++ x) || startswith (s2l "c:/") (c :: s2l ":/" ++ x) = true) as ->.
      { destruct C as [-> | ->]; apply orb_true_iff; [left|right]; apply startswith_app; exists x; reflexivity. }
      change (skipn 3 (c :: s2l ":/" ++ x)) with x. cbv zeta. rewrite NS. rewrite <- app_assoc. reflexivity.
    + assert (startswith (s2l "~") (s2l "~" ++ x) = true) as -> by (apply startswith_app; exists x; reflexivity).
      rewrite skip_tilde. cbv zeta. set (v := s_vars sys (s2l "${USER}" ++ x)).
      assert (startswith (s2l "C:/") (s2l "C:/users/" ++ v) = true) as -> by (apply startswith_app; exists (s2l "users/" ++ v); reflexivity).
      change (skipn 3 (s2l "C:/users/" ++ v)) with (s2l "users/" ++ v). cbn [orb]. rewrite NS.
      rewrite <- app_assoc. change (drive ++ s2l "users/" ++ v) with (s2l "/drive_c/users/" ++ v). reflexivity.
    + apply startswith_false in N1, N2, N3. rewrite N1. cbv zeta. rewrite N2, N3. cbn [orb]. rewrite N1. reflexivity.
  - intros exe N.
    assert (match exe with Some e => option_map (fun a => a ++ drive) (before_drive e) | None => None end = None) as E.
    { destruct exe as [e|]; [rewrite before_drive_none by exact N|]; reflexivity. }
    unfold expand_dir. rewrite E. split.
    + intros x ->. assert (startswith (s2l "~") (s2l "~" ++ x) = true) as -> by (apply startswith_app; exists x; reflexivity). reflexivity.
    + intros NT. apply startswith_false in NT. rewrite NT. reflexivity.
Qed.
Print Assumptions C283_library_directory.

Lemma libs_exe sys (a0 : str) (ws : list str) pn defaults : default_library_paths sys (Attrs (a0 :: ws) pn) defaults =
  flat_map (fun p => match expand_dir sys p (if s_exists sys (last (a0 :: ws) []) then Some (last (a0 :: ws) []) else None) with
                     | Some d => [d] | None => [] end) defaults.
Proof. reflexivity. Qed.

(** C284: the default library paths of a simulator under wine are the existing ones of these directories, in the order of the list. *)
Theorem C284_library_paths : forall sys (a0 : str) (ws : list str) pn (exe a : str) defaults dirs,
  last (a0 :: ws) [] = exe -> s_exists sys exe = true -> wine_root exe a -> ~ (exists x, a = s2l "~" ++ x) ->
  Forall2 (stands_for sys a) defaults dirs ->
  default_library_paths sys (Attrs (a0 :: ws) pn) defaults = filter (is_dir sys) dirs.
Proof.
  intros sys a0 ws pn exe a defaults dirs L X W NT F. rewrite libs_exe. change (@last (list ascii)) with (@last str). rewrite L, X.
  induction F as [|p d ps ds S1 F IH]; [reflexivity|]. cbn [flat_map filter].
  rewrite (proj1 (C283_library_directory sys p) exe a d W NT S1), IH. destruct (is_dir sys d); reflexivity.
Qed.
Print Assumptions C284_library_paths.
Example C284_nonvacuous :
  let sys := System (fun _ => true) (s_isdir ex_sys) (fun _ => false) (fun s => s) (fun _ => s2l "me/lib") (fun s => s) false in
  wine_root (s2l "/w/drive_c/sim.exe") (s2l "/w") /\
  Forall2 (stands_for sys (s2l "/w")) [s2l "C:/nolib"; s2l "~/lib"; s2l "c:/lib"] [s2l "/w/drive_c/nolib"; s2l "/w/drive_c/users/me/lib"; s2l "/w/drive_c/lib"] /\
  default_library_paths sys (Attrs [s2l "wine"; s2l "/w/drive_c/sim.exe"] []) [s2l "C:/nolib"; s2l "~/lib"; s2l "c:/lib"] =
    [s2l "/w/drive_c/users/me/lib"; s2l "/w/drive_c/lib"].
Proof.
  intros sys. split; [apply before_drive_ok; vm_compute; reflexivity|]. split.
  - constructor; [|constructor; [|constructor; [|constructor]]].
    + exact (st_drive sys (s2l "/w") "C" (s2l "nolib") (or_introl eq_refl)).
    + exact (st_home sys (s2l "/w") (s2l "/lib")).
    + exact (st_drive sys (s2l "/w") "c" (s2l "lib") (or_intror eq_refl)).
  - vm_compute. reflexivity.
Qed.
Example C283_nonvacuous : not_wine (s2l "/usr/bin/ngspice") /\
  expand_dir ex_sys (s2l "/w/drive_c/lib") None = None.
Proof.
  split; [|vm_compute; reflexivity]. apply none_not_wine. vm_compute. reflexivity.
Qed.

(** C285: the name of the process is the given one; else the file name of the first word, on macOS without its suffix, and
    "wine-preloader" if "wine" is in the path. *)
Theorem C285_process : forall sys cls dir name pname st, part name -> (dir = [] \/ exists d, dir = d ++ s2l "/" /\ plain_path d) ->
  found sys (dir ++ name) ->
  exists st', create_from sys cls (APath (dir ++ name)) pname st = Created cls st' /\
    (forall n, pname = Some n -> process_name (st' cls) = n) /\
    (pname = None -> s_mac sys = false -> process_name (st' cls) = name).
Proof.
  intros sys cls dir name pname st PN D F.
  assert (forall d r, tidy d -> tidy (d ++ s2l "/" ++ name) /\ parts (d ++ "/"%char :: r) = parts d ++ parts r) as T.
  { intros d r T. induction T as [p P|p q P T (IH1 & IH2)].
    - split; [constructor; [exact P|constructor; exact PN]|]. unfold parts. rewrite (pieces_app p) by apply P. rewrite (pieces_part p) by apply P.
      cbn [filter]. rewrite part_real by exact P. reflexivity.
    - split.
      + rewrite <- !app_assoc. constructor; [exact P|exact IH1].
      + rewrite <- !app_assoc. change (s2l "/" ++ q ++ "/"%char :: r) with ("/"%char :: (q ++ "/"%char :: r)).
        change (p ++ s2l "/" ++ q) with (p ++ "/"%char :: q).
        unfold parts in *. rewrite !(pieces_app p) by apply P. cbn [filter]. rewrite part_real by exact P. cbn [app]. rewrite IH2. reflexivity. }
  assert (parts name = [name]) as PNM by (unfold parts; rewrite pieces_part by apply PN; cbn [filter]; rewrite part_real by exact PN; reflexivity).
  assert (plain_path (dir ++ name) /\ path_name (dir ++ name) = name) as (PP & NM).
  { destruct D as [-> |(d & -> & [TD|(r & -> & TD)])].
    - split; [left; constructor; exact PN|]. unfold path_name. cbn [app]. rewrite PNM. reflexivity.
    - destruct (T d name TD) as (T1 & T2). rewrite <- app_assoc. split; [left; exact T1|]. unfold path_name.
      change (d ++ s2l "/" ++ name) with (d ++ "/"%char :: name). rewrite T2, PNM. apply last_last.
    - destruct (T r name TD) as (T1 & T2). rewrite <- !app_assoc. split; [right; exists (r ++ s2l "/" ++ name); split; [reflexivity|exact T1]|].
      unfold path_name.
      assert (parts (s2l "/" ++ r ++ s2l "/" ++ name) = parts (r ++ "/"%char :: name)) as -> by reflexivity.
      rewrite T2, PNM. apply last_last. }
  unfold create_from, exe_parts. rewrite (posix_plain _ PP). pose proof F as F'. apply found_b in F'. rewrite F'.
  eexists. split; [reflexivity|]. unfold set_attrs. rewrite Nat.eqb_refl. cbn [process_name]. split; [intros n ->; reflexivity|].
  intros -> M. unfold guess_process_name. rewrite M, NM. destruct (dir ++ name) eqn:E; [|reflexivity].
  apply app_eq_nil in E as (_ & ->). destruct PN as (N & _). contradiction.
Qed.
Print Assumptions C285_process.
Example C285_nonvacuous : part (s2l "x") /\ plain_path (s2l "/s") /\ found ex_sys (s2l "/s/" ++ s2l "x").
Proof.
  assert (forall c, c <> "/"%char -> c <> "."%char -> part [c]) as P.
  { intros c A B. split; [discriminate|]. split; [intros E; injection E as ->; contradiction|]. intros [->|[]]. contradiction. }
  split; [apply P; discriminate|]. split; [right; exists (s2l "s"); split; [reflexivity|constructor; apply P; discriminate]|].
  left. vm_compute. reflexivity.
Qed.

(** ** What the documentation promises and the code does not do *)
(** C280: two simulators made from one class are the same class: making the second changes the command of the first. *)
Theorem C280_second_refuted : forall sys cls g1 g2 n1 n2 st st1 st2,
  create_from sys cls g1 n1 st = Created cls st1 -> create_from sys cls g2 n2 st1 = Created cls st2 ->
  (forall g n c st', create_from sys cls g n st = Created c st' -> c = cls) /\
  exe_parts sys g2 = Some (spice_exe (st2 cls)).
Proof.
  intros sys cls g1 g2 n1 n2 st st1 st2 H1 H2. split.
  - intros g n c st' H. unfold create_from in H. destruct (exe_parts sys g) as [[|e ws]|]; try discriminate.
    destruct (s_exists sys e || s_which sys e); [|discriminate]. injection H as <- _. reflexivity.
  - unfold create_from in H2. destruct (exe_parts sys g2) as [[|e ws]|]; try discriminate.
    destruct (s_exists sys e || s_which sys e); [|discriminate]. injection H2 as <-. unfold set_attrs. rewrite Nat.eqb_refl. reflexivity.
Qed.
Print Assumptions C280_second_refuted.

(** C281: a program in the working directory: the file is found, but what is started is whatever the PATH has under its name. *)
Theorem C281_working_directory_refuted : forall sys cls name pname st, part name ->
  s_exists sys (s2l "./" ++ name) = true -> s_exists sys name = true ->
  starts (s2l "./" ++ name) = File (s2l "./" ++ name) /\
  exists st', create_from sys cls (AText (s2l "./" ++ name)) pname st = Created cls st' /\ spice_exe (st' cls) = [name] /\
    starts name = Search name.
Proof.
  intros sys cls name pname st P X1 X2. split; [reflexivity|]. unfold create_from, exe_parts. rewrite X1.
  assert (posix (s2l "./" ++ name) = name) as E.
  { unfold posix. assert (root (s2l "./" ++ name) = []) as -> by reflexivity.
    assert (parts (s2l "./" ++ name) = parts name) as -> by reflexivity.
    unfold parts. rewrite pieces_part by apply P. cbn [filter]. rewrite part_real by exact P. cbn [slashed app].
    destruct name; [destruct P; contradiction|reflexivity]. }
  rewrite E, X2. cbn [orb]. eexists. split; [reflexivity|]. unfold set_attrs. rewrite Nat.eqb_refl. split; [reflexivity|].
  unfold starts. destruct P as (_ & _ & N). apply mem_c_not_In in N. rewrite N. reflexivity.
Qed.
Print Assumptions C281_working_directory_refuted.
Example C281_nonvacuous : part (s2l "sim") /\ s_exists ex_sys (s2l "./" ++ s2l "sim") = true /\ s_exists ex_sys (s2l "sim") = true.
Proof.
  split; [|vm_compute; split; reflexivity]. split; [discriminate|]. split; [discriminate|].
  intros [H|[H|[H|[]]]]; discriminate.
Qed.
