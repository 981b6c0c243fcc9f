(** Model of the files of a simulation server: spicelib/client_server/sim_server.py:74-186 ([add_sources], [run], [start_session], [status],
    [get_files], [close_session]), srv_sim_runner.py:33-56 ([zip_files]), 78-112 ([run] of the manager thread and its end), 114-152
    ([add_simulation], [_erase_files_and_info], [erase_files_of_runno]), and the end of a task with its call-back: run_task.py:115-190.
    Simplifications: the server handles one request at a time; the names of circuits and sources are without folders; uuid4 never gives the
    same session id twice (a counter); all tasks are started with the call-back [zip_files], also called on errors; zip files keep what is
    written into them; sim_runner.py:646-666 (update_completed) followed by the loop 89-103 of srv_sim_runner.py is one step ([VCollect]). *)
From Coq Require Import String Ascii List Bool Arith ZArith.
From Verif Require Import PyStr RunnerModel SimModel.
From Verif Require ClnModel.
Import ListNotations.
Local Open Scope string_scope. Local Open Scope nat_scope. Local Open Scope list_scope.

(** Files are texts or archives (path and content of every member). *)
Inductive content := Plain (t : str) | Zip (members : list (path * content)).
Definition vdisk := path -> option content.
Definition vput (p : path) (c : option content) (d : vdisk) : vdisk := fun q => if ClnModel.same_path q p then c else d q.
Definition there (d : vdisk) (p : path) : bool := match d p with Some _ => true | None => false end.

(** How a task ended: retcode, raw_file, log_file, callback_return. *)
Record jend := { j_ret : Z; j_raw : option path; j_log : path; j_zip : option path }.
Record job := { j_no : nat; j_net : path; j_end : option jend }.
Definition jended (t : job) : bool := match j_end t with Some _ => true | None => false end.
(** [v_sessions]: sim_server.py:69; [v_jobs]: the tasks in the runner (active_tasks and completed_tasks of SimRunner); [v_finished]:
    completed_tasks of ServerSimRunner; [v_next]: the next session id. *)
Record vserver := { v_disk : vdisk; v_sessions : list (nat * list nat); v_next : nat; v_runno : nat; v_jobs : list job; v_finished : list job }.

(** srv_sim_runner.py:33-56 [zip_files] *)
Definition member (d : vdisk) (p : path) : list (path * content) := match d p with Some c => [(p, c)] | None => [] end.
Definition zip_files (raw : option path) (log : path) (d : vdisk) : option path * vdisk :=
  let name := match raw with
              | Some r => if there d r then Some (with_suffix r (s2l ".zip")) else if there d log then Some (with_suffix log (s2l ".zip")) else None
              | None => if there d log then Some (with_suffix log (s2l ".zip")) else None
              end in
  match name with
  | None => (None, d)
  | Some z => (Some z, vput z (Some (Zip (match raw with Some r => member d r | None => [] end ++ member d log))) d)
  end.
(** run_task.py:115-190: the end of a task *)
Definition vfinish (m : sim) (ret : Z) (t : job) (d : vdisk) : job * vdisk :=
  let log := with_suffix (j_net t) (s2l ".log") in
  let '(raw, log', d') :=
    if Z.eqb ret 0 then (Some (raw_of m (j_net t)), log, d)
    else match d log with
         | Some c => let fail := with_suffix log (s2l ".fail") in (None, fail, vput fail (Some c) (vput log None d))
         | None => (None, log, d)
         end in
  let '(z, d'') := zip_files raw log' d' in
  ({| j_no := j_no t; j_net := j_net t; j_end := Some {| j_ret := ret; j_raw := raw; j_log := log'; j_zip := z |} |}, d'').
Fixpoint vfinish_in (m : sim) (no : nat) (ret : Z) (l : list job) (d : vdisk) : list job * vdisk :=
  match l with
  | [] => ([], d)
  | t :: r => if (j_no t =? no) && negb (jended t) then let (t', d') := vfinish m ret t d in (t' :: r, d')
              else let (r', d') := vfinish_in m no ret r d in (t :: r', d')
  end.
(** srv_sim_runner.py:131-143 [_erase_files_and_info]: the files *)
Definition vdel (p : path) (d : vdisk) : vdisk := if there d p then vput p None d else d.
Definition vdel_opt (p : option path) (d : vdisk) : vdisk := match p with Some q => vdel q d | None => d end.
Definition erase_files (t : job) (d : vdisk) : vdisk :=
  match j_end t with
  | Some e => vdel_opt (j_zip e) (vdel_opt (j_raw e) (vdel (j_log e) (vdel (j_net t) d)))
  | None => vdel (j_net t) d
  end.
(** srv_sim_runner.py:145-152 [erase_files_of_runno]: the first of that number *)
Fixpoint erase_run (no : nat) (l : list job) (d : vdisk) : list job * vdisk :=
  match l with
  | [] => ([], d)
  | t :: r => if j_no t =? no then (r, erase_files t d) else let (r', d') := erase_run no r d in (t :: r', d')
  end.
Fixpoint session (s : nat) (l : list (nat * list nat)) : option (list nat) :=
  match l with [] => None | (k, v) :: r => if k =? s then Some v else session s r end.
Fixpoint add_run (s n : nat) (l : list (nat * list nat)) : list (nat * list nat) :=
  match l with [] => [] | (k, v) :: r => if k =? s then (k, v ++ [n]) :: r else (k, v) :: add_run s n r end.
(** sim_server.py:74-94 [add_sources]: the members of the archive sent are extracted to the output folder *)
Definition extract (out : str) (files : list (str * str)) (d : vdisk) : vdisk :=
  fold_left (fun d f => vput (Path out (fst f)) (Some (Plain (snd f))) d) files d.
(** sim_runner.py:765-778, for one task of the runner (as ClnModel.clean_task): used when the server stops *)
Definition suffix_of (p : path) : str := snd (split_suffix (name p)).
Definition vclean (t : job) (d : vdisk) : vdisk :=
  let net := j_net t in
  let d := vdel net d in
  let d := match j_end t with Some e => vdel (j_log e) d | None => d end in
  let d := vdel (with_suffix net (s2l ".exe.log")) d in
  let d := match j_end t with Some e => vdel_opt (j_raw e) d | None => d end in
  if str_eqb (suffix_of net) (s2l ".net") || str_eqb (suffix_of net) (s2l ".asc")
  then let d := fold_left (fun d e => vdel (with_suffix net (s2l e)) d) [".log.raw"; ".op.raw"; ".db"] d in
       if str_eqb (suffix_of net) (s2l ".asc") then vdel (with_suffix net (s2l ".net")) d else d
  else d.

(** Requests of clients ([VStart], [VRun] with the sources sent and [slot]: whether a place was free in time, [VGet], [VClose]); what the
    simulators do ([VWrite], [VEnd]); a turn of the manager thread ([VCollect]); stop_server, after the running simulations ended ([VStop]). *)
Inductive vevent := VStart | VRun (s : nat) (circuit : str) (files : list (str * str)) (slot : bool) | VWrite (no : nat) (ext text : str) | VEnd (no : nat) (ret : Z)
  | VCollect | VGet (s no : nat) | VClose (s : nat) | VStop.
(** sim_server.py:144-170 [get_files]: the name and content sent; None: no data, or a fault *)
Definition answer (v : vserver) (s no : nat) : option (path * content) :=
  match session s (v_sessions v) with
  | None => None
  | Some l => if existsb (Nat.eqb no) l
              then match find (fun t => (no =? j_no t) && match j_end t with Some e => match j_zip e with Some _ => true | None => false end | None => false end) (v_finished v) with
                   | Some t => match j_end t with
                               | Some e => match j_zip e with Some z => match v_disk v z with Some c => Some (z, c) | None => None end | None => None end
                               | None => None
                               end
                   | None => None
                   end
              else None
  end.
Section Server.
Variables (m : sim) (out : str).
Definition vstep (v : vserver) (e : vevent) : vserver :=
  match e with
  (* sim_server.py:115-124 *)
  | VStart => {| v_disk := v_disk v; v_sessions := v_sessions v ++ [(v_next v, [])]; v_next := S (v_next v); v_runno := v_runno v; v_jobs := v_jobs v; v_finished := v_finished v |}
  (* sim_server.py:96-113, srv_sim_runner.py:114-129, sim_runner.py:451-473, 562-584 *)
  | VRun s circuit files slot =>
      match session s (v_sessions v) with
      | None => v
      | Some _ =>
          let d := extract out files (v_disk v) in
          let n := S (v_runno v) in
          let dest := Path out (run_file_name n circuit) in
          match d (Path out circuit) with
          | None => {| v_disk := d; v_sessions := v_sessions v; v_next := v_next v; v_runno := n; v_jobs := v_jobs v; v_finished := v_finished v |}
          | Some c =>
              {| v_disk := vput dest (Some c) d; v_sessions := if slot then add_run s n (v_sessions v) else v_sessions v; v_next := v_next v; v_runno := n;
                 v_jobs := v_jobs v ++ (if slot then [{| j_no := n; j_net := dest; j_end := None |}] else []); v_finished := v_finished v |}
          end
      end
  | VWrite no ext text =>
      match find (fun t => (j_no t =? no) && negb (jended t)) (v_jobs v) with
      | Some t => {| v_disk := vput (with_suffix (j_net t) ext) (Some (Plain text)) (v_disk v); v_sessions := v_sessions v; v_next := v_next v; v_runno := v_runno v; v_jobs := v_jobs v; v_finished := v_finished v |}
      | None => v
      end
  | VEnd no ret => let (l, d) := vfinish_in m no ret (v_jobs v) (v_disk v) in {| v_disk := d; v_sessions := v_sessions v; v_next := v_next v; v_runno := v_runno v; v_jobs := l; v_finished := v_finished v |}
  (* srv_sim_runner.py:87-103 *)
  | VCollect => {| v_disk := v_disk v; v_sessions := v_sessions v; v_next := v_next v; v_runno := v_runno v; v_jobs := filter (fun t => negb (jended t)) (v_jobs v); v_finished := v_finished v ++ filter jended (v_jobs v) |}
  (* sim_server.py:144-170 *)
  | VGet s no =>
      match answer v s no with
      | None => v
      | Some _ => let (l, d) := erase_run no (v_finished v) (v_disk v) in {| v_disk := d; v_sessions := v_sessions v; v_next := v_next v; v_runno := v_runno v; v_jobs := v_jobs v; v_finished := l |}
      end
  (* sim_server.py:172-188 *)
  | VClose s =>
      match session s (v_sessions v) with
      | None => v
      | Some runs => let (l, d) := fold_left (fun ld n => erase_run n (fst ld) (snd ld)) runs (v_finished v, v_disk v) in
                     {| v_disk := d; v_sessions := filter (fun e => negb (fst e =? s)) (v_sessions v); v_next := v_next v; v_runno := v_runno v; v_jobs := v_jobs v; v_finished := l |}
      end
  (* sim_server.py:190-199, srv_sim_runner.py:104-112 *)
  | VStop => {| v_disk := fold_left (fun d t => vclean t d) (v_jobs v) (v_disk v); v_sessions := v_sessions v; v_next := v_next v; v_runno := v_runno v; v_jobs := v_jobs v; v_finished := v_finished v |}
  end.
Definition started_on (d : vdisk) : vserver := {| v_disk := d; v_sessions := []; v_next := 0; v_runno := 0; v_jobs := []; v_finished := [] |}.
Definition served (d : vdisk) (h : list vevent) : vserver := fold_left vstep h (started_on d).
End Server.
