(** Model of collecting log files (spicelib/sim/tookit/sim_analysis.py: add_log_data, read_logfiles; tolerance_deviations.py: read_logfiles)
    and of exporting them (spicelib/log/logfile_data.py: export_data). *)
From Coq Require Import String Ascii List Bool Arith.
From Verif Require Import PyStr StepsModel.
Import ListNotations.
Local Open Scope string_scope. Local Open Scope nat_scope. Local Open Scope list_scope.

(** ** Collecting *)
Section Collect.
Context {V : Type}.
(** The columns of a log are Python lists, which may be shared: a heap of lists. *)
Definition heap : Type := nat -> list V.
Definition hset (h : heap) (a : nat) (l : list V) : heap := fun b => if Nat.eqb b a then l else h b.
(** logfile_data.py:147-165 [LogfileData]: names with the addresses of their columns, and the step count. *)
Record log := Log { l_steps : list (str * nat); l_data : list (str * nat); l_count : nat }.
Record store := Store { st_heap : heap; st_next : nat; st_log : log }.

(** sim_analysis.py:194-198: an unknown step variable gets the very list of the log added. *)
Definition add_step (s : store) (pa : str * nat) : store :=
  let '(p, a) := pa in let c := st_log s in
  match dget p (l_steps c) with
  | None => Store (st_heap s) (st_next s) (Log (l_steps c ++ [(p, a)]) (l_data c) (l_count c))
  | Some b => Store (hset (st_heap s) b (st_heap s b ++ st_heap s a)) (st_next s) c
  end.
(** 199-203: an unknown measurement gets a copy. *)
Definition add_measure (s : store) (pa : str * nat) : store :=
  let '(p, a) := pa in let c := st_log s in
  match dget p (l_data c) with
  | None => Store (hset (st_heap s) (st_next s) (st_heap s a)) (S (st_next s)) (Log (l_steps c) (l_data c ++ [(p, st_next s)]) (l_count c))
  | Some b => Store (hset (st_heap s) b (st_heap s b ++ st_heap s a)) (st_next s) c
  end.
(** 189-204 [add_log_data]; [None]: a log that could not be read (191-192). *)
Definition add_log_data (s : store) (l : option log) : store :=
  match l with
  | None => s
  | Some l =>
      let s1 := fold_left add_measure (l_data l) (fold_left add_step (l_steps l) s) in
      Store (st_heap s1) (st_next s1) (Log (l_steps (st_log s1)) (l_data (st_log s1)) (l_count (st_log s1) + l_count l))
  end.
(** 206-216 [read_logfiles]: [logs], one per simulation, in the order of the simulations (None: no simulation or no log). *)
Definition read_logfiles (h : heap) (next : nat) (logs : list (option log)) : store :=
  fold_left add_log_data logs (Store h next (Log [] [] 0)).
End Collect.
Arguments heap : clear implicits.
Arguments store : clear implicits.

(** ** Exporting: logfile_data.py:356-464 *)
(** A value as written: f'{x}', or the texts of a list of values. *)
Inductive cell := One (x : str) | Many (xs : list str).
Inductive outcome := NotWritten | Exported (t : str) | Broken (t : str).   (* Broken: an exception; what is written so far stays in the file *)
Definition NLc : ascii := "010"%char.
(** 395-410, 411-425: the titles of a column; [None]: IndexError of an empty column. *)
Definition titles (sep title : str) (col : list cell) : option str :=
  match col with
  | [] => None
  | Many xs :: _ => if 1 <? length xs then Some (concat (map (fun n => sep ++ title ++ ["_"%char] ++ dec n) (seq 0 (length xs)))) else Some (sep ++ title)
  | One _ :: _ => Some (sep ++ title)
  end.
(** 394-410: the step columns; data_size; text so far.  [inr]: stopped by an exception. *)
Fixpoint head_steps (sep : str) (cols : list (str * list cell)) (size : option nat) (t : str) : (option nat * str) + str :=
  match cols with
  | [] => inl (size, t)
  | (title, c) :: r =>
      match size with
      | Some n => if Nat.eqb (length c) n then match titles sep title c with Some x => head_steps sep r size (t ++ x) | None => inr t end else inr t
      | None => match titles sep title c with Some x => head_steps sep r (Some (length c)) (t ++ x) | None => inr t end
      end
  end.
(** 412-424: the measurements; a wrong length is only logged. *)
Fixpoint head_data (sep : str) (cols : list (str * list cell)) (size : option nat) (t : str) : (option nat * str) + str :=
  match cols with
  | [] => inl (size, t)
  | (title, c) :: r =>
      match titles sep title c with
      | Some x => head_data sep r (match size with Some n => Some n | None => Some (length c) end) (t ++ x)
      | None => inr t
      end
  end.
Definition cell_text (sep : str) (c : cell) : str :=
  match c with One x => sep ++ x | Many xs => concat (map (fun x => sep ++ x) xs) end.
(** 432-436: [None]: IndexError. *)
Fixpoint row_cells (index : nat) (cols : list (str * list cell)) : option (list cell) :=
  match cols with
  | [] => Some []
  | (_, c) :: r => match nth_error c index, row_cells index r with Some x, Some xs => Some (x :: xs) | _, _ => None end
  end.
(** 431-462. *)
Fixpoint rows (prefix : option str) (sep : str) (count : nat) (steps data : list (str * list cell)) (todo : list nat) (t : str) : outcome :=
  match todo with
  | [] => Exported t
  | i :: r =>
      match (if Nat.eqb count 0 then Some [] else row_cells i steps), row_cells i data with
      | Some a, Some b =>
          rows prefix sep count steps data r
            (t ++ match prefix with Some p => p ++ sep | None => [] end ++ dec (i + 1) ++ concat (map (cell_text sep) a) ++ concat (map (cell_text sep) b) ++ [NLc])
      | _, _ => Broken t
      end
  end.
(** The text written; [terminator] is not used.  With a prefix it is added to the end of the file, else it replaces the file. *)
Definition export_data (prefix : option str) (sep terminator : str) (count : nat) (steps data : list (str * list cell)) : outcome :=
  match data with
  | [] => NotWritten
  | _ =>
      let t0 := match prefix with Some _ => s2l "user info" ++ sep | None => [] end ++ s2l "step" in
      match head_steps sep steps None t0 with
      | inr t => Broken t
      | inl (size, t1) =>
          match head_data sep data size t1 with
          | inr t => Broken t
          | inl (size', t2) => rows prefix sep count steps data (seq 0 (match size' with Some n => n | None => 0 end)) (t2 ++ [NLc])
          end
      end
  end.
(** 375-378, 388: the file afterwards. *)
Definition file_after (old : str) (prefix : option str) (o : outcome) : str :=
  match o with NotWritten => old | Exported t | Broken t => match prefix with Some _ => old ++ t | None => t end end.
