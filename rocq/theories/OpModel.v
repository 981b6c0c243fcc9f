(** Model of spicelib/log/semi_dev_op_reader.py [opLogReader].  Not modelled: opening the file (its encoding: Enc); the file is the list of
    its lines, each with its line feed. *)
From Coq Require Import String Ascii List Bool Arith.
From Verif Require Import PyStr Regex StepsModel LogModel QlogModel.
Import ListNotations.
Local Open Scope string_scope. Local Open Scope nat_scope. Local Open Scope list_scope.

(** semi_dev_op_reader.py:92: spaces, "--- ", (text), " ---", spaces, end *)
Definition title_re : re := seqs ([sp0] ++ lits "--- " ++ [Grp 1 dots] ++ lits " ---" ++ [sp0; Eol]).

(** semi_dev_op_reader.py:109: re.split at runs of white space; [cur] is the field being read, [gap] that a run is being skipped *)
Fixpoint ws_fields (gap : bool) (cur : str) (s : str) : list str :=
  match s with
  | [] => [cur]
  | c :: s' => if is_space c then (if gap then ws_fields true cur s' else cur :: ws_fields true [] s')
               else ws_fields false (cur ++ [c]) s'
  end.
Definition ws_split (s : str) : list str := ws_fields false [] s.

Section Reader.
Context {V : Type} (conv : str -> V).    (* float(val), or the text itself: lines 121-124 *)
Definition device := list (str * V).
Definition section := list (str * device).
Definition opdata := list (str * section).

(** dataset[where][dev][param] = value; None: KeyError *)
Definition set_value (d : opdata) (w dev param : str) (v : V) : option opdata :=
  match dget w d with
  | None => None
  | Some sec => match dget dev sec with
                | None => None
                | Some ps => Some (dset w (dset dev (dset param v ps) sec) d)
                end
  end.
(** semi_dev_op_reader.py:119-125 *)
Fixpoint set_values (d : opdata) (w param : str) (devs vals : list str) : option opdata :=
  match vals, devs with
  | [], _ => Some d
  | v :: vals', dev :: devs' => match set_value d w dev param (conv v) with Some d' => set_values d' w param devs' vals' | None => None end
  | _ :: _, [] => None
  end.
(** dataset[where][dev] = {} for each device (115-116) *)
Fixpoint new_devices (d : opdata) (w : str) (devs : list str) : option opdata :=
  match devs with
  | [] => Some d
  | dev :: devs' => match dget w d with None => None | Some sec => new_devices (dset w (dset dev [] sec) d) w devs' end
  end.

Record opstate := OpState { o_where : option str; o_devs : list str; o_data : opdata }.
Definition ends_colon (s : str) : bool := match rev s with c :: _ => aeqb c ":" | [] => false end.
Definition is_colon (c : ascii) : bool := aeqb c ":".

(** semi_dev_op_reader.py:104-125, one line; None: an exception *)
Definition op_line (l : str) (st : opstate) : option opstate :=
  match re_match title_re l with
  | Some (_, c) =>
      match group 1 l c with
      | Some w => Some (OpState (Some w) (o_devs st) (dset (lower w) [] (o_data st)))
      | None => None
      end
  | None =>
      match ws_split (rstrip_if is_nl l) with
      | c0 :: ((_ :: _) as rest) =>
          if ends_colon c0 || str_eqb c0 (s2l "Gmb") then
            if str_eqb c0 (s2l "Name:") then
              match o_where st with
              | None => None
              | Some w => option_map (OpState (Some w) rest) (new_devices (o_data st) (lower w) rest)
              end
            else if (0 <? length (o_devs st)) && (length (c0 :: rest) =? length (o_devs st) + 1) then
              match o_where st with
              | None => None
              | Some w => option_map (OpState (Some w) (o_devs st)) (set_values (o_data st) (lower w) (rstrip_if is_colon c0) (o_devs st) rest)
              end
            else Some st
          else Some st
      | _ => Some st
      end
  end.
Fixpoint op_lines (ls : list str) (st : opstate) : option opstate :=
  match ls with [] => Some st | l :: ls' => match op_line l st with Some st' => op_lines ls' st' | None => None end end.
(** semi_dev_op_reader.py:98-102: the lines up to the heading are skipped *)
Fixpoint after_heading (ls : list str) : list str :=
  match ls with [] => [] | l :: ls' => if startswith (s2l "Semiconductor Device Operating Points:") l then ls' else after_heading ls' end.
(** semi_dev_op_reader.py:29-127 *)
Definition op_read (ls : list str) : option opdata := option_map o_data (op_lines (after_heading ls) (OpState None [] [])).
End Reader.
