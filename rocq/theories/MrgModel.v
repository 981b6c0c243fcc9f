(** Model of the merging of RAW files: spicelib/raw/raw_write.py, add_traces_from_raw (209-315), _interpolate (318-329),
    _consolidate (331-348), _rename_netlabel (180-200) and what save (143-177) and Trace (47-71) do about them.
    Simplifications: samples are exact rationals (a complex file has rational samples too); a trace has as many samples as its axis;
    the traces of a source are looked up by their exact names and are not its axis; str.format is a given function;
    the state after an exception is not described ([None]). *)
From Coq Require Import String Ascii List Bool Arith QArith Qabs.
From Verif Require Import PyStr Regex EngModel StepsModel.
Import ListNotations.
Local Open Scope string_scope. Local Open Scope nat_scope. Local Open Scope list_scope.

(** raw_write.py:34-45: name, whattype, numerical type and data of a trace. *)
Record trc := Trc { t_name : str; t_what : str; t_num : str; t_data : list Q }.
(** raw_write.py:47-71 [Trace.__init__], with the numerical type given: the two reserved names decide on the type. *)
Definition mk_trace (name : str) (data : list Q) (what num : str) : trc :=
  Trc name (if str_eqb name (s2l "time") then s2l "time"
            else if str_eqb name (s2l "frequency") then s2l "frequency" else what) num data.

(** What is read of a file (raw_read.py:509-560, raw_classes.py:134-152, 264-281): flags, plot name, the axis, and the traces
    with the samples of each step. *)
Record strace := STrace { st_what : str; st_num : str; st_wave : nat -> list Q }.
Record source := Source { s_flags : list str; s_plot : str; s_ax_name : str; s_ax : strace; s_traces : list (str * strace) }.

(** raw_write.py:81-92: the writer; [w_new]: _new_axis ([[]] for None), [w_imp]: _imported_data, each entry being the trace object
    of a source, that is the number of the source and the key of the trace there. *)
Record writer := Writer { w_num : str; w_fwd : bool; w_log : bool; w_plot : str; w_traces : list trc;
                          w_new : list Q; w_imp : list (nat * str) }.
(** The attribute "name" of the trace objects of the sources, which the merging assigns. *)
Definition names := nat -> str -> str.
Definition set_name (nm : names) (k : nat) (key new : str) : names :=
  fun k' key' => if (k' =? k) && str_eqb key' key then new else nm k' key'.

(** raw_write.py:183: ([IViv])\(([^)]+)\) *)
Definition label_re : re :=
  Seq (Grp 1 (Chr (one_of (s2l "IViv")))) (Seq (lit "(") (Seq (Grp 2 (Plus (Chr (fun c => negb (aeqb c ")"))))) (lit ")"))).
(** The keywords that rename: none, add_tag, rename_format (with what str.format makes of a name). *)
Inductive renaming := NoRename | AddTag (t : str) | Format (f : str -> str).
(** raw_write.py:179-200 [_rename_netlabel] *)
Definition rename_with (f : str -> str) (name : str) : str :=
  match re_match label_re name with
  | Some (_, c) =>
      match group 1 name c, group 2 name c with
      | Some g1, Some g2 => g1 ++ s2l "(" ++ f g2 ++ s2l ")"
      | _, _ => name
      end
  | None => f name
  end.
Definition rename (r : renaming) (name : str) : str :=
  match r with
  | NoRename => name
  | AddTag t => rename_with (fun x => x ++ s2l "_" ++ t) name
  | Format f => rename_with f name
  end.

(** raw_write.py:245-250: the number type is the first of "real" and "complex" among the flags. *)
Fixpoint num_type (flags : list str) : str :=
  match flags with
  | [] => s2l "real"
  | f :: r => if str_eqb f (s2l "real") || str_eqb f (s2l "complex") then f else num_type r
  end.

(** raw_write.py:286-298: the loop over the two axes; [a]: existing, [b]: incoming, from the positions reached. *)
Fixpoint merge (fuel : nat) (err : Q) (a b : list Q) : list Q :=
  match fuel with
  | 0 => []
  | S f =>
      match a, b with
      | x :: ((_ :: _) as a'), y :: ((_ :: _) as b') =>
          if Qltb (Qabs (y - x)) err then x :: merge f err a' b'
          else if Qltb (y - x) 0 then y :: merge f err a b'
          else x :: merge f err a' b
      | _, _ => []
      end
  end.
Definition merged (err : Q) (a b : list Q) : list Q := merge (length a + length b) err a b.

(** One call; [None]: an exception. *)
Record call := Call { c_src : nat; c_names : list str; c_align : bool; c_err : Q; c_ren : renaming; c_step : nat; c_minstep : Q }.

Section Sources.
Variable srcs : nat -> source.

(** raw_write.py:302-306 *)
Fixpoint import_all (k : nat) (r : renaming) (l : list str) (imp : list (nat * str)) (nm : names) : option (list (nat * str) * names) :=
  match l with
  | [] => Some (imp, nm)
  | n :: l' =>
      match dget n (s_traces (srcs k)) with
      | None => None
      | Some _ => import_all k r l' (imp ++ [(k, n)]) (set_name nm k n (rename r n))
      end
  end.
(** raw_write.py:310-314 *)
Fixpoint append_all (k : nat) (r : renaming) (step : nat) (l : list str) (ts : list trc) : option (list trc) :=
  match l with
  | [] => Some ts
  | n :: l' =>
      match dget n (s_traces (srcs k)) with
      | None => None
      | Some t => append_all k r step l' (ts ++ [mk_trace (rename r n) (st_wave t step) (st_what t) (st_num t)])
      end
  end.

(** raw_write.py:274-315: the second half of the call, with the traces the writer has by then. *)
Definition add_data (c : call) (align : bool) (w : writer) (nm : names) : option (writer * names) :=
  let s := srcs (c_src c) in
  match w_traces w with
  | [] => None
  | ax :: _ =>
      if align || Qltb 0 (c_minstep c) then
        if Qltb 0 (c_minstep c) then None
        else
          let my := match w_new w with [] => t_data ax | l => l end in
          match import_all (c_src c) (c_ren c) (c_names c) (w_imp w) nm with
          | None => None
          | Some (imp, nm') =>
              Some (Writer (w_num w) (w_fwd w) (w_log w) (w_plot w) (w_traces w)
                      (merged (c_err c) my (st_wave (s_ax s) (c_step c))) imp, nm')
          end
      else if length (t_data ax) =? length (st_wave (s_ax s) (c_step c)) then
        match append_all (c_src c) (c_ren c) (c_step c) (c_names c) (w_traces w) with
        | None => None
        | Some ts => Some (Writer (w_num w) (w_fwd w) (w_log w) (w_plot w) ts (w_new w) (w_imp w), nm)
        end
      else None
  end.
(** raw_write.py:209-315 [add_traces_from_raw] *)
Definition add_traces (c : call) (st : writer * names) : option (writer * names) :=
  let '(w, nm) := st in
  let s := srcs (c_src c) in
  match w_traces w with
  | ax :: _ =>
      if negb (str_eqb (w_num w) (num_type (s_flags s))) then None
      else if negb (str_eqb (t_what ax) (st_what (s_ax s))) then None
      else match c_names c with
           | [] => Some (w, nm)
           | _ => add_data c (c_align c) w nm
           end
  | [] =>
      add_data c false
        (Writer (num_type (s_flags s)) (existsb (str_eqb (s2l "forward")) (s_flags s)) (existsb (str_eqb (s2l "log")) (s_flags s))
           (s_plot s) [mk_trace (s_ax_name s) (st_wave (s_ax s) (c_step c)) (st_what (s_ax s)) (st_num (s_ax s))]
           (w_new w) (w_imp w)) nm
  end.
Fixpoint add_calls (cs : list call) (st : writer * names) : option (writer * names) :=
  match cs with
  | [] => Some st
  | c :: r => match add_traces c st with Some st' => add_calls r st' | None => None end
  end.

(** raw_write.py:324-327: the next sample not before [t]; [None]: IndexError. *)
Fixpoint seek (t : Q) (p c : Q * Q) (r : list (Q * Q)) : option ((Q * Q) * (Q * Q) * list (Q * Q)) :=
  if Qltb (fst c) t then match r with [] => None | n :: r' => seek t c n r' end else Some (p, c, r).
(** raw_write.py:323-328 *)
Fixpoint interp_from (p c : Q * Q) (r : list (Q * Q)) (ts : list Q) : option (list Q) :=
  match ts with
  | [] => Some []
  | t :: ts' =>
      match seek t p c r with
      | None => None
      | Some (p', c', r') =>
          match interp_from p' c' r' ts' with
          | None => None
          | Some ys => Some ((snd p' + (snd c' - snd p') / (fst c' - fst p') * (t - fst p'))%Q :: ys)
          end
      end
  end.
(** raw_write.py:317-329 [_interpolate] *)
Definition interpolate (data axis ts : list Q) : option (list Q) :=
  match combine axis data with
  | p :: c :: r => interp_from p c r ts
  | _ => None
  end.

Fixpoint interp_traces (axis ts : list Q) (l : list trc) : option (list trc) :=
  match l with
  | [] => Some []
  | t :: r =>
      match interpolate (t_data t) axis ts, interp_traces axis ts r with
      | Some d, Some r' => Some (Trc (t_name t) (t_what t) (t_num t) d :: r')
      | _, _ => None
      end
  end.
Fixpoint interp_imports (nm : names) (ts : list Q) (l : list (nat * str)) : option (list trc) :=
  match l with
  | [] => Some []
  | (k, n) :: r =>
      match dget n (s_traces (srcs k)) with
      | None => None
      | Some t =>
          match interpolate (st_wave t 0) (st_wave (s_ax (srcs k)) 0) ts, interp_imports nm ts r with
          | Some d, Some r' => Some (mk_trace (nm k n) d (st_what t) (st_num t) :: r')
          | _, _ => None
          end
      end
  end.
(** raw_write.py:331-348 [_consolidate] *)
Definition consolidate (w : writer) (nm : names) : option writer :=
  match w_new w, w_imp w, w_traces w with
  | _ :: _, _ :: _, ax :: ts =>
      match (if length (w_new w) =? length (t_data ax) then Some ts else interp_traces (t_data ax) (w_new w) ts),
            interp_imports nm (w_new w) (w_imp w) with
      | Some ts', Some ims =>
          Some (Writer (w_num w) (w_fwd w) (w_log w) (w_plot w)
                  (mk_trace (t_name ax) (w_new w) (t_what ax) (t_num ax) :: ts' ++ ims) [] [])
      | _, _ => None
      end
  | _, _, _ => Some w
  end.
(** raw_write.py:151-152: what [save] does first; the traces it then writes (RawModel) are those of the result. *)
Definition before_save (w : writer) (nm : names) : option writer :=
  match w_imp w with [] => Some w | _ => consolidate w nm end.
End Sources.
