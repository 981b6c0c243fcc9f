(** Model of spicelib/raw/raw_write.py (RawWrite.save) and spicelib/raw/plot_data.py (PlotData).

    A file is a list of bytes ([ascii]).  A sample is the byte string numpy stores for it, so equality
    of samples is equality of bit patterns; conversions from Python numbers are outside the model.
    Simplifications: one plot per file, no stepped files (RawWrite never sets the flag), no aliases and
    .param lines (RawWrite writes none), text characters 0..255 (a byte that is not ASCII decodes to "?",
    standing for U+FFFD), dialect taken from the "Command:" line written by RawWrite. *)
From Coq Require Import String Ascii List Bool Arith.
From Verif Require Import PyStr.
Import ListNotations.
Local Open Scope string_scope.
Local Open Scope nat_scope.
Local Open Scope list_scope.

Definition sample := list ascii.

(** plot_data.py:21-25 and raw_classes.py:55-62: 'real' 'f', 'double' 'd', 'complex'. *)
Inductive dtype := F32 | F64 | C128.
Definition width (d : dtype) : nat := match d with F32 => 4 | F64 => 8 | C128 => 16 end.

Record trace := Trace { tname : str; ttype : str; tdt : dtype; tdata : list sample }.

Inductive encoding := Utf16 | Utf8.

(** raw_write.py:82-94; [w_date]: the text of strftime; [w_offset]: the text of the offset. *)
Record writer := Writer {
  w_plot : str; w_numtype : str; w_forward : bool; w_log : bool; w_fast : bool; w_enc : encoding;
  w_date : str; w_offset : str; w_traces : list trace }.

Definition NL : ascii := "010"%char.
Definition TAB : ascii := "009"%char.
Definition CR : ascii := "013"%char.
Definition SP : ascii := " "%char.
Definition COLON : ascii := ":"%char.

(** str.encode: two bytes per character, or one to two bytes. *)
Definition enc_c (e : encoding) (c : ascii) : list ascii :=
  match e with
  | Utf16 => [c; "000"%char]
  | Utf8 => if code c <? 128 then [c]
            else [ascii_of_nat (192 + code c / 64); ascii_of_nat (128 + code c mod 64)]
  end.
Definition encode (e : encoding) (s : str) : list ascii := flat_map (enc_c e) s.

(** raw_write.py:96-106 [_str_flags]. *)
Definition str_flags (w : writer) : str :=
  w_numtype w ++ (if w_forward w then s2l " forward" else []) ++ (if w_log w then s2l " log" else [])
  ++ (if w_fast w then s2l " fastaccess" else []).

(** Format ":12" of an int: right aligned in 12 columns. *)
Definition pad12 (s : str) : str := repeat SP (12 - length s) ++ s.

Definition n_points (w : writer) : nat := match w_traces w with [] => 0 | t :: _ => length (tdata t) end.

Fixpoint var_lines (i : nat) (ts : list trace) : list str :=
  match ts with
  | [] => []
  | t :: ts' => ([TAB] ++ dec i ++ [TAB] ++ tname t ++ [TAB] ++ ttype t) :: var_lines (S i) ts'
  end.

(** raw_write.py:155-168: the lines of the header, without the final "Binary:". *)
Definition header_lines (w : writer) : list str :=
  [ s2l "Title: * spicelib RawWrite";
    s2l "Date: " ++ w_date w;
    s2l "Plotname: " ++ w_plot w;
    s2l "Flags: " ++ str_flags w;
    s2l "No. Variables: " ++ dec (length (w_traces w));
    s2l "No. Points: " ++ pad12 (dec (n_points w));
    s2l "Offset:   " ++ w_offset w;
    s2l "Command: Linear Technology Corporation LTspice XVII";
    s2l "Variables:" ] ++ var_lines 0 (w_traces w).

Definition lines_text (ls : list str) : str := concat (map (fun l => l ++ [NL]) ls).

(** raw_write.py:169-181. *)
Definition data_bytes (w : writer) : list ascii :=
  if w_fast w && negb (str_eqb (w_numtype w) (s2l "complex"))
  then concat (map (fun t => concat (tdata t)) (w_traces w))
  else concat (map (fun i => concat (map (fun t => nth i (tdata t) []) (w_traces w))) (seq 0 (n_points w))).

(** raw_write.py:143-177 [save]. *)
Definition save (w : writer) : list ascii :=
  encode (w_enc w) (lines_text (header_lines w ++ [s2l "Binary:"])) ++ data_bytes w.

(** * Reading *)
(** plot_data.py:71-103 [raw_detect_encoding]; None is the exception. *)
Definition detect (bs : list ascii) : option encoding :=
  let six := firstn 6 bs in
  if length six <? 6 then None
  else if str_eqb six (s2l "Title:") || str_eqb six (NL :: s2l "Title") then Some Utf8
  else if str_eqb six (encode Utf16 (s2l "Tit")) || str_eqb six (encode Utf16 (NL :: s2l "Ti")) then Some Utf16
  else None.

Definition dec8 (b : ascii) : ascii := if code b <? 128 then b else "?"%char.
Definition dec16 (lo hi : ascii) : ascii := if code hi =? 0 then lo else "?"%char.

Definition is_cr (c : ascii) : bool := aeqb c CR.
Definition section_start (l : str) : bool :=
  str_eqb (lower l) (s2l "binary:") || str_eqb (lower l) (s2l "values:").

(** plot_data.py:166-188: reading the header character by character; the result is the list of header
    lines and the bytes after it; None when the file ends first. *)
Fixpoint scan8 (bs : list ascii) (line : str) : option (list str * list ascii) :=
  match bs with
  | [] => None
  | b :: r =>
      if aeqb (dec8 b) NL then
        let l := rstrip_if is_cr line in
        if section_start l then Some ([l], r)
        else match scan8 r [] with Some (ls, d) => Some (l :: ls, d) | None => None end
      else scan8 r (line ++ [dec8 b])
  end.
Fixpoint scan16 (bs : list ascii) (line : str) : option (list str * list ascii) :=
  match bs with
  | [] => None
  | [_] => None
  | lo :: hi :: r =>
      if aeqb (dec16 lo hi) NL then
        let l := rstrip_if is_cr line in
        if section_start l then Some ([l], r)
        else match scan16 r [] with Some (ls, d) => Some (l :: ls, d) | None => None end
      else scan16 r (line ++ [dec16 lo hi])
  end.
Definition scan (e : encoding) (bs : list ascii) : option (list str * list ascii) :=
  match e with Utf8 => scan8 bs [] | Utf16 => scan16 bs [] end.

(** str.title() *)
Definition is_alpha (c : ascii) : bool := is_upper c || is_lower c.
Fixpoint title_from (after_letter : bool) (s : str) : str :=
  match s with
  | [] => []
  | c :: s' => (if after_letter then lower_c c else upper_c c) :: title_from (is_alpha c) s'
  end.
Definition title (s : str) : str := title_from false s.

(** str.partition(':') *)
Definition partition_colon (s : str) : str * str :=
  match split_at_first COLON s with Some (a, b) => (a, b) | None => (s, []) end.

Definition params := list (str * str).
Definition pget (k : str) (d : params) : option str :=
  match find (fun e => str_eqb (fst e) k) d with Some (_, v) => Some v | None => None end.
Fixpoint pset (k v : str) (d : params) : params :=
  match d with
  | [] => [(k, v)]
  | (k', v') :: d' => if str_eqb k' k then (k', v) :: d' else (k', v') :: pset k v d'
  end.

(** plot_data.py:201-218: header properties up to the "Variables:" line. *)
Fixpoint parse_params (ls : list str) (d : params) : params :=
  match ls with
  | [] => d
  | l :: ls' =>
      if startswith (s2l ".") l then parse_params ls' d
      else
        let '(k, v) := partition_colon l in
        if str_eqb (lower k) (s2l "variables") then d
        else parse_params ls' (pset (title (strip k)) (strip v) d)
  end.

(** str.split('\t') *)
Fixpoint split_tab (s : str) : list str :=
  match s with
  | [] => [[]]
  | c :: s' =>
      if aeqb c TAB then [] :: split_tab s'
      else match split_tab s' with [] => [[c]] | x :: r => (c :: x) :: r end
  end.

Record info := Info { iname : str; idt : dtype; itype : str }.

(** plot_data.py:294-313. *)
Fixpoint parse_vars (first : bool) (num : dtype) (ls : list str) : option (list info) :=
  match ls with
  | [] => Some []
  | l :: ls' =>
      match split_tab (lstrip l) with
      | _ :: n :: t :: _ =>
          let d := if first then match num with F32 => F64 | x => x end else num in
          match parse_vars false num ls' with Some is => Some (Info n d t :: is) | None => None end
      | _ => None
      end
  end.

(** list.index *)
Fixpoint after_line (x : str) (ls : list str) : option (list str) :=
  match ls with [] => None | l :: ls' => if str_eqb l x then Some ls' else after_line x ls' end.

Record plot := Plot {
  p_params : params; p_nvar : nat; p_npoints : nat; p_has_axis : bool; p_fast : bool;
  p_info : list info; p_data : list ascii }.

Definition no_axis_names : list str :=
  [s2l "operating point"; s2l "transfer function"; s2l "integrated noise"].

(** plot_data.py:110-340 [PlotData.__init__], binary files of LTspice dialect. *)
Definition open_raw (bs : list ascii) : option plot :=
  match detect bs with
  | None => None
  | Some e =>
  match scan e bs with
  | None => None
  | Some (header, data) =>
  let d := parse_params header [] in
  match pget (s2l "No. Points") d, pget (s2l "No. Variables") d, pget (s2l "Plotname") d, pget (s2l "Flags") d,
        pget (s2l "Command") d with
  | Some np, Some nv, Some pn, Some fl, Some cmd =>
  match undec np, undec nv with
  | Some npoints, Some nvars =>
      if (npoints =? 0) || (nvars =? 0) || negb (is_sub (s2l "ltspice") (lower cmd)) then None
      else
        let num := if is_sub (s2l "complex") (lower fl) || str_eqb (lower pn) (s2l "ac analysis") then C128
                   else if is_sub (s2l "double") (lower fl) then F64 else F32 in
        match after_line (s2l "Variables:") header with
        | None => None
        | Some vl =>
            match parse_vars true num (removelast vl) with
            | None => None
            | Some infos =>
                Some (Plot d nvars npoints (negb (existsb (str_eqb (lower pn)) no_axis_names))
                           (is_sub (s2l "fastaccess") (lower fl)) infos data)
            end
        end
  | _, _ => None
  end
  | _, _, _, _, _ => None
  end
  end
  end.

(** * Trace data, loaded on request *)
Record entry := Entry { e_axis : bool; e_type : str; e_dt : dtype; e_data : list sample }.
Record rstate := RState { r_axis : bool; r_traces : list (str * entry) }.   (* _axis is not None; _read_traces *)
Definition rstate0 : rstate := RState false [].

Fixpoint eset (k : str) (v : entry) (d : list (str * entry)) : list (str * entry) :=
  match d with
  | [] => [(k, v)]
  | (k', v') :: d' => if str_eqb k' k then (k', v) :: d' else (k', v') :: eset k v d'
  end.
Definition eget (k : str) (d : list (str * entry)) : option entry :=
  match find (fun e => str_eqb (fst e) k) d with Some (_, v) => Some v | None => None end.

Definition slice (off len : nat) (bs : list ascii) : list ascii := firstn len (skipn off bs).

(** plot_data.py:587-598 [_read_bytes_from_file]. *)
Definition read_bytes (p : plot) (off len : nat) : option (list ascii) :=
  let d := slice off len (p_data p) in if length d <? len then None else Some d.

(** numpy.frombuffer with a plain dtype, and one field of a structured dtype. *)
Definition frombuffer (w n : nat) (bs : list ascii) : list sample := map (fun k => slice (k * w) w bs) (seq 0 n).
Definition field (rec off w n : nat) (bs : list ascii) : list sample :=
  map (fun k => slice off w (slice (k * rec) rec bs)) (seq 0 n).

Definition str_in (n : str) (l : list str) : bool := existsb (str_eqb n) l.

(** plot_data.py:637-652: the loop of the fast access branch. *)
Fixpoint fast_loop (p : plot) (names : list str) (infos : list info) (off : nat) (st : rstate) : option rstate :=
  match infos with
  | [] => Some st
  | i :: infos' =>
      let size := width (idt i) * p_npoints p in
      if str_in (iname i) names then
        match read_bytes p off size with
        | None => None
        | Some d =>
            fast_loop p names infos' (off + size)
              (RState (r_axis st)
                 (eset (iname i) (Entry false (itype i) (idt i) (frombuffer (width (idt i)) (p_npoints p) d)) (r_traces st)))
        end
      else fast_loop p names infos' (off + size) st
  end.

(** plot_data.py:674-700: the loop of the normal branch over the structured array [d]. *)
Definition record_size (p : plot) : nat := list_sum (map (fun i => width (idt i)) (p_info p)).
Fixpoint normal_loop (p : plot) (names : list str) (infos : list info) (first : bool) (off : nat)
    (d : list ascii) (st : rstate) : rstate :=
  match infos with
  | [] => st
  | i :: infos' =>
      let data := field (record_size p) off (width (idt i)) (p_npoints p) d in
      let st' :=
        if first && p_has_axis p && negb (r_axis st)
        then RState true (eset (iname i) (Entry true (itype i) (idt i) data) (r_traces st))
        else if str_in (iname i) names
             then RState (r_axis st) (eset (iname i) (Entry false (itype i) (idt i) data) (r_traces st))
             else st in
      normal_loop p names infos' false (off + width (idt i)) d st'
  end.

Fixpoint nodup_names (l : list str) : bool :=
  match l with [] => true | x :: l' => negb (str_in x l') && nodup_names l' end.

(** plot_data.py:597-705 [read_trace_data], binary files; None is an exception. *)
Definition read_trace_data (p : plot) (st : rstate) (names : list str) : option rstate :=
  if p_fast p then
    match p_info p with
    | i0 :: rest =>
        if p_has_axis p && negb (r_axis st) then
          let size := p_npoints p * width (idt i0) in
          match read_bytes p 0 size with
          | None => None
          | Some d =>
              fast_loop p names rest size
                (RState true (eset (iname i0)
                   (Entry true (itype i0) (idt i0) (frombuffer (width (idt i0)) (p_npoints p) d)) (r_traces st)))
          end
        else fast_loop p names (p_info p) 0 st
    | [] => Some st
    end
  else if negb (nodup_names (map iname (p_info p))) then None   (* numpy: duplicate field names *)
  else
    match read_bytes p 0 (p_npoints p * record_size p) with
    | None => None
    | Some d => Some (normal_loop p names (p_info p) true 0 d st)
    end.

(** plot_data.py:707-745 [get_trace] with a name. *)
Definition find_fold (k : str) (d : list (str * entry)) : option entry :=
  match find (fun e => str_eqb (lower k) (lower (fst e))) d with Some (_, v) => Some v | None => None end.
Definition find_info (k : str) (l : list info) : option info :=
  match find (fun i => str_eqb (iname i) k) l with
  | Some i => Some i
  | None => find (fun i => str_eqb (lower k) (lower (iname i))) l
  end.
Definition get_trace (p : plot) (st : rstate) (k : str) : option (rstate * entry) :=
  match eget k (r_traces st) with
  | Some e => Some (st, e)
  | None =>
      match find_fold k (r_traces st) with
      | Some e => Some (st, e)
      | None =>
          match find_info k (p_info p) with
          | None => None
          | Some i =>
              match read_trace_data p st [iname i] with
              | None => None
              | Some st' => match eget (iname i) (r_traces st') with Some e => Some (st', e) | None => None end
              end
          end
      end
  end.

(** plot_data.py:746-751: with an index. *)
Definition get_trace_at (p : plot) (st : rstate) (n : nat) : option (rstate * entry) :=
  match nth_error (p_info p) n with Some i => get_trace p st (iname i) | None => None end.

(** plot_data.py:778-793 [get_axis], not stepped; the absolute value of 'time' axes is left out. *)
Inductive axis_result := AxData (d : list sample) | AxNoAxis | AxAssertion | AxError.
Definition get_axis (p : plot) (st : rstate) : axis_result :=
  if r_axis st then
    match get_trace_at p st 0 with
    | Some (_, e) => if e_axis e then AxData (e_data e) else AxAssertion
    | None => AxError
    end
  else AxNoAxis.

(** Requests made by the user of a RawRead. *)
Inductive request := ReqRead (names : list str) | ReqTrace (k : str).
Definition do_request (p : plot) (st : rstate) (r : request) : option rstate :=
  match r with
  | ReqRead names => read_trace_data p st names
  | ReqTrace k => match get_trace p st k with Some (st', _) => Some st' | None => None end
  end.
(** A request that raises leaves the state as it was (simplification: the traces already loaded by a
    failing request are dropped). *)
Definition do_requests (p : plot) (rs : list request) : rstate :=
  fold_left (fun st r => match do_request p st r with Some st' => st' | None => st end) rs rstate0.
