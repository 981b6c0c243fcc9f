(** Vocabulary for C18-C21 and C24. *)
From Coq Require Import String Ascii List Bool Arith.
From Verif Require Import PyStr RawModel.
Import ListNotations.
Local Open Scope string_scope.
Local Open Scope nat_scope.
Local Open Scope list_scope.

(** Text that may be put in a header: no line break (and no tab where a tab separates). *)
Definition one_line (s : str) : Prop := ~ In NL s /\ ~ In CR s.
Definition one_cell (s : str) : Prop := one_line s /\ ~ In TAB s.
Definition ascii_text (s : str) : Prop := Forall (fun c => code c < 128) s.

Definition real : str := s2l "real".
Definition double : str := s2l "double".
Definition complex : str := s2l "complex".

(** The sample formats a RAW file of LTspice has: the first trace of a real file is double. *)
Definition formats (w : writer) : Prop :=
  match w_traces w with
  | [] => False
  | t0 :: ts =>
      (w_numtype w = real /\ tdt t0 = F64 /\ Forall (fun t => tdt t = F32) ts) \/
      (w_numtype w = double /\ Forall (fun t => tdt t = F64) (t0 :: ts)) \/
      (w_numtype w = complex /\ Forall (fun t => tdt t = C128) (t0 :: ts))
  end.

Record good_writer (w : writer) : Prop := {
  gw_plot : one_line (w_plot w) /\ strip (w_plot w) = w_plot w;
  gw_not_ac : w_numtype w <> complex -> lower (w_plot w) <> s2l "ac analysis";
  gw_date : one_line (w_date w);
  gw_offset : one_line (w_offset w) /\ strip (w_offset w) = w_offset w;
  gw_points : 0 < n_points w;
  gw_traces : Forall (fun t => one_cell (tname t) /\ one_cell (ttype t) /\ length (tdata t) = n_points w /\
                               Forall (fun s => length s = width (tdt t)) (tdata t)) (w_traces w);
  gw_names : NoDup (map (fun t => lower (tname t)) (w_traces w));   (* look-up ignores case *)
  gw_formats : formats w;
  gw_enc : w_enc w = Utf8 ->
    ascii_text (w_plot w) /\ ascii_text (w_date w) /\ ascii_text (w_offset w) /\
    Forall (fun t => ascii_text (tname t) /\ ascii_text (ttype t)) (w_traces w) }.

(** The plot read has the traces written: names, types, number of points, and every sample, by name
    and by position, on a newly opened file. *)
Record same_traces (w : writer) (p : plot) : Prop := {
  st_names : map iname (p_info p) = map tname (w_traces w);
  st_types : map itype (p_info p) = map ttype (w_traces w);
  st_nvars : p_nvar p = length (w_traces w);
  st_points : p_npoints p = n_points w;
  st_by_name : forall t, In t (w_traces w) ->
    exists st e, get_trace p rstate0 (tname t) = Some (st, e) /\ e_type e = ttype t /\ e_dt e = tdt t /\ e_data e = tdata t;
  st_by_index : forall n t, nth_error (w_traces w) n = Some t ->
    exists st e, get_trace_at p rstate0 n = Some (st, e) /\ e_type e = ttype t /\ e_dt e = tdt t /\ e_data e = tdata t }.

(** * Lazy loading *)
(** Sample [k] of variable [i] according to the layout of the file. *)
Definition widths (p : plot) (i : nat) : nat := list_sum (map (fun x => width (idt x)) (firstn i (p_info p))).
Definition stored (p : plot) (i : nat) (w k : nat) : sample :=
  slice (if p_fast p then p_npoints p * widths p i + k * w else k * widths p (length (p_info p)) + widths p i)
        w (p_data p).
Definition content (p : plot) (i : nat) (x : info) : list sample :=
  map (stored p i (width (idt x))) (seq 0 (p_npoints p)).

(** A complete file whose variables have different names, compared without case. *)
Definition complete (p : plot) : Prop :=
  p_npoints p * widths p (length (p_info p)) <= length (p_data p) /\
  NoDup (map (fun x => lower (iname x)) (p_info p)).

(** The request does not name variable 0, the axis. *)
Definition spares_axis (p : plot) (r : request) : Prop :=
  match r with
  | ReqRead names => forall x, nth_error (p_info p) 0 = Some x -> ~ In (iname x) names
  | ReqTrace _ => True
  end.
(** The request loads something. *)
Definition known (p : plot) (r : request) : Prop :=
  match r with ReqRead _ => True | ReqTrace k => exists x, In x (p_info p) /\ lower (iname x) = lower k end.
