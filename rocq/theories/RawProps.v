(** C18-C21, C24: RAW files. *)
From Coq Require Import String Ascii List Bool Arith Lia.
From Verif Require Import PyStr RawModel RawSpec RawProofs.
Import ListNotations.
Local Open Scope string_scope.
Local Open Scope nat_scope.
Local Open Scope list_scope.

(** * C18, C19.  Real data, both layouts. *)
Theorem C18_normal_round_trip : forall w, good_writer w -> w_fast w = false ->
  (w_numtype w = real \/ w_numtype w = double) ->
  exists p, open_raw (save w) = Some p /\ same_traces w p.
Proof. intros w H Hf _. apply round_trip; [exact H|apply normal_consistent; exact Hf]. Qed.
Print Assumptions C18_normal_round_trip.

Theorem C19_fast_round_trip : forall w, good_writer w -> w_fast w = true ->
  (w_numtype w = real \/ w_numtype w = double) ->
  exists p, open_raw (save w) = Some p /\ same_traces w p.
Proof.
  intros w H Hf Hn. apply round_trip; [exact H|]. apply fast_consistent; [exact Hf|].
  destruct Hn as [-> | ->]; discriminate.
Qed.
Print Assumptions C19_fast_round_trip.

Definition b (n : nat) : ascii := ascii_of_nat n.
Definition bytes (n k : nat) : sample := map (fun i => b (n + i)) (seq 0 k).
Definition example (fast : bool) (e : encoding) : writer :=
  Writer (s2l "Transient Analysis") real false false fast e (s2l "Mon Jan 01 10:00:00 2024") (s2l "0.0000000000000000e+00")
    [ Trace (s2l "time") (s2l "time") F64 [bytes 1 8; bytes 9 8; bytes 17 8];
      Trace (s2l "V(out)") (s2l "voltage") F32 [bytes 101 4; bytes 105 4; bytes 109 4];
      Trace (s2l "I(R1)") (s2l "device_current") F32 [bytes 201 4; bytes 205 4; bytes 209 4] ].

Ltac not_in := let G := fresh in intros G; vm_compute in G; repeat (destruct G as [G|G]; [discriminate G|]); exact G.
Ltac cell := split; [split; not_in|not_in].
Lemma example_good : forall fast e, good_writer (example fast e).
Proof.
  intros fast e. constructor.
  - split; [split; not_in|vm_compute; reflexivity].
  - intros _. discriminate.
  - split; not_in.
  - split; [split; not_in|vm_compute; reflexivity].
  - apply Nat.ltb_lt. vm_compute. reflexivity.
  - repeat (constructor; [split; [cell|split; [cell|split; [reflexivity|repeat constructor]]]|]). constructor.
  - vm_compute. repeat constructor; simpl; intuition discriminate.
  - left. repeat constructor.
  - intros _. split; [|split; [|split]]; repeat constructor; vm_compute; lia.
Qed.
Example C18_nonvacuous : good_writer (example false Utf16) /\ good_writer (example false Utf8) /\
  length (save (example false Utf8)) = 348.
Proof. split; [apply example_good|]. split; [apply example_good|]. vm_compute. reflexivity. Qed.
Example C19_nonvacuous : good_writer (example true Utf16) /\
  save (example true Utf16) <> save (example false Utf16).
Proof. split; [apply example_good|]. vm_compute. discriminate. Qed.

(** A data set whose first trace is not stored as double (the default for a DC sweep given as floats)
    cannot be read back: the reader assumes 64-bit values for the first trace. *)
Theorem C129_single_precision_first_trace_refuted : exists w p,
  open_raw (save w) = Some p /\ w_fast w = false /\ w_numtype w = real /\
  map ttype (w_traces w) = [s2l "voltage"; s2l "voltage"] /\ map tdt (w_traces w) = [F32; F32] /\
  get_trace_at p rstate0 0 = None /\ get_trace_at p rstate0 1 = None.
Proof.
  exists (Writer (s2l "DC transfer characteristic") real false false false Utf8 (s2l "x") (s2l "0.0")
    [ Trace (s2l "v1") (s2l "voltage") F32 [bytes 1 4; bytes 5 4];
      Trace (s2l "V(out)") (s2l "voltage") F32 [bytes 101 4; bytes 105 4] ]).
  eexists. split; [vm_compute; reflexivity|]. repeat split.
Qed.
Print Assumptions C129_single_precision_first_trace_refuted.

(** * C20.  Complex data. *)
(** Lossless without the fast access option.  With it: C130. *)
Theorem C20_complex_normal : forall w, good_writer w -> w_fast w = false -> w_numtype w = complex ->
  exists p, open_raw (save w) = Some p /\ same_traces w p.
Proof. intros w H Hf _. apply round_trip; [exact H|apply normal_consistent; exact Hf]. Qed.
Print Assumptions C20_complex_normal.

Definition ac_example (fast : bool) : writer :=
  Writer (s2l "AC Analysis") complex true true fast Utf16 (s2l "Mon Jan 01 10:00:00 2024") (s2l "0.0000000000000000e+00")
    [ Trace (s2l "frequency") (s2l "frequency") C128 [bytes 1 16; bytes 17 16];
      Trace (s2l "V(out)") (s2l "voltage") C128 [bytes 101 16; bytes 117 16] ].
Lemma ac_good : forall fast, good_writer (ac_example fast).
Proof.
  intros fast. constructor.
  - split; [split; not_in|vm_compute; reflexivity].
  - intros G. exfalso. apply G. reflexivity.
  - split; not_in.
  - split; [split; not_in|vm_compute; reflexivity].
  - apply Nat.ltb_lt. vm_compute. reflexivity.
  - repeat (constructor; [split; [cell|split; [cell|split; [reflexivity|repeat constructor]]]|]). constructor.
  - vm_compute. repeat constructor; simpl; intuition discriminate.
  - right. right. repeat constructor.
  - discriminate.
Qed.
Example C20_nonvacuous : good_writer (ac_example false) /\ w_numtype (ac_example false) = complex.
Proof. split; [apply ac_good|reflexivity]. Qed.

(** With the (default) fast access option the file says "fastaccess" but the data are interleaved: the
    values read are others. *)
Theorem C130_complex_fast_refuted : exists w p st e, good_writer w /\ w_fast w = true /\ w_numtype w = complex /\
  open_raw (save w) = Some p /\ get_trace p rstate0 (s2l "V(out)") = Some (st, e) /\
  exists t, In t (w_traces w) /\ tname t = s2l "V(out)" /\ e_data e <> tdata t.
Proof.
  exists (ac_example true). eexists. eexists. eexists. split; [apply ac_good|]. split; [reflexivity|]. split; [reflexivity|].
  split; [vm_compute; reflexivity|]. split; [vm_compute; reflexivity|].
  eexists. split; [right; left; reflexivity|]. split; [reflexivity|]. vm_compute. discriminate.
Qed.
Print Assumptions C130_complex_fast_refuted.

(** * C21.  The header. *)
Theorem C21_header_round_trip : forall w, good_writer w -> exists p, open_raw (save w) = Some p /\
  pget (s2l "Plotname") (p_params p) = Some (w_plot w) /\
  pget (s2l "Flags") (p_params p) = Some (str_flags w) /\
  pget (s2l "No. Variables") (p_params p) = Some (dec (length (w_traces w))) /\
  pget (s2l "No. Points") (p_params p) = Some (dec (n_points w)) /\
  pget (s2l "Offset") (p_params p) = Some (w_offset w) /\
  map (fun x => (iname x, itype x, idt x)) (p_info p) = map (fun t => (tname t, ttype t, tdt t)) (w_traces w) /\
  p_nvar p = length (w_traces w) /\ p_npoints p = n_points w /\
  p_data p = data_bytes w.
Proof. exact header_round_trip. Qed.
Print Assumptions C21_header_round_trip.

Example C21_nonvacuous : good_writer (example true Utf8) /\ good_writer (ac_example true).
Proof. split; [apply example_good|apply ac_good]. Qed.

(** In utf_8 a header with a character that is not ASCII (such as the half sign of the plot name the
    library itself chooses for noise data) is not read back. *)
Theorem C131_utf8_text_refuted : exists w p, w_enc w = Utf8 /\
  w_plot w = s2l "Noise Spectral Density - (V/Hz" ++ [b 189] ++ s2l ")" /\
  open_raw (save w) = Some p /\ pget (s2l "Plotname") (p_params p) <> Some (w_plot w).
Proof.
  exists (Writer (s2l "Noise Spectral Density - (V/Hz" ++ [b 189] ++ s2l ")") real true true false Utf8 (s2l "x") (s2l "0.0")
    [ Trace (s2l "frequency") (s2l "frequency") F64 [bytes 1 8]; Trace (s2l "V(onoise)") (s2l "voltage") F32 [bytes 101 4] ]).
  eexists. split; [reflexivity|]. split; [reflexivity|]. split; [vm_compute; reflexivity|]. vm_compute. discriminate.
Qed.
Print Assumptions C131_utf8_text_refuted.

(** * C24.  Lazy loading. *)
(** After any sequence of requests, each trace has the content the file has for it. *)
Theorem C24_order_does_not_matter : forall p rs i x k, complete p -> nth_error (p_info p) i = Some x ->
  lower k = lower (iname x) ->
  exists st e, get_trace p (do_requests p rs) k = Some (st, e) /\
    e_data e = content p i x /\ e_type e = itype x /\ e_dt e = idt x.
Proof. exact lazy_content. Qed.
Print Assumptions C24_order_does_not_matter.

(** The axis is available after requests that load something and do not name the axis in a list of
    traces.  Missing: other histories, see below. *)
Theorem C133_axis_available_partial : forall p rs x0, complete p -> p_has_axis p = true ->
  nth_error (p_info p) 0 = Some x0 -> Forall (spares_axis p) rs -> (exists r, In r rs /\ known p r) ->
  get_axis p (do_requests p rs) = AxData (content p 0 x0).
Proof. exact lazy_axis. Qed.
Print Assumptions C133_axis_available_partial.

Example C24_nonvacuous : exists p rs, open_raw (save (example true Utf16)) = Some p /\ complete p /\
  rs = [ReqTrace (s2l "v(OUT)"); ReqRead [s2l "I(R1)"; s2l "nothing"]; ReqTrace (s2l "time"); ReqTrace (s2l "zz")] /\
  p_has_axis p = true /\ Forall (spares_axis p) rs /\ known p (ReqTrace (s2l "v(OUT)")) /\
  content p 1 (Info (s2l "V(out)") F32 (s2l "voltage")) = [bytes 101 4; bytes 105 4; bytes 109 4] /\
  get_axis p (do_requests p rs) = AxData [bytes 1 8; bytes 9 8; bytes 17 8].
Proof.
  exists (saved_plot (example true Utf16)). eexists. split; [apply open_save; apply example_good|].
  split; [apply saved_complete; [apply example_good|apply fast_consistent; [reflexivity|discriminate]]|].
  split; [reflexivity|]. split; [reflexivity|]. split.
  - constructor; [exact I|]. constructor; [|constructor; [exact I|constructor; [exact I|constructor]]].
    intros x Hx [G|[G|[]]]; injection Hx as <-; vm_compute in G; discriminate.
  - split; [|split; vm_compute; reflexivity]. exists (Info (s2l "V(out)") F32 (s2l "voltage")).
    split; [right; left; reflexivity|]. vm_compute. reflexivity.
Qed.

(** Naming the axis in a second read request makes get_axis() fail, and before the first request it
    says that there is no axis. *)
Theorem C133_axis_reread_refuted : exists p, open_raw (save (example true Utf16)) = Some p /\ p_has_axis p = true /\
  get_axis p (do_requests p []) = AxNoAxis /\
  get_axis p (do_requests p [ReqRead [s2l "time"]; ReqRead [s2l "time"; s2l "V(out)"]]) = AxAssertion.
Proof.
  exists (saved_plot (example true Utf16)). split; [apply open_save; apply example_good|].
  repeat split; vm_compute; reflexivity.
Qed.
Print Assumptions C133_axis_reread_refuted.
