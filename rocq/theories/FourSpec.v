(** Vocabulary for C182-C186: the file with the Fourier analyses of a log. *)
From Coq Require Import String Ascii List Bool Arith.
From Verif Require Import PyStr LogModel LtlogModel ExpSpec.
Import ListNotations.
Local Open Scope string_scope. Local Open Scope nat_scope. Local Open Scope list_scope.

(** A line of tab separated fields *)
Definition line (fields : list str) : str := sep_by HT fields ++ [LFc].

Section Tables.
Context {V F N : Type} (showv : V -> str) (showf : F -> str) (shown : N -> str).
(** The analyses with their signals, in the order of the log reader *)
Definition entries (log : @ltlog V F N) : list (option str * @fourier F N) := flat_map (fun e => map (fun a => (fst e, a)) (snd e)) (t_fourier log).
(** The values of the stepped parameters for an analysis; none without steps *)
Definition values_of (log : @ltlog V F N) (a : @fourier F N) : list str :=
  match t_count log, f_step a with
  | S _, Some k => map (fun c => match nth_error (snd c) k with Some v => showv v | None => [] end) (t_steps log)
  | _, _ => []
  end.
Definition or_text (t : string) (x : option str) : str := match x with Some s => s | None => s2l t end.
Definition shown_periods (all_ : string) (p : @periods F) : str := match p with AllPeriods => s2l all_ | Periods f => showf f | NoPeriods => s2l "0" end.
Definition summary_fields (e : option str * @fourier F N) : list str :=
  [or_text "None" (fst e); shown_periods "all" (f_periods (snd e)); or_text "0" (option_map showf (f_dc (snd e)));
   or_text "" (option_map (fun h => showf (h_frequency h)) (hd_error (f_harmonics (snd e)))); dec (length (f_harmonics (snd e)));
   or_text "None" (option_map showf (f_phd (snd e))); or_text "None" (option_map showf (f_thd (snd e)))].
Definition summary_titles : list str := map s2l ["Signal"; "N-Periods"; "DC Component"; "Fundamental"; "N-Harmonics"; "PHD"; "THD"].
(** In the second table -1 stands for all periods. *)
Definition harmonic_fields (e : option str * @fourier F N) (h : @harmonic F N) : list str :=
  [or_text "None" (fst e); shown_periods "-1" (f_periods (snd e)); shown (h_number h); showf (h_frequency h); showf (h_component h); showf (h_normalized h);
   showf (h_phase h); showf (h_nphase h)].
Definition harmonic_titles : list str := map s2l ["Signal"; "N-Periods"; "Harmonic"; "Frequency"; "Fourier"; "Normalized"; "Phase"; "Normalized"].
Definition between : str := s2l "

Harmonic Analysis
".

(** The analyses of each signal are in the order of the steps, and have one. *)
Inductive in_order (count : nat) : nat -> list (@fourier F N) -> Prop :=
| order_nil : forall k, in_order count k []
| order_cons : forall k n a l, f_step a = Some n -> k <= n -> n < count -> in_order count n l -> in_order count k (a :: l).
Definition stepped_ok (log : @ltlog V F N) : Prop :=
  0 < t_count log -> t_steps log <> [] /\ Forall (fun c => t_count log <= length (snd c)) (t_steps log) /\ Forall (fun e => in_order (t_count log) 0 (snd e)) (t_fourier log).
End Tables.
