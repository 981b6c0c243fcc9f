(** C03, C04, C05 - sweeps (spicelib/utils/sweep_iterators.py), over exact rationals. *)
From Coq Require Import List QArith ZArith.
From Verif Require Import SweepModel SweepSpec SweepProofs.
Import ListNotations.
Local Open Scope Q_scope.

(** C03: every sweep terminates and yields exactly the grid.  Walking from [start] to [stop] with
    |step|; only when a negative step is given for an ascending range does it start from [stop]. *)
Theorem C03_sweep_is_the_grid : forall start stop step, ~ step == 0 ->
  exists s l m, sweep_init start stop step = Some s
    /\ (forall fuel, (m < fuel)%nat -> collect fuel (sweep_next s) 0 = Some l)
    /\ ((step < 0 /\ start < stop) -> is_grid stop start step l)
    /\ ((0 < step /\ stop < start) -> is_grid start stop (- step) l)
    /\ ((0 < step /\ start <= stop) \/ (step < 0 /\ stop <= start) -> is_grid start stop step l).
Proof. exact sweep_correct. Qed.
Print Assumptions C03_sweep_is_the_grid.

(** The specification determines the list. *)
Theorem C03_grid_is_unique : forall o lim d l1 l2,
  is_grid o lim d l1 -> is_grid o lim d l2 -> l1 = l2.
Proof. exact is_grid_unique. Qed.
Print Assumptions C03_grid_is_unique.

Example C03_nonvacuous :
  (exists s, sweep_init 15 (-(15)) (5#2) = Some s /\
    option_map (map Qred) (collect 20 (sweep_next s) 0) =
    Some [15; 25#2; 10; 15#2; 5; 5#2; 0; -5#2; -5; -15#2; -10; -25#2; -15]) /\
  ~ (5#2) == 0.
Proof. split; [eexists; split; vm_compute; reflexivity | discriminate]. Qed.

(** C04 *)
Theorem C04_sweep_n_points : forall start stop (N : nat), (2 <= N)%nat -> ~ start == stop ->
  exists s l m, sweep_n_init start stop N = Some s
    /\ (forall fuel, (m < fuel)%nat -> collect fuel (sweep_next s) 0 = Some l)
    /\ length l = N
    /\ (forall k x, nth_error l k = Some x ->
          x == start + inject_Z (Z.of_nat k) * ((stop - start) / inject_Z (Z.of_nat N - 1)))
    /\ (exists x, nth_error l 0 = Some x /\ x == start)
    /\ (exists x, nth_error l (N - 1) = Some x /\ x == stop).
Proof. exact sweep_n_correct. Qed.
Print Assumptions C04_sweep_n_points.

(** C04, logarithmic version, given the common ratio (computed with exp/log in the code). *)
Theorem C04_sweep_log_n_points : forall start stop ratio (N : nat),
  (2 <= N)%nat -> 0 < start -> 0 < ratio -> Qpower ratio (Z.of_nat N - 1) == stop / start ->
  exists l, (forall fuel, (N < fuel)%nat -> collect fuel (sweep_log_n_next start ratio N) 0 = Some l)
    /\ l = map (gpoint start ratio) (seq 0 N)
    /\ gpoint start ratio (N - 1) == stop.
Proof. exact sweep_log_n_correct. Qed.
Print Assumptions C04_sweep_log_n_points.

(** Degenerate requests are errors, not empty sweeps. *)
Theorem C04_sweep_n_degenerate : forall x stop N,
  sweep_n_init x x (S (S N)) = None /\ sweep_n_init x stop 1 = None.
Proof.
  intros x stop N. split; [|reflexivity]. unfold sweep_n_init, sweep_init.
  replace (Qeq_bool ((x - x) / inject_Z (Z.of_nat (S (S N)) - 1)) 0) with true; [reflexivity|].
  symmetry. apply Qeq_bool_iff. unfold Qminus. rewrite Qplus_opp_r. unfold Qdiv. ring.
Qed.
Print Assumptions C04_sweep_n_degenerate.

Example C04_nonvacuous : (2 <= 5)%nat /\ ~ (3#10) == 11#10 /\
  Qpower 2 (Z.of_nat 4 - 1) == 24 / 3.
Proof. split; [auto with arith|]. split; [discriminate|reflexivity]. Qed.

(** C05 *)
Theorem C05_sweep_log_is_the_geometric_grid : forall start stop step,
  0 < start -> 0 < stop -> ~ start == stop -> 0 < step -> ~ step == 1 ->
  exists s l m, sweep_log_init start stop step = Some s
    /\ (forall fuel, (m < fuel)%nat -> sweep_log_collect fuel s (sw_start s) = Some l)
    /\ ((start < stop /\ 1 < step) \/ (stop < start /\ step < 1) -> is_geometric_grid start stop step l)
    /\ (start < stop /\ step < 1 -> is_geometric_grid stop start step l)
    /\ (stop < start /\ 1 < step -> is_geometric_grid start stop (1 / step) l).
Proof. exact sweep_log_correct. Qed.
Print Assumptions C05_sweep_log_is_the_geometric_grid.

(** With equal ends a logarithmic sweep is empty (a linear one yields the single point). *)
Theorem C05_sweep_log_equal_ends_is_empty : forall x step, 0 < step -> ~ step == 1 ->
  exists s, sweep_log_init x x step = Some s /\
    forall fuel, (0 < fuel)%nat -> sweep_log_collect fuel s (sw_start s) = Some [].
Proof. exact sweep_log_equal_ends. Qed.
Print Assumptions C05_sweep_log_equal_ends_is_empty.

Example C05_nonvacuous :
  exists s, sweep_log_init 1000 1 2 = Some s /\
    option_map (map Qred) (sweep_log_collect 20 s (sw_start s)) =
    Some [1000; 500; 250; 125; 125#2; 125#4; 125#8; 125#16; 125#32; 125#64].
Proof. eexists; split; vm_compute; reflexivity. Qed.
