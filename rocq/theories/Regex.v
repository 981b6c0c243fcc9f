(** Model of the part of Python's [re] module that spicelib uses: a backtracking matcher with ordered choice,
    greedy and lazy repetition, capture groups, group conditionals and the end anchor.  The search order is that
    of the documentation of [re]: the first alternative that leads to an overall match wins.
    Simplification: an iteration of a repetition that consumes nothing is not taken (in CPython it is taken at
    most once; it only matters for groups captured inside an empty iteration, which no modelled pattern has). *)
From Coq Require Import String Ascii List Bool Arith Lia.
From Verif Require Import PyStr.
Import ListNotations.
Local Open Scope nat_scope.
Local Open Scope list_scope.

Inductive re :=
| Eps                              (* empty *)
| Chr (p : ascii -> bool)          (* one character of a class *)
| Seq (a b : re)
| Alt (a b : re)                   (* a|b *)
| Star (greedy : bool) (a : re)    (* a* or a*? *)
| Grp (n : nat) (a : re)           (* (?P<n>a) *)
| Cond (n : nat) (a b : re)        (* (?(n)a|b) *)
| Eol.                             (* $ *)

(** Captured groups: last capture first. *)
Definition caps := list (nat * (nat * nat)).
Fixpoint cap (n : nat) (c : caps) : option (nat * nat) :=
  match c with [] => None | (m, x) :: r => if m =? n then Some x else cap n r end.

Definition NLc : ascii := "010".
Definition at_eol (s : str) : bool := match s with [] => true | [c] => aeqb c NLc | _ => false end.

Section Match.
Context {R : Type}.
Definition kont := nat -> str -> caps -> option R.

(** the repetition: [body] is the matcher of the repeated expression; [fuel] is the number of characters left *)
Fixpoint star (body : nat -> str -> caps -> kont -> option R) (greedy : bool) (fuel : nat) (p : nat) (s : str)
    (c : caps) (k : kont) : option R :=
  match fuel with
  | 0 => k p s c
  | S f =>
      let more := body p s c (fun p' s' c' => if length s' <? length s then star body greedy f p' s' c' k else None) in
      if greedy then match more with Some x => Some x | None => k p s c end
      else match k p s c with Some x => Some x | None => more end
  end.

(** [p]: position, [s]: text from there on, [k]: what has to match afterwards *)
Fixpoint m (r : re) (p : nat) (s : str) (c : caps) (k : kont) : option R :=
  match r with
  | Eps => k p s c
  | Chr f => match s with x :: s' => if f x then k (S p) s' c else None | [] => None end
  | Seq a b => m a p s c (fun p' s' c' => m b p' s' c' k)
  | Alt a b => match m a p s c k with Some x => Some x | None => m b p s c k end
  | Star g a => star (m a) g (length s) p s c k
  | Grp n a => m a p s c (fun p' s' c' => k p' s' ((n, (p, p')) :: c'))
  | Cond n a b => match cap n c with Some _ => m a p s c k | None => m b p s c k end
  | Eol => if at_eol s then k p s c else None
  end.
End Match.

(** re.match: anchored at the start; end position and groups. *)
Definition re_match (r : re) (s : str) : option (nat * caps) := m r 0 s [] (fun p _ c => Some (p, c)).
(** the same, from position [p] of [s] (pattern.match(s, p)) *)
Definition re_match_at (r : re) (p : nat) (s : str) : option (nat * caps) :=
  m r p (skipn p s) [] (fun p' _ c => Some (p', c)).
(** re.search: leftmost match; start, end and groups *)
Fixpoint search_from (r : re) (p : nat) (s : str) : option (nat * nat * caps) :=
  match m r p s [] (fun p' _ c => Some (p', c)) with
  | Some (e, c) => Some (p, e, c)
  | None => match s with [] => None | _ :: s' => search_from r (S p) s' end
  end.
Definition re_search (r : re) (s : str) := search_from r 0 s.

(** Derived forms. *)
Definition Opt (a : re) : re := Alt a Eps.
Definition OptLazy (a : re) : re := Alt Eps a.
Definition Plus (a : re) : re := Seq a (Star true a).
Fixpoint seqs (l : list re) : re := match l with [] => Eps | [a] => a | a :: r => Seq a (seqs r) end.
(** a{n,n+k} *)
Fixpoint upto (k : nat) (a : re) : re := match k with 0 => Eps | S k' => Opt (Seq a (upto k' a)) end.
Fixpoint times (n : nat) (a r : re) : re := match n with 0 => r | S n' => Seq a (times n' a r) end.
Definition rep (n k : nat) (a : re) : re := times n a (upto k a).

(** Character classes (re.UNICODE on the 256 represented characters). *)
Definition alpha (c : ascii) : bool := is_upper c || is_lower c.
Definition is_word (c : ascii) : bool :=
  is_digit c || alpha c || (code c =? 95) ||
  existsb (Nat.eqb (code c)) [170; 178; 179; 181; 185; 186; 188; 189; 190] ||
  ((192 <=? code c) && negb (code c =? 215) && negb (code c =? 247)).
Definition not_nl (c : ascii) : bool := negb (aeqb c NLc).
Definition one_of (l : str) (c : ascii) : bool := mem_c c l.
(** a literal character under re.IGNORECASE *)
Definition ichar (x : ascii) : re := Chr (fun c => aeqb (upper_c c) (upper_c x)).
Definition lit (x : ascii) : re := Chr (fun c => aeqb c x).
Definition ilit (s : str) : re := seqs (map ichar s).
Definition sp1 : re := Plus (Chr is_space).     (* \s+ *)
Definition sp0 : re := Star true (Chr is_space). (* \s* *)
Definition word1 : re := Plus (Chr is_word).

(** text of a group *)
Definition slice (s : str) (x : nat * nat) : str := firstn (snd x - fst x) (skipn (fst x) s).
Definition group (n : nat) (s : str) (c : caps) : option str := option_map (slice s) (cap n c).
