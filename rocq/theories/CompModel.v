(** Model of component statements: the patterns of spicelib/editor/spice_utils.py (lines 80-268), and
    spicelib/editor/spice_components.py: [undress_designator], [_insert_section], [SpiceComponent.reset_attributes],
    [rewrite_lines], [write_lines]; spicelib/editor/primitives.py: [Component] accessors.
    Simplifications: characters above 255 (euro sign, dagger) are left out, so that the DAC pattern and the
    optional dagger of the MultGmAmp pattern are missing; component values are texts (a number given by the
    caller is the text format_eng makes of it, primitives.py:228). *)
From Coq Require Import String Ascii List Bool Arith ZArith Lia.
From Verif Require Import PyStr EngModel PTokModel Regex.
Import ListNotations.
Local Open Scope string_scope.
Local Open Scope nat_scope.
Local Open Scope list_scope.

(** group numbers *)
Definition gDES := 0. Definition gNODES := 1. Definition gVAL := 2. Definition gNUM := 3.
Definition gF1 := 4. Definition gF2 := 5. Definition gF3 := 6. Definition gPAR := 7.

Definition SECT : ascii := "167".  (* § *)
Definition YEN : ascii := "165". Definition LQ : ascii := "171". Definition RQ : ascii := "187". Definition ACUTE : ascii := "180".
Definition MICRO : ascii := "181".
Definition dot : re := Chr not_nl.
Definition oneof (l : str) : re := Chr (one_of l).
(** a class under re.IGNORECASE *)
Definition ioneof (l : str) : re := Chr (fun c => mem_c (upper_c c) (upper l)).
Definition nodec (c : ascii) : bool := is_word c || mem_c c (s2l "+,-." ++ [YEN; LQ; RQ]).
Definition nodecq (c : ascii) : bool := nodec c || aeqb c ACUTE.

(** spice_utils.py:80-106 [PREFIX_AND_NODES_RGX] *)
Definition designator_re (prefix : re) : re := Grp gDES (seqs [prefix; Opt (lit SECT); word1]).
Definition prefix_nodes (x : ascii) (n k : nat) : re :=
  Seq (designator_re (ichar x)) (Grp gNODES (rep n k (Seq sp1 (Plus (Chr nodec))))).
Definition prefix_nodes_q (prefix : re) (n k : nat) : re :=
  Seq (designator_re prefix)
      (Grp gNODES (seqs [sp1; lit LQ; rep n k (Seq (Opt (Chr is_space)) (Plus (Chr nodecq))); sp0; lit RQ])).
(** spice_utils.py:117 *)
Definition comment_re : re := seqs [Opt (seqs [sp1; lit ";"; Star true dot]); Opt (lit "\"); sp0; Eol].
(** spice_utils.py:120 *)
Definition model_re : re := Seq sp1 (Grp gVAL (Plus (Chr (fun c => is_word c || mem_c c (s2l ".-{}"))))).
(** spice_utils.py:124, 127, 130 *)
Definition any_value_re : re := seqs [sp1; Grp gVAL (Star true dot); comment_re].
Definition maybe_value_re : re := Seq sp1 (Grp gVAL (Star false dot)).
Definition no_value_re : re := Seq (Opt (Chr is_space)) (Opt (Grp gVAL Eps)).
(** spice_utils.py:136 *)
Definition parc (c : ascii) : bool := is_word c || is_space c || mem_c c (s2l "{}()-+*/%.,'" ++ ["034"%char]).
Definition param_re : re :=
  Seq (Opt (Grp gPAR (Star true (seqs [sp1; word1; sp0; Opt (seqs [lit "="; sp0; Plus (Chr parc)])])))) comment_re.
(** spice_utils.py:138-156 [VALUE_RGX] *)
Definition exponent_re : re := seqs [ioneof (s2l "e"); Opt (oneof (s2l "-+")); Plus (Chr is_digit)].
Definition number_re (suffix : re) : re :=
  seqs [Opt (oneof (s2l "-+")); Star true (Chr is_digit); Opt (lit "."); Plus (Chr is_digit); Opt exponent_re; suffix].
Definition value_re (x : ascii) (suffix : re) : re :=
  seqs [sp1;
        Opt (seqs [ichar x; Opt (Chr is_space); lit "="; Opt (Chr is_space)]);
        Grp gVAL (seqs [Opt (Grp gNUM (number_re suffix));
                        Opt (Grp gF1 (lit "034")); Opt (Grp gF2 (lit "'")); Opt (Grp gF3 (lit "{"));
                        Cond gNUM Eps (Cond gF1 (Seq (Star true dot) (lit "034"))
                          (Cond gF2 (Seq (Star true dot) (lit "'"))
                             (Cond gF3 (Seq (Star true dot) (lit "}")) (Star true (Chr (fun c => negb (is_space c)))))))])].
Definition meg_or (l : str) : re := Opt (Alt (ilit (s2l "Meg")) (ioneof (l ++ [MICRO]))).
(** spice_utils.py:213, 249: the parameters of sources, always with a value *)
Definition source_params_re : re :=
  Grp gPAR (Star true (seqs [sp1; word1; sp0; lit "="; sp0; Plus (Chr parc)])).

(** spice_utils.py:159-268 [REPLACE_REGEXS] *)
Definition std (x : ascii) (n k : nat) : re := seqs [prefix_nodes x n k; model_re; param_re].
Definition regex_of (x : ascii) : option re :=
  let is l := mem_c x (s2l l) in
  if is "A" then Some (seqs [prefix_nodes x 8 0; sp1; Grp gVAL (Star true dot)])
  else if is "B" then
    Some (seqs [prefix_nodes x 2 0; sp1;
                Grp gVAL (seqs [ioneof (s2l "VIBR"); sp0; lit "=";
                                Plus (Alt (Seq (lit ">") (lit "=")) (Alt (Seq (lit "<") (lit "=")) (Chr (fun c => negb (aeqb c "=")))))]);
                param_re])
  else if is "C" then
    Some (seqs [prefix_nodes x 2 0;
                value_re x (seqs [Opt (ioneof (s2l "munpfgt" ++ [MICRO])); Opt (ichar "F"); Star true (Chr is_digit)]); param_re])
  else if is "L" then
    Some (seqs [prefix_nodes x 2 0;
                value_re x (seqs [meg_or (s2l "kmunpgt"); Opt (ichar "H"); Star true (Chr is_digit)]); param_re])
  else if is "R" then
    Some (seqs [prefix_nodes x 2 0;
                value_re x (seqs [meg_or (s2l "kmunpfgt"); Opt (ichar "R"); Star true (Chr is_digit)]); param_re])
  else if is "EFGH" then Some (seqs [prefix_nodes x 2 0; any_value_re])
  else if is "S" then Some (seqs [prefix_nodes x 4 0; any_value_re])
  else if is "W" then Some (seqs [prefix_nodes x 3 0; any_value_re])
  else if is "IV" then Some (seqs [prefix_nodes x 2 0; maybe_value_re; source_params_re; comment_re])
  else if is "K" then
    Some (seqs [prefix_nodes x 2 97; sp1;
                Grp gVAL (seqs [Opt (oneof (s2l "+-")); Plus (ioneof (s2l "0123456789.E+-")); Opt (ioneof (s2l "kmunpgt" ++ [MICRO]))]);
                comment_re])
  else if is "T" then Some (seqs [prefix_nodes x 4 0; no_value_re; param_re])
  else if is "X" then
    Some (seqs [prefix_nodes x 1 98; model_re;
                Opt (seqs [sp1; Opt (Seq (ilit (s2l "params:")) sp0);
                           Grp gPAR (Plus (seqs [word1; sp0; lit "="; sp0; Opt (oneof (s2l "'{" ++ ["034"%char])); Star false dot;
                                                 Opt (oneof (s2l "'}" ++ ["034"%char])); sp0]))]);
                comment_re])
  else if is "D" then Some (std x 2 0)
  else if is "JUZ" then Some (std x 3 0)
  else if is "O" then Some (std x 4 0)
  else if is "M" then Some (std x 3 1)
  else if is "NP" then Some (std x 2 97)
  else if is "Q" then Some (std x 3 2)
  else if is "Y" then Some (std x 2 2)
  else if is "@" then
    Some (seqs [Grp gDES (seqs [lit "@"; Opt (lit SECT); Plus (Chr is_digit)]);
                Grp gNODES (rep 2 0 (Seq sp1 (Plus (Chr (fun c => negb (is_space c)))))); Opt (Chr is_space);
                Grp gPAR (Star true (Star true dot)); Eol])
  else if aeqb x "195" || aeqb x YEN then Some (std x 16 0)           (* Ã ¥ *)
  else if aeqb x "163" then Some (std x 64 0)                         (* £ *)
  else if aeqb x "216" then                                           (* Ø *)
    Some (seqs [prefix_nodes_q (Seq (lit x) (Opt (lit ACUTE))) 1 98; model_re; param_re])
  else if aeqb x "215" then Some (seqs [prefix_nodes_q (lit x) 4 96; no_value_re; param_re])  (* × *)
  else if aeqb x "214" then Some (std x 5 0)                          (* Ö *)
  else None.

(** re.sub(r'[\n\r]+\s*', ' ', line): spice_components.py:261, 308 *)
Fixpoint collapse_ (ws : bool) (s : str) : str :=
  match s with
  | [] => []
  | c :: r => if ws && is_space c then collapse_ true r
              else if aeqb c "010" || aeqb c "013" then " "%char :: collapse_ true r
              else c :: collapse_ false r
  end.
Definition collapse (s : str) : str := collapse_ false s.

(** str.split() *)
Fixpoint words_ (cur : str) (s : str) : list str :=
  match s with
  | [] => match cur with [] => [] | _ => [cur] end
  | c :: r => if is_space c then match cur with [] => words_ [] r | _ => cur :: words_ [] r end else words_ (cur ++ [c]) r
  end.
Definition words (s : str) : list str := words_ [] s.

(** spice_components.py:122-126 *)
Definition undress (d : str) : str :=
  match d with
  | a :: b :: (_ :: _) as r => if aeqb b SECT then a :: tl (tl d) else upper d
  | _ => upper d
  end.

(** The attributes of a component once parsed (primitives.py:86-130): reference, ports, value, params. *)
Record attrs := { a_ref : str; a_ports : list str; a_val : option str; a_par : option pdict }.
Definition omap_err {A B} (f : A -> option B) (o : option A) : option (option B) :=
  match o with None => Some None | Some x => match f x with Some y => Some (Some y) | None => None end end.

(** spice_components.py:241-283 [reset_attributes]; None: an exception *)
Definition parse_line (obj : str) : option attrs :=
  match obj with
  | [] => None
  | x :: _ =>
      match regex_of x with
      | None => None                                               (* 252-257 NotImplementedError *)
      | Some r =>
          let l := collapse obj in
          match re_match r l with
          | None => None                                           (* 262-263 UnrecognizedSyntaxError *)
          | Some (e, c) =>
              match group gDES l c, group gNODES l c with
              | Some d, Some n =>
                  let par := match group gPAR l c with Some (y :: t) => Some (y :: t) | _ => None end in
                  match omap_err parse_params par with
                  | Some p => Some {| a_ref := undress d; a_ports := words n;
                                      a_val := option_map strip (group gVAL l c); a_par := p |}
                  | None => None
                  end
              | _, _ => None
              end
          end
      end
  end.

(** Python slicing positions *)
Definition norm (i : Z) (n : nat) : nat :=
  if (i <? 0)%Z then Z.to_nat (i + Z.of_nat n) else Nat.min (Z.to_nat i) n.
Definition char_at (s : str) (i : Z) : option ascii :=
  if (i <? 0)%Z then (if (i + Z.of_nat (length s) <? 0)%Z then None else nth_error s (Z.to_nat (i + Z.of_nat (length s))))
  else nth_error s (Z.to_nat i).
(** spice_components.py:201-219 [_insert_section]; None: IndexError *)
Definition insert_section (line : str) (start stop : Z) (section : str) : option str :=
  match line, section with
  | [], _ => Some []
  | _, [] => Some line
  | _, _ =>
      let s1 := strip section in
      match (if (0 <? start)%Z then option_map (fun c => negb (aeqb c " ")) (char_at line (start - 1)) else Some false) with
      | None => None
      | Some before =>
          let s2 := if before then " "%char :: s1 else s1 in
          match (if (stop <? Z.of_nat (length line))%Z then option_map (fun c => negb (aeqb c " ")) (char_at line stop) else Some false) with
          | None => None
          | Some after =>
              let s3 := if after && (1 <? length s2) then s2 ++ [" "%char] else s2 in
              Some (strip (firstn (norm start (length line)) line ++ s3 ++ skipn (norm stop (length line)) line))
          end
      end
  end.

(** comparison of parameter values: float_unit.__eq__ (float_unit.py:358-364) compares numbers *)
Definition same_text (a b : str) : bool :=
  match scan_eng a, scan_eng b with
  | Some x, Some y => QArith_base.Qeq_bool x y
  | _, _ => str_eqb a b
  end.
Fixpoint same_texts (a b : list str) : bool :=
  match a, b with
  | [], [] => true
  | x :: a', y :: b' => same_text x y && same_texts a' b'
  | _, _ => false
  end.
Definition same_pval (a b : pval) : bool :=
  match a, b with
  | One x, One y => same_text x y
  | Many x, Many y => same_texts x y
  | Flag, Flag => true
  | _, _ => false
  end.
(** spice_components.py:333-345 *)
Definition differences (new old : pdict) : bool :=
  existsb (fun kv => match pget old (fst kv) with Some v => negb (same_pval (snd kv) v) | None => true end) new
  || existsb (fun kv => match pget new (fst kv) with Some _ => false | None => true end) old.
Fixpoint join (sep : str) (l : list str) : str :=
  match l with [] => [] | [x] => x | x :: r => x ++ sep ++ join sep r end.
Definition show_pval (v : pval) : str :=
  match v with One t => t | Many l => join (s2l ",") l | Flag => s2l "True" end.
(** spice_components.py:347-354 *)
Definition show_params (d : pdict) : str := join (s2l " ") (map (fun kv => fst kv ++ "="%char :: show_pval (snd kv)) d).

(** text, offset, update_done *)
Definition rw := option (str * Z * bool).
Definition Zlen (s : str) : Z := Z.of_nat (length s).

(** the rewriting of one span, common to all attributes: [start, stop) of the original, [new] for [old_len] characters *)
Definition replace_at (st : str * Z * bool) (sp : nat * nat) (new : str) (old_len : Z) : rw :=
  let '(line, off, _) := st in
  match insert_section line (Z.of_nat (fst sp) + off) (Z.of_nat (snd sp) + off) new with
  | Some l => Some (l, (off + Zlen new - old_len)%Z, true)
  | None => None
  end.
(** lines 315-324 *)
Definition rw_des (a : attrs) (obj : str) (c : caps) (st : str * Z * bool) : rw :=
  match cap gDES c with
  | None => Some st
  | Some sp =>
      let d := slice obj sp in
      if str_eqb (a_ref a) (undress d) then Some st
      else let new := if mem_c SECT d then firstn 1 (a_ref a) ++ SECT :: skipn 1 (a_ref a) else a_ref a in
           replace_at st sp new (Zlen (undress d))
  end.
(** lines 325-331 *)
Definition rw_nodes (a : attrs) (obj : str) (c : caps) (st : str * Z * bool) : rw :=
  match cap gNODES c with
  | None => Some st
  | Some sp =>
      let new := " "%char :: join (s2l " ") (a_ports a) in
      if str_eqb (slice obj sp) new then Some st else replace_at st sp new (Zlen (slice obj sp))
  end.
(** lines 366-377; an absent value group with a value set is a TypeError, an absent value attribute a KeyError *)
Definition rw_val (a : attrs) (obj : str) (c : caps) (st : str * Z * bool) : rw :=
  match cap gVAL c, a_val a with
  | None, None => Some st
  | Some sp, Some v => if str_eqb (slice obj sp) v then Some st else replace_at st sp v (Zlen (slice obj sp))
  | _, _ => None
  end.
(** lines 332-365 *)
Definition rw_par (a : attrs) (obj : str) (c : caps) (st : str * Z * bool) : rw :=
  match cap gPAR c, a_par a with
  | None, None => Some st
  | sp, pa =>
      let old := match sp with Some x => slice obj x | None => [] end in
      let new := match pa with Some d => d | None => [] end in
      match parse_params old with
      | None => None
      | Some od =>
          if differences new od then
            let txt := show_params new in
            match sp with
            | Some x => replace_at st x txt (Zlen old)
            | None =>
                let '(line, off, _) := st in
                let line' := match split_at_first ";" line with
                             | Some (p, q) => rstrip p ++ " "%char :: txt ++ " "%char :: ";"%char :: q
                             | None => line ++ " "%char :: txt
                             end in
                Some (line', (off + Zlen txt - Zlen old)%Z, true)
            end
          else Some st
      end
  end.
Definition bind {A B} (x : option A) (f : A -> option B) : option B := match x with Some y => f y | None => None end.
Definition has_value_group (x : ascii) : bool := negb (aeqb x "@").
(** spice_components.py:285-387 [rewrite_lines]: the text written; None: an exception *)
Definition rewrite (obj : str) (a : attrs) : option str :=
  match a_ref a with
  | [] => None
  | x :: _ =>
      match regex_of x with
      | None => None
      | Some r =>
          match re_match r obj with
          | None => None
          | Some (_, c) =>
              bind (rw_des a obj c (collapse obj, 0%Z, false)) (fun st =>
              bind (rw_nodes a obj c st) (fun st =>
              bind (if has_value_group x then rw_val a obj c st else Some st) (fun st =>
              bind (rw_par a obj c st) (fun st =>
              let '(line, _, upd) := st in
              Some (if upd then line ++ ["010"%char] else obj)))))
          end
      end
  end.
