(** What the tags of a QSPICE schematic promise. *)
From Coq Require Import String Ascii List Bool Arith ZArith.
From Verif Require Import PyStr QTagModel.
Import ListNotations.
Local Open Scope string_scope. Local Open Scope nat_scope. Local Open Scope list_scope.

(** A token: a word without blanks, quotes and tag signs, or any text without quotes between quotes. *)
Definition word_token (a : str) : Prop :=
  a <> [] /\ forall c, In c a -> is_space c = false /\ c <> DQ /\ c <> LT /\ c <> GT.
Definition quoted_text (a : str) : Prop := exists q, a = DQ :: q ++ [DQ] /\ ~ In DQ q.
Definition token (a : str) : Prop := word_token a \/ quoted_text a.
(** Text for a label: any characters but tag signs, quotes and line ends. *)
Definition label_text (s : str) : Prop := forall c, In c s -> c <> DQ /\ c <> LT /\ c <> GT /\ c <> LF.
(** ": " does not occur. *)
Definition no_colon (s : str) : Prop := forall a b, s <> a ++ COLON :: BLANK :: b.

(** The trees that are written and read: a tag with children has tokens; a tag without children either has tokens, none of which contains
    ": " or, unless it is the last, ends with a colon, or is a label with its text. *)
Inductive proper : tag -> Prop :=
| P_node ts items : items <> [] -> Forall token ts -> Forall proper items -> proper (Tag ts items)
| P_leaf ts : Forall token ts -> Forall no_colon ts -> (forall a x b, ts = a ++ (x ++ [COLON]) :: b -> b = []) -> proper (Tag ts [])
| P_label name text : label_text name -> label_text text -> no_colon (name ++ [COLON]) -> no_colon text ->
    proper (Tag [name ++ [COLON]; text] []).

(** A character occurs in a token of the tree. *)
Inductive in_tag (c : ascii) : tag -> Prop :=
| I_token ts items a : In a ts -> In c a -> in_tag c (Tag ts items)
| I_child ts items t : In t items -> in_tag c t -> in_tag c (Tag ts items).

(** Blanks and line ends: nothing but layout. *)
Definition gap (s : str) : Prop := forall c, In c s -> c = BLANK \/ c = LF.
(** What a tag with the tokens [ts] and the given children may look like between its signs, written by any program: the tokens on one or more lines,
    each with its line end, then the children, each followed by a blank or a line end, with blanks and empty lines anywhere between;
    or, without children, on one line. *)
Inductive laid_out : tag -> str -> Prop :=
| L_lines ts items lines texts g :
    concat (map snd lines) = ts -> Forall token ts -> Forall gap (map fst lines) ->
    Forall2 (fun t s => exists g b x, gap g /\ s = g ++ LT :: b ++ [GT; x] /\ (x = BLANK \/ x = LF) /\ laid_out t b) items texts -> gap g ->
    laid_out (Tag ts items) (flat_map (fun l => fst l ++ join_blank (snd l) ++ [LF]) lines ++ concat texts ++ g)
| L_leaf ts : proper (Tag ts []) -> laid_out (Tag ts []) (join_blank ts).
