(** C29: splitting a netlist text into statements. *)
From Coq Require Import String Ascii List Bool.
From Verif Require Import PyStr SepModel SepSpec SepProofs.
Import ListNotations.
Local Open Scope string_scope.
Local Open Scope list_scope.

(** Whatever the text, if it is accepted then the statements put together are the text in which some pairs
    (newline, '+') were deleted, and nothing else; exactly the text if it has no such pair. *)
Theorem C29_nothing_lost : forall text out, separate_lines text = Some out ->
  without_continuations text (concat out) /\
  ((forall a c b, text = a ++ c :: "+"%char :: b -> ~ newline c) -> concat out = text).
Proof.
  intros text out H. pose proof (separate_wc text out H) as W. split; [exact W|].
  intros N. symmetry. exact (wc_none _ _ W N).
Qed.
Print Assumptions C29_nothing_lost.
Example C29_nothing_lost_nonvacuous :
  separate_lines (s2l "R1 a b {x" ++ nl ++ s2l "+y}" ++ nl ++ s2l "+ tc=1" ++ nl ++ s2l "*end" ++ nl)
  = Some [s2l "R1 a b {x" ++ nl ++ s2l "+y} tc=1" ++ nl; s2l "*end" ++ nl].
Proof. reflexivity. Qed.

(** Comment lines, lines with any number of continuation lines, with newlines inside brackets and quotes and with
    comments after ';': every statement comes out once, in order, as one line. *)
Theorem C29_statements : forall ss, Forall statement_ok ss ->
  separate_lines (concat (map in_file ss)) = Some (map one_line ss).
Proof. exact sep_statements. Qed.
Print Assumptions C29_statements.
Example C29_statements_nonvacuous :
  let ss := [Comment (s2l " title (not closed"); Code (s2l "B1 a 0 V={x;" ++ nl ++ s2l "y}") [s2l " m=2"] (Some (s2l " note )"));
             Code [] [] None; Code (s2l ".end") [] None] in
  Forall statement_ok ss /\ length (map one_line ss) = 4.
Proof.
  assert (forall t, forallb (fun c => negb (mem_c c (s2l "(){}[];") || aeqb c quote || aeqb c "010" || aeqb c "013")) t = true -> body t) as B.
  { induction t as [|c t IH]; cbn [forallb]; intros H; [constructor|]. apply andb_true_iff in H. destruct H as [H1 H2].
    apply negb_true_iff in H1. apply orb_false_iff in H1. destruct H1 as [H1 H3]. apply orb_false_iff in H1. destruct H1 as [H1 H4].
    apply orb_false_iff in H1. destruct H1 as [H1 H5]. apply mem_c_not_In in H1. apply aeqb_neq in H3, H4, H5.
    constructor; [intros G; apply H1; unfold bracket in G; simpl in *; tauto|exact H5|intros [G|G]; contradiction|
                  intros ->; apply H1; simpl; tauto|exact (IH H2)]. }
  split; [|reflexivity]. repeat apply Forall_cons; [| | | |apply Forall_nil].
  - simpl. intuition discriminate.
  - simpl statement_ok. split; [|split; [apply Forall_cons; [apply B; reflexivity|apply Forall_nil]|
      split; [intros [G|[G|[]]]; discriminate|split; [discriminate|simpl; intuition discriminate]]]].
    change (s2l "B1 a 0 V={x;" ++ nl ++ s2l "y}") with
      ("B"%char :: "1"%char :: " "%char :: "a"%char :: " "%char :: "0"%char :: " "%char :: "V"%char :: "="%char :: "{"%char :: (s2l "x;" ++ nl ++ s2l "y") ++ "}"%char :: []).
    do 9 (apply B_char; [intros G; vm_compute in G; intuition discriminate|discriminate|intros [G|G]; discriminate|discriminate|]).
    change (body ("{"%char :: (s2l "x;" ++ nl ++ s2l "y") ++ "}"%char :: [])).
    apply B_pair; [right; right; reflexivity| |constructor].
    change (s2l "x;" ++ nl ++ s2l "y") with ("x"%char :: ";"%char :: "010"%char :: "y"%char :: []).
    do 4 (apply I_char; [intros G; vm_compute in G; intuition discriminate|discriminate|]). constructor.
  - simpl. repeat split; auto; constructor.
  - split; [apply B; reflexivity|]. split; [apply Forall_nil|]. split; [intros [G|[G|[]]]; discriminate|]. split; [discriminate|exact I].
Qed.

(** The two defects of continuation lines: the parts are joined without a separator, so that two different
    netlists become the same; and a continuation line after a line with a comment, or after a comment line,
    is not attached to the statement it continues. *)
Theorem C137_continuation_glued_refuted :
  separate_lines (s2l "R1 a b" ++ nl ++ s2l "+10k" ++ nl) = separate_lines (s2l "R1 a b10k" ++ nl) /\
  separate_lines (s2l "R1 a b ;x" ++ nl ++ s2l "+ 10k" ++ nl) = Some [s2l "R1 a b ;x" ++ nl; s2l "+ 10k" ++ nl] /\
  separate_lines (s2l "R1 a b" ++ nl ++ s2l "*x" ++ nl ++ s2l "+ 10k" ++ nl)
    = Some [s2l "R1 a b" ++ nl; s2l "*x" ++ nl; s2l "+ 10k" ++ nl].
Proof. repeat split; reflexivity. Qed.
Print Assumptions C137_continuation_glued_refuted.

(** One closing bracket too many, anywhere outside comments, and no statement of the file can be read. *)
Theorem C137_stray_bracket_refuted : forall ss f c rest, Forall statement_ok ss -> body f ->
  starts_with_none_of (s2l "*+") f -> In c (s2l ")]}") ->
  separate_lines (concat (map in_file ss) ++ f ++ c :: rest) = None.
Proof.
  intros ss f c rest H Hf Hs Hc. apply sep_stray; try assumption.
  unfold is_close. destruct Hc as [<-|[<-|[<-|[]]]]; reflexivity.
Qed.
Print Assumptions C137_stray_bracket_refuted.
Example C29_stray_nonvacuous :
  separate_lines (s2l "* title" ++ nl ++ s2l ".title smile :)" ++ nl ++ s2l ".end" ++ nl) = None.
Proof. reflexivity. Qed.
