(** Vocabulary for C278-C285. *)
From Coq Require Import String Ascii List Bool Arith.
From Verif Require Import PyStr ExeModel.
Import ListNotations.
Local Open Scope string_scope. Local Open Scope nat_scope. Local Open Scope list_scope.

Definition blank (c : ascii) : Prop := In c [" "; "009"; "013"; "010"]%char.
Definition quote (c : ascii) : Prop := c = "'"%char \/ c = """"%char.

(** [t] is a way to write the word [w] in a shell: characters as they are, and stretches in quotes of either kind. *)
Inductive spelled : str -> str -> Prop :=
| sp_end : spelled [] []
| sp_plain c w t : ~ blank c -> ~ quote c -> spelled w t -> spelled (c :: w) (c :: t)
| sp_quoted q b w t : quote q -> ~ In q b -> spelled w t -> spelled (b ++ w) (q :: b ++ q :: t).

(** [s] is a command line of the words. *)
Inductive command_line : list str -> str -> Prop :=
| cl_end s : Forall blank s -> command_line [] s
| cl_word lead w t ws s : Forall blank lead -> spelled w t -> t <> [] -> (s = [] \/ exists c r, s = c :: r /\ blank c) ->
    command_line ws s -> command_line (w :: ws) (lead ++ t ++ s).

(** A path without empty parts and parts ".": names between single slashes, after a slash or not. *)
Definition part (p : str) : Prop := p <> [] /\ p <> s2l "." /\ ~ In "/"%char p.
Inductive tidy : str -> Prop :=
| td_one p : part p -> tidy p
| td_cons p r : part p -> tidy r -> tidy (p ++ s2l "/" ++ r).
Definition plain_path (s : str) : Prop := tidy s \/ exists r, s = s2l "/" ++ r /\ tidy r.

(** The path starts with [a], up to the first "/drive_c/" of the path of a program under wine. *)
Definition wine_root (exe a : str) : Prop :=
  (exists b, exe = a ++ s2l "/drive_c/" ++ b) /\ forall a' b', exe = a' ++ s2l "/drive_c/" ++ b' -> length a <= length a'.
Definition not_wine (exe : str) : Prop := forall a b, exe <> a ++ s2l "/drive_c/" ++ b.

(** The directory on the host a library path stands for, under wine with the given root: drive C is the directory drive_c, and ~ is
    the directory of the user on it. *)
Inductive stands_for (sys : system) (a : str) : str -> str -> Prop :=
| st_drive d x : d = "C"%char \/ d = "c"%char -> stands_for sys a (d :: s2l ":/" ++ x) (a ++ s2l "/drive_c/" ++ x)
| st_home x : stands_for sys a (s2l "~" ++ x) (a ++ s2l "/drive_c/users/" ++ s_vars sys (s2l "${USER}" ++ x))
| st_other p : ~ (exists x, p = s2l "~" ++ x) -> ~ (exists x, p = s2l "C:/" ++ x) -> ~ (exists x, p = s2l "c:/" ++ x) -> stands_for sys a p p.
