(** Where files are. *)
From Coq Require Import String Ascii List Bool Arith.
From Verif Require Import PyStr FindModel.
Import ListNotations.
Local Open Scope string_scope. Local Open Scope nat_scope. Local Open Scope list_scope.

(** A file named [f] at the path [p], somewhere in the tree [d] that is at [root]. *)
Inductive file_in : str -> dir -> str -> str -> Prop :=
| Here : forall root files subs f, In f files -> file_in root (Dir files subs) f (join root f)
| Below : forall root files subs n d f p, In (n, d) subs -> file_in (join root n) d f p -> file_in root (Dir files subs) f p.
Definition same_name (a b : str) : Prop := lower a = lower b.
(** A container has a file of that name (folders in it before the name), and this is its path. *)
Inductive holds (w : fs) (filename : str) : str -> str -> Prop :=
| InZip : forall c names f, there w c = true -> endswith (s2l ".zip") c = true -> zip_at w c = Some names -> In f names -> same_name filename f ->
    holds w filename c (join (s2l "./spice_lib_temp") f)
| InFolder : forall c d f p, there w c = true -> endswith (s2l ".zip") c = false -> ~ In "/"%char filename -> dir_at w c = Some d -> file_in c d f p -> same_name filename f ->
    holds w filename c p
| InSubFolder : forall c h n d f p, there w c = true -> endswith (s2l ".zip") c = false -> filename = h ++ s2l "/" ++ n -> ~ In "/"%char n -> h <> [] -> endswith (s2l "/") h = false ->
    dir_at w (join c h) = Some d -> file_in (join c h) d f p -> same_name n f -> holds w filename c p.
(** File names: no "/" but between folders and the name. *)
Definition name_ok (filename : str) : Prop :=
  ~ In "/"%char filename \/ exists h n, filename = h ++ s2l "/" ++ n /\ ~ In "/"%char n /\ h <> [] /\ endswith (s2l "/") h = false.
Definition readable (w : fs) (c : str) : Prop := there w c = true -> endswith (s2l ".zip") c = true -> zip_at w c <> None.
