(** Search of library files: C52, C118. *)
From Coq Require Import String Ascii List Bool Arith Lia.
From Verif Require Import PyStr FindModel FindSpec FindProofs.
Import ListNotations.
Local Open Scope string_scope. Local Open Scope nat_scope. Local Open Scope list_scope.

(** C52: the file found is in the first container that has a file of that name, whatever the case of its letters ... *)
Theorem C52_first : forall w name l p, name_ok name -> search w name l = Found p ->
  exists a c b, l = a ++ c :: b /\ holds w name c p /\ forall c', In c' a -> (forall p', ~ holds w name c' p') /\ readable w c'.
Proof. exact search_found. Qed.
(** ... and none is found only when no container has one. *)
Theorem C52_none : forall w name l, name_ok name -> (search w name l = NotFound <-> forall c, In c l -> (forall p, ~ holds w name c p) /\ readable w c).
Proof. exact search_none. Qed.
(** A file in the folder itself is found before those in its folders. *)
Theorem C52_top : forall w name c l files subs f, ~ In "/"%char name -> there w c = true -> endswith (s2l ".zip") c = false -> dir_at w c = Some (Dir files subs) -> In f files -> same_name name f ->
  exists g, In g files /\ same_name name g /\ search w name (c :: l) = Found (join c g).
Proof. exact search_top. Qed.
Print Assumptions C52_first.
Print Assumptions C52_none.
Print Assumptions C52_top.
Definition lib : dir := Dir [s2l "standard.dio"] [(s2l "sub", Dir [s2l "LTC.lib"; s2l "opamp.sub"] [])].
Definition disk : fs := {| there := fun p => str_eqb p (s2l "lib") || str_eqb p (s2l "extra.zip") || str_eqb p (s2l "bad.zip"); dir_at := fun p => if str_eqb p (s2l "lib") then Some lib else None;
  zip_at := fun p => if str_eqb p (s2l "extra.zip") then Some [s2l "models/q.lib"; s2l "ltc.lib"] else None |}.
Example C52_nonvacuous : name_ok (s2l "ltc.LIB") /\ search disk (s2l "ltc.LIB") [s2l "none"; s2l "lib"; s2l "extra.zip"] = Found (s2l "lib/sub/LTC.lib") /\ search disk (s2l "x.lib") [s2l "lib"; s2l "extra.zip"] = NotFound.
Proof. split; [left; apply mem_c_not_In; reflexivity|]. split; vm_compute; reflexivity. Qed.

(** C118: a member in a folder of a zip file is not found by its name, as it would be in a folder; a zip file that cannot be read stops the search;
    and a file of exactly that name is not preferred. *)
Theorem C118_zip_refuted :
  (forall w c names name, there w c = true -> endswith (s2l ".zip") c = true -> zip_at w c = Some names -> ~ In "/"%char name -> (forall f, In f names -> In "/"%char f) -> search w name [c] = NotFound) /\
  (forall w c name l, there w c = true -> endswith (s2l ".zip") c = true -> zip_at w c = None -> search w name (c :: l) = Raises) /\
  search {| there := fun _ => true; dir_at := fun _ => Some (Dir [s2l "A.lib"; s2l "a.lib"] []); zip_at := fun _ => None |} (s2l "a.lib") [s2l "lib"] = Found (s2l "lib/A.lib").
Proof.
  split; [|split].
  - intros w c names name T Z ZA N H. cbn [search]. rewrite T, Z, ZA. destruct (first_named name names) as [f|] eqn:E; [|reflexivity]. exfalso. apply first_named_some in E. destruct E as (I & S). specialize (H f I).
    assert (LS : forall s, In "/"%char (lower s) <-> In "/"%char s).
    { intros s. unfold lower. rewrite in_map_iff. split; [intros (x & E & K)|intros K; exists "/"%char; auto]. replace "/"%char with x; [exact K|]. revert E. clear. destruct x as [[] [] [] [] [] [] [] []]; vm_compute; intros E; try reflexivity; discriminate E. }
    apply N. apply LS. rewrite S. apply LS. exact H.
  - intros w c name l T Z ZA. cbn [search]. rewrite T, Z, ZA. reflexivity.
  - vm_compute. reflexivity.
Qed.
Print Assumptions C118_zip_refuted.
