(** Model of the search of library files: spicelib/utils/file_search.py.
    The file system is what its calls tell: which paths exist, the tree os.walk finds at a path, the names zipfile reads.
    Simplifications: paths use "/"; characters are ASCII for lower(); the path zipfile.extract gives is spice_lib_temp and the name. *)
From Coq Require Import String Ascii List Bool Arith.
From Verif Require Import PyStr.
Import ListNotations.
Local Open Scope string_scope. Local Open Scope nat_scope. Local Open Scope list_scope.

(** A directory: the files and directories in the order os.scandir lists them. *)
Inductive dir := Dir (files : list str) (subs : list (str * dir)).
Record fs := { there : str -> bool;                    (* os.path.exists *)
               dir_at : str -> option dir;             (* what os.walk finds; None: nothing *)
               zip_at : str -> option (list str) }.    (* zipfile.ZipFile(path).namelist(); None: BadZipFile *)
(** os.path.join *)
Definition SLASH : ascii := "/"%char.
Definition join (a b : str) : str :=
  if startswith [SLASH] b then b else match a with [] => b | _ => if endswith [SLASH] a then a ++ b else a ++ SLASH :: b end.
(** os.path.split *)
Definition split_path (s : str) : str * str :=
  match split_at_last SLASH s with
  | None => ([], s)
  | Some (h, t) => ((match rstrip_if (aeqb SLASH) h with [] => h ++ [SLASH] | h' => h' end), t)
  end.
(** os.walk(top): (root, files), top down. *)
Fixpoint walk (root : str) (d : dir) : list (str * list str) :=
  match d with
  | Dir files subs =>
      (root, files) :: (fix all (l : list (str * dir)) : list (str * list str) :=
                          match l with [] => [] | (n, x) :: r => walk (join root n) x ++ all r end) subs
  end.
(** file_search.py:40-42: the first of the files whose name is that, in lower case *)
Definition first_named (name : str) (files : list str) : option str := find (fun f => str_eqb (lower name) (lower f)) files.
(** file_search.py:38-43 *)
Fixpoint first_in (name : str) (l : list (str * list str)) : option str :=
  match l with
  | [] => None
  | (root, files) :: r => match first_named name files with Some f => Some (join root f) | None => first_in name r end
  end.
(** file_search.py:29-43 [find_file_in_directory] *)
Definition find_file (w : fs) (directory filename : str) : option str :=
  let (path, name) := split_path filename in
  let directory := match path with [] => directory | _ => join directory path end in
  match dir_at w directory with Some d => first_in name (walk directory d) | None => None end.
Inductive answer := Found (path : str) | NotFound | Raises.
(** file_search.py:46-78 [search_file_in_containers] *)
Fixpoint search (w : fs) (filename : str) (containers : list str) : answer :=
  match containers with
  | [] => NotFound
  | c :: r =>
      if there w c
      then if endswith (s2l ".zip") c
           then match zip_at w c with
                | None => Raises
                | Some names => match first_named filename names with
                                | Some f => Found (join (s2l "./spice_lib_temp") f)
                                | None => search w filename r
                                end
                end
           else match find_file w c filename with Some p => Found p | None => search w filename r end
      else search w filename r
  end.
