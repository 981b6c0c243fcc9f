(** Model of the simulator classes: spicelib/sim/simulator.py, create_from (104-145), guess_process_name (148-159), is_available
    (179-189), get_default_library_paths (192-216), expand_and_check_local_dir (219-276), on Linux and macOS.
    Simplifications: the file system is a set of existing paths, a set of directories and the search of the PATH; PureWindowsPath,
    expandvars and expanduser are given functions; an attribute belongs to the class it was set on (no inheritance of attributes). *)
From Coq Require Import String Ascii List Bool Arith.
From Verif Require Import PyStr.
Import ListNotations.
Local Open Scope string_scope. Local Open Scope nat_scope. Local Open Scope list_scope.

(** What is asked of the system: os.path.exists, os.path.isdir, shutil.which; PureWindowsPath(x).as_posix(); os.path.expandvars and
    os.path.expanduser; sys.platform is darwin. *)
Record system := System { s_exists : str -> bool; s_isdir : str -> bool; s_which : str -> bool;
                          s_win : str -> str; s_vars : str -> str; s_user : str -> str; s_mac : bool }.

(** ** pathlib (POSIX): the parts of a path and its text *)
Fixpoint pieces (s : str) : list str :=
  match s with
  | [] => [[]]
  | c :: r => if aeqb c "/" then [] :: pieces r
              else match pieces r with p :: ps => (c :: p) :: ps | [] => [[c]] end
  end.
Definition real_part (p : str) : bool := negb (str_eqb p []) && negb (str_eqb p (s2l ".")).
Definition parts (s : str) : list str := filter real_part (pieces s).
Definition root (s : str) : str :=
  match s with
  | "/"%char :: "/"%char :: "/"%char :: _ => s2l "/"
  | "/"%char :: "/"%char :: _ => s2l "//"
  | "/"%char :: _ => s2l "/"
  | _ => []
  end.
Fixpoint slashed (l : list str) : str :=
  match l with [] => [] | [p] => p | p :: r => p ++ s2l "/" ++ slashed r end.
(** Path(s).as_posix() *)
Definition posix (s : str) : str :=
  match root s ++ slashed (parts s) with [] => s2l "." | t => t end.
(** Path(s).name *)
Definition path_name (s : str) : str := last (parts s) [].
(** Path(s).stem: the name up to its last dot, if that is neither the first nor the last character *)
Definition path_stem (s : str) : str :=
  match split_at_last "." (path_name s) with
  | Some (a, b) => match a, b with [], _ => path_name s | _, [] => path_name s | _, _ => a end
  | None => path_name s
  end.

(** ** shlex.split, without the escape character (create_from does not get here with one) *)
Definition is_blank (c : ascii) : bool := mem_c c [" "; "009"; "013"; "010"]%char.
Definition is_quote (c : ascii) : bool := mem_c c ["'"; """"]%char.
Inductive lstate := Wait | Word | InQuote (q : ascii).
(** The characters read of the word so far, in [tok], and whether it had quotes. None: ValueError (no closing quotation). *)
Fixpoint lex (st : lstate) (tok : str) (quoted : bool) (s : str) : option (list str) :=
  match s with
  | [] => match st with
          | InQuote _ => None
          | Wait => Some []
          | Word => Some (if quoted || negb (str_eqb tok []) then [tok] else [])
          end
  | c :: r =>
      match st with
      | Wait => if is_blank c then lex Wait [] false r
                else if is_quote c then lex (InQuote c) [] true r
                else lex Word [c] false r
      | InQuote q => if aeqb c q then lex Word tok true r else lex (InQuote q) (tok ++ [c]) true r
      | Word => if is_blank c then
                  match lex Wait [] false r with
                  | Some l => Some (if quoted || negb (str_eqb tok []) then tok :: l else l)
                  | None => None
                  end
                else if is_quote c then lex (InQuote c) tok quoted r
                else lex Word (tok ++ [c]) quoted r
      end
  end.
Definition shlex_split (s : str) : option (list str) := lex Wait [] false s.

(** ** The classes *)
(** simulator.py:84-92: spice_exe and process_name of a class *)
Record attrs := Attrs { spice_exe : list str; process_name : str }.
Definition classes := nat -> attrs.
Definition set_attrs (c : nat) (a : attrs) (st : classes) : classes := fun k => if k =? c then a else st k.

(** What create_from is given: a Path, with its text, or a string. *)
Inductive given := APath (t : str) | AText (s : str).
Definition text_of (g : given) : str := match g with APath t => t | AText s => s end.
(** FileNotFoundError, ValueError, or the class, with its attributes set *)
Inductive created := NotFound | BadQuotes | Created (c : nat) (st : classes).

Definition contains (p s : str) : bool := is_sub p s.
(** simulator.py:148-159 *)
Definition guess_process_name (sys : system) (exe : str) : str :=
  match exe with
  | [] => []
  | _ => if s_mac sys then if contains (s2l "wine") exe then s2l "wine-preloader" else path_stem exe
         else path_name exe
  end.
(** simulator.py:115-135: the sections; None: ValueError of shlex *)
Definition exe_parts (sys : system) (g : given) : option (list str) :=
  match g with
  | APath t => Some [posix t]
  | AText s =>
      if s_exists sys s then Some [posix s]
      else if mem_c "\" s then Some [posix (s_win sys s)]
      else match shlex_split s with
           | Some (w :: ws) => Some (posix w :: ws)
           | Some [] => Some []
           | None => None
           end
  end.
(** simulator.py:104-145, called on the class [cls] *)
Definition create_from (sys : system) (cls : nat) (g : given) (pname : option str) (st : classes) : created :=
  match exe_parts sys g with
  | None => BadQuotes
  | Some [] => NotFound
  | Some (e :: ws) =>
      if s_exists sys e || s_which sys e then
        Created cls (set_attrs cls (Attrs (e :: ws) (match pname with Some p => p | None => guess_process_name sys e end)) st)
      else NotFound
  end.
(** simulator.py:179-189 *)
Definition is_available (sys : system) (a : attrs) : bool :=
  match spice_exe a with
  | [] => false
  | e :: _ => s_exists sys (posix e) || s_which sys e
  end.

(** What subprocess.run starts for a command (run_function, simulator.py:33-37; POSIX execvp): the file itself if the first word has a
    slash, else what the search of the PATH finds. *)
Inductive started := File (p : str) | Search (name : str).
Definition starts (e : str) : started := if mem_c "/" e then File e else Search e.

(** ** Library directories *)
(** exe_path.split("/drive_c/")[0] + "/drive_c/", if it occurs *)
Definition drive : str := s2l "/drive_c/".
Fixpoint before_drive (s : str) : option str :=
  if startswith drive s then Some []
  else match s with [] => None | c :: r => option_map (cons c) (before_drive r) end.
(** simulator.py:243-276; [exe]: the path of the executable, if there is one *)
Definition expand_dir (sys : system) (path : str) (exe : option str) : option str :=
  let c_drive := match exe with Some e => option_map (fun a => a ++ drive) (before_drive e) | None => None end in
  let path1 :=
    match c_drive with
    | None => path
    | Some d =>
        let p := if startswith (s2l "~") path then s2l "C:/users/" ++ s_vars sys (s2l "${USER}" ++ skipn 1 path) else path in
        if startswith (s2l "C:/") p || startswith (s2l "c:/") p then d ++ skipn 3 p else p
    end in
  let path2 := if startswith (s2l "~") path1 then s_user sys path1 else path1 in
  if s_exists sys path2 && s_isdir sys path2 then Some path2 else None.
(** simulator.py:203-216, with the class's _default_lib_paths [defaults] *)
Definition default_library_paths (sys : system) (a : attrs) (defaults : list str) : list str :=
  let exe := match spice_exe a with
             | [] => None
             | _ => let e := last (spice_exe a) [] in if s_exists sys e then Some e else None
             end in
  flat_map (fun p => match expand_dir sys p exe with Some d => [d] | None => [] end) defaults.
