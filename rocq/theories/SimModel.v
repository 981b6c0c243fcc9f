(** Model of the simulators' switches and command lines: spicelib/simulators/*_simulator.py ([valid_switch], [run]) and
    sim_runner.py:397-416, 558-567 (the switches of a runner).
    Simplifications: a path is the text of its folder (with its last "/") and its name, already normal; executables are given;
    the parameter of a switch is a text. *)
From Coq Require Import String Ascii List Bool Arith ZArith.
From Verif Require Import PyStr StepsModel QTagModel RunnerModel.
Import ListNotations.
Local Open Scope string_scope. Local Open Scope nat_scope. Local Open Scope list_scope.

Inductive sim := LTspice | NGspice | Qspice | Xyce.
(** str.replace *)
Fixpoint repl (fuel : nat) (p by_ s : str) : str :=
  match fuel, s with
  | S f, c :: r => if startswith p s then by_ ++ repl f p by_ (skipn (length p) s) else c :: repl f p by_ r
  | _, _ => []
  end.
Definition replace (p by_ s : str) : str := repl (length s) p by_ s.
Definition words_of (l : list (string * list string)) : list (str * list str) := map (fun e => (s2l (fst e), map s2l (snd e))) l.
(** ltspice_simulator.py:144-171, ngspice_simulator.py:72-102, qspice_simulator.py:80-91, xyce_simulator.py:70-112. *)
Definition table (m : sim) : list (str * list str) :=
  words_of match m with
  | LTspice => [("-alt", ["-alt"]); ("-ascii", ["-ascii"]); ("-big", ["-big"]); ("-encrypt", ["-encrypt"]); ("-fastaccess", ["-FastAccess"]);
      ("-FixUpSchematicFonts", ["-FixUpSchematicFonts"]); ("-FixUpSymbolFonts", ["-FixUpSymbolFonts"]); ("-ini", ["- ini"; "<path>"]); ("-I", ["-I<path>"]);
      ("-max", ["-max"]); ("-netlist", ["-netlist"]); ("-norm", ["-norm"]); ("-PCBnetlist", ["-PCBnetlist"]); ("-SOI", ["-SOI"]); ("-sync", ["-sync"])]
  | NGspice => [("-c", ["-c"; "<FILE>"]); ("--circuitfile", ["--circuitfile"; "<FILE>"]); ("-D", ["-D"; "var_value"]); ("--define", ["--define"; "var_value"]);
      ("-i", ["-i"]); ("--interactive", ["--interactive"]); ("-n", ["-n"]); ("--no-spiceinit", ["--no-spiceinit"]); ("-q", ["-q"]); ("--completion", ["--completion"]);
      ("--soa-log", ["--soa-log"; "<FILE>"]); ("-s", ["-s"]); ("--server", ["--server"]); ("-t", ["-t"; "<TERM>"]); ("--term", ["--term"; "<TERM>"])]
  | Qspice => [("-ASCII", ["-ASCII"]); ("-ascii", ["-ASCII"]); ("-binary", ["-binary"]); ("-BSIM1", ["-BSIM1"]); ("-Meyer", ["-Meyer"]); ("-o", ["-o"; "<path>"]);
      ("-ProtectSelections", ["-ProtectSelections"; "<path>"]); ("-ProtectSubcircuits", ["-ProtectSubcircuits"; "<path>"]); ("-r", ["-r"; "<path>"])]
  | Xyce => [("-capabilities", ["-capabilities"]); ("-license", ["-license"]); ("-param", ["-param"; "<param_options>"]); ("-doc", ["-doc"; "<param_options>"]);
      ("-doc_cat", ["-doc_cat"; "<param_options>"]); ("-count", ["-count"]); ("-syntax", ["-syntax"]); ("-norun", ["-norun"]); ("-namesfile", ["-namesfile"; "<path>"]);
      ("-noise_names_file", ["-noise_names_file"; "<path>"]); ("-quiet", ["-quiet"]); ("-jacobian_test", ["-jacobian_test"]); ("-hspice-ext", ["-hspice-ext"; "<hsext_options>"]);
      ("-redefined_params", ["-redefined_params"; "<redef_param_option>"]); ("-subckt_multiplier", ["-subckt_multiplier"; "<truefalse_option>"]); ("-delim", ["-delim"; "<delim_option>"]);
      ("-o", ["-o"; "<basename>"]); ("-per-processor", ["-per-processor"]); ("-remeasure", ["-remeasure"; "<path>"]); ("-nox", ["-nox"; "onoff_option"]); ("-linsolv", ["-linsolv"; "<solver>"]);
      ("-maxord", ["-maxord"; "<int_option>"]); ("-max-warnings", ["-max-warnings"; "<int_option>"]); ("-prf", ["-prf"; "<path>"]); ("-rsf", ["-rsf"; "<path>"]); ("-a", ["-a"]);
      ("-randseed", ["-randseed"; "<int_option>"]); ("-plugin", ["-plugin"; "<plugin_list>"])]
  end.
(** [_default_run_switches]: ltspice_simulator.py:174, ngspice_simulator.py:105, qspice_simulator.py:94, xyce_simulator.py:115. *)
Definition own (m : sim) : list str :=
  map s2l match m with LTspice => ["-Run"; "-b"] | NGspice => ["-b"; "-o"; "-r"; "-a"] | Qspice => ["-o"] | Xyce => ["-l"; "-r"] end.
Definition mem_s (x : str) (l : list str) : bool := existsb (str_eqb x) l.
Definition is_ (a : str) (b : string) : bool := str_eqb a (s2l b).
(** The words of a switch, from those of the table: ltspice_simulator.py:235-237, qspice_simulator.py:135-137,
    ngspice_simulator.py:150-161 ([set_compatibility_mode] is a method, hence true), xyce_simulator.py:179-212. *)
Definition fill (m : sim) (switch : str) (l : list str) (parameter : str) : list str :=
  match m with
  | LTspice | Qspice => map (replace (s2l "<path>") parameter) l
  | NGspice =>
      let p := strip parameter in
      if (is_ switch "-D" || is_ switch "--define") && startswith (s2l "ngbehavior") (lower p) then []
      else match l with
           | [a; t] => if is_ t "<FILE>" || is_ t "<TERM>" || (is_ t "var_value" && mem_c "=" p) then [a; p] else []
           | _ => l
           end
  | Xyce =>
      match l with
      | [a; t] =>
          let ok := if is_ t "<path>" || is_ t "<param_options>" || is_ t "<hsext_options>" || is_ t "<delim_option>" || is_ t "<plugin_list>" then true
                    else if is_ t "<redef_param_option>" then mem_s parameter (map s2l ["ignore"; "uselast"; "usefirst"; "warn"; "error"])
                    else if is_ t "<truefalse_option>" then mem_s (lower parameter) (map s2l ["true"; "false"])
                    else if is_ t "<onoff_option>" then mem_s (lower parameter) (map s2l ["on"; "off"])
                    else if is_ t "<int_option>" then match py_int parameter with Some _ => true | None => false end
                    else false in
          if ok then [a; parameter] else []
      | _ => l
      end
  end.
(** ltspice_simulator.py:185-239, ngspice_simulator.py:109-164, qspice_simulator.py:98-139, xyce_simulator.py:119-215 [valid_switch];
    [native]: the macOS LTspice (ltspice_simulator.py:177-182).  None: ValueError. *)
Definition DASH : ascii := "-"%char.
Definition valid_switch (m : sim) (native : bool) (switch : option str) (parameter : str) : option (list str) :=
  if match m with LTspice => native | _ => false end then None
  else match switch with
       | None => Some []
       | Some s =>
           match strip s with
           | [] => Some []
           | c :: r =>
               let w := if aeqb c DASH then c :: r else DASH :: c :: r in
               if mem_s w (own m) then Some []
               else match dget w (table m) with Some l => Some (fill m w l parameter) | None => None end
           end
       end.

(** ** Command lines *)
Record path := Path { folder : str; name : str }.
Definition posix (p : path) : str := folder p ++ name p.
(** pathlib: with_suffix *)
Definition with_suffix (p : path) (ext : str) : path := Path (folder p) (fst (split_suffix (name p)) ++ ext).
(** simulator.py:97, qspice_simulator.py:35 *)
Definition raw_extension (m : sim) : str := match m with Qspice => s2l ".qraw" | _ => s2l ".raw" end.
Inductive platform := Wine | NativeMac | Windows.
(** [_compatibility_mode] of ngspice, ngspice_simulator.py:106, 208-210. *)
Definition compat (mode : option str) : list str :=
  match mode with Some (c :: m) => [s2l "-D"; s2l "ngbehavior=" ++ c :: m] | _ => [] end.
(** [run]: ltspice_simulator.py:273-295, ngspice_simulator.py:200-212, qspice_simulator.py:173-180, xyce_simulator.py:249-258: the command.
    [absolute]: pathlib's absolute().  None: NotImplementedError. *)
Definition command (m : sim) (pf : platform) (mode : option str) (absolute : path -> path) (exe : list str) (f : path) (switches : list str) : option (list str) :=
  match m with
  | LTspice =>
      match pf with
      | NativeMac => if endswith (s2l ".asc") (lower (snd (split_suffix (name f)))) then None else Some (exe ++ [s2l "-b"] ++ [posix f] ++ switches)
      | Wine => Some (exe ++ [s2l "-Run"] ++ [s2l "-b"] ++ [s2l "Z:" ++ posix f] ++ switches)
      | Windows => Some (exe ++ [s2l "-Run"] ++ [s2l "-b"] ++ [posix f] ++ switches)
      end
  | NGspice =>
      Some (exe ++ switches ++ compat mode ++ [s2l "-b"] ++ [s2l "-o"] ++ [posix (with_suffix f (s2l ".log"))] ++ [s2l "-r"] ++ [posix (with_suffix f (s2l ".raw"))] ++ [posix f])
  | Qspice => let f := absolute f in Some (exe ++ [s2l "-o"; posix (with_suffix f (s2l ".log"))] ++ [posix f] ++ switches)
  | Xyce => Some (exe ++ switches ++ [s2l "-l"] ++ [posix (with_suffix f (s2l ".log"))] ++ [s2l "-r"] ++ [posix (with_suffix f (s2l ".raw"))] ++ [posix f])
  end.
(** The files a run is looked for in: run_task.py:138, 144, 156 and the console log of [run]. *)
Definition log_of (f : path) : path := with_suffix f (s2l ".log").
Definition raw_of (m : sim) (f : path) : path := with_suffix f (raw_extension m).
Definition fail_of (f : path) : path := with_suffix f (s2l ".fail").

(** ** The switches of a runner *)
(** sim_runner.py:401-416 [add_command_line_switch], 397-399 [clear_command_line_switches]. *)
Inductive call := Add (switch : str) (path : option str) | Clear.
Definition step_switches (l : list str) (c : call) : list str :=
  match c with Add s p => l ++ s :: match p with Some x => [x] | None => [] end | Clear => [] end.
Definition runner_switches (h : list call) : list str := fold_left step_switches h [].
(** sim_runner.py:558-567, 608-612: those of a run; [given]: the argument switches. *)
Definition run_switches (h : list call) (given : option (list str)) : list str :=
  match given with Some (x :: l) => x :: l | _ => runner_switches h end.
