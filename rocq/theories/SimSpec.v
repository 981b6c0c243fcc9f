(** The documented switches, and where the files of a run are. *)
From Coq Require Import String Ascii List Bool Arith ZArith.
From Verif Require Import PyStr QTagModel SimModel.
Import ListNotations.
Local Open Scope string_scope. Local Open Scope nat_scope. Local Open Scope list_scope.

(** What a switch is followed by: nothing, any word, the same word joined to the switch, variable=value, a whole number, one of some words. *)
Inductive kind := Plain | Any | Joined | Setting | Whole | OneOf (l : list string).
Definition suits (k : kind) (p : str) : Prop :=
  match k with
  | Setting => In "="%char (strip p) /\ startswith (s2l "ngbehavior") (lower (strip p)) = false
  | Whole => py_int p <> None
  | OneOf l => In p (map s2l l)
  | _ => True
  end.
(** From the doc strings of valid_switch, without those of C145; the words LTspice and Qspice want. *)
Definition documented (m : sim) : list (string * string * kind) :=
  match m with
  | LTspice => [("-alt", "-alt", Plain); ("-ascii", "-ascii", Plain); ("-encrypt", "-encrypt", Plain); ("-fastaccess", "-FastAccess", Plain);
      ("-FixUpSchematicFonts", "-FixUpSchematicFonts", Plain); ("-FixUpSymbolFonts", "-FixUpSymbolFonts", Plain); ("-I", "-I", Joined); ("-netlist", "-netlist", Plain);
      ("-SOI", "-SOI", Plain); ("-sync", "-sync", Plain)]
  | NGspice => [("-c", "-c", Any); ("--circuitfile", "--circuitfile", Any); ("-D", "-D", Setting); ("--define", "--define", Setting); ("-n", "-n", Plain); ("--no-spiceinit", "--no-spiceinit", Plain);
      ("-q", "-q", Plain); ("--completion", "--completion", Plain); ("--soa-log", "--soa-log", Any); ("-s", "-s", Plain); ("--server", "--server", Plain); ("-t", "-t", Any); ("--term", "--term", Any)]
  | Qspice => [("-ASCII", "-ASCII", Plain); ("-binary", "-binary", Plain); ("-BSIM1", "-BSIM1", Plain); ("-Meyer", "-Meyer", Plain); ("-ProtectSelections", "-ProtectSelections", Any);
      ("-ProtectSubcircuits", "-ProtectSubcircuits", Any); ("-r", "-r", Any)]
  | Xyce => [("-capabilities", "-capabilities", Plain); ("-license", "-license", Plain); ("-param", "-param", Any); ("-doc", "-doc", Any); ("-doc_cat", "-doc_cat", Any); ("-count", "-count", Plain);
      ("-syntax", "-syntax", Plain); ("-norun", "-norun", Plain); ("-namesfile", "-namesfile", Any); ("-noise_names_file", "-noise_names_file", Any); ("-quiet", "-quiet", Plain);
      ("-jacobian_test", "-jacobian_test", Plain); ("-hspice-ext", "-hspice-ext", Any); ("-redefined_params", "-redefined_params", OneOf ["ignore"; "uselast"; "usefirst"; "warn"; "error"]);
      ("-subckt_multiplier", "-subckt_multiplier", OneOf ["true"; "false"]); ("-delim", "-delim", Any); ("-per-processor", "-per-processor", Plain); ("-remeasure", "-remeasure", Any);
      ("-maxord", "-maxord", Whole); ("-max-warnings", "-max-warnings", Whole); ("-prf", "-prf", Any); ("-rsf", "-rsf", Any); ("-a", "-a", Plain); ("-randseed", "-randseed", Whole); ("-plugin", "-plugin", Any)]
  end.
(** ngspice's parameters lose the blanks around them. *)
Definition given (m : sim) (p : str) : str := match m with NGspice => strip p | _ => p end.
Definition written (m : sim) (w : string) (k : kind) (p : str) : list str :=
  match k with Plain => [s2l w] | Joined => [s2l w ++ p] | _ => [s2l w; given m p] end.
(** The switches the library gives itself. *)
Definition taken (m : sim) : list str :=
  map s2l match m with LTspice => ["-Run"; "-b"] | NGspice => ["-b"; "-o"; "-r"; "-a"] | Qspice => ["-o"] | Xyce => ["-l"; "-r"] end.
Definition follows {A} (x y : A) (l : list A) : Prop := exists a b, l = a ++ x :: y :: b.
(** File names: the stem and the extension (of at least one character after its dot, or none). *)
Definition extension (e : str) : Prop := e = [] \/ exists r, e = "."%char :: r /\ r <> [] /\ ~ In "."%char r.
Definition name_of (stem ext : str) : Prop := stem <> [] /\ extension ext /\ (ext = [] -> ~ In "."%char stem).
(** The words of the calls after the last Clear. *)
Fixpoint since_clear (h : list call) : list str :=
  match h with
  | [] => []
  | Clear :: r => since_clear r
  | Add s p :: r => if existsb (fun c => match c with Clear => true | _ => false end) r then since_clear r
                    else s :: match p with Some x => [x] | None => [] end ++ since_clear r
  end.
