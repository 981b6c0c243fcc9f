{
 "Updates": [
  "editor/updates.py",
  "log of edits",
  "induction over the history; refinement to a map with last write wins",
  "-"
 ],
 "Sweep": [
  "utils/sweep_iterators.py",
  "sweep generators over Q",
  "closed form by induction on the generated list",
  "float rounding of increments"
 ],
 "Stepper": [
  "sim/sim_stepping.py (run_all, total_number_of_simulations)",
  "odometer over the registered sweeps",
  "induction on the dimensions: equals the lexicographic product",
  "the calls it makes to runner and editor other than set_*"
 ],
 "Runner": [
  "sim/sim_runner.py (SimRunner, TaskIterator)",
  "transition system of client and simulation threads",
  "invariants over every schedule",
  "real time other than the give-up/timeout choice; file deletion; logging"
 ],
 "Task": [
  "sim/run_task.py, parts of sim_runner.py",
  "decision functions of the outcomes of simulator, file system and callback",
  "case analysis, induction over polling",
  "console output"
 ],
 "Server": [
  "client_server/sim_server.py, srv_sim_runner.py, sim_client.py",
  "request/response state machine",
  "invariants over histories",
  "XML-RPC transport, zip files, stop_server, races between the manager thread and requests"
 ],
 "Raw": [
  "raw/raw_write.py, raw/plot_data.py (header and binary reader), raw_classes.py",
  "byte level writer and reader",
  "round trips for all lengths",
  "text data section of raw files, stepped writing, aliases, several plots per file"
 ],
 "Steps": [
  "raw/raw_classes.py (Axis, TraceRead), plot_data.py (steps, export)",
  "slicing by step, position search, step filter",
  "list induction, linear arithmetic over Q",
  "numpy conversions, pandas"
 ],
 "Log": [
  "log/logfile_data.py, log/ltsteps.py",
  "value splitting, data set queries, step/measurement tables",
  "list and nesting induction",
  "Fourier tables, measurements of unstepped logs' regular expressions"
 ],
 "Sep": [
  "editor/spice_subcircuit.py separate_lines",
  "character automaton",
  "induction on the text",
  "-"
 ],
 "Eng": [
  "utils/float_unit.py (format_eng, parse_value, scan_eng)",
  "decimal printing and reading over Q",
  "number theory of digits; case analysis",
  "float rounding, the float_unit class arithmetic"
 ],
 "PTok": [
  "editor/spice_components.py (tokenize_params, _parse_params)",
  "character automaton and token parser",
  "induction over the parameter list",
  "values as numbers"
 ],
 "Comp": [
  "editor/spice_utils.py patterns, spice_components.py, primitives.py",
  "component statements through the regular expression matcher",
  "symbolic execution of the matcher per component family",
  "DAC/dagger patterns (non-ASCII)"
 ],
 "Net": [
  "editor/spice_subcircuit.py, spice_file.py, spice_editor.py, spice_subcircuit_instance.py",
  "tree of statements, lookup, copy-on-write of sub-circuit instances",
  "tree induction",
  "library search paths (an environment), encodings"
 ],
 "Edit": [
  "spice_file.py, spice_editor.py, spice_subcircuit.py editing operations",
  "state of an editor with entries and log",
  "refinement to maps, histories",
  "-"
 ],
 "Cmd": [
  "(uses Edit)",
  "histories of commands",
  "invariants over histories",
  "-"
 ],
 "Par": [
  "spice_subcircuit.py parameters, base_editor.py PARAM_REGEX",
  "regex search and textual replacement in .PARAM lines",
  "matcher lemmas, histories",
  "conversion of values to numbers on reading"
 ],
 "Inst": [
  "spice_subcircuit_instance.py",
  "hierarchical edits and their meaning after elaboration",
  "refinement to a tree of edited components",
  "definitions nested in copied definitions"
 ],
 "Tol": [
  "sim/tookit/*.py",
  "test bench, run tables, measurements",
  "arithmetic induction, bit masks",
  "float rounding, pandas output"
 ],
 "TolFast": [
  "sim/tookit/fast_worst_case.py",
  "",
  "",
  ""
 ],
 "QTag": [
  "editor/qsch_editor.py 178-351",
  "tag tree, text and token level",
  "round trip by nested induction",
  "cp1252 beyond latin-1"
 ],
 "QEd": [
  "editor/qsch_editor.py, base_schematic.py",
  "editor with a store of tag objects",
  "invariants between editor tables and the tag tree, over histories",
  "ports, nets, wires, sub-circuit paths"
 ],
 "Asc": [
  "editor/asc_editor.py, ltspice_utils.py, base_schematic.py (editor of ASC files)",
  "reading and writing of lines, with the compiled TEXT regular expression; editor tables as lists",
  "the editor shows a document: preserved by reading, each edit and writing, over histories",
  "components inside sub-circuits, encodings, finding symbol files (an oracle)"
 ],
 "Geo": [
  "editor/base_schematic.py (Point, Line.touches, Line.intercepts)",
  "the contact test over rationals, and over binary64 floats (SpecFloat) for whole coordinates",
  "segment as set of convex combinations; floats by evaluation and by exactness of horizontal and vertical lines",
  "the netlist extraction from wires"
 ],
 "Find": [
  "utils/file_search.py",
  "a file system as folders of files and folders, zip archives as lists of entry names",
  "induction over containers and nested folders",
  "the extraction of a found zip entry to the work folder"
 ],
 "Enc": [
  "utils/detect_encoding.py",
  "UTF-8, UTF-16 and cp1252 decoders over bytes, universal newlines, the candidate loop",
  "decoders are proved inverse to the RFC 3629 and RFC 2781 encodings",
  "cp1250 and shift_jis (an arbitrary function)"
 ],
 "Sim": [
  "simulators/*_simulator.py (valid_switch, the command of run), sim/sim_runner.py (switches)",
  "the tables of switches as in the code, command lines as lists of words, paths as folder and name",
  "case analysis over the tables, facts about names of C08-C12 reused",
  "starting the process, executable search, output redirection"
 ],
 "Mc": [
  "sim/tookit/montecarlo.py",
  "the %g text of numbers, the random draws given from outside, the netlist of each run, the test bench with its .func texts",
  "digit arithmetic for %g, induction over components and runs, a small semantics of the formulas",
  "frequencies of the draws, float rounding of products, units in formulas"
 ],
 "Col": [
  "sim/tookit/sim_analysis.py (add_log_data, read_logfiles), log/logfile_data.py (export_data)",
  "a heap of list objects with addresses, logs as dictionaries to addresses; the exported text character by character",
  "induction over logs with a frame invariant on the heap; splitting the text at separators gives the table back",
  "value formatting (texts are given), encoding of the file, the value filters"
 ],
 "Qlog": [
  "log/qspice_log_reader.py",
  "both regular expressions in the matcher of Regex.v, the line loops, the dictionary of columns",
  "induction over measurements and rows with the invariant that columns hold the rows read so far",
  "running QPOST, opening files"
 ],
 "Op": [
  "log/semi_dev_op_reader.py",
  "the title and white-space regular expressions, the loop over lines with the devices of the current group, the nested dictionary",
  "induction over kinds, groups, quantities and columns",
  "opening the file and its encoding; conversion of a value to a number is an arbitrary function"
 ],
 "Ltlog": [
  "log/ltsteps.py (LTSpiceLogReader.__init__, both loops; HarmonicData, FourierData)",
  "the regular expressions in the matcher of Regex.v, the line loop as a state machine (main loop, header of a table, table of harmonics), the dictionaries of steps, data and analyses; the second loop is the one of Log",
  "invariant over the items of a log; greedy matching with going back to the last equal sign",
  "opening the file and its encoding, measure_count, export of analyses; float(), int() and try_convert_value are arbitrary functions"
 ],
 "Exp": [
  "log/ltsteps.py (reformat_LTSpice_export, LTSpiceExport)",
  "the regular expressions of the step lines in the matcher of Regex.v, both loops over the lines, the dictionaries of the current step and of the data",
  "greedy matching with going back to the last blank; induction over runs and rows with the lookups of all columns as invariant",
  "encodings, opening the files; try_convert_value is an arbitrary function"
 ],
 "Four": [
  "log/ltsteps.py (LTSpiceLogReader.export_data, FourierData)",
  "the text of the Fourier file as a function of the log read by LtlogModel; nested loops as maps with exceptions",
  "analyses grouped by step are all the analyses when they are ordered; the order is an invariant of the reader's loop",
  "opening the file, its encoding; texts of values are arbitrary functions"
 ],
 "QNet": [
  "editor/qsch_editor.py (nets in _parse_qsch_stream, _find_net_at_position)",
  "labels, wires, pins as lists read from the tags; the loop over the pins as a recursive function with the numbers of the next free nets",
  "invariant of the loop: the nodes given to open places are distinct and beyond the numbers of the wires",
  "the place of a pin (floating point sines) is an arbitrary function"
 ],
 "QLine": [
  "editor/qsch_editor.py (save_netlist, write_spice_to_file, decap)",
  "the lines as a function of the components, their sub-circuit schematics (nested) and the texts",
  "the file is cut into blocks; per block a relation in QLineSpec; definitions by induction with the set of those written",
  "text of embedded libraries and library paths are arbitrary functions; encoding errors of the file"
 ],
 "Mrg": [
  "raw/raw_write.py (add_traces_from_raw, _rename_netlabel, _interpolate, _consolidate and the start of save)",
  "the writer with its pending axis and imported traces, the sources with samples per step, the names of the source traces as state; exact rational samples",
  "invariant over the history of calls: pending axis increasing and within the range of every merged axis; induction over the merge loop and the interpolation walk",
  "float rounding; str.format; state after an exception; sources looked up by exact names; importing the axis itself with alignment"
 ],
 "QCmp": [
  "spicelib/editor/qsch_editor.py:353-375, 417-528, 1051-1066, 1167-1187",
  "The symbol tag of a component with its children as numbered objects in a store, the regular expression of parameters (ParModel) over its texts, set_parameters with the texts taken once at the start of a call, and the texts of QTagModel written and parsed back for a new parameter; the names in the directives of a schematic",
  "An invariant over the keyword arguments of a call, relating the texts taken at the start to those of the symbol: they agree on every name not yet treated; the text after a change is again a parameter text with the expected settings (regular-expression lemmas of ParLine)",
  "Integer keys in set_parameters (not reachable through keyword arguments); numbers as values (the text format_eng makes of them, C38)"
 ],
 "Asy": [
  "spicelib/editor/asy_reader.py (all of it but get_value, get_schematic_file), spicelib/scripts/asc_to_qsch.py convert_asc_to_qsch, qsch_editor.py 1324-1423 copy_from",
  "The reader as a function on lines; to_qsch as a function from the read symbol and the arguments to a tag; the conversion as a function from the text of the schematic and a library (symbol name to file text) to the text of the QSPICE file, through the models of the LTspice editor (Asc) and of the QSPICE tags (QTag).",
  "Induction on the items of the symbol file; each generated tag is proper, so that the file is read back by the theorem of QTag; the stock of symbols is described by an invariant (the first component with the symbol).",
  "Encodings; searching the library in directories; saving hierarchical blocks; arcs on the sheet; floating-point quotients of arcs are taken as exact; the mapping of symbols in asc_to_qsch_data.xml other than the scaling."
 ],
 "Pin": [
  "qsch_editor.py:838-856 (_find_pin_position)",
  "PinModel: atan2, radians, round(v,-2) and the turned position over the real numbers",
  "turned_coords: the coordinates before rounding by the addition formulas; round100_near; then case analysis on the orientation",
  "floating-point rounding (real numbers instead)"
 ],
 "Cln": [
  "sim_runner.py:418-473, 646-778 (netlist of a run, cleanup_files, kill_all_spice, _maximum_stop_time); run_task.py:115-160 (log renamed to .fail, raw_file)",
  "ClnModel: a disk as a function from paths to texts, tasks with netlist, end, log and raw file; histories of events",
  "invariant over the histories (`goes`): every file not on the initial disk belongs to exactly one known task; the names of different runs are apart because their stems end in different run numbers",
  "run_filename with folders in it, call-backs (cleaning happens after them), permission errors when deleting"
 ],
 "Srvf": [
  "sim_server.py:74-199; srv_sim_runner.py:33-161; run_task.py:115-190 (end of a task with the call-back)",
  "SrvfModel: a server with a disk whose files are texts or archives, sessions, jobs in the runner, jobs collected; histories of requests, outputs, ends and collections",
  "invariant over `reached` histories: names of run files determine stem, number and extension; a job's files hold what the history says its simulator wrote, its archive holds the delivery; frame lemmas for all other events",
  "folders in names, XML-RPC faults and network, two requests at a time (SimpleXMLRPCServer serves one), exceptions while deleting"
 ],
 "Cpx": [
  "spicelib/log/logfile_data.py:22-101 (LTComplex, try_convert_value), 340-348 (magnitudes and phases as columns)",
  "CpxModel: numerals with their values, the lazy pattern for complex values, complex numbers as pairs of real numbers, data sets as ordered lists of columns",
  "numerals by the lemma for float(); the polar form by uniqueness of the angle in (-pi, pi]; columns by induction over the names, with the done and the remaining ones",
  "inf, nan and underscores in numerals, floating-point rounding, bytes and lists as arguments"
 ],
 "Qst": [
  "spicelib/sim/tookit/quick_sensitivity_analysis.py:34-61; tolerance_deviations.py:171-227 with it; worst_case.py:198-214",
  "QstModel on TolModel and McModel: formulas as texts, recorded edits, batches; get_min_max on the collected logs of ColModel",
  "induction over the components with the recorded edits and the number of elements so far; the meaning of a formula is an inductive relation on its text and the .func lines of the netlist; least and greatest by induction",
  "units of values, failed measurements (texts instead of numbers), read_logfiles of a step-less log"
 ],
 "Ali": [
  "spicelib/raw/plot_data.py:51-59, 196-206, 545-584, 709-740",
  "AliModel: header lines with a dot, the five re.sub passes as scanners, a recursive-descent eval of the formula, get_trace of an alias",
  "the passes are homomorphic on a syntax tree of formulas (relation Sub, copy lemmas); the evaluator by induction on the formula with a fuel bound; variables by injectivity of namify",
  "keywords and soft names of Python, powers, comparison operators, infinities of numpy, casefold outside ASCII"
 ],
 "Csv": [
  "spicelib/sim/sim_stepping.py:90-136, 165-270",
  "CsvModel on StepperModel: current_values and sim_info as ordered dictionaries, runner.run as an oracle that may refuse, csv.DictWriter with QUOTE_NONNUMERIC",
  "simulation of the recording loop by the loop of C06 with a ghost list of recorded dictionaries; the writer by a reader automaton, induction over fields and rows",
  "values that are neither texts nor numbers, failing editors inside the loop, encodings of the file"
 ],
 "Crf": [
  "sim/sim_runner.py (create_raw_file_with)",
  "the list of matching tasks with their RAW files, on the merging model (Mrg)",
  "the loop as a list of merge calls; the theorem on aligned merges (C199); tagged names determine run and trace by the last underscore",
  "the iterator over matching tasks (Runner/Op areas); writing the file (Raw area); header fields of the template other than the title"
 ],
 "Exe": [
  "sim/simulator.py (create_from, guess_process_name, is_available, get_default_library_paths, expand_and_check_local_dir)",
  "the splitting automaton of shlex, paths as texts of parts, classes as a store, the file system as given predicates",
  "command lines as an inductive relation, equivalent to the automaton; first occurrence of /drive_c/; tidy paths are fixed points",
  "inheritance of class attributes; Windows; expandvars, expanduser, PureWindowsPath (given functions); macOS suffixes"
 ],
 "Dev": [
  "sim/tookit/tolerance_deviations.py (clear_simulation_data, read_logfiles, add_log), sim_analysis.py (run, add_log_data)",
  "columns of numbers, complex numbers and texts; get_measure_value from LogModel",
  "the collected columns are the concatenations of the logs' (induction over the logs), the run column then has exactly one match; adding logs keeps an invariant on the table",
  "sharing of list objects (C158), how log files are read (C13, C166-C170)"
 ],
 "Fun": [
  "utils/float_unit.py (units, float_unit, to_float)",
  "exact rationals; the units as an enumeration with their tables",
  "shape lemma for format_eng (digits, then a scale factor or an exponent), parsing of that shape followed by any unit that is not mistaken for a scale factor; finite tables",
  "nan, rounding of binary floating point (C37-C39), the ohm sign as one character"
 ],
 "Rac": [
  "sim/sim_runner.py (update_completed, run from the creation of the task), client_server/srv_sim_runner.py (the manager's loop)",
  "transition system of any number of threads; a step is one access to a shared list, task or counter",
  "inductive invariants over all schedules (places of every task; state of the one calling thread); witness schedules for the races",
  "run_now, the limit of parallel simulations (C08), erasing of collected results (C246 ff.)"
 ],
 "Nod": [
  "editor/spice_subcircuit.py (get_all_nodes, get_line_command on components)",
  "entries with their text and ports; the patterns of CompModel on the text",
  "matching of well-formed statements (CompProofs) and an invariant of the list built so far; witnesses read by NetModel",
  "inner nodes of sub-circuits (the code leaves them out)"
 ],
 "Sbi": [
  "editor/spice_subcircuit.py (add_instruction, remove_instruction, remove_Xinstruction, class_for_instruction, clone), editor/spice_subcircuit_instance.py (subcircuit, begin_update), editor/spice_editor.py (control sections)",
  "list of entries of a definition, its clone for an instance, the netlist of an editor",
  "splitting the list at the first equal text; induction on the list; witnesses",
  "nested definitions inside clones; the characters of regular expressions (any predicate)"
 ],
 "Inf": [
  "sim/sim_runner.py (sim_info), sim/run_task.py (edits), editor/updates.py (item access, text of an edit)",
  "dictionary made of the completed tasks of the runner of RunnerModel; the log of UpdatesModel as a list",
  "invariant over every schedule linking tasks to the calls that made them; induction on the history of edits",
  "callback results, times and exception texts of sim_info; slices of the log"
 ],
 "Clr": [
  "editor/primitives.py (clear_parameters, clear_parameter, clear_param)",
  "operations on the attributes of CompModel, with None as its text",
  "induction on the dictionary; witnesses saved and read by CompModel",
  "clearing before the attributes were read"
 ]
}