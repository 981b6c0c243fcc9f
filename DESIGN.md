# DESIGN - a Rocq (Coq 8.16.1) model of spicelib

The source in /repo is read as text; nothing of it is executed or changed. `rocq/theories/` holds, per area,

* `<Area>Model.v` - a transcription into Gallina, one definition per Python function or block, each with the
  file and lines it models and its simplifications; no proofs;
* `<Area>Spec.v` - the vocabulary of the property statements, written without the model's helpers: what a document
  is, what its text is, what an edit means, which texts count as well formed;
* `<Area>Proofs*.v` (and named lemma files) - the proofs;
* `<Area>Props.v` - only the property theorems, closed by `exact`, each with `Print Assumptions` and an `Example`
  showing that a concrete case meets its hypotheses.

`MANIFEST.json`, `rocq/_CoqProject` and the tables of this file are generated by `tools/manifest.py` from the theorem
names in `*Props.v`, `properties.jsonl` and `tools/*.json`. `tools/mutate.py` runs the seeded wrong programs
(`seeded/LOG.jsonl`).

## Trusted base

1. **Coq's kernel** (8.16.1), with `vm_compute` (witnesses, finite sweeps over the 256 characters).
2. **Assumptions.** `Print Assumptions` stands under every property theorem; all answer *Closed under the global
   context*, except C230-C233 (places of pins) and C248-C254 (complex values of logs), over the real numbers, which list the standard library's
   `ClassicalDedekindReals.sig_forall_dec`, `ClassicalDedekindReals.sig_not_dec`,
   `FunctionalExtensionality.functional_extensionality_dep` and `Classical_Prop.classic` (the axioms of `Reals`).
   No other axiom of the standard library is used, and none is declared. (`vcheck` additionally reports the seven
   `Coq.ssr.ssrunder.Under_rel.*` entries and the entries of `Coq.Reals.Rdefinitions` (`RbaseSymbolsImpl.*`,
   `RinvImpl.*`, `RbaseSymbolsSig`): they are the parameters of the standard library's own opaque modules and module
   types, loaded with ssreflect and Reals; no theorem depends on further axioms through them.) No `Admitted`, no `Variable`/`Hypothesis` outside sections, no
   functors or module types, no kernel check switched off, no plugins.
3. **The reading of the code.** The theorems are about the Gallina definitions; that these say what the Python says
   rests on the citations and on reading. Common conventions:
   * *Exceptions* are values: `None` (or an error constructor) where the Python raises. An operation that raises has
     no resulting state in the model; where the code raises, the checks stand before the first change, unless the
     model's comment says otherwise (then the partially changed state is modelled).
   * *Strings* are lists of `ascii`, i.e. characters below U+0100; `str.upper`, `\w`, `isalpha` etc. are those of
     ASCII unless a comment says otherwise. Greek mu, ohm, the euro sign and dagger of a few patterns are missing.
   * *Numbers*: Python ints are `Z`/`nat`; floats are exact rationals (`Q`) where arithmetic is modelled, and opaque
     byte words where only the layout matters (RAW files). No binary rounding, overflow, nan (except in `Steps`,
     where equality of samples is an arbitrary relation), signed zero.
   * *Regular expressions* are modelled by a backtracking matcher with Python's priority order (`Regex.v`: classes,
     sequences, ordered choice, greedy/lazy repetition, groups, look-ahead, anchors) and the patterns are transcribed.
   * *Threads*: every atomic action of the client and of the simulation threads is a label; a schedule is any list of
     labels. Bytecode-level races inside one method are not modelled.
   * *Dictionaries* are association lists in insertion order. *Objects that are shared* (QSPICE tags) are numbers with
     a store; all others are values.
   * *Files*: contents are lists of characters or bytes; the file system is an environment (a function) or a
     parameter. Text encodings (cp1252, utf-16) are modelled only in `Raw` and `Enc`.
4. **Not code at all**: the specifications in `*Spec.v` and the statements in `*Props.v` are meant to be read.

## What the status means

`proved`: the property as written in `properties.jsonl` is a theorem, for everything its quantifier names.
`partial`: some theorem of the claim is called `_partial` (only part of the property holds or is shown, the note says
what is missing) or `_refuted` (the property, or the part of it the note names, is **false of the code**; the theorem
is a counterexample by computation or a general refutation, and is a finding about the code). Refuted parts of a
larger property were, where possible, split off into a property of their own, so that what does hold is proved in full.

## What is modelled, and what is not

| area | code (under /repo/spicelib) | model | proof technique | left out |
|---|---|---|---|---|
| `Updates*` | editor/updates.py | log of edits | induction over the history; refinement to a map with last write wins | - |
| `Sweep*` | utils/sweep_iterators.py | sweep generators over Q | closed form by induction on the generated list | float rounding of increments |
| `Stepper*` | sim/sim_stepping.py (run_all, total_number_of_simulations) | odometer over the registered sweeps | induction on the dimensions: equals the lexicographic product | the calls it makes to runner and editor other than set_* |
| `Runner*` | sim/sim_runner.py (SimRunner, TaskIterator) | transition system of client and simulation threads | invariants over every schedule | real time other than the give-up/timeout choice; file deletion; logging |
| `Task*` | sim/run_task.py, parts of sim_runner.py | decision functions of the outcomes of simulator, file system and callback | case analysis, induction over polling | console output |
| `Server*` | client_server/sim_server.py, srv_sim_runner.py, sim_client.py | request/response state machine | invariants over histories | XML-RPC transport, zip files, stop_server, races between the manager thread and requests |
| `Raw*` | raw/raw_write.py, raw/plot_data.py (header and binary reader), raw_classes.py | byte level writer and reader | round trips for all lengths | text data section of raw files, stepped writing, aliases, several plots per file |
| `Steps*` | raw/raw_classes.py (Axis, TraceRead), plot_data.py (steps, export) | slicing by step, position search, step filter | list induction, linear arithmetic over Q | numpy conversions, pandas |
| `Log*` | log/logfile_data.py, log/ltsteps.py | value splitting, data set queries, step/measurement tables | list and nesting induction | Fourier tables, measurements of unstepped logs' regular expressions |
| `Sep*` | editor/spice_subcircuit.py separate_lines | character automaton | induction on the text | - |
| `Eng*` | utils/float_unit.py (format_eng, parse_value, scan_eng) | decimal printing and reading over Q | number theory of digits; case analysis | float rounding, the float_unit class arithmetic |
| `PTok*` | editor/spice_components.py (tokenize_params, _parse_params) | character automaton and token parser | induction over the parameter list | values as numbers |
| `Comp*` | editor/spice_utils.py patterns, spice_components.py, primitives.py | component statements through the regular expression matcher | symbolic execution of the matcher per component family | DAC/dagger patterns (non-ASCII) |
| `Net*` | editor/spice_subcircuit.py, spice_file.py, spice_editor.py, spice_subcircuit_instance.py | tree of statements, lookup, copy-on-write of sub-circuit instances | tree induction | library search paths (an environment), encodings |
| `Edit*` | spice_file.py, spice_editor.py, spice_subcircuit.py editing operations | state of an editor with entries and log | refinement to maps, histories | - |
| `Cmd*` | (uses Edit) | histories of commands | invariants over histories | - |
| `Par*` | spice_subcircuit.py parameters, base_editor.py PARAM_REGEX | regex search and textual replacement in .PARAM lines | matcher lemmas, histories | conversion of values to numbers on reading |
| `Inst*` | spice_subcircuit_instance.py | hierarchical edits and their meaning after elaboration | refinement to a tree of edited components | definitions nested in copied definitions |
| `Tol*` | sim/tookit/*.py | test bench, run tables, measurements | arithmetic induction, bit masks | float rounding, pandas output |
| `QTag*` | editor/qsch_editor.py 178-351 | tag tree, text and token level | round trip by nested induction | cp1252 beyond latin-1 |
| `QEd*` | editor/qsch_editor.py, base_schematic.py | editor with a store of tag objects | invariants between editor tables and the tag tree, over histories | ports, nets, wires, sub-circuit paths |
| `Asc*` | editor/asc_editor.py, ltspice_utils.py, base_schematic.py (editor of ASC files) | reading and writing of lines, with the compiled TEXT regular expression; editor tables as lists | the editor shows a document: preserved by reading, each edit and writing, over histories | components inside sub-circuits, encodings, finding symbol files (an oracle) |
| `Geo*` | editor/base_schematic.py (Point, Line.touches, Line.intercepts) | the contact test over rationals, and over binary64 floats (SpecFloat) for whole coordinates | segment as set of convex combinations; floats by evaluation and by exactness of horizontal and vertical lines | the netlist extraction from wires |
| `Find*` | utils/file_search.py | a file system as folders of files and folders, zip archives as lists of entry names | induction over containers and nested folders | the extraction of a found zip entry to the work folder |
| `Enc*` | utils/detect_encoding.py | UTF-8, UTF-16 and cp1252 decoders over bytes, universal newlines, the candidate loop | decoders are proved inverse to the RFC 3629 and RFC 2781 encodings | cp1250 and shift_jis (an arbitrary function) |
| `Sim*` | simulators/*_simulator.py (valid_switch, the command of run), sim/sim_runner.py (switches) | the tables of switches as in the code, command lines as lists of words, paths as folder and name | case analysis over the tables, facts about names of C08-C12 reused | starting the process, executable search, output redirection |
| `Mc*` | sim/tookit/montecarlo.py | the %g text of numbers, the random draws given from outside, the netlist of each run, the test bench with its .func texts | digit arithmetic for %g, induction over components and runs, a small semantics of the formulas | frequencies of the draws, float rounding of products, units in formulas |
| `Col*` | sim/tookit/sim_analysis.py (add_log_data, read_logfiles), log/logfile_data.py (export_data) | a heap of list objects with addresses, logs as dictionaries to addresses; the exported text character by character | induction over logs with a frame invariant on the heap; splitting the text at separators gives the table back | value formatting (texts are given), encoding of the file, the value filters |
| `Qlog*` | log/qspice_log_reader.py | both regular expressions in the matcher of Regex.v, the line loops, the dictionary of columns | induction over measurements and rows with the invariant that columns hold the rows read so far | running QPOST, opening files |
| `Op*` | log/semi_dev_op_reader.py | the title and white-space regular expressions, the loop over lines with the devices of the current group, the nested dictionary | induction over kinds, groups, quantities and columns | opening the file and its encoding; conversion of a value to a number is an arbitrary function |
| `Ltlog*` | log/ltsteps.py (LTSpiceLogReader.__init__, both loops; HarmonicData, FourierData) | the regular expressions in the matcher of Regex.v, the line loop as a state machine (main loop, header of a table, table of harmonics), the dictionaries of steps, data and analyses; the second loop is the one of Log | invariant over the items of a log; greedy matching with going back to the last equal sign | opening the file and its encoding, measure_count, export of analyses; float(), int() and try_convert_value are arbitrary functions |
| `Exp*` | log/ltsteps.py (reformat_LTSpice_export, LTSpiceExport) | the regular expressions of the step lines in the matcher of Regex.v, both loops over the lines, the dictionaries of the current step and of the data | greedy matching with going back to the last blank; induction over runs and rows with the lookups of all columns as invariant | encodings, opening the files; try_convert_value is an arbitrary function |
| `Four*` | log/ltsteps.py (LTSpiceLogReader.export_data, FourierData) | the text of the Fourier file as a function of the log read by LtlogModel; nested loops as maps with exceptions | analyses grouped by step are all the analyses when they are ordered; the order is an invariant of the reader's loop | opening the file, its encoding; texts of values are arbitrary functions |
| `QNet*` | editor/qsch_editor.py (nets in _parse_qsch_stream, _find_net_at_position) | labels, wires, pins as lists read from the tags; the loop over the pins as a recursive function with the numbers of the next free nets | invariant of the loop: the nodes given to open places are distinct and beyond the numbers of the wires | the place of a pin (floating point sines) is an arbitrary function |
| `QLine*` | editor/qsch_editor.py (save_netlist, write_spice_to_file, decap) | the lines as a function of the components, their sub-circuit schematics (nested) and the texts | the file is cut into blocks; per block a relation in QLineSpec; definitions by induction with the set of those written | text of embedded libraries and library paths are arbitrary functions; encoding errors of the file |
| `Mrg*` | raw/raw_write.py (add_traces_from_raw, _rename_netlabel, _interpolate, _consolidate and the start of save) | the writer with its pending axis and imported traces, the sources with samples per step, the names of the source traces as state; exact rational samples | invariant over the history of calls: pending axis increasing and within the range of every merged axis; induction over the merge loop and the interpolation walk | float rounding; str.format; state after an exception; sources looked up by exact names; importing the axis itself with alignment |
| `QCmp*` | spicelib/editor/qsch_editor.py:353-375, 417-528, 1051-1066, 1167-1187 | The symbol tag of a component with its children as numbered objects in a store, the regular expression of parameters (ParModel) over its texts, set_parameters with the texts taken once at the start of a call, and the texts of QTagModel written and parsed back for a new parameter; the names in the directives of a schematic | An invariant over the keyword arguments of a call, relating the texts taken at the start to those of the symbol: they agree on every name not yet treated; the text after a change is again a parameter text with the expected settings (regular-expression lemmas of ParLine) | Integer keys in set_parameters (not reachable through keyword arguments); numbers as values (the text format_eng makes of them, C38) |
| `Asy*` | spicelib/editor/asy_reader.py (all of it but get_value, get_schematic_file), spicelib/scripts/asc_to_qsch.py convert_asc_to_qsch, qsch_editor.py 1324-1423 copy_from | The reader as a function on lines; to_qsch as a function from the read symbol and the arguments to a tag; the conversion as a function from the text of the schematic and a library (symbol name to file text) to the text of the QSPICE file, through the models of the LTspice editor (Asc) and of the QSPICE tags (QTag). | Induction on the items of the symbol file; each generated tag is proper, so that the file is read back by the theorem of QTag; the stock of symbols is described by an invariant (the first component with the symbol). | Encodings; searching the library in directories; saving hierarchical blocks; arcs on the sheet; floating-point quotients of arcs are taken as exact; the mapping of symbols in asc_to_qsch_data.xml other than the scaling. |
| `Pin*` | qsch_editor.py:838-856 (_find_pin_position) | PinModel: atan2, radians, round(v,-2) and the turned position over the real numbers | turned_coords: the coordinates before rounding by the addition formulas; round100_near; then case analysis on the orientation | floating-point rounding (real numbers instead) |
| `Cln*` | sim_runner.py:418-473, 646-778 (netlist of a run, cleanup_files, kill_all_spice, _maximum_stop_time); run_task.py:115-160 (log renamed to .fail, raw_file) | ClnModel: a disk as a function from paths to texts, tasks with netlist, end, log and raw file; histories of events | invariant over the histories (`goes`): every file not on the initial disk belongs to exactly one known task; the names of different runs are apart because their stems end in different run numbers | run_filename with folders in it, call-backs (cleaning happens after them), permission errors when deleting |
| `Srvf*` | sim_server.py:74-199; srv_sim_runner.py:33-161; run_task.py:115-190 (end of a task with the call-back) | SrvfModel: a server with a disk whose files are texts or archives, sessions, jobs in the runner, jobs collected; histories of requests, outputs, ends and collections | invariant over `reached` histories: names of run files determine stem, number and extension; a job's files hold what the history says its simulator wrote, its archive holds the delivery; frame lemmas for all other events | folders in names, XML-RPC faults and network, two requests at a time (SimpleXMLRPCServer serves one), exceptions while deleting |
| `Cpx*` | spicelib/log/logfile_data.py:22-101 (LTComplex, try_convert_value), 340-348 (magnitudes and phases as columns) | CpxModel: numerals with their values, the lazy pattern for complex values, complex numbers as pairs of real numbers, data sets as ordered lists of columns | numerals by the lemma for float(); the polar form by uniqueness of the angle in (-pi, pi]; columns by induction over the names, with the done and the remaining ones | inf, nan and underscores in numerals, floating-point rounding, bytes and lists as arguments |
| `Qst*` | spicelib/sim/tookit/quick_sensitivity_analysis.py:34-61; tolerance_deviations.py:171-227 with it; worst_case.py:198-214 | QstModel on TolModel and McModel: formulas as texts, recorded edits, batches; get_min_max on the collected logs of ColModel | induction over the components with the recorded edits and the number of elements so far; the meaning of a formula is an inductive relation on its text and the .func lines of the netlist; least and greatest by induction | units of values, failed measurements (texts instead of numbers), read_logfiles of a step-less log |
| `Ali*` | spicelib/raw/plot_data.py:51-59, 196-206, 545-584, 709-740 | AliModel: header lines with a dot, the five re.sub passes as scanners, a recursive-descent eval of the formula, get_trace of an alias | the passes are homomorphic on a syntax tree of formulas (relation Sub, copy lemmas); the evaluator by induction on the formula with a fuel bound; variables by injectivity of namify | keywords and soft names of Python, powers, comparison operators, infinities of numpy, casefold outside ASCII |
| `Csv*` | spicelib/sim/sim_stepping.py:90-136, 165-270 | CsvModel on StepperModel: current_values and sim_info as ordered dictionaries, runner.run as an oracle that may refuse, csv.DictWriter with QUOTE_NONNUMERIC | simulation of the recording loop by the loop of C06 with a ghost list of recorded dictionaries; the writer by a reader automaton, induction over fields and rows | values that are neither texts nor numbers, failing editors inside the loop, encodings of the file |
| `Crf*` | sim/sim_runner.py (create_raw_file_with) | the list of matching tasks with their RAW files, on the merging model (Mrg) | the loop as a list of merge calls; the theorem on aligned merges (C199); tagged names determine run and trace by the last underscore | the iterator over matching tasks (Runner/Op areas); writing the file (Raw area); header fields of the template other than the title |
| `Exe*` | sim/simulator.py (create_from, guess_process_name, is_available, get_default_library_paths, expand_and_check_local_dir) | the splitting automaton of shlex, paths as texts of parts, classes as a store, the file system as given predicates | command lines as an inductive relation, equivalent to the automaton; first occurrence of /drive_c/; tidy paths are fixed points | inheritance of class attributes; Windows; expandvars, expanduser, PureWindowsPath (given functions); macOS suffixes |
| `Dev*` | sim/tookit/tolerance_deviations.py (clear_simulation_data, read_logfiles, add_log), sim_analysis.py (run, add_log_data) | columns of numbers, complex numbers and texts; get_measure_value from LogModel | the collected columns are the concatenations of the logs' (induction over the logs), the run column then has exactly one match; adding logs keeps an invariant on the table | sharing of list objects (C158), how log files are read (C13, C166-C170) |
| `Fun*` | utils/float_unit.py (units, float_unit, to_float) | exact rationals; the units as an enumeration with their tables | shape lemma for format_eng (digits, then a scale factor or an exponent), parsing of that shape followed by any unit that is not mistaken for a scale factor; finite tables | nan, rounding of binary floating point (C37-C39), the ohm sign as one character |
| `Rac*` | sim/sim_runner.py (update_completed, run from the creation of the task), client_server/srv_sim_runner.py (the manager's loop) | transition system of any number of threads; a step is one access to a shared list, task or counter | inductive invariants over all schedules (places of every task; state of the one calling thread); witness schedules for the races | run_now, the limit of parallel simulations (C08), erasing of collected results (C246 ff.) |
| `Nod*` | editor/spice_subcircuit.py (get_all_nodes, get_line_command on components) | entries with their text and ports; the patterns of CompModel on the text | matching of well-formed statements (CompProofs) and an invariant of the list built so far; witnesses read by NetModel | inner nodes of sub-circuits (the code leaves them out) |
| `Sbi*` | editor/spice_subcircuit.py (add_instruction, remove_instruction, remove_Xinstruction, class_for_instruction, clone), editor/spice_subcircuit_instance.py (subcircuit, begin_update), editor/spice_editor.py (control sections) | list of entries of a definition, its clone for an instance, the netlist of an editor | splitting the list at the first equal text; induction on the list; witnesses | nested definitions inside clones; the characters of regular expressions (any predicate) |
| `Inf*` | sim/sim_runner.py (sim_info), sim/run_task.py (edits), editor/updates.py (item access, text of an edit) | dictionary made of the completed tasks of the runner of RunnerModel; the log of UpdatesModel as a list | invariant over every schedule linking tasks to the calls that made them; induction on the history of edits | callback results, times and exception texts of sim_info; slices of the log |
| `Clr*` | editor/primitives.py (clear_parameters, clear_parameter, clear_param) | operations on the attributes of CompModel, with None as its text | induction on the dictionary; witnesses saved and read by CompModel | clearing before the attributes were read |

Code with no model at all: the console scripts (`scripts/`), process creation and executable search of the simulators,
matplotlib and pandas output, `windows_short_names.py`, logging.

## Properties

| id | title | area | status | theorems | limits and remarks |
|---|---|---|---|---|---|
| C01 | The update log is a keyed map with last-write-wins | Updates | proved | `log_one_entry_per_key`, `log_last_write_wins`, `log_frame`, `log_order_of_first_recording` | Log as a keyed map, over every history of recordings. |
| C02 | Querying the log returns the last recorded value | Updates | proved | `value_returns_last`, `parameter_returns_last` | every history |
| C03 | A linear sweep enumerates exactly the grid between its ends | Sweep | proved | `sweep_is_the_grid`, `grid_is_unique` | Over exact rationals; float rounding of the increments is not modelled. |
| C04 | sweep_n yields the requested number of points including both ends | Sweep | proved | `sweep_n_points`, `sweep_log_n_points`, `sweep_n_degenerate` | Exact rationals; sweep_n with n < 2 and sweep_log_n stated separately. |
| C05 | A logarithmic sweep enumerates the geometric grid | Sweep | proved | `sweep_log_is_the_geometric_grid`, `sweep_log_equal_ends_is_empty` | Exact rationals; equal ends yield an empty sweep (separate theorem). |
| C06 | Stepped simulation runs every combination exactly once | Stepper | proved | `run_all_is_the_cartesian_product`, `combinations_are_all_choices`, `combinations_once`, `combination_applied` | all dimensions; sequences |
| C07 | The announced number of simulations is the number run | Stepper | proved | `total_equals_runs` |  |
| C08 | Never more than parallel_sims simulations at once | Runner | proved | `parallel_limit`, `parallel_bound`, `gate_opens` | Every schedule; simulations started by run(). wait_resource=False starts and run_now() are outside the limit by design; the general bound counts the forced ones. |
| C09 | Run numbers and run file names are never reused | Runner | proved | `numbers_increase`, `file_names_distinct` | Numbers for every history, including runs given up on timeout; file names for all circuit names with the same extension. |
| C10 | No simulation is lost and the counters add up | Runner | proved | `nothing_lost`, `completed_only_grows`, `counters_total`, `counters_exact` | every history and schedule |
| C11 | wait_completion reports failure exactly when something failed | Runner | proved | `wait_completion`, `true_is_right` | every history and schedule |
| C12 | Iterating a runner yields each successful result once, in completion order | Runner | proved | `yields_in_order`, `yields_all_at_the_end`, `each_task_once` | Every schedule without abandoned run_now(); at-most-once and order in every history. Failed simulations are skipped, as the property says (the class docstring says 'succeeded or not'). |
| C13 | The callback is called at most once and only when due | Task | proved | `callback_when_due`, `no_callback_unless_due`, `files_without_callback` | Decision logic of RunTask.run for all outcomes of simulator, file system and callback. |
| C14 | Waiting for a finished task terminates | Task | proved | `wait_results_returns`, `wait_results_waits`, `no_results_before_the_end` |  |
| C15 | Server sessions are isolated | Server | proved | `runs_belong_to_one_session`, `status_lists_own_runs`, `files_of_own_runs`, `requests_leave_others_alone`, `unknown_session_refused` | Every history of requests by any number of sessions and of completions. status() of an unknown session answers [] while nothing has finished and KeyError afterwards; both leave the server unchanged. |
| C16 | A result is delivered at most once | Server | proved | `delivered_at_most_once`, `delivered_not_reported`, `reported_until_delivered`, `available_until_delivered` | At most once, never reported afterwards, and reported and available until then. |
| C17 | Client iteration hands out every started job once | Server | proved | `documented_loop` | every interleaving with other clients |
| C18 | Writing a real RAW file and reading it back is lossless (point-interleaved) | Raw | proved | `normal_round_trip` | the format the library documents (first trace double) |
| C19 | Writing a RAW file in fast-access format and reading it back is lossless | Raw | proved | `fast_round_trip` | Real data, every layout of traces the writer produces with a double axis. |
| C20 | Complex RAW files survive a write/read round trip | Raw | proved | `complex_normal` |  |
| C21 | The textual RAW header round-trips | Raw | proved | `header_round_trip` | the title is the constant the writer puts |
| C22 | The waves of the steps partition the data | Steps | proved | `waves_partition`, `axis_waves`, `step_count`, `unstepped` | axis and all traces |
| C23 | Point look-up interpolates between the bracketing samples | Steps | proved | `get_position`, `outside_the_range`, `get_point_at`, `stored_abscissa` | Over exact rationals (no float rounding); any axis that starts at or below t and reaches t, sorted or not. Above the range get_position returns None. |
| C24 | Lazy loading order does not matter | Raw | proved | `order_does_not_matter` | all request histories |
| C25 | Step selection by parameter is exact | Steps | proved | `get_steps`, `no_steps` | Every table of steps and set of conditions; nothing assumed about value equality. Data without steps answer [0]. |
| C26 | Step selection in log data is exact | Log | proved | `steps_with_conditions`, `unknown_name`, `measure_found`, `measure_only_if_unique` | every data set, column and set of conditions |
| C27 | Measurement statistics are correct | Log | proved | `statistics` | exact rationals |
| C28 | Splitting a measurement line respects nesting and loses nothing | Log | proved | `split`, `unclosed_rejected` |  |
| C29 | Splitting a netlist text into statements loses nothing | Sep | proved | `nothing_lost`, `statements` | every text; every list of well-formed statements |
| C30 | Loading and saving an unmodified netlist preserves it | Net | proved | `statements_kept`, `canonical_identical`, `text` | Well-formed documents (NetSpec): comments, directives, components (CompSpec), control sections, sub-circuits nested to any depth, include statements with the contents of the file; from the lines and from the characters of the file. Include files are given by an environment. |
| C31 | Component edits are read back and change nothing else | Comp, Edit | proved | `statement_read`, `unedited_statement_kept`, `value_edit_saved`, `edit_saved`, `document`, `only_the_named_component` | Document level: any history of value/parameter edits by reference on a whole netlist (load, edits, read-back of every reference, save), the untouched components, and statement level for all component families. Hypothesis no_definition_named is needed: see C71. |
| C32 | Component collection operations behave like an ordered map | Cmd | proved | `history`, `remove_component`, `add_component` | History theorem over all component and instruction commands (edits, add before/after/at end, remove, add/remove instruction, remove by pattern): listing, lookup of every reference, errors for missing ones, saved text; plus what each component command does to the statements. |
| C33 | There is only one simulation command after adding one | Cmd | proved | `one_simulation`, `adding_twice` | After any history; placement of the command included. only_blanks: directives of the netlist hold no white space other than blank, tab, CR, LF. Where the line goes when there is .END followed by comments: C72. |
| C34 | Removing instructions removes exactly the requested ones | Cmd | proved | `remove_instruction`, `remove_matching`, `add_then_remove` | After any history; patterns are an arbitrary predicate on the text that matches no component statement (see C73 for components). |
| C35 | Netlist parameters behave like a case-insensitive map | Par | proved | `set`, `drop`, `history` | Full: every history of commands followed by every sequence of set_parameter calls, for all names; the limits in the quantifier are the refuted C76-C78. get_parameter's conversion of the text to a number (try_value) is not modelled. |
| C36 | Editing one sub-circuit instance does not affect the others | Inst | proved | `history`, `only_that_component`, `meaning` | C36_history: load, any sequence of value/parameter edits through paths such as X1:X2:R1, read back through the API and save; C36_only_that_component: what an edit changes; C36_meaning: the saved statements, elaborated as a simulator does (innermost enclosing definition), give at each path the edited component. Restrictions, as hypotheses: the edited components and instances are in the library's own layout; copied definitions hold no definitions, control sections or includes; for the meaning, no name of a possible copy is in use (C81 shows what happens otherwise). Names looked up in library files are an assumption about the environment (library_of). |
| C37 | A denied edit changes nothing | Cmd, Par | proved | `denied`, `denied_parameter` | Netlist editor: all commands incl. hierarchical references and control sections. An exception is the model's None; the checks come before any change in the code (see DESIGN.md). Sub-circuits: C75. |
| C38 | Engineering notation can be read back | Eng | proved | `print_then_read` | C38_print_then_read: for every rational v, the text of format_eng is consumed completely by parse_value/scan_eng and gives v within 5e-6 relative, exactly v if v has at most six significant digits. Model over exact rationals: binary floating-point rounding (and a rounded math.log next to powers of 1000) is not represented. |
| C39 | Letter case other than of M and F does not change a scaled value | Eng | proved | `letter_case` |  |
| C40 | Parameter text tokenisation keeps key/value pairs | PTok | proved | `parameters_read` | C40_parameters_read: any number of parameters, any blanks around '=' and between parameters, values made of plain, braced (not nested) and quoted pieces, comma lists; names distinct, not numbers, not the parser's reserved words (noiseless, verilog type names). Values are kept as text (float_unit prints as the text it was read from). |
| C41 | Test-bench batching covers every run exactly once | Tol | proved | `batches` | runs_per_sim >= 1; total number of runs is last_run_number + 2. |
| C42 | Worst case analysis visits every corner exactly once | Tol | proved | `every_corner`, `extremes` | Netlists as component/parameter/directive tables; exact rationals for floats; every run succeeds. From 12 elements on nothing is simulated. |
| C43 | Sensitivities add up to 100% | Tol | proved | `sensitivities` | Exact rationals for floats; data complete (one result per run). |
| C44 | Fast worst case search finds the extremes of a monotone measurement | Tol | proved | `fast_worst_case` | Measurement as a function of the netlist; every simulation succeeds; exact rationals. Strictly monotone measurement. |
| C45 | QSPICE schematic tags round-trip | QTag, QTagLayout | proved | `any_layout`, `text_round_trip`, `file_round_trip` | Trees of any nesting whose tokens are words or quoted texts, with labels; the file level covers header and newline translation; cp1252 is not modelled. Texts with ": " are C93. |
| C46 | QSPICE attribute access round-trips | QTag, QTagLayout | proved | `text_after_set`, `get_after_set`, `hexadecimal` | set_attr/get_attr on the token list; float attributes cannot be set (ValueError in the code). |
| C47 | Edits of a QSPICE schematic are saved | QEd | proved | `saved`, `value`, `instruction` | edits: component values, parameters, instructions added/removed, in any sequence, on a schematic whose tags can be written and read (QTagSpec.proper); texts without quote, CR and ": " (C93); a simulation command where there is one already (C95); moving components is C94 |
| C48 | Removing a component from a QSPICE schematic removes it from the netlist | QEd | partial | `removed_refuted` | false: the component stays in the editor's list and in the netlist; the saved file is right (C100) |
| C49 | QSPICE parameters are read back | QEd | proved | `parameters`, `set_succeeds` | directives with QSPICE's mark and well-formed .PARAM lines (ParSpec); else C96, C97 |
| C50 | LTspice schematics round-trip | Asc | proved | `round_trip`, `same_file`, `values` | for documents of wires, flags, symbols, upright texts and drawings with distinct references; what is lost else is C104 |
| C51 | Schematic edits: one simulation command, comments and drawings untouched | Asc | proved | `one_command`, `added_command`, `untouched` | removal of instructions is C105, C106 |
| C52 | File search returns the first match in container order | Find | proved | `first`, `none`, `top` | search_file_in_containers over an abstract file system; first container, none iff none, top folder first |
| C53 | Encoding detection returns the first encoding that decodes to the expected text | Enc | proved | `first` | the loop over the seven encodings; acceptable is stated through what open(...).read() gives |
| C54 | Segment contact test is exact (exact arithmetic) | Geo | proved | `touches`, `intercepts` | over the rationals |
| C55 | A runner with a timeout can run | Task | proved | `timeout_number` |  |
| C56 | Accepted callback arguments bind exactly the callback's parameters | Task | proved | `callback_args_bind_all`, `tuple_in_order`, `good_args_accepted` | dict and tuple arguments. |
| C57 | Closing a session discards its results | Server | proved | `close_discards_finished` |  |
| C58 | Stepped binary RAW files can be read with their log | Steps | proved | `binary_with_log` |  |
| C59 | Exporting stepped data concatenates the waves of the selected steps | Steps | proved | `export_all`, `export_selection`, `columns_aligned` | Columns of traces; the columns with step parameters are never added by the code and are not part of the claim. |
| C60 | Points are addressed within their step | Steps | proved | `point_of_step` |  |
| C61 | The step table of an LTspice log is read exactly | Steps | proved | `step_table` |  |
| C62 | The step and measurement tables of an LTspice log are read exactly | Log, Ltlog | proved | `log_tables`, `whole_log` | C62_log_tables: step section followed by measurement tables, in the model of Log; C62_whole_log: the same for the whole reader (Ltlog), with Fourier analyses and measurements without steps in between. |
| C63 | Text exports without steps can be read | Log | partial | `unstepped_export_refuted` | Refuted for every such file: KeyError at the first data line. |
| C64 | Spacing and nesting do not change parameter values | PTok | partial | `blank_before_comma_refuted`, `nested_braces_refuted` | Both halves are false of the code: "tc=1 ,2" reads as the text "1 2" instead of a list (C64_blank_before_comma_refuted); nested braces split the value (C64_nested_braces_refuted). |
| C65 | Removing component parameters is saved | Comp | partial | `last_parameter_stays_refuted` | Refuted: rewriting with an empty parameter section keeps the old text. |
| C66 | An edit replaces exactly the edited field whatever the spacing of the statement | Comp | partial | `tabs_corrupt_edit_refuted`, `comment_lost_refuted` | Refuted: tab-separated fields and comments of controlled sources. The true part (single blanks) is C31_edit_saved. |
| C67 | Every SPICE component statement is read as SPICE reads it | Comp | partial | `lower_case_refuted`, `two_expressions_refuted`, `model_taken_for_node_refuted` | Refuted by witnesses. |
| C68 | The logged duration of a run is the time it took | Task | proved | `duration_fields` | Durations are natural numbers of milliseconds (the code truncates a float). |
| C69 | The logged duration reads as decimal seconds | Task | partial | `decimal_fraction_refuted` | The field has four digits for a number below 1000: 1500 ms is written "01.0500 secs". |
| C70 | Every netlist that is loaded can be saved without losing statements | Net | partial | `not_kept_refuted`, `after_end_refuted` | False: see the witnesses (lower-case or indented components, .endl, unresolved include files). The full statement is C30 without its well-formedness hypotheses. |
| C71 | A component reference always denotes the component of that name | Edit | partial | `definition_hides_component_refuted` | Refuted: a .subckt definition of the same name standing earlier in the file hides the component from every reference operation. |
| C72 | Components and instructions are added before the end of the netlist | Cmd | partial | `added_after_the_end_refuted` | Refuted by witnesses: with comments after .END additions go after .END; in a two-line netlist add_component goes before the title. |
| C73 | Instructions are matched by the present text of the netlist | Cmd | partial | `matched_by_old_text_refuted` | Refuted: an edited component is matched by its original text. |
| C74 | Adding a component that exists replaces it | Cmd | partial | `not_replaced_refuted` | Refuted for all netlists: the old component stays. |
| C75 | No denied edit changes a sub-circuit | Cmd | partial | `subcircuit_instruction_refuted` | Refuted for every sub-circuit: SpiceCircuit.add_instruction asks for no permission. |
| C76 | A parameter of any name can be read and set | Par | partial | `first_name_not_seen_refuted` | Refuted: with PARAM_REGEX ".param err=1" is read as a setting of "param" with value "err". |
| C77 | The value of a parameter is all of it | Par | partial | `part_of_the_value_refuted` | Refuted by witnesses: x=2*y, z=y, q='2*y', and a setting in a comment. |
| C78 | Setting a parameter to None removes it and nothing else | Par | partial | `removes_more_refuted` | Refuted by witnesses: longer names and expressions are cut; None for a missing name adds "name=None". |
| C79 | Scaled numbers denote the number times the factor | Eng | proved | `scaled_numbers` | Full for the factors listed, exact rational arithmetic; M/m are the subject of C39. |
| C80 | A netlist without .END is refused | Net | proved | `end_required`, `statements` | C80_end_required is about arbitrary lines, C80_statements about statements with and without the last line. |
| C81 | Copies of definitions have names of their own | Inst | partial | `copies_kept_apart_refuted`, `same_name_refuted` | The property does not hold; the theorems give netlists. |
| C82 | Definitions are found as simulators find them | Inst | partial | `definition_found_refuted` | The property does not hold; the theorem gives netlists. |
| C83 | Edits inside instances are recorded under their full reference | Inst | proved | `recorded` | Same restrictions as C36_history. What a record does to the log (one entry per name and kind, last value) is C01. |
| C84 | The worst case test bench steps through every corner | Tol | proved | `test_bench` | No recorded edits and no .step directive in the netlist before; formula numbers written exactly (the code keeps six digits in min/max). |
| C85 | Deviations are taken around the nominal values of the analysis | Tol | partial | `nominal_values_refuted` | Refuted: with a recorded set_component_value, or in a second run_analysis, the corners go around another value than the nominal run. |
| C86 | A test bench prepares itself | Tol | partial | `unprepared_refuted` | Refuted for every set-up: the formulas of the components are recorded but not played, so all runs use nominal component values. |
| C87 | A measurement nothing influences has sensitivity 0 | Tol | partial | `insensitive_refuted` | Refuted: ZeroDivisionError for every such measurement. |
| C88 | A wrongly assumed direction is repaired | Tol | partial | `wrong_direction_refuted` | Refuted: for every measurement with a wrongly assumed direction the analysis ends in a TypeError (an iterator is called in line 242). |
| C89 | Quick sensitivity analysis varies one element at a time | Tol | proved | `one_at_a_time`, `percentages` |  |
| C90 | The number of runs per simulation is a limit | Tol | partial | `limit_refuted` | Refuted: the limit is raised to avoid a batch of one run (7 runs, limit 2: batches of 4). |
| C91 | The fast search ends in local extremes | Tol | proved | `local_extremes` |  |
| C92 | Deviating components and parameters are told apart | Tol | partial | `same_name_refuted` | Refuted by a witness. |
| C93 | Texts with a colon survive saving a QSPICE schematic | QTag | partial | `colon_in_text_refuted`, `two_colons_refuted` | Refuted for every schematic and text: once ": " the tag stops being a text tag, twice the file cannot be read. |
| C94 | Moving a component of a QSPICE schematic is saved | QEd | partial | `position_refuted` | false, universally: a move never marks the schematic as changed; an ERotation always fails |
| C95 | A simulation command added to a QSPICE schematic is saved | QEd | partial | `first_simulation_command_refuted` | false, universally, for schematics without a simulation command |
| C96 | Setting a parameter keeps the rest of the directive | QEd | partial | `no_mark_refuted` | false: witness |
| C97 | Parameters on every line of a QSPICE directive are found | QEd | partial | `later_lines_refuted` | false: witness |
| C98 | remove_instruction on a QSPICE schematic removes what was asked | QEd | partial | `substring_refuted` | false: witness |
| C99 | A QSPICE schematic keeps one simulation command | QEd | proved | `one_simulation_command` | the number of simulation commands |
| C100 | A component removed from a QSPICE schematic is gone from the saved file | QEd | proved | `removed_from_file` | the saved file after remove_component |
| C101 | Edits of an LTspice schematic survive saving | Asc | proved | `edits_saved`, `shown`, `value` | components inside sub-circuits are not modelled |
| C102 | Parameters of an LTspice schematic: the last setting wins | Asc | proved | `read`, `last_setting`, `set` | .param directives as in C35 |
| C103 | Parameters of LTspice schematic components | Asc, AscAttr | proved | `attribute`, `component_parameter` | for values that str(try_convert_value(v)) writes back unchanged. C103_attribute: every plain attribute set through set_component_parameters is what is read back afterwards and written in the file. |
| C104 | Every item of an ASC file is written back | Asc | partial | `items_lost_refuted` | false: witnesses |
| C105 | remove_instruction removes one directive | Asc | proved | `removed`, `exact` |  |
| C106 | remove_instruction removes only the requested instruction | Asc | partial | `other_instruction_refuted` | false: witnesses |
| C107 | Denied updates of schematic values | Asc | proved | `denied` |  |
| C108 | Denied updates of schematic components and instructions | Asc | partial | `denied_refuted` | false, universally: the denial is ignored |
| C109 | Schematic edits are recorded | Asc | proved | `recorded` |  |
| C110 | Moves and symbol changes are recorded | Asc | partial | `not_recorded_refuted` | false, universally: neither call is recorded |
| C111 | Saving never leaves a truncated schematic | Asc | partial | `truncated_refuted`, `never_saved_refuted` | false, universally for the rotations by 45 degrees |
| C112 | Removing component parameters of a schematic | Asc | partial | `component_parameters_refuted` | false: witnesses |
| C113 | Scaling a schematic | Asc | proved | `scaled` |  |
| C114 | Scaling a schematic with ports | Asc | partial | `ports_refuted` | false, universally: a label with a port is scaled twice |
| C115 | Contact test exact for horizontal and vertical wires, in floating point | Geo | proved | `straight` | SpecFloat binary64 arithmetic, horizontal and vertical lines; coordinates of any size |
| C116 | Crossing wires intercept | Geo | partial | `crossing_refuted` | refuted: only ends are tried: two wires crossing in their middles |
| C117 | The ends of a wire touch it, in floating point | Geo | partial | `rounding_refuted` | refuted: (0,0)-(49,1) does not touch its own end (49,1) in binary64 |
| C118 | Search in zip archives descends, is by case first, and skips what cannot be read | Find | partial | `zip_refuted` | refuted in its three parts: entries in folders of a zip are never found by plain name, an unreadable zip raises, the first of two names that differ in case wins |
| C119 | Files of the usual encodings are recognised and read exactly | Enc | proved | `utf8`, `utf16_bom`, `utf16le`, `cp1252` | decoders proved inverse to encoders written from the RFCs |
| C120 | Detection fails only with EncodingDetectError | Enc | partial | `index_refuted` | refuted: a one-character file raises IndexError |
| C121 | Windows-1252 files are read as Windows-1252 without a pattern | Enc | partial | `cp1252_refuted` | refuted: an even-length cp1252 text is taken as UTF-16-LE |
| C122 | A parameter that was both added and updated | Updates | partial | `parameter_mixed_refuted` | refuted: a parameter recorded under two kinds gives a stale value |
| C123 | Sweeps over one-shot iterables run every combination | Stepper | partial | `one_shot_iterables_refuted` | refuted: an inner one-shot iterable is exhausted after the first pass |
| C124 | The announced number of simulations with an empty sweep | Stepper | partial | `empty_sweep_refuted` | refuted: an empty sweep is announced as one simulation more or less than run |
| C125 | The counters are exact when run_now gives up waiting | Runner | partial | `join_timeout_refuted` | refuted: the give-up counts the run as failed although it returns 0 |
| C126 | wait_completion with a timeout reports failure exactly when something failed | Runner | partial | `timeout_argument_refuted` | refuted: False although all completed successfully |
| C127 | Waiting for a task with return code -1 | Task | partial | `return_code_refuted` | refuted: -1 (POSIX: killed by signal 1) waits for ever |
| C128 | Client iteration outside the documented loop | Server | partial | `next_before_download_refuted`, `crashed_run_refuted`, `refused_run_never_stops_refuted` | refuted in three ways |
| C129 | A data set whose first trace is single precision can be read back | Raw | partial | `single_precision_first_trace_refuted` | refuted by a witness |
| C130 | Complex RAW files survive the fast-access layout | Raw | partial | `complex_fast_refuted` | refuted: the header says fastaccess but the data are interleaved |
| C131 | Non-ASCII header text in UTF-8 | Raw | partial | `utf8_text_refuted` | refuted |
| C132 | get_len of a trace is the length of its wave | Steps | partial | `trace_get_len_refuted`, `first_step_partial` | right for the first step, refuted from the second on |
| C133 | The axis remains available | Raw | partial | `axis_available_partial`, `axis_reread_refuted` | proved for requests that do not name it again, refuted for those that do and before the first request |
| C134 | Without conditions all steps are selected | Log | partial | `no_conditions_refuted` | refuted: the answer is None |
| C135 | Statistics of a single step and of any name | Log | partial | `single_step_refuted`, `capitals_refuted` | refuted: TypeError, and capitals are not found |
| C136 | Stray brackets in a measurement line | Log | partial | `stray_brackets_refuted` | refuted by witnesses |
| C137 | Continuation lines and brackets as simulators take them | Sep | partial | `continuation_glued_refuted`, `stray_bracket_refuted` | refuted: continuation lines are glued without a blank; a stray bracket joins all later lines |
| C138 | Suffix case never changes a scaled value | Eng | partial | `mega_milli_refuted` | refuted: 2meg reads as 0.002, 1F as 1, 1e3E raises |
| C139 | A runner without timeout can run | Task | partial | `timeout_none_refuted` | refuted: timeout=None raises TypeError in run() |
| C140 | Closing a session discards the results of running simulations | Server | partial | `late_result_stays_refuted` | refuted: a run that finishes later stays for ever |
| C141 | Stepped RAW files can be read without their log, and in text format | Steps | partial | `without_log_refuted`, `text_format_refuted` | refuted for all such data: loading always raises |
| C142 | Points past the end of a step are refused | Steps | partial | `past_the_end_refuted` | refuted: the sample of the next step is returned |
| C143 | A step line that ends the file is read exactly | Steps | partial | `last_line_refuted` | refuted: the last character is lost |
| C144 | Simulator switches | Sim | proved | `documented`, `spelling`, `words`, `unknown` | The tables of switches are those of the code; documented lists the doc strings. -big, -max, -norm, -PCBnetlist, -ascii of Qspice are accepted but not documented. |
| C145 | Every documented switch works | Sim | partial | `documented_refuted` | Refuted for eight switches: -normal and -PCBnetlistBatch (LTspice), -local_variation (Xyce) raise; -nox, -linsolv, -o (Xyce) are dropped; -ini is written "- ini"; ngbehavior cannot be defined (ngspice). |
| C146 | Command line of a run | Sim | proved | `command`, `files` | Qspice makes the netlist path absolute first; the file theorem asks that the path given is absolute already. LTspice takes the log and raw names from the netlist itself. |
| C147 | Runs have files of their own | Sim | proved | `own_files` | Netlist names have a stem and an extension of at least one character, or no dot at all. |
| C148 | Switches of a run | Sim | proved | `switches` | Switches are added before the run starts; a started task shares the runner's list object. |
| C149 | Switches without parameter, and runs without switches | Sim | partial | `empty_refuted` | The default parameter '' is an empty argument; an empty list means the runner's switches. |
| C150 | Monte Carlo: the netlists simulated | Mc | proved | `random_netlists` | Numbers are exact rationals (binary64 rounding of the products is left out); what the random generators return is a parameter of the model (in [0,1] for uniform draws), so no statement about frequencies is made. A failing simulator run, timeouts and callbacks are in the Runner area. |
| C151 | Monte Carlo: the text of a number drawn | Mc | proved | `text_of_number` | The text is read back with scan_eng as modelled for C38; the simulator's own number reader is outside the model. |
| C152 | Monte Carlo test bench | Mc | proved | `test_bench` | The meaning of the .func definitions in the simulators (mc, flat, gauss, random) is part of the specification and trusted. Nominal values and formula numbers with at most six digits, tolerances from 0.0001 to 1; analyses without recorded edits (prepare_testbench reads the values before they are played, cf. C85). Values are written without their unit. |
| C153 | Monte Carlo test bench: every distribution | Mc | partial | `formulas_refuted` | Refuted by witnesses: a normal min/max deviation of a component uses nrng without defining it; for parameters nrng multiplies the deviation with the mean again; the Qspice urng text lacks a closing parenthesis; a tolerance of 10 is written as 1. |
| C154 | Monte Carlo test bench without preparation | Mc | partial | `unprepared_refuted` | Refuted for all setups: the component values of every netlist simulated are nominal (the formulas are recorded after the recorded edits were played). |
| C155 | Collecting logs keeps every value in order | Col | proved | `collected` | The heap of list objects is modelled (addresses), since add_log_data stores references; logs read from different files share no lists (separate). |
| C156 | Rows of collected logs are rows of one simulation | Col | proved | `rows` | Corollary for logs of the same shape; without it see C157. |
| C157 | A measurement missing in one log does not shift the others | Col | partial | `missing_measure_refuted` | Refuted by a witness: three logs, the second without the measurement. |
| C158 | Collecting leaves the logs given unchanged | Col | partial | `first_log_changed_refuted` | Refuted for every two logs with a common step variable: the first log's own list of step values is extended. |
| C159 | The exported data file is the table | Col | proved | `export`, `rectangular` | Split at line feeds and separators the file is the table of ColSpec; the table is rectangular. |
| C160 | The export honours its line terminator and refuses unequal columns | Col | partial | `export_refuted` | Refuted: the line_terminator argument is unused for all inputs; a longer column is cut silently; a shorter one raises after part of the file was written. |
| C161 | Steps of a Qspice log | Qlog | proved | `steps`, `order` | Lines that mention "steps:" in another form are excluded (QlogSpec.qline_ok); values pass through an arbitrary conversion. |
| C162 | Measurements of a Qspice .meas file | Qlog | proved | `measures` | Column titles of different measurements must differ (else C166) and no blank lines (C164); rows are the pieces of C28, all of the same width. |
| C163 | Types of measurements in any letter case | Qlog | partial | `upper_case_refuted` | Refuted for all names: the type is taken for the name; with two such measurements the first is lost (Example). |
| C164 | Blank lines in a .meas file are ignored | Qlog | partial | `blank_line_refuted` | Refuted for all files: IndexError. |
| C165 | Steps can be given by the caller | Qlog | partial | `step_set_refuted` | Refuted for all step sets and logs: AssertionError, since the count starts at the number of variables given. |
| C166 | Measurements do not overwrite each other | Qlog | partial | `overwritten_refuted` | Refuted by two witnesses: v_1 replaces the second column of v; "step" is that of the last measurement only. |
| C167 | Operating points of semiconductor devices are read completely | Op | proved | `operating_points`, `value` | For every layout of kinds, groups, devices and quantities described in OpSpec: distinct titles (in lower case), distinct devices in a kind, distinct quantities in a group, and a value for each device. |
| C168 | A log without operating points gives an empty dictionary | Op | proved | `none` | For every log without the heading. |
| C169 | No value of an operating point is lost silently | Op | partial | `dropped_refuted` | Refuted: a line with a blank at its end, or with a value missing, leaves the dictionary as it was, for every name, row and state. |
| C170 | Devices of a kind whose title occurs again are kept | Op | partial | `repeated_title_refuted` | Refuted: the title line empties the entry of an equal title, for every state. |
| C171 | Measurements of a simulation without steps are read | Ltlog | proved | `measures` | For every log of measurement lines (distinct titles in lower case), analyses and other lines; names of letters, digits and "_" not beginning with "Harmonic" (see C175). |
| C172 | Fourier analyses are read completely and attributed to their step | Ltlog | proved | `analyses` | For every log described in LtlogSpec, with and without steps; float() and int() are arbitrary functions defined on the texts of the log. |
| C173 | A measurement file is read with the steps of another log | Ltlog | partial | `mout`, `count_refuted` | The steps and tables are proved for every step set without empty columns; the number of steps is refuted: it is the number of step variables, for every step set of one variable. |
| C174 | Only measurements are in the data of a log | Ltlog | partial | `circuit_refuted` | Refuted: the line with the name of the circuit becomes a measurement for every path with an equal sign followed by a value. |
| C175 | Measurements can have any name | Ltlog | partial | `harmonic_refuted` | Refuted: the measurement and the next line are lost, for all lines. |
| C176 | Measurements are skipped when asked for | Ltlog | partial | `not_read`, `unstepped_refuted` | Proved for logs whose measurements are in tables (stepped simulations); refuted for logs without steps: the result is the same as with read_measures=True. |
| C177 | Waveforms exported with steps become one table | Exp | proved | `table` | For both spellings of the step line; runs with the same parameter names in the same order; the texts of rows are arbitrary (not starting with "Step Information:"). |
| C178 | Rows keep their own run whatever the parameter values | Exp | partial | `own_run_refuted` | Universal counterexample: for any character outside the class of the expression (and without parenthesis) the rows of the second run appear under the number and values of the first; C178_nonvacuous shows the file with "Temp=85°C". |
| C179 | Exported waveforms are read with their steps | Exp | proved | `columns` | try_convert_value is an arbitrary function. |
| C180 | The last column of exported waveforms can be looked up | Exp | partial | `last_column_refuted` | Universal: for every file of C179 whose header line ends with a line feed. |
| C181 | Both spellings of the step line are read | Exp | partial | `step_word_refuted` | Universal: the first row of data raises KeyError, because the lists of the columns are only created by a recognised step line. |
| C182 | Fourier analyses are exported once each | Four | proved | `summary`, `order` | C182_summary for logs whose analyses are in the order of the steps, C182_order shows that every log that is read is like that, apart from analyses before the first step line (C186). Texts of numbers are arbitrary functions. |
| C183 | Every harmonic of a stepped log is exported | Four | proved | `harmonics` | As the code does, all periods appear as -1 in this table and as "all" in the first one. |
| C184 | Header and rows of the harmonics table line up | Four | partial | `header_refuted` | Universal: nine titles (the first empty), eight fields. |
| C185 | The number of periods is exported as it is | Four | partial | `periods_refuted` |  |
| C186 | No analysis is left out of the export | Four | partial | `before_first_step_refuted` | Universal: both tables have no rows. |
| C187 | Pins drawn together are connected in the QSPICE netlist | QNet | proved | `nodes` | The places of the pins are given by an arbitrary function (the code computes them with floating point sines). |
| C188 | Open pins stay apart | QNet | proved | `open_pins_stay_apart` | Names that begin with the yen sign aside. |
| C189 | Open pins do not take the name of a label | QNet | partial | `label_without_wire_refuted` | A label N01 with no wire: an open pin elsewhere gets the same node. |
| C190 | Every enabled component is written to the QSPICE netlist | QLine | proved | `component_lines` | For Verilog modules and components without pins only what C191 says. The text of an embedded library is an arbitrary function. |
| C191 | Names in the QSPICE netlist are distinct | QLine | proved | `names` | Every line of a component begins with its name; references hold no acute sign. |
| C192 | Directives reach the QSPICE netlist, comments do not | QLine | proved | `texts`, `editor` | For the schematic whose netlist is written; the texts of sub-circuit schematics the same, by C194 (write_sheet). |
| C193 | Each library once | QLine | proved | `libraries` | The path written for a library is an arbitrary function. |
| C194 | Each sub-circuit is defined once | QLine | proved | `subcircuits` | Universal over nesting: the lines of the schematic are those write_spice_to_file writes for it (write_sheet, without Verilog modules). |
| C195 | Edits in any instance reach the netlist | QLine | partial | `second_instance_refuted` | Universal: whatever the schematic of the later instance is, the lines are the same. C190_nonvacuous shows a case. |
| C196 | Values in brackets are written without them | QLine | proved | `brackets` | Values without line breaks. |
| C197 | Several values in brackets | QLine | partial | `two_brackets_refuted` | "W=<5u> L=<2u>" becomes "W=5u> L=<2u". |
| C198 | Adding the traces of a RAW file with the same axis | Mrg | proved | `same_axis`, `first` | Exact samples; a first import into an empty writer is the second theorem. |
| C199 | Merging RAW files with alignment resamples every trace correctly | Mrg | proved | `aligned` | For any number of merges, by an invariant on the pending axis (increasing, inside the range of every axis merged). Existing traces only when the number of points changed (C200). Exact rational arithmetic instead of float32/64; step 0 (C203); the same trace not twice (C207). |
| C200 | Traces already in the writer follow the merged axis | Mrg | partial | `same_length_refuted` | Refuted: witness where five points become five other points. |
| C201 | The merged axis reaches the end of both axes | Mrg | partial | `last_point_refuted` | Refuted for every axis: identical axes of n points give n-1. |
| C202 | The merged axis | Mrg | proved | `merged_axis` | One merge (histories: C199). The end of the axes is excluded by the statement (C201). |
| C203 | The step keyword of an aligned merge | Mrg | partial | `step_refuted` | Refuted by a witness. |
| C204 | Merging leaves the file read from alone | Mrg | partial | `source_renamed_refuted` | Refuted for every aligned merge with a renaming. |
| C205 | Files with another axis are not merged silently | Mrg | partial | `other_axis_refuted` | Refuted: acceptance proved for every axis of the same length. |
| C206 | Renamed traces keep their V() or I() | Mrg | proved | `tag`, `format` | The format function is arbitrary. |
| C207 | The same trace added twice under two tags | Mrg | partial | `twice_refuted` | Refuted by a witness. |
| C208 | Only files of the same kind are merged | Mrg | proved | `other_kind` | The number type is the first of the flags real/complex, as stated in MrgSpec. |
| C209 | Renaming keeps names apart | Mrg | partial | `rest_refuted` | Refuted for every pair of names V(a)... |
| C210 | QSPICE component parameters follow the calls | QCmp | proved | `component_parameters`, `denied`, `recorded`, `new_text` | For symbols whose texts stand before the pins (as QSPICE writes them), whose parameter texts are settings name=value or single words without settings, and values without quotes. The integer keys of the doc string cannot be used through keyword arguments. |
| C211 | A QSPICE component parameter that was set is the one read | QCmp | partial | `set_and_get_twice_refuted` | The name in two texts: the first is changed, the last is read. |
| C212 | QSPICE component parameter names ignore case | QCmp | partial | `case_refuted` | The name in another case is added as a second parameter. |
| C213 | A QSPICE component parameter that was set is listed | QCmp | partial | `in_the_value_refuted` | A setting inside the value text is changed there; get_parameters does not read the value text. |
| C214 | QSPICE component texts by number | QCmp | proved | `texts_by_number` | Same symbols as C210. |
| C215 | Names of the parameters of a QSPICE schematic | QCmp | proved | `parameter_names` | Directives as in C49. |
| C216 | A symbol file is read completely | Asy | proved | `symbol_read` | read_asy of the text of any sym_ok file; attributes through dget, everything else through Forall2 or equality with the items in order. |
| C217 | Pin attributes may contain blanks | Asy | partial | `pin_attribute_with_blank_refuted` | Universal in name and value. |
| C218 | A converted symbol shows everything the symbol shows | Asy | proved | `symbol_converted` | symbol_drawn (AsySpec) says where each item is; symbols with arcs are not convertible in the sense of the theorem (C226). |
| C219 | On the grid the conversion is exact | Asy | proved | `on_the_grid` | truncated and nearest are the two roundings used by the code. |
| C220 | Lines that end at a pin still do | Asy | partial | `lines_and_pins_part_refuted` | Witness: a pin and a line end at (6,0). |
| C221 | A converted schematic contains everything | Asy | proved | `converted`, `reopened` | Arcs on the sheet are not modelled; the library is any function from symbol names to symbol files. |
| C222 | Several components with one symbol survive the conversion | Asy | partial | `second_component_lost_refuted` | Universal: for any two components with the same symbol the later one is not among the components of the opened file. |
| C223 | Symbols with many texts can be converted | Asy | partial | `more_texts_refuted` | Universal. |
| C224 | Comments remain comments | Asy | partial | `comments_refuted` | Universal for the flag of the text; a witness for the netlist. |
| C225 | Wires keep their nets apart | Asy | partial | `all_wires_are_ground_refuted` | Universal, with C187's description of the nets; a concrete netlist is in C225_nonvacuous. |
| C226 | Arcs are drawn where they were | Asy | partial | `arcs_refuted` | Universal in radius and centre. |
| C227 | A missing symbol does not spoil the file | Asy | partial | `symbol_not_found_refuted` | Witness: the schematic rc with an empty library. |
| C228 | Blocks can be converted | Asy | partial | `no_prefix_refuted` | Universal. |
| C229 | Kind, model and library of a symbol | Asy | proved | `kind_of_symbol` | first_with is the specification of 'the first that is present'. |
| C230 | Pins of turned QSPICE components are at the exact place | Pin | proved | `grid_pins` | Trigonometry over the reals of the standard library: atan2, square root and the factor 1.414 come to the whole-number turn; bounded by 100000 because 1.414 is not the square root of 2. Floating-point rounding is not modelled: it matters only next to the middle between two multiples of 100, where no grid pin is. |
| C231 | Pins off the grid keep their own place (refuted) | Pin | partial | `off_grid_refuted` | Universal counter-example: every pin within 50 of the origin collapses onto the component. |
| C232 | With pins on the grid the nodes are those of the exact places | Pin | proved | `exact_nodes` | Combined with C187 this gives the connectivity of the schematic. |
| C233 | Converting an LTspice schematic keeps every pin where it was | Pin | proved | `converted_pins` | With C219 (the converted coordinates of grid points are exact and injective). LTspice's own turns are specified in PinSpec (lt_turns), checked by hand against the example schematics of the repository. |
| C234 | cleanup_files puts the disk back as it was before the runs | Cln | proved | `cleanup` | Over event histories (run, output of a simulator, end, collection, cleanup). The hypotheses name exactly the cases refuted in C235-C238. |
| C235 | cleanup_files deletes the waveforms of failed runs too | Cln | partial | `failed_run_refuted` | For every circuit name, simulator, folder and return code the waveform is still there after cleanup_files: raw_file is None for a failed task. |
| C236 | cleanup_files deletes LTspice's side files whatever the extension of the netlist | Cln | partial | `other_netlists_refuted` | For .cir, .sp and .ckt none of the three side files is deleted. |
| C237 | cleanup_files deletes the netlist of a run that found no free slot | Cln | partial | `no_place_refuted` | For every circuit: the netlist was written before the wait, and no task is recorded that could be cleaned. |
| C238 | cleanup_files does not delete a file that was there before the runs | Cln | partial | `named_run_refuted` | Without an output folder a run_filename equal to the user's file overwrites it, and cleanup deletes it, for all names. |
| C239 | Aborting kills the simulators that are running | Cln | partial | `nothing_killed_refuted` | The process name looked for is the class attribute of the abstract Simulator, which is empty; no process whose name is not empty is killed. |
| C240 | wait_completion without a limit waits for the last time limit of the running tasks | Cln | proved | `last_limit` | Times are rational numbers. |
| C241 | A client gets exactly what the simulator of its run wrote | Srvf | proved | `delivered`, `available` | Invariant over all histories (`reached`); what was written and the return code are read off the history, not off the server's state. |
| C242 | A run is delivered once and its files are then deleted | Srvf | proved | `once_and_gone` | The side files LTspice writes besides are C244. |
| C243 | The netlist of a run is the one its client sent | Srvf | proved | `own_netlist` | The excluded names are C247. |
| C244 | The server leaves its folder as it was | Srvf | partial | `leftovers_refuted` | Counterexample for all texts: after fetch, close and stop the .op.raw of the run and the circuit sent are still there. |
| C245 | Stopping the server deletes the files of runs nobody fetched | Srvf | partial | `stop_refuted` | For all texts: the manager has moved the run to its own list, which is never cleaned; netlist, log, waveform and archive all stay. |
| C246 | A run sees the sources its client sent | Srvf | partial | `shared_sources_refuted` | Two clients sending a file of the same name: the second one's text is on disk while the first one's run goes on. |
| C247 | No client can change the netlist of another client's run | Srvf | partial | `overwritten_refuted` | A client running a circuit named amp_1.net replaces the netlist of run 1 of another client's amp.net. |
| C248 | A value in decibels and degrees is read with that gain and that phase | Cpx | proved | `db_and_degrees` | Over the real numbers; the degree sign is U+00B0; phases are read in (-180,180], the range of ph. |
| C249 | A value with magnitude and degrees, or with real and imaginary part, is read as such | Cpx | proved | `other_forms` | Over the real numbers. |
| C250 | Texts of logs become whole numbers, numbers and words | Cpx | proved | `whole_numbers`, `numerals`, `words` | C250_whole_numbers, C250_numerals, C250_words.  A numeral with neither point nor exponent is a whole number. |
| C251 | Splitting complex values adds magnitudes and phases and keeps the rest | Cpx | proved | `columns` | Hypothesis: no column is named as one of the new columns (otherwise C252). |
| C252 | Splitting complex values loses no measurement | Cpx | partial | `replaced_refuted` | A measurement named k_mag beside a complex measurement k is replaced by the magnitudes of k, for all k, values and columns. |
| C253 | Complex values can be split when a measurement failed in some step | Cpx | partial | `failed_refuted` | One text (FAILED) anywhere after a first complex value makes the call raise AttributeError ('str' has no mag). |
| C254 | A text that is no complex value is kept as text | Cpx | partial | `trailing_refuted` | LTComplex uses match, not fullmatch: whatever follows ")" is ignored. |
| C255 | The quick sensitivity test bench varies one element at a time | Qst | proved | `one_at_a_time` | The functions satol and sammx are given the meaning of the simulators' if() and ==; numbers as format_eng and %g write them; the recorded list of edits is empty (see C257). |
| C256 | The quick sensitivity test bench analyses the deviations of parameters | Qst | partial | `parameters_refuted` | For every set-up analysis all parameters but "run" keep their values in all netlists, and only components are elements. |
| C257 | A quick sensitivity test bench that was not prepared is prepared when run | Qst | partial | `unprepared_refuted` | The formulas are recorded after the recorded edits were played, so all components keep their values in all netlists. |
| C258 | The extremes of a worst case analysis are the least and the greatest value of all runs | Qst | proved | `extremes` | Values are rationals; the logs are collected as in C155. |
| C259 | A failed simulation does not hide the extremes of the others | Qst | partial | `failed_refuted` | Any log missing makes the call return None (with a warning), although the values of the others are collected. |
| C260 | Alias traces have the value of their formula | Ali | proved | `alias_value` | for all formulas (any size) written with the usual precedence over names of letters, digits and "_" without a digit followed by a unit, all headers with distinct parameters and aliases and all files whose traces are X(name), time/frequency, or have a character no formula has; equality of the rational values at a point; casefold is lower; division by zero leaves the value undefined. |
| C261 | A formula with blanks does not make the file unreadable | Ali | partial | `blank_refuted` | refuted: for every header with an alias line with a blank in the formula reading fails, also for ordinary traces. |
| C262 | Units are removed from numbers only | Ali | partial | `unit_name_refuted` | refuted: V(1ohm,1) of the nodes 1ohm (5 V) and 1 (2 V) is 0 instead of 3, silently. |
| C263 | Aliases over all traces of the file | Ali | partial | `node_name_refuted` | refuted: for all values, a formula with V(x1:a,b) raises; the positive statement for plain names is C260. |
| C264 | All listed traces can be read | Ali | partial | `types_refuted` | refuted: for every header and formula an alias that does not begin with I( or V( raises; Freq and Omega of the repository's own QSPICE AC files are examples. |
| C265 | Aliases do not depend on unrelated parameters or their names | Ali | partial | `parameters_refuted` | refuted: for every header one parameter whose value is no number makes every alias raise; a parameter named lambda (a Python keyword) cannot be used in formulas. |
| C266 | The stepping table has the values of every simulation | Csv | proved | `table_of_a_session` | run_all with its recording (composed with the proof of C06) and csv.DictWriter are modelled; the reader is an RFC 4180 reader in the specification. |
| C267 | The stepping table can be read back exactly | Csv | proved | `table_of_recorded_runs` | The CSV writer of Python with QUOTE_NONNUMERIC, any texts. |
| C268 | Values set later do not break the stepping table | Csv | partial | `names_set_later_refuted` | Refuted universally: a name that a later simulation has and the first has not gives ValueError with part of the file written. |
| C269 | A parameter and a component of one name have columns of their own | Csv | partial | `same_name_refuted` | Refuted: both are recorded under the same key. |
| C270 | A stepped simulation without accepted runs exports an empty table | Csv | partial | `no_simulation_refuted` | Refuted for every such session: rows[0] raises IndexError. |
| C271 | Parameters can have any name in the stepping table | Csv | partial | `parameter_runno_refuted` | Refuted: the values of the run are put over the run number. |
| C272 | One file out of all runs | Crf | proved | `all_runs` | Exact rational samples. The case of a common axis that happens to have as many points as the first run's is the known gap C200. |
| C273 | Traces of different runs have different names | Crf | proved | `distinct_names` | The names that lose characters when tagged are those of C209. |
| C274 | No matching run gives False | Crf | partial | `no_run_refuted` | Refuted: `next` of the exhausted iterator raises StopIteration. |
| C275 | A run without RAW file does not keep the others out | Crf | partial | `first_missing_refuted` | Refuted: if the first matching run has none, nothing is made, whatever the others have. |
| C276 | All steps of stepped runs are included | Crf | partial | `steps_refuted` | Refuted: what is made is the same for all runs that agree in their first step. |
| C277 | Runs on one axis keep their points | Crf | partial | `last_points_refuted` | Refuted: each run after the first takes one point off the end of the axis. |
| C278 | A simulator command is read as a shell reads it | Exe | proved | `words` | The first word is taken in a tidy form (no empty parts and parts "."); both directions of the splitting are proved. |
| C279 | A path is one word | Exe | proved | `one_path` | PureWindowsPath is a given function. |
| C280 | Two simulators made from one class are independent | Exe | partial | `second_refuted` | Refuted: create_from sets the attributes of the class it is called on and returns that class. |
| C281 | The file that was found is the file that is run | Exe | partial | `working_directory_refuted` | Refuted: the text goes through Path, which drops "./": the word left has no slash and is searched on the PATH when it is run. |
| C282 | A simulator that was made is available | Exe | proved | `available` |  |
| C283 | Library directories under wine are on the wine drive | Exe | proved | `library_directory` | expandvars and expanduser are given functions. |
| C284 | The default library paths are the existing directories, in order | Exe | proved | `library_paths` |  |
| C285 | The process name is the given one or the file name of the program | Exe | proved | `process` |  |
| C286 | Results of an analysis are found by run number | Dev | proved | `by_run_number` | Every log read has one value of runm (all real or all complex, within 1/2 of an integer) and names in lower case, as the readers write them. |
| C287 | Results of an analysis without run numbers are numbered in order | Dev | proved | `by_order` | Every log has the same measurements, one value each. |
| C288 | A failed simulation does not shift the numbers of the others | Dev | partial | `failed_run_refuted` | Universally: under the number of the failed simulation stands the value of the next one. |
| C289 | The step count of the results is the number of runs | Dev | partial | `step_count_refuted`, `stepped_logs` | len(stepset), the number of step variables, is assigned to step_count. C289_stepped_logs: for logs with steps of their own the count and the columns are all there. |
| C290 | Reading the results covers all simulations run | Dev | partial | `later_runs_refuted` | Universally, for every state in which the results were read once and not cleared since. |
| C291 | Logs added one by one go on counting | Dev | proved | `further_runs`, `failed` | Same logs as C287, none with a measurement named run. |
| C292 | A quantity made of a text prints as that text | Fun | proved | `printed_text`, `printed_number` |  |
| C293 | A printed quantity reads back with its unit | Fun | proved | `unit_read_back` | The ohm sign is written "ohm" in the model, on both sides. |
| C294 | The other units survive printing and reading too | Fun | partial | `unit_lost_refuted`, `number_changed_refuted` | Universal counter-examples: r.m.s. units and degrees for all numbers, kelvin, per cent, ppm and radians for all numbers between 1 and 1000. |
| C295 | A unit can be set by symbol or by name | Fun | proved | `unit_by_name` |  |
| C296 | Readings in amperes r.m.s. are printed as amperes | Fun | partial | `rms_names_refuted` | Universal: ARMS and VRMS print alike for every number. |
| C297 | Arithmetic keeps the unit | Fun | partial | `units_ignored_refuted` | The numbers are proved right; the unit of every result is missing (universal). |
| C298 | A quantity equals a text exactly if the text is the same number | Fun | proved | `equal_to_text` |  |
| C299 | No simulation is lost or handled twice, however many threads use a runner | Rac | proved | `none_lost`, `none_lost_at_rest` | Every schedule at the granularity of single list accesses; run_now is not among the calls. |
| C300 | One thread may use a runner while simulations end at any moment | Rac | proved | `one_thread` | Every schedule; justifies the atomic update_completed of the other runner models. |
| C301 | An update moves every simulation that has ended | Rac | proved | `pass_complete` | Every schedule. |
| C302 | The server reports a simulation as finished only when it has ended | Rac | partial | `running_reported_refuted`, `wrong_task_refuted` | Two schedules: the manager updates while a client call is between append and start; two updates at once. |
| C303 | The manager thread of the server survives client calls | Rac | partial | `manager_dies_refuted` | A schedule that ends the manager, and from there universally: nothing is ever collected again. |
| C304 | The counters are right when several threads update | Rac | partial | `counters_refuted` | One simulation counted twice; two simulations counted once. |
| C305 | The list of nodes has every node of every statement once | Nod | proved | `nodes_of_statements`, `list_determined` | The nodes are those of the statements as CompSpec lays them out; definitions of sub-circuits contribute none. |
| C306 | The list of nodes has no duplicates and only grows with the netlist | Nod | proved | `list_grows` | For all entries, with no assumption on their texts. |
| C307 | The nodes of every component read are listed | Nod | partial | `every_component_counts_refuted` | R1 a b {x+ / + y} parses, but b is not listed. |
| C308 | A node has one entry in the list whatever its letter case | Nod | partial | `one_entry_per_node_refuted` | OUT and out are both listed. |
| C309 | The list of nodes follows the ports of the components | Nod | partial | `ports_followed_refuted` | Ports set make no difference; a component without a text raises an error. |
| C310 | An instruction added to a sub-circuit definition can be found and taken out | Sbi | proved | `added_and_removed`, `removal` | For texts the command lookup accepts (EditModel.line_command); an instruction that becomes a plain text cannot be removed by remove_instruction, so removal is claimed for directives and components. C310_removal: first equal line in any list of lines, nothing if absent or denied. |
| C311 | Removal by pattern takes exactly the matching lines of a sub-circuit | Sbi | proved | `matching_removed` | The pattern is any decidable set of texts (regular expression matching is not restated). |
| C312 | A control section that was added is listed and saved | Sbi | partial | `control_section_added_refuted` | Refuted for every control section accepted: ControlEditor is made without the named argument obj, so that its text is None. |
| C313 | An instruction added to the sub-circuit of an instance is saved | Sbi | partial | `instance_instruction_refuted`, `copy_lines` | Refuted for every instance without earlier changes. |
| C314 | Removing an instruction that is absent leaves an instance as it was | Sbi | partial | `absent_instruction_refuted` | Refuted for every instance with a reference. |
| C315 | What is left after a removal by pattern is a definition | Sbi | partial | `definition_stays_refuted` | Refuted with a pattern that matches everything. |
| C316 | Control sections are removed by their place in the list | Sbi | proved | `control_sections`, `added_again` | Control sections read from a file, i.e. with a text (C312 for those added). C316_added_again: a section already there is not added again. |
| C317 | sim_info tells of every completed run what it was started with | Inf | proved | `info_of_every_run`, `value_of_run` | Netlist file, edits and return code; the other fields are copied from the task in the same way. |
| C318 | The log of edits can be asked by name | Inf | proved | `item_by_name` | Item access by a name; an int or slice is passed on to the list. |
| C319 | Asking the log by name gives the latest edit | Inf | partial | `latest_edit_refuted` | Refuted for every name and value. |
| C320 | The text of an edit tells what was edited | Inf | partial | `described_partial`, `instruction_updates_refuted` | C320_instruction_updates_refuted: updates of instructions (recorded when add_instruction replaces a simulation directive) have the text of an invalid update. |
| C321 | Cleared parameters are deleted when the netlist is saved | Clr | partial | `cleared_parameters_refuted` | Refuted for every dictionary of parameters (text written), and on a whole statement. |
| C322 | Clearing a parameter that is not there changes nothing | Clr | partial | `clearing_unknown_refuted` | Refuted for every component and name (attributes), and on a whole statement. |
