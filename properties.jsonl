{"id": "C01", "title": "The update log is a keyed map with last-write-wins", "statement": "After any sequence of edits recorded on an editor's netlist_updates, there is at most one entry for a given (name, kind of update) - for instructions, (text, kind) - and the value it holds is the value of the most recent edit recorded under that key; edits to one key never change the entry of another key, and entries stay in order of first recording.", "quantifier": "every finite sequence of add_update(name, value, kind) calls with a kind other than the 'invalid' one, starting from an empty log", "why_tests_cant": "the number of interleavings of edits over names and kinds is unbounded; a test fixes one history", "anchors": ["spicelib/editor/updates.py: Updates.add_update, Updates.__iter__"]}
{"id": "C02", "title": "Querying the log returns the last recorded value", "statement": "Updates.value(ref) returns the value last given to that component in the log, and Updates.parameter(name) the value last given to that parameter, whatever else was recorded in between, for parameters the history always adds or always updates.", "quantifier": "every history of edits and every queried name", "why_tests_cant": "depends on the whole history (a parameter added and later updated is recorded under two kinds), not on a single call", "anchors": ["spicelib/editor/updates.py: Updates.value, Updates.parameter, Updates.add_update"]}
{"id": "C03", "title": "A linear sweep enumerates exactly the grid between its ends", "statement": "sweep(start, stop, step) terminates and yields exactly start, start±step, start±2*step, ... in that order, all the grid points lying between start and stop inclusive and no others, whichever sign the step was given with.", "quantifier": "every start and stop and every non-zero step (exact arithmetic)", "why_tests_cant": "continuum of arguments, both directions and both signs of the step", "anchors": ["spicelib/utils/sweep_iterators.py: sweep, BaseIterator"]}
{"id": "C04", "title": "sweep_n yields the requested number of points including both ends", "statement": "sweep_n(start, stop, n) for n >= 2 yields exactly n values, the first is start, the last is stop and consecutive values are equally spaced.", "quantifier": "every start, stop and n >= 2 (exact arithmetic)", "why_tests_cant": "unbounded n and continuum of end points", "anchors": ["spicelib/utils/sweep_iterators.py: sweep_n"]}
{"id": "C05", "title": "A logarithmic sweep enumerates the geometric grid", "statement": "sweep_log(start, stop, factor) with start, stop > 0, start different from stop and factor > 1 (or < 1) terminates and yields exactly start*factor^k in order, for all k for which the value does not pass stop.", "quantifier": "every positive start and stop and factor (exact arithmetic)", "why_tests_cant": "continuum of arguments; termination depends on the direction correction", "anchors": ["spicelib/utils/sweep_iterators.py: sweep_log"]}
{"id": "C06", "title": "Stepped simulation runs every combination exactly once", "statement": "SimStepper.run_all() issues exactly one simulation for every element of the cartesian product of the registered sweeps, in lexicographic order with the last registered sweep varying fastest, and each simulation is run with the netlist holding precisely the values of that combination (later sweeps never leak a stale value into the next combination).", "quantifier": "every list of non-empty sweeps over components, parameters and models, given as sequences that can be iterated again", "why_tests_cant": "number and length of the sweeps are unbounded; the state left by one run is the start of the next", "anchors": ["spicelib/sim/sim_stepping.py: SimStepper.run_all, add_value_sweep, add_param_sweep, add_model_sweep"]}
{"id": "C07", "title": "The announced number of simulations is the number run", "statement": "When no registered sweep is empty, SimStepper.total_number_of_simulations() equals the number of simulations run_all() issues.", "quantifier": "every list of non-empty re-iterable sweeps", "why_tests_cant": "needs the general product formula, not a sample", "anchors": ["spicelib/sim/sim_stepping.py: SimStepper.total_number_of_simulations, run_all"]}
{"id": "C08", "title": "Never more than parallel_sims simulations at once", "statement": "At every moment, the number of simulations started by SimRunner.run() and not finished never exceeds parallel_sims.", "quantifier": "every interleaving of run() requests with completions (successful, failed or killed) of the simulations in any order", "why_tests_cant": "schedules are unbounded; a test exercises one timing", "anchors": ["spicelib/sim/sim_runner.py: SimRunner.run, active_threads, update_completed"]}
{"id": "C09", "title": "Run numbers and run file names are never reused", "statement": "Every simulation issued by a SimRunner gets a run number different from, and larger than, all previous ones, and (when no explicit run_filename is given) its netlist file name differs from that of every other run of the same runner and circuit file.", "quantifier": "every sequence of run / run_now / create calls, including rejected ones and time-outs", "why_tests_cant": "history property over unbounded sequences", "anchors": ["spicelib/sim/sim_runner.py: SimRunner._prepare_sim, _run_file_name"]}
{"id": "C10", "title": "No simulation is lost and the counters add up", "statement": "Every simulation accepted by the runner is, at any time, in exactly one of the active or the completed list, it never goes back from completed to active, okSim + failSim equals the number of completed simulations, and, as long as no run_now() has stopped waiting for its simulation, okSim counts exactly those whose return code is 0.", "quantifier": "every interleaving of runs, completions and update_completed/wait_completion polls", "why_tests_cant": "schedules are unbounded", "anchors": ["spicelib/sim/sim_runner.py: SimRunner.update_completed, wait_completion, run, run_now"]}
{"id": "C11", "title": "wait_completion reports failure exactly when something failed", "statement": "wait_completion() called without a timeout argument that returns with no simulation left running returns True if and only if no simulation of the runner has failed so far; with a timeout argument, True is never returned after a failure.", "quantifier": "every history and schedule in which no run_now() gave up", "why_tests_cant": "schedules are unbounded", "anchors": ["spicelib/sim/sim_runner.py: SimRunner.wait_completion"]}
{"id": "C12", "title": "Iterating a runner yields each successful result once, in completion order", "statement": "Iterating over a SimRunner yields, once each and in order of completion, the results of the completed simulations with a zero return code (and, when conditions are given, exactly those whose netlist edits satisfy all conditions), and ends only when nothing is active.", "quantifier": "every completion order and every outcome vector", "why_tests_cant": "schedules are unbounded", "anchors": ["spicelib/sim/sim_runner.py: TaskIterator.__next__, SimRunner.__iter__"]}
{"id": "C13", "title": "The callback is called at most once and only when due", "statement": "For each simulation the user callback is invoked at most once, exactly when a callback was given and either the simulation produced its raw and log files with return code 0, or callback_on_error was set; its result is what get_results returns.", "quantifier": "every combination of simulator outcome (return code, exception, missing files), callback outcome and options", "why_tests_cant": "cross product of outcomes including exceptions raised by the simulator or the callback", "anchors": ["spicelib/sim/run_task.py: RunTask.run, get_results"]}
{"id": "C14", "title": "Waiting for a finished task terminates", "statement": "wait_results() on a task whose simulation has ended with a return code other than -1 returns, it never returns before the end, and get_results gives nothing before the end.", "quantifier": "every schedule and every return code but -1", "why_tests_cant": "return codes range over all integers, including the internal marker value", "anchors": ["spicelib/sim/run_task.py: RunTask.wait_results, is_alive"]}
{"id": "C15", "title": "Server sessions are isolated", "statement": "status(session) only lists run numbers started in that session, get_files never returns (or erases) files of a run started by another session, and close_session only removes runs of its own session; an unknown session id is rejected by run, status and get_files without changing the server.", "quantifier": "every interleaving of start_session, run, status, get_files and close_session calls from any number of clients", "why_tests_cant": "unbounded interleavings of clients", "anchors": ["spicelib/client_server/sim_server.py: SimServer.run, status, get_files, close_session"]}
{"id": "C16", "title": "A result is delivered at most once", "statement": "After get_files has delivered the archive of a run, the same run is no longer reported as finished and is never delivered again.", "quantifier": "every history of server calls and completions", "why_tests_cant": "unbounded histories", "anchors": ["spicelib/client_server/sim_server.py: SimServer.get_files; spicelib/client_server/srv_sim_runner.py: ServerSimRunner.erase_files_of_runno"]}
{"id": "C17", "title": "Client iteration hands out every started job once", "statement": "In the documented loop (download each job before the next is asked for; runs accepted and leaving an archive), iterating over a SimClient raises no error, hands out each job of this client at most once, stops only when all were handed out, and waits only while none has finished.", "quantifier": "every interleaving with other clients and completions", "why_tests_cant": "depends on the interleaving of client requests and server state", "anchors": ["spicelib/client_server/sim_client.py: SimClient.__next__, get_runno_data, run"]}
{"id": "C18", "title": "Writing a real RAW file and reading it back is lossless (point-interleaved)", "statement": "Saving traces with RawWrite in the normal (not fast-access) format and reading the file gives back the same trace names, types, number of points and every sample of every trace (first trace 64-bit, other traces as 32-bit).", "quantifier": "every number of traces, every number of points and every byte pattern of the samples", "why_tests_cant": "unbounded sizes and all bit patterns", "anchors": ["spicelib/raw/raw_write.py: RawWrite.save; spicelib/raw/plot_data.py: PlotData.read_trace_data"]}
{"id": "C19", "title": "Writing a RAW file in fast-access format and reading it back is lossless", "statement": "The same as for the normal format when the fast-access (trace-contiguous) layout is used, with real values.", "quantifier": "every number of traces, points and byte patterns", "why_tests_cant": "unbounded sizes and all bit patterns", "anchors": ["spicelib/raw/raw_write.py: RawWrite.save; spicelib/raw/plot_data.py: PlotData.read_trace_data"]}
{"id": "C20", "title": "Complex RAW files survive a write/read round trip", "statement": "A complex (AC) data set written by RawWrite without fast access reads back to the same samples.", "quantifier": "every complex data set", "why_tests_cant": "layout flag and data order must agree for all sizes", "anchors": ["spicelib/raw/raw_write.py: RawWrite.save, _str_flags; spicelib/raw/plot_data.py: read_trace_data"]}
{"id": "C21", "title": "The textual RAW header round-trips", "statement": "Plot name, flags, number of variables, number of points, offset and each variable's name, type and number format written in a RAW header are read back unchanged, and the data section starts exactly after it.", "quantifier": "every plot name and variable names without line breaks or tabs", "why_tests_cant": "all strings", "anchors": ["spicelib/raw/raw_write.py: RawWrite.save; spicelib/raw/plot_data.py: PlotData.__init__"]}
{"id": "C22", "title": "The waves of the steps partition the data", "statement": "For a stepped data set the concatenation of get_wave(step) over all steps in order is exactly the whole stored data, for the axis and for every trace, each step is non-empty and begins at a value equal to the first axis value; the step information is accepted exactly when it has as many steps as the data.", "quantifier": "every axis content and step list accepted on loading", "why_tests_cant": "all step patterns and lengths", "anchors": ["spicelib/raw/raw_classes.py: Axis._set_steps, step_offset, get_wave, get_len; TraceRead.get_wave, get_len"]}
{"id": "C23", "title": "Point look-up interpolates between the bracketing samples", "statement": "For a strictly increasing axis and a time inside its range, get_position returns p with axis[floor p] <= t <= axis[ceil p] and the linear interpolation of the axis at p is t; get_point_at returns the corresponding linear interpolation of the trace, equal to the stored sample when t is a stored abscissa.", "quantifier": "every strictly increasing axis and every t in range (exact arithmetic)", "why_tests_cant": "continuum of times and axes", "anchors": ["spicelib/raw/raw_classes.py: Axis.get_position, TraceRead.get_point_at, _interpolate"]}
{"id": "C24", "title": "Lazy loading order does not matter", "statement": "Loading traces of a RAW file in several read requests, in any order and with repetitions, gives each trace the same content as loading everything at once.", "quantifier": "every file and every sequence of trace subsets requested", "why_tests_cant": "unbounded sequences of requests", "anchors": ["spicelib/raw/plot_data.py: PlotData.read_trace_data, get_trace, get_axis"]}
{"id": "C25", "title": "Step selection by parameter is exact", "statement": "PlotData.get_steps(**conditions) returns exactly, in order, the indices of the steps whose parameters meet all conditions; with no condition, all the steps.", "quantifier": "every step table and condition set", "why_tests_cant": "all tables", "anchors": ["spicelib/raw/plot_data.py: PlotData.get_steps"]}
{"id": "C26", "title": "Step selection in log data is exact", "statement": "LogfileData.steps_with_conditions(**conditions) returns exactly the step indices, in increasing order, whose swept variables equal all the requested values; a measurement looked up under such conditions is the one of that step.", "quantifier": "every step table and condition list", "why_tests_cant": "all tables", "anchors": ["spicelib/log/logfile_data.py: LogfileData.steps_with_conditions, steps_with_parameter_equal_to, get_measure_value"]}
{"id": "C27", "title": "Measurement statistics are correct", "statement": "min_measure_value, max_measure_value and avg_measure_value return the minimum, maximum and mean of the selected measurements (all steps, or a list of steps), for measurements stored under their lower-case name.", "quantifier": "every list of measurement values (exact arithmetic)", "why_tests_cant": "all lists", "anchors": ["spicelib/log/logfile_data.py: LogfileData.min_measure_value, max_measure_value, avg_measure_value"]}
{"id": "C28", "title": "Splitting a measurement line respects nesting and loses nothing", "statement": "split_line_into_values splits a line of values, with brackets balanced and separated, on its top-level separators only; anything in parentheses comes back as one (nested) item; a bracket left open is rejected.", "quantifier": "every nested value structure rendered as a line", "why_tests_cant": "unbounded nesting depth", "anchors": ["spicelib/log/logfile_data.py: split_line_into_values"]}
{"id": "C29", "title": "Splitting a netlist text into statements loses nothing", "statement": "separate_lines cuts a netlist text into logical statements: nothing but the line breaks and plus signs of continuations disappears, and any list of well-formed statements (newlines inside braces or quotes, continuation lines) comes back as that list.", "quantifier": "every text", "why_tests_cant": "all strings, unbounded nesting of braces and quotes", "anchors": ["spicelib/editor/spice_subcircuit.py: separate_lines"]}
{"id": "C30", "title": "Loading and saving an unmodified netlist preserves it", "statement": "A netlist that is loaded and saved with no edits is written with the same statements in the same order and the same nesting of sub-circuits.", "quantifier": "every well-formed netlist, with any nesting depth of .subckt and .control blocks", "why_tests_cant": "unbounded documents and nesting", "anchors": ["spicelib/editor/spice_subcircuit.py: SpiceCircuit._add_lines, write_lines; spicelib/editor/spice_file.py: SpiceFile.save_netlist, reset_netlist"]}
{"id": "C31", "title": "Component edits are read back and change nothing else", "statement": "After set_component_value(ref, v), get_component_value(ref) returns v, every other component keeps its value, nodes and order, and the statement of ref keeps its designator and its nodes; the lookup of references is case-insensitive.", "quantifier": "every netlist, every existing reference and value", "why_tests_cant": "all documents", "anchors": ["spicelib/editor/spice_subcircuit.py: SpiceCircuit.get_component, set_component_value, get_component_value"]}
{"id": "C32", "title": "Component collection operations behave like an ordered map", "statement": "get_components lists, in file order, exactly the designators with a requested prefix; add_component makes the new reference visible and leaves others unchanged; remove_component removes exactly that component; looking up a missing reference raises an error and changes nothing.", "quantifier": "every netlist and every sequence of add / remove operations", "why_tests_cant": "unbounded histories", "anchors": ["spicelib/editor/spice_subcircuit.py: get_components, add_component, remove_component, get_component"]}
{"id": "C33", "title": "There is only one simulation command after adding one", "statement": "Adding a simulation command (.ac .dc .tran .noise .tf) to a netlist that holds at most one of them leaves exactly one, equal to the added text, in the position of the old one (or before the end of the file), and leaves every other statement unchanged; adding any other instruction twice adds it once.", "quantifier": "every netlist and every sequence of add_instruction calls", "why_tests_cant": "unbounded histories", "anchors": ["spicelib/editor/spice_file.py: SpiceFile.add_instruction"]}
{"id": "C34", "title": "Removing instructions removes exactly the requested ones", "statement": "remove_instruction(text) removes the first statement equal to text and nothing else, and reports False leaving the netlist unchanged if there is none; remove_Xinstruction(pattern) removes all the matching statements and only those; adding an absent ordinary instruction and removing it restores the netlist.", "quantifier": "every netlist, text and pattern", "why_tests_cant": "all documents", "anchors": ["spicelib/editor/spice_file.py: SpiceFile.remove_instruction, remove_Xinstruction, add_instruction"]}
{"id": "C35", "title": "Netlist parameters behave like a case-insensitive map", "statement": "After any sequence of set_parameter calls get_parameter(name), in any letter case, returns the value last set, else the one in the file, and is an error for a name that is not defined or was removed; every other parameter keeps its value; get_all_parameter_names lists exactly the defined names in upper case, sorted, each once; the saved file has the same other statements and the parameters as set.", "quantifier": "every netlist whose .param values are numbers with units, braced expressions or double-quoted texts, each name defined once (first names on a line not beginning with E or a digit: C76; other value forms and comments with settings: C77), every history of component and instruction commands followed by every sequence of set_parameter calls, None only for a name that stands once on its line (C78)", "why_tests_cant": "unbounded histories", "anchors": ["spicelib/editor/spice_subcircuit.py: SpiceCircuit.set_parameter, get_parameter, _get_parameter_named, get_all_parameter_names"]}
{"id": "C36", "title": "Editing one sub-circuit instance does not affect the others", "statement": "Editing a component inside instance X1 of a sub-circuit changes what X1 elaborates to and leaves every other instance of the same definition, and the library definition, unchanged; instances never edited keep referring to the original definition.", "quantifier": "every number of instances and every sequence of edits inside them", "why_tests_cant": "unbounded histories of copy-on-write", "anchors": ["spicelib/editor/spice_subcircuit_instance.py: SpiceCircuitInstance; spicelib/editor/spice_subcircuit.py: clone, modified_subcircuits"]}
{"id": "C37", "title": "A denied edit changes nothing", "statement": "When the update permission of the owning editor is Deny, every edit raises an error and leaves the netlist and the update log unchanged.", "quantifier": "every editor state and every edit operation", "why_tests_cant": "all operations and states", "anchors": ["spicelib/editor/base_subcircuit.py: begin_update; spicelib/editor/primitives.py: Component.set_value, set_parameters"]}
{"id": "C38", "title": "Engineering notation can be read back", "statement": "Parsing the text produced by format_eng for a value whose digits fit the printed precision gives back that value, for all supported exponents.", "quantifier": "every exactly representable mantissa and exponent range", "why_tests_cant": "all values", "anchors": ["spicelib/utils/float_unit.py / spicelib/editor/primitives.py: format_eng, scan_eng"]}
{"id": "C39", "title": "Letter case other than of M and F does not change a scaled value", "statement": "scan_eng gives the same number for any letter case of the same text, letters M and F kept, in texts with at most one letter E.", "quantifier": "every number text", "why_tests_cant": "all spellings", "anchors": ["spicelib/utils/float_unit.py: parse_value, scan_eng"]}
{"id": "C40", "title": "Parameter text tokenisation keeps key/value pairs", "statement": "A list of name=value parameters written on a component line is parsed to exactly that ordered mapping, including values in braces or quotes with spaces and equal signs.", "quantifier": "every list of parameters", "why_tests_cant": "unbounded lists and nesting", "anchors": ["spicelib/editor/spice_components.py: tokenize_params, _parse_params"]}
{"id": "C41", "title": "Test-bench batching covers every run exactly once", "statement": "The toleranced analysis test bench splits runs -1..last_run_number into consecutive batches that cover each run number exactly once, none longer than the (adjusted) limit, and no batch consists of a single run unless there is only one run in total or the limit is 1.", "quantifier": "every total number of runs and every batch limit", "why_tests_cant": "unbounded arithmetic", "anchors": ["spicelib/sim/tookit/tolerance_deviations.py: ToleranceDeviations.run_testbench"]}
{"id": "C42", "title": "Worst case analysis visits every corner exactly once", "statement": "For n toleranced elements the exhaustive worst-case analysis simulates 2^n runs in which, over the runs, every combination of low/high values occurs exactly once, each element holding nominal*(1-tol) or nominal*(1+tol) (or its min/max) in every run.", "quantifier": "every n below the documented limit and every deviation assignment", "why_tests_cant": "exponentially many corners", "anchors": ["spicelib/sim/tookit/worst_case.py: WorstCaseAnalysis.run_analysis, _set_component_deviation"]}
{"id": "C43", "title": "Sensitivities add up to 100%", "statement": "make_sensitivity_analysis on all components gives percentages that add up to 100 whenever at least one component has an influence, each between 0 and 100, and 0 for a component without influence.", "quantifier": "every set of measurement results (exact arithmetic)", "why_tests_cant": "continuum of values", "anchors": ["spicelib/sim/tookit/worst_case.py: WorstCaseAnalysis.make_sensitivity_analysis"]}
{"id": "C44", "title": "Fast worst case search finds the extremes of a monotone measurement", "statement": "For a measurement that always rises or always falls with each element, whatever the others, FastWorstCaseAnalysis.run_analysis returns the nominal result, the minimum and the maximum over all corners, each with the element values of that corner.", "quantifier": "every number of components and measurement function monotone in each", "why_tests_cant": "continuum of functions", "anchors": ["spicelib/sim/tookit/fast_worst_case.py: FastWorstCase.run_analysis"]}
{"id": "C45", "title": "QSPICE schematic tags round-trip", "statement": "A QSPICE schematic tag tree written to text and parsed again gives the same tree of tags and tokens, for any nesting; quoted text may contain any characters but the quote.", "quantifier": "every tag tree", "why_tests_cant": "unbounded nesting and all strings", "anchors": ["spicelib/editor/qsch_editor.py: QschTag.parse, QschTag.out, smart_split"]}
{"id": "C46", "title": "QSPICE attribute access round-trips", "statement": "For every attribute index, get_attr after set_attr returns the value that was set (integer, quoted text or coordinate pair), and other attributes of the tag are unchanged.", "quantifier": "every integer, text and pair", "why_tests_cant": "all values", "anchors": ["spicelib/editor/qsch_editor.py: QschTag.get_attr, set_attr"]}
{"id": "C47", "title": "Edits of a QSPICE schematic are saved", "statement": "After any edit through the editor interface, save_as writes a file that reflects it, including when saving over the file it was read from.", "quantifier": "every schematic and every edit", "why_tests_cant": "depends on bookkeeping over histories", "anchors": ["spicelib/editor/qsch_editor.py: QschEditor.add_instruction, set_component_position, save_as; spicelib/editor/base_schematic.py: updated"]}
{"id": "C48", "title": "Removing a component from a QSPICE schematic removes it from the netlist", "statement": "After remove_component(ref), ref is no longer listed by get_components nor written to the netlist.", "quantifier": "every schematic and reference", "why_tests_cant": "all documents", "anchors": ["spicelib/editor/qsch_editor.py: QschEditor.remove_component, write_spice_to_file, get_components"]}
{"id": "C49", "title": "QSPICE parameters are read back", "statement": "set_parameter followed by get_parameter on a QSPICE schematic returns the value and leaves other parameters unchanged, whatever the texts of the schematic are.", "quantifier": "every list of schematic texts", "why_tests_cant": "all documents", "anchors": ["spicelib/editor/qsch_editor.py: QschEditor.set_parameter, get_parameter, _get_param_named"]}
{"id": "C50", "title": "LTspice schematics round-trip", "statement": "An ASC schematic that is read and saved with no edits keeps every wire, flag, component with its windows and attributes, upright text with its alignment, line and shape: the file that is written holds the same items, in order of their kind, and is the same file byte by byte when the items already are in that order.", "quantifier": "every ASC document of these items, of any length", "why_tests_cant": "all documents", "anchors": ["spicelib/editor/asc_editor.py: AscEditor.reset_netlist, save_netlist; spicelib/editor/ltspice_utils.py: asc_text_align_set, asc_text_align_get"]}
{"id": "C51", "title": "Schematic edits: one simulation command, comments and drawings untouched", "statement": "After any sequence of edits an LTspice schematic has at most one active simulation command if it had at most one; a simulation command that is added is then the active one; comments, wires, flags and drawings are never touched.", "quantifier": "every document and every sequence of edits", "why_tests_cant": "all documents", "anchors": ["spicelib/editor/asc_editor.py: AscEditor.add_instruction, remove_instruction, remove_Xinstruction"]}
{"id": "C52", "title": "File search returns the first match in container order", "statement": "search_file_in_containers returns a file of that name (compared without regard to case) held by the first container that has one - folders are searched with all their sub-folders, zip archives by their entry names - and None exactly when no container holds one; a file in the folder itself is found before those in its sub-folders.", "quantifier": "every list of containers", "why_tests_cant": "unbounded lists", "anchors": ["spicelib/utils/file_search.py: search_file_in_containers, find_file_in_directory"]}
{"id": "C53", "title": "Encoding detection returns the first encoding that decodes to the expected text", "statement": "detect_encoding returns the first encoding of its candidate list under which the file decodes without error to a non-empty text that matches the expected pattern (UTF-8 being passed over when the second character is NUL), and raises EncodingDetectError only if there is none.", "quantifier": "every file content and decode behaviour", "why_tests_cant": "all contents", "anchors": ["spicelib/utils/detect_encoding.py: detect_encoding"]}
{"id": "C54", "title": "Segment contact test is exact (exact arithmetic)", "statement": "In exact arithmetic Line.touches(p) is true exactly when the point p lies on the closed segment; Line.intercepts is symmetric, is true exactly when an end of one segment lies on the other, and then the segments have a common point.", "quantifier": "every segment and point (exact arithmetic)", "why_tests_cant": "continuum of coordinates", "anchors": ["spicelib/editor/base_schematic.py: Line.touches, Line.intercepts"]}
{"id": "C55", "title": "A runner with a timeout can run", "statement": "With a timeout given as a number, to the runner or to the call, run() gets to start the simulation.", "quantifier": "all timeout settings of the runner and of the call", "why_tests_cant": "the test-suite only uses numeric timeouts; the combination of settings is open ended", "anchors": ["spicelib/sim/sim_runner.py:SimRunner.run", "spicelib/sim/sim_runner.py:SimRunner.run_now"]}
{"id": "C56", "title": "Accepted callback arguments bind exactly the callback's parameters", "statement": "When run() accepts callback_args, the keyword arguments the callback will be called with are exactly its parameters after the first two, each once (a tuple binds them in order); matching arguments are never rejected.", "quantifier": "all callback signatures and all dict or tuple arguments", "why_tests_cant": "unbounded number of signatures and argument lists", "anchors": ["spicelib/sim/sim_runner.py:SimRunner.validate_callback_args"]}
{"id": "C57", "title": "Closing a session discards its results", "statement": "After close_session(session) returned True, the server keeps no result that was there of any run of that session.", "quantifier": "every history of requests and completions", "why_tests_cant": "depends on the moment a simulation finishes relative to the close request", "anchors": ["spicelib/client_server/sim_server.py:SimServer.close_session", "spicelib/client_server/srv_sim_runner.py:ServerSimRunner.run"]}
{"id": "C58", "title": "Stepped binary RAW files can be read with their log", "statement": "A binary RAW file flagged as stepped whose log has as many steps as the axis shows can be loaded.", "quantifier": "all non-empty stepped data sets", "why_tests_cant": "The loader's behaviour depends on the data and the surrounding files; tests ship matching logs with binary files only.", "anchors": ["spicelib/raw/plot_data.py: PlotData.__init__, _read_ascii_vector", "spicelib/raw/raw_classes.py: Axis.set_steps"]}
{"id": "C59", "title": "Exporting stepped data concatenates the waves of the selected steps", "statement": "export() without a selection returns for each column the whole data of that trace; with a list of steps, the waves of those steps in that order; all columns have the same length.", "quantifier": "all data sets, traces and selections of steps", "why_tests_cant": "Quantifies over every cut of the data into steps.", "anchors": ["spicelib/raw/plot_data.py: PlotData.export"]}
{"id": "C60", "title": "Points are addressed within their step", "statement": "get_point(n, step) returns the n-th sample of get_wave(step), for every index of that step.", "quantifier": "all stepped data sets, steps and indices", "why_tests_cant": "Holds for all lengths of steps.", "anchors": ["spicelib/raw/raw_classes.py: Axis.get_point, TraceRead.get_point"]}
{"id": "C61", "title": "The step table of an LTspice log is read exactly", "statement": "The steps loaded with a stepped RAW file are, in order, one dictionary per .step line of the log, mapping each name to the converted value of its name=value item, wherever the lines are in the log.", "quantifier": "all log files whose lines end in newline", "why_tests_cant": "Any number of lines and items, any text.", "anchors": ["spicelib/raw/plot_data.py: PlotData._load_step_information"]}
{"id": "C62", "title": "The step and measurement tables of an LTspice log are read exactly", "statement": "Reading an LTspice log gives, for every stepped name, the values of its .step lines in order, and for every column of every measurement table (named after the measurement, with _FROM, _AT, ... suffixes) the values of its rows in order; nothing else is in the data set, and tables never disturb one another.", "quantifier": "all log files with a step section followed by any number of measurement tables with any number of columns and rows", "why_tests_cant": "Any number of tables, columns and rows, any text.", "anchors": ["spicelib/log/ltsteps.py: LTSpiceLogReader.__init__"]}
{"id": "C63", "title": "Text exports without steps can be read", "statement": "Reading a file exported from a simulation without steps gives the exported columns.", "quantifier": "all exported files without 'Step Information' lines", "why_tests_cant": "A statement about every file of a kind.", "anchors": ["spicelib/log/ltsteps.py: LTSpiceExport.__init__"]}
{"id": "C64", "title": "Spacing and nesting do not change parameter values", "statement": "In a component's parameter text, a blank before a comma does not change a list of values, and a value in braces may itself contain braces.", "quantifier": "every parameter text", "why_tests_cant": "all spellings", "anchors": ["spicelib/editor/spice_components.py: tokenize_params, _parse_params"]}
{"id": "C65", "title": "Removing component parameters is saved", "statement": "Removing a parameter of a component (also its last one) is written when the netlist is saved: the saved statement no longer has it.", "quantifier": "every component statement and every parameter", "why_tests_cant": "all statements", "anchors": ["spicelib/editor/spice_components.py: SpiceComponent.rewrite_lines, _insert_section"]}
{"id": "C66", "title": "An edit replaces exactly the edited field whatever the spacing of the statement", "statement": "Whatever blanks separate the fields of a component statement, saving an edit of one field writes the new text in the place of the old one and keeps every other field and the comment.", "quantifier": "every layout of a component statement and every edit", "why_tests_cant": "all layouts", "anchors": ["spicelib/editor/spice_components.py: SpiceComponent.rewrite_lines, _insert_section"]}
{"id": "C67", "title": "Every SPICE component statement is read as SPICE reads it", "statement": "Component statements accepted by SPICE (any letter case, several expressions, flags after the model) are read with the nodes, the value and the parameters SPICE gives them.", "quantifier": "every component statement", "why_tests_cant": "all statements", "anchors": ["spicelib/editor/spice_utils.py: REPLACE_REGEXS", "spicelib/editor/spice_components.py: SpiceComponent.reset_attributes"]}
{"id": "C68", "title": "The logged duration of a run is the time it took", "statement": "The duration text written for a finished task, read as hours:minutes:seconds.milliseconds, gives back its running time in whole milliseconds, with minutes and seconds below 60.", "quantifier": "every running time", "why_tests_cant": "all durations, in particular the carries at 60 s and 60 min", "anchors": ["spicelib/sim/run_task.py: format_time_difference"]}
{"id": "C69", "title": "The logged duration reads as decimal seconds", "statement": "The digits after the point of the duration text are a decimal fraction of a second.", "quantifier": "every running time", "why_tests_cant": "all durations", "anchors": ["spicelib/sim/run_task.py: format_time_difference"]}
{"id": "C70", "title": "Every netlist that is loaded can be saved without losing statements", "statement": "Whatever netlist the editor accepts on loading, saving it writes all of its statements.", "quantifier": "every text that loads", "why_tests_cant": "all texts", "anchors": ["spicelib/editor/spice_subcircuit.py: SpiceCircuit._add_lines, write_lines", "spicelib/editor/spice_file.py: reset_netlist", "spicelib/editor/spice_components.py: SpiceComponent.reset_attributes"]}
{"id": "C71", "title": "A component reference always denotes the component of that name", "statement": "If the netlist has a component statement whose designator equals the reference, reading and editing that reference reads and edits that statement.", "quantifier": "every netlist and every reference", "why_tests_cant": "all documents", "anchors": ["spicelib/editor/spice_subcircuit.py: SpiceCircuit.get_component, _get_component_line_starting_with"]}
{"id": "C72", "title": "Components and instructions are added before the end of the netlist", "statement": "Whatever add_component and add_instruction add without a position stands before the .END statement (and not before the title line), so that the simulator and a later load see it.", "quantifier": "every netlist", "why_tests_cant": "all documents, in particular the short ones and those with comments after .END", "anchors": ["spicelib/editor/spice_subcircuit.py: SpiceCircuit.add_component", "spicelib/editor/spice_file.py: SpiceFile.add_instruction"]}
{"id": "C73", "title": "Instructions are matched by the present text of the netlist", "statement": "remove_instruction, remove_Xinstruction and the duplicate check of add_instruction compare with what saving would write.", "quantifier": "every netlist and history of edits", "why_tests_cant": "all histories", "anchors": ["spicelib/editor/spice_file.py: SpiceFile.remove_instruction, remove_Xinstruction, add_instruction"]}
{"id": "C74", "title": "Adding a component that exists replaces it", "statement": "As documented, add_component of a component whose reference exists replaces it, so that references stay unique.", "quantifier": "every netlist and component", "why_tests_cant": "all documents", "anchors": ["spicelib/editor/spice_subcircuit.py: SpiceCircuit.add_component"]}
{"id": "C75", "title": "No denied edit changes a sub-circuit", "statement": "When the owning editor denies updates, no edit of a sub-circuit changes it.", "quantifier": "every sub-circuit and edit operation", "why_tests_cant": "all operations", "anchors": ["spicelib/editor/spice_subcircuit.py: SpiceCircuit.add_instruction"]}
{"id": "C76", "title": "A parameter of any name can be read and set", "statement": "get_parameter(name) returns the value of a defined parameter and set_parameter(name, v) replaces it, whatever letters and digits the name is made of.", "quantifier": "every parameter name and place on the line", "why_tests_cant": "the failing names are a small part of an infinite set", "anchors": ["spicelib/editor/base_editor.py: PARAM_REGEX", "spicelib/editor/spice_subcircuit.py: SpiceCircuit.get_parameter, set_parameter"]}
{"id": "C77", "title": "The value of a parameter is all of it", "statement": "get_parameter(name) returns the whole expression that defines the parameter and set_parameter replaces all of it, whatever the form of the expression; text in comments is not a parameter.", "quantifier": "every .param statement", "why_tests_cant": "infinitely many expressions", "anchors": ["spicelib/editor/base_editor.py: PARAM_REGEX", "spicelib/editor/spice_subcircuit.py: SpiceCircuit.get_parameter, set_parameter"]}
{"id": "C78", "title": "Setting a parameter to None removes it and nothing else", "statement": "set_parameter(name, None) removes the definition of that parameter; every other parameter and expression stays as it is; nothing is added when it is not defined.", "quantifier": "every .param statement and every name", "why_tests_cant": "depends on which names contain which others", "anchors": ["spicelib/editor/spice_subcircuit.py: SpiceCircuit.set_parameter"]}
{"id": "C79", "title": "Scaled numbers denote the number times the factor", "statement": "parse_value/scan_eng of a decimal number followed by a scale factor (f p n u k Meg g t %) and a unit gives the number times the factor and that unit, also when the factor stands in place of the decimal point (4k7), whatever blanks are around it.", "quantifier": "every decimal number, factor and unit text", "why_tests_cant": "all numbers and units", "anchors": ["spicelib/utils/float_unit.py: parse_value, scan_eng, _MULT"]}
{"id": "C80", "title": "A netlist without .END is refused", "statement": "Opening a netlist file that has no line beginning with .END raises an error instead of giving an editor for a truncated netlist; an include file needs no .END; the same statements followed by .END are accepted.", "quantifier": "every list of lines and every list of statements", "why_tests_cant": "unbounded files", "anchors": ["spicelib/editor/spice_editor.py: SpiceEditor.reset_netlist", "spicelib/editor/spice_subcircuit.py: SpiceCircuit._add_lines"]}
{"id": "C81", "title": "Copies of definitions have names of their own", "statement": "The private copies that edited instances get never share a name with another copy or with a definition of the netlist, and they are always written.", "quantifier": "every netlist and every edit inside instances", "why_tests_cant": "unbounded choice of names", "anchors": ["spicelib/editor/spice_subcircuit_instance.py: SpiceCircuitInstance", "spicelib/editor/spice_subcircuit.py: SpiceCircuit.write_lines"]}
{"id": "C82", "title": "Definitions are found as simulators find them", "statement": "A reference through an instance finds the definition whose name the instance has, whatever the letter case and the characters of that name.", "quantifier": "every netlist and every name of a definition", "why_tests_cant": "unbounded choice of names", "anchors": ["spicelib/editor/spice_subcircuit.py: SpiceCircuit.get_subcircuit", "spicelib/editor/spice_utils.py: SUBCKT regex"]}
{"id": "C83", "title": "Edits inside instances are recorded under their full reference", "statement": "Each edit of a component inside an instance is recorded in the editor's list of updates under its full reference (X1:X2:R1) with the new value and the kind of edit; the first edit inside an instance also records the copy of the definition and the new name of the instance, in this order.", "quantifier": "every sequence of edits at every depth", "why_tests_cant": "unbounded histories", "anchors": ["spicelib/editor/spice_subcircuit_instance.py: SpiceCircuitInstance.begin_update, end_update", "spicelib/editor/updates.py: Updates.add_update"]}
{"id": "C84", "title": "The worst case test bench steps through every corner", "statement": "After WorstCaseAnalysis.prepare_testbench, run_testbench hands the simulator netlists whose .step ranges cover run -1 and runs 0..2^n-1 exactly once, and in which, as the simulator evaluates the formulas, run -1 shows the nominal values and every combination of minimum and maximum values occurs in exactly one run, all else unchanged.", "quantifier": "every netlist, assignment of deviations and runs per simulation", "why_tests_cant": "exponentially many corners, and formulas evaluated by the simulator", "anchors": ["spicelib/sim/tookit/worst_case.py: WorstCaseAnalysis.prepare_testbench", "spicelib/sim/tookit/tolerance_deviations.py: ToleranceDeviations.run_testbench"]}
{"id": "C85", "title": "Deviations are taken around the nominal values of the analysis", "statement": "run_analysis varies each component around the value it has in the nominal run, also when the analysis object has recorded edits of that component and when the analysis is run a second time.", "quantifier": "every history of calls on an analysis object", "why_tests_cant": "unbounded histories", "anchors": ["spicelib/sim/tookit/worst_case.py: WorstCaseAnalysis.run_analysis", "spicelib/sim/tookit/sim_analysis.py: SimAnalysis.play_instructions"]}
{"id": "C86", "title": "A test bench prepares itself", "statement": "run_testbench on an analysis whose test bench was not prepared by the caller simulates the deviations, as the code that calls prepare_testbench itself intends.", "quantifier": "every analysis set up but not prepared", "why_tests_cant": "unbounded set-ups", "anchors": ["spicelib/sim/tookit/tolerance_deviations.py: ToleranceDeviations.run_testbench"]}
{"id": "C87", "title": "A measurement nothing influences has sensitivity 0", "statement": "make_sensitivity_analysis reports 0 for every component when no component influences the measurement.", "quantifier": "every number of components and constant measurement", "why_tests_cant": "continuum of values", "anchors": ["spicelib/sim/tookit/worst_case.py: WorstCaseAnalysis.make_sensitivity_analysis"]}
{"id": "C88", "title": "A wrongly assumed direction is repaired", "statement": "When setting one element the other way gives a higher result than the assumed maximum corner, the fast worst case analysis takes that corner and searches on.", "quantifier": "every measurement function", "why_tests_cant": "continuum of functions", "anchors": ["spicelib/sim/tookit/fast_worst_case.py: FastWorstCaseAnalysis.run_analysis"]}
{"id": "C89", "title": "Quick sensitivity analysis varies one element at a time", "statement": "QuickSensitivityAnalysis.run_analysis simulates the nominal netlist and then, for each deviating element, the nominal netlist with only this element at an extreme; its sensitivities are proportional to the absolute changes of the measurement, lie between 0 and 100 and add up to 100 (all are 0 if nothing changes).", "quantifier": "every netlist, assignment of deviations and set of results", "why_tests_cant": "unbounded number of elements, continuum of results", "anchors": ["spicelib/sim/tookit/quick_sensitivity_analysis.py: QuickSensitivityAnalysis.run_analysis, get_sensitivity_data"]}
{"id": "C90", "title": "The number of runs per simulation is a limit", "statement": "run_testbench(max_runs_per_sim=k) never asks for more than k runs in one simulation.", "quantifier": "every number of runs and limit", "why_tests_cant": "unbounded arithmetic", "anchors": ["spicelib/sim/tookit/tolerance_deviations.py: ToleranceDeviations.run_testbench"]}
{"id": "C91", "title": "The fast search ends in local extremes", "statement": "Whatever the measurement, if no single change of the assumed maximum corner gives a higher result then the fast worst case search ends, and returns corners with their values such that no single change gives a higher maximum or a lower minimum.", "quantifier": "every measurement function and number of elements", "why_tests_cant": "continuum of functions, loop without a bound", "anchors": ["spicelib/sim/tookit/fast_worst_case.py: FastWorstCaseAnalysis.run_analysis"]}
{"id": "C92", "title": "Deviating components and parameters are told apart", "statement": "A deviating component is varied also when a deviating parameter has the same name.", "quantifier": "every set of names", "why_tests_cant": "unbounded names", "anchors": ["spicelib/sim/tookit/worst_case.py: WorstCaseAnalysis.run_analysis"]}
{"id": "C93", "title": "Texts with a colon survive saving a QSPICE schematic", "statement": "A text of a QSPICE schematic (directive, comment, component value) that contains a colon followed by a blank is the same text after the schematic is saved and read again.", "quantifier": "every schematic, every text", "why_tests_cant": "all texts and documents", "anchors": ["spicelib/editor/qsch_editor.py: QschTag.parse, QschTag.out"]}
{"id": "C94", "title": "Moving a component of a QSPICE schematic is saved", "statement": "After set_component_position the schematic can be saved, also over its own file, and shows the component at its new place and with the rotation given as get_component_position gives it.", "quantifier": "every schematic, component, position and rotation", "why_tests_cant": "all documents and values", "anchors": ["spicelib/editor/qsch_editor.py: QschComponent.set_position, QschEditor.set_component_position, save_as"]}
{"id": "C95", "title": "A simulation command added to a QSPICE schematic is saved", "statement": "After add_instruction of a simulation command, saving the schematic over its own file writes the command.", "quantifier": "every schematic, also without a simulation command", "why_tests_cant": "depends on bookkeeping over histories", "anchors": ["spicelib/editor/qsch_editor.py: QschEditor.add_instruction, save_as", "spicelib/editor/base_schematic.py: updated"]}
{"id": "C96", "title": "Setting a parameter keeps the rest of the directive", "statement": "set_parameter of a parameter on a .PARAM directive of a QSPICE schematic changes the value of that parameter only, also where the directive was entered without the byte-order mark QSPICE puts in front.", "quantifier": "every .PARAM directive", "why_tests_cant": "all texts", "anchors": ["spicelib/editor/qsch_editor.py: QschEditor.set_parameter, _get_param_named"]}
{"id": "C97", "title": "Parameters on every line of a QSPICE directive are found", "statement": "A parameter that a directive of the schematic sets, on whichever of its lines, is found by get_parameter and changed by set_parameter.", "quantifier": "every directive of several lines", "why_tests_cant": "all texts", "anchors": ["spicelib/editor/qsch_editor.py: QschEditor.get_parameter, set_parameter, _get_param_named"]}
{"id": "C98", "title": "remove_instruction on a QSPICE schematic removes what was asked", "statement": "remove_instruction removes the directive equal to the text given and no other.", "quantifier": "every schematic and instruction", "why_tests_cant": "all documents", "anchors": ["spicelib/editor/qsch_editor.py: QschEditor.remove_instruction"]}
{"id": "C99", "title": "A QSPICE schematic keeps one simulation command", "statement": "If a schematic has at most one simulation command, then after add_instruction of a simulation command it has exactly one, the one added.", "quantifier": "every schematic and command", "why_tests_cant": "all documents", "anchors": ["spicelib/editor/qsch_editor.py: QschEditor.add_instruction"]}
{"id": "C100", "title": "A component removed from a QSPICE schematic is gone from the saved file", "statement": "After remove_component(ref), the file saved, also over the file that was read, holds all components but ref, with their values.", "quantifier": "every schematic and reference", "why_tests_cant": "all documents", "anchors": ["spicelib/editor/qsch_editor.py: QschEditor.remove_component, save_as"]}
{"id": "C101", "title": "Edits of an LTspice schematic survive saving", "statement": "After any sequence of edits (values, positions, symbols, removed components, instructions added and removed, parameters) the file saved from an LTspice schematic holds exactly what the edits ask for, can be read, and gives the same answers as the editor; a value that is set is told, and nothing else is told differently.", "quantifier": "every document and every sequence of successful edits", "why_tests_cant": "histories are unbounded", "anchors": ["spicelib/editor/asc_editor.py: AscEditor.save_netlist, reset_netlist, set_component_value, set_component_position, set_element_model, remove_component, add_instruction, remove_instruction, remove_Xinstruction, set_parameter"]}
{"id": "C102", "title": "Parameters of an LTspice schematic: the last setting wins", "statement": "get_parameter tells the first setting of that name in the directives of the file, whatever its case; after any sequence of set_parameter calls it tells the last value set for that name, and for other names what it told before.", "quantifier": "every document with well-formed .param directives and every sequence of settings", "why_tests_cant": "all names, lines and histories", "anchors": ["spicelib/editor/asc_editor.py: AscEditor.get_parameter, set_parameter, _get_param_named"]}
{"id": "C103", "title": "Parameters of LTspice schematic components", "statement": "A component parameter that is set with set_component_parameters is then told by get_component_parameters, the other settings of that component stay, nothing else of the schematic is changed, and the file saved from it holds it.", "quantifier": "every document, history of edits, component with settings in SpiceLine and SpiceLine2, name and value", "why_tests_cant": "all lines of settings", "anchors": ["spicelib/editor/asc_editor.py: AscComponent.set_parameters, get_parameters"]}
{"id": "C104", "title": "Every item of an ASC file is written back", "statement": "Reading and saving an ASC schematic keeps turned texts, ports, data flags, widths of lines and symbols with equal references.", "quantifier": "every ASC document", "why_tests_cant": "all documents", "anchors": ["spicelib/editor/asc_editor.py: AscEditor.reset_netlist, save_netlist", "spicelib/editor/ltspice_utils.py: TEXT_REGEX"]}
{"id": "C105", "title": "remove_instruction removes one directive", "statement": "remove_instruction removes the first directive that has the given text in it and nothing else, and tells whether there was one; it is the directive itself when no directive before it has that text in it.", "quantifier": "every document, history of edits and instruction", "why_tests_cant": "all texts", "anchors": ["spicelib/editor/asc_editor.py: AscEditor.remove_instruction"]}
{"id": "C106", "title": "remove_instruction removes only the requested instruction", "statement": "remove_instruction never removes an instruction other than the one given, and add_instruction of a simulation command leaves one simulation command.", "quantifier": "every document", "why_tests_cant": "all documents", "anchors": ["spicelib/editor/asc_editor.py: AscEditor.remove_instruction, add_instruction"]}
{"id": "C107", "title": "Denied updates of schematic values", "statement": "When updates are denied, setting values, parameters or component parameters of an LTspice schematic fails and leaves the editor unchanged.", "quantifier": "every editor state and arguments", "why_tests_cant": "all states", "anchors": ["spicelib/editor/asc_editor.py: AscComponent.set_value, set_parameters", "AscEditor.set_parameter"]}
{"id": "C108", "title": "Denied updates of schematic components and instructions", "statement": "When updates are denied, removing components and instructions of an LTspice schematic leaves the editor unchanged.", "quantifier": "every editor state", "why_tests_cant": "all states", "anchors": ["spicelib/editor/asc_editor.py: AscEditor.remove_component, remove_instruction"]}
{"id": "C109", "title": "Schematic edits are recorded", "statement": "Each successful call of an LTspice schematic editor that sets a value or parameter, removes a component, or adds or removes an instruction is in the record of updates and makes updated() true.", "quantifier": "every document and history of edits", "why_tests_cant": "all histories", "anchors": ["spicelib/editor/asc_editor.py: AscEditor", "spicelib/editor/base_schematic.py: end_update, updated"]}
{"id": "C110", "title": "Moves and symbol changes are recorded", "statement": "set_component_position and set_element_model on an LTspice schematic make updated() true.", "quantifier": "every document and component", "why_tests_cant": "all documents", "anchors": ["spicelib/editor/asc_editor.py: AscEditor.set_component_position, set_element_model"]}
{"id": "C111", "title": "Saving never leaves a truncated schematic", "statement": "Every schematic that can be edited can be saved.", "quantifier": "every rotation", "why_tests_cant": "all states", "anchors": ["spicelib/editor/asc_editor.py: AscEditor.set_component_position, save_netlist"]}
{"id": "C112", "title": "Removing component parameters of a schematic", "statement": "Component parameters given as None are removed, other words of the attribute are kept, and the saved file can be read.", "quantifier": "every component and parameter", "why_tests_cant": "all lines", "anchors": ["spicelib/editor/asc_editor.py: AscComponent.set_parameters"]}
{"id": "C113", "title": "Scaling a schematic", "statement": "Scaling an LTspice schematic moves each item once to the scaled place, whatever the edits before, and changes nothing else; the scaled schematic is what is saved.", "quantifier": "every document without ports, history of edits and scale", "why_tests_cant": "all documents", "anchors": ["spicelib/editor/base_schematic.py: BaseSchematic.scale"]}
{"id": "C114", "title": "Scaling a schematic with ports", "statement": "Scaling moves each label once.", "quantifier": "every schematic with a port", "why_tests_cant": "all documents", "anchors": ["spicelib/editor/base_schematic.py: BaseSchematic.scale", "spicelib/editor/asc_editor.py: reset_netlist (IOPIN)"]}
{"id": "C115", "title": "Contact test exact for horizontal and vertical wires, in floating point", "statement": "For whole coordinates (any size) and a horizontal or vertical segment, Line.touches as executed in binary64 arithmetic is true exactly for the points of the closed segment.", "quantifier": "every horizontal or vertical segment and point with integer coordinates", "why_tests_cant": "infinitely many coordinates", "anchors": ["spicelib/editor/base_schematic.py: Line.touches"]}
{"id": "C116", "title": "Crossing wires intercept", "statement": "Two segments with a common point intercept.", "quantifier": "every pair of segments", "why_tests_cant": "continuum of coordinates", "anchors": ["spicelib/editor/base_schematic.py: Line.intercepts"]}
{"id": "C117", "title": "The ends of a wire touch it, in floating point", "statement": "Line.touches is true of both ends of the segment for whole coordinates in binary64 arithmetic.", "quantifier": "every segment with integer coordinates", "why_tests_cant": "rounding depends on the coordinates", "anchors": ["spicelib/editor/base_schematic.py: Line.touches"]}
{"id": "C118", "title": "Search in zip archives descends, is by case first, and skips what cannot be read", "statement": "A file in a folder of a zip archive is found by its name; an unreadable archive is passed over; a file of the very name is preferred to one that differs in case.", "quantifier": "every container", "why_tests_cant": "unbounded archives", "anchors": ["spicelib/utils/file_search.py: search_file_in_containers"]}
{"id": "C119", "title": "Files of the usual encodings are recognised and read exactly", "statement": "A text written in UTF-8, in UTF-16 with byte order mark, in UTF-16-LE without one (first character ASCII), or in Windows-1252 (with an expected pattern beginning with an ASCII character, second byte not NUL, not also valid UTF-8) is detected as such, and reading the file with the detected encoding gives the text with its line ends normalised.", "quantifier": "every Unicode text", "why_tests_cant": "all texts", "anchors": ["spicelib/utils/detect_encoding.py: detect_encoding"]}
{"id": "C120", "title": "Detection fails only with EncodingDetectError", "statement": "detect_encoding of a non-empty readable file either returns an encoding or raises EncodingDetectError.", "quantifier": "every file content", "why_tests_cant": "all contents", "anchors": ["spicelib/utils/detect_encoding.py: detect_encoding"]}
{"id": "C121", "title": "Windows-1252 files are read as Windows-1252 without a pattern", "statement": "With no expected pattern, a file in Windows-1252 that is not valid UTF-8 is detected as Windows-1252.", "quantifier": "every file content", "why_tests_cant": "all contents", "anchors": ["spicelib/utils/detect_encoding.py: detect_encoding"]}
{"id": "C122", "title": "A parameter that was both added and updated", "statement": "Updates.parameter(name) returns the value last given to that parameter, also when the history both adds and updates it.", "quantifier": "every history of edits and every queried name", "why_tests_cant": "depends on the whole history (a parameter added and later updated is recorded under two kinds), not on a single call", "anchors": ["spicelib/editor/updates.py: Updates.value, Updates.parameter, Updates.add_update"]}
{"id": "C123", "title": "Sweeps over one-shot iterables run every combination", "statement": "The sweeps of a stepper may be given as any iterable, generators included, and run_all() still runs every combination.", "quantifier": "every list of non-empty sweeps given as iterables", "why_tests_cant": "number and length of the sweeps are unbounded; the state left by one run is the start of the next", "anchors": ["spicelib/sim/sim_stepping.py: SimStepper.run_all, add_value_sweep, add_param_sweep, add_model_sweep"]}
{"id": "C124", "title": "The announced number of simulations with an empty sweep", "statement": "SimStepper.total_number_of_simulations() equals the number of simulations run_all() issues.", "quantifier": "every list of sweeps, including empty ones", "why_tests_cant": "needs the general product formula, not a sample", "anchors": ["spicelib/sim/sim_stepping.py: SimStepper.total_number_of_simulations, run_all"]}
{"id": "C125", "title": "The counters are exact when run_now gives up waiting", "statement": "okSim counts exactly the completed simulations whose return code is 0, also when a run_now() stopped waiting for its simulation.", "quantifier": "every interleaving of runs, completions and update_completed/wait_completion polls", "why_tests_cant": "schedules are unbounded", "anchors": ["spicelib/sim/sim_runner.py: SimRunner.update_completed, wait_completion, run, run_now"]}
{"id": "C126", "title": "wait_completion with a timeout reports failure exactly when something failed", "statement": "wait_completion(timeout) that returns with no simulation left running returns True if and only if no simulation of the runner has failed.", "quantifier": "every history and schedule", "why_tests_cant": "schedules are unbounded", "anchors": ["spicelib/sim/sim_runner.py: SimRunner.wait_completion"]}
{"id": "C127", "title": "Waiting for a task with return code -1", "statement": "wait_results() on a task whose simulation has ended always returns, whatever the return code.", "quantifier": "every return code the simulator process can produce", "why_tests_cant": "return codes range over all integers, including the internal marker value", "anchors": ["spicelib/sim/run_task.py: RunTask.wait_results, is_alive"]}
{"id": "C128", "title": "Client iteration outside the documented loop", "statement": "Iterating over a SimClient hands out every started job and stops, also when next is called twice before a download, a run leaves no archive, or the server refuses a run.", "quantifier": "every sequence of next/get_runno_data calls and server states", "why_tests_cant": "depends on the interleaving of client requests and server state", "anchors": ["spicelib/client_server/sim_client.py: SimClient.__next__, get_runno_data, run"]}
{"id": "C129", "title": "A data set whose first trace is single precision can be read back", "statement": "A real data set whose first trace holds 32-bit numbers (a DC sweep given as floats), saved with RawWrite, is read back unchanged.", "quantifier": "every number of traces, every number of points and every byte pattern of the samples", "why_tests_cant": "unbounded sizes and all bit patterns", "anchors": ["spicelib/raw/raw_write.py: RawWrite.save; spicelib/raw/plot_data.py: PlotData.read_trace_data"]}
{"id": "C130", "title": "Complex RAW files survive the fast-access layout", "statement": "A complex (AC) data set written by RawWrite with fast access reads back to the same samples.", "quantifier": "every complex data set and both layouts", "why_tests_cant": "layout flag and data order must agree for all sizes", "anchors": ["spicelib/raw/raw_write.py: RawWrite.save, _str_flags; spicelib/raw/plot_data.py: read_trace_data"]}
{"id": "C131", "title": "Non-ASCII header text in UTF-8", "statement": "A RAW header written in UTF-8 with characters beyond ASCII in a trace name is read back unchanged.", "quantifier": "every title, plot name and variable names without line breaks or tabs", "why_tests_cant": "all strings", "anchors": ["spicelib/raw/raw_write.py: RawWrite.save; spicelib/raw/plot_data.py: PlotData.__init__"]}
{"id": "C132", "title": "get_len of a trace is the length of its wave", "statement": "TraceRead.get_len(step) is the length of get_wave(step).", "quantifier": "every axis content and step list accepted on loading", "why_tests_cant": "all step patterns and lengths", "anchors": ["spicelib/raw/raw_classes.py: Axis._set_steps, step_offset, get_wave, get_len; TraceRead.get_wave, get_len"]}
{"id": "C133", "title": "The axis remains available", "statement": "The axis of a RAW file remains available after any sequence of read requests.", "quantifier": "every file and every sequence of trace subsets requested", "why_tests_cant": "unbounded sequences of requests", "anchors": ["spicelib/raw/plot_data.py: PlotData.read_trace_data, get_trace, get_axis"]}
{"id": "C134", "title": "Without conditions all steps are selected", "statement": "steps_with_conditions() without conditions selects all steps of a stepped data set.", "quantifier": "every step table and condition list", "why_tests_cant": "all tables", "anchors": ["spicelib/log/logfile_data.py: LogfileData.steps_with_conditions, steps_with_parameter_equal_to, get_measure_value"]}
{"id": "C135", "title": "Statistics of a single step and of any name", "statement": "The statistics accept a single step number, and names in any letter case like the look-up of values does.", "quantifier": "every list of measurement values (exact arithmetic)", "why_tests_cant": "all lists", "anchors": ["spicelib/log/logfile_data.py: LogfileData.min_measure_value, max_measure_value, avg_measure_value"]}
{"id": "C136", "title": "Stray brackets in a measurement line", "statement": "A closing bracket without opening one is rejected, and brackets right after a word belong to its item.", "quantifier": "every line", "why_tests_cant": "unbounded nesting depth", "anchors": ["spicelib/log/logfile_data.py: split_line_into_values"]}
{"id": "C137", "title": "Continuation lines and brackets as simulators take them", "statement": "A continuation is read as separated from the line before it, and a stray bracket does not change how later lines are cut.", "quantifier": "every text", "why_tests_cant": "all strings, unbounded nesting of braces and quotes", "anchors": ["spicelib/editor/spice_subcircuit.py: separate_lines"]}
{"id": "C138", "title": "Suffix case never changes a scaled value", "statement": "SPICE numbers are case-insensitive: scan_eng/parse_value gives the same number for any letter case of the same text (MEG, Meg, meg).", "quantifier": "every number text", "why_tests_cant": "all spellings", "anchors": ["spicelib/utils/float_unit.py: parse_value, scan_eng"]}
{"id": "C139", "title": "A runner without timeout can run", "statement": "SimRunner(timeout=None), documented as meaning 'no timeout', can start simulations with run() and run_now() like any other runner.", "quantifier": "all timeout settings of the runner and of the call", "why_tests_cant": "the test-suite only uses numeric timeouts; the combination of settings is open ended", "anchors": ["spicelib/sim/sim_runner.py:SimRunner.run", "spicelib/sim/sim_runner.py:SimRunner.run_now"]}
{"id": "C140", "title": "Closing a session discards the results of running simulations", "statement": "After close_session(session) returned True, the server keeps no result of any run of that session, now or later.", "quantifier": "every history of requests and completions, including runs still executing when the session is closed", "why_tests_cant": "depends on the moment a simulation finishes relative to the close request", "anchors": ["spicelib/client_server/sim_server.py:SimServer.close_session", "spicelib/client_server/srv_sim_runner.py:ServerSimRunner.run"]}
{"id": "C141", "title": "Stepped RAW files can be read without their log, and in text format", "statement": "A RAW file flagged as stepped whose step information cannot be found in a log file, or whose data section is in text format, can still be loaded: traces are returned and the steps are those visible in the axis.", "quantifier": "all stepped data sets, log present or not, both data formats", "why_tests_cant": "The loader's behaviour depends on the data and the surrounding files; tests ship matching logs with binary files only.", "anchors": ["spicelib/raw/plot_data.py: PlotData.__init__, _read_ascii_vector", "spicelib/raw/raw_classes.py: Axis.set_steps"]}
{"id": "C142", "title": "Points past the end of a step are refused", "statement": "get_point(n, step) with an index beyond the end of that step is an error rather than a sample of another step.", "quantifier": "all stepped data sets, steps and indices", "why_tests_cant": "Holds for all lengths of steps.", "anchors": ["spicelib/raw/raw_classes.py: Axis.get_point, TraceRead.get_point"]}
{"id": "C143", "title": "A step line that ends the file is read exactly", "statement": "A .step line without a newline at the end of the log is read like the others.", "quantifier": "all log files", "why_tests_cant": "Any number of lines and items, any text.", "anchors": ["spicelib/raw/plot_data.py: PlotData._load_step_information"]}
{"id": "C144", "title": "Simulator switches", "statement": "valid_switch(switch, parameter) of each simulator class returns, for every switch its documentation lists (except those of C145) with a parameter of the documented form, the words the simulator's command line wants: the switch as the program spells it and the parameter as given. Surrounding blanks and a missing leading dash make no difference, switches the library sets itself (output files, batch mode) are never returned, and any other name raises ValueError.", "quantifier": "all switch names, parameters and the four simulators", "why_tests_cant": "Switch names and parameters are arbitrary texts; tests try a few of the 70 switches.", "anchors": ["spicelib/simulators/ltspice_simulator.py: LTspice.valid_switch", "spicelib/simulators/ngspice_simulator.py: NGspiceSimulator.valid_switch", "spicelib/simulators/qspice_simulator.py: Qspice.valid_switch", "spicelib/simulators/xyce_simulator.py: XyceSimulator.valid_switch"]}
{"id": "C145", "title": "Every documented switch works", "statement": "Every switch that valid_switch documents gives a non-empty, correctly spelt list of words for some parameter.", "quantifier": "all documented switches and all parameters", "why_tests_cant": "That no parameter works is a statement about all texts.", "anchors": ["spicelib/simulators/ltspice_simulator.py: LTspice.valid_switch", "spicelib/simulators/ngspice_simulator.py: NGspiceSimulator.valid_switch", "spicelib/simulators/xyce_simulator.py: XyceSimulator.valid_switch"]}
{"id": "C146", "title": "Command line of a run", "statement": "The command a run starts has the executable first, the user's switches together and in order, and the netlist; the log and raw files named on it are exactly the files the library looks for afterwards, beside the netlist and with its stem.", "quantifier": "all simulators, platforms, netlist paths and switch lists", "why_tests_cant": "Paths and switch lists are unbounded; tests without simulators never build these commands.", "anchors": ["spicelib/simulators/ltspice_simulator.py: LTspice.run", "spicelib/simulators/ngspice_simulator.py: NGspiceSimulator.run", "spicelib/simulators/qspice_simulator.py: Qspice.run", "spicelib/simulators/xyce_simulator.py: XyceSimulator.run", "spicelib/sim/run_task.py: RunTask.run"]}
{"id": "C147", "title": "Runs have files of their own", "statement": "Two runs of one SimRunner that were named by the runner write to different log, raw and console files, whatever netlists were given.", "quantifier": "all histories of runs, polls and completions, and all netlist names", "why_tests_cant": "Histories and names are unbounded.", "anchors": ["spicelib/sim/sim_runner.py: SimRunner._run_file_name, run", "spicelib/sim/run_task.py: RunTask.run"]}
{"id": "C148", "title": "Switches of a run", "statement": "A run uses the switches given to it or else, in order, all those added to the runner since the last clear_command_line_switches.", "quantifier": "all histories of additions and clears", "why_tests_cant": "Unbounded histories of calls.", "anchors": ["spicelib/sim/sim_runner.py: SimRunner.add_command_line_switch, clear_command_line_switches, run"]}
{"id": "C149", "title": "Switches without parameter, and runs without switches", "statement": "add_command_line_switch(s) adds the one word s to the command line, and switches=[] starts a run without switches.", "quantifier": "all switches and histories", "why_tests_cant": "Holds for all histories of calls.", "anchors": ["spicelib/sim/sim_runner.py: SimRunner.add_command_line_switch, run"]}
{"id": "C150", "title": "Monte Carlo: the netlists simulated", "statement": "Montecarlo.run_analysis(num_runs=k) simulates exactly k netlists. Each is the netlist with the recorded edits, in which every component and parameter with a uniform or normal deviation has a value drawn from that deviation around its value there (between the extremes, or with the extremes at three standard deviations) and written with six digits, while all else is unchanged; draws do not add up from run to run, nor from one analysis to the next, and the settings stay as they were.", "quantifier": "all netlists, settings, recorded edits, numbers of runs, earlier analyses, and random numbers drawn", "why_tests_cant": "The draws are random and the settings unbounded; a test sees a few draws only.", "anchors": ["spicelib/sim/tookit/montecarlo.py: Montecarlo.run_analysis, _get_sim_value", "spicelib/sim/tookit/sim_analysis.py: _reset_netlist, play_instructions"]}
{"id": "C151", "title": "Monte Carlo: the text of a number drawn", "statement": "A drawn number as written to the netlist is read as the number rounded to six significant digits, and never crosses a limit that has at most six digits itself.", "quantifier": "all rational numbers and limits", "why_tests_cant": "Infinitely many numbers and magnitudes, with exponents and without.", "anchors": ["spicelib/sim/tookit/montecarlo.py: Montecarlo._get_sim_value", "spicelib/utils/float_unit.py: scan_eng"]}
{"id": "C152", "title": "Monte Carlo test bench", "statement": "After prepare_testbench(num_runs=N), run_testbench simulates netlists whose .step commands cover the runs -1..N once each and in order, and in which every tolerance (and, for LTspice, every even deviation between a minimum and a maximum) is a formula that gives the nominal value in run -1 and a value of the distribution asked for in all others; all other values are unchanged.", "quantifier": "all netlists, settings, numbers of runs, batch limits, run numbers and random numbers", "why_tests_cant": "Formulas are evaluated by the simulator, for unbounded numbers of runs and values.", "anchors": ["spicelib/sim/tookit/montecarlo.py: Montecarlo.prepare_testbench", "spicelib/sim/tookit/tolerance_deviations.py: run_testbench"]}
{"id": "C153", "title": "Monte Carlo test bench: every distribution", "statement": "In the test bench every deviation set, of components and parameters, has the formula of its distribution.", "quantifier": "all deviations and simulators", "why_tests_cant": "Concerns all settings; no test evaluates the formulas.", "anchors": ["spicelib/sim/tookit/montecarlo.py: Montecarlo.prepare_testbench"]}
{"id": "C154", "title": "Monte Carlo test bench without preparation", "statement": "run_testbench, called without prepare_testbench, prepares the test bench itself, so that the component values vary.", "quantifier": "all netlists and settings", "why_tests_cant": "Holds or fails for every setup, not one.", "anchors": ["spicelib/sim/tookit/tolerance_deviations.py: run_testbench"]}
{"id": "C155", "title": "Collecting logs keeps every value in order", "statement": "Reading the logs of an analysis (or adding logs one by one) gives, for every step variable and every measurement of any log, the concatenation of the values of that name in all the logs that could be read, in the order of the simulations, and nothing for names of no log; the step counts add up.", "quantifier": "every list of logs, some of which may be unreadable, with any step variables and measurements", "why_tests_cant": "the number, order and content of the logs are unbounded", "anchors": ["sim/tookit/sim_analysis.py:add_log_data", "sim/tookit/sim_analysis.py:read_logfiles"]}
{"id": "C156", "title": "Rows of collected logs are rows of one simulation", "statement": "If all logs have the same step variables and measurements with one value each per run, then the i-th values of all collected columns come from one and the same run of one log.", "quantifier": "every list of logs of the same shape and every row index", "why_tests_cant": "any number of logs with any number of runs", "anchors": ["sim/tookit/sim_analysis.py:add_log_data"]}
{"id": "C157", "title": "A measurement missing in one log does not shift the others", "statement": "When one log lacks a measurement, the values of the later logs still stand in the rows of their own runs.", "quantifier": "all lists of logs in which one lacks a measurement", "why_tests_cant": "needs a witness history; refuted by one", "anchors": ["sim/tookit/sim_analysis.py:add_log_data"]}
{"id": "C158", "title": "Collecting leaves the logs given unchanged", "statement": "Adding logs to an analysis does not change the logs passed in.", "quantifier": "all pairs of logs with a common step variable", "why_tests_cant": "aliasing of list objects is not visible in the results the tests compare", "anchors": ["sim/tookit/sim_analysis.py:add_log_data"]}
{"id": "C159", "title": "The exported data file is the table", "statement": "export_data writes a line of titles and one line per run with the run number, the step values and the measurements (several columns for list values), all lines having the same number of fields, and appends when a prefix for the lines is given.", "quantifier": "every set of columns of equal lengths and every separator not occurring in the texts", "why_tests_cant": "tables of any size and texts of any content", "anchors": ["log/logfile_data.py:export_data"]}
{"id": "C160", "title": "The export honours its line terminator and refuses unequal columns", "statement": "export_data ends lines with the given terminator, and does not silently cut or partially write columns of different lengths.", "quantifier": "all terminators and all columns", "why_tests_cant": "an unused argument changes nothing for any input; refuted universally and by witnesses", "anchors": ["log/logfile_data.py:export_data"]}
{"id": "C161", "title": "Steps of a Qspice log", "statement": "Reading a Qspice log whose step lines are numbered 1, 2, 3, ... gives the number of steps and, for every stepped variable in any letter case, the values set in the step lines in order; a log with steps missing, repeated or out of order is refused.", "quantifier": "every log made of step lines and other lines, any number of steps, variables and texts", "why_tests_cant": "logs of any length with any mixture of lines", "anchors": ["log/qspice_log_reader.py:QspiceLogReader.__init__"]}
{"id": "C162", "title": "Measurements of a Qspice .meas file", "statement": "Parsing a .meas file gives for every measurement, with or without a type, the values of each column run by run under the name of the measurement (further columns numbered name_1, name_2, ...), the step numbers under \"step\" for stepped simulations, nothing else, and the number of result lines.", "quantifier": "every .meas file with measurements of any names, number of values and runs", "why_tests_cant": "files of any size, any value texts including nested groups", "anchors": ["log/qspice_log_reader.py:parse_meas_file"]}
{"id": "C163", "title": "Types of measurements in any letter case", "statement": "A measurement whose type is written in capitals (.meas TRAN name ...) is found under its name.", "quantifier": "all measurements with a type not in lower case", "why_tests_cant": "holds or fails for all names; refuted for all", "anchors": ["log/qspice_log_reader.py:parse_meas_file"]}
{"id": "C164", "title": "Blank lines in a .meas file are ignored", "statement": "A blank line after a measurement does not prevent the file from being read.", "quantifier": "all .meas files with a blank line after the first measurement", "why_tests_cant": "all positions of the blank line; refuted for all", "anchors": ["log/qspice_log_reader.py:parse_meas_file"]}
{"id": "C165", "title": "Steps can be given by the caller", "statement": "A Qspice log reader given the steps from another file reads logs of stepped simulations.", "quantifier": "all step sets and all logs with steps", "why_tests_cant": "all step sets; refuted for all", "anchors": ["log/qspice_log_reader.py:QspiceLogReader.__init__"]}
{"id": "C166", "title": "Measurements do not overwrite each other", "statement": "Columns of one measurement are not replaced by another one, and the step numbers fit all measurements.", "quantifier": "all .meas files", "why_tests_cant": "needs an adversarial choice of names or missing results; refuted by witnesses", "anchors": ["log/qspice_log_reader.py:parse_meas_file"]}
{"id": "C167", "title": "Operating points of semiconductor devices are read completely", "statement": "Reading the operating points of a log gives a dictionary with every kind of device, in it every device named, and for it every quantity with the value in the device's column.", "quantifier": "all logs with the heading, any number of kinds, groups, devices and quantities, any white space between fields", "why_tests_cant": "the tables are unbounded in all directions; the examples have one or two devices", "anchors": ["log/semi_dev_op_reader.py:opLogReader"]}
{"id": "C168", "title": "A log without operating points gives an empty dictionary", "statement": "Reading operating points from a log without the heading gives an empty dictionary, whatever tables the log holds.", "quantifier": "all logs without a line beginning with the heading", "why_tests_cant": "all logs", "anchors": ["log/semi_dev_op_reader.py:opLogReader"]}
{"id": "C169", "title": "No value of an operating point is lost silently", "statement": "A line of values that does not fit the devices named is reported; blanks at the end of a line do not matter.", "quantifier": "all quantities, devices and rows", "why_tests_cant": "all rows; refuted for all of them", "anchors": ["log/semi_dev_op_reader.py:opLogReader"]}
{"id": "C170", "title": "Devices of a kind whose title occurs again are kept", "statement": "When a title occurs twice in the list of operating points the devices under both are in the dictionary.", "quantifier": "all titles and states of the reader", "why_tests_cant": "needs a log with a repeated title; refuted for all titles", "anchors": ["log/semi_dev_op_reader.py:opLogReader"]}
{"id": "C171", "title": "Measurements of a simulation without steps are read", "statement": "Reading the log of a simulation without steps gives for every measurement line its value under its name, and the limits of the interval or the point under name_FROM, name_TO or name_at, whatever the expression (it may contain equal signs), and nothing else.", "quantifier": "all logs of measurement lines, Fourier analyses and other lines without an equal sign", "why_tests_cant": "all names, expressions, values and their order; the line is split by a backtracking regular expression", "anchors": ["log/ltsteps.py:LTSpiceLogReader.__init__"]}
{"id": "C172", "title": "Fourier analyses are read completely and attributed to their step", "statement": "Reading a log gives for every signal all its Fourier analyses in order, each with its number of periods, DC component, distortions, every harmonic of its table, and the step it belongs to.", "quantifier": "all logs, any number of analyses, signals, steps and harmonics", "why_tests_cant": "unbounded tables, any interleaving with steps and other lines", "anchors": ["log/ltsteps.py:LTSpiceLogReader.__init__", "log/ltsteps.py:HarmonicData.from_line"]}
{"id": "C173", "title": "A measurement file is read with the steps of another log", "statement": "Reading a .mout file with the steps of the log keeps the steps, reads all its tables, and reports the number of steps.", "quantifier": "all step sets and all measurement files", "why_tests_cant": "all step sets; the number of steps is refuted for all", "anchors": ["log/ltsteps.py:LTSpiceLogReader.__init__", "log/logfile_data.py:LogfileData.__init__"]}
{"id": "C174", "title": "Only measurements are in the data of a log", "statement": "A line of a log that is not the result of a .MEAS directive is not in the data.", "quantifier": "all circuit names with an equal sign", "why_tests_cant": "needs an adversarial file name; refuted for all of them", "anchors": ["log/ltsteps.py:LTSpiceLogReader.__init__"]}
{"id": "C175", "title": "Measurements can have any name", "statement": "A measurement is read whatever its name is.", "quantifier": "all measurements whose name begins with Harmonic", "why_tests_cant": "needs an adversarial name; refuted for all of them", "anchors": ["log/ltsteps.py:LTSpiceLogReader.__init__"]}
{"id": "C176", "title": "Measurements are skipped when asked for", "statement": "Reading a log with read_measures=False gives the steps and no measurements.", "quantifier": "all logs", "why_tests_cant": "all logs with and without steps; refuted for those without", "anchors": ["log/ltsteps.py:LTSpiceLogReader.__init__"]}
{"id": "C177", "title": "Waveforms exported with steps become one table", "statement": "reformat_LTSpice_export turns an exported file with several runs into one table: a header with \"Run\", the names of the stepped parameters and the columns of the file, then every row of data, in order, with the number of its run and the values of the stepped parameters in that run.", "quantifier": "all exported files: any number of runs, rows and stepped parameters, any names and values made of letters, digits, \"_\", \".\" and \"-\"", "why_tests_cant": "the table is built line by line with state carried from one line to the next; only an induction over runs and rows covers all files", "anchors": ["log/ltsteps.py:reformat_LTSpice_export"]}
{"id": "C178", "title": "Rows keep their own run whatever the parameter values", "statement": "In the table written by reformat_LTSpice_export every row has the number and the values of its own run, whatever text the simulator wrote for a parameter (for instance a temperature with a degree sign).", "quantifier": "all values of the stepped parameters", "why_tests_cant": "a regular expression silently skips lines with unexpected characters; refuted for every such character", "anchors": ["log/ltsteps.py:reformat_LTSpice_export"]}
{"id": "C179", "title": "Exported waveforms are read with their steps", "statement": "LTSpiceExport of a file with several runs gives a data set with a list for every column of the file, for the run number and for every stepped parameter; each list has one entry for every row of every run, in order, and there are no other keys.", "quantifier": "all exported files whose column names differ (ignoring case) and whose rows have all columns", "why_tests_cant": "lists are filled in parallel from two dictionaries; that they stay aligned is an invariant over all rows and runs", "anchors": ["log/ltsteps.py:LTSpiceExport.__init__"]}
{"id": "C180", "title": "The last column of exported waveforms can be looked up", "statement": "After LTSpiceExport the last column of the file is found in the data set under its name in lower case, as the documentation of the class shows for any column.", "quantifier": "all exported files", "why_tests_cant": "refuted for every file whose header ends with a line feed", "anchors": ["log/ltsteps.py:LTSpiceExport.__init__"]}
{"id": "C181", "title": "Both spellings of the step line are read", "statement": "LTSpiceExport reads the files that reformat_LTSpice_export accepts, with \"(Run: 1/2)\" as well as with \"(Step: 1/2)\".", "quantifier": "all exported files", "why_tests_cant": "refuted for every file with the second spelling", "anchors": ["log/ltsteps.py:LTSpiceExport.__init__", "log/ltsteps.py:reformat_LTSpice_export"]}
{"id": "C182", "title": "Fourier analyses are exported once each", "statement": "The file written with the Fourier analyses of a log has, after a header, exactly one row for every analysis, with the values of the stepped parameters at its step, its signal, number of periods, DC component, fundamental frequency, number of harmonics and distortions.", "quantifier": "all logs: any number of steps, signals, analyses and harmonics (every analysis has a harmonic, and covers at least one period)", "why_tests_cant": "the exporter selects analyses by step number in nested loops; that nothing is lost or repeated depends on the order the reader guarantees for every log", "anchors": ["log/ltsteps.py:LTSpiceLogReader.export_data", "log/ltsteps.py:FourierData"]}
{"id": "C183", "title": "Every harmonic of a stepped log is exported", "statement": "For a log with steps the second table of the Fourier export has one row for every harmonic of every analysis, in order, with the values of the stepped parameters, under a header with the same number of columns.", "quantifier": "all logs with steps", "why_tests_cant": "nested loops over signals, analyses, steps and harmonics", "anchors": ["log/ltsteps.py:LTSpiceLogReader.export_data"]}
{"id": "C184", "title": "Header and rows of the harmonics table line up", "statement": "The header of the harmonics table has the same columns as its rows, also for logs without steps.", "quantifier": "all logs without steps", "why_tests_cant": "refuted for every such log", "anchors": ["log/ltsteps.py:LTSpiceLogReader.export_data"]}
{"id": "C185", "title": "The number of periods is exported as it is", "statement": "The number of periods of an analysis appears in the export as the log gives it, \"all\" only for all periods, with and without steps.", "quantifier": "all numbers of periods", "why_tests_cant": "refuted for fractions of a period in logs with steps", "anchors": ["log/ltsteps.py:LTSpiceLogReader.export_data"]}
{"id": "C186", "title": "No analysis is left out of the export", "statement": "Every Fourier analysis of a log is in the export, also those that come before the first step line.", "quantifier": "all logs", "why_tests_cant": "refuted for every stepped log with such analyses", "anchors": ["log/ltsteps.py:LTSpiceLogReader.export_data"]}
{"id": "C187", "title": "Pins drawn together are connected in the QSPICE netlist", "statement": "Each pin of each component of a QSPICE schematic gets the name of the label at its place, or else of a wire that ends there (GND is node 0); pins at the same place where nothing is drawn get the same node.", "quantifier": "all schematics: any labels, wires and components", "why_tests_cant": "any number of pins, labels and wires", "anchors": ["editor/qsch_editor.py:QschEditor._parse_qsch_stream", "editor/qsch_editor.py:QschEditor._find_net_at_position"]}
{"id": "C188", "title": "Open pins stay apart", "statement": "A pin where nothing is drawn gets a node name that no pin at another place has, nor any wire, nor any label that does not look like a numbered net.", "quantifier": "all schematics", "why_tests_cant": "any number of wires and pins", "anchors": ["editor/qsch_editor.py:QschEditor._parse_qsch_stream"]}
{"id": "C189", "title": "Open pins do not take the name of a label", "statement": "A pin where nothing is drawn is not connected to a label elsewhere.", "quantifier": "all schematics", "why_tests_cant": "refuted: a label N01 without a wire shares its name with an open pin", "anchors": ["editor/qsch_editor.py:QschEditor._parse_qsch_stream"]}
{"id": "C190", "title": "Every enabled component is written to the QSPICE netlist", "statement": "save_netlist writes the components in their order, none for a disabled one, else one line with its name, nodes, value and parameters as its kind asks, after its own library if the symbol holds one.", "quantifier": "all schematics that can be written", "why_tests_cant": "any number and kind of components", "anchors": ["editor/qsch_editor.py:QschEditor.save_netlist", "editor/qsch_editor.py:QschEditor.write_spice_to_file"]}
{"id": "C191", "title": "Names in the QSPICE netlist are distinct", "statement": "No two components of a schematic with distinct references get the same name in the netlist.", "quantifier": "all schematics whose references do not hold the acute sign", "why_tests_cant": "any references and symbol types", "anchors": ["editor/qsch_editor.py:QschEditor.write_spice_to_file"]}
{"id": "C192", "title": "Directives reach the QSPICE netlist, comments do not", "statement": "Every text of the schematic is written line by line in its order, except comments.", "quantifier": "all schematics that can be written", "why_tests_cant": "any texts", "anchors": ["editor/qsch_editor.py:QschEditor.write_spice_to_file"]}
{"id": "C193", "title": "Each library once", "statement": "The netlist includes each library that an enabled component needs exactly once, and no other.", "quantifier": "all schematics that can be written", "why_tests_cant": "any number of components and libraries", "anchors": ["editor/qsch_editor.py:QschEditor.write_spice_to_file"]}
{"id": "C194", "title": "Each sub-circuit is defined once", "statement": "The netlist defines each sub-circuit that an enabled component is an instance of exactly once, with the lines of the schematic of its first instance.", "quantifier": "all schematics that can be written, any depth of sub-circuits", "why_tests_cant": "any number of instances", "anchors": ["editor/qsch_editor.py:QschEditor.write_spice_to_file"]}
{"id": "C195", "title": "Edits in any instance reach the netlist", "statement": "An edit in the schematic of an instance of a sub-circuit is in the netlist that is written.", "quantifier": "all schematics and instances", "why_tests_cant": "refuted for every later instance of the same sub-circuit", "anchors": ["editor/qsch_editor.py:QschEditor.write_spice_to_file", "editor/base_schematic.py:BaseSchematic.set_component_value"]}
{"id": "C196", "title": "Values in brackets are written without them", "statement": "A parameter name=<value> of a QSPICE symbol is written as name=value; a text without brackets is unchanged.", "quantifier": "all names and values", "why_tests_cant": "any text", "anchors": ["editor/qsch_editor.py:decap"]}
{"id": "C197", "title": "Several values in brackets", "statement": "Each of several parameters in brackets in one text is written without its brackets.", "quantifier": "all texts", "why_tests_cant": "refuted: the first bracket pairs with the last", "anchors": ["editor/qsch_editor.py:decap"]}
{"id": "C198", "title": "Adding the traces of a RAW file with the same axis", "statement": "add_traces_from_raw without alignment, from a file of the same number type, axis kind and number of points, keeps everything the writer has and appends one trace per name asked, under the renamed name, with the samples of the step asked; into an empty writer it also takes the file's axis, number type, plot name and flags.", "quantifier": "all writers, files, name lists, steps and renamings", "why_tests_cant": "any number of traces and any samples", "anchors": ["raw/raw_write.py:RawWrite.add_traces_from_raw"]}
{"id": "C199", "title": "Merging RAW files with alignment resamples every trace correctly", "statement": "After any sequence of add_traces_from_raw calls with force_axis_alignment, save writes an increasing axis, and at each of its points that a trace covers, the trace (imported, or already there when the number of points changed) has the linear interpolation of its own samples; imported traces carry the renamed names in the order of the calls.", "quantifier": "all sequences of aligned merges, axes (increasing, points of the imported axes at least the admissible error apart, more points than calls), samples, renamings", "why_tests_cant": "histories of merges over arbitrary axes", "anchors": ["raw/raw_write.py:RawWrite.add_traces_from_raw", "raw/raw_write.py:RawWrite._interpolate", "raw/raw_write.py:RawWrite._consolidate", "raw/raw_write.py:RawWrite.save"]}
{"id": "C200", "title": "Traces already in the writer follow the merged axis", "statement": "After an aligned merge each trace that was already in the writer is resampled on the merged axis.", "quantifier": "all axes", "why_tests_cant": "refuted: not when the merged axis happens to have as many points as the old one", "anchors": ["raw/raw_write.py:RawWrite._consolidate"]}
{"id": "C201", "title": "The merged axis reaches the end of both axes", "statement": "An aligned merge of two files with the same axis keeps that axis.", "quantifier": "all axes", "why_tests_cant": "refuted for every axis: its last point is dropped", "anchors": ["raw/raw_write.py:RawWrite.add_traces_from_raw"]}
{"id": "C202", "title": "The merged axis", "statement": "The axis of an aligned merge is increasing, has only points of the two axes, keeps the points of the existing axis, and has a point within the admissible error of each point of the other one, up to the ends of the axes.", "quantifier": "all increasing axes, admissible errors and files", "why_tests_cant": "any interleaving of the points", "anchors": ["raw/raw_write.py:RawWrite.add_traces_from_raw"]}
{"id": "C203", "title": "The step keyword of an aligned merge", "statement": "add_traces_from_raw(step=n) with alignment imports the samples of step n.", "quantifier": "all steps", "why_tests_cant": "refuted: the samples of step 0 are written on the axis of step n", "anchors": ["raw/raw_write.py:RawWrite.add_traces_from_raw", "raw/raw_write.py:RawWrite._consolidate"]}
{"id": "C204", "title": "Merging leaves the file read from alone", "statement": "add_traces_from_raw does not change the RawRead object given to it.", "quantifier": "all aligned merges", "why_tests_cant": "refuted for every one: the trace objects of the source get the new names", "anchors": ["raw/raw_write.py:RawWrite.add_traces_from_raw"]}
{"id": "C205", "title": "Files with another axis are not merged silently", "statement": "add_traces_from_raw without alignment refuses a file whose axis differs.", "quantifier": "all axes", "why_tests_cant": "refuted for every axis with as many points: only the number of points is compared", "anchors": ["raw/raw_write.py:RawWrite.add_traces_from_raw"]}
{"id": "C206", "title": "Renamed traces keep their V() or I()", "statement": "add_tag and rename_format change what is between the brackets of V(...) and I(...), and the whole of any other name.", "quantifier": "all names, tags and formats", "why_tests_cant": "any text", "anchors": ["raw/raw_write.py:RawWrite._rename_netlabel"]}
{"id": "C207", "title": "The same trace added twice under two tags", "statement": "Adding one trace twice with alignment under two tags writes two traces with the two names.", "quantifier": "all tags", "why_tests_cant": "refuted: both carry the second name", "anchors": ["raw/raw_write.py:RawWrite.add_traces_from_raw", "raw/raw_write.py:RawWrite._consolidate"]}
{"id": "C208", "title": "Only files of the same kind are merged", "statement": "add_traces_from_raw refuses a file with another number type or another kind of axis.", "quantifier": "all writers with traces, all files", "why_tests_cant": "any flags", "anchors": ["raw/raw_write.py:RawWrite.add_traces_from_raw"]}
{"id": "C209", "title": "Renaming keeps names apart", "statement": "add_tag gives different names to different traces.", "quantifier": "all names", "why_tests_cant": "refuted: what follows the closing bracket is dropped", "anchors": ["raw/raw_write.py:RawWrite._rename_netlabel"]}
{"id": "C210", "title": "QSPICE component parameters follow the calls", "statement": "After any sequence of set_parameter(s) calls on a component of a QSPICE schematic, get_parameters gives for each name what was set last, nothing if it was removed last, and what it gave before for the names not mentioned; the reference, the value, the drawing and the pins are unchanged and the symbol can still be written and read.", "quantifier": "every symbol whose parameter texts set each name once, every sequence of calls with good names and values, including removals (None)", "why_tests_cant": "The symbol's texts, the order of the settings and the sequence of calls are unbounded; a removed text may still be looked through in the same call.", "anchors": ["spicelib/editor/qsch_editor.py:QschComponent.get_parameters", "spicelib/editor/qsch_editor.py:QschComponent.set_parameters", "spicelib/editor/qsch_editor.py:QschTag.get_xy_for_new_text"]}
{"id": "C211", "title": "A QSPICE component parameter that was set is the one read", "statement": "After set_parameter(name, value) on a QSPICE component, get_parameters gives that value for the name, also when the name stands in two of its texts.", "quantifier": "every symbol", "why_tests_cant": "Needs a symbol with the name in two texts; the setter takes the first and the getter the last.", "anchors": ["spicelib/editor/qsch_editor.py:QschComponent.get_parameters", "spicelib/editor/qsch_editor.py:QschComponent.set_parameters"]}
{"id": "C212", "title": "QSPICE component parameter names ignore case", "statement": "Setting a parameter of a QSPICE component under its name in another case changes that parameter.", "quantifier": "every symbol and name", "why_tests_cant": "The case of letters differs from one schematic to another.", "anchors": ["spicelib/editor/qsch_editor.py:QschComponent.set_parameters"]}
{"id": "C213", "title": "A QSPICE component parameter that was set is listed", "statement": "A parameter that set_parameters sets on a QSPICE component is one of those get_parameters lists afterwards.", "quantifier": "every symbol, with any value text", "why_tests_cant": "The value text is free; a setting inside it is found by the setter only.", "anchors": ["spicelib/editor/qsch_editor.py:QschComponent.get_parameters", "spicelib/editor/qsch_editor.py:QschComponent.set_parameters"]}
{"id": "C214", "title": "QSPICE component texts by number", "statement": "get_parameters of a QSPICE component gives the i-th text of the symbol under the number i, from 2 on, whether or not it holds settings, nothing under 0, 1 or a number past the end, and the settings of all texts under their names.", "quantifier": "every symbol with any number of texts, settings and blanks", "why_tests_cant": "The number of texts and settings is unbounded.", "anchors": ["spicelib/editor/qsch_editor.py:QschComponent.get_parameters"]}
{"id": "C215", "title": "Names of the parameters of a QSPICE schematic", "statement": "get_all_parameter_names gives the names set in the .PARAM directives of a QSPICE schematic, in upper case and sorted, and no others; comments do not count.", "quantifier": "every schematic with well-formed directives", "why_tests_cant": "Number and order of the directives are unbounded.", "anchors": ["spicelib/editor/qsch_editor.py:QschEditor.get_all_parameter_names"]}
{"id": "C216", "title": "A symbol file is read completely", "statement": "Opening an LTspice symbol file gives its version, its type, all its attributes (the prefix in capitals), lines, shapes with their points and line styles, texts with place, size and alignment, and pins with place, justification, offset and all their attributes.", "quantifier": "all well-formed symbol files (any number and order of items, any coordinates)", "why_tests_cant": "Tests read a few symbols; the claim is about every symbol file, with its items in any order.", "anchors": ["spicelib/editor/asy_reader.py: AsyReader.__init__"]}
{"id": "C217", "title": "Pin attributes may contain blanks", "statement": "A symbol file in which the value of a pin's attribute contains a blank can be read. (Refuted: reading it raises an exception.)", "quantifier": "all attribute names and all values with a blank", "why_tests_cant": "The test symbols have one-word pin names.", "anchors": ["spicelib/editor/asy_reader.py: AsyReader.__init__"]}
{"id": "C218", "title": "A converted symbol shows everything the symbol shows", "statement": "Converting a symbol with a prefix, a description, named pins and no more texts than arguments gives a QSPICE symbol with the same prefix and description, all lines, rectangles, circles and pins (with their names) at their places times 6.25 with the Y axis turned over, and the arguments as texts at the places of the symbol's texts; it can be written and read back.", "quantifier": "all convertible symbol files and all arguments without quotes", "why_tests_cant": "Unit tests compare one or two symbols with a stored result.", "anchors": ["spicelib/editor/asy_reader.py: AsyReader.to_qsch"]}
{"id": "C219", "title": "On the grid the conversion is exact", "statement": "Coordinates that are multiples of 4 are converted exactly, whichever way they are rounded; so two points coincide after the conversion if and only if they did before.", "quantifier": "all points", "why_tests_cant": "Arithmetic on all integers.", "anchors": ["spicelib/editor/asy_reader.py: AsyReader.to_qsch", "spicelib/scripts/asc_to_qsch.py: convert_asc_to_qsch"]}
{"id": "C220", "title": "Lines that end at a pin still do", "statement": "A line of a symbol that ends at a pin ends at that pin after the conversion. (Refuted off the grid: line ends are truncated and pins are rounded.)", "quantifier": "all symbols", "why_tests_cant": "Test symbols are on the grid.", "anchors": ["spicelib/editor/asy_reader.py: AsyReader.to_qsch"]}
{"id": "C221", "title": "A converted schematic contains everything", "statement": "Converting an LTspice schematic whose symbols are found and convertible gives a QSPICE file that can be read, with every component at its place and turned as before, with the drawing of its symbol, and every label, wire, line, rectangle, circle and text. If the symbols are all different and show two texts each, the opened file has exactly the components and values of the schematic.", "quantifier": "all well-formed schematics without arcs, all symbol libraries", "why_tests_cant": "Tests convert a few schematics and do not compare the contents.", "anchors": ["spicelib/scripts/asc_to_qsch.py: convert_asc_to_qsch", "spicelib/editor/qsch_editor.py: QschEditor.copy_from, QschEditor._parse_qsch_stream"]}
{"id": "C222", "title": "Several components with one symbol survive the conversion", "statement": "All components of a schematic are in the converted one. (Refuted: of the components with the same symbol only the first is; the others get its reference and value.)", "quantifier": "all schematics in which two components share a symbol", "why_tests_cant": "The conversion tests do not open the result and list the components.", "anchors": ["spicelib/scripts/asc_to_qsch.py: convert_asc_to_qsch"]}
{"id": "C223", "title": "Symbols with many texts can be converted", "statement": "A symbol that shows more texts than a reference and a value can be converted. (Refuted: an exception.)", "quantifier": "all symbols with more texts than arguments", "why_tests_cant": "Test symbols have two windows.", "anchors": ["spicelib/editor/asy_reader.py: AsyReader.to_qsch"]}
{"id": "C224", "title": "Comments remain comments", "statement": "A comment on an LTspice schematic is a comment on the converted one. (Refuted: every text becomes a directive, and the netlist contains the comment as a line.)", "quantifier": "all schematics with a comment", "why_tests_cant": "No test compares comments.", "anchors": ["spicelib/editor/qsch_editor.py: QschEditor.copy_from"]}
{"id": "C225", "title": "Wires keep their nets apart", "statement": "Pins that are not connected in the LTspice schematic are not connected in the netlist of the converted one. (Refuted: every wire is written with net 0, so that every pin at the end of a wire without label is on node 0.)", "quantifier": "all converted schematics", "why_tests_cant": "No test writes the netlist of a converted schematic.", "anchors": ["spicelib/editor/qsch_editor.py: QschEditor.copy_from, QschEditor._parse_qsch_stream"]}
{"id": "C226", "title": "Arcs are drawn where they were", "statement": "The ends of an arc are converted like other points. (Refuted: they are divided by the radius, and taken relative to the centre.)", "quantifier": "all circles", "why_tests_cant": "One test symbol has an arc; its place is not checked.", "anchors": ["spicelib/editor/asy_reader.py: AsyReader.to_qsch"]}
{"id": "C227", "title": "A missing symbol does not spoil the file", "statement": "If the symbol of a component is not found the converted file can still be opened. (Refuted: the component is written without a symbol, and opening the file fails.)", "quantifier": "schematics with a symbol that is not found", "why_tests_cant": "Tests have all symbols.", "anchors": ["spicelib/scripts/asc_to_qsch.py: convert_asc_to_qsch"]}
{"id": "C228", "title": "Blocks can be converted", "statement": "A symbol without prefix or description, such as a hierarchical block, can be converted. (Refuted: KeyError.)", "quantifier": "all symbols without one of the two attributes", "why_tests_cant": "Only cells are tested.", "anchors": ["spicelib/editor/asy_reader.py: AsyReader.to_qsch"]}
{"id": "C229", "title": "Kind, model and library of a symbol", "statement": "A symbol is a sub-circuit if and only if its type is BLOCK or its prefix x or X; its model is the first of seven attributes that is present, its library the first of seven that ends in .lib, .sub, .cir or .txt in any case, or else its SpiceModel.", "quantifier": "all well-formed symbol files", "why_tests_cant": "The order of the attributes matters in every combination.", "anchors": ["spicelib/editor/asy_reader.py: AsyReader.is_subcircuit, AsyReader.get_model, AsyReader.get_library"]}
{"id": "C230", "title": "Pins of turned QSPICE components are at the exact place", "statement": "When a QSPICE schematic is read, a pin on QSPICE's grid (multiples of 100, at most 100000 from the symbol's origin) is taken to be at the place QSPICE draws it: the component's place plus the pin's position turned by the orientation (0 to 7 by 45 degrees, 8 to 15 then mirrored); different pins of a component are at different places; other orientations are refused.", "quantifier": "All component places, orientations and pin positions on the grid.", "why_tests_cant": "The sixteen orientations times all positions and the rounding of sines and cosines cannot be enumerated by tests.", "anchors": ["spicelib/editor/qsch_editor.py:QschEditor._find_pin_position"]}
{"id": "C231", "title": "Pins off the grid keep their own place (refuted)", "statement": "A pin of a component turned by quarter turns is where QSPICE draws it even if it is not on the 100-unit grid, so that the pins of a small symbol stay apart. Refuted: all pins less than 50 from the symbol's origin are taken to be at the component's own place.", "quantifier": "All components turned by quarter turns, mirrored or not, and all pin positions closer than 50.", "why_tests_cant": "Tests use the stock symbols, whose pins are on the grid.", "anchors": ["spicelib/editor/qsch_editor.py:QschEditor._find_pin_position"]}
{"id": "C232", "title": "With pins on the grid the nodes are those of the exact places", "statement": "When all pins of a QSPICE schematic are on the grid, the nodes given to the components when the file is read are those computed with the exact places (whole-number turns) of the pins.", "quantifier": "All schematics, whatever their components, labels and wires.", "why_tests_cant": "Depends on every pin of every component and on where labels and wires are.", "anchors": ["spicelib/editor/qsch_editor.py:QschEditor._find_pin_position", "spicelib/editor/qsch_editor.py:QschEditor._parse_qsch_stream"]}
{"id": "C233", "title": "Converting an LTspice schematic keeps every pin where it was", "statement": "After conversion to QSPICE every pin of every component is, as the QSPICE reader computes it, exactly at the converted place of the pin in the LTspice schematic, for all eight LTspice orientations, provided the components are on LTspice's grid (multiples of 4) and the pins of the symbols on multiples of 16; so a pin touches a wire, a label or another pin after conversion exactly if it did before.", "quantifier": "All schematics, symbol libraries and orientations.", "why_tests_cant": "The orientations are translated by a table (clockwise to anti-clockwise, mirrored axes) which tests exercise on a few drawings only.", "anchors": ["spicelib/scripts/asc_to_qsch.py:convert_asc_to_qsch", "spicelib/editor/qsch_editor.py:QschEditor._find_pin_position"]}
{"id": "C234", "title": "cleanup_files puts the disk back as it was before the runs", "statement": "After any number of runs started, finished and collected in any order, cleanup_files leaves every file of the disk as it was before the first run (neither the netlists, logs nor waveforms of finished runs stay, no other file is changed or deleted), except the files of runs still going on, which it does not touch; provided the names of the run files were free, the runs got their names from the runner, failed runs left no waveforms, and no run timed out waiting for a slot.", "quantifier": "All histories of runs, simulator outputs, ends and cleanups, all simulators, output folders and initial disks.", "why_tests_cant": "The files deleted are computed from names; that no name of one run equals one of another run or of the user depends on every name and history.", "anchors": ["spicelib/sim/sim_runner.py:SimRunner.cleanup_files", "spicelib/sim/sim_runner.py:SimRunner._prepare_sim", "spicelib/sim/run_task.py:RunTask.run"]}
{"id": "C235", "title": "cleanup_files deletes the waveforms of failed runs too", "statement": "The waveform file a failed run (simulator return code not zero) has left is deleted by cleanup_files.", "quantifier": "All circuits, simulators, folders and return codes.", "why_tests_cant": "A universal claim; that it fails for every failed run is proved, whatever the names are.", "anchors": ["spicelib/sim/sim_runner.py:SimRunner.cleanup_files", "spicelib/sim/run_task.py:RunTask.run"]}
{"id": "C236", "title": "cleanup_files deletes LTspice's side files whatever the extension of the netlist", "statement": "The .log.raw, .op.raw and .db files beside the netlist of a finished run are deleted for every netlist extension (.net, .asc, .cir, .sp, .ckt).", "quantifier": "All names, folders and netlist extensions.", "why_tests_cant": "Universal over names and extensions.", "anchors": ["spicelib/sim/sim_runner.py:SimRunner.cleanup_files"]}
{"id": "C237", "title": "cleanup_files deletes the netlist of a run that found no free slot", "statement": "When run gives up waiting for a slot, the netlist it had already written is deleted by cleanup_files.", "quantifier": "All runs that time out waiting.", "why_tests_cant": "A schedule-dependent path (all slots busy until the time limit).", "anchors": ["spicelib/sim/sim_runner.py:SimRunner.run", "spicelib/sim/sim_runner.py:SimRunner.cleanup_files"]}
{"id": "C238", "title": "cleanup_files does not delete a file that was there before the runs", "statement": "A file of the user which was there before a run is still there after cleanup_files, whatever run_filename the run was given.", "quantifier": "All file names, disks and return codes.", "why_tests_cant": "Universal over names given by the user.", "anchors": ["spicelib/sim/sim_runner.py:SimRunner.cleanup_files", "spicelib/sim/sim_runner.py:SimRunner.run"]}
{"id": "C239", "title": "Aborting kills the simulators that are running", "statement": "kill_all_spice ends the processes of the simulator.", "quantifier": "All lists of processes.", "why_tests_cant": "Depends on the processes of the machine; no test starts a process with the name looked for.", "anchors": ["spicelib/sim/sim_runner.py:SimRunner.kill_all_spice", "spicelib/sim/sim_runner.py:SimRunner.wait_completion"]}
{"id": "C240", "title": "wait_completion without a limit waits for the last time limit of the running tasks", "statement": "The time wait_completion stops waiting at, when it is given no timeout, is the greatest of the times at which the started tasks are over their own limit (start plus the task's timeout, or the runner's if the task has none), and there is none exactly if no started task has a limit.", "quantifier": "All lists of tasks, start times and limits.", "why_tests_cant": "A maximum over arbitrary lists with optional limits.", "anchors": ["spicelib/sim/sim_runner.py:SimRunner._maximum_stop_time", "spicelib/sim/sim_runner.py:SimRunner.wait_completion"]}
{"id": "C241", "title": "A client gets exactly what the simulator of its run wrote", "statement": "For every interleaving of requests of any number of clients with simulators writing and ending: the archive get_files returns for a run contains exactly the waveform and log the simulator of that run last wrote (only the log, as .fail, if it failed), the run is one that session started, and a collected run that left a log can be fetched; provided no client sends files with names of run files and the server's folder had none.", "quantifier": "All histories of sessions, runs, outputs, ends, collections, fetches and closes; all simulators.", "why_tests_cant": "Depends on every interleaving of clients and simulations sharing one folder.", "anchors": ["spicelib/client_server/sim_server.py:SimServer.get_files", "spicelib/client_server/srv_sim_runner.py:zip_files", "spicelib/client_server/srv_sim_runner.py:ServerSimRunner.add_simulation"]}
{"id": "C242", "title": "A run is delivered once and its files are then deleted", "statement": "After get_files delivered a run, its netlist, log, waveforms and archive are deleted, no file of another run and no other file is touched, and it is never delivered again, whatever happens afterwards.", "quantifier": "All histories before and after the fetch.", "why_tests_cant": "A history property over all later events.", "anchors": ["spicelib/client_server/sim_server.py:SimServer.get_files", "spicelib/client_server/srv_sim_runner.py:ServerSimRunner.erase_files_of_runno"]}
{"id": "C243", "title": "The netlist of a run is the one its client sent", "statement": "As long as a run goes on or waits to be fetched, its netlist file contains the circuit its own client sent with it, even if other clients sent circuits of the same name meanwhile.", "quantifier": "All histories.", "why_tests_cant": "Depends on what every other client sends at any time.", "anchors": ["spicelib/client_server/sim_server.py:SimServer.run", "spicelib/client_server/sim_server.py:SimServer.add_sources"]}
{"id": "C244", "title": "The server leaves its folder as it was", "statement": "When all runs have been fetched, all sessions closed and the server stopped, its output folder contains no file of the runs and none of the sources sent.", "quantifier": "All sessions and runs.", "why_tests_cant": "Universal over what simulators write.", "anchors": ["spicelib/client_server/srv_sim_runner.py:ServerSimRunner._erase_files_and_info", "spicelib/client_server/sim_server.py:SimServer.add_sources"]}
{"id": "C245", "title": "Stopping the server deletes the files of runs nobody fetched", "statement": "stop_server removes the files of all finished runs that were not yet cleaned (documented in ServerSimRunner.run).", "quantifier": "All histories before the stop.", "why_tests_cant": "Depends on which runs the manager thread collected before the stop.", "anchors": ["spicelib/client_server/srv_sim_runner.py:ServerSimRunner.run", "spicelib/client_server/sim_server.py:SimServer.stop_server"]}
{"id": "C246", "title": "A run sees the sources its client sent", "statement": "While a run goes on, the library files sent with it are those on the server's disk.", "quantifier": "All clients and names of files.", "why_tests_cant": "A race between two clients.", "anchors": ["spicelib/client_server/sim_server.py:SimServer.add_sources"]}
{"id": "C247", "title": "No client can change the netlist of another client's run", "statement": "Requests of one session do not change the netlist of a run of another session, whatever the names of the files sent.", "quantifier": "All names.", "why_tests_cant": "A clash of names computed by the server with names chosen by clients.", "anchors": ["spicelib/client_server/sim_server.py:SimServer.run", "spicelib/sim/sim_runner.py:SimRunner._run_file_name"]}
{"id": "C248", "title": "A value in decibels and degrees is read with that gain and that phase", "statement": "A text \"(g dB, p °)\" of a log file becomes a complex value whose magnitude is 10^(g/20), whose mag_db() is g and whose ph is p.", "quantifier": "All numerals g; all numerals p with a value above -180 and at most 180.", "why_tests_cant": "Real numbers and trigonometric functions; tests compare a few values with a tolerance.", "anchors": ["spicelib/log/logfile_data.py:LTComplex"]}
{"id": "C249", "title": "A value with magnitude and degrees, or with real and imaginary part, is read as such", "statement": "A text \"(x,y)\" becomes the value with real part x and imaginary part y; a text \"(m,p°)\" the value with magnitude m and phase p.", "quantifier": "All numerals; for the second form positive m and p above -180 and at most 180.", "why_tests_cant": "All numerals.", "anchors": ["spicelib/log/logfile_data.py:LTComplex"]}
{"id": "C250", "title": "Texts of logs become whole numbers, numbers and words", "statement": "A whole number is read as that whole number, a numeral with point or exponent as its value, and a word that does not start like a number is kept, without the blanks around it.", "quantifier": "All whole numbers; all numerals with fraction or exponent; all words whose first letter is not i or n.", "why_tests_cant": "All texts of these forms.", "anchors": ["spicelib/log/logfile_data.py:try_convert_value"]}
{"id": "C251", "title": "Splitting complex values adds magnitudes and phases and keeps the rest", "statement": "After the complex values of the log data are split, each column of complex values k has the columns k_mag and k_ph with the magnitudes and phases of its values, in order; all other columns are as before and no other column is added.", "quantifier": "All data sets whose columns are either wholly complex or not complex, and in which no name of a new column is used.", "why_tests_cant": "All numbers of columns and steps, any order of the names.", "anchors": ["spicelib/log/logfile_data.py:LogfileData.obtain_amplitude_and_phase_from_complex_values"]}
{"id": "C252", "title": "Splitting complex values loses no measurement", "statement": "Every column that was there before complex values are split is there after with the same values.", "quantifier": "All data sets.", "why_tests_cant": "A clash of a computed name with a name of the user.", "anchors": ["spicelib/log/logfile_data.py:LogfileData.obtain_amplitude_and_phase_from_complex_values"]}
{"id": "C253", "title": "Complex values can be split when a measurement failed in some step", "statement": "Splitting does not raise if a complex measurement has FAILED in some step.", "quantifier": "All numbers of steps and all positions of the failed one.", "why_tests_cant": "All positions.", "anchors": ["spicelib/log/logfile_data.py:LogfileData.obtain_amplitude_and_phase_from_complex_values"]}
{"id": "C254", "title": "A text that is no complex value is kept as text", "statement": "A text with more after the closing parenthesis of a complex value is not converted to that value.", "quantifier": "All texts after the parenthesis.", "why_tests_cant": "All texts.", "anchors": ["spicelib/log/logfile_data.py:LTComplex"]}
{"id": "C255", "title": "The quick sensitivity test bench varies one element at a time", "statement": "In the netlists of a prepared test bench the k-th element analysed has its upper (with use_min: lower) extreme in run k and its nominal value in every other run, run -1 is all nominal, the runs -1 to n-1 are each simulated once, every component with a deviation is among the n elements, and everything else in the netlist stays.", "quantifier": "All circuits, tolerances, deviations and limits of runs per simulation; numbers of six digits.", "why_tests_cant": "All sets of components and all runs; a test evaluates few formulas.", "anchors": ["spicelib/sim/tookit/quick_sensitivity_analysis.py:QuickSensitivityAnalysis.prepare_testbench", "spicelib/sim/tookit/tolerance_deviations.py:ToleranceDeviations.run_testbench"]}
{"id": "C256", "title": "The quick sensitivity test bench analyses the deviations of parameters", "statement": "A parameter with a deviation is one of the elements of the test bench and takes its extreme in one run.", "quantifier": "All parameters with deviations.", "why_tests_cant": "Universal over circuits.", "anchors": ["spicelib/sim/tookit/quick_sensitivity_analysis.py:QuickSensitivityAnalysis.prepare_testbench"]}
{"id": "C257", "title": "A quick sensitivity test bench that was not prepared is prepared when run", "statement": "run_testbench without prepare_testbench simulates the same netlists as with it.", "quantifier": "All circuits and settings.", "why_tests_cant": "The order of recording and playing of edits.", "anchors": ["spicelib/sim/tookit/tolerance_deviations.py:ToleranceDeviations.run_testbench", "spicelib/sim/tookit/quick_sensitivity_analysis.py:QuickSensitivityAnalysis.prepare_testbench"]}
{"id": "C258", "title": "The extremes of a worst case analysis are the least and the greatest value of all runs", "statement": "If every simulation of a worst case analysis gave one value of a measurement, get_min_max_measure_value gives the least and the greatest of them.", "quantifier": "All numbers of simulations, all values.", "why_tests_cant": "All sequences of values.", "anchors": ["spicelib/sim/tookit/worst_case.py:WorstCaseAnalysis.get_min_max_measure_value", "spicelib/sim/tookit/sim_analysis.py:SimAnalysis.read_logfiles"]}
{"id": "C259", "title": "A failed simulation does not hide the extremes of the others", "statement": "If some simulation of a worst case analysis failed, get_min_max_measure_value gives the extremes of the values there are.", "quantifier": "All positions of failed simulations.", "why_tests_cant": "All positions.", "anchors": ["spicelib/sim/tookit/worst_case.py:WorstCaseAnalysis.get_min_max_measure_value"]}
{"id": "C260", "title": "Alias traces have the value of their formula", "statement": "get_trace of an alias that a QSPICE RAW file defines (in any case of its letters) gives, at every point, the value of its formula: numbers with or without mho/ohm, parameters of the file, pi and e, the sweep variable, V(..), I(..), P(..), differences V(a,b), V(a,0), V(0,b), signs, parentheses and + - * / with the usual precedence, evaluated on the traces of the file.", "quantifier": "all formulas of any size over such names, all files (header lines, traces, values) and all points", "why_tests_cant": "formulas are unbounded texts rewritten by five substitutions and evaluated with eval; tests look at the number of points of one alias", "anchors": ["spicelib/raw/plot_data.py:_compute_alias", "spicelib/raw/plot_data.py:namify", "spicelib/raw/plot_data.py:get_trace"]}
{"id": "C261", "title": "A formula with blanks does not make the file unreadable", "statement": "A RAW file with an alias whose formula contains blanks can be read, at least its ordinary traces.", "quantifier": "all header lines, names and formulas", "why_tests_cant": "needs every header", "anchors": ["spicelib/raw/plot_data.py:203-206"]}
{"id": "C262", "title": "Units are removed from numbers only", "statement": "The value of an alias does not depend on whether names of nodes contain digits followed by ohm or mho.", "quantifier": "all names of nodes and formulas", "why_tests_cant": "needs every node name", "anchors": ["spicelib/raw/plot_data.py:568"]}
{"id": "C263", "title": "Aliases over all traces of the file", "statement": "An alias can be computed whatever the names of the traces in its formula, for example nodes inside of subcircuits.", "quantifier": "all trace names and formulas", "why_tests_cant": "needs every trace name", "anchors": ["spicelib/raw/plot_data.py:namify", "spicelib/raw/plot_data.py:_compute_alias"]}
{"id": "C264", "title": "All listed traces can be read", "statement": "Every name that get_trace_names lists, aliases included, can be given to get_trace.", "quantifier": "all RAW files", "why_tests_cant": "needs every file; Freq and Omega of QSPICE's own AC files are never asked for by the tests", "anchors": ["spicelib/raw/plot_data.py:get_trace_names", "spicelib/raw/plot_data.py:_compute_alias"]}
{"id": "C265", "title": "Aliases do not depend on unrelated parameters or their names", "statement": "An alias can be computed whatever the values of parameters it does not use, and whatever the names of those it uses.", "quantifier": "all files, parameters and formulas", "why_tests_cant": "needs every parameter name and value", "anchors": ["spicelib/raw/plot_data.py:_compute_alias"]}
{"id": "C266", "title": "The stepping table has the values of every simulation", "statement": "After a stepped simulation, export_step_info writes a CSV file that a CSV reader reads as a title line with the names in the order they were first set and one line per accepted simulation with its run number, the value that every swept or previously set name had in that simulation, and its netlist file; texts are quoted, numbers are not.", "quantifier": "All sweeps over reusable iterables, all values set before, all delimiters other than quotes, line ends and digits, and all patterns of refused simulations, provided names are used for one thing only and none is called runno or netlist.", "why_tests_cant": "The number and nesting of sweeps, the values and the pattern of refusals are unbounded.", "anchors": ["spicelib/sim/sim_stepping.py:SimStepper.run_all", "spicelib/sim/sim_stepping.py:SimStepper.export_step_info"]}
{"id": "C267", "title": "The stepping table can be read back exactly", "statement": "Whatever simulations were recorded, if all of them have the same names, the exported file read by a CSV reader is the table of all of them in ascending order of their run numbers, and every text comes back exactly, whatever quotes, delimiters and line ends are in it.", "quantifier": "All collections of recorded simulations with equal sets of names, all texts and all delimiters other than quotes, line ends and digits.", "why_tests_cant": "Texts and tables are unbounded.", "anchors": ["spicelib/sim/sim_stepping.py:SimStepper.export_step_info"]}
{"id": "C268", "title": "Values set later do not break the stepping table", "statement": "A stepping table can be exported when a value was set for a further name between two stepped simulations.", "quantifier": "All sequences of settings and stepped simulations.", "why_tests_cant": "It must hold for every history of calls.", "anchors": ["spicelib/sim/sim_stepping.py:SimStepper.set_component_value", "spicelib/sim/sim_stepping.py:SimStepper.export_step_info"]}
{"id": "C269", "title": "A parameter and a component of one name have columns of their own", "statement": "When a parameter and a component of the same name (or a component's model and value) are stepped, the stepping table tells both values of every simulation.", "quantifier": "All sweeps.", "why_tests_cant": "Histories and values are unbounded.", "anchors": ["spicelib/sim/sim_stepping.py:SimStepper.run_all", "spicelib/sim/sim_stepping.py:SimStepper.export_step_info"]}
{"id": "C270", "title": "A stepped simulation without accepted runs exports an empty table", "statement": "If no simulation was accepted, export_step_info writes a table without lines.", "quantifier": "All stepped simulations.", "why_tests_cant": "It must hold for every pattern of refusals.", "anchors": ["spicelib/sim/sim_stepping.py:SimStepper.export_step_info"]}
{"id": "C271", "title": "Parameters can have any name in the stepping table", "statement": "A parameter called runno or netlist does not displace the run number or the netlist file in the stepping table.", "quantifier": "All names of parameters.", "why_tests_cant": "Names are unbounded.", "anchors": ["spicelib/sim/sim_stepping.py:SimStepper.run_all", "spicelib/sim/sim_stepping.py:SimStepper.export_step_info"]}
{"id": "C272", "title": "One file out of all runs", "statement": "The RAW file made out of the runs that match the conditions has, for each run with a RAW file, each of the wanted traces: its name tagged with the run number, its kind, and its samples interpolated on a common increasing axis (exact copies if there is one run; the samples of the first run as in C200). The method returns True exactly if no matching run lacked its RAW file.", "quantifier": "All numbers of runs, missing RAW files after the first, lists of different traces, axes of each run with points at least 1e-11 apart and more of them than there are runs.", "why_tests_cant": "Runs, traces and samples are unbounded, and what a merge keeps depends on all merges before.", "anchors": ["spicelib/sim/sim_runner.py:SimRunner.create_raw_file_with", "spicelib/raw/raw_write.py:RawWrite.add_traces_from_raw"]}
{"id": "C273", "title": "Traces of different runs have different names", "statement": "In the RAW file made out of runs, the names of all traces but the axis are pairwise different, so that none hides another when the file is read, and there is one for each run and wanted trace.", "quantifier": "All run numbers and all trace names V(x), I(x) or without such a beginning, under the conditions of C272.", "why_tests_cant": "Names and run numbers are unbounded: the tagged name has to determine both.", "anchors": ["spicelib/sim/sim_runner.py:SimRunner.create_raw_file_with", "spicelib/raw/raw_write.py:RawWrite._rename_netlabel"]}
{"id": "C274", "title": "No matching run gives False", "statement": "If no run matches the conditions, making one RAW file returns False.", "quantifier": "All conditions no run matches.", "why_tests_cant": "All histories of runs without a match.", "anchors": ["spicelib/sim/sim_runner.py:SimRunner.create_raw_file_with"]}
{"id": "C275", "title": "A run without RAW file does not keep the others out", "statement": "If some of the matching runs have no RAW file, the file is made of the others.", "quantifier": "All positions of the runs without RAW file among the matching ones.", "why_tests_cant": "Runs are unbounded.", "anchors": ["spicelib/sim/sim_runner.py:SimRunner.create_raw_file_with"]}
{"id": "C276", "title": "All steps of stepped runs are included", "statement": "The RAW file made out of stepped runs depends on all steps of them.", "quantifier": "All stepped RAW files.", "why_tests_cant": "Steps and samples are unbounded.", "anchors": ["spicelib/sim/sim_runner.py:SimRunner.create_raw_file_with"]}
{"id": "C277", "title": "Runs on one axis keep their points", "statement": "If all runs have the same axis, the RAW file made out of them has that axis.", "quantifier": "All numbers of runs and all axes.", "why_tests_cant": "The loss grows with the number of runs.", "anchors": ["spicelib/sim/sim_runner.py:SimRunner.create_raw_file_with", "spicelib/raw/raw_write.py:RawWrite.add_traces_from_raw"]}
{"id": "C278", "title": "A simulator command is read as a shell reads it", "statement": "Making a simulator of a text that is no existing path and has no backslash splits it into the words a shell would see, quotes of both kinds included: the command run is exactly these words, if the first is the path of an existing file or a program found on the PATH. Unbalanced quotes raise ValueError, an empty text or a first word that is not found FileNotFoundError. Other simulator classes keep their commands.", "quantifier": "All texts, words, blanks and quotings.", "why_tests_cant": "Commands are unbounded texts; any quoting of any words has to give these words back, and nothing else may be accepted.", "anchors": ["spicelib/sim/simulator.py:Simulator.create_from"]}
{"id": "C279", "title": "A path is one word", "statement": "Making a simulator of a Path, of the text of an existing path or of a text with a backslash makes a command of one word, whatever blanks and quotes are in it.", "quantifier": "All paths.", "why_tests_cant": "Paths are unbounded texts.", "anchors": ["spicelib/sim/simulator.py:Simulator.create_from"]}
{"id": "C280", "title": "Two simulators made from one class are independent", "statement": "Making a second simulator from the same class leaves the first one as it was.", "quantifier": "All pairs of commands.", "why_tests_cant": "All histories of calls.", "anchors": ["spicelib/sim/simulator.py:Simulator.create_from"]}
{"id": "C281", "title": "The file that was found is the file that is run", "statement": "If the path given exists, running the simulator starts that file.", "quantifier": "All paths, those in the working directory included.", "why_tests_cant": "Depends on the working directory and on the PATH at the time of the run.", "anchors": ["spicelib/sim/simulator.py:Simulator.create_from", "spicelib/sim/simulator.py:run_function"]}
{"id": "C282", "title": "A simulator that was made is available", "statement": "If a simulator could be made, is_available says so (as long as the files stay).", "quantifier": "All texts, paths and file systems.", "why_tests_cant": "Paths are unbounded and are put into a normal form on the way.", "anchors": ["spicelib/sim/simulator.py:Simulator.create_from", "spicelib/sim/simulator.py:Simulator.is_available"]}
{"id": "C283", "title": "Library directories under wine are on the wine drive", "statement": "If the path of the simulator has /drive_c/ in it, a library path C:/x stands for x in that drive_c directory, ~x for x in users/USER there, and every other path for itself; without wine ~ is the home directory. The result is that directory if it exists, else None.", "quantifier": "All paths of simulators and libraries, all file systems.", "why_tests_cant": "Paths are unbounded; which /drive_c/ counts matters if there are several.", "anchors": ["spicelib/sim/simulator.py:Simulator.expand_and_check_local_dir"]}
{"id": "C284", "title": "The default library paths are the existing directories, in order", "statement": "The default library paths of a simulator under wine are the directories its list stands for that exist, in the order of the list.", "quantifier": "All lists of library paths, all commands and file systems.", "why_tests_cant": "Lists, paths and file systems are unbounded.", "anchors": ["spicelib/sim/simulator.py:Simulator.get_default_library_paths"]}
{"id": "C285", "title": "The process name is the given one or the file name of the program", "statement": "The process name of a simulator is the one given; else, on Linux, the name of the file of the first word, without its directories.", "quantifier": "All paths.", "why_tests_cant": "Paths are unbounded.", "anchors": ["spicelib/sim/simulator.py:Simulator.guess_process_name", "spicelib/sim/simulator.py:Simulator.create_from"]}
{"id": "C286", "title": "Results of an analysis are found by run number", "statement": "If the simulations of an analysis record the number of the run in the measurement runm (worst case, quick sensitivity), the value of a measurement asked for with run=k is the one from the log that carries this number, whichever simulations left no log; reading again gives the same.", "quantifier": "All numbers of simulations, all failed ones, real and complex logs, whatever was read before.", "why_tests_cant": "All histories of failed simulations.", "anchors": ["spicelib/sim/tookit/tolerance_deviations.py:ToleranceDeviations.read_logfiles", "spicelib/log/logfile_data.py:LogfileData.get_measure_value"]}
{"id": "C287", "title": "Results of an analysis without run numbers are numbered in order", "statement": "If the simulations record no run number and all left a log, the value asked for with run=i is that of the i-th simulation.", "quantifier": "All numbers of simulations and measurements.", "why_tests_cant": "Any number of simulations.", "anchors": ["spicelib/sim/tookit/tolerance_deviations.py:ToleranceDeviations.read_logfiles"]}
{"id": "C288", "title": "A failed simulation does not shift the numbers of the others", "statement": "If a simulation of such an analysis left no log, the others are still found under their own numbers.", "quantifier": "All positions of the failed simulation.", "why_tests_cant": "Refuted for all of them: the next simulation takes its number.", "anchors": ["spicelib/sim/tookit/tolerance_deviations.py:ToleranceDeviations.read_logfiles"]}
{"id": "C289", "title": "The step count of the results is the number of runs", "statement": "After read_logfiles of an analysis run by run, step_count is the number of values of the run column.", "quantifier": "All analyses.", "why_tests_cant": "Refuted for all: it is 1.", "anchors": ["spicelib/sim/tookit/tolerance_deviations.py:ToleranceDeviations.read_logfiles"]}
{"id": "C290", "title": "Reading the results covers all simulations run", "statement": "read_logfiles gives the results of all the simulations that were run, also of those run after an earlier read_logfiles.", "quantifier": "All histories of runs and reads.", "why_tests_cant": "Refuted: the first results are kept.", "anchors": ["spicelib/sim/tookit/tolerance_deviations.py:ToleranceDeviations.read_logfiles", "spicelib/sim/tookit/sim_analysis.py:SimAnalysis.run"]}
{"id": "C291", "title": "Logs added one by one go on counting", "statement": "When logs of further simulations are added to results without run numbers (as the fast worst case analysis does), all values, old and new, are found under the numbers of their simulations; a failed simulation changes nothing.", "quantifier": "All numbers of simulations before and after.", "why_tests_cant": "Any number of additions.", "anchors": ["spicelib/sim/tookit/tolerance_deviations.py:ToleranceDeviations.add_log"]}
{"id": "C292", "title": "A quantity made of a text prints as that text", "statement": "A float_unit made of a text prints as the stripped text until clean() is called or its unit is set; after that, and for one made of a number, it prints as the number in engineering notation followed by the sign of its unit.", "quantifier": "All texts that are numbers, all numbers, all units.", "why_tests_cant": "All texts and numbers.", "anchors": ["spicelib/utils/float_unit.py:float_unit"]}
{"id": "C293", "title": "A printed quantity reads back with its unit", "statement": "A number with one of the units ohm, volt, ampere, farad, henry, watt, coulomb, joule, degree Celsius, hertz, second (or none), printed and read back, has the same unit and the same value to six digits (exactly the same if it has six digits).", "quantifier": "All numbers, all of these units.", "why_tests_cant": "All numbers, at every scale.", "anchors": ["spicelib/utils/float_unit.py:float_unit", "spicelib/utils/float_unit.py:parse_value"]}
{"id": "C294", "title": "The other units survive printing and reading too", "statement": "Kelvin, per cent, ppm, degrees, radians and the r.m.s. units also come back with the same value and unit (refuted: the unit is lost, and kelvin, per cent and ppm change the number).", "quantifier": "All numbers, the remaining units.", "why_tests_cant": "All numbers.", "anchors": ["spicelib/utils/float_unit.py:float_unit", "spicelib/utils/float_unit.py:parse_value"]}
{"id": "C295", "title": "A unit can be set by symbol or by name", "statement": "Setting .unit to the symbol, the singular or the plural name of a unit (except ppm and the r.m.s. units) gives that unit and keeps the number; a name that is neither is refused with KeyError.", "quantifier": "All quantities, all names.", "why_tests_cant": "All names, not just the listed ones.", "anchors": ["spicelib/utils/float_unit.py:float_unit.unit"]}
{"id": "C296", "title": "Readings in amperes r.m.s. are printed as amperes", "statement": "A quantity with the unit ARMS is told from one in VRMS when printed, and every unit can be set by its name (refuted).", "quantifier": "All numbers.", "why_tests_cant": "All numbers.", "anchors": ["spicelib/utils/float_unit.py:Arms", "spicelib/utils/float_unit.py:float_unit.unit"]}
{"id": "C297", "title": "Arithmetic keeps the unit", "statement": "The sum, difference, product and quotient have the right number, and a sum of quantities with one unit has that unit (refuted for the unit; the numbers are right).", "quantifier": "All pairs of quantities.", "why_tests_cant": "All pairs.", "anchors": ["spicelib/utils/float_unit.py:float_unit"]}
{"id": "C298", "title": "A quantity equals a text exactly if the text is the same number", "statement": "Comparing a quantity with a text gives True exactly if the text reads as a number with the same value, and False for any other text, never an exception.", "quantifier": "All quantities, all texts.", "why_tests_cant": "All texts.", "anchors": ["spicelib/utils/float_unit.py:float_unit.__eq__"]}
{"id": "C299", "title": "No simulation is lost or handled twice, however many threads use a runner", "statement": "In every interleaving of any number of threads that start simulations, update the lists and collect results, with the simulations running, every simulation started is on exactly one of the lists (active, completed, collected), once, or is being moved by exactly one thread; when no thread is inside a call the three lists together are exactly the simulations started.", "quantifier": "All interleavings of accesses to the lists, all numbers of threads and simulations.", "why_tests_cant": "Every schedule.", "anchors": ["spicelib/sim/sim_runner.py:SimRunner.update_completed", "spicelib/sim/sim_runner.py:SimRunner.run", "spicelib/client_server/srv_sim_runner.py:ServerSimRunner.run"]}
{"id": "C300", "title": "One thread may use a runner while simulations end at any moment", "statement": "When one thread makes all calls, then wherever in update_completed a simulation ends: no exception is raised, only simulations that have ended are moved to the completed ones and collected, with their final return code, and between calls okSim is the number of successful ones and okSim + failSim the number of all that were moved.", "quantifier": "All interleavings of one client thread with any number of simulation threads.", "why_tests_cant": "Every schedule.", "anchors": ["spicelib/sim/sim_runner.py:SimRunner.update_completed"]}
{"id": "C301", "title": "An update moves every simulation that has ended", "statement": "When one thread makes all calls, every simulation that had ended when update_completed was called is among the completed ones when it returns.", "quantifier": "All interleavings, all lists of active simulations.", "why_tests_cant": "Every schedule.", "anchors": ["spicelib/sim/sim_runner.py:SimRunner.update_completed"]}
{"id": "C302", "title": "The server reports a simulation as finished only when it has ended", "statement": "In the simulation server, where a manager thread updates and collects while client calls start simulations, only simulations that have ended are collected, with their return code (refuted).", "quantifier": "All interleavings.", "why_tests_cant": "Needs an unlucky schedule.", "anchors": ["spicelib/client_server/srv_sim_runner.py:ServerSimRunner.run", "spicelib/client_server/srv_sim_runner.py:ServerSimRunner.add_simulation", "spicelib/sim/sim_runner.py:SimRunner.update_completed"]}
{"id": "C303", "title": "The manager thread of the server survives client calls", "statement": "No client call makes the manager thread end, so that every finished simulation is eventually collected (refuted).", "quantifier": "All interleavings.", "why_tests_cant": "Needs an unlucky schedule.", "anchors": ["spicelib/client_server/srv_sim_runner.py:ServerSimRunner.run", "spicelib/sim/sim_runner.py:SimRunner.update_completed"]}
{"id": "C304", "title": "The counters are right when several threads update", "statement": "okSim and failSim are the numbers of successful and failed simulations moved, whichever threads moved them (refuted).", "quantifier": "All interleavings.", "why_tests_cant": "Needs an unlucky schedule.", "anchors": ["spicelib/sim/sim_runner.py:SimRunner.update_completed"]}
{"id": "C305", "title": "The list of nodes has every node of every statement once", "statement": "get_all_nodes of a netlist whose components and sub-circuit instances are well-formed statements lists every node of every statement exactly once, in the order in which they first appear, and nothing else; that determines the list.", "quantifier": "All netlists: any number of statements of any kind, any nodes, values, parameters, comments and other lines between them.", "why_tests_cant": "The order and the duplicates depend on all statements together; tests have a few fixed netlists.", "anchors": ["spicelib/editor/spice_subcircuit.py:SpiceCircuit.get_all_nodes", "spicelib/editor/spice_utils.py:REPLACE_REGEXS"]}
{"id": "C306", "title": "The list of nodes has no duplicates and only grows with the netlist", "statement": "Whatever the entries of the netlist, get_all_nodes lists no node twice, is not influenced by comments, directives and definitions of sub-circuits, and an entry more at the end leaves the nodes listed in their places and adds only nodes that were not there.", "quantifier": "All netlists, including entries that do not parse.", "why_tests_cant": "Must hold for every netlist and every addition.", "anchors": ["spicelib/editor/spice_subcircuit.py:SpiceCircuit.get_all_nodes"]}
{"id": "C307", "title": "The nodes of every component read are listed", "statement": "The nodes of each component the editor reads from a netlist are in the list of get_all_nodes, also when the value of the component is an expression that goes on over several lines (refuted: such components are left out).", "quantifier": "All netlists the editor reads.", "why_tests_cant": "Needs statements in which line breaks survive.", "anchors": ["spicelib/editor/spice_subcircuit.py:SpiceCircuit.get_all_nodes", "spicelib/editor/spice_components.py:SpiceComponent.reset_attributes"]}
{"id": "C308", "title": "A node has one entry in the list whatever its letter case", "statement": "A node that statements write in upper and lower case is listed once by get_all_nodes (refuted).", "quantifier": "All netlists.", "why_tests_cant": "Tests write their nodes in one way.", "anchors": ["spicelib/editor/spice_subcircuit.py:SpiceCircuit.get_all_nodes"]}
{"id": "C309", "title": "The list of nodes follows the ports of the components", "statement": "After the ports of a component were set, or a component made from its attributes was added, get_all_nodes lists its nodes (refuted: the original text is looked at, and without one there is an error).", "quantifier": "All netlists and all ports.", "why_tests_cant": "Needs edits of ports before the list is asked for.", "anchors": ["spicelib/editor/spice_subcircuit.py:SpiceCircuit.get_all_nodes", "spicelib/editor/primitives.py:Component.ports"]}
{"id": "C310", "title": "An instruction added to a sub-circuit definition can be found and taken out", "statement": "add_instruction on a sub-circuit changes nothing if an instruction with the same text but for outer blanks is there, and otherwise inserts the instruction as the last line before the end of the definition; remove_instruction with the same text finds it and gives back the definition as it was, noting one deletion.", "quantifier": "All definitions, all instructions accepted, both permissions that allow changes.", "why_tests_cant": "Holds for every definition and every text of the instruction.", "anchors": ["spicelib/editor/spice_subcircuit.py:SpiceCircuit.add_instruction", "spicelib/editor/spice_subcircuit.py:SpiceCircuit.remove_instruction", "spicelib/editor/spice_subcircuit.py:SpiceCircuit.class_for_instruction"]}
{"id": "C311", "title": "Removal by pattern takes exactly the matching lines of a sub-circuit", "statement": "remove_Xinstruction on a sub-circuit removes exactly the lines matched by the pattern, keeps the others in their order, notes each line removed, and returns True exactly if there was one; without permission it changes nothing and returns False.", "quantifier": "All definitions and all patterns.", "why_tests_cant": "A loop that deletes while it goes must be right for neighbouring matches at every position.", "anchors": ["spicelib/editor/spice_subcircuit.py:SpiceCircuit.remove_Xinstruction"]}
{"id": "C312", "title": "A control section that was added is listed and saved", "statement": "After add_control_section the section is in get_control_sections and in the netlist saved (refuted: its text is lost and the netlist cannot be saved).", "quantifier": "All netlists and all control sections that begin and end as required.", "why_tests_cant": "Needs listing, saving and removing after the addition.", "anchors": ["spicelib/editor/spice_editor.py:SpiceEditor.add_control_section", "spicelib/editor/spice_subcircuit.py:SpiceCircuit.class_for_instruction", "spicelib/editor/spice_subcircuit.py:ControlEditor"]}
{"id": "C313", "title": "An instruction added to the sub-circuit of an instance is saved", "statement": "An instruction added through editor.get_subcircuit of an instance is in the sub-circuit of this instance when the netlist is saved (refuted: the copy is not marked as modified, and the instruction is put behind its .ENDS).", "quantifier": "All instances without changes before, all instructions.", "why_tests_cant": "Needs the copy made for the instance, its marking and the saving together.", "anchors": ["spicelib/editor/spice_subcircuit.py:SpiceCircuit.add_instruction", "spicelib/editor/spice_subcircuit.py:SpiceCircuit.clone", "spicelib/editor/spice_subcircuit_instance.py:SpiceCircuitInstance.was_modified"]}
{"id": "C314", "title": "Removing an instruction that is absent leaves an instance as it was", "statement": "remove_instruction on the sub-circuit of an instance, with a text that is not there, returns False and the netlist saved is the same (refuted: the instance then names a copy that is not written).", "quantifier": "All instances without changes before, all absent instructions.", "why_tests_cant": "Needs a failed removal followed by saving.", "anchors": ["spicelib/editor/spice_subcircuit.py:SpiceCircuit.remove_instruction", "spicelib/editor/spice_subcircuit_instance.py:SpiceCircuitInstance.begin_update"]}
{"id": "C315", "title": "What is left after a removal by pattern is a definition", "statement": "After remove_Xinstruction a definition still has its header and its end (refuted: they are removed if the pattern matches them).", "quantifier": "All definitions and all patterns.", "why_tests_cant": "Patterns as general as \".*\" or \"\\\\.\" are seldom tried.", "anchors": ["spicelib/editor/spice_subcircuit.py:SpiceCircuit.remove_Xinstruction"]}
{"id": "C316", "title": "Control sections are removed by their place in the list", "statement": "get_control_sections gives the texts of the control sections read from the file, in order; remove_control_section with index i removes exactly the i-th of them and nothing else, returns False and removes nothing for an index beyond the last, and raises an error for a negative one.", "quantifier": "All netlists read from files, all indices.", "why_tests_cant": "Needs every number and placing of control sections and every index.", "anchors": ["spicelib/editor/spice_editor.py:SpiceEditor.get_control_sections", "spicelib/editor/spice_editor.py:SpiceEditor.remove_control_section"]}
{"id": "C317", "title": "sim_info tells of every completed run what it was started with", "statement": "SimRunner.sim_info has exactly one entry per completed run, in order of completion; the entry with key n gives the netlist file made for the n-th call of run or run_now, the edits the editor had at that call (no key 'edits' if none), and the return code of that run.", "quantifier": "All histories of calls and all schedules of the simulation threads.", "why_tests_cant": "Simulations finish in any order, while the editor is edited for the next run.", "anchors": ["spicelib/sim/sim_runner.py:SimRunner.sim_info", "spicelib/sim/run_task.py:RunTask.edits", "spicelib/sim/sim_runner.py:SimRunner.run"]}
{"id": "C318", "title": "The log of edits can be asked by name", "statement": "netlist_updates[name] raises an error exactly if no edit of this name was recorded, and otherwise gives the entry of this name that was recorded first.", "quantifier": "All histories of edits and all names.", "why_tests_cant": "Needs every history, with names edited several times in several ways.", "anchors": ["spicelib/editor/updates.py:Updates.__getitem__"]}
{"id": "C319", "title": "Asking the log by name gives the latest edit", "statement": "netlist_updates[name] is the latest edit of this name (refuted: a component that was changed and then removed is told as changed).", "quantifier": "All names and values.", "why_tests_cant": "Needs edits of different kinds of the same component.", "anchors": ["spicelib/editor/updates.py:Updates.__getitem__", "spicelib/editor/updates.py:Updates.add_update"]}
{"id": "C320", "title": "The text of an edit tells what was edited", "statement": "The text of each recorded edit contains the name of the parameter or component, or the text of the instruction, and for changed and added values the value (partial: an update of an instruction is told as \"Invalid Update\", whatever it is).", "quantifier": "All edits of all kinds, all ways to write numbers.", "why_tests_cant": "Each kind has its own branch.", "anchors": ["spicelib/editor/updates.py:Update.__repr__"]}
{"id": "C321", "title": "Cleared parameters are deleted when the netlist is saved", "statement": "After clear_parameters the statement saved has no parameters (refuted: every parameter is there with the value None).", "quantifier": "All components with parameters.", "why_tests_cant": "Needs clearing, saving and reading back, for every dictionary of parameters.", "anchors": ["spicelib/editor/primitives.py:Component.clear_parameters", "spicelib/editor/primitives.py:Component.clear_param", "spicelib/editor/spice_components.py:SpiceComponent.rewrite_lines"]}
{"id": "C322", "title": "Clearing a parameter that is not there changes nothing", "statement": "After clear_parameter with a name the component does not have, the statement saved is the same (refuted: the name is written with the value None).", "quantifier": "All components and all names.", "why_tests_cant": "Needs clearing, saving and reading back, for names that are not there.", "anchors": ["spicelib/editor/primitives.py:Component.clear_parameter", "spicelib/editor/spice_components.py:SpiceComponent.rewrite_lines"]}
