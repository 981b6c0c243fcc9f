{
 "C01": "Log as a keyed map, over every history of recordings.",
 "C02": "every history",
 "C03": "Over exact rationals; float rounding of the increments is not modelled.",
 "C04": "Exact rationals; sweep_n with n < 2 and sweep_log_n stated separately.",
 "C05": "Exact rationals; equal ends yield an empty sweep (separate theorem).",
 "C06": "all dimensions; sequences",
 "C08": "Every schedule; simulations started by run(). wait_resource=False starts and run_now() are outside the limit by design; the general bound counts the forced ones.",
 "C09": "Numbers for every history, including runs given up on timeout; file names for all circuit names with the same extension.",
 "C10": "every history and schedule",
 "C11": "every history and schedule",
 "C12": "Every schedule without abandoned run_now(); at-most-once and order in every history. Failed simulations are skipped, as the property says (the class docstring says 'succeeded or not').",
 "C13": "Decision logic of RunTask.run for all outcomes of simulator, file system and callback.",
 "C56": "dict and tuple arguments.",
 "C15": "Every history of requests by any number of sessions and of completions. status() of an unknown session answers [] while nothing has finished and KeyError afterwards; both leave the server unchanged.",
 "C16": "At most once, never reported afterwards, and reported and available until then.",
 "C17": "every interleaving with other clients",
 "C18": "the format the library documents (first trace double)",
 "C19": "!proved Real data, every layout of traces the writer produces with a double axis.",
 "C21": "the title is the constant the writer puts",
 "C24": "all request histories",
 "C22": "axis and all traces",
 "C23": "Over exact rationals (no float rounding); any axis that starts at or below t and reaches t, sorted or not. Above the range get_position returns None.",
 "C25": "Every table of steps and set of conditions; nothing assumed about value equality. Data without steps answer [0].",
 "C59": "Columns of traces; the columns with step parameters are never added by the code and are not part of the claim.",
 "C26": "every data set, column and set of conditions",
 "C27": "exact rationals",
 "C62": "!proved C62_log_tables: step section followed by measurement tables, in the model of Log; C62_whole_log: the same for the whole reader (Ltlog), with Fourier analyses and measurements without steps in between.",
 "C63": "Refuted for every such file: KeyError at the first data line.",
 "C29": "every text; every list of well-formed statements",
 "C38": "C38_print_then_read: for every rational v, the text of format_eng is consumed completely by parse_value/scan_eng and gives v within 5e-6 relative, exactly v if v has at most six significant digits. Model over exact rationals: binary floating-point rounding (and a rounded math.log next to powers of 1000) is not represented.",
 "C40": "C40_parameters_read: any number of parameters, any blanks around '=' and between parameters, values made of plain, braced (not nested) and quoted pieces, comma lists; names distinct, not numbers, not the parser's reserved words (noiseless, verilog type names). Values are kept as text (float_unit prints as the text it was read from).",
 "C64": "Both halves are false of the code: \"tc=1 ,2\" reads as the text \"1 2\" instead of a list (C64_blank_before_comma_refuted); nested braces split the value (C64_nested_braces_refuted).",
 "C31": "Document level: any history of value/parameter edits by reference on a whole netlist (load, edits, read-back of every reference, save), the untouched components, and statement level for all component families. Hypothesis no_definition_named is needed: see C71.",
 "C65": "Refuted: rewriting with an empty parameter section keeps the old text.",
 "C66": "Refuted: tab-separated fields and comments of controlled sources. The true part (single blanks) is C31_edit_saved.",
 "C67": "Refuted by witnesses.",
 "C68": "Durations are natural numbers of milliseconds (the code truncates a float).",
 "C69": "The field has four digits for a number below 1000: 1500 ms is written \"01.0500 secs\".",
 "C30": "Well-formed documents (NetSpec): comments, directives, components (CompSpec), control sections, sub-circuits nested to any depth, include statements with the contents of the file; from the lines and from the characters of the file. Include files are given by an environment.",
 "C70": "False: see the witnesses (lower-case or indented components, .endl, unresolved include files). The full statement is C30 without its well-formedness hypotheses.",
 "C71": "Refuted: a .subckt definition of the same name standing earlier in the file hides the component from every reference operation.",
 "C32": "History theorem over all component and instruction commands (edits, add before/after/at end, remove, add/remove instruction, remove by pattern): listing, lookup of every reference, errors for missing ones, saved text; plus what each component command does to the statements.",
 "C33": "After any history; placement of the command included. only_blanks: directives of the netlist hold no white space other than blank, tab, CR, LF. Where the line goes when there is .END followed by comments: C72.",
 "C34": "After any history; patterns are an arbitrary predicate on the text that matches no component statement (see C73 for components).",
 "C37": "Netlist editor: all commands incl. hierarchical references and control sections. An exception is the model's None; the checks come before any change in the code (see DESIGN.md). Sub-circuits: C75.",
 "C72": "Refuted by witnesses: with comments after .END additions go after .END; in a two-line netlist add_component goes before the title.",
 "C73": "Refuted: an edited component is matched by its original text.",
 "C74": "Refuted for all netlists: the old component stays.",
 "C75": "Refuted for every sub-circuit: SpiceCircuit.add_instruction asks for no permission.",
 "C35": "Full: every history of commands followed by every sequence of set_parameter calls, for all names; the limits in the quantifier are the refuted C76-C78. get_parameter's conversion of the text to a number (try_value) is not modelled.",
 "C76": "Refuted: with PARAM_REGEX \".param err=1\" is read as a setting of \"param\" with value \"err\".",
 "C77": "Refuted by witnesses: x=2*y, z=y, q='2*y', and a setting in a comment.",
 "C78": "Refuted by witnesses: longer names and expressions are cut; None for a missing name adds \"name=None\".",
 "C79": "Full for the factors listed, exact rational arithmetic; M/m are the subject of C39.",
 "C36": "!proved C36_history: load, any sequence of value/parameter edits through paths such as X1:X2:R1, read back through the API and save; C36_only_that_component: what an edit changes; C36_meaning: the saved statements, elaborated as a simulator does (innermost enclosing definition), give at each path the edited component. Restrictions, as hypotheses: the edited components and instances are in the library's own layout; copied definitions hold no definitions, control sections or includes; for the meaning, no name of a possible copy is in use (C81 shows what happens otherwise). Names looked up in library files are an assumption about the environment (library_of).",
 "C80": "C80_end_required is about arbitrary lines, C80_statements about statements with and without the last line.",
 "C81": "The property does not hold; the theorems give netlists.",
 "C82": "The property does not hold; the theorem gives netlists.",
 "C83": "Same restrictions as C36_history. What a record does to the log (one entry per name and kind, last value) is C01.",
 "C41": "runs_per_sim >= 1; total number of runs is last_run_number + 2.",
 "C42": "Netlists as component/parameter/directive tables; exact rationals for floats; every run succeeds. From 12 elements on nothing is simulated.",
 "C43": "Exact rationals for floats; data complete (one result per run).",
 "C44": "Measurement as a function of the netlist; every simulation succeeds; exact rationals. Strictly monotone measurement.",
 "C84": "No recorded edits and no .step directive in the netlist before; formula numbers written exactly (the code keeps six digits in min/max).",
 "C85": "Refuted: with a recorded set_component_value, or in a second run_analysis, the corners go around another value than the nominal run.",
 "C86": "Refuted for every set-up: the formulas of the components are recorded but not played, so all runs use nominal component values.",
 "C87": "Refuted: ZeroDivisionError for every such measurement.",
 "C88": "Refuted: for every measurement with a wrongly assumed direction the analysis ends in a TypeError (an iterator is called in line 242).",
 "C90": "Refuted: the limit is raised to avoid a batch of one run (7 runs, limit 2: batches of 4).",
 "C92": "Refuted by a witness.",
 "C45": "Trees of any nesting whose tokens are words or quoted texts, with labels; the file level covers header and newline translation; cp1252 is not modelled. Texts with \": \" are C93.",
 "C46": "set_attr/get_attr on the token list; float attributes cannot be set (ValueError in the code).",
 "C93": "Refuted for every schematic and text: once \": \" the tag stops being a text tag, twice the file cannot be read.",
 "C47": "edits: component values, parameters, instructions added/removed, in any sequence, on a schematic whose tags can be written and read (QTagSpec.proper); texts without quote, CR and \": \" (C93); a simulation command where there is one already (C95); moving components is C94",
 "C48": "false: the component stays in the editor's list and in the netlist; the saved file is right (C100)",
 "C49": "directives with QSPICE's mark and well-formed .PARAM lines (ParSpec); else C96, C97",
 "C94": "false, universally: a move never marks the schematic as changed; an ERotation always fails",
 "C95": "false, universally, for schematics without a simulation command",
 "C96": "false: witness",
 "C97": "false: witness",
 "C98": "false: witness",
 "C99": "the number of simulation commands",
 "C100": "the saved file after remove_component",
 "C50": "for documents of wires, flags, symbols, upright texts and drawings with distinct references; what is lost else is C104",
 "C51": "removal of instructions is C105, C106",
 "C101": "components inside sub-circuits are not modelled",
 "C102": ".param directives as in C35",
 "C103": "for values that str(try_convert_value(v)) writes back unchanged. C103_attribute: every plain attribute set through set_component_parameters is what is read back afterwards and written in the file.",
 "C104": "false: witnesses",
 "C106": "false: witnesses",
 "C108": "false, universally: the denial is ignored",
 "C110": "false, universally: neither call is recorded",
 "C111": "false, universally for the rotations by 45 degrees",
 "C112": "false: witnesses",
 "C114": "false, universally: a label with a port is scaled twice",
 "C52": "search_file_in_containers over an abstract file system; first container, none iff none, top folder first",
 "C53": "the loop over the seven encodings; acceptable is stated through what open(...).read() gives",
 "C54": "over the rationals",
 "C115": "SpecFloat binary64 arithmetic, horizontal and vertical lines; coordinates of any size",
 "C116": "refuted: only ends are tried: two wires crossing in their middles",
 "C117": "refuted: (0,0)-(49,1) does not touch its own end (49,1) in binary64",
 "C118": "refuted in its three parts: entries in folders of a zip are never found by plain name, an unreadable zip raises, the first of two names that differ in case wins",
 "C119": "decoders proved inverse to encoders written from the RFCs",
 "C120": "refuted: a one-character file raises IndexError",
 "C121": "refuted: an even-length cp1252 text is taken as UTF-16-LE",
 "C122": "refuted: a parameter recorded under two kinds gives a stale value",
 "C123": "refuted: an inner one-shot iterable is exhausted after the first pass",
 "C124": "refuted: an empty sweep is announced as one simulation more or less than run",
 "C125": "refuted: the give-up counts the run as failed although it returns 0",
 "C126": "refuted: False although all completed successfully",
 "C127": "refuted: -1 (POSIX: killed by signal 1) waits for ever",
 "C128": "refuted in three ways",
 "C129": "refuted by a witness",
 "C130": "refuted: the header says fastaccess but the data are interleaved",
 "C131": "refuted",
 "C132": "right for the first step, refuted from the second on",
 "C133": "proved for requests that do not name it again, refuted for those that do and before the first request",
 "C134": "refuted: the answer is None",
 "C135": "refuted: TypeError, and capitals are not found",
 "C136": "refuted by witnesses",
 "C137": "refuted: continuation lines are glued without a blank; a stray bracket joins all later lines",
 "C138": "refuted: 2meg reads as 0.002, 1F as 1, 1e3E raises",
 "C139": "refuted: timeout=None raises TypeError in run()",
 "C140": "refuted: a run that finishes later stays for ever",
 "C141": "refuted for all such data: loading always raises",
 "C142": "refuted: the sample of the next step is returned",
 "C143": "refuted: the last character is lost",
 "C144": "The tables of switches are those of the code; documented lists the doc strings. -big, -max, -norm, -PCBnetlist, -ascii of Qspice are accepted but not documented.",
 "C145": "Refuted for eight switches: -normal and -PCBnetlistBatch (LTspice), -local_variation (Xyce) raise; -nox, -linsolv, -o (Xyce) are dropped; -ini is written \"- ini\"; ngbehavior cannot be defined (ngspice).",
 "C146": "Qspice makes the netlist path absolute first; the file theorem asks that the path given is absolute already. LTspice takes the log and raw names from the netlist itself.",
 "C147": "Netlist names have a stem and an extension of at least one character, or no dot at all.",
 "C148": "Switches are added before the run starts; a started task shares the runner's list object.",
 "C149": "The default parameter '' is an empty argument; an empty list means the runner's switches.",
 "C150": "Numbers are exact rationals (binary64 rounding of the products is left out); what the random generators return is a parameter of the model (in [0,1] for uniform draws), so no statement about frequencies is made. A failing simulator run, timeouts and callbacks are in the Runner area.",
 "C151": "The text is read back with scan_eng as modelled for C38; the simulator's own number reader is outside the model.",
 "C152": "!proved The meaning of the .func definitions in the simulators (mc, flat, gauss, random) is part of the specification and trusted. Nominal values and formula numbers with at most six digits, tolerances from 0.0001 to 1; analyses without recorded edits (prepare_testbench reads the values before they are played, cf. C85). Values are written without their unit.",
 "C153": "Refuted by witnesses: a normal min/max deviation of a component uses nrng without defining it; for parameters nrng multiplies the deviation with the mean again; the Qspice urng text lacks a closing parenthesis; a tolerance of 10 is written as 1.",
 "C154": "Refuted for all setups: the component values of every netlist simulated are nominal (the formulas are recorded after the recorded edits were played).",
 "C155": "The heap of list objects is modelled (addresses), since add_log_data stores references; logs read from different files share no lists (separate).",
 "C156": "Corollary for logs of the same shape; without it see C157.",
 "C157": "Refuted by a witness: three logs, the second without the measurement.",
 "C158": "Refuted for every two logs with a common step variable: the first log's own list of step values is extended.",
 "C159": "Split at line feeds and separators the file is the table of ColSpec; the table is rectangular.",
 "C160": "Refuted: the line_terminator argument is unused for all inputs; a longer column is cut silently; a shorter one raises after part of the file was written.",
 "C161": "Lines that mention \"steps:\" in another form are excluded (QlogSpec.qline_ok); values pass through an arbitrary conversion.",
 "C162": "Column titles of different measurements must differ (else C166) and no blank lines (C164); rows are the pieces of C28, all of the same width.",
 "C163": "Refuted for all names: the type is taken for the name; with two such measurements the first is lost (Example).",
 "C164": "Refuted for all files: IndexError.",
 "C165": "Refuted for all step sets and logs: AssertionError, since the count starts at the number of variables given.",
 "C166": "Refuted by two witnesses: v_1 replaces the second column of v; \"step\" is that of the last measurement only.",
 "C167": "For every layout of kinds, groups, devices and quantities described in OpSpec: distinct titles (in lower case), distinct devices in a kind, distinct quantities in a group, and a value for each device.",
 "C168": "For every log without the heading.",
 "C169": "Refuted: a line with a blank at its end, or with a value missing, leaves the dictionary as it was, for every name, row and state.",
 "C170": "Refuted: the title line empties the entry of an equal title, for every state.",
 "C171": "For every log of measurement lines (distinct titles in lower case), analyses and other lines; names of letters, digits and \"_\" not beginning with \"Harmonic\" (see C175).",
 "C172": "For every log described in LtlogSpec, with and without steps; float() and int() are arbitrary functions defined on the texts of the log.",
 "C173": "The steps and tables are proved for every step set without empty columns; the number of steps is refuted: it is the number of step variables, for every step set of one variable.",
 "C174": "Refuted: the line with the name of the circuit becomes a measurement for every path with an equal sign followed by a value.",
 "C175": "Refuted: the measurement and the next line are lost, for all lines.",
 "C176": "Proved for logs whose measurements are in tables (stepped simulations); refuted for logs without steps: the result is the same as with read_measures=True.",
 "C177": "For both spellings of the step line; runs with the same parameter names in the same order; the texts of rows are arbitrary (not starting with \"Step Information:\").",
 "C178": "Universal counterexample: for any character outside the class of the expression (and without parenthesis) the rows of the second run appear under the number and values of the first; C178_nonvacuous shows the file with \"Temp=85°C\".",
 "C179": "try_convert_value is an arbitrary function.",
 "C180": "Universal: for every file of C179 whose header line ends with a line feed.",
 "C181": "Universal: the first row of data raises KeyError, because the lists of the columns are only created by a recognised step line.",
 "C182": "C182_summary for logs whose analyses are in the order of the steps, C182_order shows that every log that is read is like that, apart from analyses before the first step line (C186). Texts of numbers are arbitrary functions.",
 "C183": "As the code does, all periods appear as -1 in this table and as \"all\" in the first one.",
 "C184": "Universal: nine titles (the first empty), eight fields.",
 "C186": "Universal: both tables have no rows.",
 "C187": "The places of the pins are given by an arbitrary function (the code computes them with floating point sines).",
 "C188": "Names that begin with the yen sign aside.",
 "C189": "A label N01 with no wire: an open pin elsewhere gets the same node.",
 "C190": "For Verilog modules and components without pins only what C191 says. The text of an embedded library is an arbitrary function.",
 "C191": "Every line of a component begins with its name; references hold no acute sign.",
 "C192": "For the schematic whose netlist is written; the texts of sub-circuit schematics the same, by C194 (write_sheet).",
 "C193": "The path written for a library is an arbitrary function.",
 "C194": "Universal over nesting: the lines of the schematic are those write_spice_to_file writes for it (write_sheet, without Verilog modules).",
 "C195": "Universal: whatever the schematic of the later instance is, the lines are the same. C190_nonvacuous shows a case.",
 "C196": "Values without line breaks.",
 "C197": "\"W=<5u> L=<2u>\" becomes \"W=5u> L=<2u\".",
 "C198": "Exact samples; a first import into an empty writer is the second theorem.",
 "C199": "!proved For any number of merges, by an invariant on the pending axis (increasing, inside the range of every axis merged). Existing traces only when the number of points changed (C200). Exact rational arithmetic instead of float32/64; step 0 (C203); the same trace not twice (C207).",
 "C200": "!partial Refuted: witness where five points become five other points.",
 "C201": "!partial Refuted for every axis: identical axes of n points give n-1.",
 "C202": "One merge (histories: C199). The end of the axes is excluded by the statement (C201).",
 "C203": "!partial Refuted by a witness.",
 "C204": "!partial Refuted for every aligned merge with a renaming.",
 "C205": "!partial Refuted: acceptance proved for every axis of the same length.",
 "C206": "The format function is arbitrary.",
 "C207": "!partial Refuted by a witness.",
 "C208": "The number type is the first of the flags real/complex, as stated in MrgSpec.",
 "C209": "!partial Refuted for every pair of names V(a)...",
 "C210": "For symbols whose texts stand before the pins (as QSPICE writes them), whose parameter texts are settings name=value or single words without settings, and values without quotes. The integer keys of the doc string cannot be used through keyword arguments.",
 "C211": "The name in two texts: the first is changed, the last is read.",
 "C212": "The name in another case is added as a second parameter.",
 "C213": "A setting inside the value text is changed there; get_parameters does not read the value text.",
 "C214": "Same symbols as C210.",
 "C215": "Directives as in C49.",
 "C216": "read_asy of the text of any sym_ok file; attributes through dget, everything else through Forall2 or equality with the items in order.",
 "C217": "Universal in name and value.",
 "C218": "symbol_drawn (AsySpec) says where each item is; symbols with arcs are not convertible in the sense of the theorem (C226).",
 "C219": "truncated and nearest are the two roundings used by the code.",
 "C220": "Witness: a pin and a line end at (6,0).",
 "C221": "Arcs on the sheet are not modelled; the library is any function from symbol names to symbol files.",
 "C222": "Universal: for any two components with the same symbol the later one is not among the components of the opened file.",
 "C223": "Universal.",
 "C224": "Universal for the flag of the text; a witness for the netlist.",
 "C225": "Universal, with C187's description of the nets; a concrete netlist is in C225_nonvacuous.",
 "C226": "Universal in radius and centre.",
 "C227": "Witness: the schematic rc with an empty library.",
 "C228": "Universal.",
 "C229": "first_with is the specification of 'the first that is present'.",
 "C230": "Trigonometry over the reals of the standard library: atan2, square root and the factor 1.414 come to the whole-number turn; bounded by 100000 because 1.414 is not the square root of 2. Floating-point rounding is not modelled: it matters only next to the middle between two multiples of 100, where no grid pin is.",
 "C231": "Universal counter-example: every pin within 50 of the origin collapses onto the component.",
 "C232": "Combined with C187 this gives the connectivity of the schematic.",
 "C233": "With C219 (the converted coordinates of grid points are exact and injective). LTspice's own turns are specified in PinSpec (lt_turns), checked by hand against the example schematics of the repository.",
 "C234": "!proved Over event histories (run, output of a simulator, end, collection, cleanup). The hypotheses name exactly the cases refuted in C235-C238.",
 "C235": "For every circuit name, simulator, folder and return code the waveform is still there after cleanup_files: raw_file is None for a failed task.",
 "C236": "For .cir, .sp and .ckt none of the three side files is deleted.",
 "C237": "For every circuit: the netlist was written before the wait, and no task is recorded that could be cleaned.",
 "C238": "Without an output folder a run_filename equal to the user's file overwrites it, and cleanup deletes it, for all names.",
 "C239": "The process name looked for is the class attribute of the abstract Simulator, which is empty; no process whose name is not empty is killed.",
 "C240": "Times are rational numbers.",
 "C241": "!proved Invariant over all histories (`reached`); what was written and the return code are read off the history, not off the server's state.",
 "C242": "!proved The side files LTspice writes besides are C244.",
 "C243": "!proved The excluded names are C247.",
 "C244": "Counterexample for all texts: after fetch, close and stop the .op.raw of the run and the circuit sent are still there.",
 "C245": "For all texts: the manager has moved the run to its own list, which is never cleaned; netlist, log, waveform and archive all stay.",
 "C246": "Two clients sending a file of the same name: the second one's text is on disk while the first one's run goes on.",
 "C247": "A client running a circuit named amp_1.net replaces the netlist of run 1 of another client's amp.net.",
 "C248": "Over the real numbers; the degree sign is U+00B0; phases are read in (-180,180], the range of ph.",
 "C249": "Over the real numbers.",
 "C250": "C250_whole_numbers, C250_numerals, C250_words.  A numeral with neither point nor exponent is a whole number.",
 "C251": "Hypothesis: no column is named as one of the new columns (otherwise C252).",
 "C252": "A measurement named k_mag beside a complex measurement k is replaced by the magnitudes of k, for all k, values and columns.",
 "C253": "One text (FAILED) anywhere after a first complex value makes the call raise AttributeError ('str' has no mag).",
 "C254": "LTComplex uses match, not fullmatch: whatever follows \")\" is ignored.",
 "C255": "The functions satol and sammx are given the meaning of the simulators' if() and ==; numbers as format_eng and %g write them; the recorded list of edits is empty (see C257).",
 "C256": "For every set-up analysis all parameters but \"run\" keep their values in all netlists, and only components are elements.",
 "C257": "The formulas are recorded after the recorded edits were played, so all components keep their values in all netlists.",
 "C258": "Values are rationals; the logs are collected as in C155.",
 "C259": "Any log missing makes the call return None (with a warning), although the values of the others are collected.",
 "C260": "for all formulas (any size) written with the usual precedence over names of letters, digits and \"_\" without a digit followed by a unit, all headers with distinct parameters and aliases and all files whose traces are X(name), time/frequency, or have a character no formula has; equality of the rational values at a point; casefold is lower; division by zero leaves the value undefined.",
 "C261": "refuted: for every header with an alias line with a blank in the formula reading fails, also for ordinary traces.",
 "C262": "refuted: V(1ohm,1) of the nodes 1ohm (5 V) and 1 (2 V) is 0 instead of 3, silently.",
 "C263": "refuted: for all values, a formula with V(x1:a,b) raises; the positive statement for plain names is C260.",
 "C264": "refuted: for every header and formula an alias that does not begin with I( or V( raises; Freq and Omega of the repository's own QSPICE AC files are examples.",
 "C265": "refuted: for every header one parameter whose value is no number makes every alias raise; a parameter named lambda (a Python keyword) cannot be used in formulas.",
 "C266": "run_all with its recording (composed with the proof of C06) and csv.DictWriter are modelled; the reader is an RFC 4180 reader in the specification.",
 "C267": "The CSV writer of Python with QUOTE_NONNUMERIC, any texts.",
 "C268": "Refuted universally: a name that a later simulation has and the first has not gives ValueError with part of the file written.",
 "C269": "Refuted: both are recorded under the same key.",
 "C270": "Refuted for every such session: rows[0] raises IndexError.",
 "C271": "Refuted: the values of the run are put over the run number.",
 "C272": "Exact rational samples. The case of a common axis that happens to have as many points as the first run's is the known gap C200.",
 "C273": "The names that lose characters when tagged are those of C209.",
 "C274": "Refuted: `next` of the exhausted iterator raises StopIteration.",
 "C275": "Refuted: if the first matching run has none, nothing is made, whatever the others have.",
 "C276": "Refuted: what is made is the same for all runs that agree in their first step.",
 "C277": "Refuted: each run after the first takes one point off the end of the axis.",
 "C278": "The first word is taken in a tidy form (no empty parts and parts \".\"); both directions of the splitting are proved.",
 "C279": "PureWindowsPath is a given function.",
 "C280": "Refuted: create_from sets the attributes of the class it is called on and returns that class.",
 "C281": "Refuted: the text goes through Path, which drops \"./\": the word left has no slash and is searched on the PATH when it is run.",
 "C283": "expandvars and expanduser are given functions.",
 "C286": "Every log read has one value of runm (all real or all complex, within 1/2 of an integer) and names in lower case, as the readers write them.",
 "C287": "Every log has the same measurements, one value each.",
 "C288": "Universally: under the number of the failed simulation stands the value of the next one.",
 "C289": "len(stepset), the number of step variables, is assigned to step_count. C289_stepped_logs: for logs with steps of their own the count and the columns are all there.",
 "C290": "Universally, for every state in which the results were read once and not cleared since.",
 "C291": "Same logs as C287, none with a measurement named run.",
 "C294": "Universal counter-examples: r.m.s. units and degrees for all numbers, kelvin, per cent, ppm and radians for all numbers between 1 and 1000.",
 "C296": "Universal: ARMS and VRMS print alike for every number.",
 "C297": "The numbers are proved right; the unit of every result is missing (universal).",
 "C293": "The ohm sign is written \"ohm\" in the model, on both sides.",
 "C299": "Every schedule at the granularity of single list accesses; run_now is not among the calls.",
 "C300": "Every schedule; justifies the atomic update_completed of the other runner models.",
 "C301": "Every schedule.",
 "C302": "Two schedules: the manager updates while a client call is between append and start; two updates at once.",
 "C303": "A schedule that ends the manager, and from there universally: nothing is ever collected again.",
 "C304": "One simulation counted twice; two simulations counted once.",
 "C305": "The nodes are those of the statements as CompSpec lays them out; definitions of sub-circuits contribute none.",
 "C306": "For all entries, with no assumption on their texts.",
 "C307": "R1 a b {x+ / + y} parses, but b is not listed.",
 "C308": "OUT and out are both listed.",
 "C309": "Ports set make no difference; a component without a text raises an error.",
 "C310": "For texts the command lookup accepts (EditModel.line_command); an instruction that becomes a plain text cannot be removed by remove_instruction, so removal is claimed for directives and components. C310_removal: first equal line in any list of lines, nothing if absent or denied.",
 "C311": "The pattern is any decidable set of texts (regular expression matching is not restated).",
 "C312": "Refuted for every control section accepted: ControlEditor is made without the named argument obj, so that its text is None.",
 "C313": "Refuted for every instance without earlier changes.",
 "C314": "Refuted for every instance with a reference.",
 "C315": "Refuted with a pattern that matches everything.",
 "C316": "Control sections read from a file, i.e. with a text (C312 for those added). C316_added_again: a section already there is not added again.",
 "C317": "Netlist file, edits and return code; the other fields are copied from the task in the same way.",
 "C318": "Item access by a name; an int or slice is passed on to the list.",
 "C319": "Refuted for every name and value.",
 "C320": "C320_instruction_updates_refuted: updates of instructions (recorded when add_instruction replaces a simulation directive) have the text of an invalid update.",
 "C321": "Refuted for every dictionary of parameters (text written), and on a whole statement.",
 "C322": "Refuted for every component and name (attributes), and on a whole statement."
}