{"id": "C01", "title": "Messages read from a byte stream are exactly its bytes", "statement": "Reading a file, standard input or a child's output message by message until end of stream loses, adds, repeats and reorders no byte: the concatenation of the messages is the concatenation of everything the operating system returned.", "quantifier": "every byte stream and every way the operating system may cut it into non-empty reads", "why_tests_cant": "the number of streams and of cuttings is unbounded; a test fixes both", "anchors": ["src/motion.rs: motion_read_buffer, motion_read, is_split, ReadSplitControl"]}
{"id": "C02", "title": "Message boundaries are the line endings, whatever the read sizes", "statement": "The sequence of messages is a function of the bytes alone: the stream cut after every line feed (so Windows and UNIX endings both end a message), plus the unterminated tail if there is one. Hence every message is non-empty, every message but possibly the last ends with a line feed, and no message contains a line feed before its end.", "quantifier": "every byte stream and every pair of cuttings of it into reads", "why_tests_cant": "a carriage return and its line feed may fall in different reads, at every one of infinitely many positions", "anchors": ["src/motion.rs: motion_read_buffer, is_split, ReadSplitControl::new", "README.src.md: messages are split at line endings"]}
{"id": "C03", "title": "The splitter is independent of read sizes for any set of delimiters", "statement": "For any non-empty set of non-empty delimiters (the code carries a TODO to make them configurable) the messages do not depend on how the stream was cut into reads.", "quantifier": "every set of delimiters, every byte stream, every cutting", "why_tests_cant": "the failure needs a delimiter and a cut position that no test tries", "anchors": ["src/motion.rs: motion_read_buffer (start_from), ReadSplitControl::new TODO"]}
{"id": "C04", "title": "A one-to-one copy forwards every message once, in order", "statement": "At every moment of a copy from one input to one output, the messages handed to the output are a prefix of the messages taken from the input and at most one message behind; when the copy ends successfully because its input ended, they are equal.", "quantifier": "every input, every pattern of blocking, every answer of the environment, every moment of the run", "why_tests_cant": "tests look at one schedule and at the end state only", "anchors": ["src/motion.rs: motion, motion_worker, motion_read, motion_write"]}
{"id": "C05", "title": "Fan-out offers each message to every output exactly once", "statement": "For each message taken, one write is attempted on each output, in output order, with that same message, before anything else is read; nothing is written that was not read.", "quantifier": "every number of outputs, every breakable setting, every write outcome", "why_tests_cant": "combinations of outputs and outcomes are unbounded", "anchors": ["src/motion.rs: motion_worker", "src/junction.rs: junction_motion_worker"]}
{"id": "C06", "title": "A closed Terminate pipe stops its component with an error naming that pipe", "statement": "If a write on a pipe marked Terminate finds it closed, the component stops at once with an output-closed error that carries that pipe's source, destination and port and the undelivered message; no later output is written and nothing more is read.", "quantifier": "every input history, every set of outputs, every moment at which the pipe closes", "why_tests_cant": "the closing moment ranges over every point of every run", "anchors": ["src/motion.rs: motion_worker, motion_write", "README.src.md: Terminate"]}
{"id": "C07", "title": "A closed Consume pipe never stops its component", "statement": "A component whose outputs are all marked Consume reads its whole input to the end whether or not, and whenever, those outputs close, and then ends successfully.", "quantifier": "every input, every subset of outputs, every closing moment", "why_tests_cant": "every closing moment of every run", "anchors": ["src/motion.rs: motion_worker", "README.src.md: Consume"]}
{"id": "C08", "title": "Finish ends a component exactly when all of its outputs are closed Finish pipes", "statement": "While handling a message a component ends early and successfully exactly when every one of its outputs is marked Finish and is found closed; in particular one open output, or one Consume output, keeps it going.", "quantifier": "every set of outputs with every mixture of breakable settings, every closing pattern", "why_tests_cant": "mixtures are unbounded in number", "anchors": ["src/motion.rs: motion_worker (unfinished_push_count)", "README.src.md: Finish"]}
{"id": "C09", "title": "The counts a component reports are its message counts", "statement": "A copy that ends because its input ended reports one more than the number of messages it took (the end marker is counted); a faucet or regulator reports exactly the number of messages.", "quantifier": "every run that ends successfully", "why_tests_cant": "every history", "anchors": ["src/motion.rs: motion", "src/faucet.rs: start_secret", "src/regulator.rs: start_secret"]}
{"id": "C10", "title": "A component that stops leaves no neighbour waiting", "statement": "When a copy, faucet, regulator, drain, buffer or junction stops, for whatever reason, every channel it read from and every channel it wrote to is closed, so neither the component before it nor the one after it can wait for it for ever.", "quantifier": "every run of every component, every way of stopping", "why_tests_cant": "stopping for an error at an arbitrary moment is not reachable by example", "anchors": ["src/motion.rs: motion, motion_close", "src/junction.rs: start", "src/faucet.rs", "src/regulator.rs", "src/drain.rs"]}
{"id": "C11", "title": "A junction copies every input message to every output, keeping each input's order", "statement": "At the end of a successful junction run with open outputs every output has received the same sequence of messages; that sequence is an interleaving of the inputs: each input's messages occur exactly once, in their own order, and nothing else occurs. At every earlier moment the same holds of what has been taken so far.", "quantifier": "every number of inputs and outputs, every priority assignment, every arrival pattern", "why_tests_cant": "interleavings are unbounded", "anchors": ["src/junction.rs: start, iteration, junction_motion_worker", "README.src.md: Junction"]}
{"id": "C12", "title": "A junction ends only when all inputs have ended, and then closes all outputs", "statement": "While some output accepts messages, a junction ends successfully only after every input has reported its end, and it closes each output once, after the last message.", "quantifier": "every number of inputs, every arrival and closing pattern", "why_tests_cant": "every order of closing", "anchors": ["src/junction.rs: iteration, start", "src/utils.rs"]}
{"id": "C13", "title": "Junction priority: a less preferred input is served only when all better ones are empty", "statement": "In every pass, a message is taken from an input only after every live input with a strictly smaller priority number has been asked in the same pass and had nothing.", "quantifier": "every priority assignment, every arrival pattern, every pass of every run", "why_tests_cant": "every schedule of arrivals", "anchors": ["src/junction.rs: initialize_stdin, iteration"]}
{"id": "C14", "title": "Junction priority agrees with the documentation", "statement": "As the documentation's example says ([5] is called high priority and [1] low priority), of two inputs that both have a message waiting the one with the larger number is served first.", "quantifier": "every pair of priorities", "why_tests_cant": "unit tests encode the opposite order without comparing it with the documentation", "anchors": ["src/junction.rs: initialize_stdin", "README.src.md: Junction priorities"]}
{"id": "C15", "title": "Inputs of equal priority are served alike", "statement": "Two junction inputs with the same priority belong to the same group: each pass that reaches one of them also asks the other.", "quantifier": "every priority assignment and insertion order", "why_tests_cant": "needs three or more inputs with a repeated non-lowest priority; every such assignment", "anchors": ["src/junction.rs: initialize_stdin (old_priority)"]}
{"id": "C16", "title": "A junction pass takes at most one message per input and starves no input of the first group", "statement": "In each pass every input is asked at most once, and each live input of the most preferred group is asked exactly once.", "quantifier": "every pass, every arrival pattern", "why_tests_cant": "fairness is a statement about every pass of an unbounded run", "anchors": ["src/junction.rs: junction_motion_worker, iteration"]}
{"id": "C17", "title": "Removing ended inputs removes exactly those", "statement": "After a pass the junction keeps exactly the inputs that did not report their end, in their previous order and grouping, with no empty group; indices recorded during the pass stay valid while removing.", "quantifier": "every grouping and every set of ended inputs", "why_tests_cant": "index-shift mistakes show only for particular sets of indices", "anchors": ["src/utils.rs: remove_vec_vec_index, remove_vec_vec", "src/junction.rs: iteration"]}
{"id": "C18", "title": "Polling back-off is bounded and resets", "statement": "After n consecutive idle polls the next delay is min(n,51) squared milliseconds: it never decreases, never exceeds 2601 ms, and after a reset the next delay is 0.", "quantifier": "every sequence of waits and resets", "why_tests_cant": "every history of waits and resets", "anchors": ["src/back_off.rs: BackOff"]}
{"id": "C19", "title": "A paused regulator lets at most one further message through", "statement": "From the moment a pause request has been accepted until the matching resume request is accepted (and the controller stays alive) a regulator or faucet forwards at most one message.", "quantifier": "every schedule of regulator, controller, upstream and downstream", "why_tests_cant": "the race between a message in flight and the pause has unboundedly many interleavings", "anchors": ["src/regulator.rs: start_secret, control, RegulatorControl", "src/faucet.rs"]}
{"id": "C20", "title": "Pause and resume requests strictly alternate and are idempotent", "statement": "However often a controller is told to pause or resume, the signals it sends alternate pause, resume, pause, ... starting with pause; repeated requests send nothing.", "quantifier": "every sequence of requests", "why_tests_cant": "every history of requests", "anchors": ["src/regulator.rs: RegulatorControl::pause, resume"]}
{"id": "C21", "title": "A regulator pauses at or above the high mark and resumes at or below the low mark", "statement": "The controller sends a pause only when the sum of the most recent sizes reported by the buffers it still watches is at least the high watermark, a resume only when that sum is at most the low watermark, and never leaves a pass with the regulator open at or above the high mark (unless the marks overlap) or closed at or below the low mark.", "quantifier": "every pair of marks, every number of buffers, every arrival of size reports", "why_tests_cant": "every interleaving of size reports", "anchors": ["src/waiter.rs: manage_regulator_from_buffers", "README.src.md: Regulator"]}
{"id": "C22", "title": "The controller ends with the regulator resumed", "statement": "When all watched buffers have gone away the controller ends, and the regulator is left running rather than paused.", "quantifier": "every history of size reports and every order in which buffers go away", "why_tests_cant": "every order of closing", "anchors": ["src/waiter.rs: manage_regulator_from_buffers"]}
{"id": "C23", "title": "Regulators and faucets forward every message once, in order, paused or not", "statement": "Whatever pauses and resumes happen, what a regulator or faucet has sent is a prefix of what it has read, at most one message behind, and equal to it when it ends successfully because its input ended.", "quantifier": "every input, every pause and resume schedule", "why_tests_cant": "every control schedule", "anchors": ["src/regulator.rs: start_secret", "src/faucet.rs: start_secret"]}
{"id": "C24", "title": "Controlling a regulator never blocks the controller for ever", "statement": "A controller that has been accepted a pause can always deliver the matching resume without waiting for a new message to reach the regulator.", "quantifier": "every schedule", "why_tests_cant": "needs an idle upstream at the moment of the resume; a liveness statement", "anchors": ["src/regulator.rs: RegulatorControl::resume (bounded(1))", "src/waiter.rs: manage_regulator_from_buffers"]}
{"id": "C25", "title": "A buffer is a lossless first-in first-out queue", "statement": "What a buffer has sent is at every moment a prefix of what it has received, and it is everything received once the buffer ends successfully after its input ended.", "quantifier": "every input, every speed of the two sides, every schedule of the three tasks inside the buffer", "why_tests_cant": "every interleaving", "anchors": ["src/buffer.rs: start"]}
{"id": "C26", "title": "A buffer accepts input however slow its output is", "statement": "With no message ever taken from its output a buffer still takes every message offered to it, provided its size reports are read (or it is not monitored).", "quantifier": "every number of messages", "why_tests_cant": "unbounded queue growth cannot be exhausted by a test", "anchors": ["src/buffer.rs: start (unbounded)", "README.src.md: Buffer"]}
{"id": "C27", "title": "A buffer's size count never drops below zero", "statement": "The size reported by a buffer is computed by unsigned subtraction; the subtraction never underflows.", "quantifier": "every input and every schedule the executor can produce", "why_tests_cant": "the race between the two counters has unboundedly many interleavings", "anchors": ["src/buffer.rs: total_in_buffer"]}
{"id": "C28", "title": "A buffer that ends reports itself empty", "statement": "When a buffer ends successfully the last size it reported, if it reported any, is zero, and consecutive reports always differ.", "quantifier": "every successful run", "why_tests_cant": "every interleaving", "anchors": ["src/buffer.rs: total_in_buffer"]}
{"id": "C29", "title": "A failing buffer reports which pipe failed", "statement": "When a buffer stops because its Terminate output closed, the error it returns identifies that pipe, as it does for every other component.", "quantifier": "every failing run", "why_tests_cant": "the error value is asserted nowhere", "anchors": ["src/buffer.rs: structure_motion_result", "src/bin_support.rs: waiter_error_to_string"]}
{"id": "C30", "title": "A drain writes exactly the messages it receives", "statement": "The bytes written to a drain's destination are at every moment the concatenation of a prefix of the messages received, and of all of them when it ends successfully.", "quantifier": "every message sequence and schedule", "why_tests_cant": "every moment of every run", "anchors": ["src/drain.rs: start", "src/motion.rs: motion"]}
{"id": "C31", "title": "Drain destinations and faucet sources select what the help text says", "statement": "\"-\" selects standard output (input), \"_\" standard error, the empty text selects nothing, anything else is a file of that name.", "quantifier": "every destination text", "why_tests_cant": "the set of texts is infinite", "anchors": ["src/drain.rs: start", "src/faucet.rs: start", "src/bin/pa2.rs: faucet source / drain destination help"]}
{"id": "C32", "title": "A launched program receives exactly the input messages and its output is relayed intact", "statement": "The bytes written to the child's standard input are the concatenation of a prefix of the messages received (all of them when that side ends at end of input); each of its output streams is relayed as messages whose concatenation is what the child wrote there.", "quantifier": "every message sequence, every child behaviour, every schedule", "why_tests_cant": "every child behaviour", "anchors": ["src/launch.rs: start", "src/motion.rs: motion"]}
{"id": "C33", "title": "The exit port carries exactly one message, last", "statement": "If the exit port is connected, a launch that runs to its end sends exactly one message on it: the decimal exit code, or \"_\" if the child was killed by a signal, after all relaying on the other ports has ended, and then closes the port.", "quantifier": "every exit code, every child behaviour, every schedule", "why_tests_cant": "every interleaving of the three relays and the exit", "anchors": ["src/launch.rs: start"]}
{"id": "C34", "title": "A program that cannot be started is reported as an error", "statement": "If the operating system cannot start the program, the launch ends with the launch-spawn error.", "quantifier": "every command", "why_tests_cant": "no test starts a missing program", "anchors": ["src/launch.rs: start (unwrap)", "src/motion.rs: MotionError::LaunchSpawnError"]}
{"id": "C35", "title": "A launch's result is decided by its three relays in a fixed order", "statement": "A launch succeeds, with the count of its input side, exactly when all three relays (and the exit message) succeed; otherwise its error is the first failing one in the order input, output, error output.", "quantifier": "every combination of results", "why_tests_cant": "combinations with payloads are unbounded", "anchors": ["src/launch.rs: structure_motion_result"]}
{"id": "C36", "title": "A straight pipeline is transparent under every schedule", "statement": "In a chain of a source, any number of one-to-one stages and a drain, the bytes at the drain are at every moment a prefix of the source's bytes, and are equal to them when all stages have ended successfully.", "quantifier": "every chain length, every channel capacity, every byte stream, every interleaving of the stages", "why_tests_cant": "interleavings of several concurrent stages are unbounded", "anchors": ["src/waiter.rs: start, join", "src/motion.rs", "src/faucet.rs", "src/regulator.rs", "src/drain.rs"]}
{"id": "C37", "title": "A straight pipeline never deadlocks and always ends", "statement": "With finite input and willing ends, a chain of stages never reaches a state in which no stage can move before all have ended, and every schedule ends after finitely many steps.", "quantifier": "every chain length, every capacity of at least one, every interleaving", "why_tests_cant": "absence of deadlock and termination are statements about all schedules", "anchors": ["src/waiter.rs: start", "src/motion.rs: motion"]}
{"id": "C38", "title": "A loop without a buffer cannot lock up", "statement": "Feeding a junction's output back to one of its inputs through one-to-one stages never deadlocks.", "quantifier": "every capacity and every input", "why_tests_cant": "needs the loop to fill up; depends on capacity and input length", "anchors": ["src/junction.rs", "README.src.md: loops and buffers"]}
{"id": "C39", "title": "The connection text grammar is exactly the documented one", "statement": "A connection text is accepted with a given result exactly when it is a rendering of that result: a first component, middle components, a last component, separated by pipes with optional spaces; every other text is rejected.", "quantifier": "every text", "why_tests_cant": "the set of texts is infinite, and PEG choices commit early", "anchors": ["src/config.rs: connection_grammar parser, load_connection_from_string"]}
{"id": "C40", "title": "Every connection list can be written as text and read back", "statement": "Printing a well-formed connection list (one first, any middle, one last component) and parsing the result gives the list back.", "quantifier": "every well-formed connection list with any names, ports, priorities and breakables", "why_tests_cant": "lists are unbounded", "anchors": ["src/config.rs: parser"]}
{"id": "C41", "title": "Parsed connections are well formed", "statement": "A successfully parsed text yields either no connection (only for the empty text) or a start, any number of middles and an end, with non-empty names of letters, digits and underscores.", "quantifier": "every text", "why_tests_cant": "the set of texts is infinite", "anchors": ["src/config.rs: parser"]}
{"id": "C42", "title": "A pipe's marker applies to the component after it, with documented defaults", "statement": "The marker of each pipe (|T|, |F|, |C| or plain, which means Terminate) becomes the breakable of the input of the component that follows it; without brackets the priority is 0 and the output port is standard output.", "quantifier": "every connection text", "why_tests_cant": "every position in texts of any length", "anchors": ["src/config.rs: convert_to_input_breakable, connection_set"]}
{"id": "C43", "title": "A priority that cannot be represented is rejected", "statement": "If a bracketed priority is not a number that fits, parsing fails rather than silently choosing another priority.", "quantifier": "every digit string", "why_tests_cant": "digit strings are unbounded", "anchors": ["src/config.rs: port_preference (unwrap_or)"]}
{"id": "C44", "title": "Breaking connections into pairs preserves every edge", "statement": "Rewriting all connection lists into two-element connections yields exactly one pair for each adjacent pair of components, with the same ports, priorities and breakables, in order; no pair overwrites another.", "quantifier": "every set of connection lists of any length and any names for them", "why_tests_cant": "name collisions and lengths are unbounded", "anchors": ["src/config_manip.rs: pair_up_connections, break_apart, rebuild_pair_up_connections_folder"]}
{"id": "C45", "title": "Generated names are fresh", "statement": "A generated connection, junction or drain name never equals an existing one, and the search for it always ends.", "quantifier": "every set of existing names", "why_tests_cant": "sets of names are unbounded", "anchors": ["src/config_manip.rs: generate_new_key"]}
{"id": "C46", "title": "After adding junctions nothing has two inputs or two users of one output", "statement": "In the rewritten connections every component other than a generated junction has at most one incoming connection, and each of its output ports at most one outgoing connection.", "quantifier": "every set of connections, every order in which the hash tables are walked", "why_tests_cant": "graphs and hash orders are unbounded", "anchors": ["src/config_manip.rs: add_junctions, count_start_ends, add_start_junctions_for, add_end_junctions_for"]}
{"id": "C47", "title": "Adding junctions preserves who feeds whom", "statement": "An output port reaches a component through generated junctions only exactly when the original connections joined them directly, and by as many routes as there were connections.", "quantifier": "every set of connections, every hash order", "why_tests_cant": "graphs and hash orders are unbounded", "anchors": ["src/config_manip.rs: add_junctions"]}
{"id": "C48", "title": "Adding junctions keeps each connection's priority and breakable", "statement": "Each original connection keeps its key, priority and breakable; every generated connection is marked Finish.", "quantifier": "every set of connections, every hash order", "why_tests_cant": "graphs are unbounded", "anchors": ["src/config_manip.rs: add_junctions"]}
{"id": "C49", "title": "Every launch with an outgoing connection gets exactly one exit connection", "statement": "After preparing a configuration each launch that occurs as a source has exactly one connection on its exit port; other connections and configured drains are unchanged.", "quantifier": "every configuration", "why_tests_cant": "configurations are unbounded", "anchors": ["src/config_manip.rs: identify_required_spies_for_launch_exits, add_launch_exit_spies"]}
{"id": "C50", "title": "The program waits for every launched program", "statement": "After preparing a configuration every launch in the flow has its exit status awaited.", "quantifier": "every configuration", "why_tests_cant": "the omission concerns configurations nobody tested", "anchors": ["src/config_manip.rs: identify_required_spies_for_launch_exits (all_launch)", "src/launch.rs: start"]}
{"id": "C51", "title": "Processing an invalid connection text is reported, not a crash", "statement": "Processing a configuration containing a connection text that does not parse ends with the invalid-connection lint message.", "quantifier": "every configuration", "why_tests_cant": "configurations are unbounded", "anchors": ["src/config_manip.rs: connection_manipulation, rebuild_pair_up_connections_folder", "src/bin/pa2.rs: process"]}
{"id": "C52", "title": "Preparing a configuration prints nothing", "statement": "Standard output carries only what drains write: preparing the configuration prints nothing there.", "quantifier": "every configuration", "why_tests_cant": "tests capture output without comparing it to the drains'", "anchors": ["src/config_manip.rs: add_launch_exit_spies (println!)"]}
{"id": "C53", "title": "Lint reports exactly the documented problems", "statement": "Lint returns the unparsable connections if there are any; otherwise exactly: each monitored buffer that occurs in no connection, each configured regulator, drain, faucet or launch in no connection, and each drain, faucet, launch or regulator in a connection without configuration.", "quantifier": "every configuration", "why_tests_cant": "configurations are unbounded", "anchors": ["src/config.rs: Config::lint"]}
{"id": "C54", "title": "A configuration that passes lint can be wired", "statement": "If lint (after preparation) reports nothing, building the pipeline succeeds.", "quantifier": "every configuration", "why_tests_cant": "configurations are unbounded", "anchors": ["src/waiter.rs: get_waiter, join", "src/config.rs: lint", "src/bin/pa2.rs: process"]}
{"id": "C55", "title": "Wiring connects exactly what the configuration says", "statement": "A successful build creates one component per distinct type and name, gives distinct components distinct identifiers, and creates exactly one channel per connection from the named output port to the named component with that connection's breakable and priority.", "quantifier": "every configuration", "why_tests_cant": "configurations are unbounded", "anchors": ["src/waiter.rs: get_waiter, join, incr_id, get_src_pull"]}
{"id": "C56", "title": "The overall result accounts for every component", "statement": "A run succeeds with the sum of all counts exactly when every component succeeded; otherwise it returns every component's error and no other.", "quantifier": "every number of components and results", "why_tests_cant": "every combination", "anchors": ["src/waiter.rs: Waiter::start"]}
{"id": "C57", "title": "Errors are reported in the order they happened", "statement": "The list of errors returned is sorted by the time each occurred.", "quantifier": "every list of errors", "why_tests_cant": "depends on errors that carry no time being in particular places", "anchors": ["src/waiter.rs: Waiter::start (sort_by)"]}
{"id": "C58", "title": "Any set of regulators and buffers can be configured", "statement": "Regulator settings accepted by lint are accepted when building: several regulators may watch one buffer.", "quantifier": "every configuration", "why_tests_cant": "configurations are unbounded", "anchors": ["src/waiter.rs: regulator_settings, configure_regulator", "src/buffer.rs: add_buffer_size_monitor assert"]}
{"id": "C59", "title": "Configuration setters change only what they name", "statement": "Each configuration command changes just the named entry's named field (creating the entry if absent); every other entry and field keeps its value, and the new value is the one given.", "quantifier": "every configuration and argument", "why_tests_cant": "configurations are unbounded", "anchors": ["src/config.rs: launch_set_*, faucet_set_source, drain_set_destination, connection_join"]}
{"id": "C60", "title": "Watermarks set from the command line are ordered", "statement": "After setting watermarks the low mark is at most the high mark, they are the two numbers given, and the list of watched buffers is unchanged.", "quantifier": "every pair of numbers, every configuration", "why_tests_cant": "pairs are unbounded", "anchors": ["src/config.rs: regulator_set_watermark"]}
{"id": "C61", "title": "Configuration files survive being written and read", "statement": "Serialising a configuration and reading it back gives the same configuration, although connections are stored without a tag saying which kind they are.", "quantifier": "every configuration", "why_tests_cant": "configurations are unbounded", "anchors": ["src/config.rs: serde types, Connection untagged"]}
{"id": "C62", "title": "Environment settings split at the first equals sign", "statement": "NAME=VALUE settings are split at the first '='; names are non-empty; for repeated names the last wins; the first malformed setting is the one reported.", "quantifier": "every list of texts", "why_tests_cant": "lists and texts are unbounded", "anchors": ["src/bin/pa2.rs: as_kv"]}
{"id": "C63", "title": "The configuration format follows the file name", "statement": "Without an explicit format a .json file is read as JSON and a .yml or .yaml file as YAML.", "quantifier": "every file name", "why_tests_cant": "the default value hides the branch in every test", "anchors": ["src/bin/pa2.rs: get_config_format, clap default_value"]}
{"id": "C64", "title": "The diagram shows exactly the connections", "statement": "The diagram has one edge for each adjacent pair of components in each connection, labelled with their ports, and one node identity per component: distinct components never share a node.", "quantifier": "every configuration", "why_tests_cant": "configurations are unbounded", "anchors": ["src/graph.rs: convert_connection_to_graph_connection, get_diagram"]}
{"id": "C65", "title": "Every reported error that knows its pipe is printed with both ends", "statement": "The journey, source and time accessors of an error agree with each other: whenever an error carries a pipe, its source is that pipe's source, and the printed text names the components at that pipe's ends.", "quantifier": "every error value and every identifier table", "why_tests_cant": "error values are unbounded", "anchors": ["src/motion.rs: MotionError accessors", "src/bin_support.rs: waiter_error_to_string"]}
{"id": "C66", "title": "A launched program is started once and exactly as configured", "statement": "A launch starts its program at most once, before it does anything else, with exactly the configured command, arguments, working directory and environment additions; each standard stream is a pipe exactly when it is connected.", "quantifier": "all launch configurations, all wirings, all environments and schedules", "why_tests_cant": "tests start a few fixed programs; the claim is about every configuration and every moment of every run", "anchors": ["src/launch.rs:128-187"]}
{"id": "C67", "title": "A component that is not connected ends at once with an error", "statement": "A buffer, regulator, faucet, junction or drain that lacks an input or an output it needs ends immediately with an error, before it takes or sends any message.", "quantifier": "every such component, every environment", "why_tests_cant": "wirings are unbounded and the tests only build complete ones", "anchors": ["src/buffer.rs: start", "src/regulator.rs: start", "src/faucet.rs: start", "src/drain.rs: start", "src/junction.rs: start"]}
{"id": "C68", "title": "Junctions are added only where something is shared", "statement": "A connection whose output port has no other user and whose component has no other input is left exactly as it was; every generated connection joins a shared port or component of the configuration to a junction with a new name.", "quantifier": "every set of connections, every hash order", "why_tests_cant": "sets of connections are unbounded", "anchors": ["src/config_manip.rs: add_junctions"]}
{"id": "C69", "title": "Any list of connections can be prepared", "statement": "Preparing a configuration whose connections are lists or readable texts does not panic.", "quantifier": "every configuration", "why_tests_cant": "lists are unbounded", "anchors": ["src/config_manip.rs: break_apart, apart_iterator_to_double_connection"]}
{"id": "C70", "title": "Preparing a configuration is deterministic", "statement": "Preparing the same configuration twice gives the same connections.", "quantifier": "every configuration, every two hash orders", "why_tests_cant": "hash orders differ from run to run", "anchors": ["src/config_manip.rs: add_junctions (HashMap iteration)"]}
{"id": "C71", "title": "Priorities on connections to one component are accepted", "statement": "Connections to one component may carry different priorities: the generated junction takes them and the pipeline can be built.", "quantifier": "every configuration with priorities", "why_tests_cant": "the parser never writes a priority itself; the tests only check the rewritten connections, not that they can be built", "anchors": ["src/config_manip.rs: add_junctions", "src/waiter.rs: join", "src/launch.rs: add_input"]}
{"id": "C72", "title": "Running is refused exactly when something is missing", "statement": "When the connections can be read, `pa2 process` refuses a configuration, naming what is missing, exactly when a component mentioned in a connection has no settings or a watched buffer is not mentioned; otherwise the configuration that is run has the same faucets, regulators and launches.", "quantifier": "every configuration with readable connections, every hash order", "why_tests_cant": "configurations are unbounded and the order of hash maps varies", "anchors": ["src/config.rs: process_config, lint", "src/config_manip.rs: connection_manipulation"]}
{"id": "C73", "title": "A connection written out by hand is read with both its sides or refused", "statement": "A connection in JSON or YAML that names an input or an output side is read with that side, or the configuration is refused.", "quantifier": "every value tree for a connection", "why_tests_cant": "value trees are unbounded; the untagged enum hides the loss", "anchors": ["src/config.rs: Connection (untagged), MiddleConnection, StartConnection, EndConnection"]}
{"id": "C74", "title": "Every command that is offered is implemented", "statement": "Every command that the command line declares, given its required arguments, is turned into its request.", "quantifier": "every declared command and all arguments", "why_tests_cant": "the tests do not run the command line", "anchors": ["src/bin/pa2.rs: get_clap_app, get_user_action"]}
{"id": "C75", "title": "Without --config the configuration is blank", "statement": "As the help text says, without --config the commands work on a blank configuration.", "quantifier": "every command and all surroundings", "why_tests_cant": "depends on what standard input is", "anchors": ["src/bin/pa2.rs: get_clap_app, get_config_in", "src/config_io.rs: read_config_as_str"]}
{"id": "C76", "title": "Watermarks are exactly the decimal numbers of 64 bits", "statement": "`watermark MIN MAX` is understood exactly when both texts are decimal numbers below 2^64 (perhaps with a plus sign), and then with those values; anything else is refused.", "quantifier": "every pair of texts", "why_tests_cant": "texts are unbounded", "anchors": ["src/bin/pa2.rs: get_user_action"]}
{"id": "C77", "title": "Every field of a configuration file is understood or reported", "statement": "A field of a configuration file whose name is not known is reported; what is left out has its documented default.", "quantifier": "every value tree", "why_tests_cant": "value trees are unbounded", "anchors": ["src/config.rs: serde types"]}
{"id": "C78", "title": "The legend agrees with the diagram", "statement": "The legend shows every kind of component, under its name, with the shape and colour that components of that kind have in the diagram; no two kinds have the same shape, and only buffers and regulators share a colour.", "quantifier": "every configuration and every drawing mode", "why_tests_cant": "configurations are unbounded; the legend and the diagram are built by separate code", "anchors": ["src/graph.rs: get_legend, get_node_shape, get_node_color"]}
{"id": "C79", "title": "The diagram is DOT", "statement": "Whatever the names of components and connections are, the text that pa2 graph prints is accepted by DOT: all its identifiers and values are DOT identifiers.", "quantifier": "every configuration that pa2 graph accepts", "why_tests_cant": "names are unbounded", "anchors": ["src/graph.rs: get_diagram, get_graph"]}
{"id": "C80", "title": "Components are drawn in the frame of their connection", "statement": "A component is drawn in one frame only: that of the first connection set in which it has a neighbour (junctions at the ends of a set may be outside every frame, components without neighbours always are). Frames carry the name of their set; those with a faucet have rank min, otherwise those with a drain rank max, others rank same.", "quantifier": "every configuration, every order of the hash map", "why_tests_cant": "configurations are unbounded; the hash map's order varies from run to run", "anchors": ["src/graph.rs: get_connection_set_name, get_diagram", "src/config.rs: quick_add_connection_set"]}
{"id": "C81", "title": "The exit code tells whether anything failed", "statement": "The program ends with code 0 and prints no error, or with code 1, prints no result and lists at least one error. A run of a pipeline ends with 0 exactly when no component failed; otherwise every component's error is listed, once, with the error text.", "quantifier": "every command line, configuration, order of the hash maps and results of the components", "why_tests_cant": "the combinations of failing components are unbounded", "anchors": ["src/bin/pa2.rs: main", "src/waiter.rs: Waiter::start", "src/bin_support.rs: waiter_error_to_string"]}
{"id": "C82", "title": "Different kinds of failures are described differently", "statement": "The texts of two errors of different kinds are different, so a user can tell from the text what kind of failure it was.", "quantifier": "every two errors, every text of the libraries' errors", "why_tests_cant": "error values are unbounded", "anchors": ["src/motion.rs: impl Display for MotionError", "src/waiter.rs: WaiterError::description"]}
{"id": "C83", "title": "With a buffer in every loop a pipeline never locks up", "statement": "If every loop of connections passes through a buffer, then in a willing world there is always something useful that can be done next, unless everything that was put in has passed through: all open connections and the stores of the buffers are empty and every component that has not ended waits for input. In particular nobody ever waits for ever for room in a connection.", "quantifier": "every network, every capacity of at least one, every input, every interleaving", "why_tests_cant": "a lock-up depends on the fill of all connections and the interleaving; the states are unbounded", "anchors": ["README.src.md: loops and buffers", "src/buffer.rs: start", "src/junction.rs: iteration", "src/waiter.rs: start"]}
{"id": "C84", "title": "A loop of regulators, buffers and junctions never ends by itself", "statement": "If regulators, buffers and junctions feed each other in a loop, then in a willing world none of them ever ends, and neither does anybody who is fed by them, whatever the inputs do: the program does not end.", "quantifier": "every network with such a loop, every input, every run however long", "why_tests_cant": "that something never happens in any run cannot be observed", "anchors": ["src/junction.rs: iteration", "src/motion.rs: motion", "src/waiter.rs: start"]}
{"id": "C85", "title": "A run in which a component fails still ends", "statement": "When a component fails (a source that cannot be opened, a file that cannot be created), all other components still end, so that the program ends and reports the error.", "quantifier": "every network in which nothing flows back, every failure, every interleaving", "why_tests_cant": "failures at every component and moment, and all interleavings", "anchors": ["src/faucet.rs: start", "src/junction.rs: start", "src/waiter.rs: start"]}
{"id": "C86", "title": "Regulating a pipeline never locks it up", "statement": "In a pipeline in which nothing flows back, adding a regulator that watches a buffer never makes the program hang in a willing world: whenever nobody can do anything any more, everybody has ended.", "quantifier": "every accepted configuration in which nothing flows back, with any regulator settings; every input; every run polled as the program polls", "why_tests_cant": "the lock needs a rare coincidence of full report and control channels", "anchors": ["src/waiter.rs: manage_regulator_from_buffers, start", "src/regulator.rs: start_secret", "src/buffer.rs: start"]}
{"id": "C87", "title": "As the program polls them, pipelines without regulation are runs of their network and never lock up", "statement": "Components polled round and round as Waiter::start polls them (launches, regulators, faucets, controllers, drains, buffers, junctions, each until it waits), with channels as large as they are made, poll the parts of every buffer in turn. Without regulator settings and with nothing flowing back, in a willing world nobody fails, nobody waits for ever, and no fair run with limited input is endless; with a buffer in every loop nothing is stuck between components.", "quantifier": "every network that is wired and has room, every input, every run in polling order", "why_tests_cant": "all interleavings allowed by the order, all inputs and all networks", "anchors": ["src/waiter.rs: start", "src/buffer.rs: start"]}
{"id": "C88", "title": "Whether a pipeline can lock up can be read off the connections as they are written", "statement": "If, as the connections are written in the configuration, something comes before and after every regulator and buffer and after every junction, and no junction directly follows itself, then the pipeline that is made (with the junctions and drains that are added, and without regulator settings) has one sender and one receiver for every channel and can be started. Without loops in the connections nothing flows back in it, so in a willing world nobody fails, nobody waits for ever and no fair run with limited input is endless. With a buffer in every loop of the connections nothing is stuck between components when all is quiet.", "quantifier": "every configuration that is accepted and built, every order of the hash maps, every input, every run in polling order", "why_tests_cant": "all configurations, all interleavings and all inputs", "anchors": ["src/config_manip.rs: connection_manipulation", "src/waiter.rs: get_waiter, start"]}
{"id": "C89", "title": "Every regulator of the configuration is paused and resumed at its own marks by the sizes of its own buffers", "statement": "For every accepted configuration: each regulator that is set to watch buffers is told to pause and to resume by one controller, which has the marks that are configured for it and hears the sizes of just the buffers configured for it; nobody else is told anything. In every run each pause that the regulator hears was given when the sizes last told by those buffers added up to at least the high mark, each resume when they added up to at most the low mark, and it has heard all but at most the last. It is not paused before the buffers have together received as many messages as the high mark, less one for each buffer. After it has been given a pause it passes on at most one message until it is given a resume.", "quantifier": "every accepted configuration (any number of regulators and buffers), any order of the hash maps, every input, every interleaving", "why_tests_cant": "all wirings of controllers to regulators and buffers, and all interleavings of reports, signals and messages", "anchors": ["src/waiter.rs: manage_regulator_from_buffers, start", "src/regulator.rs: start_secret, RegulatorControl", "src/buffer.rs: start, add_buffer_size_monitor"]}
{"id": "C90", "title": "Regulation only delays", "statement": "A run of a regulated pipeline, less the steps of its regulation (signals to regulators, sizes told to controllers, the controllers themselves), is a run of the same pipeline without regulation, with the same messages and the same results. In a willing world nobody fails, the controllers included. Without loops the one way to come to a standstill before everybody has succeeded is a buffer that cannot tell its size because its controller cannot give its signal because its regulator has not heard the one before; and that does not happen before the buffers watched by a regulator have together received as many messages as its high mark, less one for each buffer.", "quantifier": "every accepted configuration that passes everything on, any marks, any number of regulators and buffers; every input; every interleaving (for the standstill: every run polled as the program polls)", "why_tests_cant": "relates all regulated executions to unregulated ones, and excludes every other way of locking up", "anchors": ["src/waiter.rs: manage_regulator_from_buffers, start", "src/regulator.rs: start_secret", "src/buffer.rs: start"]}
{"id": "C91", "title": "Everything read at the sources is written at the targets, each source's lines in order", "statement": "In every accepted configuration: whatever a drain writes (or a program is given on its standard input) is, at any time, a mix (interleaving) of beginnings of what has been read so far from each of the sources that feed it: the lines of the faucets, the standard output and standard error of programs, their exit status, each as many times as there are ways from it to there. Once everybody has succeeded in a willing world, every one of these sources has been read to its end, the target has been flushed, and what has been written is a mix of everything that was read: nothing lost, nothing made up, nothing doubled, each source's lines in order. Without loops every channel is fed so.", "quantifier": "every accepted configuration that passes everything on (loops and regulators included), every input, every way in which inputs are cut into reads, every interleaving", "why_tests_cant": "all topologies, all inputs and all interleavings at once", "anchors": ["src/waiter.rs: start, join", "src/faucet.rs: start", "src/launch.rs: start", "src/drain.rs: start", "src/junction.rs: start", "src/motion.rs: motion"]}
{"id": "C92", "title": "What a file receives, read off the configuration", "statement": "Reading only the connections as the user wrote them (strings or lists): from each faucet or program output from which the neighbours lead, through regulators, buffers and junctions, to a drain or program, the lines read arrive there, once for each way; at any time what has been written there is a mix of beginnings of them, and once all has succeeded it is a mix of all of them, the drain named so in the configuration having written to the place the configuration gives for it, the faucets having read from theirs. None of the junctions, monitoring connections and drains the program adds by itself changes this. Without loops the sources of every drain and program are determined.", "quantifier": "every configuration that is accepted and passes everything on; every choice of names for what is added; every input; every interleaving", "why_tests_cant": "ties the configuration text to the bytes written, for all topologies, inputs and interleavings", "anchors": ["src/config_manip.rs: all", "src/waiter.rs: get_waiter, start"]}
{"id": "C93", "title": "Byte for byte", "statement": "To a file or program to which, by the connections as written, only one source leads (a file, the standard output or error of a program, its exit status), exactly the bytes of that source are written: at any time a beginning of what has been read, and once all has succeeded all of it, however the reads were cut and whatever bytes they contain. Where several sources lead, exactly the bytes of all of them, each once. When nothing moves any more in a pipeline without loops, this is so unless a buffer is choked as described in C90.", "quantifier": "every accepted configuration that passes everything on; every input (any bytes, any pieces); every interleaving", "why_tests_cant": "all byte sequences, all ways to cut them into reads, all topologies and interleavings", "anchors": ["src/motion.rs: motion_read_buffer, motion", "src/faucet.rs: start", "src/launch.rs: start", "src/drain.rs: start", "src/waiter.rs: start"]}
{"id": "C94", "title": "Merging keeps lines whole", "statement": "Where several sources are merged into one file, the lines of that file are lines of the sources: no line is made of the pieces of two.", "quantifier": "every accepted configuration that passes everything on; every input; every interleaving", "why_tests_cant": "depends on how the last lines of the inputs end and on the interleaving", "anchors": ["src/motion.rs: motion_read_buffer", "src/junction.rs: start", "src/launch.rs: 233-270"]}
{"id": "C95", "title": "A regulated pipeline ends or chokes", "statement": "In a pipeline without loops, whose regulators watch buffers that come after them, of finite inputs in a willing world and with a scheduler that forgets nobody, everything comes to an end with success, unless from some time on a buffer waits to tell its size to a controller that waits to signal its regulator. Nothing else lasts for ever, although controllers and counters may look and sleep any number of times. It does come to an end if no regulator's buffers ever receive as many messages as its high mark (less one for each buffer).", "quantifier": "every accepted configuration that passes everything on, without loops, regulators before the buffers they watch; every input; every fair endless execution", "why_tests_cant": "liveness over infinite executions of programs that poll with growing sleeps, for all topologies", "anchors": ["src/waiter.rs: 37-99, 300-398", "src/buffer.rs: 112-163", "src/regulator.rs: start"]}
{"id": "C96", "title": "A regulator may watch any buffer", "statement": "As C95, for regulators that watch any buffer, also one that comes before the regulator.", "quantifier": "every accepted configuration that passes everything on, without loops; every input; every fair endless execution", "why_tests_cant": "liveness over infinite executions; depends on how much is buffered when the regulator is paused", "anchors": ["src/waiter.rs: 37-99", "src/config.rs: regulator"]}
{"id": "C97", "title": "A buffer behind its own regulator is bounded", "statement": "If a regulator watches a buffer that comes directly after it, and the regulator feeds nothing else and nothing else feeds the buffer, then at every moment the buffer's store holds at most max(high mark, low mark + 1) + 28 messages, however long the input is and however slowly, if at all, the buffer is emptied. (28 = the channels and reports on the way: 8 in the pipe, 8 size reports, 12 counts and messages in hand.)", "quantifier": "every accepted configuration with such a regulator and buffer, whatever else is in it; every interleaving of all components; every input", "why_tests_cant": "the bound must hold for every interleaving of six concurrent tasks; a test sees a few schedules", "anchors": ["src/regulator.rs: start", "src/waiter.rs: 37-99, 300-398", "src/buffer.rs: 30-163", "src/motion.rs: 230-330"]}
{"id": "C98", "title": "A watched buffer never holds more than its high mark", "statement": "As C97, with the high mark itself as the bound.", "quantifier": "every accepted configuration with a regulator straight before the buffer it watches; every execution as Waiter::start polls", "why_tests_cant": "how far the mark is passed depends on the interleaving", "anchors": ["src/waiter.rs: 37-99", "src/buffer.rs: 112-163", "src/regulator.rs: start"]}
{"id": "C99", "title": "A watched buffer is bounded whoever feeds it", "statement": "As C97, for a buffer that something else feeds too.", "quantifier": "every accepted configuration with a regulator directly before a buffer it watches; every execution as Waiter::start polls", "why_tests_cant": "shows as memory use growing with the input only when the output is slow", "anchors": ["src/waiter.rs: 37-99", "src/buffer.rs: 112-163"]}
{"id": "C100", "title": "Failures do not spread over pipes marked F or C", "statement": "If every pipe in the configuration is marked |F| or |C|, then in every execution a component started by Waiter::start ends with an error only if one of the files, programs or standard streams that it itself opens, reads, writes or flushes has failed, and the error is of that kind (for a launch also: the receiver of its exit status is gone, error SendError for that pipe). Regulators, buffers and junctions never end with an error.", "quantifier": "every accepted configuration whose pipes are all marked F or C; every outside world; every interleaving", "why_tests_cant": "needs a failure at every possible place and time, and every interleaving of the closing of a pipe with what is being sent over it", "anchors": ["src/motion.rs: 420-640", "src/regulator.rs: 92-165", "src/junction.rs: 100-186", "src/buffer.rs: 80-184", "src/launch.rs: 150-277"]}
{"id": "C101", "title": "A launch whose pipes are all marked F or C fails only when something of its own has failed", "statement": "As C100 without the exception: if all pipes are marked F or C, a launch ends with an error only if reading from or writing to its program failed.", "quantifier": "every accepted configuration whose pipes are all marked F or C; every execution", "why_tests_cant": "shows only when the component taking the exit status has failed before the program ends", "anchors": ["src/launch.rs: 235-255", "README.src.md"]}
{"id": "C102", "title": "A component nothing of whose own has failed does not fail", "statement": "Whatever the marks of the pipes, a component ends with an error only if one of the files, programs or standard streams it itself uses has failed.", "quantifier": "every accepted configuration; every execution as Waiter::start polls", "why_tests_cant": "depends on which of two neighbours notices first", "anchors": ["src/motion.rs: 420-640", "src/junction.rs: 100-186"]}
{"id": "C103", "title": "Over pipes marked F or C a pipeline without loops and regulation ends whatever breaks, as long as every source opens and every program starts", "statement": "If all pipes are marked F or C, nothing flows back and no regulator watches a buffer, then whatever file, program or standard stream fails on the way: when no part of the run can do anything any more, every component has ended; and no run over limited input that forgets nobody goes on for ever. Only the opening of sources and the starting of programs has to succeed.", "quantifier": "every accepted configuration with all pipes marked F or C, without loops and without regulation; every execution as Waiter::start polls, with any failures on the way", "why_tests_cant": "a component left waiting shows only for the particular moment at which the failure strikes", "anchors": ["src/motion.rs: 420-640", "src/faucet.rs: start", "src/junction.rs: 100-186", "src/waiter.rs: start", "README.src.md"]}
{"id": "C104", "title": "Over pipes marked F or C a pipeline also ends when a source is missing", "statement": "As C103, but also when the file of a faucet cannot be opened.", "quantifier": "every accepted configuration with all pipes marked F or C, without loops and without regulation; every execution as Waiter::start polls", "why_tests_cant": "a test would have to tell waiting for ever from being slow", "anchors": ["src/faucet.rs: start", "src/motion.rs: 420-640"]}
{"id": "C105", "title": "Whatever else breaks, a file or program that ends well and is not hurt itself has got everything that its sources gave", "statement": "Whatever the marks of the pipes and whatever failed elsewhere: once every component has ended, a drain or program that ended well and none of whose own files or streams failed has received exactly a mix of everything read from the faucets and programs from which the connections lead there, provided these ended well too; they were read to their ends and what was written was flushed. Over pipes marked F or C, without loops and regulation, nothing has to be known of the outcomes: as soon as no part of the run can do anything any more, every drain that is not hurt and whose faucets are not hurt has got everything.", "quantifier": "every accepted configuration whose junctions, buffers and regulators have inputs and outputs, without components joined to themselves; every execution, with any failures on the way", "why_tests_cant": "what one branch gets while another breaks depends on the moment of the failure and on the schedule", "anchors": ["src/motion.rs: 420-640", "src/junction.rs: 100-186", "src/buffer.rs: start", "src/waiter.rs: start", "README.src.md"]}
{"id": "C106", "title": "Over unmarked pipes too a file that is not hurt gets everything", "statement": "As the second part of C105, but for pipes with any marks: when no part of the run can do anything any more, a drain that is not hurt and whose faucets ended well has got everything.", "quantifier": "every accepted configuration without loops and regulation; every execution as Waiter::start polls", "why_tests_cant": "a test would have to tell waiting for ever from being slow", "anchors": ["src/junction.rs: 100-186", "src/motion.rs: 420-640", "README.src.md"]}
{"id": "C107", "title": "An output port is read from exactly nine texts", "statement": "OutputPort::from_str accepts a text exactly when it is the name of a port (err, out, exit) in small letters, with a capital first letter or all in capitals, and then gives that port; every other text is refused and handed back in the error. The name by which a port is written in a configuration is among the accepted texts.", "quantifier": "every text", "why_tests_cant": "a test can try a few texts, not all", "anchors": ["src/connectable.rs: 15-47"]}
{"id": "C108", "title": "Equality of errors is symmetric and transitive and does not depend on moments", "statement": "MotionError's == is symmetric and transitive; two errors are equal exactly when they are of the same kind with the same journey and data, unless they are of a kind that is never equal; the Instant and the io::Error that they carry make no difference.", "quantifier": "every pair and triple of errors", "why_tests_cant": "the number of pairs of kinds times the contents", "anchors": ["src/motion.rs: 301-316"]}
{"id": "C109", "title": "Every error equals itself", "statement": "A MotionError compared with itself is equal.", "quantifier": "every error", "why_tests_cant": "would need one test for every kind", "anchors": ["src/motion.rs: 301-316"]}
{"id": "C110", "title": "Spied messages can be told apart by their JSON", "statement": "IODataWrapper serializes to a map with a status (data, finished or skipped) and, for data, as many numbers between 0 and 255 as there are bytes; different messages have different serializations.", "quantifier": "every message", "why_tests_cant": "unboundedly many messages", "anchors": ["src/motion.rs: 22-55"]}
{"id": "C111", "title": "Without a buffer between, a source is held back by a slow file", "statement": "Where the connections lead from an output of a faucet or of a program to a drain or a program through nothing but regulators and junctions, the number of messages sent by that output never exceeds the number written there by more than what the pipes between hold: 9 per pipe, 9 more where an output has several users and 9 more where several outputs come together.", "quantifier": "every configuration, every path, every order in which the components are polled, every moment of every run in which nothing fails", "why_tests_cant": "unboundedly many configurations, orders and run lengths; the worst case needs one particular order", "anchors": ["src/faucet.rs: 71", "src/regulator.rs: 70", "src/junction.rs: 146", "src/launch.rs: 59", "src/config_manip.rs: add_junctions"]}
{"id": "C112", "title": "With a buffer between, a source is held back by a slow file as well", "statement": "The bound of C111 also holds when the connections lead through buffers.", "quantifier": "every configuration, every path, every run", "why_tests_cant": "as C111", "anchors": ["src/buffer.rs: 83"]}
{"id": "C113", "title": "What has been sent and is not written is in the pipes and in the stores", "statement": "Where the connections lead from an output of a faucet or of a program to a drain or a program through regulators, junctions and buffers, the number of messages sent by that output never exceeds the number written there by more than what the pipes between hold (as in C111) and what is in the stores of the buffers on the way, plus one for each of them.", "quantifier": "every configuration, every path, every order in which the components are polled, every moment of every run in which nothing fails", "why_tests_cant": "a message lost or kept somewhere else shows only in one order of polling and at one moment; the stores have no limit", "anchors": ["src/buffer.rs: 81-109", "src/motion.rs: motion_one", "src/junction.rs: 146", "src/regulator.rs: 70"]}
{"id": "C114", "title": "With every buffer behind its own regulator a source is held back by a slow file", "statement": "If every buffer on the way is fed by one regulator only, which feeds nothing else and watches it, with marks whose larger one is at most m, then the number of messages sent never exceeds the number written by more than what the pipes hold and m + 29 for each buffer.", "quantifier": "every configuration, every path, all marks, every order in which the components are polled, every moment of every run in which nothing fails", "why_tests_cant": "the worst case depends on how late the controller hears of the size and on who is polled when", "anchors": ["src/regulator.rs: 60-140", "src/buffer.rs: 81-175", "src/waiter.rs: 330-398"]}
{"id": "C115", "title": "A pipeline that cannot be built is refused for a fault it has, by name", "statement": "When the connections are written out as pairs, building a pipeline fails exactly if it has a fault (a launch without settings or command, a connection from a port the component does not have, a second connection from the same port of anything but a junction, a connection into a faucet, a priority for anything but a junction, a second connection into anything but a junction), and the error text is that of a fault the configuration has, with the kind and the name of the component and the port or priority in question.", "quantifier": "every configuration", "why_tests_cant": "configurations, names and priorities are unbounded", "anchors": ["src/connectable.rs: AddOutputError, AddInputError, ConnectableAddOutputError", "src/waiter.rs: Waiter::join, get_waiter"]}
{"id": "C116", "title": "pa2 shows every complaint in full", "statement": "The error of `pa2 config lint` contains the sentence of every problem lint knows of, and the error of `pa2 process` contains the sentence of each missing setting and each watched buffer that is not mentioned; without such a thing there is no error.", "quantifier": "every configuration file, every hash order", "why_tests_cant": "the number of complaints and the names in them are unbounded", "anchors": ["src/bin/pa2.rs: process_user_config_action", "src/config.rs: ConfigLintWarning"]}
{"id": "C117", "title": "A drain's file holds all but the last 8192 bytes, and everything once it has ended well", "statement": "At any time the file of a drain holds a beginning of what the drain has received. As long as no write failed it holds all that was written but for at most the last 8192 bytes, which are in memory. Once the drain has ended successfully it holds everything received.", "quantifier": "every drain to a file, every execution, every way in which the operating system takes or refuses parts of what it is given", "why_tests_cant": "amounts of data, partial writes and moments of failure are unbounded", "anchors": ["src/drain.rs: Drain::start (BufWriter)", "src/motion.rs: motion_write, motion_close"]}
{"id": "C118", "title": "What a drain has written is in its file", "statement": "A line that a drain has written without error is in its file, at once and whatever happens afterwards.", "quantifier": "every drain to a file, every execution", "why_tests_cant": "a test looks at the file after a successful end only", "anchors": ["src/drain.rs: Drain::start (BufWriter)", "src/motion.rs: motion_write, motion_close"]}
{"id": "C119", "title": "A run reports exactly the components that failed", "statement": "Waiter::start returns when every component and every controller has ended. It is Ok with the number of messages moved if all succeeded. Otherwise it gives exactly one error for each component that failed, with the kind and name of the component, what went wrong and when. `pa2 process` lists these errors and exits with 1, or prints nothing and exits with 0 if there are none.", "quantifier": "every configuration that can be prepared, every execution, every combination of failures", "why_tests_cant": "which components fail, in which order and in how many executions is unbounded", "anchors": ["src/waiter.rs: Waiter::start", "src/bin/pa2.rs: main, process_user_config_action"]}
{"id": "C120", "title": "If pa2 process exits with 0, the files hold exactly what was read", "statement": "If `pa2 process` exits with 0, every source of a drain was read to its end, and the drain's file holds exactly the bytes read: in the order read if there is one source, and a permutation of all the bytes if there are several.", "quantifier": "every configuration whose components pass on what they get and in which no junction follows itself directly, every execution, every way in which the operating system takes or refuses parts of what it is given", "why_tests_cant": "executions, amounts of data and partial writes are unbounded", "anchors": ["src/bin/pa2.rs: main", "src/waiter.rs: Waiter::start", "src/motion.rs: motion", "src/drain.rs: Drain::start"]}
{"id": "C121", "title": "If pa2 process exits with 0, every program it ran has succeeded", "statement": "If a launched program ends with a status other than 0, `pa2 process` does not exit with 0. The status of a program can be had from a file at its exit port.", "quantifier": "every configuration, every execution, every exit status", "why_tests_cant": "statuses and executions are unbounded", "anchors": ["src/launch.rs: Launch::start", "src/waiter.rs: Waiter::start", "src/bin/pa2.rs: main"]}
{"id": "C122", "title": "If pa2 process exits with 0, every program got all of its input", "statement": "If `pa2 process` exits with 0, every launched program has been given every message that its sources produced.", "quantifier": "every configuration whose components pass on what they get and in which no junction follows itself directly, every execution", "why_tests_cant": "the moment at which a program stops reading is arbitrary", "anchors": ["src/launch.rs: Launch::start (stdin with Breakable::Finish)", "src/motion.rs: motion_write"]}
{"id": "C123", "title": "A spy is told of everything a component offers to its outputs", "statement": "Started with a spy, every faucet, regulator, junction, buffer and program tells the spy of each message that it offers to an output, at once, exactly once and unchanged, in order, and beside that only of ends; when the component ends without an error nothing is left untold.", "quantifier": "every component, every output with a port, every input, every answer of the outside, every moment", "why_tests_cant": "messages, answers and interleavings are unbounded; tests look at a handful of messages", "anchors": ["src/motion.rs: motion_worker", "src/motion.rs: SpyMessage", "src/regulator.rs: Regulator::start_secret", "src/faucet.rs: Faucet::start_secret", "src/junction.rs: junction_motion_worker", "src/buffer.rs: Buffer::start", "src/launch.rs: Launch::start"]}
{"id": "C124", "title": "What a spy is told of has arrived", "statement": "A message a spy is told of has been accepted by the output it is reported for, and an end is reported only once the output has no more messages.", "quantifier": "every component, every output, every execution", "why_tests_cant": "which outputs are closed when is up to the other side, at every message", "anchors": ["src/motion.rs: motion_worker", "src/junction.rs: Junction::junction_iteration"]}
{"id": "C125", "title": "Spying does not change what a component does", "statement": "With a spy that takes what it is told, each component (faucet, regulator, junction, buffer, program) performs exactly the same effects in the same order, with the same results and panics, as without a spy; each of its runs without a spy is possible with one.", "quantifier": "every component, every input, every answer, every interleaving of joined futures", "why_tests_cant": "a comparison of two unbounded sets of runs", "anchors": ["src/motion.rs: motion_worker", "src/launch.rs: Launch::start", "src/buffer.rs: Buffer::start", "src/junction.rs: Junction::start"]}
{"id": "C126", "title": "A spy that goes away does no harm", "statement": "If whoever spies on the components stops listening, the components go on as without a spy.", "quantifier": "every component, every moment at which the spy leaves", "why_tests_cant": "the moment at which a listener leaves is arbitrary", "anchors": ["src/motion.rs: motion_worker"]}
{"id": "C127", "title": "pa2 graph prints the picture that was asked for", "statement": "`pa2 graph` prints one picture and ends with 0. The picture has the diagram unless only the legend was asked for, and has the legend unless only the diagram was asked for; asking for both as the only one gives both. The legend has a border exactly when that was asked for. When the configuration cannot be read, or the lint refuses it, there is an error, no picture, and the code is 1.", "quantifier": "every combination of switches, every configuration file, every way of printing a graph", "why_tests_cant": "configurations are unbounded and the switches interact", "anchors": ["src/bin/pa2.rs: get_user_action graph arm, main; src/graph.rs: get_diagram"]}
{"id": "C128", "title": "A run panics exactly when a program cannot be started", "statement": "While pa2 process runs a configuration, a component or a controller of regulators panics exactly if it is a launch whose program, asked for with the configured command, arguments, directory and environment, could not be started; such a launch has done nothing else. No buffer, junction, regulator, faucet, drain or controller ever panics.", "quantifier": "every configuration whose components pass on what they get and in which no junction comes directly after itself, every order of its maps, everything outside (files, programs, timing), at every moment of the run", "why_tests_cant": "the panics of a buffer's counter depend on the order in which its three tasks are polled, and those of the rest on how the pipeline was wired; a test sees one order of one pipeline", "anchors": ["src/launch.rs:152-187", "src/buffer.rs:110-145", "src/waiter.rs:330-420"]}
{"id": "C129", "title": "A controller that hears nothing new says nothing to its regulator", "statement": "Where the low mark is below the high mark, the task that controls a regulator never gives more pause and resume signals than it has read size reports and seen buffers go, and between any signal and the next it has read a report or seen a buffer go. With the marks equal or in the wrong order, which a configuration file may have, one report can be followed by signals without end.", "quantifier": "every pair of marks with low < high, every set of monitored buffers, every sequence of reports and closings, at every moment; for every other pair of marks a run with arbitrarily many signals", "why_tests_cant": "a test sees some sequences of reports; that no sequence makes the regulator flutter needs all of them, and that it flutters for ever needs runs of every length", "anchors": ["src/waiter.rs:37-99", "src/regulator.rs:161-181"]}
