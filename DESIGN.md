# A machine-checked model of pipeawesome2

Everything is in `rocq/theories` (Coq 8.16.1, logical name `Verif`). The source
being modelled is `/repo` (rust). It was read, not run.

## 1. How the code is modelled

* **Programs with effects.** Every `async fn` that talks to channels, files or
  timers becomes a Gallina function returning a `prog A`: a coinductive tree
  `Ret a | Panic s | Tau p | Vis e k` where `e` is one effect (receive on a
  channel, try-receive, send, close, read, write, flush, sleep, open, spawn, ...) and `k`
  continues with its answer. Loops are coinductive (`iter`). The program
  text follows the rust function by function. Dropping the last sender or
  receiver of a channel is written as an explicit close effect at the place where
  rust drops it.
* **Environment.** A component is run against *every* environment:
  `exec p tr st` says that `p` can perform the events `tr` (effect and answer
  pairs) and be in status `st` (still running, done with a value, or panicked).
  A theorem about every `tr` is a theorem about every arrival pattern, every
  schedule of the neighbours and every failure.
* **Worlds and networks.** Where several components run together, a world holds
  the channels (queue, capacity, closed flag), files and outputs; a network is a
  list of programs, and any component whose next effect is enabled may take the next
  step. This contains every schedule of the single-threaded executor, and more.
  Where a property depends on the cooperative order in which `join` polls (C27), a
  separate poll-level model is used and this is said there.
* **Joined futures** (`M_Join.v`): `a.join(b).join(c)` takes steps of its parts in any
  order; what the poll order adds is only used where said. Components that own
  joined parts are numbered lists of events, part by part.
* **Polling in turn** (`M_Poll.v`): three joined parts polled first, second, third, each until it
  waits; everybody else may act at any time. Used for C27 and C28 only. An
  effect on a channel is tried again at every poll; an effect on the operating system or a timer
  may make a part wait however long.
* **The whole program polled** (`M_Start.v`): `Waiter::start` joins all components and controllers into one task, polled round and
  round in a fixed order, each until it waits. A poll may find a part ready although nothing woke it (extra polls of a part that
  waits do nothing), so skipping parts that were not woken is contained. `join_all` keeps this order for up to thirty futures; for more it polls only
  those that were woken, in the order in which they were woken, which is not modelled here. Spawning, opening and creating files, reading, writing
  and sleeping may make a part wait however long, or not at all. Capacities of channels are those given when they are made.
* **Machines** (`P_Machine.v`): the copy loop is proved to have the same traces as a
  small machine with named places; this is a proof device, not part of the model.
* **Pure code** (splitter, parser, configuration rewriting, lint, wiring, setters,
  graph, error text) becomes ordinary total functions. `panic!`, `unwrap` on
  `None`, failing `assert!` and unsigned underflow are explicit `Panic` results.
  `BTreeMap` is a key-sorted association list; a `HashMap`'s iteration order is a
  parameter over which theorems quantify.
* **Specifications** are in their own files and mention only traces, bytes, lists
  and graphs.
* **File kinds**: `M_*.v` model (definitions only), `S_*.v` specification
  (definitions only), `P_*.v` proofs, `Properties*.v` only theorems closed by
  `exact`, each followed by `Print Assumptions`, and examples.

## 2. Property by property

| id | modelled | how proved |
|----|----------|------------|
| C01 C02 | `is_split`, `motion_read_buffer`, `motion_read` on byte sources | induction on the list of reads; specification is an independent line cutter |
| C03 | the same, delimiters as a parameter | induction for delimiters of at most two bytes (`_partial`), three-byte witness (`_refuted`) |
| C04 C05 C06 C07 C08 C09 | `motion_worker`, `motion` | trace lemmas per function, induction over loop iterations |
| C10 | all `start` functions with drops | trace lemmas; the junction error path is a `_refuted` witness |
| C11 C12 C13 C16 | `junction_motion_worker`, `iteration`, `start` | trace lemmas, loop invariant over the grouped inputs |
| C14 C15 | `initialize_stdin` | exact characterisation of the groups; `_refuted` witnesses |
| C17 | `remove_vec_vec_index`, `remove_vec_vec` | list induction against a filter |
| C18 | `BackOff` | induction over operation sequences |
| C19 C20 C23 C24 | `RegulatorControl`, `control`, `start_secret` | trace lemmas plus channel semantics; stuck witness for C24 |
| C21 C22 | `manage_regulator_from_buffers` | loop invariant; specification folds over the trace |
| C25 C26 C27 C28 C29 | `Buffer::start` with its three tasks | the two copy loops and the counter as machines; joint invariant over the inner channels, any order of steps; C27 and C28 (last report) polled in turn; `_refuted` witnesses played out by a computable scheduler (`P_Play.v`) |
| C30 C31 | `Drain::start`, `Faucet::start` | trace lemmas; case analysis; `_refuted` for the empty text |
| C32 C33 C34 C35 C66 | `Launch::start`, `environment_configure` | trace lemmas for each relay, the relays stepping in any order; `_refuted` for spawn failure and for a hidden error |
| C36 C37 C38 | network of components and channels (`S_Network`, `S_Net`) | per-component trace lemmas combined through first-in first-out channels; C37: whoever has not ended moves or waits for a neighbour, by rank; bound on useful events; weak fairness over endless runs (`P_Later`, `P_Turn`, `P_Fair`); C38: deadlock witness |
| C83 C84 C85 | the same networks, with loops (`S_Net`: `dammed`, `round`, `locked`) | C83: a buffer always takes what comes in, so waiting for room is followed by rank until somebody moves (`P_Dam`); writing to a program's input is answered at any time, so a program that stops reading is outside C83; C84: the first channel of a loop to be closed would have to be closed by its writer after its own input ended (`P_Round`); C85: two witnesses played out by a computable scheduler in a world in which one file is missing (`P_Wreck`) |
| C86 C87 (and `C38_whole`, `C85_whole_*`) | everything between the configuration file and the end of the run (`M_Start`: `Waiter::start`) | the witnesses are configurations that `process_config` and `get_waiter` accept; their runs are played out by a scheduler that polls as the program does and checks itself (`P_Whole`, `P_Jam`); that nobody can act afterwards, in any order, is decided component by component. C87: runs in rounds are runs in which buffers are polled in turn (`P_Rounds`), then C37 and C83 |
| C88 | from the connections as written (`S_Shape`) to the runs | what the wiring fold made (`P_Made`: the network's inputs and outputs are the numbered links), how pairs, added junctions and added drains carry the shape of what is written (`P_Shape`), a rank for every finite graph without loops (`P_Top`); then C87. The conditions say nothing about regulator settings: `makes … []` means that no regulator has any |
| C89 | regulated pipelines from the configuration to the runs (`S_Watch`) | what `regulator_settings` adds to the pipeline (`P_Watch`: everything else is as for C88), who may use which channel in a run with controllers (`P_WatchRun`), every earlier moment of a run is a run (`P_Prefix`), C19 and C21 put together through the control channel and the bound of C28 on what buffers tell (`P_WatchMarks`), the settings of the configuration (`P_WatchConfig`) |
| C90 | the same runs against the pipeline without regulation (`S_Delay`: `data_part`, `plain_comp`) | each component's events without the regulation are events of the plain component (`P_Skim`); put together through the channels (`P_Delay`); C37 then gives that nobody fails (`P_DelayRun`). The standstill: a component that cannot act although its plain counterpart can is being regulated; a regulator never waits for a signal while a controller can give one; case by case this leaves the choked buffer (`P_Act`) |
| C91 | what is read at the sources against what is written at the targets (`S_Flow`: `fed_by`, `source_gave`, `target_got`) | one channel: what comes out is the beginning of what went in (C32); one component: junctions mix, the others pass on (`P_Stream`); sources and targets component by component (`P_Spring`); then induction on the ways from the sources, mixes of mixes being mixes. With regulation by C90, which loses none of the reads and writes (`P_SpringRun`). What an operating system does with the bytes written is outside the model; a program's standard input is followed until it is written, its standard output from when it is read |
| C92 | the connections as written against what is read and written (`S_Path`: `spelled`, `arrivals`, `comes_from`, `has_given`, `has_got`) | C91 carried back over everything that is done to the connections: pairing, generated junctions, spies, wiring and regulation (`P_Path`: the channels into a component are the neighbours before it; `P_PathRun`: which faucet, program or drain is at which place of the pipeline). `has_given`/`has_got` name components by their configuration names and locations. Covered: drains and programs before which something is written, everything that passes on connected (`passing`), no junction directly after itself (`apart`). |
| C93 | bytes read from one source against bytes written to one target (`S_Bytes.has_read`) | C92 and the fact that cutting into messages (`messages_of_reads`) loses no byte and adds none (`P_Split.messages_concat`); the text of an exit status is one message. The standstill form uses C90. Covered as in C92. Example: a program with its input and all three outputs connected. |
| C94 | **REFUTED**: a file whose last line has no end of line, merged with another one: its last line and a line of the other file become one line | Witness: a complete run of the regulated pipeline of C86. True part `C94_whole_lines`: holds when what was read from every source is empty or ends with a line feed (and end of file was final). `C94_exit_no_line`: an exit status never ends a line, so merging exit statuses always glues them. |
| C95 | `S_Lasting.whole_endless`, `whole_fair` (a scheduler that forgets nobody), `choked_for_good` | The steps other than looking and waiting are bounded (`P_WholeCost.whole_bound`); once only looking and waiting is left, whoever comes first in the order of the pipeline and has not ended can go on, or is a buffer that cannot report (`P_Still`, `P_Ahead`). `C95_lasting` has a double negation, so that no axiom of classical logic is needed. Examples: both cases of C95_looking in the pipeline of C86; an endless run that forgets nobody and is choked for good (`P_Spin`: the back-off of an idle loop reaches its bound and the loop repeats itself exactly). |
| C96 | **REFUTED**: `f:in \| b:store \| r:gate \| d:out` with gate watching store: once paused, the store cannot be emptied, so the regulator is not resumed | Witness: an endless run that forgets nobody, in which from some time on only the controller and the counter of the store look and wait, and the file to be written is never finished; no buffer is choked. True part: C95. |
| C97 | `S_Bounded.straight` (places in the connections as written), `stored` (the length of the store's queue) | Counting along the way: what the store holds is at most the last size its controller has heard, plus the reports waiting (8), the notes waiting for the counter (8), those in the hands of the counter and the halves, plus what is still in the pipe (8) when the regulator is paused, plus the one it lets through (C19). `P_Near`: the controller's view and the pause it has sent; `P_Held`: one report per change, each note counted once; `P_Bounded.bounded`: together in a network, for arbitrary capacities; `P_Straight`: from the configuration's text. For free runs (any interleaving), so for the polled ones. Deliberately not the least bound: 27 with marks 2 and 5 is the most seen, 33 proved |
| C98 | **REFUTED**: `f:in \| r:gate \| b:store \| d:out`, marks 2 and 5, nothing can be written: 16 messages in the store | Witness: a polled run of eight rounds; the true part is C97 |
| C99 | **REFUTED**: the same with `f:more \| b:store` besides: 63 messages in the store after ten rounds | Witness: a polled run; shows that C97 needs `straight` |
| C100 | `S_Soft.giving_way` (the marks as written), `hurt`, `own_failure` (per component: the kinds of error, and an operation on the outside world that its parts did and that failed) | `P_Soft`: every error of a copying loop has a cause in its own trace; `P_SoftRun`: with marks F and C the closed-pipe cause is impossible, and the two halves of a buffer are never refused by its counter; regulated runs by `P_Delay.delays`; `P_SoftConfig`: junctions keep the written marks, generated pipes are F except generated exit pipes, which only a launch's exit status uses |
| C101 | **REFUTED**: `l:prog[X] \|C\| d:code` with a file that cannot be created: the launch ends with SendError | Witness: a complete run; the true part is C100 |
| C102 | **REFUTED**: `f:in \| j:fork \| d:bad`, `j:fork \| d:good` where bad.txt breaks: the junction fails | Witness: a polled run; shows that C100 needs the marks |
| C103 | `S_Soft.giving_way`, `S_Net.granted` (no source missing, every program started), `S_Start.whole_locked`, `S_Net.all_ended` | `P_SoftEnds`: by C100's causes no passing component fails, so every component that is refused still closes its pipes; then the stuck-free and fairness theorems for sound networks (`P_Turn`, `P_Fair`) |
| C104 | **REFUTED**: `f:in \|C\| d:out` with in.txt missing: the faucet fails and leaves its pipe open, the drain waits for ever | Witness: a polled run that is locked; the true part is C103 |
| C105 | What ends well and is not hurt has got everything, whatever else broke (`C105_all_the_same`, for all marks, given that all have ended); over marked pipes no outcome has to be known (`C105_giving_way`) | Induction along the connections, from the target back: on a channel whose reader has no reason to leave, nobody is refused and only its writer closes it; a junction that has closed an output has not failed; so the reason goes from output to input |
| C106 | **REFUTED**: `f:in \| j:fork \| d:bad`, `j:fork \| d:good` with bad.txt breaking: the fork fails and leaves its other pipe open; good.txt gets 8 of 20 lines and its drain waits for ever | Witness: a polled run that is locked; the true parts are C105 (either all have ended, or the pipes are marked) |
| C107 | `OutputPort::from_str` accepts the three ways of writing each of the three names and nothing else (`M_Values`) | Case analysis; the spec spells capitals letter by letter |
| C108 | `MotionError`'s `==`: exact description, symmetric, transitive, blind to the moment and the error of the operating system. The number in a monitor message is always 0 in the code and is left out | Case analysis over kinds, with the derived equalities shown exact |
| C109 | **REFUTED**: an `OutputClosed`, `CloseIOError`, `OpenIOError` or `LaunchSpawnError` is not equal to itself, and these are all (`C109_which`) | Witness, and the exact set |
| C110 | `Serialize for IODataWrapper` at the level of value trees: injective, bytes become numbers below 256 | Injectivity of the embedding of bytes |
| C111 | The number of messages a faucet or program has sent is at most the number written at the end of a path of regulators and junctions plus 9 per channel between (bound attained in the example) | Sizes of all channels of a built pipeline are at most 8 (`small`); each regulator/junction holds at most one message in hand (`pass_near`); paths as written become paths of channels (`leads_reach`) |
| C112 | **REFUTED**: through a buffer that nobody watches the source gets more than ten times as far ahead, and as far ahead as one likes | Witness run, as polled by the program; induction over the rounds after the first sixteen (`P_Unheld`) |
| C113 | Proved: what was sent and is not written is in the pipes (9 each) or in the stores of the buffers on the way, plus one in the hand of each | Every run of every prepared configuration in which nothing fails; C111 is the case without buffers |
| C114 | Proved: with every buffer straight behind its own watching regulator the source is at most h + n(m + 29) ahead | Every run in which nothing fails; uses C113 and C97 |
| C115 | Proved: `get_waiter` fails exactly when the links have a fault, with the text of one of the faults they have | `fault` in `S_Refusal` lists the faults and spells the texts on its own; along the wiring invariant of `P_Wire`. Which of several faults is named is not said |
| C116 | Proved: the errors shown by `pa2 config lint` and `pa2 process` contain every complaint in full | `sentence` and `lacks` in `S_Refusal`; C53_shown and C72_named say that nothing else is listed, and nothing twice |
| C117 | Proved: the file of a drain holds a beginning of what was received, all but 8192 bytes of what was written, everything after a good end | `BufWriter` of `async_std` (`M_BufWriter`), taking apart the write and flush effects of the drain; invariant: file and memory together are what was written |
| C118 | Refuted: lines written are not in the file at once, and not at all if the last flush fails | Witnesses; C117 is what holds |
| C119 | What a run reports: one error per failed component, by kind and name, or success; exit status 1 or 0 accordingly | `start_result` over the ends of all components against `blame`; `roster_net` ties numbers to names; composed with C56, C57, C71 up to `main` |
| C120 | If `pa2 process` exits with 0, each file holds exactly what was read from its sources | C119 gives that every component succeeded; C92/C94 that the drain got all that was read; C117 that the file holds all it got |
| C121 | Refuted: a program that ends with status 3 leaves the exit code at 0; a file at the exit port holds the status | Witness run; C120 with the single source of an exit port |
| C122 | Refuted: a program that stops reading misses lines and the exit code is 0; true if nothing was refused | Witness run; C105 with C119 |
| C123 | Words about an output (offers, and reports the spy took) follow `told_all`; faucet, regulator, junction, buffer, program, relay | Invariant on the trace through every loop (`P_Spy`) |
| C124 | Refuted: refused messages are reported too, and a junction reports an end per input; true where nobody has left the output | Two witness runs; C123 with the acceptance of open channels; one end for one input (`P_SpyOnce`) |
| C125 | Runs with a listening spy and runs without are the same apart from the reports (`watched_only`, `watched_jointly`) | Two-way simulation closed under bind and iter; interleavings woven together (`P_Unspied`) |
| C126 | Refuted: a refused report ends the component with SpyWriteError | Witness run |
| C127 | What `main` prints for `pa2 graph` with each combination of switches (`typed_graph`), against the graph of C64/C78 | Cases of the switches; the errors by unfolding (`P_Pictures`) |
| C128 | Which components of a whole run are `Broken`, against what they asked the operating system for (`not_started`) | The run without controllers (C97), `comp_breaks`, the counter in turn (C87), controllers (C22) (`P_Panic`) |
| C129 | Signals (`signals`) against reports and closings (`heard`), both counted in the trace | The level at a signal (C21) is unchanged by anything that is not news; induction over the signals. **REFUTED** for all marks that are equal or in the wrong order: every empty pass pauses and resumes, induction over the passes (`P_News`) |
| C39 C40 C41 C42 C43 | the PEG parser | recursive descent functions against an inductive grammar and a printer |
| C44 - C52, C68 - C70 | `config_manip.rs` | list induction, counting, path relation; theorems hold for every hash order (`fair` permutations) |
| C53 | `Config::lint`, `process_config` | set equivalence |
| C54 C55 C58 C71 | `get_waiter`, `join`, `add_input`/`add_output` of every component, `regulator_settings` | the wiring fold against the list of links, one component type at a time (`P_Cell`, `P_Wire`); `_refuted` witnesses by computation |
| C56 C57 | `Waiter::start` folding and sorting | list induction; witness |
| C59 C60 C75 | setters, `process_request`, `read_config` (`M_Setters`, `M_Cli`) | map laws; each request against a description of the change |
| C61 C73 C77 | serde at the level of value trees, not text (`M_Serde`) | round-trip; exact description of how a connection is read; witness |
| C62 C63 C74 C76 | `get_clap_app` (names and defaults), `get_user_action` and helpers | list induction, case analysis; `_refuted` witnesses by computation |
| C72 | `process_config` | the mentions before and after the preparation agree, apart from junctions and generated drains; lint is exact |
| C64 C78 C79 C80 | `graph.rs` and its use in `main` (`M_Graph`): the tree of DOT statements; `graphviz_rust` prints identifiers and values as they are, and the order of the hash map of kinds is an arbitrary permutation. `strict` means that of several statements about one edge the last counts. Identifiers of DOT as in its grammar, without the letters above 127 and without HTML nesting | pairs by list induction, node identifiers injective, sets as ordered maps; witnesses |
| C65 C81 C82 | the accessors and texts of `motion.rs` and `waiter.rs`, `waiter_error_to_string` of `bin_support.rs` and `main` of `pa2.rs` (`M_Errors`). The texts of the libraries' errors, Rust's debug text of a string, the JSON and DOT texts and the results of the components of a run are arbitrary (a `machine`) | errors that carry a pipe name both its ends (`about`), the kinds of failures (`kind`), the list on standard error (`listed`), all results of a run (`all_results`) |
| C67 | the `start` functions of all components but launches | letting go of a channel or a file (`lets_go`), nothing else; witnesses by `drive` |

## 3. Trusted base

* The Coq 8.16.1 kernel and, per theorem, what `Print Assumptions` lists (section 4).
* That the definitions in `M_*.v` are what the cited rust lines do.
* In `get_waiter` and `lint` a `HashSet` is a list without repetitions, a map of maps is one map per
  component type, channels and identifiers are numbers counted upwards, and
  `sort_by` is a stable insertion sort (from the end, as the standard library does for short lists;
  for comparisons that are not an order the standard library promises only a permutation).
* Semantics assumed of libraries: `async_channel` queues are first-in first-out,
  `send` on a full open channel waits, `send` on a closed channel fails, `recv`
  drains a closed channel before failing, dropping the only sender or receiver closes
  the channel; `async_std` `join` polls left before right; `peg` ordered choice;
  `serde` untagged enums take the first variant that fits; rust `sort_by` is stable.
* Reading and writing configuration files is modelled between configurations and value trees: null, truth values,
  integers, texts, sequences, maps with text keys. Not modelled: floating-point numbers, a
  sequence given for a struct, the readers' and writers' own text (their
  results are a parameter), the debug text of command names inside refusals.
* Not modelled: the text syntax of JSON and YAML, clap's argument parsing beyond
  the defaults used, graphviz rendering, real time, operating-system buffering,
  memory exhaustion; overflow of the `i32` numbers in generated names (they are integers;
  priorities too, but a priority that does not fit is refused as in C43); `BufWriter` outside C117, C118 and C120 (there, what the operating system has; elsewhere a write to a drain is
  one effect); the sizes added up by
  the regulator controller are natural numbers, not `usize`.

## 4. Assumptions per theorem

Every theorem listed in MANIFEST.json so far: `Closed under the global context`.
