# Formal model of doge-shell in Rocq: design

Everything lives in `rocq/theories`, logical name `Verif`. Each area `X` of the
code base has up to four files:

* `X_Model.v`  - Gallina transcription of the Rust functions. Every definition
  cites the file and lines it models and says where it simplifies.
* `X_Spec.v`   - a small specification that does not mention the model's
  helpers (omitted when plain list/arith vocabulary is enough).
* `X_Proofs.v` - lemmas.
* `X_Props.v`  - only the property theorems (`exact lemma.` + `Print
  Assumptions`) and, beside each, a concrete `Example` that meets its
  hypotheses.

When the code violates the property a user would expect, the property file
contains a theorem named `..._refuted` (an explicit witness evaluated in the
model) together with the strongest statement that does hold.

## Conventions

* A Rust `char` is its code point, an `N`; a `&str`/`String` is a `list N`.
  Byte offsets are sums of UTF-8 lengths (1..4), so char-boundary panics are
  visible. Panics and out-of-range indexing are explicit error values.
* `usize`/`u64` counters are unbounded (`nat`/`N`/`Z`) unless said otherwise.
* Effects (processes, files, terminal, clock, user answers, database) are
  oracles: function arguments or lists of events, universally quantified.
* `&mut self` methods return the new state.

## Plan per property

| id | property | model | how it is proved | status |
|----|----|----|----|----|
| C01 | Line editor is a character list with a cursor | editor state (text, byte-offset table, cursor, cached width) and every editing method | refinement to `list char * cursor`, induction over operation sequences | proved |
| C02 | Line editor never splits a character or indexes out of range | same | invariant over operation sequences; the model returns an error on any bad index/boundary | proved |
| C03 | Word motions and word deletion agree | word motions | declarative word-boundary specification | proved |
| C04 | Abbreviation replacement touches only the word before the cursor | abbreviation word and replacement | decomposition `pre ++ word ++ post` | proved |
| C05 | Command lists short-circuit like POSIX AND-OR lists | execution loop of `eval_str` over a job list with outcome oracle | equality with an AND-OR-list evaluator, induction on the list | proved |
| C06 | A declined or denied line launches nothing | the whole line: reading it with its substitutions threaded through a world, guard, confirmation, loop | without a parenthesis the parse tree has no substitution, so reading leaves the world alone; refuted for substitutions in every world | partial |
| C07 | Safety levels and allowlist decide as documented | `check_command` and the per-command rules | iff-characterisation | proved |
| C08 | MCP tool calls are gated | `check_mcp_tool` | iff-characterisation | proved |
| C09 | Prompt sanitising bounds and cleans model input | `sanitize_ai_input` | length bound, character predicate; refutation of totality | partial |
| C10 | Parsing a line is total, deterministic and position-faithful | PEG interpreter for `shell.pest`, grammar as data | induction on the interpreter's derivations | proved |
| C11 | No typed command is silently dropped | same + `parse_jobs` | expected to be refuted; exact consumed prefix stated | partial |
| C12 | Completed file names reach the program unchanged | grammar of words/quotes + `get_string` + path encoding | round trip by induction on the name; refutations for quoted styles | partial |
| C13 | Decoding a completed path token recovers the path | `shell_path.rs` | round trip by induction | partial |
| C14 | Completion tokens tile the line | `tokenize` state machine | invariant over the scan | proved |
| C15 | Brace expansion is the ordered cross product | `expand_braces` | denotational cross-product specification, well-founded induction | partial |
| C16 | Alias expansion is finite | alias expansion | structural termination, fuel-free model | proved |
| C17 | A pipeline is finished exactly when its stages are | process-chain state functions | induction on the chain and on event sequences | partial |
| C18 | Exit statuses are reported faithfully | wait-status and builtin mapping | case analysis; expected finding for builtins | partial |
| C19 | Jobs are never lost | job table operations | multiset/permutation invariants over operation sequences | partial |
| C20 | Job designators resolve to the right job | `parse_job_spec` | case characterisation | proved |
| C21 | Captured output history is bounded and accounted | `OutputHistory` | invariant over operation sequences + suffix characterisation | partial |
| C22 | $OUT[n] and $ERR[n] denote the n-th most recent capture | `parse_output_var` | parse/print characterisation | proved |
| C23 | Command history keeps one entry per command, most recent last | in-memory history writes | fold characterisation against a specification on the list of writes | partial |
| C24 | History navigation visits matching entries in order and stops at the ends | `back`/`forward` | specification by filtered positions; expected findings | partial |
| C25 | History suggestion returns the most recent match | `search_first` with cache | cache-suffix invariant | proved |
| C26 | The in-memory history and the database agree | batch writes against a keyed table | refinement | partial |
| C27 | Frecency store lookups are exact | frecency store | sorted-array invariant, `partition_point` lemma | proved |
| C28 | Terminal newline normalisation does not depend on chunking | `normalize_tty_newlines` | chunk-independence by induction on the chunk list | proved |
| C29 | AI file tools stay inside their roots | path resolution over a file-system tree with symlinks | containment theorem; refutation for dangling links | partial |
| C30 | AI command tool runs only allowlisted programs | `execute.rs` gate | implication for every run | partial |
| C31 | The file server serves only files below its root | serve handlers | containment theorem; refutation for index.html links | partial |
| C32 | Names in generated HTML are inert | `html_escape` | character predicate + round trip | partial |
| C33 | Secrets are kept out of history as configured | `secrets.rs` | regex behaviours as list functions; characterisation; refutations | partial |
| C34 | Child processes see exported variables over inherited ones | `child_process_env` | map lookup characterisation | partial |
| C35 | Command lookup follows PATH order | PATH lookup with cache | first-match specification; cache invariant | partial |
| C36 | Pipeline plumbing connects each stage to the next | pipeline launch fd bookkeeping | invariant over stages | partial |
| C37 | Lisp scoping | Lisp frames as a heap with parent numbers; evaluator | exact effect of each operation by induction on the heap; frame preservation by induction on evaluation | proved |
| C38 | Lisp reader reads back what it prints | Lisp reader/printer | round trip by induction on values | partial |
| C39 | Tail calls do not change results | Lisp evaluator with and without pending tail calls | simulation in both directions, generic in the notion of tail position; refutations | partial |
| C40 | Bulk rename loses no file | `dmv`: pattern parser, glob search, captures, replacement text, conflict check, renames in one directory | induction over the pattern (glob and captures equal a declarative relation), over the template, over the renames with a kernel that may refuse any of them; refutations for the documented forms that do not work | partial |
| C41 | Incomplete-input detection | `is_incomplete_input` | characterisation by a bracket/quote automaton | partial |
| C42 | The cursor is drawn on a rendered line | cursor placement over wrapped lines (`render.rs`) | arithmetic over the rendered text | proved |
| C43 | Mouse clicks select the nearest character boundary | mouse click to cursor | declarative nearest-boundary specification | proved |
| C44 | Recursive removal is asked about | `rm` arm of `check_command` | iff-characterisation of the arguments asked about; refutation by witness | partial |
| C46 | A dangerous command inside an MCP command line is asked about | shell-command tools of `check_mcp_tool` | implication for single commands; refutation for compound ones | partial |
| C47 | Loader variables cannot be set silently from Lisp | guard on variables set from Lisp | case analysis over all names | proved |
| C48 | An MCP allowlist entry licenses one call only | MCP allowlist test | exactness for plain entries; refutation by witness | partial |
| C49 | Waiting for a job does not kill it | event loop that waits for a job, with kernel events as input | invariant over event sequences; refutations | partial |
| C50 | The state shown for a job is its real state | polled wait statuses against the kernel's view | refinement over event sequences | partial |
| C51 | Leaving the shell kills its jobs and nothing else | exit handler over the job table | list induction | partial |
| C52 | Monitored background output arrives whole | output monitor over chunk sequences | induction on chunks; refutation | partial |
| C53 | The arrow keys search for what is typed and Down undoes Up | arrow keys over the history cursor | position specification | partial |
| C54 | History search returns exactly the matching entries | history search | filter specification | proved |
| C55 | The directory history survives a restart | directory store across restart | refinement to a keyed table; refutations | partial |
| C56 | Directory scores survive a restart | scores as binary32 (SpecFloat) across restart | witness computations | partial |
| C57 | Links of a served listing lead to the entries | URL of a listing entry and the server's reading of it | round trip; refutations | partial |
| C58 | The edit tool changes the confirmed file and nothing else | edit tool over the file-system tree | frame theorem on every other path | partial |
| C59 | Quoted and escaped arguments arrive as typed | words, quotes, escapes of the grammar | induction on argument lists | partial |
| C60 | Every redirection of a command takes effect | redirections in `parse.rs` | induction on the pipeline | partial |
| C61 | & sends only its own command to the background | background marks in `parse.rs` | induction on the line | partial |
| C62 | Colour tokens never overlap | highlight tokens | ordering invariant | proved |
| C63 | Expansion keeps the structure of the line | expansion of a whole line to text and second parse | structural induction on well-formed lines | partial |
| C64 | The value of a variable is data | same, values of variables | characterisation of tame values; refutation | partial |
| C65 | Words that are not variables are passed as typed | same, plain words | same | partial |
| C66 | A variable inside a word is replaced | same, reference inside a word | refutation | partial |
| C67 | A process substitution given as an argument is run | process substitution in argument position | refutation | partial |
| C68 | A command typed over several lines runs whole | multi-line buffer | induction on the lines typed | partial |
| C69 | Enter runs the line as typed | Enter (`handle_execute`, `detect_ai_pipe`) | step theorem for every prompt state | partial |
| C70 | Accepting a suggestion appends what was shown | suggestion manager and acceptance | invariant over key sequences | partial |
| C71 | Automatic pairing does not change typed text | automatic pairing | induction on balanced text | partial |
| C72 | Typed and pasted text arrives | the whole key loop, answers of the world as oracles | induction on key sequences | proved |
| C75 | Accepting a completion yields the line that was shown | inline completion stored by drawing the line | step theorems; refutations by run | partial |
| C76 | Commands do not mix | pending lines across keys | step theorems over key sequences | partial |
| C77 | The sudo toggle only adds or removes sudo | sudo toggle | step theorem | proved |
| C78 | Choosing a completion replaces the completed word only | choosing a candidate | step theorem; refutation for every line | partial |
| C79 | Editing keys edit as documented | editing keys | step theorem against text before and after the cursor | proved |
| C73 | Long text is shortened, never a crash | byte-offset cuts of displayed text | exact condition under which a cut fails | partial |
| C74 | Looking up suggestions never crashes | completion of Lisp forms at the prompt | totality; refutation | partial |
| C80 | A string in Lisp source is read as its text | Lisp reader: strings | theorem for texts ending in ASCII; general refutations | partial |
| C81 | The whole configuration file is evaluated or rejected | Lisp reader on the wrapped configuration file | theorem for every well-formed file; general refutation | partial |
| C82 | apply passes its arguments on | Lisp evaluator: apply | equation for self-evaluating arguments; refutation | partial |
| C83 | Quoted data and mapped elements arrive unchanged | Lisp evaluator: quote, map, filter | induction on the datum; refutation | partial |
| C84 | Parameters get their arguments | Lisp evaluator: binding of parameters | exact content of the frame, by induction on the parameters; refutation | partial |
| C85 | Special forms evaluate what they should | Lisp evaluator: special forms | laws relative to runs of the parts | proved |
| C86 | Redirects apply to the streams and the stage they name | pipeline launch with a redirect | state after a single command exactly; induction over stages for the refutations | partial |
| C87 | The next command of a line starts with fresh streams | context between the jobs of a line | frame of the context; refutation from the invariant over stages | partial |
| C88 | A captured job's output is captured | capture of a job | the two pipes and the state after the launch exactly; refutation | partial |
| C89 | A directory's environment is set on entering and undone on leaving | direnv files and roots, changepwd | invariant over sessions of changes: environment = start environment overlaid by the files in force; refutations for every state | partial |
| C90 | A directory added to the search path stays | search path, changepwd | induction over operations; refutation for every state | partial |
| C91 | cd - goes back | OLDPWD, changepwd, cd - | frame of the shell variables over a change | partial |
| C92 | Hooks receive the text as typed | the hook program as text, reader, evaluator | the text written for hooks is read back (Writes/Items) and evaluated symbolically; refutations by the same route for every text of the kind | partial |
| C93 | Looking at a command's name runs nothing | colouring, name lookup, reader, evaluator | invariant over the parse tree: names are bare; reading a bare text gives an atom; evaluating an atom keeps the state | partial |
| C94 | A configuration that fails is undone | snapshot and restoration over the evaluator with arbitrary native functions | a relation between states kept by every primitive is kept by evaluation (Lisp_Stays); restoration field by field; process environment by set reasoning | partial |
| C95 | include imports the environment a script leaves | quoting of the bash text, the output of env -0, set and unset against the process environment | words read by a small POSIX tokenizer, induction over names; name by name effect of the two loops | partial |
| C96 | A stored command is what runs | dispatch of a command name and argument list to a builtin or an external program | computation for every stored text; the meaning of sh's arguments is a small POSIX specification | partial |
| C97 | safe-run starts nothing without a yes | safe-run with arbitrary analysis, capture and answers | case analysis of the event trace; consent is a predicate on traces | partial |
| C98 | notebook-play runs the blocks of the file it is given | notebook-play over arbitrary blocks and replies | induction over blocks; predicate on the latest answer | partial |
| C99 | trigger runs after each change | the event loop over time-stamped changes | induction over the changes | partial |
| C100 | task runs the task that was named | option parsing, qualified names, selection, removal of duplicates | soundness and completeness of the filter; uniqueness from NoDup | partial |
| C101 | The tasks of a Taskfile are listed | the line scanner against Taskfiles written from a structured description | exact list of names by induction over entries and body lines | partial |
| C102 | Command statistics are exact and kept | statistics in memory of any number of shells, one file, saves with an arbitrary outcome | the table says exactly the executions (specification by lists), invariant over events with the unsaved tail | partial |
| C103 | The timing command shows and clears the statistics | clear, recent failures, top lists, the name counted | from the same invariant; sorting by permutation and order | partial |
| C104 | Importing fish's history gives its commands | the line scanner against files written from items in fish's format | line by line induction over the items | partial |
| C105 | Notebooks keep what they hold and give back what was recorded | loading by parser events (an oracle), saving, recording, the text of a block | tiling of the file by induction over the events; reading back by a small specification of fenced blocks (CommonMark 4.5) | partial |
| C106 | Completion is about the word at the cursor | tokens at the cursor, the parser of completion | from the tokenizer's specification (C14); witnesses for every multibyte word and every separator | partial |
| C107 | The subcommands that can follow are offered | parser, correction by the definition, subcommand candidates | lines of plain words; the chain of subcommands as an inductive relation | partial |
| C108 | The options that can be given are offered | option candidates | the same lines followed by options; equivalence of the names offered and those of the options | partial |
| C109 | Completing runs nothing that was typed | templates filled in and given to sh | invariant: the types of a context come from the definition; filling as an inductive relation | partial |
| C112 | Completing ends | the recursion into commands that are arguments | a measure that quoting preserves decreases with each level | proved |
| C113 | An argument is completed by the definition of its position | argument candidates | lines of plain words; position of the argument | partial |
| C110 | The list of candidates is ordered, complete and without repetition | deduplicate_and_sort with the history boosts, on lists of any length | stable sorts as permutations plus order; the first of each text after sorting has the best score | proved |
| C111 | The candidates shown are those of the line | the completion cache with times, and complete in front of any collector | invariant: every kept list was right at an earlier press; refuted by general runs | partial |
| C114 | What was used before comes first | history_boost_scores | equal to a per-candidate sum that stops at the limit; refuted at the limit by a history of 52 lines | partial |
| C115 | The file names offered are those of the directory | the directory listing with its cache, splitting a path, offering names | exact set of offered names with a cold cache; refuted for warm caches in general | partial |
| C116 | Dangerous commands are asked about wherever they stand | the whole line, with the text each job keeps | the kept text of every well-formed line, its words, and C07; refuted for every later stage by C07's exactness | partial |
| C117 | And-or lists inside substitutions | launch_subshell | equality with running all commands in turn, by induction | partial |
| C118 | A command substitution stands for the words of its output | launch_subshell, read_fd and a pipe of any capacity | words of the output by induction on it; refuted for every larger output | partial |
| C119 | A list in parentheses runs its commands and nothing else | subshells in command position | empty output gives no words; refuted in every world | partial |
| C120 | The grey text continues what is typed | the engine with its two caches, over History_Model and Token_Model; paths given by a function | induction over events with an invariant on the history cache; refuted in every state | partial |
| C121 | The line waiting for an answer is always sent | the mailbox, the stored wake-up and the worker as an event system | invariant: a waiting request means the worker is awake or has a wake-up; a measure bounds worker steps | proved |
| C122 | Only what the user wants asked leaves the machine | as C121, with the requests sent recorded | every request around was made by an event; refuted by runs of two to four events | partial |
| C123 | A suggestion of the model is its recent answer | as C121 | invariant tracing both caches to answers with their times | partial |
| C124 | An answer is taken as the model wrote it | trimming, fences, quotes and lines of the answer | lemmas on trimming from both ends; refuted for every answer | partial |
| C125 | A typed line does what it says | Line_Model's eval_line on typed lines | composes C11, C06 and C05: the jobs are split by segments and their operators flattened into and-or lists | partial |
| C126 | A line that begins with a bar takes the last output | smart_pipe | case analysis on the first characters, then C11 on the pipeline with the builtin in front | proved |
| C45 | The command offered is the command that was checked | Offer_Model: the answer, the guard on command and arguments, the joined text | the text is a typed command line of bare words (C11); C07 for both guards; refuted for every command line behind a bar | partial |
| C127 | Enter runs the text on the line | press_enter: unfinished lines, the model pipe, abbreviations, over every editor history | case analysis with C04 and C41; uniqueness of the word before the cursor | partial |
| C128 | Every command typed goes through the guard | the same | every way to /bin/sh; refuted for every command with a query | partial |
| C129 | Asking for a command replaces only the query | trigger: cutting the line at the last mark | uniqueness of the last mark; C11 for the extended pipeline | partial |
| C130 | JSON data survives being read as a table | json_to_value, value_to_json, from_json, to_json; a hash map is walked in any order | nested induction over documents; a map built from a permutation of an ordered list is that list | partial |
| C131 | Ordering a table sorts it | order_by with the insertion of slice::sort_by | invariant of insertion: permutation, sorted, stable; refuted for all mixed columns | partial |
| C132 | CSV data survives being read as a table | from_csv, to_csv after the csv crate | induction over the columns with distinct names | partial |
| C133 | Choosing rows and columns | where_eq, where_contains, where_cmp, head, tail, select | exact rows kept, by induction | partial |
| C134 | Nothing in a table is hidden | the tables made by any sequence of functions, display | induction over the sequence | proved |
| C135 | Each expression after |: gets the value before it | struct_pipe; the parser of C11 | induction over the expressions; readings computed by the parser | partial |
| C136 | The distance between two words is the least number of edits | levenshtein_distance with its two rows | the rows hold the least cost of alignments; alignments against sequences of edits | proved |
| C137 | The nearest commands are suggested for an unknown one | find_similar_commands, find_similar_candidates, format_suggestions | invariant of the candidates; sorting of C131; refuted for every near file that is not executable | partial |
| C138 | An alias stands for what it was given | the builtin alias with its table, and the line it is typed on (through expansion and grammar) | Names_*: case analysis on the arguments against a relational spec of assignments; induction over command sequences from the right; end to end through C63 | partial |
| C139 | Abbreviations expand, and can be erased | the builtin abbr, the space bar and Enter | Names_*: induction over command sequences; editor model for the space bar; C127 and C63 for the typed erase | partial |
| C140 | Registered hooks are called | add-hook, bound? and the eight hook texts, with the reader and evaluator | Addhook_*: the texts are written forms of the expressions (C38); evaluation of map over the list (Hooks_Proofs); lookup lemmas for set | partial |
| C141 | The project list holds what was added and not removed | the commands add, remove, work, jump and list on the project file, with cd | Project_*: induction over sessions for the history and uniqueness; insertion sort for the list | partial |
| C142 | DSH_PROJECT is the project of the current directory | find_project_by_path and the end of exec_chpwd_hooks, with direnv's changepwd | Project_*: longest prefix by induction; environment lemmas of Env_Props | partial |
| C143 | pm activate applies the project's files and nothing else | pm activate: the two file readers, set_env_var, prepend_path, the project root | Activate_Props on Project_Model: line grammar as an equivalence; fold lemmas for variables and for PATH; induction over ancestors | partial |
| C144 | ga adds the files that were selected | ga.rs: the porcelain lines, the menu's answer and the arguments of git add | Git_*: lines of the printed text; byte slice at 3 by the ASCII letters; refutations for all names | partial |
| C145 | gco checks out the selected branch | gco.rs: branch lines, extract_branch_name, the menu | Git_*: branch lines printed and read back; first occurrence of the arrow and the slash | partial |
| C146 | gwt removes only the worktree that was chosen | gwt.rs: parse_options, worktree list, removal, new directory | Gittree_Props on Git_Model: options as a table, both directions; invariant of the loop over the porcelain text | partial |
| C147 | glog checks out the selected commit, after a yes | glog.rs: arguments, colour codes, hash, number, answer | Gitlog_Props on Git_Model: coloured text as pieces; words; argument reading as an inductive relation | partial |
| C148 | Lisp arithmetic | stdlib/math.rs and the operators of value.rs on i64, checked or wrapping; floats are an oracle | Library_*: fold over the prefix results; Z.quot; refutations for all arguments | partial |
| C149 | Lisp comparison and sort | value.rs partial_cmp and cmp with fuel, the four comparisons, sort, == | Library_*: induction on fuel for any values; carried through the evaluator of Lisp_Model; == by induction on values | partial |
| C150 | Lisp lists | stdlib/list.rs, length, range | Library_*: range by induction on the count, and modulo 2^64 for the refutation | partial |
| C151 | Every Lisp value can be printed | Display of values, lists and functions, with byte slices | Libmap_Props on Library_Model: induction on nested values; UTF-8 lengths | partial |
| C152 | Lisp hash maps | hash, hash_get, hash_set over numbered maps | Libmap_Props: association lists up to value equality | partial |
| C153 | z goes to the best visited directory | z.rs execute, the matching and its order, changepwd; matcher, scores, menu and file system are oracles | Jump_*: sorting by a total order, first element is the best; option words as an inductive relation | partial |
| C154 | Directory aliases | the alias table and the z subcommands | Jump_*: association list updated by name; invariant over sequences | partial |
| C155 | The window title is harmless and names the program | title.rs and TitleGuard | Title_*: path components; filter, trim and cut keep a plain name | proved |
| C156 | An answer in Markdown is drawn whole | the Markdown renderer over parser events | Markdown_*: the output as pieces (plain, inked, marks); induction over the events | partial |
| C157 | An answer leaves the terminal as it found it | the same, read by a small terminal automaton | Markdown_Props: every piece leaves the automaton neutral | partial |
| C158 | Lists, quotes and code are laid out as they are | the list stack, quote bars and code lines | Markdown_Props: mutual induction over bodies and items | partial |
| C159 | Where a command's completion definition comes from | the loader of completion definitions and its table, with the completion engine (Comp_Model) for what Tab runs | Loader_*: search order as first usable file; induction over sessions | partial |
| C160 | Only well-formed completion definitions are used | the validation of definitions | Loader_Props: equivalence with an inductive description, nested induction | partial |
| C161 | The option at the cursor is explained | the argument explainer over the completion parser | Explain_*: the words of the line, then innermost-first search as an equivalence | partial |
| C162 | Each external tool has a name of its own | the manager of external servers: names of tools, registration, removal, call (Mcp_Model) | Mcp_Props: invariant of all histories (names distinct, one per tool, of the given shape); the numbering ends by a counting argument | partial |
| C163 | The registered servers are the configured ones | reloading, connecting and disconnecting of servers, on top of the same model | Mcp_Props: what each label's server becomes, by induction over the sorted list of wanted servers | partial |
| C164 | A command line given to an external tool is checked as if it were typed | the safety check (Safety_Model) applied to the names of Mcp_Model | Mcpsafe_Props: the shape of names decides the branches of the check | partial |
| C165 | In a chat no external tool is called without a yes | the chat loop as a trace of events over oracles for model, tools and user; the loading of servers with its cache (Chat_Model) | Chat_Props: invariant of all prefixes of the trace; Chatload_Props: the cache as a map | partial |
| C166 | The model is sent the whole conversation | the requests of the same loop, the buffer and its summaries | Chat_Props: invariant relating the buffer to the conversation in the trace | partial |
| C167 | A chat ends | the loop with 100 rounds and unbounded summaries (fuel) | Chat_Props: induction over rounds; the endless case for every fuel | partial |
| C168 | The answer shown is the model's | the extraction of the text from a message, the end of the loop | Chat_Props: induction over rounds | partial |
| C169 | The surroundings told to the model | the snapshot of the surroundings | Chatload_Props: the bounded insertion is the beginning of the sorted list; the lines by splitting | partial |
| C170 | The key and the conversation go to the configured service only | settings of the AI service and the address of a request (Client_Model) | Client_Props: trimming of blanks and slashes as equations over all decompositions | partial |
| C171 | The settings of the AI service | the lookup of settings, chat_model and chat_prompt over the variables of Env_Model | Client_Props: first_set as an inductive specification | partial |
| C172 | What is sent is what was given | the body of a request and the reading of an answer | Client_Props: by computation over all inputs | partial |
| C173 | A script is run line by line | pipe mode of dsh/src/lib.rs over an arbitrary evaluator (Main_Model) | Main_Props: induction on the lines, against an inductive specification of the commands of a script | proved |
| C174 | exit ends the script | the same, the builtin exit and the job loop of Eval_Model | Main_Props: decomposition of scripts; one step of the job loop | partial |
| C175 | The status tells what happened | the statuses of -c, -l and scripts | Main_Props: by cases over the outcome | partial |
| C176 | exit leaves the prompt | the end of the loop of the prompt as a state machine over turns | Main_Props: invariant (no request pending) and induction on the turns | partial |
| C177 | A recorded macro runs the commands chosen | the text generated for a macro and the reader of Lread_Model | Macro_Props: the text is a rendering of the intended form (Writes), read by C38; invariants of the reader for quotes | partial |
| C178 | Recording a macro keeps the configuration | the same, appended to config.lisp | Macro_Props: induction on the forms of the configuration | partial |
| C179 | The palette kills the selected processes only | Kill Process and Port Check over arbitrary outputs, selections and answers | Palette_Props: by cases; the word read is the second word of the selected line | partial |
| C180 | The palette's git actions are about what was selected | the git actions | Palette_Props: by cases, no colon in a name up to the first colon | partial |
| C181 | Containers, hosts, files and directories of the palette | Docker Containers, SSH Connect with its parser, Find File, Jump to Directory over the session of Direnv_Model | Palette_Props: by cases over the text of a line | partial |
| C182 | The palette lists every action once and runs the chosen one | the registry of actions and its sorting | Palette_Props: uniqueness of a sorted permutation | partial |
| C183 | A failing palette action leaves the shell running | the ending of an action in the loop of Main_Model | Palette_Props: one turn of the loop | partial |
| C184 | A generated completion runs nothing | the check of comp_gen.rs over written JSON, and the decoding serde derives for the types of completion definitions | Compgen_Props: nested induction over JSON values; with C109 for what Tab runs | partial |
| C185 | What comp-gen saves is used | the same, saving, and the loader of Loader_Model | Compgen_Props: what the check implies of the decoded definition, then C159 | partial |
| C186 | What comp-gen does | the arguments, steps and outputs of comp-gen | Compgen_Props: by cases over the steps, a spec of the argument list by induction | partial |
| C187 | Every candidate of the menu can be picked | the menu as a state machine over key events, with the number of columns computed from widths and the terminal's width at each step | Pick_Props: invariant of the selected place over every event list; induction over the keys that reach a candidate | partial |
| C188 | What Tab does to the line | the Tab handler over Editor_Model and Token_Model: engine candidates, the other sources, what is put in | Pick_Props: the refinement lemmas of Editor_Proofs and the token lemmas of Token_Proofs | partial |
| C189 | Declared completions are offered | the declarations, how they are matched and what they give | Pick_Props: induction over the list of declarations and over lines | partial |
| C190 | Options are read alike wherever they stand | getopts' reading of words, with the option lists of set, dmv, serve and gpr | Opts_Proofs: the loop is equivalent to the relation Reads, by strong induction over the words | partial |
| C191 | set assigns | set over Env_Model | Opts_Props: from parse_iff and the map lemmas of Env_Props | partial |
| C192 | serve serves what was asked, to this machine only | serve's arguments, validation, start and status | Opts_Props: equivalence of the arguments with what they ask for; ports by Numerals | partial |
| C193 | gpr runs the one gh command asked for | gpr with gh, git and the picker as parameters | Opts_Props: case analysis from parse_iff; sorting by induction | partial |
| C194 | dmv's words | dmv's command over Dmv_Model | Opts_Props: parse_iff and C40_dry_run | partial |
| C195 | The external editor | the choice of the editor, open_editor, eview and the line's editing, the editor as parameter | Outside_Props: trailing newlines by induction; words by Words | partial |
| C196 | ai-commit commits only what was agreed to | ai-commit with git, service, editor and answers as parameters | Outside_Props: induction over the answers | partial |
| C197 | What a builtin writes arrives where it should | descriptors as a table, write_stdout with its File and open(2) taking the lowest number | Outside_Props: induction over the table, pigeonhole for the lowest number | partial |
| C198 | gh-notify lists and opens the right notification | gh-notify over a JSON answer, requests with their tokens | Outside_Props: reader equivalent to a description of an entry; case analysis | partial |
| C199 | procs lists the processes and signals the one selected | procs as a state machine over reports, keys and refreshes | Views_Props: invariant of the cursor over all runs; sorting by permutation and order | partial |
| C200 | The directory in the prompt | the prompt's path as lists of names, replacement of the home text | Views_Props: case analysis, replacement lemmas | partial |
| C201 | The counts of the git prompt | the status text over the eight counts | Views_Props: case analysis on each count | partial |
| C202 | Users, groups and interfaces offered | user and group files as lines, interfaces with their priority | Views_Props: fields and numbers by equivalence, sorting lemmas | partial |
| C203 | mcp does what its words say | the mcp command's Lisp text, read with the reader of C38 | Views_Props: the text is one way to write the call, by the reader's theorem | partial |
| C204 | tm shows what was kept | tm over the descriptors of C197 | Views_Props: two writes composed | partial |
| C205 | reload reports what happened | reload's words and error texts as strings | Views_Props: case analysis, first and last occurrence by induction | partial |
| C206 | The prompt shows the repository it is in | the prompt's fields, the background task in three steps, prints; the disk as functions | Prompt_Props: an invariant over calm runs; histories that break it | partial |
| C207 | git status is counted rightly | the line reader over git's grammar | Prompt_Props: counts by induction on the entries | partial |
| C208 | The branch is read from HEAD | the text of HEAD, bytes cut at seven | Prompt_Props: prefix and character boundary | partial |
| C209 | Context from tools is current and asked for sparingly | the gate, ticks and answers | Prompt_Props: invariant over histories | partial |
| C210 | The prompt shows how the last command went | the two parts as text | Prompt_Props: division with remainder | proved |
| C211 | The nearest file of a name is used | the disk as a function, a walk up the directory | Runtime_Props: induction on the depth | proved |
| C212 | The version named in a file is read | the three readers over lines and TOML values | Runtime_Props: induction on lines, equivalence with the relation | partial |
| C213 | The runtime shown is the one in force | the detectors as choices in order | Runtime_Props: one lemma per place, composed | partial |
| C214 | The files that set up the environment are listed | the four names looked for upwards | Runtime_Props: by C211 | partial |
| C215 | Every task of the project is listed | nine sources, four of which may fail | Runtime_Props: membership, exact condition of failure | partial |
| C216 | make's targets are listed | the line test on make's output | Runtime_Props: equivalence with its description | partial |
| C217 | Comments in deno.jsonc are taken out | the removal with enough fuel | Runtime_Props: induction over pieces of code and comments | partial |
| C218 | A task's command runs that task | the command texts | Runtime_Props: words of an appended text; split at a semicolon | partial |
| C219 | The services of a compose file are offered | the reader of compose files line by line | Dynamic_Compose: induction over an inductively described layout | partial |
| C220 | The nearest compose file is used | the search upwards | Dynamic_Compose: as C211, with four names | proved |
| C221 | Offered tasks and services are up to date | the store of values with the signatures of their files, over a history of states of the disk | Dynamic_Cache: invariant of the store | partial |
| C222 | Values of slow programs are refreshed in the background | the store, the pending set and the running threads, over a history of events | Dynamic_Cache: invariant over histories | partial |
| C223 | Branches of one repository are not offered in another | the folder the values are kept for | Dynamic_Cache: by C211 | proved |
| C224 | Remotes, branches and namespaces are offered where they belong | the choice by words and index on top of the modelled analysis of the line | Dynamic_Words: equations over the analysis of plain words | partial |
| C225 | A slow program does not hold completion | times of the program and of the holders of its output | Dynamic_Props: cases | partial |
| C226 | What a completing program says is offered | lines of the answer | Dynamic_Props: membership, cases | partial |
| C227 | The model does not read ignored files | the rules of one ignore file, the last one that says something deciding | Search_Props: induction from the last rule; the meaning of a line is a parameter | partial |
| C228 | The model is shown a folder's entries | the listing | Search_Props: sorting, cases of the line | partial |
| C229 | Searching for text shows the files that have it | the walk over a tree, the first fifty hits, the answer | Search_Props: the walk by well-founded induction on depth; counting lines | partial |
| C230 | Searching for a name shows the files of that name | the matcher of the glob library with its three outcomes | Search_Props: soundness of the outcome that cuts the search short, by induction | partial |
| C231 | history lists what was asked for | the words of history and the search of C54 | Recall_Props: the words as items, induction from the last item; C54 | partial |
| C232 | out shows what was captured | out over the variables of the environment | Recall_Props: C22 for the names; induction on the rows | partial |
| C233 | read assigns what it reads | read over open descriptors and variables | Recall_Props: cases; uniqueness of the text without its last newlines | partial |
| C234 | The notification counts are right | a check as a function of the service's answers; the shell as a machine over settings and intervals | Notify_Props: counting by filters; induction on histories from the end | partial |
| C235 | Only finished review requests are changed | the requests a check makes, in order | Notify_Props: cases on one notification, then flat_map | partial |
| C236 | The service is asked when the settings say so | the same machine; settings read once | Notify_Props: induction on histories; two runs with equal settings | partial |
| C237 | The commands offered are those of PATH | directories as lists of entries with kind and mode; the loop over PATH with the names seen | Commands_Props: induction on the names pushed, then on PATH | partial |
| C238 | One candidate for a name | the fold over candidates, replacing in place | Commands_Props: invariant by induction from the end | proved |
| C239 | What is offered for a word | the choice of directory and query, the listing, and C237 and C238 together | Commands_Props: the first candidate of a name is the entry here | partial |
| C240 | Tab's fallback shows what there is now | the cache of Menu_Model in front of the list | Commands_Props: induction on presses | partial |
| C241 | The signals offered | the table of signals and the filter over it | Sources_Props: by the shape of the names | proved |
| C242 | The processes offered | the process list, its order and filter, kept for a second | Sources_Props: invariant on histories of presses | partial |
| C243 | The system's commands offered | known names, background scan, cache of answers as events of a history | Sources_Props: provenance invariant by induction on histories | partial |
| C244 | The command name suggested | the binary search, the search of the directories and the line | Known_Props: binary search correct on ordered lists; induction on entries and on PATH | partial |
| C245 | The names kept between sessions are right | the signature of PATH and the kept file as records | Known_Props: equality of signatures characterised by induction | partial |
| C246 | The name suggested follows PATH | scan and settings as events of a session | Known_Props: induction on histories | partial |
| C247 | What the diagnosis of a command sends | what is captured of a command, the texts and the requests; the service is a parameter | Diagnose_Props: induction on the dialog | partial |
| C248 | The command taken from an answer | the lines of an answer and the flag of a block | Diagnose_Props: induction on lines | partial |
| C249 | The dialog of the diagnosis | keys as records, the text written and the answers | Diagnose_Props: induction on keys and on the dialog | partial |
| C250 | The prompt comes back in raw mode | the mode as a flag set by each step of a line | Rawmode_Props: induction on the jobs | partial |
| C251 | Commands find the terminal as they expect it | the mode while each job runs | Rawmode_Props: induction on the jobs | proved |
| C252 | The mode of the terminal over a session | actions of a session, lines of a script | Rawmode_Props: induction on histories | partial |
| C253 | Opening the history of an earlier version | tables, columns, rows and indexes; the statements in order | Schema_Props: statements done stay done and do nothing again; induction on the statements | partial |
| C254 | The output of a command on a terminal of its own | chunks read, returns added, what is kept; steps of tasks in any order | Relay_Props: the specification of one pass over all bytes; an invariant of the steps | proved |
| C255 | Typing while a command runs | keys typed, read, passed on, dropped | Relay_Props: an invariant of the steps | partial |
| C256 | The prompt comes back | processes that hold the terminal; waiting, draining, back | Relay_Props: an invariant of the steps; induction on what is left to read | partial |
| C257 | The question before a dangerous command | events read until one answers | Asked_Props: induction on the events | partial |
| C258 | A question answered with a line | one line, trimmed, lower case | Asked_Props: trimming | proved |
| C259 | Keys pressed twice | times of first presses | Asked_Props: induction on the keys against pairs of presses | partial |
| C260 | Secrets in the report of doctor | mask_secret and the lines of check_ai | Doctor_Props: two runs give the same lines | partial |
| C261 | Settings shown by doctor | check_ai against the settings of Client_Model | Doctor_Props: cases of the variables | partial |
| C262 | Sections of doctor | the word and the titles | Doctor_Props: cases of the words | proved |
| C263 | Changed files in doctor | lines of git status, cut and trimmed | Doctor_Props: induction on the changes | partial |
| C264 | Checks suggested by doctor | flags and packages of the paths | Doctor_Props: the checks as an inductive relation | partial |
| C265 | Stale copies of skills | trees of files, listed and sorted | Doctor_Props: induction on trees; sorted lists are unique | proved |
| C266 | Servers of tools in the configuration | values of the forms, servers in the order added | Forms_Props: the described server as a relation; induction on entries and forms | partial |
| C267 | Show Environment | lines of the variables, merged and sorted | Forms_Props: induction on the variables of the process | partial |
| C268 | Bytes of the screen | bytes held and bytes sent | Forms_Props: invariant over writes, flushes and failures | partial |
| C269 | Versions of tools in the prompt | directory, version, questions under way with the directory they were asked in | Badge_Props: invariant over all events | partial |
| C270 | Answers of tools | outputs of the tools, cut into words or at bars | Badge_Props: words and cuts characterised | partial |
| C271 | Time limit of completion commands | the child, the processes it leaves, a pipe of bounded size, a clock and two threads | Limit_Props: invariant over all schedules; progress by own steps | partial |
| C272 | Skills offered to the assistant | the head of a skill, its fields, blanks and length; folders and files of skills | Skills_Props: induction over lines; sorting | partial |
| C273 | Skills are up to date | the signature of the folder and the copy kept with it | Skills_Props: entries not written since are a sublist of the old ones; equal counts make them equal | partial |
| C274 | History while the shell starts | the table, the queue of the writer, the history in memory and the thread that loads it in two parts | Begin_Props: cut of an ordered table; invariants over all orders of steps | partial |

Properties that no executable model can express: none so far.

## What is modelled, and what is not

Each model file names the Rust files and lines it follows; this is the overview.

| files | Rust sources |
|----|----|
| Editor | dsh/src/input/editor.rs (all editing and cursor methods), cursor placement of dsh/src/repl/render.rs |
| Safety | dsh/src/safety/mod.rs; tool loop of dsh/src/ai_features/service.rs |
| Eval | eval_str of dsh/src/shell/eval.rs with the safety question |
| Jobs | dsh/src/process/{state,job_process,process,builtin,wait,job,job_wait,job_pty}.rs (state, waiting, signals), dsh/src/shell/job.rs, dsh/src/proxy/builtin/jobs.rs |
| Output | dsh-types/src/output_history.rs, newline conversion of dsh/src/process/io.rs |
| Env | dsh/src/environment/{variables,paths,mod}.rs, prepare_execution, export/set/add_path builtins |
| History | dsh/src/history/command_history.rs, arrow keys of dsh/src/repl/key_handlers/navigation.rs |
| Frecency | dsh-frecency/src/{store,stats}.rs, dsh/src/history/frecency_history.rs |
| Fs, Serve | a file-system tree with symbolic links; dsh-builtin/src/serve/{handlers,scanner}.rs |
| Tools | dsh-builtin/src/chatgpt/tool/{mod,read,edit,ls,search,execute}.rs |
| Peg, Grammar | the pest engine for the operators used; dsh/src/shell.pest, rule by rule |
| Parse, Highlight | dsh/src/shell/parse.rs, get_string of dsh/src/parser/ast.rs; dsh/src/parser/highlight.rs |
| Token | dsh/src/completion/{shell_token,shell_path}.rs |
| Expand, Brace, Alias | dsh/src/parser/expansion.rs, get_jobs of dsh/src/shell/eval.rs |
| Check | dsh/src/parser/check.rs and the multi-line buffer |
| Keys | dsh/src/repl/{key_action,handler,suggestion_manager}.rs, dsh/src/repl/key_handlers/*.rs, parts of dsh/src/repl/{mod,completion,render,input_analysis}.rs, dsh/src/parser/ast.rs |
| Cut | shortening and prefix functions of dsh-builtin/src/{bookmark,snippet,out,safe_run}.rs, chatgpt/tool/mod.rs, chatgpt/skills.rs, dsh/src/completion/{display,dynamic,parser,cache}.rs, dsh/src/repl/completion.rs, dsh/src/prompt/mod.rs |
| Secrets | dsh/src/secrets.rs; learn_suggestion of dsh/src/repl/mod.rs; the key list of dsh/src/lisp/builtin.rs |
| Dmv | dsh-builtin/src/dmv.rs (all but option parsing and messages; new names outside the directory not modelled) |
| Lread | dsh/src/lisp/parser.rs, dsh/src/lisp/mod.rs (run, run_config_lisp: the text read), Display in dsh/src/lisp/model |
| Lisp evaluator (Lisp_*) | dsh/src/lisp/interpreter.rs, dsh/src/lisp/model/env.rs, default_environment.rs (eval, apply, map, filter) |
| Launching a pipeline: descriptors, redirects, capture | process/job.rs launch_process; process/job_process.rs launch; process/io.rs create_pipe, handle_output_redirect; process/fork.rs; process/process.rs launch_prepared; process/redirect.rs; shell/eval.rs execute_with_capture (process groups, signals and the PTY master not modelled) |
| Direnv | dsh/src/direnv.rs, dsh/src/proxy/mod.rs (changepwd), dsh/src/shell/hooks.rs (exec_chpwd_hooks up to the Lisp hooks), dsh-builtin/src/cd.rs (cd -) |
| Hooks | dsh/src/shell/hooks.rs, dsh/src/lisp/mod.rs (run, is_export) |
| Configuration | dsh/src/lisp/mod.rs (run_config_lisp and its snapshot), dsh/src/environment/mod.rs (fields) |
| Importing scripts | dsh-builtin/src/include.rs |
| Runs | dsh/src/proxy/mod.rs (dispatch, capture_command), dsh/src/proxy/builtin/{registry,external}.rs, dsh-builtin/src/{safe_run,notebook_play,trigger}.rs, running in task.rs, bookmark.rs and snippet.rs |
| Task | dsh-builtin/src/task.rs (options, selection, duplicates), dsh-builtin/src/project_context.rs (Taskfile scanner) |
| Timing | dsh/src/command_timing.rs, dsh-builtin/src/command_timing.rs (without the layout of its output), recording in dsh/src/repl |
| Import | dsh/src/history_import.rs (the scanner) |
| Notebook | dsh-types/src/notebook.rs (parser events are an oracle), recording in dsh/src/shell/mod.rs |
| Completion | dsh/src/completion/{parser,context,generator,command}.rs, dsh/src/completion/generators/{command,subcommand,option,argument,script}.rs, parts of integrated.rs and dsh/src/repl/key_handlers/completion.rs |
| Candidate lists and caches (Menu, Cache, Files) | dsh/src/completion/integrated.rs (deduplicate_and_sort, history_boost_scores, complete), completion/cache.rs, completion/path.rs (sync listing, scan), generators/filesystem.rs |
| Whole lines | dsh/src/shell/eval.rs (eval_str up to the loop, get_jobs, launch_subshell, spawn_subshell, transform_input_for_smart_pipe), dsh/src/shell/parse.rs with substitutions run in a world |
| Suggestions (C120-C124) | dsh/src/suggestion.rs, dsh/src/repl/repl_ai.rs |
| Meaning of lines (C125, C126) | composition of shell/parse.rs, shell/eval.rs |
| Offered commands and the Enter key (Offer_*) | ai_features/command.rs (after the answer), ai_features/mod.rs sanitize_code_block, repl/mod.rs detect_*, key_handlers/completion.rs l.62-98, key_handlers/execution.rs l.15-100 |
| Table | dsh/src/lisp/model/table.rs, dsh/src/lisp/stdlib/table.rs, dsh/src/shell/eval.rs (the part for |:) |
| Typo | dsh/src/command_suggestion.rs, dsh/src/shell/parse.rs (the message for an unknown command) |
| Names | dsh-builtin/src/alias.rs, dsh-builtin/src/abbr.rs, dsh/src/proxy/mod.rs (aliases, abbreviations), dsh/src/repl/handler.rs l.184-198 |
| Registered hooks (Addhook) | dsh/src/shell/hooks.rs (all eight Lisp hook texts), dsh/src/lisp/default_environment.rs l.211-312 |
| Project | dsh-builtin/src/project.rs, dsh-types/src/project.rs, dsh-builtin/src/project_context.rs (find_project_root), dsh/src/shell/hooks.rs (DSH_PROJECT) |
| Git | dsh-builtin/src/{ga,gco,gwt,glog}.rs (not: previews, gwt -P, listing and pruning, exit statuses) |
| Lisp library | dsh/src/lisp/stdlib/{core,list,math}.rs, dsh/src/lisp/default_environment.rs l.357-493 (but not the functions that call the evaluator), dsh/src/lisp/model/{value,list,lambda}.rs: operators, comparison, equality, printing |
| z, directory aliases | dsh/src/proxy/builtin/z.rs, dsh/src/proxy/mod.rs l.679-752, dsh/src/history/frecency_history.rs l.363-429 |
| window title | dsh/src/terminal/title.rs, dsh/src/shell/eval.rs l.21-41 |
| Markdown | dsh-builtin/src/markdown.rs |
| Completion definitions | dsh/src/completion/json_loader.rs, command.rs, integrated.rs l.244-268 |
| Argument explainer | dsh/src/argument_explainer.rs, repl/mod.rs l.442-449 |
| MCP servers | dsh-builtin/src/chatgpt/mcp/mod.rs, dsh/src/environment/mcp.rs, dsh/src/shell/mod.rs l.261-299 |
| Chat | dsh-builtin/src/chatgpt.rs l.45-233, l.355-486, l.558-661, l.739-776; chatgpt/tool/mod.rs l.26-75; chatgpt/mcp/mod.rs l.240-250, l.572-706 |
| Client | dsh-openai/src/config.rs, dsh-openai/src/client.rs l.57-70, l.152-170, l.242-307; dsh-builtin/src/chatgpt.rs l.235-353, l.511-552 |
| Starting and leaving (Main) | dsh/src/lib.rs (run_shell's choice of mode, execute_command, execute_lisp, pipe mode), the builtin exit, the end of the loop of dsh/src/repl/mod.rs |
| Macros (Macro) | dsh/src/repl/macro_utils.rs, handle_macro_record of dsh/src/repl/key_handlers/auxiliary.rs |
| Command palette (Palette) | dsh/src/command_palette/mod.rs and the actions kill_process, port_check, git_checkout, git_stash, git_diff, git_commit, git_push_pull, docker_containers, find_file, ssh_connect, jump_directory, search_history; handle_open_command_palette of dsh/src/repl/key_handlers/auxiliary.rs |
| Generated completions | dsh-builtin/src/comp_gen.rs; dsh/src/completion/command.rs l.1-135 (decoding) |
| Candidate menu and Tab | completion/ui.rs, framework.rs, display.rs (selection and columns), selection.rs l.1-294, skim_adapter.rs replace_space, integrated.rs l.847-900, repl/key_handlers/completion.rs l.99-298 |
| Options of set, dmv, serve, gpr | dsh-builtin/src/{set,gpr}.rs, dsh-builtin/src/dmv.rs l.20-80, dsh-builtin/src/serve/{mod,config,server,error}.rs, getopts 0.2.24 (as documented) |
| Editor, ai-commit, builtin output, gh-notify | dsh/src/utils/editor.rs, dsh-builtin/src/eview.rs, dsh-builtin/src/commit_ai.rs, dsh-types/src/lib.rs (write_stdout, write_stderr), dsh-builtin/src/gh_notify.rs |
| Views: procs, prompt, names, mcp, tm, reload | dsh-builtin/src/procs.rs, mcp.rs, tm.rs, reload.rs; dsh/src/prompt/modules/directory.rs, git.rs; dsh/src/completion/generators/user.rs, group.rs, interface.rs; dsh/src/proxy/builtin/lisp.rs, reload.rs |
| Prompt | dsh/src/prompt/mod.rs, dsh/src/repl/mod.rs (background tasks), dsh/src/prompt/modules/exit_status.rs, execution_time.rs |
| Runtime | dsh-builtin/src/project_context.rs, dsh-builtin/src/task.rs (detection) |
| Dynamic | dsh/src/completion/dynamic.rs (git, docker, kubectl, tasks, external completers), dsh/src/completion/integrated.rs (collect_dynamic_candidates) |
| Search | dsh-builtin/src/chatgpt/tool/{gitignore,ls,search,read}.rs |
| Looking back: history, out, read | dsh/src/proxy/builtin/{history,var}.rs, dsh-builtin/src/out.rs |
| GitHub notifications | dsh/src/github.rs; dsh/src/repl/mod.rs l.187-240; dsh/src/prompt/mod.rs l.411-456 |
| Commands and files offered for a word | dsh/src/completion/commands.rs; dsh/src/completion/selection.rs l.283-512; dsh/src/completion/fuzzy.rs; dsh/src/dirs.rs l.37-46 |
| Signals, processes and system commands offered (Sources) | dsh/src/completion/generators/{signal,process,system}.rs |
| The command name suggested and the names known (Known) | dsh/src/environment/{paths,mod}.rs, dirs.rs: search_file, repl/completion.rs: complete_command_word |
| Diagnosis of the last command (Diagnose) | repl/key_handlers/ai.rs l.55-179, ai_features/analysis.rs l.148-213, ai_features/ui.rs, process/job_pty.rs l.165-213 |
| Mode of the terminal (Rawmode) | shell/eval.rs, process/job_pty.rs l.18-75, repl/mod.rs (setup, Drop), repl/key_handlers/auxiliary.rs, repl/confirmation.rs |
| Schema of the database (Schema) | db.rs l.12-160 |
| Terminal of a command (Relay) | process/io.rs (PtyMonitor), process/job_pty.rs, process/async_io.rs |
| Questions and double presses (Asked) | repl/confirmation.rs, repl/state.rs, proxy/mod.rs (confirm_action) |
| Doctor | dsh-builtin/src/doctor.rs (without mcp, project, runtimes, performance) |
| Forms | lisp/stdlib/mcp.rs (adding servers), lisp/utils.rs (arguments), environment/mcp.rs, command_palette/actions/show_env.rs, terminal/renderer.rs |
| Badge | prompt/mod.rs (versions and contexts of tools), prompt/modules/{rust,nodejs,python,go,kubernetes,aws,docker}.rs, repl/mod.rs (idle checks) |
| Limit | completion/generators/script.rs (run_with_timeout), completion/dynamic.rs (wait_and_collect_lines) |
| Skills | dsh-builtin/src/chatgpt/skills.rs |
| Begin | dsh/src/lib.rs, dsh/src/history/command_history.rs (loading at the start) |

Not modelled: the kernel's process scheduling, terminal escape sequences and
colours, SQLite's own durability, network requests and the replies of the
language model, the completion generators for individual programs, the
prompt's decoration, the notebook and the TUI tools. Where such a part gives
an answer to modelled code, the answer is an oracle that the theorems
quantify over.

## What the proofs found

Properties that the code does not have in general, with the theorem that refutes them and the part that holds:

* C06 A declined or denied line launches nothing: from the text of the line to its effects. Proved for lines in which no opening parenthesis is left after expansion: refused means nothing happened at all. False for lines with substitutions: these run while the line is read, before the question (dd $(touch x), answered no, has run touch). Of any refused line nothing but its substitutions has run..
* C09 Prompt sanitising bounds and cleans model input: cleaning and bound proved; totality is false (panics when the limit falls inside a character) and refuted with a witness.
* C11 No typed command is silently dropped: proved for every well-formed line; false in general: after a newline, a closing parenthesis, a backquote or a double quote followed by a dollar sign the rest of any line is dropped (proved for all lines), and 2>&1 or an unterminated quote drop text too.
* C12 Completed file names reach the program unchanged: proved through expansion and parsing for every non-empty name in the unquoted styles, and in closed quotes for names that need no backslash there; in quotes inserted backslashes reach the program, and a name that is a tilde becomes the home directory (refuted).
* C13 Decoding a completed path token recovers the path: false exactly for a path that ends with the quote still open (refuted for every such path); proved for all others.
* C15 Brace expansion is the ordered cross product: termination for every word, cross product for every well-formed word of any nesting; an unclosed opening brace hides later complete groups (refuted).
* C17 A pipeline is finished exactly when its stages are: the early-consumer rule fires for any stage but the first, so a foreground pipeline of three or more stages can be left while its last stage runs (refuted with a witness).
* C18 Exit statuses are reported faithfully: faithful for external commands; for builtins run as a job stage success and failure are inverted (refuted).
* C19 Jobs are never lost: four ways to lose a job or duplicate a number are refuted with witnesses; proved for histories without them.
* C21 Captured output history is bounded and accounted: proved for every positive capacity; a history of capacity 0 never finishes a push (refuted with the proof that it loops). The floating-point split between the two streams is an arbitrary function bounded by the limit.
* C23 Command history keeps one entry per command, most recent last: exact for recording on any duplicate-free history; the start-up load and the periodic reload can duplicate or forget commands (refuted).
* C24 History navigation visits matching entries in order and stops at the ends: exact without a search word and for all entries but the oldest with one; the oldest entry is skipped, and the index underflows (refuted).
* C26 The in-memory history and the database agree: agreement on time, count and context for all interleavings with the writer when the working directory exists; context without directory and outcome of a rerun disagree (refuted).
* C29 AI file tools stay inside their roots: reading and writing proved without condition; listing, searching and making directories can leave the allowed directories through a path with forty links (refuted), proved when the path exists / when the limit on links plays no part.
* C30 AI command tool runs only allowlisted programs: the allowlist is proved exact for every splitting function; the block on shell strings misses combined options such as -ec (refuted).
* C31 The file server serves only files below its root: proved for every tree and URL with the index option off, and for listings; with it on, an index.html that is a link leads outside (refuted).
* C32 Names in generated HTML are inert: escaping and the rich listing proved; the plain listing of serve_directory does not escape names (refuted), safe for names without markup characters.
* C33 Secrets are kept out of history as configured: proved as non-interference (the recorded text does not depend on the secret) for assignments, options, bearer headers; URL parameters at their own redaction stage; refuted in general for quoted values with blanks, a second equals sign in a word, consecutive options, custom patterns in redact mode and accepted suggestions.
* C34 Child processes see exported variables over inherited ones: exact for helper commands; external commands lose an inherited variable that is exported without a shell value (refuted), otherwise exact.
* C35 Command lookup follows PATH order: first regular file on the PATH set with set -x or inherited; add_path, export PATH=... and the execute bit are ignored by the code (refuted).
* C36 Pipeline plumbing connects each stage to the next: proved for pipelines of external commands of every length, with or without pseudo-terminal, in fore- and background, for every allocation of descriptors: streams connected, first reads the job's input, last writes its output, every write end held by one process and not by the shell. Refuted: each stage but the last keeps the read end of its own output, so a writer is never told that its reader is gone; a builtin before the last stage runs inside the shell before anybody can read its output.
* C38 Lisp reader reads back what it prints: proved for every integer of 64 bits, boolean, list and name whose last character is ASCII, and beyond that for every text that writes a value with any white space and comments; a name ending in a character beyond ASCII is read as the empty name (refuted for every such name).
* C39 Tail calls do not change results: proved for programs with all special forms, closures and macros in which natives do not look at the frame of the call, only names are inserted into templates and macros end in a constant, name or template; each of the three exclusions is refuted.
* C40 Bulk rename loses no file: new names inside the directory only; without force and without links to nothing under a new name no file is lost and all are renamed as asked; refuted: a link to nothing is overwritten, force loses a file when names are exchanged, names starting with a longer character crash the search, documented forms of patterns rename nothing.
* C41 Incomplete-input detection: exact for every text; but a line ending in an escaped operator is reported incomplete although it is complete (refuted for every such line).
* C44 Recursive removal is asked about: full statement is false of the code (rm -Rf / passes); proved for the listed spellings.
* C46 A dangerous command inside an MCP command line is asked about: full statement is false (true; rm -rf / passes); proved when the dangerous command comes first. For the names tools really have the command line is not looked at at all: C164_commands_refuted..
* C48 An MCP allowlist entry licenses one call only: false for tool names containing ':'; proved for the others.
* C49 Waiting for a job does not kill it: the full statement is false: any reaped nonzero exit kills the foreground group.
* C50 The state shown for a job is its real state: proved for single external commands not yet resumed; false after a resume.
* C51 Leaving the shell kills its jobs and nothing else: exact set of signals proved; it includes pids already reaped.
* C52 Monitored background output arrives whole: complete when pauses fall between lines; a partial line before a 200 ms pause is lost (refuted).
* C53 The arrow keys search for what is typed and Down undoes Up: the search text is not refreshed after a walk was left with Down (refuted).
* C55 The directory history survives a restart: fractional last visits are dropped at start, removed directories come back and then break the order (refuted); reload and save are proved.
* C56 Directory scores survive a restart: refuted for every stored score: loaded items count time from 1970, the growth factor overflows to infinity and all scores read as NaN.
* C57 Links of a served listing lead to the entries: absolute entry URLs proved; the relative links lead astray when the directory is requested without a final slash, and names with spaces are never decoded (refuted).
* C58 The edit tool changes the confirmed file and nothing else: existing entries are kept; directories are made before the question is asked, and no new file is ever created because the resolved path ends in a slash (refuted).
* C59 Quoted and escaped arguments arrive as typed: proved for arguments in any form, those in quotes with or without a blank before them; a part in quotes never joins what is before it, for every command and every two parts, and escapes inside double quotes are kept (refuted).
* C60 Every redirection of a command takes effect: only the last redirection of a whole pipeline is kept (proved for all pipelines), and quotes stay in the file name.
* C61 & sends only its own command to the background: proved for single commands; a background pipeline also sends the next command to the background (refuted).
* C63 Expansion keeps the structure of the line: proved for every well-formed line whose values are tame; background redirections, background pipelines and groups lose parts (refuted).
* C64 The value of a variable is data: a value without blanks is inserted as source text, so that a separator in it starts a new command (refuted).
* C65 Words that are not variables are passed as typed: once anything on the line is expanded every bare word is looked up as a variable name (refuted).
* C66 A variable inside a word is replaced: refuted: only a word that is entirely one reference is replaced (that part is C63 and C64).
* C67 A process substitution given as an argument is run: refuted: it is read as a redirection from a file.
* C68 A command typed over several lines runs whole: joining proved for every sequence of lines; the joined text is then cut at its first newline by the parser (refuted).
* C69 Enter runs the line as typed: proved for lines without the mark |! ; with it (also inside quotes) the part before goes to sh -c without the shell's parser and safety check (refuted, for every complete command).
* C70 Accepting a suggestion appends what was shown: proved with the cursor at the end; Tab with the cursor inside the line inserts the rest in the middle (refuted for every such line).
* C71 Automatic pairing does not change typed text: proved for every text with balanced brackets and no quotes; typing a quoted text leaves two extra quotation marks (refuted for every such text).
* C75 Accepting a completion yields the line that was shown: proved when a completion is shown; an earlier completion that is no longer shown replaces the whole line (refuted).
* C76 Commands do not mix: proved after Ctrl+c; after Alt+Enter the pending lines are glued to a later command (refuted for all lines), and Ctrl+l erases the typed line.
* C78 Choosing a completion replaces the completed word only: proved for candidates with a replacement range; without one, text before the word is deleted when the cursor is inside the word (refuted for all lines).
* C73 Long text is shortened, never a crash: half of the displays cut at a byte offset and crash on a character across it (exact condition proved, refuted for all such texts); the careful cuts are proved exact.
* C74 Looking up suggestions never crashes: proved when the last blank or parenthesis is one byte; with a no-break or ideographic space before the last word it crashes (refuted for every such line).
* C80 A string in Lisp source is read as its text: proved for every text that ends in an ASCII character; a text that ends in any other character is rejected as unclosed, and the empty text is read as a name (both refuted in general).
* C81 The whole configuration file is evaluated or rejected: proved for every well-formed file with any white space and comments; after one closing parenthesis too many the rest of the file is ignored without an error (refuted for every file and every rest).
* C82 apply passes its arguments on: proved for lists of numbers, strings, booleans, functions and empty lists; names and lists are evaluated a second time (refuted).
* C83 Quoted data and mapped elements arrive unchanged: proved for data in which no list starts with the name comma; quote inserts there by design, but map re-quotes its elements and so evaluates parts of them (refuted).
* C84 Parameters get their arguments: exact content of the new frame proved; a wrong number of arguments is not reported: a missing one lets the body see an outer variable of the same name, a surplus one is dropped (refuted).
* C86 Redirects apply to the streams and the stage they name: proved for a single foreground command with an output redirect; refuted for every pipeline: the output of inner stages is copied to the file by a task that competes with the next stage, with an input redirect every stage reads the file, and appending does not create the file.
* C87 The next command of a line starts with fresh streams: proved after a single command without redirect and pseudo-terminal; after every pipeline the next command is handed the closed number of the last pipe and gives up before running its program (refuted for every pipeline of two or more commands).
* C88 A captured job's output is captured: proved for a single command; in a captured pipeline of two commands the second is handed the closed write end for errors and gives up before running its program (refuted for every table of descriptors).
* C89 A directory's environment is set on entering and undone on leaving: proved for every session and any number of directories whose names are in capitals, unset before and used by one directory each; refuted in general: a value set before is lost on leaving, nested directories lose the outer value, PATH_ADD glues without a colon, PATH is reset to that of the time of allow-direnv, PATH= is ignored and then removed, small letters are capitalised, a blank line or comment crashes the shell, an unreadable file makes the root forgotten.
* C90 A directory added to the search path stays: proved for every sequence without a change of PATH or directory; every successful cd rebuilds the list from PATH and drops what was added (refuted for every state).
* C91 cd - goes back: proved after every change that took place; a change that is tried and fails (an absolute or ~ path that does not exist, a file) overwrites the remembered directory with the current one (refuted for every state).
* C92 Hooks receive the text as typed: proved for every line without double quotes that is not empty and ends in an ASCII character; refuted: a line with a double quote never arrives, what follows the quote is evaluated as a Lisp program before the hook is called (on completion without any check), a line that ends in another character or is empty calls no hook. Hooks on project switches and unknown commands (another form around the same call) are not modelled.
* C93 Looking at a command's name runs nothing: proved for colouring: for every line the texts looked up hold no unescaped bracket, quote or blank, are read as atoms and their evaluation changes nothing; refuted for parsing: a command name in single quotes that writes any Lisp expression is evaluated when it is looked up.
* C94 A configuration that fails is undone: proved for the settings in the snapshot, the palette, the process environment and the outermost Lisp frame, and for all Lisp frames when set is not used; refuted: completion entries stay, and a variable kept by an earlier function stays changed.
* C95 include imports the environment a script leaves: quoting proved for all names; importing proved for quiet scripts with text values in a session that has not changed its environment; refuted: whatever the script prints becomes part of the first variable (which is then removed), later environments are compared with the one at startup so changing a value back is not imported, values that are not UTF-8 are removed, exported shell variables hide what was imported (and, by an example, new variables set to nothing are not imported).
* C96 A stored command is what runs: refuted for every stored command: the shell is started with its own name as first argument, so it looks for a script file named sh and the stored text never runs; what holds is that one program is started and its success reported.
* C97 safe-run starts nothing without a yes: no action without some yes is proved; a confirmed external command with two or more words runs with its words; refuted: saying yes to an inspection runs the command itself, with its words joined and split again; output of more than 8000 bytes whose cut falls inside a character crashes; the shell's own commands get one word less and crash when they need it.
* C98 notebook-play runs the blocks of the file it is given: each block runs only when the latest answer let it; refuted: the name of the builtin itself is taken for the file, so the argument makes no difference; the end of input counts as a yes.
* C99 trigger runs after each change: every run follows a matching change and runs are at least half a second apart; a change within half a second of a run is forgotten, so the last change may never be acted on (refuted for every history).
* C100 task runs the task that was named: the chosen task is always the only one the word means; every task can be reached by source and name, or by a name of its own; refuted: a name that starts with a source and a colon selects another task, and the names list, help and those with a dash first cannot be used alone.
* C101 The tasks of a Taskfile are listed: proved for files that use only the keys desc, cmd, cmds, deps, vars and env; refuted: any other key of a task (such as silent) is listed as a task itself, as is a list item with a colon (by an example), and a task named like one of those keys is missing.
* C102 Command statistics are exact and kept: proved for sessions one after the other; a killed shell loses fewer than ten executions; refuted: of two shells open together only the last to quit is remembered, a write cut short loses everything, and it can go unnoticed.
* C103 The timing command shows and clears the statistics: top lists and names proved; every recent failure is shown; refuted: clearing is undone by the shell it is run in, which writes its own copy back, and a command that failed at any time is shown as recently failed when it was run recently.
* C104 Importing fish's history gives its commands: proved for one-line commands without backslashes; refuted: a command with a backslash or a line break arrives in fish's escaped form, and a path that reads cmd: x is imported as the command x.
* C105 Notebooks keep what they hold and give back what was recorded: round trip proved for every file and every event list that describes it; recorded commands proved when none of their lines is a fence; refuted: a line of three backticks in what is entered ends its block.
* C106 Completion is about the word at the cursor: with the cursor given in bytes the current word is right for every line; the shell gives it in characters, so it is proved for lines that are ASCII before the cursor and refuted for every word without ASCII; refuted also: behind a pipe or a semicolon the word is completed as an argument of the first command of the line.
* C107 The subcommands that can follow are offered: proved when no options come first and what was typed is not itself a subcommand; refuted: behind an option the subcommands of the command itself are offered, a subcommand that is the start of another hides it, and an alias with arguments has no subcommands.
* C108 The options that can be given are offered: proved as an equivalence for a single dash and for long options, for commands that run no other command; refuted: when a dash and one character are typed, names such as -race are not offered.
* C109 Completing runs nothing that was typed: every text given to sh is a template of a definition with texts in the place of its placeholders, so nothing typed runs when templates have none; refuted: where a template has $ARG_0 (as in the shipped git and kubectl definitions) the word typed is put into the command unquoted, so $(reboot) runs on Tab.
* C113 An argument is completed by the definition of its position: proved for commands without subcommands when the earlier words look like subcommands; refuted: behind any other word (a path, a name with a dot) the second argument is completed as if it were the first.
* C111 The candidates shown are those of the line: False in general: results are kept under the text of the line alone and each use renews them, so presses less than three seconds apart show the first answer for ever (C111_stale_refuted), and the answer for a shorter line is searched for the last word of a longer one, also when that is another position (C111_other_word_refuted). Proved: every answer is the right one or comes from an answer renewed less than three seconds ago; after a pause of three seconds, and for the commands with changing candidates, it is the right one..
* C114 What was used before comes first: False once the points reach the limit: adding stops above 5000, so a less used candidate can overtake (C114_used_first_refuted, a history of 52 lines). Proved while the points of the first stay within 5000..
* C115 The file names offered are those of the directory: False in general: a listing is used for two seconds whatever changes, also for another current directory; within two seconds of listing a directory its subdirectory is not read and is offered as an entry of itself (src/mod/mod); nothing is offered in ../ after completing in the current directory; .. offers the current directory; only the first 500 entries count; names ending in a backslash are offered without it. Proved: with no listing kept, exactly the fitting entries among the first 500..
* C116 Dangerous commands are asked about wherever they stand: proved for every well-formed line and every dangerous command typed without quotes, backslashes or redirections which is the first of a pipeline not preceded by a background command, or itself a background command, with a blank behind it. Refuted for every command behind a bar, for every command behind a background command of the same segment, for quoted names and options, for redirections before a subcommand, without a blank before the bar or ampersand, behind nopty, and in substitutions..
* C117 And-or lists inside substitutions: every command of a substitution runs, once and in order, whatever operators stand between them: right for semicolons, refuted for && (echo $(false && touch x) runs touch whatever false returns).
* C118 A command substitution stands for the words of its output: proved for outputs that fit into a pipe; refuted for all others: the shell waits for the command before it reads the pipe, so the line never returns.
* C119 A list in parentheses runs its commands and nothing else: proved for lists that print nothing but newlines; refuted: the lines a list prints are run as a command, unasked, and its status is lost, so (false) && touch x runs touch.
* C120 The grey text continues what is typed: the first two parts are proved in full. The third is false: when the last command that begins with the line is the line itself, longer ones before it are not looked at; proved when the last one that matches is longer..
* C122 Only what the user wants asked leaves the machine: proved: everything sent was typed or entered, with the last eight commands at most; with the preference off nothing is sent. Refuted: with suggestions off, and for the commands on the list of those not to ask about, the second path of the prompt asks all the same..
* C123 A suggestion of the model is its recent answer: proved: it is an answer to a request that was sent, at most ten seconds old (eight for the commands listed for a directory, and then of this directory), and is shown. Refuted: the answer for a line in one directory is shown in another, and on an emptied line..
* C124 An answer is taken as the model wrote it: proved for first lines without a quote at either end, whatever lines follow; what is offered is always one line without blanks around. Refuted: a closing quote is dropped (git commit -m "fix" loses its last character), a line that begins with a blank gets no answer whatever it is, and of several commands in a fence without a language the first is thrown away..
* C125 A typed line does what it says: from the text of the line to the world after it, for the well-formed lines of C11 without parentheses, when the guard lets them pass and expansion leaves them as they are. Missing: the lines on which reading goes wrong (C11, C59, C60, C61, C116-C119 refute those)..
* C45 The command offered is the command that was checked: proved for ordinary words: the line reads back as exactly the checked command and is not asked about again; in Strict only allowlisted commands are offered. Refuted: arguments are joined without quoting, so for every command line c the argument '| c' passes the guard and runs c unasked, and an argument with a blank becomes two..
* C127 Enter runs the text on the line: a complete description of what Enter does, for every editing history: it waits, hands the command to sh, expands the abbreviation in front of the cursor, or runs the text as it is; nothing runs for an empty line. The full statement is false: an abbreviation is expanded wherever its name stands in front of the cursor, also as an argument..
* C128 Every command typed goes through the guard: false: every command with a query after |! is run by sh -c, past the guard at every level, and the mark is seen inside quotes as well. Proved: no other text is..
* C129 Asking for a command replaces only the query: proved for the last mark on the line, that a mark with nothing after it changes nothing, and that a pipeline with a query becomes the same pipeline with the offered command behind it; refuted: a mark inside quotes is taken as one, and the rest of the quoted text is lost.
* C130 JSON data survives being read as a table: proved for arrays of objects of any depth in which no inner array is empty and whole numbers fit 64 bits with sign; the other documents change, as described by the refutations. serde_json's own reading and writing are not modelled..
* C131 Ordering a table sorts it: proved for columns of whole numbers, of texts, or of comparable floats, in both directions. Refuted for columns with cells of several kinds: the comparison is not an order, and a larger number stays in front of a smaller one..
* C132 CSV data survives being read as a table: proved when the columns have different names and each field is no number or a number written as it is shown; refuted: 007 becomes 7, +7 becomes 7, of two columns with one name the first is lost. The csv crate's reading and quoting are not modelled..
* C133 Choosing rows and columns: proved; the comparisons look at whole numbers only, so that rows with a float are dropped by each of them, also by !=, and a map equals no map written the same (both refuted).
* C135 Each expression after |: gets the value before it: proved: order, values and status. Refuted: after an error the value before it is printed as the result; a pipe after an expression is put before it, a parenthesis inside a text ends the expression, and with |> the expressions are not evaluated..
* C137 The nearest commands are suggested for an unknown one: proved: exactly the three nearest of the builtins and of the visible files and links in PATH; the full statement is false, for a file that cannot be executed is suggested as well. The names of Lisp functions and aliases are never suggested..
* C138 An alias stands for what it was given: all of it holds at the level of the builtin's arguments, and end to end for a line whose whole argument is in quotes. Refuted, for every name and command: the form that alias prints, typed as a line, is read as three arguments and refused; and no sequence of commands removes an alias, although the error text names unalias..
* C139 Abbreviations expand, and can be erased: proved for the builtin and for the space bar. Refuted: names with a bar, ampersand, semicolon, parenthesis or other white space are accepted and expand on no line; the line abbr -e name cannot be typed, because Enter expands the name first, so that the abbreviation stays; the printed form is refused..
* C140 Registered hooks are called: proved: add-hook puts the function in front of its list and changes nothing else, and at each event but a command that is not found the functions of the list are called in order with the event's text (not empty, no double quote, last character ASCII) and number, up to the first failure; the expression for a command that is not found is read as meant, its evaluation is not followed. Refuted in general: a function registered by name, as the manual shows, is never called and keeps all those registered before it from being called; a failing function does the same; add-hook cannot register anything for project switches..
* C141 The project list holds what was added and not removed: all of it is proved; refuted is only that a project is marked as used when it was: pm work with a directory that is gone fails and still moves the project to the front..
* C142 DSH_PROJECT is the project of the current directory: proved: after each successful change of directory the variable is the name of the nearest project. Refuted in general: programs never see it (it is a shell variable that is not exported, the manual says environment variable); registering the current directory does not set it; an inherited value shows outside of projects..
* C143 pm activate applies the project's files and nothing else: proved: reading of the lines, exact effect on the environment, no effect of an .envrc that was not allowed, nearest root. Refuted in general: LD_PRELOAD in any .env is set without a question; a shell variable of the same name hides the value; $PATH in a value is not expanded, so that the usual line destroys the search path; a virtual environment that is already on the search path stays behind; with a colon in the directory's name the search path grows each time..
* C144 ga adds the files that were selected: proved for names of visible ASCII characters without quotes that are not renamed. Refuted, for every such name: a name with a blank is passed with git's quotes; a renamed file is passed as old -> new; a file named like an option is taken for it; Esc makes no difference..
* C145 gco checks out the selected branch: proved for local branches not named remotes/..., and for branches of remotes without a slash in their name. Refuted: branches checked out in another worktree keep git's plus sign; branches of one name in two remotes give one command; remotes with a slash, local branches named remotes/r/b, a detached HEAD..
* C146 gwt removes only the worktree that was chosen: proved: the meaning of every argument list that removes or adds; the list of worktrees of a repository that is not bare; the one selected and no other is removed, with --force exactly when asked. Refuted: a sole worktree is removed without a question, even if another name was given; in a bare repository the first worktree is never offered; two branches can want one directory..
* C147 glog checks out the selected commit, after a yes: proved for hashes of seven digits or more, which is git's default. Refuted: a shorter hash (core.abbrev) is passed over and a word of the message that looks like one is checked out..
* C148 Lisp arithmetic: proved while each partial result is an i64: sums of two or more, products, difference and quotient of two, joined texts. Refuted in general: division by zero ends the shell; so does an overflow, or it gives another number in a release build; - and / drop every argument after the second; (+ x) is an error; a text followed by a number has a 0 put before it..
* C149 Lisp comparison and sort: proved: == and != on data of numbers, texts, symbols and lists. Refuted for every pair of values: no comparison ever returns, since partial_cmp and cmp call each other (the stack overflows); sort does not return for any list of two or more elements. A native function is not equal to itself..
* C150 Lisp lists: proved; refuted is range with the end below the start: it collects all integers up to the greatest, then panics or goes on from the least, for every such pair. nil counts as a pair..
* C151 Every Lisp value can be printed: proved for every value whose texts are ASCII and for every value without functions. Refuted for every function whose printed body has a character outside of ASCII: the body is cut short, or the shell panics (always for a function that returns one such character), since the end of a byte slice is counted in characters..
* C152 Lisp hash maps: proved for keys that are numbers, texts, symbols and lists of them. Refuted: what is put under a native function is never found..
* C153 z goes to the best visited directory: proved when the best one still exists and the words are no alias. Refuted: if the best match is gone, z fails whatever else matches, and sets OLDPWD to the current directory so that the way back is lost; z -l and z -i go to an alias of that name instead of listing or asking..
* C154 Directory aliases: proved for names that are neither options nor subcommands. Refuted: a relative path is stored as given, so that the alias leads elsewhere from elsewhere; a name such as add or rm can be given but never used..
* C156 An answer in Markdown is drawn whole: of the events, in any order, balanced or not. The parser itself is an oracle, which is what is missing: that the events carry the answer's text. Newlines are drawn too but not counted. An image's address is in no event of text and is not drawn..
* C157 An answer leaves the terminal as it found it: the first half is proved for every answer without escape characters whose inline code is on one line (as the parser gives it). The second half is refuted: every text and link destination is written as it came, control sequences and all; an answer with a null byte is not drawn at all but printed raw..
* C158 Lists, quotes and code are laid out as they are: numbering, bullets and nesting are proved in full; the bars for a paragraph of one line quoted after other text. Refuted for every text: a quotation at the beginning of an answer has no bar on its first line; an answer that begins with a list begins with an empty line; a block of code that ends with a newline is drawn with one more, empty line..
* C159 Where a command's completion definition comes from: proved: for a command without built-in definition, the first valid file of the completion directories is used, and kept for the session if files are named after what they define. Refuted: the built-in definition always wins over the user's; ./completions of the current directory is searched and the script in such a file is run by Tab; so is one beside a program called by its absolute path; a file named after one command that holds another's definition replaces the other's..
* C160 Only well-formed completion definitions are used: proved as an equivalence with the listed conditions. Refuted: a lone dash counts as a short option, and nothing is asked of aliases or the arguments of subcommands..
* C161 The option at the cursor is explained: proved for lines of plain ASCII words in which the subcommands are given by their names and recognised as such: the cursor anywhere in the name of a long option, or on a letter of a word of short ones. Refuted: with the cursor behind a short option, where it is while one types, nothing is ever shown; letters of a short option's value are taken for options; a subcommand given by its alias is passed over; the cursor is counted in characters and used as bytes..
* C162 Each external tool has a name of its own: all is proved but the last sentence, which is refuted: a name has no greatest length, although the interface takes 64 characters. What servers answer is an oracle..
* C163 The registered servers are the configured ones: the reload is proved, including what remains when a changed server does not answer (the old one). Refuted: for any two labels that are written alike in names, a name comes to mean the other server's tool when it takes the first one's place; clearing and disconnecting change nothing that can be called; a server once connected is shown as connected whatever later attempts say..
* C164 A command line given to an external tool is checked as if it were typed: proved is exactly when a tool is called unasked. Refuted: every callable tool's name begins with mcp__, so that none is ever recognised as one that takes a command line and the command line is never looked at (the check of C46 applies to names no tool has); a reading word in the server's label makes all its tools without a changing word pass as read-only (mcp__tools__bash, by the ls in tools); a call allowed for good is allowed to another server that takes the name over..
* C165 In a chat no external tool is called without a yes: proved over all chats, with what the model is told of each call. Refuted: only the first 80 bytes of the arguments are shown, so that calls which differ later look alike; a server's list of tools once remembered is used for good as long as its configuration is the same, whatever it lists since..
* C166 The model is sent the whole conversation: proved but for the last clause, which is refuted: when a message with six or more calls is summarised away, the results are sent without any call. That a summary's answer says what it was asked to is the model's affair..
* C167 A chat ends: the bound on requests is proved. Refuted: if one message with at most five calls is longer than 96000 characters, summary after summary is asked for without end, since the last six messages are always kept..
* C168 The answer shown is the model's: proved if the message has no list of calls. Refuted for a message with an empty list of calls, which some services send: the answer is never shown; if all are so, a hundred requests are sent and the chat fails..
* C169 The surroundings told to the model: the contents are proved. Refuted: the aliases never have a line of their own, they are glued to the line of the files or of git..
* C170 The key and the conversation go to the configured service only: encryption is proved for all settings, the address for encrypted (or allowed) ones. Refuted: any other address, as http://localhost:8080, is replaced by that of OpenAI, so that the whole conversation and the key meant for the configured server are sent there; an address whose last part merely ends in the first part of the path is not completed..
* C171 The settings of the AI service: proved for settings that are not blank. Refuted: a variable set to nothing hides the next one (an empty AI_CHAT_API_KEY is used as the key); a blank model is said to be set but not used; of several words chat_prompt takes the first..
* C172 What is sent is what was given: proved, with the one model (gpt-5-mini) whose temperature is always 1. Refuted for an answer in parts: the chat shows it, every other feature reports an error. The connection, its timeout and its cancellation are not modelled..
* C174 exit ends the script: proved for the word exit alone on a line of a script. Refuted for everything else: after exit 3, exit; or true; exit the rest of the script is run; on a line, exit; next and exit || next start next..
* C175 The status tells what happened: proved for -c and -l (-c given beside -l is ignored). Refuted: the status of a script is always 0; dsh -c with exit and any number leaves with 1..
* C176 exit leaves the prompt: proved without jobs, and that no session is left with jobs unless there was a warning. Refuted with jobs: running exit counts as a command and so takes the warning back, and each further exit only warns again; the session ends only when no job is left (or exit is run with Alt+Enter)..
* C177 A recorded macro runs the commands chosen: proved for commands without quotes and backslashes that end in an ASCII character. Refuted: the reader knows no escapes, so that every backslash is run doubled; with a quote in a command what is read is never the macro; with a command that ends in a non-ASCII character the macro is not read at all..
* C178 Recording a macro keeps the configuration: proved for the same commands as C177. Refuted: with a command that ends in a non-ASCII character nothing of config.lisp can be read at the next start..
* C179 The palette kills the selected processes only: proved that what is killed was selected (and confirmed). Refuted: of several selected processes only the first is killed; without lsof, the lines are those of ss and what is killed after a yes is the word of the state..
* C180 The palette's git actions are about what was selected: proved, for a stash if its name holds no colon. Refuted: with log.date set the names hold colons and the command is never about the selected entry; a file with only staged changes is offered and then compared without --cached, which shows nothing..
* C181 Containers, hosts, files and directories of the palette: proved but for opening a shell in a container. Refuted: exec is given the container as its command, so that it runs in a container named bash or sh; hosts after a tab or an equals sign or beside a pattern are not offered; after a jump PWD is the old directory, cd - does not lead back and no directory environment is loaded..
* C182 The palette lists every action once and runs the chosen one: proved but for an action named Search History: one's own of that name is listed and never run..
* C183 A failing palette action leaves the shell running: proved without an error. Refuted: an error of the action (no repository, no such editor, a Lisp function that fails, a directory that is gone) ends the session and kills its jobs without the usual warning..
* C184 A generated completion runs nothing: proved but for the argument of an option: the type of an argument and the value type of an option are never a Script, so that Tab runs nothing. Refuted: an option's own argument is not looked at, and any command put there passes the check and is run by Tab behind the option. A structure written as a JSON array, which serde reads too, is not modelled..
* C185 What comp-gen saves is used: proved if serde reads it and the loader does not refuse it. Refuted: the check accepts a File without extensions as the instructions to the service write it, types that do not exist, options without a dash and names with blanks; all these files are then ignored..
* C186 What comp-gen does: proved. Refuted: that the file is in the directory of the completions: with .. in the name it is not..
* C187 Every candidate of the menu can be picked: proved for the first DSH_COMPLETION_MAX_ITEMS candidates. Refuted: candidates behind them cannot be reached; Home, End, PageUp and PageDown do nothing; q closes the menu; Ctrl and Alt with a letter type the letter..
* C188 What Tab does to the line: picking proved. Typing on proved at the end of the line; refuted in the value of an option (the option is written twice), with the cursor in an earlier word (that word becomes a copy of the last one) and in the menu of a declared command (the word is lost). Cancelling proved when no other source has anything; refuted otherwise: another candidate or the suggestion is put in, or a second menu opens. A panic only for a text that starts with the clock sign..
* C189 Declared completions are offered: proved for the first declaration that fits when the engine has no candidate. Refuted: the engine's candidates hide declarations; a declaration fits every command whose name starts with its name; commands with a dash in the name and indented lines get none; an earlier declaration that gives nothing hides later ones; a star in front of a candidate takes the next character along..
* C190 Options are read alike wherever they stand: acceptance and reading proved equivalent to a grammar of words. Refuted: operands that start with a dash cannot be given without --..
* C191 set assigns: proved for words without a leading dash and after --. Refuted: negative numbers cannot be assigned; a wrong number of words changes nothing and reports success; after set -x of a name that is also a shell variable, lines go on reading the old value while children get the new one..
* C192 serve serves what was asked, to this machine only: what is served proved exactly. Refuted: with the port taken the status is success and nothing is reported; a bad argument that holds Usage: counts as a request for help; --verbose and --open have no effect; operands after the first are ignored..
* C193 gpr runs the one gh command asked for: proved. Refuted: a number given as operand (gpr 12) is ignored and the list is shown instead..
* C194 dmv's words: proved. Refuted: patterns that start with a dash are refused without --..
* C195 The external editor: proved for text that does not end in a newline (eview: that ends in exactly one). Refuted: newlines at the end are lost or added; a VISUAL that is set but empty gives no editor at all though EDITOR is set; quoted blanks in VISUAL are split..
* C196 ai-commit commits only what was agreed to: proved. Refuted: at the end of the input the prompt repeats forever; the whole staged diff is sent as it is, secrets included; changes staged meanwhile are committed under a message that does not describe them..
* C197 What a builtin writes arrives where it should: proved for writes that succeed. Refuted: a write that fails closes the descriptor, so all later messages are lost; the next file opened gets its number and later messages are appended to that file..
* C198 gh-notify lists and opens the right notification: proved for lists in which no two read the same. Refuted: an entry without _updated_at (GitHub sends updated_at) makes the whole list fail; of two that read the same the later is opened; the token is sent to any address the entry names; Marked is printed even if marking fails..
* C199 procs lists the processes and signals the one selected: proved. Refuted: the selection is a line number, so a refresh between looking and typing makes the signal go to whatever process is on that line then; Ctrl-x sends SIGTERM too, modifiers are not looked at..
* C200 The directory in the prompt: proved for paths in which the home directory's text does not occur elsewhere. Refuted: /home/u2 is shown as ~2, /mnt/home/u/x as /mnt~/x, and with / as home every slash becomes a tilde..
* C201 The counts of the git prompt: proved. Refuted: a branch both ahead and behind shows no counts, so any two such states look alike..
* C202 Users, groups and interfaces offered: proved as an equivalence with the fields of the lines. Refuted: if the file cannot be read nothing is offered and no error shown; the compatibility line + is offered as a group; slot-named wired devices (ens...) are sorted as unknown ones after wireless..
* C203 mcp does what its words say: proved for labels without quotes that end in an ASCII character. Refuted: a label with quotes puts Lisp expressions of its own into the call, which are evaluated; a request that fails is reported as success; a description over 50 bytes whose byte 47 is inside a character stops the shell..
* C204 tm shows what was kept: proved up to a newline added to each. Refuted: what is written is never exactly what was kept..
* C205 reload reports what happened: status and evaluation proved. Refuted: a configuration that is there but cannot be read is always reported as not found (the permission branch is never reached); a failing expression whose error mentions a missing file is reported as a missing configuration..
* C206 The prompt shows the repository it is in: proved when the directory is changed only between background tasks and repositories are not nested. Refuted: in a repository inside another the outer one's branch is shown; a directory changed while git is asked, or while the repository is looked for, gets the counts of the other repository; with a commit checked out every second prompt shows no counts..
* C207 git status is counted rightly: proved for lines that are text. Refuted: paths added with intent or of changed type in the work tree are counted nowhere; a path that is not UTF-8 ends the reading and the later ones are not counted..
* C208 The branch is read from HEAD: proved for a branch and for a commit name. Refuted: a reference outside refs/heads is cut to seven characters; a HEAD whose seventh byte is inside a character stops the shell; with a reference table the branch shown is always .invalid..
* C209 Context from tools is current and asked for sparingly: the waits proved. Refuted: once a context is shown it is never asked for again; before the first answer every tick starts another question..
* C212 The version named in a file is read: proved. Refuted: a line that names the tool without a version hides the lines below it that name one..
* C213 The runtime shown is the one in force: the order of the places proved for node, python and go, and for rust unless rust-toolchain.toml names no channel. Refuted: such a file hides rust-toolchain, and the file then named may not exist; a mise.toml far above wins over an .nvmrc here; a Makefile in a directory of the project hides its runtime..
* C214 The files that set up the environment are listed: the list proved. Refuted: the file listed may be one below the project's root while pm activate applies the root's..
* C215 Every task of the project is listed: the list proved exactly. Refuted: a mise.toml, Taskfile, turbo.json or project.json that cannot be read makes task fail altogether; proved to be the only way..
* C216 make's targets are listed: which lines are taken proved exactly. Refuted: a target with prerequisites is never listed; files that make says are not targets are..
* C217 Comments in deno.jsonc are taken out: proved for texts with no other slash. Refuted: two slashes in a text value (an address) cut the rest of its line away..
* C218 A task's command runs that task: proved for names without blanks, as words. Refuted: the name is not quoted, so a key with a semicolon runs a second command..
* C219 The services of a compose file are offered: proved for files with each service's name alone on its line and services in the first column; in every file nothing is offered twice and everything offered is a key of the file. Refuted: a remark behind the first service's name hides all services and offers a part of it; a remark behind services, or services in braces, offers nothing; a deeper key named services is taken for it; quotes stay..
* C221 Offered tasks and services are up to date: proved when time stamp and size tell a file's contents and, for tasks, the justfiles, the lock files and what make and just say do not change. Refuted: a new justfile in a project of cargo is not noticed; a compose file rewritten in the same instant with the same size keeps its old services..
* C222 Values of slow programs are refreshed in the background: proved for every history. Refuted: values of any age are offered, and the first time nothing is..
* C224 Remotes, branches and namespaces are offered where they belong: proved for lines of plain words and for -n right behind the subcommand. Refuted: behind an address, remotes are offered again; with -u the remote is taken for the option's value; of subcommands the shipped definition lacks (git remote, git worktree) nothing is offered; nor with a word before -n..
* C225 A slow program does not hold completion: proved when no other process keeps the output open for longer. Refuted: one left in the background that does is waited for, without end..
* C226 What a completing program says is offered: proved exactly. Refuted: a line with nothing before the tab offers the description..
* C227 The model does not read ignored files: proved when every line of the current folder's .gitignore is well formed. Refuted: one malformed line makes every ignored file readable; other ignore files, as the repository's when the shell is in a folder below, do not count..
* C228 The model is shown a folder's entries: proved exactly. Refuted: a folder whose entries are all ignored is called empty..
* C229 Searching for text shows the files that have it: the hits proved. Refuted: with exactly fifty hits the answer says some were left out; in the folder of skills nothing is ever found; a search that starts in an ignored folder, or anywhere outside a git repository, shows lines of files that cannot be read..
* C230 Searching for a name shows the files of that name: what a pattern fits is proved, and exact names are found exactly. Refuted: a star runs over slashes, so every file below a folder whose name begins with x, even one above the current folder, is a hit for x*; the empty name finds every file..
* C231 history lists what was asked for: proved for every list of documented options and words. Refuted: a second word is dropped; an unknown option is searched for; an unknown scope, status or duration means no filter; without options 200 entries at most are listed..
* C232 out shows what was captured: out and out N proved; the list proved for first lines of at most 60 bytes. Refuted: only ten are listed; a longer first line whose 57th byte is inside a character stops the shell; --clear clears nothing..
* C233 read assigns what it reads: proved that $NAME is the whole input without its last newlines, that no other variable changes, and that input that is no text is refused. Refuted: all lines are taken, not one; the descriptor, the shell's own input when there is no pipe, is closed; without a name the shell is stopped; the variable cannot be exported..
* C234 The notification counts are right: proved for every answer and history: the counts are those of the last check that succeeded. Refuted: that checks fail is not shown while the last counts are not zero, so old counts look current..
* C235 Only finished review requests are changed: what is marked is proved exactly. Refuted: notifications the user has filtered out are marked as read too; the token is sent to whatever address the answer names..
* C236 The service is asked when the settings say so: proved for the settings as they were at the start. Refuted: settings made later have no effect, a token taken away is used on..
* C237 The commands offered are those of PATH: proved with what counts as executable. Refuted: every link counts, wherever it leads; a file named by its path is offered without being executable..
* C239 What is offered for a word: proved exactly, for words without a slash and for directories. Refuted: a command is not offered where a directory or link has its name; a link to a file is offered as a directory..
* C240 Tab's fallback shows what there is now: proved when nothing is kept, and that an empty list is not kept. Refuted: within three seconds the same word shows the old list in any directory; each press renews it; after a shorter word, matches that do not begin with the word are lost..
* C242 The processes offered: proved exactly for the list at the last scan, and that in every history this scan is less than a second old. Refuted: within that second processes that are gone are offered and new ones are not..
* C243 The system's commands offered: proved: what a scan finds and when it begins, that answers are the known names that match, or what is on disk before any are known, that in every history everything offered was there once and answers are kept for two seconds at most. Refuted: however old the known names are the next answer is taken from them; within two seconds the answer stays the same; a directory put on PATH in the shell is not looked at; a scan begun before PATH was set stores its names after..
* C244 The command name suggested: proved exactly once the names are known, with the binary search, and exactly before that. Refuted: before the scan links are left out and the first directory decides, so the suggestion changes though nothing on disk does..
* C245 The names kept between sessions are right: proved exactly when they are used: same PATH and same times and lengths of its directories. Refuted: changes that leave these as they are are not seen, and the file is dated after the scan, so changes during it are not seen either. What the JSON says is modelled, not its text..
* C246 The name suggested follows PATH: proved when the scan ended before PATH was set. Refuted: a scan that ends later brings back the names of the old PATH for good; what is installed after the scan is not suggested in this session..
* C247 What the diagnosis of a command sends: proved what is sent and that each request continues the one before. Refuted: of a command that ran on a terminal nothing it wrote is sent; for a command that wrote nothing the errors of an earlier one are sent; a text whose limit falls inside a character stops the shell..
* C248 The command taken from an answer: proved exactly, for what counts as a fence. Refuted: the end of an earlier block in another language counts as the beginning, and prose becomes the command..
* C249 The dialog of the diagnosis: proved for every list of keys. Refuted: the dialog leaves the terminal without raw mode..
* C250 The prompt comes back in raw mode: proved exactly when it does not: a command substitution or a job with |> or |: could not be started, or a job with |: has no command, and it is the last reached. These refute the claim..
* C252 The mode of the terminal over a session: proved that the last action that sets the mode decides it, and that an error ends the session in the right mode. Refuted: a diagnosis leaves the prompt without raw mode; a script whose line has a command substitution and is refused or has an error leaves the terminal raw..
* C253 Opening the history of an earlier version: proved except that it always succeeds: it opens exactly when the indexes can be made. Refuted: a history of a version without the unique index that holds a command twice never opens again..
* C255 Typing while a command runs: proved: order, none twice, and every key once the prompt is back; all but those in the task's hands are kept. Refuted: keys typed after the command has ended and before the shell noticed reach nobody..
* C256 The prompt comes back: proved: it can come back, by steps of the shell alone, once the command is gone and no process holds its terminal, and only then. Refuted: a stopped command keeps it away for as long as it is stopped, and so does a process left behind that holds the terminal..
* C257 The question before a dangerous command: proved: the first key that means something is the answer, the rest is left, and only y or a lets the command run. Refuted: Ctrl+A answers always and Ctrl+Y yes, Ctrl+C does nothing however often, and keys typed before the question answer it..
* C259 Keys pressed twice: proved. Refuted: the two presses of Esc need not be in a row: other keys may come between..
* C260 Secrets in the report of doctor: proved: keys that agree in the last four characters give the same report. Refuted: a key of at most four characters is shown whole, and the address is shown with the password it may hold..
* C261 Settings shown by doctor: proved for models that are not blank and for encrypted addresses without blanks or slashes at the end. Refuted: a blank model and an address that is not encrypted are shown but not used..
* C263 Changed files in doctor: proved for names without blanks around them, line ends, quotation marks and arrows. Refuted: a file with an arrow in its name is reported under the end of its name. Names that git prints with escapes are reported with the escapes..
* C264 Checks suggested by doctor: proved for the paths that git shows. Refuted for files: a new folder of Rust files, shown by its name alone, does not ask for the formatter..
* C266 Servers of tools in the configuration: proved. Refuted in the form that all that is written is used or refused: arguments and elements too many, and earlier entries for the same key, are dropped without an error..
* C267 Show Environment: proved: all variables are there, no line twice, sorted. Refuted: a variable whose value in the process differs has two lines, and a variable of the process that is not UTF-8 ends the shell..
* C268 Bytes of the screen: proved without failures; with failures nothing is lost and the order stays. Refuted: bytes taken before a failure are sent again..
* C269 Versions of tools in the prompt: proved when no question is under way at a change of directory. Refuted otherwise: an answer that comes late is shown in the new directory, project or not, and stays; the wait after failures goes on in other directories..
* C270 Answers of tools: proved for names without a bar. Refuted: a context with a bar in its name is cut and its rest shown as the namespace; empty names are shown and hide the default profile..
* C271 Time limit of completion commands: proved when no other process holds the output. Refuted otherwise: a process left behind keeps the shell waiting without any limit, also after the command itself has ended..
* C272 Skills offered to the assistant: proved for names without line ends. Refuted: the name of a folder with a line end puts lines of its own into the instructions of the assistant..
* C273 Skills are up to date: proved when files are written, added and removed, each write at a later millisecond. Refuted: after a rename, or after SKILL.md is deleted from a folder that is not the newest, the old list is offered on..
* C274 History while the shell starts: the whole history is proved when no command is run meanwhile and the thousandth command is newer than the next; commands run after the first part is read are kept and saved in every order of steps. Refuted: commands of the same second as the thousandth are left out; a command run before the first part is read is lost; one run again between reading and joining the second part is there twice. Reloading by the arrow keys is not modelled..

## Testing against wrong programs

`seeded/LOG.jsonl` has one line per deliberate edit of a model: the definition,
the edit, the claim it breaks, the first theorem or lemma that no longer
proves, and the theorem that was added or tightened when an edit had survived.

## Trusted base

* Coq 8.16.1's kernel (and its `vm_compute` reduction, used for witnesses).
* The reading of the Rust sources embodied in the `*_Model.v` files, with the
  simplifications named in their comments.
* The specifications in the `*_Spec.v` files and the theorem statements.
* Axioms: none. `Print Assumptions` reports "Closed under the global context"
  for every theorem named in MANIFEST.json (each `*_Props.v` file prints it).
  The build environment loads `Coq.ssr.ssrunder` of the standard library, which
  declares seven constants (`Under_rel`, `Over_rel` and their lemmas) as module
  parameters; no theorem here depends on them.
