{"id": "C01", "title": "Line editor is a character list with a cursor", "statement": "After any sequence of editing calls (insert, insert_str, backspace, backspacen, delete_char, delete_to_end, delete_to_beginning, replace_range_chars, delete_word_backward, replace_current_word, cursor movements, reset, clear) the visible text, the cursor and the returned values are those of a plain list of characters with a cursor on which the same operations are performed.", "quantifier": "every initial text, every sequence of editing operations with every argument, every mix of 1..4-byte characters", "why_tests_cant": "the number of edit histories and Unicode mixes is unbounded; a wrong byte offset shows only after particular sequences", "anchors": ["dsh/src/input/editor.rs: Input::{insert,insert_str,backspace,delete_char,delete_to_end,delete_to_beginning,replace_range_chars,delete_word_backward,move_by,reset,clear}"]}
{"id": "C02", "title": "Line editor never splits a character or indexes out of range", "statement": "No sequence of editing calls can make the editor panic: the cursor always lies between 0 and the number of characters, every byte offset used to slice the text is a character boundary, and the cached display width equals the sum of the widths of the characters present.", "quantifier": "every sequence of editing operations over every Unicode text", "why_tests_cant": "panics depend on a byte table maintained incrementally across arbitrarily long histories", "anchors": ["dsh/src/input/editor.rs: Input::{byte_index,shift_indices_from,char_len_at,update_indices,recalculate_display_width}"]}
{"id": "C03", "title": "Word motions and word deletion agree", "statement": "move_word_left lands on the start of the word left of the cursor (skipping white space first), move_word_right on the start of the next word; delete_word_backward removes exactly the characters between the position move_word_left would reach and the cursor, and touches nothing else.", "quantifier": "every text and every cursor position", "why_tests_cant": "must hold at every boundary of every text", "anchors": ["dsh/src/input/editor.rs: Input::{move_word_left,move_word_right,delete_word_backward}"]}
{"id": "C04", "title": "Abbreviation replacement touches only the word before the cursor", "statement": "replace_current_word replaces the maximal run of non-separator characters that ends at the cursor by the expansion, leaves the cursor right after the expansion, keeps every other character, and does nothing (returning false) when there is no such word.", "quantifier": "every text, cursor and expansion", "why_tests_cant": "unbounded texts and expansions", "anchors": ["dsh/src/input/editor.rs: Input::{get_current_word_for_abbr,replace_current_word}"]}
{"id": "C05", "title": "Command lists short-circuit like POSIX AND-OR lists", "statement": "For a line of commands joined by ';', '&&' and '||', exactly the commands selected by left-to-right short-circuit evaluation are launched, in order and once each; a background launch counts as success; a stopped command ends the line; the reported status is that of the last command that completed.", "quantifier": "every list of commands, every combination of connectors and every outcome of every command", "why_tests_cant": "exponentially many connector/outcome combinations over unbounded lists", "anchors": ["dsh/src/shell/eval.rs: Shell::eval_str", "dsh/src/shell/parse.rs: parse_jobs"]}
{"id": "C06", "title": "A declined or denied line launches nothing", "statement": "If the safety guard denies a line, or it asks and the user cancels, no command of that line is launched; if the user allows once or always, or the guard allows, the list is run; 'always' makes the same line pass without asking later.", "quantifier": "every guard verdict, every user answer, every job list", "why_tests_cant": "the ordering must hold for every line and answer, not sampled ones", "anchors": ["dsh/src/shell/eval.rs: Shell::eval_str", "dsh/src/safety/mod.rs: SafetyGuard::check_jobs"]}
{"id": "C07", "title": "Safety levels and allowlist decide as documented", "statement": "Strict asks for every command that is not allowlisted; Loose never asks; Normal asks exactly for the listed dangerous command/argument combinations; an allowlisted command is never asked about by the command check.", "quantifier": "every command name, argument list, level and allowlist", "why_tests_cant": "the argument space is unbounded and the decision is a disjunction over it", "anchors": ["dsh/src/safety/mod.rs: SafetyGuard::{check_command,check_jobs,check_rm,check_git,check_recursive,check_cp}"]}
{"id": "C08", "title": "MCP tool calls are gated", "statement": "A tool call coming from an MCP server runs without a question only if it is allowlisted for exactly that server, tool and arguments, or it is classified read-only, or the command it carries passes the command check.", "quantifier": "every server, tool name, argument object and allowlist", "why_tests_cant": "unbounded names and arguments", "anchors": ["dsh/src/safety/mod.rs: SafetyGuard::{check_mcp_tool,is_read_only_mcp_tool,is_allowlisted_mcp_call}"]}
{"id": "C09", "title": "Prompt sanitising bounds and cleans model input", "statement": "The text handed to a language model has control characters removed and its length is bounded by the limit plus the truncation marker; no text makes the sanitiser fail.", "quantifier": "every text and every limit", "why_tests_cant": "failures occur only at character boundaries of particular texts", "anchors": ["dsh/src/safety/mod.rs: SafetyGuard::sanitize_ai_input"]}
{"id": "C10", "title": "Parsing a line is total, deterministic and position-faithful", "statement": "Every line parses; the tree's spans are nested, ordered and inside the consumed prefix, and the text of every node is exactly the slice of the line its span denotes.", "quantifier": "every input line", "why_tests_cant": "PEG backtracking over unbounded inputs", "anchors": ["dsh/src/shell.pest: commands", "dsh/src/parser/ast.rs: get_words, get_string"]}
{"id": "C11", "title": "No typed command is silently dropped", "statement": "Every non-blank character of an accepted line belongs to some command that is executed, or the line is reported as an error.", "quantifier": "every input line", "why_tests_cant": "the loss happens on unanticipated inputs", "anchors": ["dsh/src/shell.pest: commands", "dsh/src/shell/parse.rs: parse_jobs"]}
{"id": "C12", "title": "Completed file names reach the program unchanged", "statement": "When completion inserts a file name, the text it inserts is read back by the shell as exactly one argument equal to that file name, in each quoting style.", "quantifier": "every file name, every quoting style", "why_tests_cant": "unbounded file names with special characters; two independently written modules must agree", "anchors": ["dsh/src/completion/shell_path.rs: ShellPathToken::{from_raw,encode}", "dsh/src/parser/ast.rs: get_string", "dsh/src/shell.pest: word, s_quoted, d_quoted"]}
{"id": "C13", "title": "Decoding a completed path token recovers the path", "statement": "Decoding the token text produced by encode gives back the path and the style, for every style.", "quantifier": "every path and style", "why_tests_cant": "unbounded paths", "anchors": ["dsh/src/completion/shell_path.rs: decode_backslashes, escape_unquoted, escape_single_quoted, escape_double_quoted"]}
{"id": "C14", "title": "Completion tokens tile the line", "statement": "Tokens reported for a line are non-overlapping, in order, each token's raw text is exactly the slice of the line its byte and char spans denote, the gaps between tokens contain only unquoted separators, and the token reported for a cursor contains that cursor.", "quantifier": "every line, every cursor, both separator modes", "why_tests_cant": "unbounded lines with nested quoting and multi-byte characters", "anchors": ["dsh/src/completion/shell_token.rs: tokenize, token_at_char_cursor"]}
{"id": "C15", "title": "Brace expansion is the ordered cross product", "statement": "Expanding a word yields, in order, one word for each choice of one alternative from each brace group; it always terminates; words without a complete group are unchanged.", "quantifier": "every word", "why_tests_cant": "nesting and number of groups are unbounded", "anchors": ["dsh/src/parser/expansion.rs: expand_braces"]}
{"id": "C16", "title": "Alias expansion is finite", "statement": "Expanding aliases on a line terminates for every alias table, including self-referential and mutually recursive ones, and a command whose name is not an alias is left alone.", "quantifier": "every alias table and line", "why_tests_cant": "cyclic tables", "anchors": ["dsh/src/parser/expansion.rs: expand_alias_tilde, expand_command_alias"]}
{"id": "C17", "title": "A pipeline is finished exactly when its stages are", "statement": "A job is reported completed only when every stage has completed (or the documented early-consumer rule applies), reported stopped only when a stage is stopped and none is running, and once completed it never becomes running again.", "quantifier": "every pipeline length and every order of wait events", "why_tests_cant": "event interleavings are unbounded", "anchors": ["dsh/src/process/job_process.rs: is_completed, is_stopped, is_pipeline_consumer_terminated", "dsh/src/process/wait.rs: is_job_completed", "dsh/src/process/job.rs: update_status"]}
{"id": "C18", "title": "Exit statuses are reported faithfully", "statement": "The status seen by '&&', '||' and $? is zero exactly when the command succeeded, for external commands, signalled commands and builtins alike.", "quantifier": "every exit code, signal and builtin result", "why_tests_cant": "finite classes but the mapping crosses modules; a test fixes one path", "anchors": ["dsh/src/process/wait.rs", "dsh/src/process/builtin.rs: BuiltinProcess::launch"]}
{"id": "C19", "title": "Jobs are never lost", "statement": "A job started in the background or stopped stays in the job table until it completes; fg, bg and polling keep every other job; job numbers are unique.", "quantifier": "every sequence of launches, stops, fg, bg, polls", "why_tests_cant": "histories of job-control operations are unbounded", "anchors": ["dsh/src/shell/job.rs: check_job_state, get_next_job_id", "dsh/src/proxy/builtin/jobs.rs: execute_fg, execute_bg"]}
{"id": "C20", "title": "Job designators resolve to the right job", "statement": "%n and n denote the job numbered n, %+ / + / no argument the most recent job, %- / - the previous one, and anything else is rejected.", "quantifier": "every argument string and every job table", "why_tests_cant": "unbounded strings and tables", "anchors": ["dsh/src/proxy/builtin/jobs.rs: parse_job_spec"]}
{"id": "C21", "title": "Captured output history is bounded and accounted", "statement": "After any sequence of captures the history holds at most the configured number of entries, its size counter equals the sum of its entries' sizes, the total never exceeds the budget unless a single entry does, and every entry is one of the most recent captures in order.", "quantifier": "every sequence of pushes and clears with every size and limit", "why_tests_cant": "long histories", "anchors": ["dsh-types/src/output_history.rs: OutputHistory::{push,clear,get}"]}
{"id": "C22", "title": "$OUT[n] and $ERR[n] denote the n-th most recent capture", "statement": "Reading $OUT[n] returns the standard output of the n-th most recent retained capture and nothing for n = 0 or beyond; other names are not intercepted.", "quantifier": "every variable name and history", "why_tests_cant": "unbounded", "anchors": ["dsh-types/src/output_history.rs: parse_output_var, get_stdout", "dsh/src/environment/variables.rs: get_var"]}
{"id": "C23", "title": "Command history keeps one entry per command, most recent last", "statement": "After any sequence of recorded commands the history holds each distinct command once, ordered by last use, with a count equal to the number of times it was recorded, also while history is being loaded or reloaded.", "quantifier": "every sequence of recordings", "why_tests_cant": "histories are unbounded", "anchors": ["dsh/src/history/command_history.rs: History::{add,write_batch}"]}
{"id": "C24", "title": "History navigation visits matching entries in order and stops at the ends", "statement": "back() walks from the newest to the oldest entry matching the search word, forward() walks back; neither skips a match, repeats, or fails.", "quantifier": "every history, search word and sequence of back/forward", "why_tests_cant": "unbounded walks", "anchors": ["dsh/src/history/command_history.rs: History::{back,forward,reset_index}"]}
{"id": "C25", "title": "History suggestion returns the most recent match", "statement": "search_first returns the most recently used command with the given prefix, or nothing if none exists, whatever the state of its cache.", "quantifier": "every history and prefix", "why_tests_cant": "cache and full list must agree for every history", "anchors": ["dsh/src/history/command_history.rs: History::search_first"]}
{"id": "C26", "title": "The in-memory history and the database agree", "statement": "After any sequence of batch writes, the stored rows and the in-memory entries agree on command, count, time and context.", "quantifier": "every sequence of writes", "why_tests_cant": "unbounded", "anchors": ["dsh/src/history/command_history.rs: write_batch, write_batch_sync, update_metadata_sync"]}
{"id": "C27", "title": "Frecency store lookups are exact", "statement": "After any sequence of add/adjust/delete/prune/truncate, the store holds at most one item per path, a path is found iff it was added and not removed, and prefix search returns exactly the items whose name has the prefix.", "quantifier": "every operation sequence and prefix", "why_tests_cant": "depends on a sorted-array invariant across histories", "anchors": ["dsh-frecency/src/store.rs: FrecencyStore::{add,adjust,delete,prune,truncate,search_prefix_range}"]}
{"id": "C28", "title": "Terminal newline normalisation does not depend on chunking", "statement": "Command output shown on the terminal gets a carriage return before each line feed that has none, and is otherwise unchanged, whatever the way the bytes were split into reads; the captured copy is unchanged.", "quantifier": "every byte stream and every way to cut it", "why_tests_cant": "2^n cuts", "anchors": ["dsh/src/process/io.rs: normalize_tty_newlines"]}
{"id": "C29", "title": "AI file tools stay inside their roots", "statement": "A file tool called by the language model only touches files inside the allowed roots, whatever path string, '..' component or symbolic link is used.", "quantifier": "every path string, every file system tree with symbolic links", "why_tests_cant": "adversarial path/symlink combinations are unbounded", "anchors": ["dsh-builtin/src/chatgpt/tool/mod.rs: resolve_tool_path, resolve_with_existing_ancestor, normalize_path", "dsh-builtin/src/chatgpt/tool/edit.rs: run", "dsh-builtin/src/chatgpt/tool/read.rs: run"]}
{"id": "C30", "title": "AI command tool runs only allowlisted programs", "statement": "The execute tool starts a process only if the command has no shell metacharacters and its program is allowlisted, or it is a skill script the user confirmed.", "quantifier": "every command string, allowlist and answer", "why_tests_cant": "adversarial strings", "anchors": ["dsh-builtin/src/chatgpt/tool/execute.rs: run, contains_shell_expression, command_is_allowlisted, invokes_string_eval"]}
{"id": "C31", "title": "The file server serves only files below its root", "statement": "Every file whose content is sent lies below the served directory after resolving symbolic links.", "quantifier": "every request path and file system tree", "why_tests_cant": "adversarial requests", "anchors": ["dsh-builtin/src/serve/handlers.rs: serve_file_handler, is_safe_path, resolve_file_path"]}
{"id": "C32", "title": "Names in generated HTML are inert", "statement": "Escaped text contains no markup character, and unescaping gives back the original name.", "quantifier": "every file name", "why_tests_cant": "unbounded names", "anchors": ["dsh-builtin/src/serve/scanner.rs: html_escape"]}
{"id": "C33", "title": "Secrets are kept out of history as configured", "statement": "In skip mode a command classified sensitive is not recorded at all; in redact mode the values of sensitive assignments and options do not appear in the recorded text; non-sensitive commands are recorded verbatim.", "quantifier": "every command line and mode", "why_tests_cant": "unbounded command lines", "anchors": ["dsh/src/secrets.rs: process_for_history, redact_command, is_sensitive_command"]}
{"id": "C34", "title": "Child processes see exported variables over inherited ones", "statement": "The environment given to a child is the inherited environment overridden by exported shell variables, with TERM defaulted only when absent or empty; non-exported variables do not leak.", "quantifier": "every environment", "why_tests_cant": "unbounded maps", "anchors": ["dsh/src/environment/variables.rs: child_process_env"]}
{"id": "C35", "title": "Command lookup follows PATH order", "statement": "A name without a slash resolves to the first PATH directory holding an executable file of that name, and repeated lookups give the same answer while PATH and the file system do not change.", "quantifier": "every PATH, file system and lookup sequence", "why_tests_cant": "cache histories", "anchors": ["dsh/src/environment/paths.rs: lookup, reload_path"]}
{"id": "C36", "title": "Pipeline plumbing connects each stage to the next", "statement": "In a pipeline, stage i's output is the write end of the pipe whose read end is stage i+1's input, the first reads the job's input, the last writes the job's output, and no stage keeps a stray pipe end open that would prevent end-of-file.", "quantifier": "every pipeline length", "why_tests_cant": "unbounded lengths", "anchors": ["dsh/src/process/job.rs: launch_process", "dsh/src/process/process.rs: launch_prepared"]}
{"id": "C37", "title": "Lisp scoping", "statement": "define binds in the current frame only, set updates the nearest enclosing binding and fails if there is none, lookup sees the nearest binding, and inner frames never change outer ones except through set.", "quantifier": "every chain of frames and every operation sequence", "why_tests_cant": "unbounded nesting", "anchors": ["dsh/src/lisp/model/env.rs: Env::{get,define,set,undefine}"]}
{"id": "C38", "title": "Lisp reader reads back what it prints", "statement": "Printing a value made of integers, symbols, booleans and lists and reading it again gives the same value.", "quantifier": "every value of that class", "why_tests_cant": "unbounded nesting", "anchors": ["dsh/src/lisp/parser.rs: parse", "dsh/src/lisp/model/value.rs: Display"]}
{"id": "C39", "title": "Tail calls do not change results", "statement": "Evaluating a program with tail-call elimination gives the same result as direct evaluation.", "quantifier": "every program", "why_tests_cant": "unbounded programs", "anchors": ["dsh/src/lisp/interpreter.rs: eval_inner, call_function_or_macro"]}
{"id": "C40", "title": "Bulk rename loses no file", "statement": "dmv without force never overwrites an existing file and never maps two files to one name; after a successful run every matched file exists under its new name with its contents.", "quantifier": "every directory content and rename list", "why_tests_cant": "permutation/chain conflicts are unbounded", "anchors": ["dsh-builtin/src/dmv.rs: execute_dmv, check_rename_conflicts"]}
{"id": "C41", "title": "Incomplete-input detection", "statement": "A line is considered incomplete exactly when a quote or bracket is still open or it ends in a continuation.", "quantifier": "every line", "why_tests_cant": "unbounded nesting", "anchors": ["dsh/src/parser/check.rs: is_incomplete_input"]}
{"id": "C42", "title": "The cursor is drawn on a rendered line", "statement": "The visual line computed for the cursor is always smaller than the number of lines computed for the whole input, and its column fits the terminal whenever prompt and characters do.", "quantifier": "every text, cursor, terminal width and prompt width", "why_tests_cant": "wrapping arithmetic over unbounded texts", "anchors": ["dsh/src/input/editor.rs: Input::{cursor_pos,line_count}"]}
{"id": "C43", "title": "Mouse clicks select the nearest character boundary", "statement": "After a click at a column the cursor is at a boundary whose display column is at minimal distance from the click; text is unchanged.", "quantifier": "every text and click column", "why_tests_cant": "unbounded texts with characters of different widths", "anchors": ["dsh/src/input/editor.rs: Input::set_cursor_from_display_width"]}
{"id": "C44", "title": "Recursive removal is asked about", "statement": "In Normal mode every rm command whose options make it recursive (any option cluster with r or R, or --recursive) triggers the safety question.", "quantifier": "every rm command line", "why_tests_cant": "option clusters are unbounded", "anchors": ["dsh/src/safety/mod.rs: SafetyGuard::check_rm"]}
{"id": "C46", "title": "A dangerous command inside an MCP command line is asked about", "statement": "A command line carried by an MCP command tool that contains a dangerous command anywhere is not run without a question.", "quantifier": "every command line carried by a tool call", "why_tests_cant": "unbounded texts", "anchors": ["dsh/src/safety/mod.rs: SafetyGuard::check_mcp_tool"]}
{"id": "C47", "title": "Loader variables cannot be set silently from Lisp", "statement": "Setting LD_PRELOAD and the other loader/interpreter path variables from Lisp is refused unless the level is Loose; all other variables can be set.", "quantifier": "every variable name, value and level", "why_tests_cant": "names and values are unbounded", "anchors": ["dsh/src/safety/mod.rs: check_environment_modification", "dsh/src/lisp/builtin.rs: set_variable, set_env"]}
{"id": "C48", "title": "An MCP allowlist entry licenses one call only", "statement": "Allowing a tool call always licenses only the same tool with the same normalised arguments.", "quantifier": "every pair of tool calls", "why_tests_cant": "names and arguments are unbounded", "anchors": ["dsh/src/safety/mod.rs: mcp_allowlist_entry, is_allowlisted_mcp_call"]}
{"id": "C49", "title": "Waiting for a job does not kill it", "statement": "While waiting for a foreground job the shell sends signals only to that job's process group, and only because the user pressed Ctrl-C, a stage of that job failed, or its consumer has finished; the failure of an unrelated process or of an early stage does not kill the stages still working.", "quantifier": "every job, every schedule of wait events", "why_tests_cant": "event interleavings are unbounded", "anchors": ["dsh/src/process/job_wait.rs: wait_process_no_hang_sync"]}
{"id": "C50", "title": "The state shown for a job is its real state", "statement": "After the shell polls its jobs the recorded state of a job (running, stopped, completed with its code) is the one the kernel has for its process, also after bg or an outside SIGCONT.", "quantifier": "every job and kernel state", "why_tests_cant": "the reachable combinations of kernel reports and recorded states are unbounded histories", "anchors": ["dsh/src/process/process.rs: Process::update_state", "dsh/src/process/wait.rs: wait_pid_job", "dsh/src/shell/job.rs: check_job_state"]}
{"id": "C51", "title": "Leaving the shell kills its jobs and nothing else", "statement": "When the shell exits every external stage of every job in its table gets SIGKILL, and no process that is not one of its live jobs does.", "quantifier": "every job table", "why_tests_cant": "unbounded tables", "anchors": ["dsh/src/shell/job.rs: kill_wait_jobs"]}
{"id": "C52", "title": "Monitored background output arrives whole", "statement": "Everything a monitored background command writes is shown and captured, whatever the timing of its writes.", "quantifier": "every text and every placement of pauses", "why_tests_cant": "schedules are unbounded", "anchors": ["dsh/src/process/io.rs: OutputMonitor::{output,output_all}, append_output_chunk"]}
{"id": "C53", "title": "The arrow keys search for what is typed and Down undoes Up", "statement": "Up at a prompt with text shows the newest earlier command starting with that text; each Down undoes one Up and finally restores the typed text.", "quantifier": "every history, text and walk", "why_tests_cant": "walks and histories are unbounded", "anchors": ["dsh/src/repl/key_handlers/navigation.rs: handle_history_previous, handle_history_next", "dsh/src/history/command_history.rs: back, forward"]}
{"id": "C54", "title": "History search returns exactly the matching entries", "statement": "A history query returns exactly the entries passing all its filters (text ignoring case, status, duration, scope), newest first, cut at the limit, whatever happened before in the session.", "quantifier": "every session and query", "why_tests_cant": "a parallel lowercase copy must stay aligned through every history of writes, loads and reloads", "anchors": ["dsh/src/history/command_history.rs: search_entries, normalized_entries"]}
{"id": "C55", "title": "The directory history survives a restart", "statement": "The directories known after a restart are exactly those that were known when the history was last saved: none is lost, none that was deleted or pruned comes back, and none is listed twice.", "quantifier": "every set of directories, visit times and removals", "why_tests_cant": "depends on the order and the types of the stored rows", "anchors": ["dsh/src/history/frecency_history.rs: from_file, save, reload"]}
{"id": "C56", "title": "Directory scores survive a restart", "statement": "The score of a directory after a restart is the saved score decayed by the elapsed time, so that proposals still prefer often and recently visited directories, and later visits can be saved.", "quantifier": "every stored score", "why_tests_cant": "floating-point overflow depends on the date", "anchors": ["dsh-frecency/src/stats.rs: get_frecency, set_frecency, update_frecency", "dsh/src/history/frecency_history.rs: from_file"]}
{"id": "C57", "title": "Links of a served listing lead to the entries", "statement": "Following the link a listing shows for an entry requests exactly that entry of that directory.", "quantifier": "every directory, request path and entry name", "why_tests_cant": "names are arbitrary text", "anchors": ["dsh-builtin/src/serve/handlers.rs: serve_directory", "dsh-builtin/src/serve/scanner.rs: build_entry_url"]}
{"id": "C58", "title": "The edit tool changes the confirmed file and nothing else", "statement": "When the user declines an edit proposed by the model nothing changes; when they accept, exactly the named file changes, and it is created if it did not exist.", "quantifier": "every tree, path, content and answer", "why_tests_cant": "paths and trees are unbounded", "anchors": ["dsh-builtin/src/chatgpt/tool/edit.rs: run", "dsh-builtin/src/chatgpt/tool/mod.rs: resolve_with_existing_ancestor"]}
{"id": "C59", "title": "Quoted and escaped arguments arrive as typed", "statement": "Every argument of a command, written bare with escapes, in single quotes or in double quotes, arrives at the program as exactly one argument with exactly the characters it stands for; adjacent quoted and unquoted parts form one argument.", "quantifier": "every command name, number of arguments, text and spacing", "why_tests_cant": "arguments and their texts are unbounded", "anchors": ["dsh/src/shell.pest: span, word, s_quoted, d_quoted", "dsh/src/parser/ast.rs: get_string", "dsh/src/shell/parse.rs: parse_argv"]}
{"id": "C60", "title": "Every redirection of a command takes effect", "statement": "Each redirection typed on a command is carried out for that command, with the named file.", "quantifier": "every pipeline and number of redirections", "why_tests_cant": "unbounded lists of redirections", "anchors": ["dsh/src/shell.pest: redirect", "dsh/src/shell/parse.rs: parse_argv"]}
{"id": "C61", "title": "& sends only its own command to the background", "statement": "The command or pipeline followed by & runs in the background, every other one of the line in the foreground.", "quantifier": "every line", "why_tests_cant": "unbounded command lists", "anchors": ["dsh/src/shell.pest: simple_command_bg, pipe_command", "dsh/src/shell/parse.rs: parse_jobs"]}
{"id": "C62", "title": "Colour tokens never overlap", "statement": "The tokens computed for colouring a line are non-empty, in order, do not overlap and lie inside the line, so that drawing the line emits each character once.", "quantifier": "every line", "why_tests_cant": "lines and nesting are unbounded", "anchors": ["dsh/src/parser/highlight.rs: collect_highlight_from_pair"]}
{"id": "C63", "title": "Expansion keeps the structure of the line", "statement": "Expanding aliases, tildes, variables and patterns replaces words by their values and changes nothing else: the commands, pipes, redirections, separators and background marks of the line that runs are those of the line that was typed.", "quantifier": "every line, environment and alias table", "why_tests_cant": "lines are unbounded and expansion rewrites the whole line as text", "anchors": ["dsh/src/parser/expansion.rs: expand_alias_tilde, parse_with_expansion", "dsh/src/shell/eval.rs: get_jobs"]}
{"id": "C64", "title": "The value of a variable is data", "statement": "Whatever text a variable holds, using it as an argument passes that text as one argument; it is never read as shell syntax.", "quantifier": "every value", "why_tests_cant": "values are arbitrary text", "anchors": ["dsh/src/parser/expansion.rs: expand_var_args, quote_if_needed", "dsh/src/shell/eval.rs: get_jobs"]}
{"id": "C65", "title": "Words that are not variables are passed as typed", "statement": "A plain word is passed to the program as it was typed, also when another word of the line is expanded and also when a variable has that name.", "quantifier": "every line and environment", "why_tests_cant": "depends on the names in the environment", "anchors": ["dsh/src/parser/expansion.rs: expand_var_args"]}
{"id": "C66", "title": "A variable inside a word is replaced", "statement": "A variable reference followed or preceded by other text in the same word is replaced by its value in place.", "quantifier": "every word and environment", "why_tests_cant": "unbounded words", "anchors": ["dsh/src/parser/expansion.rs: expand_var_args", "dsh/src/shell.pest: variable"]}
{"id": "C67", "title": "A process substitution given as an argument is run", "statement": "A command written as <(command) in argument position is run and its output offered to the program.", "quantifier": "every line", "why_tests_cant": "grammar ambiguity", "anchors": ["dsh/src/shell.pest: proc_subst, redirect", "dsh/src/shell/parse.rs: parse_argv"]}
{"id": "C68", "title": "A command typed over several lines runs whole", "statement": "When a line is incomplete the prompt keeps it and joins it with the following lines; the joined text is then run whole.", "quantifier": "every sequence of lines", "why_tests_cant": "unbounded sequences of lines", "anchors": ["dsh/src/parser/check.rs: is_incomplete_input", "dsh/src/repl/key_handlers/execution.rs: handle_execute"]}
{"id": "C69", "title": "Enter runs the line as typed", "statement": "Pressing Enter on a complete line hands exactly that text to the shell, where it is parsed and checked before anything runs.", "quantifier": "every line and prompt state", "why_tests_cant": "lines are unbounded", "anchors": ["dsh/src/repl/key_handlers/execution.rs: handle_execute", "dsh/src/repl/mod.rs: detect_ai_pipe, handle_ai_pipe"]}
{"id": "C70", "title": "Accepting a suggestion appends what was shown", "statement": "Accepting the grey text, whole or by word, appends exactly that text or its first word to the line; cycling through suggestions only ever shows offered candidates and comes back round.", "quantifier": "every line, suggestion and history of keys", "why_tests_cant": "unbounded key histories", "anchors": ["dsh/src/repl/key_handlers/suggestion.rs", "dsh/src/repl/suggestion_manager.rs: SuggestionManager"]}
{"id": "C71", "title": "Automatic pairing does not change typed text", "statement": "With automatic pairing on, typing a text leaves exactly that text in the line, and Backspace right after an opening mark removes the pair.", "quantifier": "every text", "why_tests_cant": "unbounded nesting", "anchors": ["dsh/src/repl/key_action.rs: determine_key_action", "dsh/src/repl/key_handlers/editing.rs: handle_backspace"]}
{"id": "C72", "title": "Typed and pasted text arrives", "statement": "No sequence of keys makes the line editor fail (looking up suggestions is C74); typed or pasted text is inserted at the cursor unchanged (line ends made uniform) and is not run by itself; only Enter, Alt+Enter, Alt+c and Ctrl+x Ctrl+e start anything.", "quantifier": "every sequence of keys and every answer of history, completion and file system", "why_tests_cant": "unbounded key sequences", "anchors": ["dsh/src/repl/key_action.rs: determine_key_action", "dsh/src/repl/handler.rs: handle_key_event", "dsh/src/repl/key_handlers/editing.rs"]}
{"id": "C75", "title": "Accepting a completion yields the line that was shown", "statement": "Ctrl+e or Right at the end of the line accepts the completion shown behind the text; without one the line is left as it is.", "quantifier": "every line and history of keys", "why_tests_cant": "depends on the history of keys", "anchors": ["dsh/src/repl/key_handlers/completion.rs", "dsh/src/repl/input_analysis.rs", "dsh/src/repl/render.rs"]}
{"id": "C76", "title": "Commands do not mix", "statement": "What is run is what was typed since the last command ran or Ctrl+c was pressed.", "quantifier": "every sequence of keys", "why_tests_cant": "state kept across lines", "anchors": ["dsh/src/repl/key_handlers/execution.rs: handle_execute, handle_execute_background", "dsh/src/repl/handler.rs: handle_key_event"]}
{"id": "C77", "title": "The sudo toggle only adds or removes sudo", "statement": "Pressing Esc twice puts sudo in front of a line that does not start with it and removes it otherwise; the rest of the line is kept.", "quantifier": "every line", "why_tests_cant": "unbounded lines", "anchors": ["dsh/src/repl/input_analysis.rs: toggle_sudo", "dsh/src/repl/handler.rs: handle_key_event"]}
{"id": "C78", "title": "Choosing a completion replaces the completed word only", "statement": "The chosen candidate takes the place of the word under the cursor; the text before and behind that word is kept.", "quantifier": "every line, cursor and candidate", "why_tests_cant": "unbounded lines", "anchors": ["dsh/src/repl/key_handlers/completion.rs: handle_trigger_completion", "dsh/src/parser/ast.rs: get_pos_word"]}
{"id": "C79", "title": "Editing keys edit as documented", "statement": "Home, End, Left, Right, Backspace and the kill keys (Ctrl+a, Ctrl+e, Ctrl+k, Ctrl+u, Ctrl+w) move or delete exactly what they name and keep the rest of the line and the pending lines.", "quantifier": "every line and cursor", "why_tests_cant": "unbounded lines", "anchors": ["dsh/src/repl/key_action.rs: determine_key_action", "dsh/src/repl/handler.rs: handle_key_event", "dsh/src/repl/key_handlers/editing.rs, navigation.rs"]}
{"id": "C73", "title": "Long text is shortened, never a crash", "statement": "Wherever the shell shortens a text (a command in a notification, a bookmark, snippet or output listing, a downloaded script, tool arguments and results, completion cells), it shows a prefix of the text made of whole characters that fits the limit, and no text crashes it.", "quantifier": "every text, limit and cursor position", "why_tests_cant": "depends on where characters fall relative to byte offsets", "anchors": ["dsh/src/repl/key_handlers/execution.rs", "dsh-builtin/src/bookmark.rs, snippet.rs, out.rs, safe_run.rs", "dsh-builtin/src/chatgpt/tool/mod.rs: truncate_args, truncate_output", "dsh-builtin/src/chatgpt/skills.rs: truncate_chars", "dsh/src/completion/display.rs: truncate_to_width", "dsh/src/completion/cache.rs: longest_live_prefix", "dsh/src/prompt/mod.rs"]}
{"id": "C74", "title": "Looking up suggestions never crashes", "statement": "Drawing the prompt looks up a completion for the last word of the line; whatever the line, this gives the line with its last word completed or nothing.", "quantifier": "every line", "why_tests_cant": "unbounded lines and any characters", "anchors": ["dsh/src/repl/completion.rs: mcp_form_completion, trailing_symbol", "dsh/src/repl/key_handlers/completion.rs"]}
{"id": "C80", "title": "A string in Lisp source is read as its text", "statement": "A text between double quotes in Lisp source, e.g. in config.lisp, is read as the string with that text.", "quantifier": "every text without a double quote", "why_tests_cant": "unbounded texts", "anchors": ["dsh/src/lisp/parser.rs: parse_string"]}
{"id": "C81", "title": "The whole configuration file is evaluated or rejected", "statement": "Loading config.lisp evaluates every expression in the file in order; a file that is not a sequence of expressions is reported as an error.", "quantifier": "every configuration text", "why_tests_cant": "unbounded texts", "anchors": ["dsh/src/lisp/mod.rs: run_config_lisp, run", "dsh/src/lisp/parser.rs: parse"]}
{"id": "C82", "title": "apply passes its arguments on", "statement": "(apply f list) calls f with the members of the list as its arguments.", "quantifier": "every function and list", "why_tests_cant": "unbounded lists and programs", "anchors": ["dsh/src/lisp/default_environment.rs: apply", "dsh/src/lisp/interpreter.rs: eval_inner"]}
{"id": "C83", "title": "Quoted data and mapped elements arrive unchanged", "statement": "(quote d) gives d; map calls the function once for each element, in order, with that element.", "quantifier": "every datum and list", "why_tests_cant": "unbounded nesting", "anchors": ["dsh/src/lisp/interpreter.rs: eval_inner", "dsh/src/lisp/default_environment.rs: map, filter"]}
{"id": "C84", "title": "Parameters get their arguments", "statement": "Calling a function binds each parameter to its argument and ... to the rest, in a new frame inside the frame of the definition; a wrong number of arguments is an error.", "quantifier": "every function and argument list", "why_tests_cant": "unbounded lists", "anchors": ["dsh/src/lisp/interpreter.rs: call_function_or_macro"]}
{"id": "C85", "title": "Special forms evaluate what they should", "statement": "and and or stop at the first decisive expression, if and cond evaluate one branch, begin and calls evaluate everything in order.", "quantifier": "every expression list and state", "why_tests_cant": "unbounded lists", "anchors": ["dsh/src/lisp/interpreter.rs: eval_inner, eval_block_inner"]}
{"id": "C86", "title": "Redirects apply to the streams and the stage they name", "statement": "An output redirect sends the named streams of the command it follows to the file and leaves the other streams and stages alone; an input redirect is the standard input of the command it follows; >> creates the file if needed.", "quantifier": "every table of open descriptors, every redirect and every pipeline length", "why_tests_cant": "unbounded pipelines and arbitrary allocation of descriptors", "anchors": ["dsh/src/process/job.rs: launch_process", "dsh/src/process/job_process.rs: launch", "dsh/src/process/io.rs: create_pipe, handle_output_redirect", "dsh/src/process/fork.rs: fork_process", "dsh/src/process/process.rs: launch_prepared", "dsh/src/process/redirect.rs: process"]}
{"id": "C87", "title": "The next command of a line starts with fresh streams", "statement": "After a pipeline, the next command of the same line starts with the shell's standard streams.", "quantifier": "every pipeline and every following command", "why_tests_cant": "unbounded pipelines and arbitrary allocation of descriptors", "anchors": ["dsh/src/process/job.rs: launch_process", "dsh/src/process/job_process.rs: launch", "dsh/src/process/io.rs: create_pipe, handle_output_redirect", "dsh/src/process/fork.rs: fork_process", "dsh/src/process/process.rs: launch_prepared", "dsh/src/shell/eval.rs: eval_str, the loop over jobs"]}
{"id": "C88", "title": "A captured job's output is captured", "statement": "When a command's output is captured (|> and |: and the smart pipe), everything the job's commands write to standard output and error reaches the shell, and end-of-file follows when they end.", "quantifier": "every table of open descriptors and allocation", "why_tests_cant": "arbitrary allocation of descriptors", "anchors": ["dsh/src/process/job.rs: launch_process", "dsh/src/process/job_process.rs: launch", "dsh/src/process/io.rs: create_pipe, handle_output_redirect", "dsh/src/process/fork.rs: fork_process", "dsh/src/process/process.rs: launch_prepared", "dsh/src/shell/eval.rs: execute_with_capture"]}
{"id": "C89", "title": "A directory's environment is set on entering and undone on leaving", "statement": "Entering a directory allowed with allow-direnv, or one below it, sets the variables its .env or .envrc asks for; leaving it gives the environment back as it was; other variables are untouched.", "quantifier": "every session of directory changes, every set of allowed directories and every content of their files, changing between visits", "why_tests_cant": "unbounded sessions and arbitrary files", "anchors": ["dsh/src/direnv.rs: check_path, read_env_file, set_env, remove_env", "dsh/src/proxy/mod.rs: changepwd", "dsh/src/shell/hooks.rs: exec_chpwd_hooks", "dsh/src/lisp/builtin.rs: allow_direnv, add_path"]}
{"id": "C90", "title": "A directory added to the search path stays", "statement": "After add_path the directory is searched first for the rest of the session.", "quantifier": "every later sequence of variable changes, lookups and directory changes", "why_tests_cant": "unbounded sequences", "anchors": ["dsh/src/direnv.rs: check_path, read_env_file, set_env, remove_env", "dsh/src/proxy/mod.rs: changepwd", "dsh/src/shell/hooks.rs: exec_chpwd_hooks", "dsh/src/lisp/builtin.rs: allow_direnv, add_path", "dsh/src/environment/paths.rs: reload_path"]}
{"id": "C91", "title": "cd - goes back", "statement": "cd - returns to the directory the shell was in before the last change of directory.", "quantifier": "every directory, environment and history of changes", "why_tests_cant": "unbounded histories", "anchors": ["dsh/src/direnv.rs: check_path, read_env_file, set_env, remove_env", "dsh/src/proxy/mod.rs: changepwd", "dsh/src/shell/hooks.rs: exec_chpwd_hooks", "dsh/src/lisp/builtin.rs: allow_direnv, add_path", "dsh-builtin/src/cd.rs: command"]}
{"id": "C92", "title": "Hooks receive the text as typed", "statement": "Every pre-exec, post-exec and completion hook is called, in order, with the line exactly as typed (and the exit code or cursor); the line is data and is not evaluated.", "quantifier": "every line, every list of hooks and every state of the Lisp session", "why_tests_cant": "arbitrary lines; an unusual character in the line decides", "anchors": ["dsh/src/shell/hooks.rs: exec_pre_exec_hooks, exec_post_exec_hooks, exec_completion_hooks", "dsh/src/lisp/mod.rs: run, is_bound_nonempty_list"]}
{"id": "C93", "title": "Looking at a command's name runs nothing", "statement": "While a line is typed and coloured, and while it is parsed before the safety check, finding out what a command name stands for has no effect.", "quantifier": "every line and every state of the Lisp session", "why_tests_cant": "arbitrary lines", "anchors": ["dsh/src/lisp/mod.rs: is_export, run", "dsh/src/repl/input_analysis.rs: command_is_valid", "dsh/src/shell/parse.rs: parse_command", "dsh/src/parser/highlight.rs: collect_highlight_tokens_from_pairs", "dsh/src/shell.pest: word, glob_word"]}
{"id": "C94", "title": "A configuration that fails is undone", "statement": "When loading config.lisp fails at any point, every setting, alias, variable, palette command, process variable, Lisp name and completion entry is as it was before.", "quantifier": "every configuration text, every state of the session, every point of failure and every behaviour of the functions it calls", "why_tests_cant": "arbitrary programs that fail anywhere", "anchors": ["dsh/src/lisp/mod.rs: run_config_lisp, EnvironmentSnapshot, restore_environment_snapshot, restore_process_env", "dsh/src/lisp/model/env.rs: snapshot_entries, restore_entries"]}
{"id": "C95", "title": "include imports the environment a script leaves", "statement": "After include FILE ARGS, child processes see the environment that bash has after sourcing FILE with ARGS in the shell's environment: set, changed and removed variables; a script that fails changes nothing; no character of FILE or ARGS is taken for shell syntax.", "quantifier": "every file name, argument list, script behaviour and state of the shell's environment", "why_tests_cant": "arbitrary names, scripts and earlier changes of the environment", "anchors": ["dsh-builtin/src/include.rs: command, shell_escape_single", "dsh/src/proxy/mod.rs: set_env_var, unset_env_var", "dsh/src/environment/variables.rs: set_system_env_var, child_process_env"]}
{"id": "C96", "title": "A stored command is what runs", "statement": "task NAME, bookmark run and snippet run hand the stored command to a shell: the text that runs is the text that was stored, once, and its success is reported.", "quantifier": "every stored command and every behaviour of the programs started", "why_tests_cant": "arbitrary command text", "anchors": ["dsh/src/proxy/mod.rs: dispatch, capture_command", "dsh/src/proxy/builtin/registry.rs: registry", "dsh/src/proxy/builtin/external.rs: execute", "dsh-builtin/src/task.rs: execute_task", "dsh-builtin/src/bookmark.rs: run", "dsh-builtin/src/snippet.rs: run"]}
{"id": "C97", "title": "safe-run starts nothing without a yes", "statement": "safe-run starts a command only after the user confirmed running it, with the words given to it, and reports its success; inspecting a command does not run it.", "quantifier": "every command line, every verdict of the analysis, every answer of the user and every output", "why_tests_cant": "arbitrary commands and answers", "anchors": ["dsh/src/proxy/mod.rs: dispatch, capture_command", "dsh/src/proxy/builtin/registry.rs: registry", "dsh/src/proxy/builtin/external.rs: execute", "dsh-builtin/src/safe_run.rs: command, inspect_and_run"]}
{"id": "C98", "title": "notebook-play runs the blocks of the file it is given", "statement": "notebook-play FILE plays the command blocks of FILE, and runs a block only after the user agreed.", "quantifier": "every file content, every list of blocks and replies", "why_tests_cant": "arbitrary files and replies", "anchors": ["dsh/src/proxy/mod.rs: dispatch, capture_command", "dsh/src/proxy/builtin/registry.rs: registry", "dsh/src/proxy/builtin/external.rs: execute", "dsh-builtin/src/notebook_play.rs: command"]}
{"id": "C99", "title": "trigger runs after each change", "statement": "trigger runs its command after every matching change, at most once per half second, and never without a change.", "quantifier": "every sequence of changes and times", "why_tests_cant": "unbounded sequences of events", "anchors": ["dsh-builtin/src/trigger.rs: command"]}
{"id": "C100", "title": "task runs the task that was named", "statement": "task NAME and task SOURCE:NAME run a task only when exactly one detected task has that name; every detected task can be named.", "quantifier": "every list of detected tasks and every word", "why_tests_cant": "arbitrary names and lists", "anchors": ["dsh-builtin/src/task.rs: parse_options, split_qualified_task_for_known_source, filtered_tasks, select_task, dedup_task_infos", "dsh-builtin/src/project_context.rs: detect_taskfile_tasks"]}
{"id": "C101", "title": "The tasks of a Taskfile are listed", "statement": "The tasks listed for a Taskfile are the ones it defines, in order.", "quantifier": "every Taskfile of the usual layout", "why_tests_cant": "unbounded files", "anchors": ["dsh-builtin/src/task.rs: parse_options, split_qualified_task_for_known_source, filtered_tasks, select_task, dedup_task_infos", "dsh-builtin/src/project_context.rs: detect_taskfile_tasks"]}
{"id": "C102", "title": "Command statistics are exact and kept", "statement": "The statistics kept for a command (number of calls, total, longest and shortest time, failures, last use) are those of all its executions, over all sessions and shells; a shell that dies loses at most the last few.", "quantifier": "every sequence of sessions, commands, times and saves", "why_tests_cant": "unbounded histories, several shells, interrupted writes", "anchors": ["dsh/src/command_timing.rs: CommandStats, CommandTiming, extract_command_name", "dsh-builtin/src/command_timing.rs: command, recent_failures, top_slowest, top_frequent", "dsh/src/repl/key_handlers/execution.rs: recording", "dsh/src/repl/mod.rs: drop, background tick"]}
{"id": "C103", "title": "The timing command shows and clears the statistics", "statement": "timing --clear forgets the statistics; --failures shows the commands that failed in the last day; --slow and --frequent show the top ones in order; a line is counted for the file name of its first word.", "quantifier": "every table of statistics, every session and every command line", "why_tests_cant": "unbounded histories and lines", "anchors": ["dsh/src/command_timing.rs: CommandStats, CommandTiming, extract_command_name", "dsh-builtin/src/command_timing.rs: command, recent_failures, top_slowest, top_frequent", "dsh/src/repl/key_handlers/execution.rs: recording", "dsh/src/repl/mod.rs: drop, background tick"]}
{"id": "C104", "title": "Importing fish's history gives its commands", "statement": "history import fish adds every command of fish's history file, as it was typed, once each, in order and with its time.", "quantifier": "every list of commands with times and paths", "why_tests_cant": "arbitrary command text", "anchors": ["dsh/src/history_import.rs: FishHistoryImporter::import"]}
{"id": "C105", "title": "Notebooks keep what they hold and give back what was recorded", "statement": "Loading a notebook and saving it changes no byte; every command recorded into a notebook is one of its code blocks, with the text that was entered.", "quantifier": "every Markdown file and every sequence of recorded commands", "why_tests_cant": "arbitrary files and command text", "anchors": ["dsh-types/src/notebook.rs: load_from_file, save_to_file, append_code, raw_content", "dsh/src/shell/mod.rs: eval_str"]}
{"id": "C106", "title": "Completion is about the word at the cursor", "statement": "Pressing Tab completes the word that ends at the cursor, as an argument of the command it stands in.", "quantifier": "every line and every cursor position", "why_tests_cant": "arbitrary lines and positions, multibyte text", "anchors": ["dsh/src/completion/parser.rs: parse, analyze_tokens, determine_completion_context", "dsh/src/completion/context.rs: correct_parsed_command_line", "dsh/src/completion/generator.rs: generate_candidates", "dsh/src/completion/generators: SubCommandGenerator, OptionGenerator, ArgumentGenerator, ScriptGenerator", "dsh/src/completion/integrated.rs: convert_to_parsed_command_line, collect_command_candidates", "dsh/src/repl/key_handlers/completion.rs"]}
{"id": "C107", "title": "The subcommands that can follow are offered", "statement": "Behind a command and some of its subcommands, completion offers every subcommand that can follow and starts with what was typed.", "quantifier": "every definition of a command, every chain of subcommands or aliases of them, every prefix", "why_tests_cant": "unbounded trees of subcommands", "anchors": ["dsh/src/completion/parser.rs: parse, analyze_tokens, determine_completion_context", "dsh/src/completion/context.rs: correct_parsed_command_line", "dsh/src/completion/generator.rs: generate_candidates", "dsh/src/completion/generators: SubCommandGenerator, OptionGenerator, ArgumentGenerator, ScriptGenerator", "dsh/src/completion/integrated.rs: convert_to_parsed_command_line, collect_command_candidates", "dsh/src/repl/key_handlers/completion.rs"]}
{"id": "C108", "title": "The options that can be given are offered", "statement": "Completing a word that starts with a dash offers exactly the names of the options of the command and of the subcommand it stands behind which start with it and were not given yet.", "quantifier": "every definition, every chain of subcommands, every list of options already given and every prefix", "why_tests_cant": "unbounded definitions and lines", "anchors": ["dsh/src/completion/parser.rs: parse, analyze_tokens, determine_completion_context", "dsh/src/completion/context.rs: correct_parsed_command_line", "dsh/src/completion/generator.rs: generate_candidates", "dsh/src/completion/generators: SubCommandGenerator, OptionGenerator, ArgumentGenerator, ScriptGenerator", "dsh/src/completion/integrated.rs: convert_to_parsed_command_line, collect_command_candidates", "dsh/src/repl/key_handlers/completion.rs"]}
{"id": "C109", "title": "Completing runs nothing that was typed", "statement": "Pressing Tab runs at most the commands written in the definitions of completions; nothing of the command line is executed.", "quantifier": "every set of definitions, every line and cursor", "why_tests_cant": "arbitrary lines and definitions", "anchors": ["dsh/src/completion/parser.rs: parse, analyze_tokens, determine_completion_context", "dsh/src/completion/context.rs: correct_parsed_command_line", "dsh/src/completion/generator.rs: generate_candidates", "dsh/src/completion/generators: SubCommandGenerator, OptionGenerator, ArgumentGenerator, ScriptGenerator", "dsh/src/completion/integrated.rs: convert_to_parsed_command_line, collect_command_candidates", "dsh/src/repl/key_handlers/completion.rs"]}
{"id": "C112", "title": "Completing ends", "statement": "Completing a line ends, also for commands that run other commands.", "quantifier": "every line, every cursor and every set of definitions", "why_tests_cant": "unbounded nesting of commands", "anchors": ["dsh/src/completion/parser.rs: parse, analyze_tokens, determine_completion_context", "dsh/src/completion/context.rs: correct_parsed_command_line", "dsh/src/completion/generator.rs: generate_candidates", "dsh/src/completion/generators: SubCommandGenerator, OptionGenerator, ArgumentGenerator, ScriptGenerator", "dsh/src/completion/integrated.rs: convert_to_parsed_command_line, collect_command_candidates", "dsh/src/repl/key_handlers/completion.rs"]}
{"id": "C113", "title": "An argument is completed by the definition of its position", "statement": "The n-th argument of a command is completed by the n-th definition, or by the last one when it may be repeated.", "quantifier": "every definition, every list of earlier words and every prefix", "why_tests_cant": "unbounded lists of arguments", "anchors": ["dsh/src/completion/parser.rs: parse, analyze_tokens, determine_completion_context", "dsh/src/completion/context.rs: correct_parsed_command_line", "dsh/src/completion/generator.rs: generate_candidates", "dsh/src/completion/generators: SubCommandGenerator, OptionGenerator, ArgumentGenerator, ScriptGenerator", "dsh/src/completion/integrated.rs: convert_to_parsed_command_line, collect_command_candidates", "dsh/src/repl/key_handlers/completion.rs"]}
{"id": "C110", "title": "The list of candidates is ordered, complete and without repetition", "statement": "The list Tab shows has no text twice, is ordered by score, then kind, then alphabet, contains only candidates that were collected, gives each text its best score, and when it is cut to the maximum it leaves out only candidates that score no higher than any shown.", "quantifier": "every list of candidates, history, command and maximum", "why_tests_cant": "ties, duplicates, score overflow and cuts combine over unbounded lists", "anchors": ["dsh/src/completion/integrated.rs: deduplicate_and_sort, history_boost_scores"]}
{"id": "C111", "title": "The candidates shown are those of the line", "statement": "Pressing Tab shows the candidates for the line, cursor and directory as they are at that moment.", "quantifier": "every sequence of presses of Tab at any times on any lines", "why_tests_cant": "depends on the history of earlier presses and their times", "anchors": ["dsh/src/completion/cache.rs: CompletionCache::lookup, extend_ttl, set", "dsh/src/completion/integrated.rs: complete"]}
{"id": "C114", "title": "What was used before comes first", "statement": "Of two candidates alike, the one that occurs in every line of the history the other occurs in, and in one more, is listed first.", "quantifier": "every history, command and list of candidates", "why_tests_cant": "ranges over unbounded histories; the limit makes it fail only for long ones", "anchors": ["dsh/src/completion/integrated.rs: history_boost_scores"]}
{"id": "C115", "title": "The file names offered are those of the directory", "statement": "Completing the beginning of a path offers the entries of its directory that begin with the typed name or match it, and no others.", "quantifier": "every path, directory content, state of the listing cache and time", "why_tests_cant": "depends on what was listed before and when, and on directories of any size", "anchors": ["dsh/src/completion/path.rs: path_completion_path_sync, scan_dir_candidates", "dsh/src/completion/generators/filesystem.rs: generate_file_candidates, split_dir_and_prefix", "dsh/src/completion/cache.rs: lookup"]}
{"id": "C116", "title": "Dangerous commands are asked about wherever they stand", "statement": "In Normal mode, a line that contains a dangerous command which is not allowlisted is asked about before any command of it starts.", "quantifier": "every line, position of the command on it, spelling, allowlist and state", "why_tests_cant": "positions, separators, blanks and quoting combine without bound", "anchors": ["dsh/src/shell/eval.rs: eval_str, get_jobs, launch_subshell, spawn_subshell", "dsh/src/shell/parse.rs: parse_commands, parse_command, read_fd", "dsh/src/safety/mod.rs: check_jobs"]}
{"id": "C117", "title": "And-or lists inside substitutions", "statement": "Inside $( ), ( ) and <( ), && and || decide which commands run, as on a line.", "quantifier": "every list of commands and every status", "why_tests_cant": "statuses are known only at run time", "anchors": ["dsh/src/shell/eval.rs: eval_str, get_jobs, launch_subshell, spawn_subshell", "dsh/src/shell/parse.rs: parse_commands, parse_command, read_fd", "dsh/src/safety/mod.rs: check_jobs"]}
{"id": "C118", "title": "A command substitution stands for the words of its output", "statement": "The words of $( ) are the white-space separated words its commands write, whatever their number.", "quantifier": "every list of commands and every output", "why_tests_cant": "outputs of any size", "anchors": ["dsh/src/shell/eval.rs: eval_str, get_jobs, launch_subshell, spawn_subshell", "dsh/src/shell/parse.rs: parse_commands, parse_command, read_fd", "dsh/src/safety/mod.rs: check_jobs"]}
{"id": "C119", "title": "A list in parentheses runs its commands and nothing else", "statement": "( list ) runs the commands of the list, and its status is that of the last one.", "quantifier": "every list and every output of its commands", "why_tests_cant": "depends on what the commands print", "anchors": ["dsh/src/shell/eval.rs: eval_str, get_jobs, launch_subshell, spawn_subshell", "dsh/src/shell/parse.rs: parse_commands, parse_command, read_fd", "dsh/src/safety/mod.rs: check_jobs"]}
{"id": "C120", "title": "The grey text continues what is typed", "statement": "Whatever is suggested begins with the typed line and is longer; a suggestion from the history is the most recent command that begins with the line, as the history was at most a third of a second ago; and while there is a longer command in the history that begins with the line, one is suggested.", "quantifier": "every sequence of prompts, edits, key presses, worker steps and answers, at any times", "why_tests_cant": "caches with lifetimes make a suggestion depend on everything that was typed before", "anchors": ["dsh/src/suggestion.rs: SuggestionEngine::predict, history_suggestion, completion_suggestion, ai_suggestion_with_context, use_cache, set_preferences", "dsh/src/repl/repl_ai.rs: refresh_inline_suggestion, force_ai_suggestion"]}
{"id": "C121", "title": "The line waiting for an answer is always sent", "statement": "A line for which the model is to be asked is sent, or replaced by a newer one which is; the worker never sleeps while one waits, comes to rest when there are none, and the sign for waiting then goes out.", "quantifier": "every interleaving of the prompt, the worker and answers", "why_tests_cant": "a lost wake-up shows only in particular interleavings", "anchors": ["dsh/src/suggestion.rs: LiveAiSuggestionBackend, enqueue, try_cached, next_request, handle_completion", "dsh/src/repl/repl_ai.rs: refresh_inline_suggestion"]}
{"id": "C122", "title": "Only what the user wants asked leaves the machine", "statement": "What is sent to the model is a line that was typed with at most the last eight commands, or a directory entered; nothing is sent with the preference off, with suggestions off, or for the commands the shell keeps from it.", "quantifier": "every sequence of events", "why_tests_cant": "requests wait in a mailbox across prompts and changes of preference", "anchors": ["dsh/src/suggestion.rs: SuggestionEngine::predict, history_suggestion, completion_suggestion, ai_suggestion_with_context, use_cache, set_preferences", "dsh/src/repl/repl_ai.rs: refresh_inline_suggestion, force_ai_suggestion", "dsh/src/suggestion.rs: LiveAiSuggestionBackend, enqueue, try_cached, next_request, handle_completion", "dsh/src/repl/repl_ai.rs: refresh_inline_suggestion"]}
{"id": "C123", "title": "A suggestion of the model is its recent answer", "statement": "What is shown as the model's suggestion is what it answered, a short time ago, to a request made in this directory about the beginning of this line; and an answer that continues the line is shown.", "quantifier": "every sequence of events at any times", "why_tests_cant": "two caches with different lifetimes and a mailbox", "anchors": ["dsh/src/suggestion.rs: SuggestionEngine::predict, history_suggestion, completion_suggestion, ai_suggestion_with_context, use_cache, set_preferences", "dsh/src/repl/repl_ai.rs: refresh_inline_suggestion, force_ai_suggestion", "dsh/src/suggestion.rs: LiveAiSuggestionBackend, enqueue, try_cached, next_request, handle_completion", "dsh/src/repl/repl_ai.rs: refresh_inline_suggestion"]}
{"id": "C124", "title": "An answer is taken as the model wrote it", "statement": "Of the model's answer, its first command is offered, unchanged, when it continues the line; the blanks and the code fence around it are removed.", "quantifier": "every line and every answer", "why_tests_cant": "texts of any length and form", "anchors": ["dsh/src/suggestion.rs: sanitize_model_output, fetch_completion"]}
{"id": "C125", "title": "A typed line does what it says", "statement": "A line runs one job for each of its background commands and pipelines, with the processes typed, in the order and under the conditions its separators say, and returns the status of the last one run; nothing else happens.", "quantifier": "every line of commands, pipelines, background marks and separators, every world, job table and guard", "why_tests_cant": "lines of any length with any statuses", "anchors": ["dsh/src/shell/eval.rs: eval_str, get_jobs, launch_subshell, spawn_subshell", "dsh/src/shell/parse.rs: parse_commands, parse_command, read_fd", "dsh/src/safety/mod.rs: check_jobs"]}
{"id": "C126", "title": "A line that begins with a bar takes the last output", "statement": "A line that begins with a single bar is the pipeline of the last output into its commands, and no other line is changed.", "quantifier": "every line", "why_tests_cant": "lines of any form", "anchors": ["dsh/src/shell/eval.rs: transform_input_for_smart_pipe"]}
{"id": "C45", "title": "The command offered is the command that was checked", "statement": "A command the model writes is put on the line only if the guard lets it pass, and what then runs is this command with these arguments.", "quantifier": "every answer, safety level, allowlist and set of programs", "why_tests_cant": "arguments are any texts, and the line is read again by the shell", "anchors": ["dsh/src/ai_features/command.rs: expand_smart_pipe, run_generative_command", "dsh/src/ai_features/mod.rs: sanitize_code_block", "dsh/src/repl/mod.rs: detect_smart_pipe, detect_generative_command, detect_ai_pipe, run_ai_pipe", "dsh/src/repl/key_handlers/completion.rs: handle_trigger_completion", "dsh/src/repl/key_handlers/execution.rs: handle_execute", "dsh/src/safety/mod.rs: check_command"]}
{"id": "C127", "title": "Enter runs the text on the line", "statement": "Pressing Enter runs exactly the text shown, together with the unfinished lines before it.", "quantifier": "every sequence of keys before it, every text, cursor position and table of abbreviations", "why_tests_cant": "any editing history", "anchors": ["dsh/src/ai_features/command.rs: expand_smart_pipe, run_generative_command", "dsh/src/ai_features/mod.rs: sanitize_code_block", "dsh/src/repl/mod.rs: detect_smart_pipe, detect_generative_command, detect_ai_pipe, run_ai_pipe", "dsh/src/repl/key_handlers/completion.rs: handle_trigger_completion", "dsh/src/repl/key_handlers/execution.rs: handle_execute"]}
{"id": "C128", "title": "Every command typed goes through the guard", "statement": "No command typed at the prompt runs without the safety guard having looked at it.", "quantifier": "every text, safety level and allowlist", "why_tests_cant": "any text can hold the mark", "anchors": ["dsh/src/ai_features/command.rs: expand_smart_pipe, run_generative_command", "dsh/src/ai_features/mod.rs: sanitize_code_block", "dsh/src/repl/mod.rs: detect_smart_pipe, detect_generative_command, detect_ai_pipe, run_ai_pipe", "dsh/src/repl/key_handlers/completion.rs: handle_trigger_completion", "dsh/src/repl/key_handlers/execution.rs: handle_execute"]}
{"id": "C129", "title": "Asking for a command replaces only the query", "statement": "Expanding |? or ?? keeps what stands before the query to the letter and puts the offered command in its place; otherwise the line stays as it is.", "quantifier": "every line, query and answer", "why_tests_cant": "any texts", "anchors": ["dsh/src/ai_features/command.rs: expand_smart_pipe, run_generative_command", "dsh/src/ai_features/mod.rs: sanitize_code_block", "dsh/src/repl/mod.rs: detect_smart_pipe, detect_generative_command, detect_ai_pipe, run_ai_pipe", "dsh/src/repl/key_handlers/completion.rs: handle_trigger_completion", "dsh/src/repl/key_handlers/execution.rs: handle_execute"]}
{"id": "C130", "title": "JSON data survives being read as a table", "statement": "An array of objects read as a table and written as JSON again is the same array.", "quantifier": "every JSON document and every order in which a hash map is walked", "why_tests_cant": "nested documents of any depth", "anchors": ["dsh/src/lisp/model/table.rs: Table, Record, json_to_value, value_to_json", "dsh/src/lisp/stdlib/table.rs: register"]}
{"id": "C131", "title": "Ordering a table sorts it", "statement": "Ordering by a column keeps all rows, puts them in the order of that column, rows without it last, and leaves rows with equal cells in their order.", "quantifier": "every table, column and direction", "why_tests_cant": "any number of rows", "anchors": ["dsh/src/lisp/model/table.rs: Table, Record, json_to_value, value_to_json", "dsh/src/lisp/stdlib/table.rs: register"]}
{"id": "C132", "title": "CSV data survives being read as a table", "statement": "CSV read as a table and written as CSV again has the same header and the same fields.", "quantifier": "every header and records", "why_tests_cant": "any number of columns and rows", "anchors": ["dsh/src/lisp/model/table.rs: Table, Record, json_to_value, value_to_json", "dsh/src/lisp/stdlib/table.rs: register"]}
{"id": "C133", "title": "Choosing rows and columns", "statement": "Filters keep exactly the rows that fulfil the condition, in their order; head and tail keep the first and last rows; select keeps exactly the columns named.", "quantifier": "every table and condition", "why_tests_cant": "any number of rows", "anchors": ["dsh/src/lisp/model/table.rs: Table, Record, json_to_value, value_to_json", "dsh/src/lisp/stdlib/table.rs: register"]}
{"id": "C134", "title": "Nothing in a table is hidden", "statement": "Every cell of every row of a table is shown, under the name of its column.", "quantifier": "every table made from JSON or CSV by any sequence of table functions", "why_tests_cant": "rows of different shapes", "anchors": ["dsh/src/lisp/model/table.rs: Table, Record, json_to_value, value_to_json", "dsh/src/lisp/stdlib/table.rs: register"]}
{"id": "C135", "title": "Each expression after |: gets the value before it", "statement": "The expressions are evaluated once each, from left to right, the first on the command's output; the last value is printed; after an error or a failed command nothing is printed.", "quantifier": "every command result, list of expressions and interpreter", "why_tests_cant": "any number of expressions", "anchors": ["dsh/src/shell/eval.rs: eval_str", "dsh/src/shell/parse.rs: parse_jobs", "dsh/src/shell/dshell.pest"]}
{"id": "C136", "title": "The distance between two words is the least number of edits", "statement": "The distance used for suggestions is the least number of characters to put in, take out or exchange to get from one word to the other.", "quantifier": "every pair of words", "why_tests_cant": "the words are any texts, and least is over all sequences of edits", "anchors": ["dsh/src/command_suggestion.rs: levenshtein_distance, find_similar_commands, find_similar_candidates, format_suggestions", "dsh/src/shell/parse.rs: parse_command"]}
{"id": "C137", "title": "The nearest commands are suggested for an unknown one", "statement": "For a command that is not found, the message names the (at most three) nearest commands that can be run, nearest first, and the nearest tasks.", "quantifier": "every word, PATH, directory contents, builtins and tasks", "why_tests_cant": "any number of candidates", "anchors": ["dsh/src/command_suggestion.rs: levenshtein_distance, find_similar_commands, find_similar_candidates, format_suggestions", "dsh/src/shell/parse.rs: parse_command"]}
{"id": "C138", "title": "An alias stands for what it was given", "statement": "alias name=command makes the name stand for exactly that command and changes no other alias; any other use of alias changes nothing; alias name shows what the name stands for, in a form that can be typed to define it again; alias alone lists every alias once, in the order of the names; after any sequence of commands a name stands for what the last command about it said, and typing the name runs that command with the arguments behind it.", "quantifier": "every table, argument list, name, command text and sequence of alias commands", "why_tests_cant": "tables, texts and sequences are unbounded, and the line is read by the grammar before the builtin sees it", "anchors": ["dsh-builtin/src/alias.rs: command, set_alias_from_assignment, show_specific_alias, list_all_aliases", "dsh/src/proxy/mod.rs: get_alias, set_alias, list_aliases"]}
{"id": "C139", "title": "Abbreviations expand, and can be erased", "statement": "abbr -a name expansion defines the abbreviation and changes no other; abbr -e name forgets it; after any sequence of commands a name stands for what the last command about it said; typing a defined name and a space puts its expansion on the line and changes nothing else.", "quantifier": "every table, sequence of abbr commands, line, cursor position and key history", "why_tests_cant": "sequences and lines are unbounded, and Enter itself expands abbreviations", "anchors": ["dsh-builtin/src/abbr.rs: command, add_abbreviation, remove_abbreviation, show_specific_abbreviation", "dsh/src/repl/handler.rs: ExpandAbbreviationAndInsertSpace", "dsh/src/repl/key_handlers/execution.rs: handle_execute"]}
{"id": "C140", "title": "Registered hooks are called", "statement": "Every function registered with add-hook, by value or by name, is called once at each event of its kind, with the text and number of the event, whatever other functions are registered.", "quantifier": "every event, text, number, list of registered functions and state of the interpreter", "why_tests_cant": "any number of functions with any effects, registered in any order", "anchors": ["dsh/src/shell/hooks.rs: exec_chpwd_hooks, exec_pre_prompt_hooks, exec_pre_exec_hooks, exec_post_exec_hooks, exec_command_not_found_hooks, exec_completion_hooks, exec_input_timeout_hooks", "dsh/src/lisp/default_environment.rs: add-hook, bound?", "README.md: add-hook"]}
{"id": "C141", "title": "The project list holds what was added and not removed", "statement": "pm add registers a directory under a name, and only if neither is taken; pm remove forgets exactly that name; pm work goes to the directory of the name and marks it as used, changing nothing else; after any sequence of commands the list holds exactly the projects that were added and not removed since, each name and each directory once, the most recently used first.", "quantifier": "every sequence of pm, pj and cd commands, name, directory and time", "why_tests_cant": "sequences are unbounded and commands may fail at any point", "anchors": ["dsh-builtin/src/project.rs: add, list, remove, work, jump, find_project_by_path", "dsh-types/src/project.rs: Project", "dsh/src/shell/hooks.rs: exec_chpwd_hooks", "README.md: Project Manager"]}
{"id": "C142", "title": "DSH_PROJECT is the project of the current directory", "statement": "The project of a directory is the registered one nearest above it; DSH_PROJECT is its name in the shell and in the environment of programs, and is not set outside of projects.", "quantifier": "every list of projects, directory, session and inherited environment", "why_tests_cant": "any number of nested projects and any history of directory changes", "anchors": ["dsh-builtin/src/project.rs: add, list, remove, work, jump, find_project_by_path", "dsh-types/src/project.rs: Project", "dsh/src/shell/hooks.rs: exec_chpwd_hooks", "README.md: Project Manager"]}
{"id": "C143", "title": "pm activate applies the project's files and nothing else", "statement": "pm activate takes the nearest directory above with a project file; every variable assigned in its .env and in its .envrc, if the directory was allowed, gets the value of the last assignment, and programs that are started see it; no other variable changes; the directories of path_add and of the virtual environment are put before the search path, once; activating again changes nothing; variables that make programs load foreign code are not set without a question.", "quantifier": "every text of the two files, environment, directory and home", "why_tests_cant": "texts, environments and paths are unbounded", "anchors": ["dsh-builtin/src/project.rs: activate, parse_dotenv_file, parse_envrc_file, parse_assignment_line, parse_assignment, unquote, prepend_path, normalize_activation_path", "dsh-builtin/src/project_context.rs: find_project_root, PROJECT_MARKERS", "dsh/src/proxy/mod.rs: set_env_var, is_direnv_allowed"]}
{"id": "C144", "title": "ga adds the files that were selected", "statement": "ga runs git add with exactly the names of the files selected in its menu, in the menu's order; with nothing selected, or with the menu left with Esc, it runs nothing.", "quantifier": "every state of the repository, file name and selection", "why_tests_cant": "any number of files with any names; git quotes some of them", "anchors": ["dsh-builtin/src/ga.rs: command, get_git_status"]}
{"id": "C145", "title": "gco checks out the selected branch", "statement": "gco offers every branch git lists and checks out the one selected, a remote one under its own name without the remote's; leaving the menu runs nothing.", "quantifier": "every list of local and remote branches, name and selection", "why_tests_cant": "any number of branches with any names", "anchors": ["dsh-builtin/src/gco.rs: command, get_git_branches, extract_branch_name"]}
{"id": "C146", "title": "gwt removes only the worktree that was chosen", "statement": "gwt -r offers every worktree but the main one and removes the one selected, after a question, by force only if -f was given; gwt branch makes a worktree in a new directory of its own beside the repository.", "quantifier": "every argument list, list of worktrees, branch name and selection", "why_tests_cant": "any number of worktrees and arguments", "anchors": ["dsh-builtin/src/gwt.rs: command, parse_options, get_linked_worktrees, remove_worktree_interactive, remove_worktree, add_worktree, get_worktree_path, sanitize_branch_name"]}
{"id": "C147", "title": "glog checks out the selected commit, after a yes", "statement": "glog checks out exactly the commit of the selected line, and only after y or yes; lines of the drawing have no commit; a line is chosen by its number counted from one.", "quantifier": "every log line with any drawing, colours, hash and message; every answer and argument list", "why_tests_cant": "lines and messages are arbitrary", "anchors": ["dsh-builtin/src/glog.rs: command, parse_arguments, extract_commit_hash, strip_ansi_codes, numbered_commit_selection, checkout_commit"]}
{"id": "C148", "title": "Lisp arithmetic", "statement": "The sum, difference, product and quotient of integers in a Lisp program are those of arithmetic, an argument list of any length is worked through, texts are joined, and what has no result (division by zero, a number outside of the range) is an error of the program that the shell survives.", "quantifier": "every list of integers and texts", "why_tests_cant": "integers and argument lists are unbounded; the border cases are few among 2^64", "anchors": ["dsh/src/lisp/stdlib/math.rs: add, sub, multiply, divide, truncate, range", "dsh/src/lisp/model/value.rs: Add, Sub, Mul, Div"]}
{"id": "C149", "title": "Lisp comparison and sort", "statement": "<, <=, > and >= compare two values and return; sort returns the list in order; == is true exactly of equal values.", "quantifier": "every pair of values, list and program", "why_tests_cant": "values are unbounded", "anchors": ["dsh/src/lisp/model/value.rs: PartialOrd, Ord, PartialEq for Value", "dsh/src/lisp/default_environment.rs: <, <=, >, >=, ==, !=", "dsh/src/lisp/stdlib/list.rs: sort"]}
{"id": "C150", "title": "Lisp lists", "statement": "car, cdr and cons take apart and build lists, list, length, reverse and nth give the elements, their number, their reverse and the one at a place, and range a b gives the integers from a up to b, none if there are none.", "quantifier": "every list, place and pair of integers", "why_tests_cant": "lists are unbounded", "anchors": ["dsh/src/lisp/stdlib/list.rs: car, cdr, cons, list, nth, reverse", "dsh/src/lisp/stdlib/math.rs: range", "dsh/src/lisp/default_environment.rs: length", "dsh/src/lisp/stdlib/core.rs: is_null, is_pair"]}
{"id": "C151", "title": "Every Lisp value can be printed", "statement": "Printing a Lisp value gives its text, a list as its elements between brackets, a function as its arguments and its whole body; it never ends the shell.", "quantifier": "every value, with any texts, nested lists and functions", "why_tests_cant": "values are unbounded trees with arbitrary Unicode texts", "anchors": ["dsh/src/lisp/model/value.rs: Display for Value", "dsh/src/lisp/model/list.rs: Display for List", "dsh/src/lisp/model/lambda.rs: Display for Lambda"]}
{"id": "C152", "title": "Lisp hash maps", "statement": "What is put under a key is found under it by all who hold the map, until something else is put there; other keys and other maps do not change; hash with key-value pairs holds the last value of each key, and an odd argument is an error.", "quantifier": "every map, key, value and number of maps", "why_tests_cant": "any number of maps, entries and updates", "anchors": ["dsh/src/lisp/default_environment.rs: hash, hash_get, hash_set", "dsh/src/lisp/model/value.rs: PartialEq and Hash for Value"]}
{"id": "C153", "title": "z goes to the best visited directory", "statement": "z with words goes to the visited directory that matches them best, of equal ones the one used most; without a match it changes nothing; z - goes back; z -l only lists; z -c forgets exactly the directories that are gone.", "quantifier": "every history of visited directories, query, scores, file system and sequence of options", "why_tests_cant": "histories and queries are unbounded, directories vanish at any time", "anchors": ["dsh/src/proxy/builtin/z.rs: execute, parse_z_args", "dsh/src/history/frecency_history.rs: sort_by_match_with_context, prune", "dsh/src/proxy/mod.rs: changepwd, save_path_history"]}
{"id": "C154", "title": "Directory aliases", "statement": "z add gives a name to a directory, z remove takes it back, each changing this name only; z with the name goes to the directory from everywhere; no other command changes the names; z aliases lists each once, in order.", "quantifier": "every name, path and sequence of commands", "why_tests_cant": "sequences and names are unbounded", "anchors": ["dsh/src/proxy/builtin/z.rs: execute, parse_z_args", "dsh/src/history/frecency_history.rs: sort_by_match_with_context, prune", "dsh/src/proxy/mod.rs: changepwd, save_path_history", "dsh/src/proxy/mod.rs: add_dir_alias, remove_dir_alias, list_dir_aliases, get_dir_alias"]}
{"id": "C155", "title": "The window title is harmless and names the program", "statement": "While a command runs in the foreground the window title is the name of the last program of its pipeline without the directory (of the first word, if there are only builtins), as it is if it is short and printable; it is never empty, never longer than 64 characters and has no control character, so that no name can end the sequence and write something else to the terminal; afterwards it is dsh again.", "quantifier": "every job, with any names of programs and any number of processes", "why_tests_cant": "names are arbitrary bytes chosen by whoever wrote the file", "anchors": ["dsh/src/terminal/title.rs: command_title, sanitize_title, last_external_process_name, write_title", "dsh/src/shell/eval.rs: TitleGuard"]}
{"id": "C156", "title": "An answer in Markdown is drawn whole", "statement": "Every character of the text of an answer (text, code, mathematics, HTML, footnote references, the destination of each link after the link) is drawn, in order and once, whatever headings, lists, quotes, tables and styles it stands in; what is added is only colours, marks, numbers, blanks and newlines.", "quantifier": "every sequence of Markdown events", "why_tests_cant": "answers are written by a model: any nesting and any text", "anchors": ["dsh-builtin/src/markdown.rs: render_markdown_with_fallback, TerminalRenderer", "dsh-builtin/src/chatgpt.rs: execute_chat_message"]}
{"id": "C157", "title": "An answer leaves the terminal as it found it", "statement": "After an answer is printed, and at the end of each of its lines, the terminal's colours and styles are what they were; no text in an answer can send the terminal a control sequence of its own.", "quantifier": "every sequence of Markdown events", "why_tests_cant": "answers are written by a model or by pages it read: any control character can stand in them", "anchors": ["dsh-builtin/src/markdown.rs: render_markdown_with_fallback, TerminalRenderer", "dsh-builtin/src/chatgpt.rs: execute_chat_message"]}
{"id": "C158", "title": "Lists, quotes and code are laid out as they are", "statement": "In a numbered list that begins with k the item after i items is numbered k+i, whatever nested lists, quotes and code the items hold, and an outer list goes on where it was; the items of other lists have bullets; each quoted paragraph begins a line with one bar per quotation; a block of code has as many lines as it was written with.", "quantifier": "every nesting of lists and items, from every state of the drawing", "why_tests_cant": "nesting and length are unbounded", "anchors": ["dsh-builtin/src/markdown.rs: render_markdown_with_fallback, TerminalRenderer", "dsh-builtin/src/chatgpt.rs: execute_chat_message"]}
{"id": "C159", "title": "Where a command's completion definition comes from", "statement": "The definition used for a command is the user's own if there is one, otherwise the one that comes with the shell; once read it is kept for the session; nothing in the directory one happens to be in, or beside a program, is read or run by pressing Tab.", "quantifier": "every content of the file system at every moment, every command name and sequence of completions", "why_tests_cant": "files appear and change at any time, names are arbitrary", "anchors": ["dsh/src/completion/json_loader.rs: load_command_completion, validate_completion, default completion dirs", "dsh/src/completion/command.rs: CommandCompletionDatabase", "dsh/src/completion/integrated.rs: ensure_command_loaded"]}
{"id": "C160", "title": "Only well-formed completion definitions are used", "statement": "A definition is used exactly if its command and all its subcommands, at every depth, have names without blanks, each of its options has a form that begins with a dash and is complete, and its arguments are named; no other is ever in use in a session.", "quantifier": "every definition, of any depth, and every session", "why_tests_cant": "definitions are unbounded trees written by hand", "anchors": ["dsh/src/completion/json_loader.rs: load_command_completion, validate_completion, default completion dirs", "dsh/src/completion/command.rs: CommandCompletionDatabase", "dsh/src/completion/integrated.rs: ensure_command_loaded"]}
{"id": "C161", "title": "The option at the cursor is explained", "statement": "While a line is edited, the description of the option the cursor is in or has just passed is shown: that of the innermost subcommand on the line that has the option, and the command's own otherwise.", "quantifier": "every definition, line of words and position of the cursor", "why_tests_cant": "definitions nest and lines grow without bound", "anchors": ["dsh/src/argument_explainer.rs: get_explanation, resolve_command_chain, explain_option", "dsh/src/completion/parser.rs: token_at_cursor", "dsh/src/repl/mod.rs: refresh_argument_explanation"]}
{"id": "C162", "title": "Each external tool has a name of its own", "statement": "After any history of adding, configuring and removing servers, each tool of each registered server has exactly one name and each name one tool; names have lower-case letters, digits and underscores only, begin with the server's and end with the tool's own; calling a name calls this tool at this server with these arguments, and calling anything else calls nothing. A name fits the interface it is sent to.", "quantifier": "every sequence of configuring, adding, clearing, reloading, connecting and disconnecting, every label and tool name (any Unicode), every name called", "why_tests_cant": "labels and tool names are chosen by others, and histories are unbounded", "anchors": ["dsh-builtin/src/chatgpt/mcp/mod.rs: McpManager, sanitize_identifier, unique_name, execute_tool", "dsh/src/environment/mcp.rs: reload_mcp_config, add_mcp_server, clear_mcp_servers", "dsh/src/shell/mod.rs: the configured servers"]}
{"id": "C163", "title": "The registered servers are the configured ones", "statement": "After a reload a configured server (the first of its label) that answers is registered as configured with the tools it lists, a server that is not configured is gone with its tools, and the names of the tools of unchanged servers stay; a name never comes to mean another server's tool; a cleared or disconnected server's tools cannot be called; the status shows the last attempt to connect.", "quantifier": "every history of servers, every answer or silence of each server", "why_tests_cant": "histories are unbounded and servers fail at any time", "anchors": ["dsh-builtin/src/chatgpt/mcp/mod.rs: McpManager, sanitize_identifier, unique_name, execute_tool", "dsh/src/environment/mcp.rs: reload_mcp_config, add_mcp_server, clear_mcp_servers", "dsh/src/shell/mod.rs: the configured servers"]}
{"id": "C164", "title": "A command line given to an external tool is checked as if it were typed", "statement": "Before a tool of an external server is called, the user is asked unless they chose not to be, allowed this call, or the tool only reads; a tool that takes a command line is judged by the command line.", "quantifier": "every history of servers, tool, arguments, safety level and allow-list", "why_tests_cant": "names, labels and arguments are arbitrary", "anchors": ["dsh/src/safety/mod.rs: check_mcp_tool, is_mcp_command_execution_tool, is_read_only_mcp_tool", "dsh/src/ai_features/service.rs: send_request", "dsh-builtin/src/chatgpt/mcp/mod.rs: McpManager, sanitize_identifier, unique_name, execute_tool", "dsh/src/environment/mcp.rs: reload_mcp_config, add_mcp_server, clear_mcp_servers", "dsh/src/shell/mod.rs: the configured servers"]}
{"id": "C165", "title": "In a chat no external tool is called without a yes", "statement": "Whatever the model answers, a tool of an external server is called only right after the user was shown the call and said yes; what is called is the tool bound to the shown name, at its server, with the shown arguments; only the five tools of the shell's own are run otherwise. The servers are the configured ones with the tools they have.", "quantifier": "every behaviour of the model, the servers, the tools and the user, over every number of rounds", "why_tests_cant": "the model's answers are arbitrary and depend on all that was said before", "anchors": ["dsh-builtin/src/chatgpt.rs: chat_with_tools, ConversationManager, extract_message_content, environment_snapshot", "dsh-builtin/src/chatgpt/tool/mod.rs: execute_tool_call", "dsh-builtin/src/chatgpt/mcp/mod.rs: load_blocking, build_from_servers"]}
{"id": "C166", "title": "The model is sent the whole conversation", "statement": "Each request holds the instructions, the present surroundings, the user's question and then, in order, every message and tool result so far, or a summary made from the earlier ones and at least the last six; every call has been answered by exactly one result, in order and by its id, and no result is sent without its call.", "quantifier": "every behaviour of the model, the tools and the user, every length of the conversation", "why_tests_cant": "the history grows without bound and is cut at any point", "anchors": ["dsh-builtin/src/chatgpt.rs: chat_with_tools, ConversationManager, extract_message_content, environment_snapshot", "dsh-builtin/src/chatgpt/tool/mod.rs: execute_tool_call", "dsh-builtin/src/chatgpt/mcp/mod.rs: load_blocking, build_from_servers"]}
{"id": "C167", "title": "A chat ends", "statement": "A chat sends at most a hundred requests for an answer, and it ends.", "quantifier": "every behaviour of the model and the tools", "why_tests_cant": "no finite run shows that a loop ends", "anchors": ["dsh-builtin/src/chatgpt.rs: chat_with_tools, ConversationManager, extract_message_content, environment_snapshot", "dsh-builtin/src/chatgpt/tool/mod.rs: execute_tool_call", "dsh-builtin/src/chatgpt/mcp/mod.rs: load_blocking, build_from_servers"]}
{"id": "C168", "title": "The answer shown is the model's", "statement": "What a chat shows is the text of the model's last message, all of its parts in order; a message that is text and calls no tool ends the chat and is shown.", "quantifier": "every behaviour of the model and the tools, every form of a message", "why_tests_cant": "answers have many forms and come at any point of a chat", "anchors": ["dsh-builtin/src/chatgpt.rs: chat_with_tools, ConversationManager, extract_message_content, environment_snapshot", "dsh-builtin/src/chatgpt/tool/mod.rs: execute_tool_call", "dsh-builtin/src/chatgpt/mcp/mod.rs: load_blocking, build_from_servers"]}
{"id": "C169", "title": "The surroundings told to the model", "statement": "Each request tells the first twelve entries of the directory in the order of their names and the first eight aliases, and how many more there are, each kind of information on a line of its own.", "quantifier": "every directory and set of aliases", "why_tests_cant": "directories are unbounded and listed in any order", "anchors": ["dsh-builtin/src/chatgpt.rs: chat_with_tools, ConversationManager, extract_message_content, environment_snapshot", "dsh-builtin/src/chatgpt/tool/mod.rs: execute_tool_call", "dsh-builtin/src/chatgpt/mcp/mod.rs: load_blocking, build_from_servers"]}
{"id": "C170", "title": "The key and the conversation go to the configured service only", "statement": "Requests to the AI service are encrypted unless the user allowed otherwise; they go to the configured address, with the path of the interface added once, and nowhere else.", "quantifier": "every value of the settings in shell variables and environment", "why_tests_cant": "settings are free text", "anchors": ["dsh-openai/src/config.rs: OpenAiConfig, sanitize_base_url, build_chat_endpoint", "dsh-openai/src/client.rs: ChatGptClient", "dsh-builtin/src/chatgpt.rs: load_openai_config, chat_prompt, chat_model, execute_chat_message, build_system_prompt"]}
{"id": "C171", "title": "The settings of the AI service", "statement": "The key and the model are those of the first variable that is set, AI_CHAT_... before OPENAI_..., and shell variables before the environment; chat_model and chat_prompt take effect with the next request and are what is shown.", "quantifier": "every state of the variables and every text given to the commands", "why_tests_cant": "variables and arguments are free text", "anchors": ["dsh-openai/src/config.rs: OpenAiConfig, sanitize_base_url, build_chat_endpoint", "dsh-openai/src/client.rs: ChatGptClient", "dsh-builtin/src/chatgpt.rs: load_openai_config, chat_prompt, chat_model, execute_chat_message, build_system_prompt"]}
{"id": "C172", "title": "What is sent is what was given", "statement": "A request holds the chosen model, exactly the given messages and tools in order, and the given temperature unless the model takes none; without a key nothing is sent; the answer is the text of the message.", "quantifier": "every list of messages and tools, every setting and every answer", "why_tests_cant": "messages and answers are arbitrary", "anchors": ["dsh-openai/src/config.rs: OpenAiConfig, sanitize_base_url, build_chat_endpoint", "dsh-openai/src/client.rs: ChatGptClient", "dsh-builtin/src/chatgpt.rs: load_openai_config, chat_prompt, chat_model, execute_chat_message, build_system_prompt"]}
{"id": "C173", "title": "A script is run line by line", "statement": "The lines of a script given on standard input are run in order, each once and without the blanks around it, in the state the one before left, whether or not that one failed; blank lines are skipped; what fails is reported, and the script ends at a line that says exit.", "quantifier": "every script and every behaviour of its commands", "why_tests_cant": "scripts are of any length, and each line may do anything", "anchors": ["dsh/src/lib.rs: run_shell, execute_command, execute_lisp, run_interactive", "dsh-builtin/src/lib.rs: exit", "dsh/src/repl/mod.rs: run_interactive (end of the loop)", "dsh/src/repl/key_handlers/execution.rs: handle_execute, handle_interrupt"]}
{"id": "C174", "title": "exit ends the script", "statement": "Once a script, or a line, has run exit, nothing after it is run.", "quantifier": "every script, every line and every way of writing exit", "why_tests_cant": "what follows, and what stands before, is arbitrary", "anchors": ["dsh/src/lib.rs: run_shell, execute_command, execute_lisp, run_interactive", "dsh-builtin/src/lib.rs: exit", "dsh/src/repl/mod.rs: run_interactive (end of the loop)", "dsh/src/repl/key_handlers/execution.rs: handle_execute, handle_interrupt"]}
{"id": "C175", "title": "The status tells what happened", "statement": "dsh leaves with the status of what it ran: -c with the code of the line, -l with 0 exactly if the Lisp could be evaluated, a script with the status of its last command or that given to exit.", "quantifier": "every command, script and status", "why_tests_cant": "statuses depend on everything that is run", "anchors": ["dsh/src/lib.rs: run_shell, execute_command, execute_lisp, run_interactive", "dsh-builtin/src/lib.rs: exit", "dsh/src/repl/mod.rs: run_interactive (end of the loop)", "dsh/src/repl/key_handlers/execution.rs: handle_execute, handle_interrupt"]}
{"id": "C176", "title": "exit leaves the prompt", "statement": "exit at the prompt ends the session: at once if no job is waiting, and otherwise after one warning, by typing it again; the jobs left are then killed, and none without that warning.", "quantifier": "every history of keys, commands and jobs", "why_tests_cant": "depends on the order of turns and on when jobs end", "anchors": ["dsh/src/lib.rs: run_shell, execute_command, execute_lisp, run_interactive", "dsh-builtin/src/lib.rs: exit", "dsh/src/repl/mod.rs: run_interactive (end of the loop)", "dsh/src/repl/key_handlers/execution.rs: handle_execute, handle_interrupt"]}
{"id": "C177", "title": "A recorded macro runs the commands chosen", "statement": "The function saved for a recorded macro, called by its name, runs exactly the commands that were chosen, in their order.", "quantifier": "every name and every list of commands", "why_tests_cant": "depends on every character of the commands as the Lisp reader takes it", "anchors": ["dsh/src/repl/macro_utils.rs:generate_macro_lisp", "dsh/src/repl/key_handlers/auxiliary.rs:handle_macro_record"]}
{"id": "C178", "title": "Recording a macro keeps the configuration", "statement": "After a macro is saved, config.lisp is read as before, with the macro as its last form.", "quantifier": "every configuration, name and list of commands", "why_tests_cant": "a whole file is read again after being changed", "anchors": ["dsh/src/repl/macro_utils.rs:generate_macro_lisp", "dsh/src/repl/key_handlers/auxiliary.rs:handle_macro_record"]}
{"id": "C179", "title": "The palette kills the selected processes only", "statement": "Kill Process kills the selected processes and no others; Port Check kills the process of the selected line, after a yes only.", "quantifier": "every output of ps, lsof and ss and every selection and answer", "why_tests_cant": "depends on every line such a program may write", "anchors": ["dsh/src/command_palette/mod.rs:ActionRegistry,CommandPalette::run", "dsh/src/command_palette/actions/*.rs:execute", "dsh/src/repl/key_handlers/auxiliary.rs:handle_open_command_palette"]}
{"id": "C180", "title": "The palette's git actions are about what was selected", "statement": "Checkout, stash, diff, commit and push/pull run one git command, about the selected branch, entry or file, as it was shown.", "quantifier": "every output of git, every selection and message", "why_tests_cant": "depends on every text git may list", "anchors": ["dsh/src/command_palette/mod.rs:ActionRegistry,CommandPalette::run", "dsh/src/command_palette/actions/*.rs:execute", "dsh/src/repl/key_handlers/auxiliary.rs:handle_open_command_palette"]}
{"id": "C181", "title": "Containers, hosts, files and directories of the palette", "statement": "The container, host or file selected is what docker, ssh or the editor is given; a host of ~/.ssh/config that is no pattern is offered; jumping to a directory is like cd.", "quantifier": "every listing, configuration and selection", "why_tests_cant": "depends on every text that may be listed", "anchors": ["dsh/src/command_palette/mod.rs:ActionRegistry,CommandPalette::run", "dsh/src/command_palette/actions/*.rs:execute", "dsh/src/repl/key_handlers/auxiliary.rs:handle_open_command_palette"]}
{"id": "C182", "title": "The palette lists every action once and runs the chosen one", "statement": "The list holds every registered action once, by category and name, whatever the order of registration; the action chosen is run; registering one takes the place of one of that name and keeps the others; a command chosen from the history becomes the line.", "quantifier": "every registry and choice", "why_tests_cant": "the table's order differs from run to run", "anchors": ["dsh/src/command_palette/mod.rs:ActionRegistry,CommandPalette::run", "dsh/src/command_palette/actions/*.rs:execute", "dsh/src/repl/key_handlers/auxiliary.rs:handle_open_command_palette"]}
{"id": "C183", "title": "A failing palette action leaves the shell running", "statement": "After an action of the palette, successful or not, the session goes on.", "quantifier": "every action, outcome and state of the session", "why_tests_cant": "depends on programs that are missing or fail", "anchors": ["dsh/src/command_palette/mod.rs:ActionRegistry,CommandPalette::run", "dsh/src/command_palette/actions/*.rs:execute", "dsh/src/repl/key_handlers/auxiliary.rs:handle_open_command_palette"]}
{"id": "C184", "title": "A generated completion runs nothing", "statement": "A completion definition that the AI service wrote and comp-gen accepted never makes Tab run a command of its own: no Script is in it, at any depth.", "quantifier": "every JSON text, of any depth, every line and cursor", "why_tests_cant": "the texts are a language model's, unbounded trees", "anchors": ["dsh-builtin/src/comp_gen.rs: command, parse_args, generate_completion, save_completion_json, get_help_text, validate_completion_json", "dsh/src/completion/command.rs: CommandCompletion, SubCommand, CommandOption, Argument, ArgumentType"]}
{"id": "C185", "title": "What comp-gen saves is used", "statement": "A definition that passed the check and was saved is that of the command asked for, and is used from the next completion of the command on.", "quantifier": "every JSON text, command name and state of the session", "why_tests_cant": "the texts are a language model's", "anchors": ["dsh-builtin/src/comp_gen.rs: command, parse_args, generate_completion, save_completion_json, get_help_text, validate_completion_json", "dsh/src/completion/command.rs: CommandCompletion, SubCommand, CommandOption, Argument, ArgumentType", "dsh/src/completion/json_loader.rs: load_command_completion"]}
{"id": "C186", "title": "What comp-gen does", "statement": "comp-gen runs man and, if it says nothing, the named program with --help, asks the service about what they said, and writes only completions/<command>.json, only what passed the check, and nothing under --check or --stdout; its status tells whether that went well.", "quantifier": "every argument list, output of the programs and answer", "why_tests_cant": "depends on every text that programs and a service give", "anchors": ["dsh-builtin/src/comp_gen.rs: command, parse_args, generate_completion, save_completion_json, get_help_text, validate_completion_json", "dsh/src/completion/command.rs: CommandCompletion, SubCommand, CommandOption, Argument, ArgumentType"]}
{"id": "C187", "title": "Every candidate of the menu can be picked", "statement": "In the menu of candidates the arrow keys move over the candidates, every candidate can be reached, Enter takes the selected one and nothing else, and letters that are typed are typed.", "quantifier": "every list of candidates, every sequence of keys, every width of the terminal and every change of it", "why_tests_cant": "unbounded lists and key sequences", "anchors": ["dsh/src/completion/ui.rs: interpret_event, CompletionInteraction::run", "dsh/src/completion/display.rs: new_with_config, calculate_layout, move_up, move_down, move_left, move_right, get_selected"]}
{"id": "C188", "title": "What Tab does to the line", "statement": "A picked candidate takes the place of the word at the cursor, or of the value of the option there; typing a character instead goes on with the line; closing the menu leaves the line as it was; and nothing of this panics.", "quantifier": "every line, cursor, list of candidates and sequence of keys", "why_tests_cant": "unbounded lines and key sequences, many sources", "anchors": ["dsh/src/repl/key_handlers/completion.rs: handle_trigger_completion", "dsh/src/completion/framework.rs: InlineCompletionFramework::select, continue_inline_input", "dsh/src/completion/selection.rs: select_completion_items_with_framework, input_completion", "dsh/src/completion/integrated.rs: completion_replacement_range, option_value_range_from_token"]}
{"id": "C189", "title": "Declared completions are offered", "statement": "A completion declared with autocomplete for a command is offered when an argument of that command is completed, and only then; what is picked is put in as it was listed.", "quantifier": "every set of declarations, line, cursor and sequence of keys", "why_tests_cant": "arbitrary names and lines", "anchors": ["dsh/src/completion/selection.rs: completion_from_lisp_with_prompt, completion_from_cmd", "dsh/src/completion/skim_adapter.rs: replace_space", "dsh/src/lisp/interpreter.rs: autocomplete"]}
{"id": "C190", "title": "Options are read alike wherever they stand", "statement": "For set, dmv, serve and gpr, options written as -x, -xy, -pVALUE, -p VALUE, --name, --name=VALUE or --name VALUE are recognised before, between and after the operands; all words after -- are operands; every other word is an operand in its place; anything else is refused.", "quantifier": "every list of words and every list of options", "why_tests_cant": "arbitrary words; combinations of clusters, values and operands", "anchors": ["dsh-builtin/src/set.rs: command", "dsh-builtin/src/dmv.rs: command", "dsh-builtin/src/gpr.rs: command", "dsh-builtin/src/serve/config.rs: parse_arguments"]}
{"id": "C191", "title": "set assigns", "statement": "set KEY VALUE gives the shell variable KEY the value VALUE, with -x the environment variable that commands started later see; nothing else changes, and a use that changes nothing does not report success.", "quantifier": "every key, value, list of words and environment", "why_tests_cant": "arbitrary strings and states", "anchors": ["dsh-builtin/src/set.rs: command", "dsh/src/proxy/mod.rs: set_var, set_env_var", "dsh/src/environment/variables.rs: get_var"]}
{"id": "C192", "title": "serve serves what was asked, to this machine only", "statement": "serve listens on 127.0.0.1 only, at the port given with -p (8000 otherwise) and for the directory given (the current one otherwise); if it does not serve, it says so on stderr and fails.", "quantifier": "every list of words, current directory, file system and set of ports in use", "why_tests_cant": "arbitrary words and system states", "anchors": ["dsh-builtin/src/serve/mod.rs: command", "dsh-builtin/src/serve/config.rs: parse_arguments, ServeConfig::validate", "dsh-builtin/src/serve/server.rs: start_http_server, run_server_async, HttpServer::start"]}
{"id": "C193", "title": "gpr runs the one gh command asked for", "statement": "gpr runs at most one gh command that changes something: pr create with exactly the title, body, base and draft flag given, pr checkout of the request picked, or the list in the browser; outside a repository, without gh, after a refused option or nothing picked it runs none. It succeeds exactly if that command does.", "quantifier": "every list of words, list of requests, choice and outcome of gh", "why_tests_cant": "arbitrary words and outcomes", "anchors": ["dsh-builtin/src/gpr.rs: command, create_pr, checkout_pr, open_pr_list_web", "dsh-builtin/src/github_client.rs: PrInfo::output"]}
{"id": "C194", "title": "dmv's words", "statement": "dmv tries exactly the renaming given by its two operands; with -n or --dry-run anywhere it renames nothing; any other number of operands or an unknown option is refused before anything is renamed.", "quantifier": "every list of words and every directory", "why_tests_cant": "arbitrary words and directories", "anchors": ["dsh-builtin/src/dmv.rs: command, execute_dmv"]}
{"id": "C195", "title": "The external editor", "statement": "The program started is VISUAL, else EDITOR, else the first of emacsclient, vim and nano that is found; what comes back is the text it leaves; text that is not changed in the editor comes back unchanged, through eview and through Ctrl-X Ctrl-E; if the editor fails the line is kept.", "quantifier": "every setting, text and editor", "why_tests_cant": "depends on every text and on what a program does to a file", "anchors": ["dsh/src/utils/editor.rs: get_editor, open_editor", "dsh-builtin/src/eview.rs: command", "dsh/src/repl/handler.rs: open_editor"]}
{"id": "C196", "title": "ai-commit commits only what was agreed to", "statement": "ai-commit commits only after a yes, with the message that was shown last, at most once; a no leaves without a commit; without staged changes or a key nothing is sent; the dialogue ends.", "quantifier": "every diff, answer of the service, editor and sequence of answers", "why_tests_cant": "unbounded dialogues, arbitrary outside programs", "anchors": ["dsh-builtin/src/commit_ai.rs: command"]}
{"id": "C197", "title": "What a builtin writes arrives where it should", "statement": "A message of a builtin is appended, with one newline, to the file its descriptor stands for, and to no other file; if it cannot be written that is reported and later messages are not affected.", "quantifier": "every table of descriptors, message and failure", "why_tests_cant": "depends on the history of descriptors of the process", "anchors": ["dsh-types/src/lib.rs: Context::write_stdout, Context::write_stderr"]}
{"id": "C198", "title": "gh-notify lists and opens the right notification", "statement": "gh-notify lists the unread notifications of the repositories asked for, in their order; the one taken is opened and, with -m only, marked as read; requests go to GitHub only and only from a terminal with a token; what it reports is true.", "quantifier": "every answer of the service, list of options and choice", "why_tests_cant": "arbitrary answers of a service", "anchors": ["dsh-builtin/src/gh_notify.rs: command, fetch_notifications, filter_notifications, resolve_url, mark_notification_as_read, format_notification_display"]}
{"id": "C199", "title": "procs lists the processes and signals the one selected", "statement": "procs lists the processes of the last report that match the filter, busiest first; some line is selected unless the list is empty, and every one can be reached; a signal goes out only on x (SIGTERM) or X (SIGKILL) outside the filter, to the process that was shown as selected; q and Esc leave.", "quantifier": "every sequence of reports, keys and refreshes", "why_tests_cant": "unbounded interaction with reports that change meanwhile", "anchors": ["dsh-builtin/src/procs.rs: App::refresh_processes, next, previous, kill_selected_process, run_app"]}
{"id": "C200", "title": "The directory in the prompt", "statement": "In a repository the prompt shows its name and the path below it; elsewhere the path, with ~ for the home directory where the path is the home directory or below it.", "quantifier": "every current directory, repository and home directory", "why_tests_cant": "arbitrary paths", "anchors": ["dsh/src/prompt/modules/directory.rs: format_prompt_path"]}
{"id": "C201", "title": "The counts of the git prompt", "statement": "Every kind of change is shown by its mark with its count exactly if there is one; a clean tree that is level with its upstream shows only the branch; ahead and behind are shown with their counts.", "quantifier": "all counts", "why_tests_cant": "all numbers", "anchors": ["dsh/src/prompt/modules/git.rs: render"]}
{"id": "C202", "title": "Users, groups and interfaces offered", "statement": "The users offered are those in the user file (without system users: root and those from 1000 on) that begin with the word typed, in any case, in order; likewise the groups and the network interfaces, loopback last.", "quantifier": "every file, word and list of devices", "why_tests_cant": "arbitrary file contents", "anchors": ["dsh/src/completion/generators/user.rs", "dsh/src/completion/generators/group.rs", "dsh/src/completion/generators/interface.rs"]}
{"id": "C203", "title": "mcp does what its words say", "statement": "mcp runs exactly the one request its words name, with the label given as one text; it succeeds exactly if the request does; the list of tools is shown whatever their descriptions.", "quantifier": "every list of words, label and description", "why_tests_cant": "arbitrary strings", "anchors": ["dsh-builtin/src/mcp.rs: command", "dsh/src/proxy/builtin/lisp.rs: execute", "dsh/src/lisp/stdlib/mcp.rs: list tools"]}
{"id": "C204", "title": "tm shows what was kept", "statement": "tm writes the output of the command picked to stdout and its errors to stderr as they were kept, and nothing if none is picked.", "quantifier": "every history, choice and table of descriptors", "why_tests_cant": "arbitrary outputs", "anchors": ["dsh-builtin/src/tm.rs: command"]}
{"id": "C205", "title": "reload reports what happened", "statement": "reload evaluates the configuration and succeeds exactly if that does; its messages name it, and say what went wrong: the file missing, not readable, not valid, or an expression failing.", "quantifier": "every list of words and every outcome and error text", "why_tests_cant": "arbitrary error texts", "anchors": ["dsh-builtin/src/reload.rs: command, perform_reload", "dsh/src/proxy/builtin/reload.rs: execute, format_reload_error", "dsh/src/lisp/mod.rs: run_config_lisp"]}
{"id": "C206", "title": "The prompt shows the repository it is in", "statement": "The prompt shows the branch and the counts of the repository enclosing the current directory: the branch HEAD names now, and counts git gave for that repository.", "quantifier": "every history of directory changes, prompts and background tasks, and every disk", "why_tests_cant": "interleavings of the background task with directory changes", "anchors": ["dsh/src/prompt/mod.rs: set_current, print_preprompt, update_git_root, update_git_status, get_git_status_cached", "dsh/src/repl/mod.rs: the git background task"]}
{"id": "C207", "title": "git status is counted rightly", "statement": "From the lines git writes, the prompt counts the staged, modified, untracked, conflicted, renamed and deleted paths and the commits ahead and behind.", "quantifier": "every list of lines git may write", "why_tests_cant": "unbounded lists of lines and paths", "anchors": ["dsh/src/prompt/mod.rs: parse_git_status_output, fetch_git_status_sync"]}
{"id": "C208", "title": "The branch is read from HEAD", "statement": "The name shown is the branch HEAD names, or the first seven characters of the commit checked out; any HEAD can be read.", "quantifier": "every content of HEAD", "why_tests_cant": "arbitrary file contents", "anchors": ["dsh/src/prompt/mod.rs: get_head_branch"]}
{"id": "C209", "title": "Context from tools is current and asked for sparingly", "statement": "The cluster, container and cloud contexts shown are what the tools say now; after a failure the shell waits 5 seconds to 5 minutes, doubling, before it asks again; only one question is under way.", "quantifier": "every history of ticks and answers", "why_tests_cant": "unbounded histories", "anchors": ["dsh/src/prompt/mod.rs: BackoffGate, should_check_k8s, should_check_docker", "dsh/src/repl/mod.rs: context checks on the tick"]}
{"id": "C210", "title": "The prompt shows how the last command went", "statement": "A failing status is shown with its number and success shows nothing; a command of two seconds or more shows its time in minutes and seconds.", "quantifier": "every status and time", "why_tests_cant": "unbounded numbers", "anchors": ["dsh/src/prompt/modules/exit_status.rs: render", "dsh/src/prompt/modules/execution_time.rs: render"]}
{"id": "C211", "title": "The nearest file of a name is used", "statement": "A version file, and a file that sets up the environment, is the one in the nearest directory above that has it.", "quantifier": "every disk, directory and name", "why_tests_cant": "unbounded depths", "anchors": ["dsh-builtin/src/project_context.rs: find_path_upwards"]}
{"id": "C212", "title": "The version named in a file is read", "statement": "From a plain file the first line that is neither blank nor a comment; from .tool-versions the version on the first line about the tool; from mise.toml the text, the version of the table, or the first of a list.", "quantifier": "every content", "why_tests_cant": "arbitrary contents", "anchors": ["dsh-builtin/src/project_context.rs: read_trimmed_file, parse_tool_versions, parse_mise_tool_version, extract_version_from_toml"]}
{"id": "C213", "title": "The runtime shown is the one in force", "statement": "The runtime of a language is shown for a project that uses it, with the version of the first place that names one: mise, .tool-versions, the language's own file, the project's file; the nearest setting wins and the file named is there.", "quantifier": "every disk, directory and project root", "why_tests_cant": "arbitrary trees of files", "anchors": ["dsh-builtin/src/project_context.rs: detect_rust_runtime, detect_node_runtime, detect_python_runtime, detect_go_runtime, detect_runtime_from_rust_toolchain"]}
{"id": "C214", "title": "The files that set up the environment are listed", "statement": "doctor lists the nearest .envrc, .env, .venv and venv of the project; they are the ones pm activate applies.", "quantifier": "every disk and directory", "why_tests_cant": "arbitrary trees of files", "anchors": ["dsh-builtin/src/project_context.rs: detect_activations, dedup_activations", "dsh-builtin/src/doctor.rs: check_project"]}
{"id": "C215", "title": "Every task of the project is listed", "statement": "task lists, once each, the tasks of mise, Taskfile, turbo, nx, package.json, cargo, make, deno and just that the files of the project's root define, with the command of the tool; a file that cannot be read costs only its own tasks.", "quantifier": "every disk, directory and contents", "why_tests_cant": "arbitrary files", "anchors": ["dsh-builtin/src/task.rs: detect_tasks_in_dir, detect_js_manager, dedup_task_infos", "dsh-builtin/src/project_context.rs: detect_task_names_in_dir, detect_mise_tasks, detect_turbo_tasks, detect_nx_tasks"]}
{"id": "C216", "title": "make's targets are listed", "statement": "The tasks of make are the targets of the Makefile.", "quantifier": "every text make writes", "why_tests_cant": "arbitrary texts", "anchors": ["dsh-builtin/src/task.rs: detect_tasks_in_dir"]}
{"id": "C217", "title": "Comments in deno.jsonc are taken out", "statement": "Reading deno.json takes out comments and nothing else.", "quantifier": "every text", "why_tests_cant": "arbitrary texts", "anchors": ["dsh-builtin/src/task.rs: remove_jsonc_comments"]}
{"id": "C218", "title": "A task's command runs that task", "statement": "The command given to the shell is the tool's words and the name of the task, as one word.", "quantifier": "every listed task", "why_tests_cant": "arbitrary names", "anchors": ["dsh-builtin/src/task.rs: execute_task, detect_tasks_in_dir"]}
{"id": "C219", "title": "The services of a compose file are offered", "statement": "Behind docker compose the services of the project's compose file are offered, each once, and nothing else.", "quantifier": "every contents of the file", "why_tests_cant": "arbitrary texts", "anchors": ["dsh/src/completion/dynamic.rs: parse_compose_services"]}
{"id": "C220", "title": "The nearest compose file is used", "statement": "The compose file is the one in the nearest directory above that has one, compose.yaml before compose.yml before docker-compose.yaml before docker-compose.yml.", "quantifier": "every disk and directory", "why_tests_cant": "unbounded depths", "anchors": ["dsh/src/completion/dynamic.rs: find_compose_file"]}
{"id": "C221", "title": "Offered tasks and services are up to date", "statement": "However often completion is asked for while the files change, the tasks and services offered are those the files give at that moment.", "quantifier": "every history of states of the disk and completions", "why_tests_cant": "unbounded histories", "anchors": ["dsh/src/completion/dynamic.rs: load_project_tasks, load_compose_services, task_completion_signature, file_metadata_signature"]}
{"id": "C222", "title": "Values of slow programs are refreshed in the background", "statement": "Branches, contexts and the like come from the last refresh that succeeded; a refresh is started when they are a second old; at most one of a kind runs; typing never waits.", "quantifier": "every history of completions and ends of refreshes", "why_tests_cant": "unbounded histories", "anchors": ["dsh/src/completion/dynamic.rs: load_command_values, spawn_command_refresh, load_external_candidates"]}
{"id": "C223", "title": "Branches of one repository are not offered in another", "statement": "Two directories that share the values kept of git are in the same repository.", "quantifier": "every disk and two directories", "why_tests_cant": "arbitrary trees", "anchors": ["dsh/src/completion/dynamic.rs: git_scope"]}
{"id": "C224", "title": "Remotes, branches and namespaces are offered where they belong", "statement": "Behind git push, pull and fetch the remotes are offered first and then the branches, behind checkout, switch, merge and rebase the branches, behind docker compose and a command the services; behind kubectl's -n the namespaces.", "quantifier": "every definition, command line and word begun", "why_tests_cant": "arbitrary lines", "anchors": ["dsh/src/completion/dynamic.rs: collect_git_candidates, collect_docker_candidates, collect_kubectl_candidates", "dsh/src/completion/integrated.rs: collect_dynamic_candidates"]}
{"id": "C225", "title": "A slow program does not hold completion", "statement": "A program asked while completing is waited for 1.5 seconds at most.", "quantifier": "every running time of the program and of those it starts", "why_tests_cant": "unbounded times", "anchors": ["dsh/src/completion/dynamic.rs: wait_and_collect_lines"]}
{"id": "C226", "title": "What a completing program says is offered", "statement": "Of each line the text before the first tab is offered, described by what is behind it, if it matches the word begun; nothing if the program fails or is late; the working trees are those git lists; a task's description is cut at 80 characters.", "quantifier": "every answer", "why_tests_cant": "arbitrary texts", "anchors": ["dsh/src/completion/dynamic.rs: run_external_completer_for_key, collect_git_worktrees, format_task_description, truncate_string"]}
{"id": "C227", "title": "The model does not read ignored files", "statement": "A file that the project's .gitignore ignores, itself or with a folder it is in, is not read, listed or changed by the chat's tools.", "quantifier": "every set of rules, path and folder", "why_tests_cant": "arbitrary rules and trees", "anchors": ["dsh-builtin/src/chatgpt/tool/gitignore.rs: is_gitignored", "dsh-builtin/src/chatgpt/tool/read.rs: run"]}
{"id": "C228", "title": "The model is shown a folder's entries", "statement": "The listing of a folder has a line for every entry that is not ignored and for no other, in the order of names, with kind and size.", "quantifier": "every folder and set of rules", "why_tests_cant": "arbitrary folders", "anchors": ["dsh-builtin/src/chatgpt/tool/ls.rs: run"]}
{"id": "C229", "title": "Searching for text shows the files that have it", "statement": "A search shows, for the files reached that have the text, the first line with it and its number, at most fifty, and says when more were left out; ignored files are not shown.", "quantifier": "every tree, rules, query and folder", "why_tests_cant": "arbitrary trees of files", "anchors": ["dsh-builtin/src/chatgpt/tool/search.rs: run"]}
{"id": "C230", "title": "Searching for a name shows the files of that name", "statement": "A search by name shows the files whose name fits the pattern.", "quantifier": "every path and pattern of characters, stars and question marks", "why_tests_cant": "arbitrary patterns", "anchors": ["dsh-builtin/src/chatgpt/tool/search.rs: run"]}
{"id": "C231", "title": "history lists what was asked for", "statement": "Whatever its words, in any order, history lists exactly the entries that fit the query, scope, status and duration given, newest first and up to the limit; the last of an option given twice counts; what is not understood is refused.", "quantifier": "every history of the session and every list of words", "why_tests_cant": "unbounded histories and word lists", "anchors": ["dsh/src/proxy/builtin/history.rs: execute, HistoryOptions, format_entry", "dsh/src/history/command_history.rs: search_entries"]}
{"id": "C232", "title": "out shows what was captured", "statement": "out shows what the newest captured command wrote and out N what the N-th newest wrote; out --list shows every capture with its number, size and first line; out --clear forgets them.", "quantifier": "every history of captures and every number", "why_tests_cant": "unbounded histories, arbitrary texts", "anchors": ["dsh-builtin/src/out.rs: command, show_output, list_outputs, clear_outputs, print_last_stdout"]}
{"id": "C233", "title": "read assigns what it reads", "statement": "read NAME gives NAME the next line of its input, touches nothing else, and leaves the rest of the input to those that follow.", "quantifier": "every input, name, environment and set of open descriptors", "why_tests_cant": "arbitrary inputs and states", "anchors": ["dsh/src/proxy/builtin/var.rs: execute_read"]}
{"id": "C234", "title": "The notification counts are right", "statement": "In a repository the prompt shows how many GitHub notifications there were at the last check: requests for review, mentions and the others, each counted once, without those of reasons the user has filtered out and without requests for reviews of pull requests that are over.", "quantifier": "every answer of the service, filter, order of answers and history of checks", "why_tests_cant": "answers and histories are unbounded; the requests run concurrently", "anchors": ["dsh/src/github.rs: fetch_notifications, parse_notifications, check_github", "dsh/src/prompt/mod.rs: print_preprompt"]}
{"id": "C235", "title": "Only finished review requests are changed", "statement": "Checking for notifications changes nothing at the service but marking as read the requests for review of pull requests that are closed or merged, never those the user has filtered out, and sends the token only to the service.", "quantifier": "every answer of the service and filter", "why_tests_cant": "arbitrary answers", "anchors": ["dsh/src/github.rs: fetch_notifications, is_pr_closed_or_merged, mark_notification_as_read"]}
{"id": "C236", "title": "The service is asked when the settings say so", "statement": "Without a token, or outside repositories, the service is never asked; otherwise it is asked at the interval set, and a setting changed in a running shell takes effect.", "quantifier": "every history of settings and intervals", "why_tests_cant": "unbounded histories", "anchors": ["dsh/src/repl/mod.rs: run_interactive", "dsh/src/github.rs: background_github_task"]}
{"id": "C237", "title": "The commands offered are those of PATH", "statement": "For a word, Tab's fallback offers every executable in a directory of PATH that matches it, once, earlier directories first and in the order of names; nothing that cannot be executed.", "quantifier": "every PATH, content of its directories and word", "why_tests_cant": "arbitrary directories and names", "anchors": ["dsh/src/completion/commands.rs: get_commands, get_executables_into", "dsh/src/dirs.rs: is_executable"]}
{"id": "C238", "title": "One candidate for a name", "statement": "Of several candidates of one name one is left, in the place of the first; a command is preferred to a file.", "quantifier": "every list of candidates", "why_tests_cant": "arbitrary lists", "anchors": ["dsh/src/completion/commands.rs: deduplicate_candidates"]}
{"id": "C239", "title": "What is offered for a word", "statement": "For a word that is no path, the matching entries of the directory and the matching commands are offered; for the name of a directory its entries.", "quantifier": "every directory, PATH and word", "why_tests_cant": "arbitrary directories and names", "anchors": ["dsh/src/completion/selection.rs: collect_current_context_candidates, get_file_completions_with_filter_sync"]}
{"id": "C240", "title": "Tab's fallback shows what there is now", "statement": "The files and commands shown for a word are those of the moment and directory in which Tab is pressed.", "quantifier": "every history of presses", "why_tests_cant": "unbounded histories and times", "anchors": ["dsh/src/completion/selection.rs: completion_from_current_with_prompt", "dsh/src/completion/cache.rs: lookup, set, extend_ttl"]}
{"id": "C241", "title": "The signals offered", "statement": "Where a signal is wanted, Tab offers exactly the signals whose name, with or without SIG and in any case, or whose number begins with what was typed, each once.", "quantifier": "every word", "why_tests_cant": "arbitrary texts", "anchors": ["dsh/src/completion/generators/signal.rs: SignalGenerator, SIGNALS"]}
{"id": "C242", "title": "The processes offered", "statement": "Where a process is wanted, Tab offers the running processes whose number begins with what was typed or whose name holds it in any case, by number.", "quantifier": "every list of processes, word and history of presses", "why_tests_cant": "processes come and go between presses; unbounded histories", "anchors": ["dsh/src/completion/generators/process.rs: ProcessGenerator::generate_candidates, get_all_processes"]}
{"id": "C243", "title": "The system's commands offered", "statement": "Where a command is wanted as argument, Tab offers the matching executables of PATH as they are now, at most five hundred; nothing is ever offered that was not there.", "quantifier": "every history of presses, scans, settings of PATH and changes of the disk", "why_tests_cant": "unbounded histories with a background scan", "anchors": ["dsh/src/completion/generators/system.rs: SystemCommandGenerator, set_global_system_commands, clear_global_system_commands"]}
{"id": "C244", "title": "The command name suggested", "statement": "For a word in the place of a command the first executable of PATH, in order of names, that begins with it is suggested, and accepting it changes nothing else in the line.", "quantifier": "every PATH, content of its directories, word and line", "why_tests_cant": "arbitrary directories, lists and lines; a binary search", "anchors": ["dsh/src/environment/paths.rs: search_prefix, search", "dsh/src/environment/mod.rs: collect_executables", "dsh/src/dirs.rs: search_file", "dsh/src/repl/completion.rs: complete_command_word, replace_range"]}
{"id": "C245", "title": "The names kept between sessions are right", "statement": "The names of commands kept from an earlier session are used only if they are still those of PATH.", "quantifier": "every PATH, earlier session and change of the disk", "why_tests_cant": "unbounded changes between sessions", "anchors": ["dsh/src/environment/mod.rs: load_cached_executables, save_cached_executables, executable_cache_signature"]}
{"id": "C246", "title": "The name suggested follows PATH", "statement": "After PATH is set or a command is installed, the suggestion is that of the new PATH as it is on disk.", "quantifier": "every history of scans and settings of PATH", "why_tests_cant": "unbounded histories with a background scan", "anchors": ["dsh/src/environment/paths.rs: reload_path, search_prefix", "dsh/src/lib.rs: run_shell"]}
{"id": "C247", "title": "What the diagnosis of a command sends", "statement": "Alt+D after a failed command sends the service its line, its status and what it wrote, cleaned and cut; later requests are the conversation so far; after a success nothing is sent.", "quantifier": "every command, output, status, answers of the service and keys", "why_tests_cant": "arbitrary texts and unbounded dialogs", "anchors": ["dsh/src/repl/key_handlers/ai.rs: handle_ai_diagnose", "dsh/src/ai_features/analysis.rs: diagnose_output, diagnose_output_continue", "dsh/src/process/job_pty.rs: capture_job"]}
{"id": "C248", "title": "The command taken from an answer", "statement": "The command put on the line is what stands in the first block for the shell in the answer, without the blanks around it.", "quantifier": "every answer", "why_tests_cant": "arbitrary texts", "anchors": ["dsh/src/ai_features/ui.rs: extract_command"]}
{"id": "C249", "title": "The dialog of the diagnosis", "statement": "The line changes only when Ctrl+Y or Alt+A is pressed, to the command of the newest answer; a question is what was written; Esc and Ctrl+C leave; the terminal is afterwards as before.", "quantifier": "every list of keys and answers of the service", "why_tests_cant": "unbounded dialogs", "anchors": ["dsh/src/ai_features/ui.rs: AiChatUi::run", "dsh/src/repl/key_handlers/ai.rs: handle_ai_diagnose"]}
{"id": "C250", "title": "The prompt comes back in raw mode", "statement": "After every line of an interactive session, however its commands end, the terminal is in raw mode again, so keys work as before.", "quantifier": "every line, list of jobs and way they end", "why_tests_cant": "arbitrary lists of jobs and endings", "anchors": ["dsh/src/shell/eval.rs: eval_str, launch_subshell", "dsh/src/process/job_pty.rs: ForegroundPtyRawModeGuard"]}
{"id": "C251", "title": "Commands find the terminal as they expect it", "statement": "While a command runs the terminal is in raw mode only if the command has a terminal of its own, to which the keys are passed on; in a script never.", "quantifier": "every line, list of jobs and way they end", "why_tests_cant": "arbitrary lists of jobs", "anchors": ["dsh/src/shell/eval.rs: eval_str", "dsh/src/process/job_pty.rs: should_enable_foreground_pty_raw_mode"]}
{"id": "C252", "title": "The mode of the terminal over a session", "statement": "Through every history of lines, pickers, palettes, macros and diagnoses the terminal is in raw mode at the prompt, and is left as it was at the end, also of scripts.", "quantifier": "every history of actions and every script", "why_tests_cant": "unbounded histories", "anchors": ["dsh/src/repl/mod.rs: setup, Drop, run_interactive", "dsh/src/repl/key_handlers/auxiliary.rs: handle_open_command_palette, handle_macro_record", "dsh/src/lib.rs: execute_command"]}
{"id": "C253", "title": "Opening the history of an earlier version", "statement": "Opening a database of any earlier version loses nothing, brings every table and column that is needed, is the same when repeated or when the shell was killed in between, and succeeds.", "quantifier": "every database and every point at which the shell is killed", "why_tests_cant": "crash points and arbitrary contents", "anchors": ["dsh/src/db.rs: Db::new, init_schema"]}
{"id": "C254", "title": "The output of a command on a terminal of its own", "statement": "All that a command writes is shown and kept in order before the prompt is back; on a terminal each newline gets a return before it unless it has one, however the output is cut into pieces, and nothing else is changed.", "quantifier": "every output, every way it is cut and every order of the steps of the tasks", "why_tests_cant": "unbounded schedules", "anchors": ["dsh/src/process/io.rs: PtyMonitor, normalize_tty_newlines", "dsh/src/process/job_pty.rs: setup_pty, capture_output_and_history"]}
{"id": "C255", "title": "Typing while a command runs", "statement": "Each key typed while a command runs reaches the command or, when it has ended, the prompt: in order, once, and none is lost.", "quantifier": "every order of typing, reading, passing on and ending", "why_tests_cant": "schedules", "anchors": ["dsh/src/process/job_pty.rs: setup_pty_input_proxy, capture_output_and_history", "dsh/src/process/async_io.rs: AsyncStdin, AsyncPtyMasterWriter"]}
{"id": "C256", "title": "The prompt comes back", "statement": "The prompt comes back when the command ends or is stopped.", "quantifier": "every order of the steps of the command, of the processes it left and of the shell", "why_tests_cant": "schedules", "anchors": ["dsh/src/process/job_pty.rs: manage_execution, capture_output_and_history", "dsh/src/process/job_wait.rs: put_in_foreground"]}
{"id": "C257", "title": "The question before a dangerous command", "statement": "A command that needs a yes runs only when the person answers the question with y, or a for always; no, Esc, Enter, Ctrl+C and errors mean no.", "quantifier": "every sequence of events of the terminal", "why_tests_cant": "unbounded sequences of keys", "anchors": ["dsh/src/repl/confirmation.rs: confirm_action"]}
{"id": "C258", "title": "A question answered with a line", "statement": "Yes is a line that holds y or Y and blanks; everything else and the end of the input is no; exactly one line is taken.", "quantifier": "every input", "why_tests_cant": "all texts", "anchors": ["dsh/src/proxy/mod.rs: confirm_action"]}
{"id": "C259", "title": "Keys pressed twice", "statement": "Pressing Esc twice within 400 ms puts sudo before the line or takes it off, once for each pair; Ctrl+C twice in a row within three seconds leaves a debug build; nothing else does.", "quantifier": "every sequence of keys at any times", "why_tests_cant": "unbounded histories and times", "anchors": ["dsh/src/repl/state.rs: DoublePressState", "dsh/src/repl/handler.rs: handle_key_event", "dsh/src/repl/key_handlers/execution.rs: handle_interrupt"]}
{"id": "C260", "title": "Secrets in the report of doctor", "statement": "doctor shows at most the last four characters of the key of the AI service and no other secret.", "quantifier": "every key and every setting", "why_tests_cant": "must hold for every secret (two runs are compared)", "anchors": ["dsh-builtin/src/doctor.rs: mask_secret, check_ai"]}
{"id": "C261", "title": "Settings shown by doctor", "statement": "The model, the address and the absence of a key that doctor shows are those that requests use.", "quantifier": "every set of variables", "why_tests_cant": "all values of variables", "anchors": ["dsh-builtin/src/doctor.rs: check_ai", "dsh-openai/src/config.rs: from_getter, sanitize_base_url"]}
{"id": "C262", "title": "Sections of doctor", "statement": "Without a word doctor shows all sections in order; a word shows its section alone; any other word is refused.", "quantifier": "every word", "why_tests_cant": "all texts", "anchors": ["dsh-builtin/src/doctor.rs: command, is_known_section, show_section"]}
{"id": "C263", "title": "Changed files in doctor", "statement": "Each changed file is reported once, in order, under its new name.", "quantifier": "every list of changes", "why_tests_cant": "unbounded lists and all names", "anchors": ["dsh-builtin/src/doctor.rs: parse_git_status_short"]}
{"id": "C264", "title": "Checks suggested by doctor", "statement": "A check is suggested exactly when a changed file asks for it, and once; more changes never drop a check.", "quantifier": "every list of changed files", "why_tests_cant": "unbounded lists", "anchors": ["dsh-builtin/src/doctor.rs: validation_commands_for_paths, add_command"]}
{"id": "C265", "title": "Stale copies of skills", "statement": "A copy of a skill is taken as current exactly when it holds the same files with the same texts, whatever the order of the entries.", "quantifier": "every two trees of files, of any depth", "why_tests_cant": "unbounded trees", "anchors": ["dsh-builtin/src/doctor.rs: skill_dirs_match, relative_files"]}
{"id": "C266", "title": "Servers of tools in the configuration", "statement": "A form that adds a server either adds exactly the server that its arguments describe, at the end of the list, or is an error that changes nothing; after any forms the servers are those added since the last mcp-clear.", "quantifier": "every list of forms with any values as arguments", "why_tests_cant": "unbounded lists and nested values", "anchors": ["dsh/src/lisp/stdlib/mcp.rs: mcp-add-stdio, mcp-add-sse, mcp-add-http, mcp-clear", "dsh/src/lisp/utils.rs: list_of_strings, list_of_pairs, optional_string, optional_bool", "dsh/src/environment/mcp.rs: add_mcp_server"]}
{"id": "C267", "title": "Show Environment", "statement": "The palette lists each variable once, with its value in the shell, sorted.", "quantifier": "every set of variables of the shell and of the process", "why_tests_cant": "all texts", "anchors": ["dsh/src/command_palette/actions/show_env.rs: execute"]}
{"id": "C268", "title": "Bytes of the screen", "statement": "What is drawn reaches the terminal once, in order, at the flush and not before.", "quantifier": "every sequence of writes and flushes, with any failures", "why_tests_cant": "histories and failures at any byte", "anchors": ["dsh/src/terminal/renderer.rs: flush, write"]}
{"id": "C269", "title": "Versions of tools in the prompt", "statement": "The prompt shows the version of Rust, Node, Python or Go exactly in projects of that tool, and it is the version of the current directory.", "quantifier": "every order of changes of directory, idle ticks and answers of the tools, with any failures", "why_tests_cant": "schedules: the tools answer in the background", "anchors": ["dsh/src/prompt/mod.rs: set_current, needs_rust_check, update_rust_version", "dsh/src/prompt/modules/rust.rs: render", "dsh/src/repl/mod.rs: run_interactive"]}
{"id": "C270", "title": "Answers of tools", "statement": "The version, context, namespace and profile shown are those that the tools print or that the variables hold.", "quantifier": "every output of the tools and every value of the variables", "why_tests_cant": "all texts", "anchors": ["dsh/src/prompt/mod.rs: fetch_rust_version_async, fetch_python_version_async, fetch_go_version_async, fetch_k8s_info_async, fetch_docker_context_async, fetch_aws_profile", "dsh/src/prompt/modules/kubernetes.rs: render"]}
{"id": "C271", "title": "Time limit of completion commands", "statement": "A command that completes arguments is given up after its time; what a command printed that ended well in time is all used; a command is not ended before its time, and one that prints a lot is not stuck.", "quantifier": "every order of the steps of the command, of the processes it leaves and of the two threads of the shell, with any output and any times", "why_tests_cant": "schedules", "anchors": ["dsh/src/completion/generators/script.rs: run_with_timeout", "dsh/src/completion/dynamic.rs: wait_and_collect_lines"]}
{"id": "C272", "title": "Skills offered to the assistant", "statement": "Every skill in the folder, and nothing else, is offered by one line with its name and the description that it gives itself, cut to a bounded length.", "quantifier": "every folder, every name and every text of a skill", "why_tests_cant": "all texts", "anchors": ["dsh-builtin/src/chatgpt/skills.rs: extract_skill_summary, split_frontmatter, frontmatter_field, load_skills, get_system_prompt_fragment"]}
{"id": "C273", "title": "Skills are up to date", "statement": "Every request to the assistant offers the skills as they are in the folder at that moment.", "quantifier": "every history of changes of the folder between requests", "why_tests_cant": "histories", "anchors": ["dsh-builtin/src/chatgpt/skills.rs: get_system_prompt_fragment, skills_dir_signature"]}
{"id": "C274", "title": "History while the shell starts", "statement": "Once the shell has started, the history holds its ten thousand newest commands, each once and in order, and every command run meanwhile is in it and is saved.", "quantifier": "every table of saved commands, and every order of the commands run, the writer and the steps of the thread that loads the history", "why_tests_cant": "schedules", "anchors": ["dsh/src/lib.rs: the thread that loads the history", "dsh/src/history/command_history.rs: load_recent, load_older_than, prepend, write_batch, start_background_writer"]}
