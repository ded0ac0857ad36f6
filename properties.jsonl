{"id": "C01", "title": "Products are written directly inside the output directory", "statement": "Whatever path a build script passes as a source (absolute, nested, containing '..'), the object file Bob names for it is a file placed directly in <out>/bob/: the part after that directory contains no '/', so no source can make Bob write its object elsewhere.", "quantifier": "every source path (any NUL-free byte string), every output directory, every product kind", "why_tests_cant": "The space of source paths is infinite; a test exercises a handful of names.", "anchors": ["src/cookie.h:gen_cookie", "src/class/linker.c:prep_link", "src/str.c:str_hash"]}
{"id": "C02", "title": "Distinct sources get distinct object files", "statement": "Two different source paths never share an object file, so compiling one can never overwrite or be mistaken for the other.", "quantifier": "every pair of different source paths", "why_tests_cant": "Names combine a flattened path with a 64-bit hash; collisions are astronomically unlikely to be hit by examples but exist and must be located by reasoning over all pairs.", "anchors": ["src/cookie.h:gen_cookie", "src/str.c:str_hash", "src/class/cc.c:prep_compile"]}
{"id": "C03", "title": "Side files never clash with products or with other side files", "statement": "The bookkeeping files kept next to a product (recorded flags, include dependencies, saved log) never coincide with any product, nor with a bookkeeping file of another product or of another kind.", "quantifier": "every pair of products and side-file kinds", "why_tests_cant": "Any source path may itself contain text such as '.cookie.' or '.flags'; only a proof over all names excludes ambiguity.", "anchors": ["src/frugal.c:frugal_flags", "src/class/cc.c:get_include_deps", "src/class/cc.c:validate_requirements", "src/cmd.c:cmd_log", "src/cookie.h:gen_cookie"]}
{"id": "C04", "title": "Name of a link product identifies its inputs", "statement": "The product of linking or archiving does not depend on the order in which the inputs are listed, and link calls over different inputs have different products.", "quantifier": "every list of inputs and every reordering of it; every pair of input lists", "why_tests_cant": "Requires all permutations and all pairs of lists.", "anchors": ["src/class/linker.c:prep_link", "src/str.c:str_hash"]}
{"id": "C05", "title": "Different build rules get different products", "statement": "Compiling the same source with two compilers configured with different flags, or linking the same inputs with two differently configured linkers, produces two separate files.", "quantifier": "every source/input list and every pair of flag lists", "why_tests_cant": "Names would have to be compared for every pair of flag lists.", "anchors": ["src/class/cc.c:prep_compile", "src/class/linker.c:prep_link"]}
{"id": "C06", "title": "Build requests are executed in script order, each exactly once", "statement": "Running the build performs the requested compile, link and archive operations in the order the script issued them; merging of consecutive requests on one compiler neither drops, duplicates nor reorders any request.", "quantifier": "every sequence of requests issued by a script", "why_tests_cant": "The number of request sequences is unbounded.", "anchors": ["src/build_step.c:add_build_step", "src/build_step.c:run_build_steps"]}
{"id": "C07", "title": "A failing step stops the build and is reported", "statement": "If a step fails, no later step is executed and the build reports failure; if the build reports success then every step was executed and succeeded.", "quantifier": "every step list and every pattern of step outcomes", "why_tests_cant": "All failure patterns at all positions.", "anchors": ["src/build_step.c:run_build_steps", "src/bsys/bob/main.c:build", "src/bsys.c:bsys_build"]}
{"id": "C08", "title": "No job is run twice", "statement": "However the worker threads are scheduled, each queued compile job is started at most once, and jobs are claimed in queue order.", "quantifier": "every number of workers, every job list, every interleaving of worker steps", "why_tests_cant": "A test observes one schedule; races show only in rare ones.", "anchors": ["src/pool.c:businessman", "src/pool.c:pool_add_task", "src/pool.c:pool_start"]}
{"id": "C09", "title": "A successful wait means every job ran and finished", "statement": "When waiting for the pool reports success, every queued job has been executed exactly once, has finished, and did not ask to stop.", "quantifier": "every number (at least one) of workers, every job list, every interleaving", "why_tests_cant": "All schedules are needed; in particular the ones where workers start late.", "anchors": ["src/pool.c:businessman", "src/pool.c:pool_wait"]}
{"id": "C10", "title": "A failing job is always reported", "statement": "If any executed job fails, waiting for the pool reports failure in every schedule; and failure is only ever reported because a job failed.", "quantifier": "every interleaving and every assignment of outcomes to jobs", "why_tests_cant": "Lost-update races only appear under particular schedules.", "anchors": ["src/pool.c:businessman", "src/pool.c:pool_wait"]}
{"id": "C11", "title": "Few jobs start after a failure", "statement": "Once a job failure has been recorded, each other worker starts at most one further job, so at most (workers - 1) further jobs are started.", "quantifier": "every interleaving", "why_tests_cant": "A bound over all schedules cannot be established by sampling.", "anchors": ["src/pool.c:businessman"]}
{"id": "C12", "title": "The pool terminates and cannot deadlock", "statement": "From every reachable state of the pool either waiting has returned or some thread can take a step, and every execution is finite provided the jobs themselves finish.", "quantifier": "every reachable state, every fair or unfair schedule", "why_tests_cant": "Deadlock freedom quantifies over all schedules.", "anchors": ["src/pool.c:businessman", "src/pool.c:pool_start", "src/pool.c:pool_wait", "src/pool.c:pool_free"]}
{"id": "C13", "title": "The up-to-date check is exact", "statement": "A target is considered up to date exactly when it exists, every dependency exists, and no dependency's modification time is later than the target's; a missing target always means work; a dependency that cannot be examined is an error unless an earlier-listed one already forces work.", "quantifier": "every file-system state, target and dependency list", "why_tests_cant": "All dependency lists and time assignments.", "anchors": ["src/frugal.c:frugal_mtime"]}
{"id": "C14", "title": "A flag change is always noticed", "statement": "When the recorded flags of a target differ from the flags now requested (in content, number or order) the target is rebuilt, and when they are the same the flag check does not ask for a rebuild.", "quantifier": "every pair of flag lists, every file-system state", "why_tests_cant": "All pairs of lists; flags may contain any byte.", "anchors": ["src/frugal.c:frugal_flags"]}
{"id": "C15", "title": "Recorded flags describe the product on disk", "statement": "Whenever the flags recorded for a target equal the flags requested, the product on disk was produced with these flags, whatever failed, was cancelled or crashed in earlier builds.", "quantifier": "every history of builds, failures and crash points", "why_tests_cant": "Needs a failure or crash at exactly the wrong moment of an earlier build.", "anchors": ["src/frugal.c:frugal_flags", "src/class/cc.c:validate_requirements", "src/class/cc.c:compile_step", "src/class/cc.c:compile_task", "src/class/linker.c:link_step"]}
{"id": "C16", "title": "Include dependencies are extracted exactly", "statement": "From a compiler's dependency rule, however it is wrapped over lines and indented, Bob extracts exactly the listed prerequisites in order.", "quantifier": "every list of prerequisite names and every layout (wrapping and indentation) of the rule", "why_tests_cant": "Layouts depend on name lengths and compilers; infinitely many.", "anchors": ["src/class/cc.c:get_include_deps"]}
{"id": "C17", "title": "Recorded include dependencies are read back unchanged", "statement": "What Bob records as the include dependencies of a source is what the next build reads back.", "quantifier": "every list of dependency names", "why_tests_cant": "All names, including odd bytes.", "anchors": ["src/class/cc.c:get_include_deps", "src/class/cc.c:validate_requirements"]}
{"id": "C18", "title": "Rebuilding without changes does nothing", "statement": "Running a build again right after a successful one, with nothing changed, runs no compiler, linker or archiver, leaves every product untouched and succeeds.", "quantifier": "every project (compile and link requests), every file-system state left by a successful build", "why_tests_cant": "Must hold for every project and state, not one sample project.", "anchors": ["src/class/cc.c:compile_step", "src/class/cc.c:validate_requirements", "src/class/linker.c:link_step", "src/frugal.c:frugal_mtime", "src/frugal.c:frugal_flags"]}
{"id": "C19", "title": "A modified source or header is recompiled, and what uses it relinked", "statement": "If a source or one of its recorded headers is modified later than its object, the next build recompiles it, and every link product that uses the object is relinked.", "quantifier": "every project, every modified file, every file-system state", "why_tests_cant": "All projects and edit patterns.", "anchors": ["src/class/cc.c:validate_requirements", "src/class/cc.c:compile_step", "src/class/linker.c:link_step"]}
{"id": "C20", "title": "A clean build compiles every source with its flags, in any schedule", "statement": "In an output directory with no previous products, a successful build produces for every source exactly the object its compiler makes of it with its flags; the result does not depend on how jobs are scheduled.", "quantifier": "every project with distinct products, every interleaving of the file-level effects of its jobs", "why_tests_cant": "All schedules and projects.", "anchors": ["src/class/cc.c:compile_step", "src/class/cc.c:compile_task", "src/pool.c:businessman"]}
{"id": "C21", "title": "Incremental builds equal clean builds", "statement": "After any history of edits, flag changes and builds (including failed ones), a successful build leaves the same products as a clean build of the current tree would.", "quantifier": "every history of edits, configuration changes, successful and failed builds", "why_tests_cant": "The space of histories is unbounded and failures must be at particular points.", "anchors": ["src/class/cc.c:compile_step", "src/class/cc.c:validate_requirements", "src/frugal.c:frugal_flags", "src/frugal.c:frugal_mtime"]}
{"id": "C22", "title": "An unexaminable dependency fails the build before compiling anything", "statement": "If checking any source of a compile request fails, the request fails and none of its compile jobs is executed.", "quantifier": "every list of sources and every position of the failing one", "why_tests_cant": "All positions and job counts, with worker threads present.", "anchors": ["src/class/cc.c:compile_step", "src/pool.c:pool_free", "src/pool.c:pool_wait", "src/pool.c:businessman"]}
{"id": "C23", "title": "Compiler output is replayed for up-to-date products", "statement": "When a product is up to date, Bob shows again exactly the output its last compile or link printed, and nothing if there was none.", "quantifier": "every output byte string, every history of runs on one product", "why_tests_cant": "All outputs (including empty and binary).", "anchors": ["src/cmd.c:cmd_log", "src/logging.c:log_already_done"]}
{"id": "C24", "title": "A child producing any amount of output completes", "statement": "A compile or link command finishes and its complete output is collected however much it prints.", "quantifier": "every amount of output and every scheduling of parent and child", "why_tests_cant": "Test commands print little; the failure needs more output than a pipe holds.", "anchors": ["src/cmd.c:cmd_exec", "src/cmd.c:cmd_exec_async", "src/cmd.c:wait_for_process", "src/cmd.c:cmd_read_out"]}
{"id": "C25", "title": "Command success means the child exited with status zero", "statement": "Bob treats a command as successful exactly when the child terminated normally with exit status zero; a non-zero status or death by signal is failure.", "quantifier": "every wait-status history of a child", "why_tests_cant": "All statuses, signals and wait outcomes (stops, interruptions).", "anchors": ["src/cmd.c:wait_for_process", "src/cmd.c:cmd_exec"]}
{"id": "C26", "title": "Arguments after '--' are passed through verbatim", "statement": "The arguments a user gives for the program in `bob run` and `bob sh` reach it unchanged and in order.", "quantifier": "every argument list", "why_tests_cant": "All argument lists, including ones with further '--'.", "anchors": ["src/cmd.c:cmd_add_argv", "src/bsys.c:bsys_sh", "src/bsys/bob/main.c:run"]}
{"id": "C27", "title": "Commands are resolved through PATH in order", "statement": "A bare command name is resolved to the first executable regular file of that name along PATH.", "quantifier": "every PATH value, every command name, every file-system state", "why_tests_cant": "All PATH strings (empty elements, repeated colons) and files.", "anchors": ["src/cmd.c:find_bin", "src/cmd.c:is_executable", "src/cmd.c:cmd_exec_inplace", "src/cmd.c:cmd_exec_async"]}
{"id": "C28", "title": "A command that cannot be started is a reported failure", "statement": "If the compiler or linker cannot be found or started, the step fails cleanly: the build is reported as failed and nothing undefined happens.", "quantifier": "every reason for which starting fails", "why_tests_cant": "Failure injection at each system call; the wrong behaviour reads uninitialised memory, which tests may not observe.", "anchors": ["src/cmd.c:cmd_create", "src/cmd.c:cmd_exec", "src/cmd.c:cmd_exec_async", "src/cmd.c:cmd_log", "src/cmd.c:cmd_read_out", "src/class/cc.c:compile_task", "src/class/linker.c:link_step"]}
{"id": "C29", "title": "Install copies every entry that is not a build product", "statement": "`bob install` copies every install-map entry whose source is not a product in the output directory to its destination under the prefix, in map order, and fails if a source is missing.", "quantifier": "every install map and file-system state", "why_tests_cant": "All maps and directory names, e.g. ones sharing a textual prefix with the output directory.", "anchors": ["src/install.c:install_all", "src/install.c:install_single"]}
{"id": "C30", "title": "Install writes only below the prefix", "statement": "Installing modifies nothing outside the install prefix.", "quantifier": "every install map (any destination string) and prefix", "why_tests_cant": "All destination strings.", "anchors": ["src/install.c:install_single", "src/fsutil.c:copy", "src/fsutil.c:mkdir_wrapped"]}
{"id": "C31", "title": "After a successful install the destination matches the source", "statement": "After installing succeeds, each destination has the content of its source.", "quantifier": "every map, every prior state of the prefix", "why_tests_cant": "Depends on the history of earlier installs and on modification times.", "anchors": ["src/install.c:install_single", "src/frugal.c:frugal_mtime", "src/fsutil.c:copy"]}
{"id": "C32", "title": "Build products named in the install map are installed by the build that precedes", "statement": "When building for an install, each product named in the install map is copied to its destination, whether it was rebuilt or found up to date; a plain build installs nothing.", "quantifier": "every map, every product, every outcome of the up-to-date checks", "why_tests_cant": "All combinations of map entries and rebuild decisions.", "anchors": ["src/install.c:install_cookie", "src/install.c:cookie_to_output", "src/install.c:setup_install_map", "src/class/cc.c:compile_task", "src/class/cc.c:compile_step", "src/class/linker.c:link_step"]}
{"id": "C33", "title": "run and sh execute only after a successful build and install", "statement": "`bob run` and `bob sh` start the program only if building and installing into the private prefix succeeded, with that prefix's bin directory first in PATH and its lib directory first in the library path.", "quantifier": "every project outcome and prior environment", "why_tests_cant": "All environments (unset, empty, any value) and failure points.", "anchors": ["src/bsys.c:bsys_run", "src/bsys.c:bsys_sh", "src/bsys.c:install", "src/bsys.c:setup_environment", "src/bsys.c:prepend_env"]}
{"id": "C34", "title": "Ownership is only changed inside the output directory", "statement": "When run as root, Bob hands ownership to the project owner only for files inside the output directory, never for files outside; when not root it changes no ownership.", "quantifier": "every path, every output directory", "why_tests_cant": "All path strings, e.g. siblings sharing a textual prefix.", "anchors": ["src/fsutil.c:set_owner", "src/fsutil.c:mkdir_wrapped"]}
{"id": "C35", "title": "The job limit is validated and obeyed", "statement": "A job count is accepted exactly when it is between 1 and 1024; an accepted count is the number of workers; without one there is always at least one worker.", "quantifier": "every integer given to -j, every value reported by the system", "why_tests_cant": "All integers including negative and wrapping ones.", "anchors": ["src/ncpu.c:set_max_jobs", "src/ncpu.c:ncpu", "src/main.c:main"]}
{"id": "C36", "title": "The exit status reflects the instruction's outcome", "statement": "Bob exits with success exactly when the requested instruction is known and every phase it needs succeeded; a phase after a failing one is not started.", "quantifier": "every command line and every pattern of phase outcomes", "why_tests_cant": "All combinations of failing phases.", "anchors": ["src/main.c:main", "src/bsys.c:bsys_build", "src/bsys.c:bsys_run", "src/bsys.c:bsys_sh", "src/bsys.c:bsys_install", "src/bsys.c:bsys_identify"]}
{"id": "C37", "title": "Equality of script values is an equivalence", "statement": "The script-level == on data values is reflexive, symmetric and transitive, and != is its negation.", "quantifier": "every value (nested vectors and maps of any depth)", "why_tests_cant": "Infinitely many nested values.", "anchors": ["src/flamingo/val.h:val_eq", "src/flamingo/grammar/binary_expr.h:parse_binary_expr"]}
{"id": "C38", "title": "Map literals have distinct keys and lookups return the right value", "statement": "A map literal with two equal keys is rejected; in an accepted map, indexing by a key yields the value given for it and by any other key yields none.", "quantifier": "every map literal and every key", "why_tests_cant": "All literals and keys.", "anchors": ["src/flamingo/grammar/map.h:parse_map", "src/flamingo/grammar/index.h:parse_index"]}
{"id": "C39", "title": "Vector indexing is bounds-checked, with negative indices from the end", "statement": "Indexing a vector of length n with i yields element i for 0 <= i < n, element n+i for -n <= i < 0, and an error otherwise; it never reads outside the vector.", "quantifier": "every vector and every 64-bit index", "why_tests_cant": "All 2^64 indices and all lengths.", "anchors": ["src/flamingo/grammar/index.h:parse_index"]}
{"id": "C40", "title": "Integer arithmetic is exact or undefined only on overflow", "statement": "Script integer operators compute the mathematical result whenever it is representable in 64 bits; division and remainder by zero are reported as errors.", "quantifier": "every pair of 64-bit operands and every operator", "why_tests_cant": "2^128 operand pairs.", "anchors": ["src/flamingo/grammar/binary_expr.h:parse_binary_expr", "src/flamingo/grammar/unary_expr.h:parse_unary_expr"]}
{"id": "C41", "title": "Integer literals denote their decimal value", "statement": "A digit string with optional '_' separators evaluates to the number it denotes in base ten whenever that fits 64 bits.", "quantifier": "every digit string", "why_tests_cant": "All literals.", "anchors": ["src/flamingo/grammar/literal.h:parse_literal"]}
{"id": "C42", "title": "Operator spelling selects the right operation", "statement": "For each operator of the grammar the evaluator performs that operator's operation and no other, although operators are compared by length-limited prefix.", "quantifier": "every operator and operand kinds", "why_tests_cant": "Prefix comparison makes one operator a possible match of another; all pairs matter.", "anchors": ["src/flamingo/grammar/binary_expr.h:parse_binary_expr"]}
{"id": "C43", "title": "String and vector operations match their mathematical meaning", "statement": "Concatenation appends; len is the length; startswith and endswith decide prefix and suffix; for all strings and vectors.", "quantifier": "every pair of strings or vectors", "why_tests_cant": "All strings including empty and longer-than-subject ones.", "anchors": ["src/flamingo/ptm/str.h:str_len", "src/flamingo/ptm/str.h:str_endswith", "src/flamingo/ptm/str.h:str_startswith", "src/flamingo/ptm/vec.h:vec_len", "src/flamingo/grammar/binary_expr.h:parse_binary_expr"]}
{"id": "C44", "title": "map and where preserve order and apply the function to each element once", "statement": "vec.map yields the results of applying the function to each element, in order and of the same length; vec.where keeps, in order, exactly the elements for which it returned true, and reports an error if it returned a non-boolean.", "quantifier": "every vector and every function", "why_tests_cant": "All vectors and functions.", "anchors": ["src/flamingo/ptm/vec.h:vec_map", "src/flamingo/ptm/vec.h:vec_where"]}
{"id": "C45", "title": "Names resolve to the innermost declaration", "statement": "An identifier denotes the most recently opened scope's declaration of that name; declaring a name twice in one scope is an error, and a shadowing declaration leaves the outer one unchanged.", "quantifier": "every nesting of scopes and every name", "why_tests_cant": "All scope stacks.", "anchors": ["src/flamingo/env.h:env_find_var", "src/flamingo/scope.h:scope_shallow_find_var", "src/flamingo/scope.h:scope_add_var", "src/flamingo/grammar/var_decl.h:parse_var_decl"]}
{"id": "C46", "title": "A variable keeps its type", "statement": "Assigning a value of another type to a variable that already has a (non-none) value is rejected.", "quantifier": "every variable, every pair of value types", "why_tests_cant": "All pairs of types and forms of assignment targets.", "anchors": ["src/flamingo/grammar/assignment.h:parse_assignment"]}
{"id": "C47", "title": "Assignment changes only its target", "statement": "Assigning to a variable or an element changes what that variable or element denotes and nothing else; assigning to an element makes that element read back as the assigned value.", "quantifier": "every program state and assignment target", "why_tests_cant": "Aliasing arises only in particular sharing patterns.", "anchors": ["src/flamingo/grammar/assignment.h:parse_assignment", "src/flamingo/grammar/index.h:parse_index", "src/flamingo/val.h:val_copy"]}
{"id": "C48", "title": "Scopes are balanced", "statement": "After any statement or expression completes successfully, the stack of active scopes is what it was before; a function's or block's local names are not visible afterwards.", "quantifier": "every program", "why_tests_cant": "All programs and nestings of calls, blocks and classes.", "anchors": ["src/flamingo/call.h:call", "src/flamingo/grammar/block.h:parse_block", "src/flamingo/grammar/statement.h:parse_statement"]}
{"id": "C49", "title": "return delivers its value and ends the function", "statement": "`return e` makes the call evaluate to the value of e, for every expression e, and no later statement of the function has any effect.", "quantifier": "every function body and every return expression", "why_tests_cant": "All bodies, including returns nested in blocks and returns of call results.", "anchors": ["src/flamingo/grammar/return.h:parse_return", "src/flamingo/call.h:call", "src/flamingo/grammar/statement.h:parse_statement"]}
{"id": "C50", "title": "Scripts never use freed memory", "statement": "Evaluating a script never accesses a value after it has been freed.", "quantifier": "every program", "why_tests_cant": "Depends on reference counts along every execution path.", "anchors": ["src/flamingo/val.h:val_decref", "src/flamingo/val.h:val_free", "src/flamingo/ptm/vec.h:vec_map", "src/flamingo/grammar/assignment.h:parse_assignment"]}
{"id": "C51", "title": "Both operands of && and || are evaluated, left to right", "statement": "Binary operators evaluate the left operand, then the right one, exactly once each, including for && and ||.", "quantifier": "every pair of operand expressions", "why_tests_cant": "All operand expressions with side effects.", "anchors": ["src/flamingo/grammar/binary_expr.h:parse_binary_expr"]}
{"id": "C52", "title": "Build functions reach the class that declares them", "statement": "Calling compile, link, archive or list performs that operation of the class instance it is called on; a call to any other declared-only function is reported as an error.", "quantifier": "every callable a script can construct, including renamed and passed-around ones", "why_tests_cant": "All ways of obtaining a function value.", "anchors": ["src/bsys/bob/main.c:external_fn_cb", "src/bsys/bob/main.c:class_decl_cb", "src/bsys/bob/main.c:class_inst_cb", "src/class/cc.c:call", "src/class/cc.c:instantiate", "src/class/linker.c:call", "src/class/fs.c:call"]}
{"id": "C53", "title": "compile returns one object per source, in order", "statement": "compile(sources) returns a vector whose i-th element is the object file of the i-th source; a non-string source is an error and requests nothing.", "quantifier": "every vector of sources", "why_tests_cant": "All vectors.", "anchors": ["src/class/cc.c:prep_compile"]}
{"id": "C54", "title": "Error messages are reported, not fatal", "statement": "Every script error yields an error message to the user and an orderly failure, whatever the length of the names involved.", "quantifier": "every error message length and nesting of errors", "why_tests_cant": "The failure needs unusually long text.", "anchors": ["src/flamingo/flamingo.c:flamingo_raise_error"]}
{"id": "C55", "title": "Imports resolve deterministically along the import path", "statement": "`import a.b` loads a/b.fl from the first import path containing it, otherwise relative to the current directory; a leading dot makes it relative to the importing file.", "quantifier": "every import path list and file-system state", "why_tests_cant": "All path lists and states.", "anchors": ["src/flamingo/grammar/import.h:parse_import"]}
{"id": "C56", "title": "A declarative build script builds, installs and runs what it says", "statement": "A build script that, after `import bob`, declares compilers, linkers, strings and lists (written down, listed from a directory, filtered by name, joined), compiles and links them, and then gives an install map and a run vector, ends without an error; a successful build of it from a state without products makes each product it asks for exactly once, from the sources and with the flags it says, and makes nothing else, under every schedule; what is installed and what is run are the map and the vector it gives.", "quantifier": "every script of that form (of any length, with any names), every directory listing, output directory and worker schedule", "why_tests_cant": "Relates the text of all scripts of a language to the result of all schedules.", "anchors": ["src/bsys/bob/main.c:setup", "src/bsys/bob/main.c:build", "src/bsys/bob/main.c:run", "src/class/cc.c:prep_compile", "src/class/cc.c:compile_step", "src/class/linker.c:prep_link", "src/class/linker.c:link_step", "src/class/fs.c:list", "src/install.c:setup_install_map", "src/build_step.c:add_build_step", "src/build_step.c:run_build_steps"]}
{"id": "C57", "title": "What a build step is asked to do is settled when it is asked for", "statement": "Once compile(), link() or archive() has returned, nothing the rest of the build script does changes the sources, products or flags of that step.", "quantifier": "every script and everything it does after the call", "why_tests_cant": "All continuations of all scripts.", "anchors": ["src/class/cc.c:prep_compile", "src/class/cc.c:compile_step", "src/class/cc.c:instantiate", "src/class/linker.c:prep_link", "src/class/linker.c:link_step", "src/flamingo/grammar/assignment.h:parse_assignment"]}
{"id": "C58", "title": "Building changes nothing outside the output directory", "statement": "A build, whether it succeeds, fails or is interrupted, changes no file other than those directly in the output directory's bob directory and those installation puts in place: sources, headers and everything else stay as they were.", "quantifier": "every script, worker schedule, interruption point and initial state of the files", "why_tests_cant": "All scripts, schedules and interruption points.", "anchors": ["src/class/cc.c:prep_compile", "src/class/cc.c:compile_step", "src/class/linker.c:prep_link", "src/class/linker.c:link_step", "src/cookie.c:gen_cookie", "src/flamingo/grammar/assignment.h:parse_assignment"]}
{"id": "C59", "title": "What a build needs of a script is still there when the script has ended", "statement": "When a build script has ended, the names of the sources and products of every step it asked for, its install map and its run vector can be read, whether or not the script kept the values that compile(), link() and archive() returned.", "quantifier": "every script and every way of using or discarding results", "why_tests_cant": "All scripts and all lifetimes of values.", "anchors": ["src/class/linker.c:prep_link", "src/class/linker.c:link_step", "src/class/cc.c:prep_compile", "src/class/cc.c:compile_step", "src/flamingo/val.h:val_decref", "src/flamingo/val.h:val_free", "src/install.c:setup_install_map"]}
{"id": "C60", "title": "Listing a directory gives everything in it, once", "statement": "Fs.list(path) gives path itself and the path of everything in it at any depth, through links, each exactly once and directories before what is in them; it ends whatever links there are; something that can't be listed is an error.", "quantifier": "every directory tree, link structure (cycles included), working directory and set of unreadable directories", "why_tests_cant": "All trees, with any links between their directories.", "anchors": ["src/class/fs.c:list"]}
{"id": "C61", "title": "Calls bind parameters to arguments and see the function's surroundings", "statement": "A call evaluates the function, then the arguments from left to right, and runs the body with each parameter standing for the argument in its place; other names denote what they denote where the function was declared, whatever the caller has declared. Calling something that is not a function, or with the wrong number of arguments, is reported, and nothing of the body is run.", "quantifier": "every function, method, lambda and argument list, called from anywhere", "why_tests_cant": "All scripts, all nestings of calls.", "anchors": ["src/flamingo/call.h:call", "src/flamingo/call.h:setup_args", "src/flamingo/grammar/call.h:parse_call", "src/flamingo/env.h:env_close_over"]}
{"id": "C62", "title": "Print writes the value, and different values look different", "statement": "print e evaluates e and writes exactly one line: numbers in decimal, strings as they are (quoted inside vectors and maps), vectors and maps element by element, functions and instances by name. It always ends, changes nothing else, and different values are written differently; if e can't be evaluated nothing is written.", "quantifier": "every expression, value and state of the script", "why_tests_cant": "All values of any depth and size.", "anchors": ["src/flamingo/grammar/print.h:parse_print", "src/flamingo/grammar/print.h:repr"]}
{"id": "C63", "title": "A script goes on after an assertion only if it is true", "statement": "assert e evaluates e; if it is true nothing else happens; if it is false, is no boolean or can't be evaluated, that is reported and nothing that comes after it is done.", "quantifier": "every test, script and state of the script", "why_tests_cant": "All tests in all states.", "anchors": ["src/flamingo/grammar/assert.h:parse_assert"]}
{"id": "C64", "title": "How a build file ends decides what Bob does", "statement": "A build file is accepted if and only if it runs to its end and has imported bob; otherwise the user is told which of the two is wrong. What is run and installed is what 'run' and 'install' are, outside of blocks, when it has ended: none means nothing, a vector or map of strings means these, and anything else is an error.", "quantifier": "every build file, set of imported files and final state", "why_tests_cant": "All scripts and all values their variables may end with.", "anchors": ["src/bsys/bob/main.c:setup", "src/bsys/bob/main.c:run", "src/install.c:setup_install_map", "src/flamingo/grammar/import.h:parse_import", "src/flamingo/grammar/import.h:import"]}
{"id": "C65", "title": "Every instance has members of its own", "statement": "Calling a class runs its body with the arguments and gives a new instance whose members are what the body declares. e.x is the member x of the instance e, and assigning to it changes that member of that instance and nothing else. Static members belong to the class: they are initialised once, are seen by its methods and can be reached through the class only. Any other use of a member is reported.", "quantifier": "every class, instance, member and state of the script", "why_tests_cant": "All classes, any number of instances, in all orders of use.", "anchors": ["src/flamingo/grammar/access.h:access_find_var", "src/flamingo/grammar/access.h:parse_access", "src/flamingo/call.h:call", "src/flamingo/grammar/static.h:find_static_members_in_class", "src/flamingo/grammar/assignment.h:parse_assignment", "src/flamingo/grammar/function_declaration.h:parse_function_declaration"]}
{"id": "C66", "title": "The words of a script are read as they are written", "statement": "Wherever a script has been read to, looking for its next token ends, the token with the blanks before it is what comes next in the text, and it is spelled as tokens of its kind are. A name, a number, a string, a line end, a keyword or a sign that may come next is found there whole, keywords are not taken out of longer words, and a comment ends with its line.", "quantifier": "every text and every place in it, with whatever was read before", "why_tests_cant": "All byte strings in all states of the parser.", "anchors": ["src/flamingo/parser.c:ts_lex", "src/flamingo/parser.c:ts_lex_modes", "src/flamingo/runtime/parser.c:ts_parser__lex", "src/flamingo/runtime/lexer.c:ts_lexer__advance", "src/flamingo/runtime/lexer.c:ts_lexer__mark_end"]}
{"id": "C67", "title": "The tree of a script is its text, read by the grammar", "statement": "When a script is read, the tokens of its tree, with the blanks and comments between them, are its text from the first byte to the last: nothing is dropped, made up or moved. Every node of the tree is made by a rule of the grammar.", "quantifier": "every text that is accepted", "why_tests_cant": "All texts, of any size and nesting.", "anchors": ["src/flamingo/parser.c:ts_parse_table", "src/flamingo/parser.c:ts_small_parse_table", "src/flamingo/parser.c:ts_parse_actions", "src/flamingo/runtime/parser.c:ts_parser__advance", "src/flamingo/runtime/parser.c:ts_parser__reduce", "src/flamingo/runtime/parser.c:ts_parser__accept", "src/flamingo/runtime/stack.c:ts_stack_pop_count"]}
{"id": "C68", "title": "Reading a script ends", "statement": "For every text whatsoever reading ends, with a tree or with a syntax error, and with one result: at no place do the tables leave a choice.", "quantifier": "every text", "why_tests_cant": "All byte strings; that there is no loop and no choice can't be seen from samples.", "anchors": ["src/flamingo/parser.c:ts_parse_table", "src/flamingo/parser.c:ts_parse_actions", "src/flamingo/runtime/parser.c:ts_parser_parse", "src/flamingo/runtime/parser.c:ts_parser__advance"]}
{"id": "C69", "title": "Scripts are read as they are written", "statement": "A script is read as the statements and expressions that its author wrote: '**' binds stronger than '*', '/' and '%', these stronger than '+' and '-', these stronger than comparisons, these stronger than '&&', that stronger than '||' and '^^', all to the left; a unary sign or a lambda reaches as far to the right as it can; calls, accesses and indices bind strongest; statements end with a semicolon or line ends; blanks may be anywhere between tokens and line breaks after operators, commas, opening brackets and keywords; comments before, between and after statements, and within vectors and maps after a bracket, comma or colon, change nothing. A text is never two scripts.", "quantifier": "all scripts of any depth and length, and all ways to lay out their tokens (without comments in other places, which mostly end the program, '##' comments, slices, functions named by operators and error literals)", "why_tests_cant": "There are infinitely many scripts and layouts, and the parser is a table of thousands of entries: each sample exercises a few of them.", "anchors": ["src/flamingo/parser.c:ts_parse_table", "src/flamingo/parser.c:ts_parse_actions", "src/flamingo/parser.c:ts_lex", "src/flamingo/runtime/parser.c:ts_parser_parse", "src/flamingo/grammar/statement.h:parse_statement", "src/flamingo/grammar/expr.h:parse_expr"]}
{"id": "C70", "title": "A build file builds what its text says, however it is laid out", "statement": "Bob reads build.fl as text. When its text is a declarative build script (compilers, linkers, lists, compilations, links, then install and run), building carries out exactly the requests it spells out, with the same possible outcomes, in any layout; from a clean tree every product it asks for is made once, from the sources and flags it names. Changing only blanks, line breaks, trailing commas, ends of statements or comments of the build file, or of any file it imports, never changes what a build does; in particular a build after such a change runs no tool where a second build would run none, and leaves the products a clean build leaves where a rebuild does.", "quantifier": "all build scripts and imported files, in all layouts; for the first part all recipes of the declarative form, all schedules and tools", "why_tests_cant": "There are infinitely many texts of one script; tests try the few layouts their authors use.", "anchors": ["src/bsys/bob/main.c:setup", "src/bsys/bob/main.c:build", "src/flamingo/flamingo.c:flamingo_create", "src/flamingo/flamingo.c:flamingo_run", "src/flamingo/parser.c:tree_sitter_flamingo"]}
{"id": "C71", "title": "A command does what the command line and the build file say", "statement": "From the words of the command line and the text of the build file: 'bob build', 'install', 'run' and 'sh' build exactly the requests of the build file, install exactly its install map under the prefix that the command line names, and run the words of its run vector followed by the user's. Either all of this was done, in this order, or Bob ends with status 1 right after the first thing that failed, without doing what comes after. When Bob ends otherwise, every product was made once from the sources and flags in the build file, and, for install maps and trees as in C31 and C32, the products in the install map and the other files in it are under the prefix. However it ends, nothing outside the products and the prefix has changed (for install maps as in C30).", "quantifier": "all command lines with a known instruction and valid options, all build files of the declarative form in all layouts, all outcomes of tools and installations, all schedules", "why_tests_cant": "The whole chain from argv and the bytes of build.fl to the file system is quantified over; tests follow a few paths through it.", "anchors": ["src/main.c:main", "src/main.c:usage", "src/bsys.c:bsys_build", "src/bsys.c:bsys_install", "src/bsys.c:bsys_run", "src/bsys.c:bsys_sh", "src/bsys/bob/main.c:setup", "src/bsys/bob/main.c:build", "src/bsys/bob/main.c:install", "src/bsys/bob/main.c:run", "src/install.c:setup_install_map", "src/install.c:install_all"]}
{"id": "C72", "title": "Tools that run at the same time do not get in each other's way", "statement": "Bob runs preprocessors, compilers, linkers and copies in several threads of one process, so that a program inherits the pipes of programs that are run by other threads. Nevertheless the output that Bob reads for a command is exactly what that command's own program wrote, whole and in order; outputs of one build step are printed one at a time; the number of open descriptors is bounded by the number of threads and not by the number of sources, and all are closed in the end; and no thread waits for ever for the end of an output because another thread's program has its pipe.", "quantifier": "all numbers of threads, all lists of commands for each, all interleavings of the threads and their programs, all choices of descriptors, all sizes of pipes", "why_tests_cant": "Whether a child is created between another thread's pipe() and close() depends on the schedule; tests see a few schedules.", "anchors": ["src/cmd.c:cmd_exec_async", "src/cmd.c:cmd_exec", "src/cmd.c:cmd_read_out", "src/cmd.c:cmd_free", "src/class/cc.c:compile_task", "src/class/cc.c:get_include_deps", "src/fsutil.c:copy", "src/pool.c:pool_add_task"]}
{"id": "C73", "title": "Characters outside ASCII do not confuse the reading of scripts", "statement": "Scripts are read as UTF-8. Every Unicode character is read as itself; overlong forms, surrogates, numbers above 10FFFF and truncated forms are not read as characters but passed over byte by byte. Strings with characters outside ASCII reach the program byte for byte, comments may hold such characters, a byte order mark at the start is ignored, and no sequence of bytes, well-formed or not, makes the reader take a byte in the middle of a character for a quote, a line end or a sign.", "quantifier": "all characters, all texts (well-formed or not), all states of the parser", "why_tests_cant": "There are more than a million characters and unboundedly many texts and ill-formed sequences; tests try a few.", "anchors": ["src/flamingo/runtime/lexer.c:ts_lexer__get_lookahead", "src/flamingo/runtime/lexer.c:ts_lexer__do_advance", "src/flamingo/runtime/lexer.c:ts_lexer_start", "src/flamingo/runtime/unicode.h:ts_decode_utf8", "src/flamingo/runtime/unicode/utf8.h:U8_INTERNAL_NEXT_OR_SUB", "src/flamingo/runtime/unicode/utf8.h:U8_NEXT", "src/flamingo/parser.c:ts_lex"]}
{"id": "C74", "title": "What Bob has to say is shown, whole and to the right source", "statement": "Every message of Bob and every output of a compiler is shown, whole, on the stream it belongs to, whether Bob ends by itself, fails, or becomes the program of 'bob run' or 'bob sh'; in this case before what that program prints. The output of a compiler comes right after the line that names its source, however many compilers run at the same time. Colours and other escape sequences are used only if forced or if both streams are terminals with colours.", "quantifier": "all numbers of threads, sources, messages and outputs, all schedules, all ways in which the C library may empty its buffers, terminals or not, all environments", "why_tests_cant": "What is lost or mixed depends on when buffers are emptied and on the schedule; tests run with one kind of output and see a few schedules.", "anchors": ["src/logging.c:supports_colour", "src/logging.c:vlog", "src/logging.c:log_already_done", "src/cmd.c:cmd_log", "src/cmd.c:cmd_exec_inplace", "src/class/cc.c:compile_task", "src/class/cc.c:compile_step", "src/class/cc.c:get_include_deps", "src/install.c:install_single", "src/install.c:install_cookie"]}
{"id": "C75", "title": "Builds in debugging mode and other builds can be mixed", "statement": "A build in debugging mode (in which the programs Bob runs write to the terminal themselves, one at a time) decides what to make again and makes it exactly as an ordinary build does: after any ordinary history it leaves the products a clean ordinary build makes. The two modes can be mixed in any order without later builds missing a change of a source, of its flags or of a header, and without losing what the compiler said about a source.", "quantifier": "every project, every history of edits and of complete, failing or interrupted builds in either mode, every request, every behaviour of the programs", "why_tests_cant": "the harm of a debugging build shows only in later builds, after particular edits; every test of one mode alone passes", "anchors": ["src/cmd.c:cmd_exec_async", "src/cmd.c:cmd_read_out", "src/cmd.c:cmd_log", "src/class/cc.c:get_include_deps", "src/class/cc.c:compile_task", "src/main.c:main"]}
{"id": "C76", "title": "Builds of one project at the same time", "statement": "Any number of Bobs may build in one project at the same time, say one from an editor and one from a shell. Whichever of them succeeds leaves, and finds when it ends and as long as others are still at work, the products that the present sources and the asked flags make, no matter how their actions interleave and whether the others fail or are killed; no source is changed. Whatever they leave behind, be they all killed at once, the next build makes everything right.", "quantifier": "every project, every history before, any number of processes with any requests that do not ask for one product with different flags, every interleaving of their actions, every process failing or being killed at any point", "why_tests_cant": "a test meets a few of the interleavings, and the harmful ones take a few milliseconds; nothing in Bob keeps two processes apart", "anchors": ["src/main.c:main", "src/frugal.c:frugal_flags", "src/frugal.c:frugal_mtime", "src/class/cc.c:validate_requirements", "src/class/cc.c:compile_step", "src/class/cc.c:compile_task", "src/class/linker.c:link_step"]}
{"id": "C77", "title": "What a product depends on besides its named files is noticed", "statement": "An object depends on more than its source and the headers the preprocessor names: on the compiler, on system headers (which -MM leaves out), on places where a header would take precedence if it existed; a program depends on libraries given by flags. When any of these changes, the next successful build makes again what depends on it; as long as none changes, a successful build leaves exactly what these tools make of the present files, and the same as a clean build on a machine where they are alike. Bob itself changes none of them.", "quantifier": "every project, every history of edits and of complete, failing or interrupted builds, every set of places outside, every tool that is deterministic given these", "why_tests_cant": "the compiler, the system headers and the libraries do not change while tests run", "anchors": ["src/class/cc.c:get_include_deps", "src/class/cc.c:validate_requirements", "src/class/cc.c:compile_task", "src/frugal.c:frugal_mtime", "src/frugal.c:frugal_flags", "src/class/linker.c:link_step"]}
{"id": "C78", "title": "A failed installation says what failed and why", "statement": "When 'bob install' fails, the last thing it says, and no other, is an error that names the source or the place it could not deal with and gives the reason, in the words of the program that failed if one did: a source that is not there, a directory that cannot be made, a place that cannot be looked at, a copy or removal that fails. When it succeeds, it has said once for every entry of the install map, in their order, that this entry is installed; products of the build are passed over in silence, since the build installs them.", "quantifier": "every file system, every install map, every prefix, every outcome of looking, making directories, removing and copying at every entry, every output of the programs", "why_tests_cant": "each failure needs a file system that refuses one particular step of one particular entry; tests install into directories where everything works", "anchors": ["src/install.c:install_single", "src/install.c:install_all", "src/fsutil.c:copy", "src/fsutil.c:rm", "src/fsutil.c:mkdir_wrapped", "src/frugal.c:frugal_mtime", "src/cmd.c:cmd_exec", "src/cmd.c:cmd_read_out"]}
{"id": "C79", "title": "An installation that was cut short can be done again", "statement": "If 'bob install' is killed or fails at any point, one only has to run it again once the cause is gone: when the second installation succeeds, every destination has the content of its source, whatever the first one had and had not done.", "quantifier": "every file system, every install map, every point at which the first installation ends (between entries, between directories, between removal and copy, and in the middle of the programs Bob runs, with anything left at the destination), every second installation that succeeds", "why_tests_cant": "the state left depends on the instant of the interruption; tests let installations finish", "anchors": ["src/install.c:install_all", "src/install.c:install_single", "src/fsutil.c:copy", "src/fsutil.c:rm", "src/fsutil.c:mkdir_wrapped", "src/frugal.c:frugal_mtime"]}
{"id": "C80", "title": "Installing again without changes changes nothing", "statement": "After 'bob install' has succeeded, installing once more without having changed anything succeeds, copies no file and changes nothing, not even the time of a directory: what is installed is recognised as up to date. This needs no permission to write and none of the programs any more, and Bob says of each entry that it is already installed.", "quantifier": "every file system, every install map, every successful installation and every one after it, whatever the times at which they run and whatever may still be written", "why_tests_cant": "which files are copied depends on comparing times of sources, destinations and the clock of the copy; tests compare contents, which are right either way", "anchors": ["src/install.c:install_all", "src/install.c:install_single", "src/frugal.c:frugal_mtime", "src/fsutil.c:copy"]}
{"id": "C81", "title": "The order of the install map does not matter", "statement": "Writing the entries of the install map in another order changes nothing about what 'bob install' leaves: after a success in either order each destination has the same content, and the same files have been copied.", "quantifier": "every file system, every install map, every reordering of it, every pair of successful installations at whatever times", "why_tests_cant": "there are as many orders as permutations, and each may be run at any time; a test tries one", "anchors": ["src/install.c:install_all", "src/install.c:install_single", "src/frugal.c:frugal_mtime", "src/fsutil.c:copy", "src/fsutil.c:mkdir_wrapped"]}
