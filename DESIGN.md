# Formal model of inobulles/bob in Rocq (Coq 8.16.1)

## What is here

* `properties.jsonl` - the properties (C01, C02, ...), in English.
* `rocq/theories/` - the model, the specifications (`Spec*.v`, vocabulary of the statements, written
  without reference to the proofs), the proofs (`*Proofs.v` and a few others, see the file map), and the property
  theorems (`Properties*.v`: statement, `exact lemma`, `Print Assumptions`, and a concrete `Example`
  meeting the hypotheses).
* `MANIFEST.json` - property -> theorem names, and what is missing where a property is partial.
* `seeded/LOG.jsonl` - mutation log: edits that make the model wrong. `first_lemmas_that_failed` are the lemmas whose
  proofs broke first in the rebuild. `theorems_failed` is coarser unless `theorems_failed_basis` says it was checked by
  hand: it lists the theorems of the claimed property in files that no longer build because of that, so a theorem in it
  may depend on a broken lemma, or merely share a file with one that does; it is not shown to be false of the edit.

## File map

Each definition of a model file cites the lines of `/repo` it models.

| part of the code | model | specification | proofs | theorems |
|---|---|---|---|---|
| `str.c`, `cookie.h`, product names in `class/linker.c` | `Hash`, `Cookie` | `SpecNames` | `CookieProofs` | `PropertiesNames` (C01-C04) |
| `build_step.c` | `BuildStep` | `SpecSteps` | `BuildStepProofs` | `PropertiesSteps` (C06, C07) |
| `pool.c` | `Pool` (interleavings), `Drive` (a scheduler for examples) | `SpecPool` | `PoolInv`, `PoolProofs`, `PoolOwn`, `PoolSettled` | `PropertiesPool` (C08-C12) |
| `frugal.c`, dependency rules of `class/cc.c`, saved logs | `FileSys`, `Frugal`, `Deps`, `Log` | `SpecFiles` | `FrugalProofs`, `LogProofs` | `PropertiesFrugal`, `PropertiesLog` (C13, C14, C16, C17, C23) |
| compiling and linking: `class/cc.c`, `class/linker.c` on the pool | `Build`, `Plan` | `SpecBuild`, `SpecPlan`, `SpecHistory` | `StepProofs`, `CompileProofs`, `BuildProofs`, `LinkProofs`, `MomentProofs`, `HistoryProofs`, `RebuildProofs`, `SucceedProofs`, `PlanProofs`, `BuildTheorems` | `PropertiesBuild` (C05, C15, C18-C22), examples in `Toy` |
| `cmd.c` | `Cmd`, `Pipe` | `SpecCmd` | `CmdProofs`, `PipeProofs` | `PropertiesCmd` (C24, C25, C27, C28) |
| `main.c`, `bsys.c`, `ncpu.c` | `Main` | `SpecMain` | `MainProofs` | `PropertiesMain` (C26, C33, C35, C36) |
| `fsutil.c`, `install.c` | `Vfs` (directories, links), `Install` | `SpecInstall` | `VfsProofs`, `PathProofs`, `InstallProofs`, `InstallAll`, `OwnerProofs` | `PropertiesInstall` (C29-C32, C34) |
| installing products during a build | `Ground` (joins `Build` and `Install`) | `SpecDeliver` | `DeliverProofs`, `GroundProofs` | `PropertiesDeliver`, `PropertiesGround` (C32) |
| Flamingo: `flamingo/*.h`, `flamingo.c`, `grammar/*.h`, `ptm/*.h` | `FlAst`, `FlState`, `FlInterp` | `SpecFlamingo`, `SpecScript`, `SpecFrame`, `SpecScope`, `SpecImport`, `SpecCall`, `SpecPrint`, `SpecInstance`, `SpecSafe`, `SpecOps` | `FlMonad`, `FlFuel`, `FlBalance`, `FlFrame`, `FlEqProofs`, `FlOpProofs`, `FlExprProofs`, `FlSeqProofs`, `FlMemberProofs`, `FlHigherProofs`, `FlScopeProofs`, `FlAssignProofs`, `FlReturnProofs`, `FlErrorProofs`, `FlExternProofs`, `FlImportProofs`, `FlCallProofs`, `FlPrintProofs`, `FlInstanceProofs`, `FlClaims`, `FlScopeClaims`, `FlTotalProofs`, `SafeInv`, `SafeProofs` | `PropertiesScript` (C37-C44, C51), `PropertiesOps` (C42, C43), `PropertiesScope` (C45-C49), `PropertiesImport` (C54, C55), `PropertiesCall` (C61), `PropertiesPrint` (C62, C63), `PropertiesInstance` (C65), `PropertiesSafe` (C50) |
| `flamingo/parser.c`, `flamingo/runtime` | `FlTables` (generated), `FlParse`, `FlRead`, `FlSources` (texts of the shipped scripts) | `SpecLex`, `SpecGrammar`, `SpecSyntax` | `LexProofs`, `ParseProofs`, `ReadGrammar`, `ReadProofs`, `SyntaxProofs` | `PropertiesLex` (C66), `PropertiesParse` (C67, C68), `PropertiesSyntax` (C69) |
| `bsys/bob/main.c`, `class/{cc,linker,fs}.c`, `import/bob.fl` | `Bob`, `Fts` (fts(3)) | `SpecBob`, `SpecList` | `BobProofs`, `BobCallProofs`, `BobMethodProofs`, `BobInstanceProofs`, `BobFailProofs`, `FtsProofs` | `PropertiesBob` (C52-C54), `PropertiesList` (C60) |
| build scripts from their text (as a tree) to what is built | `Project` | `SpecProject`, `SpecSettled`, `SpecKept`, `SpecEnd` | `GrowProofs`, `ListProofs`, `BobScriptProofs`, `ProjectProofs`, `RecipeProofs`, `SettledProofs`, `ApartProofs`, `OutsideProofs`, `KeptProofs`, `EndProofs` | `PropertiesProject` (C56), `PropertiesSettled` (C57), `PropertiesOutside` (C58), `PropertiesKept` (C59), `PropertiesEnd` (C64) |
| build files from their text to what is built | `BuildFile` | `SpecText` | `TextProofs` | `PropertiesText` (C70) |
| one command as a whole | `Command` | `SpecCommand` | `CommandProofs` | `PropertiesCommand` (C71) |
| commands run at the same time | `Jobs` | `SpecJobs` | `JobsProofs` | `PropertiesJobs` (C72) |
| characters outside ASCII | `Utf8` | `SpecUtf8` | `Utf8Proofs` | `PropertiesUtf8` (C73) |
| messages: `logging.c`, `cmd_log`, stdio | `Term` | `SpecTerm` | `TermProofs` | `PropertiesTerm` (C74) |
| debugging mode: `cmd.c`, `main.c` | `Debug` | `SpecDebug` | `DebugProofs`, `DebugTheorems` | `PropertiesDebug` (C75) |
| several processes: `main.c`, `cc.c`, `linker.c` | `Together` | `SpecTogether` | `TogetherProofs`, `TogetherTheorems`, `AloneProofs` | `PropertiesTogether` (C76) |
| tools that look at more than their inputs | (`Build`) | `SpecBesides` | `BesidesProofs`, `ToyBesides` (example) | `PropertiesBesides` (C77) |
| what installing says | `Telling` | `SpecTelling` | `TellingProofs` | `PropertiesTelling` (C78) |
| installations cut short | (`Install`) | `SpecResume` | `ResumeProofs`, `TwiceProofs` | `PropertiesResume` (C79, C80) |
| the order of the install map | (`Install`) | (`SpecInstall`) | `OrderProofs` | `PropertiesOrder` (C81) |

## Conventions of the model

* Strings are lists of bytes (`list ascii`); "C string" operations cut at the first NUL explicitly.
* 64-bit integers are `Z` with explicit wrap (unsigned) or an explicit undefined-behaviour outcome (signed
  overflow).
* Every way out of a C function is a distinct outcome: normal value, reported error, `assert` failure
  (abort), undefined behaviour (null or freed pointer, uninitialised read, signed overflow), and for the
  fuel-driven interpreter "out of fuel" (never identified with a normal result).
* There are two file systems. For building (`FileSys`) it is a total function from path strings to what
  `stat` finds there (content and modification time in whole seconds). For installing, owners and listing
  (`Vfs`) it is a tree of files, directories and symbolic links in which paths are resolved as in POSIX.
  `Ground` relates the two.
* External programs (`cc`, `ar`, `cp`, `rm`) are oracles: universally quantified functions of (argv, file
  system, time). What a theorem needs to know about them is an explicit hypothesis of that theorem.
* The thread pool is a small-step interleaving semantics (sequential consistency), one step per shared access
  or lock operation; jobs are themselves sequences of atomic steps on a shared state.
* A property that is false of the code is proved *refuted* by a concrete witness
  (`..._refuted`), next to the strongest guarded version that holds; such a
  property is `partial` in the manifest and the note states the defect.

## Trusted base

* Coq's kernel (8.16.1) incl. `vm_compute`. `Print Assumptions` after every property theorem answers
  "Closed under the global context": no axiom, of the standard library or otherwise, is used anywhere.
* The hand translation from C to Gallina (each definition cites file:lines, and says where it simplifies).
* The reading of POSIX/C behaviour stated in comments: `stat`, `posix_spawnp`, `waitpid`, pipes, `strsep`,
  `snprintf("%.*s")`, `realpath`, `getopt`, `fts(3)` with `FTS_LOGICAL`, `cp -RP`, `rm -rf`.
* What a theorem assumes of compilers, linkers and other programs is among its hypotheses (`SpecBuild.v`,
  `SpecHistory.v`), and is met by the toy tools of `Toy.v`.
* Sequentially consistent memory for the pool. `pool->error` is accessed without the lock in the C code,
  formally a data race; the model treats it as an atomic flag.

## Modelled / not modelled

Modelled: `str.c`, `cookie.h`, `build_step.c`, `pool.c`, `frugal.c`, `fsutil.c`, `cmd.c`, `ncpu.c`,
`install.c`, `bsys.c`, `bsys/bob/main.c`, `class/{cc,linker,fs}.c`, the control flow of `main.c`, the log replay
of `logging.c`, and the Flamingo interpreter (`flamingo/*.h`, `flamingo/grammar/*.h`, `flamingo/ptm/*.h`,
`flamingo.c`) over an abstract syntax tree, with reference counts and the lifetimes of strings, values and
scopes. The tables of the generated parser (`flamingo/parser.c`) are transcribed mechanically, and the parts of the
tree-sitter runtime that run them on a text without syntax errors are modelled, from bytes to syntax trees.

Not modelled: tree-sitter's error recovery (a text with a syntax error has no tree in the model; the code
runs whatever tree recovery makes up), incremental parsing, positions in rows and columns,
progress bars (which nothing uses), allocation failure (`malloc` returning NULL is an `assert` in the code),
`apple.c`, the Windows/macOS specific branches, the identification code of the other build systems (they
all answer "no" at this commit).

## How each property is proved

| id | modelled by | how proved |
|----|-------------|------------|
| C01 | `Cookie.gen_cookie`, `Cookie.link_cookie` | structure of the formatted string; flattening removes every '/' of the path part; hex/ext have none |
| C02 | same | parse the name from the right (hex has no '.'): equal names give equal flattened path and equal hash. Differing positions are '/' vs '_', difference 48*sum(+-33^k): cannot vanish mod 2^64 within a 12-byte window. Full claim refuted by a lattice-found collision |
| C03 | `Cookie.side_file` | suffix analysis |
| C04 | `Cookie.link_cookie` | XOR fold is permutation invariant; refuted for distinctness (duplicates cancel) |
| C05 | same | refuted: flags do not enter the name |
| C06, C07 | `BuildStep` | induction over requests; merge/append invariant; run = prefix of requests |
| C08-C12 | `Pool` small-step semantics | inductive invariant (mutual exclusion, claimed set = prefix), simulation of job log, decreasing measure |
| C13 | `Frugal.frugal_mtime` | induction on dependency list against a declarative spec |
| C14 | `Frugal.frugal_flags` | injectivity of newline-terminated encoding; refuted for flags containing newline/NUL |
| C15 | `Build` | refuted (flags are recorded before compiling); guarded invariant |
| C16, C17 | `Deps` | parser vs. relational description of rule layouts; round trip |
| C18-C22 | `Build` (compile_step, link_step over oracle programs), `Pool` for schedules | invariants over histories; commuting jobs |
| C23 | `Log` | round trip |
| C24 | `Pipe` parent/child transition system | bounded buffer: completion iff output fits; deadlock otherwise (refuted) |
| C25 | `Cmd.wait_for_process` | case analysis over all wait-status histories |
| C26 | `Main`, `Cmd` | list induction; refuted for verbatim |
| C27 | `Cmd.find_bin` | PATH splitting induction; refuted (current directory first) |
| C28 | `Cmd.cmd_exec`/`cmd_log` with uninitialised fields | refuted (uninitialised read); guarded |
| C29-C32 | `Install` | induction over map; refutations for textual prefix, '..', stale destination |
| C33, C36 | `Main` | case analysis over phase outcomes |
| C34 | `Install` (`set_owner`) | prefix lemma; refuted for siblings |
| C35 | `Main` | arithmetic |
| C37-C43 | `FlState`, `FlInterp` over meanings of values (`SpecFlamingo`, `SpecScript`) | nested induction on values and literals; arithmetic; refutations (keys of added maps, `INT64_MIN`, `**`) |
| C44 | same | induction over the vector, with the function as any callable; refuted for results of `where` that are no booleans |
| C45-C49 | same | stacks of scopes are balanced by induction on fuel (`FlBalance`, `FlFrame`); single statements by computation over any state |
| C50 | same, `SafeInv` | reference-count invariant kept by every statement of scripts whose functions don't assign; refuted in general |
| C51 | same | induction over the evaluation |
| C52, C53 | `Bob` | symbolic evaluation of calls in any state; refutations |
| C54 | `FlInterp`, `Bob` | every failure has set a message, by induction on fuel; arithmetic on lengths; refuted |
| C55 | `FlInterp` | list induction over import paths |
| C56 | `Project` | induction over the declarations of a script (`ProjectProofs`), joined with C20 |
| C57 | `Project` | cells reachable from a request are not changed by statements without element assignments (`SettledProofs`); refuted in general |
| C58 | `Project`, `Build` | every moment of every schedule changes only products and their side files; names by `CookieProofs`; refuted in general |
| C59 | `Project`, `SafeInv` | the count invariant says who keeps a value; refuted for discarded results of `link` |
| C60 | `Fts` | induction on the directories not yet on the way; refuted for missing directories |
| C61 | `FlInterp` | computation of calls over any state; environments are kept by everything but the function itself (`later_envs`); refuted for recursion |
| C62 | `FlInterp` (`repr`, `do_print`) | induction on the value; a grammar of lines that is shown unambiguous; refuted for quotes and cyclic values |
| C63 | `FlInterp` (`do_assert`) | computation over any state |
| C64 | `Project`, `Main`, `Install` | the names at the outermost level by induction on fuel and statements, imports included; case analysis over final values; refuted for imports in blocks |
| C65 | `FlInterp` (`access_find`, `call_`, `finish`, `fun_`, `static_member`) | computation over any state; names of instances and classes by induction on the body; refuted for static members |
| C66 | `FlTables` (`lex_states`), `FlParse` (`lex_run`, `lex_in`) | invariant of the lexer over its state table, checked for all states and bytes by computation; walks through the table for names, numbers and strings of any length |
| C67 | `FlTables` (`rows`), `FlParse` (`advance`, `reduce`, `accept`), `FlRead` | invariant of the stack: which symbols may lie under a state is checked over all edges of the table; induction on turns |
| C68 | `FlParse` (`turns`) | a measure (32 per byte left, a weight per symbol on the stack) that every turn makes smaller |
| C69 | `FlParse` (`parse`), `FlRead` (`script_in`) | `ReadGrammar` lists the shapes of the nodes by category and, computed over the tables, the states each is read from; induction on derivations: the parser's run follows the derivation and leaves its tree on the stack; mutual induction over `SpecSyntax` for the value that is read from the tree |
| C70 | `BuildFile` (`file_build`: the text of build.fl, and of what it imports, is read, run and built) | the reader's theorem (C69) says what is run, C56 what that builds; texts of one script are read alike, so builds from them are the same; a writer for recipes (a blank before every token) shows that they have texts |
| C71 | `Command` (`phases_of`: the phases of `Main`'s command line are those of the build file's script: setup, the build after the install map has been set up, the installation, the run vector) | C36/C33 say which phases are entered and how Bob ends, C70 what the script leaves, the install map found is the recipe's, then C20, C32, C31, C30 and C58 for the files |
| C72 | `Jobs` (`jstep`: threads that run commands with `cmd_exec`, read them with `cmd_read_out` and free them; one descriptor table, children that inherit all of it, locks around the reading; programs write what they write and may leave a process behind) | an invariant: each pipe belongs to one command, its bytes read, held and still to be written are the program's output, every open descriptor belongs to a thread; a measure of what is left to do; a thread that reads an empty pipe waits only for children that can step |
| C73 | `Utf8` (`next_char`: the decoder of the tree-sitter runtime with its tables; `lex_chars_run`: the lexer that takes whole characters) | the decoder against RFC 3629 in both directions, by a check of the tables over all second bytes and division with remainder; no test of the generated lexer tells characters outside ASCII apart and states that take one stay where they are (checked on all 186 states), so the runs agree by induction |
| C74 | `Term` (`vlog`, `supports_colour`, `compile_acts`: what a compilation prints under which lock; `tstep`: threads, locks and the buffer of standard output, which the C library may empty at any time and must empty at line ends on terminals and at exit) | what was written and what is in the buffer is what was printed; an invariant on the lock: outside of a locked section there are whole blocks; refutations by explicit schedules |
| C75 | `Debug` (`debugged`: the same programs, run by one worker, of whose output Bob reads nothing), `SpecDebug` (`mixed_past`: histories of builds in both modes) | The invariant of C20–C22 weakened: a record of headers is what the compiler listed or empty. Objects with a full record follow as before; one with an empty record is right if it is made again or if the source includes nothing. Partial: a header changed after a debugging build is missed, warnings are forgotten (both refuted with witnesses). Bob's own messages in debugging mode are those of C74. |
| C76 | `Together` (`pstep`: the actions of `Build` one at a time for one process, `moves`: any process makes its next action on the shared files; `whole`: whether a tool's output appears all at once), `SpecTogether` | An invariant on the shared files (each record and product there is absent or right, as in C20–C22, and a product newer than its inputs is right whoever made it) and one per process on what it has found out so far, kept by every action of every process. The first implies the invariant of C20–C22, so that episodes of this kind can be events of a history (`team_past`). Every course of `Build`, whole or interrupted, is shown to be a course of one process here (`AloneProofs`: the pool is run with a count of each job's actions beside it). Refuted when flags have changed and when unfinished outputs are visible. Partial |
| C77 | `Build`; `SpecBesides` (`outside`: the places tools look at without naming them, `honest_inside`: the tools are honest as long as nothing there changes) | Replace the tools by ones that see the outside as it was found; these are honest, so C18 and C21 apply to them. A simulation between pools whose jobs do the same (`same_reachable`), and the fact that no step writes outside, show that every build and history of the real tools is one of the replaced tools. Refuted as to changes outside (new compiler, shadowing header, new library), by running the toy project with such tools. |
| C78 | `Telling` (`Install` again, with the messages, and with programs that may be missing or not start); `SpecTelling` (`explains`: what is wrong in the file system and the message for it, `dealt_with`: the messages for an entry that is done) | By cases along each entry, induction over the entries; agreement with `Install` gives C29–C32 for the same run. Partial: four ways in which the words are wrong or undefined are refuted with witnesses. |
| C79 | `Install`; `SpecResume` (`cut_short`: all entries up to some one are done, and that one is stopped at some point) | What is done has its content (C31), what is not reached is as it was, the entry stopped in has its destination unchanged or removed: each is `fair`, so C31 applies to the second installation. Refuted for points inside rm and cp. |
| C80 | `Install`; `SpecResume` | After a successful installation every destination is no older than its source, since the copy gets the time of the installation and a skipped one was no older before (`installed_fresh`). All directories on the way to it are there too (`installed_opened`). So the second installation only looks (`second_changes_nothing`). Refuted for sources dated in the future. |
| C81 | `Install`; `SpecInstall` | The conditions of C31 do not depend on the order (`tame_perm`, `good_perm`), so C31 applies to both installations, and both leave what the sources had. Refuted for two sources with one destination. |
