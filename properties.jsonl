{"id": "C01", "title": "A controller runs each target at most once", "statement": "For one Controller, the body (Run method) of a given target is invoked at most once, no matter how many calls to Controller.Run request it, from how many goroutines, nested or not, concurrent or not, in this call or any earlier one.", "quantifier": "all target graphs, all target bodies, all sets of concurrent and nested Run calls, all interleavings", "why_tests_cant": "tests exercise a handful of goroutine interleavings; the claim is about all of them", "anchors": ["runner.go:Controller.Run", "runner.go:outcome", "register.go:targetAddr"]}
{"id": "C02", "title": "Every request for a target gets the outcome of its single run", "statement": "Every request for a given target, first or later, yields the same error-or-nil, namely the (wrapped) result of the single invocation of the body; a request that finds the target already running waits and never observes a premature nil.", "quantifier": "all schedules, all pairs of requests of one target on one controller", "why_tests_cant": "tests exercise a handful of goroutine interleavings; the claim is about all of them", "anchors": ["runner.go:Controller.Run", "gate.go:gate"]}
{"id": "C03", "title": "Run returns only when everything requested has completed, with the exact join of the results", "statement": "When Controller.Run(ctx, t1..tn) returns, every ti that is a (resolvable) pointer target has finished running, and the returned error is errors.Join of the n individual results in argument order: nil exactly when all are nil; a non-pointer target or an unresolvable name contributes an error without preventing the others from running.", "quantifier": "all argument lists, all schedules", "why_tests_cant": "tests exercise a handful of goroutine interleavings; the claim is about all of them", "anchors": ["runner.go:Controller.Run"]}
{"id": "C04", "title": "Run always returns when targets do not depend on themselves", "statement": "If every target body is finite and the requests between targets are acyclic, then no reachable state is deadlocked and every execution of Run is finite: every call to Run eventually returns under every schedule.", "quantifier": "all acyclic target graphs, all schedules, all reachable states", "why_tests_cant": "absence of deadlock and termination quantify over all interleavings and all graph shapes", "anchors": ["runner.go:Controller.Run", "gate.go:gate.wait"]}
{"id": "C05", "title": "Run always returns (even for cyclic targets)", "statement": "A call to Controller.Run always returns eventually, with an error if targets depend on each other cyclically.", "quantifier": "all target graphs including cyclic ones", "why_tests_cant": "a test cannot observe that a call never returns; a proof can show a state with no enabled step", "anchors": ["runner.go:Controller.Run", "gate.go:gate.wait", "yaml.go:deferredResolutionTarget.Run"]}
{"id": "C06", "title": "A target referred to by name (YAML) also runs at most once", "statement": "A diamond dependency expressed with target names in YAML (A depends on B and C, which each name X) runs X only once, as documented: name references and direct references to one target share its single run.", "quantifier": "all YAML target graphs using names, all schedules", "why_tests_cant": "quantifies over all graphs of name references", "anchors": ["runner.go:Controller.Run", "yaml.go:deferredResolutionTarget", "Readme.md"]}
{"id": "C07", "title": "Seq runs its targets in order and stops at the first failure", "statement": "Seq requests its i+1st target only after its ith target has completed successfully; after the first failing target it requests nothing more and returns that failure; it returns nil exactly when every target succeeded.", "quantifier": "all lists of targets (including repeated ones), all outcomes, all schedules, with arbitrary other activity on the controller", "why_tests_cant": "tests exercise a handful of goroutine interleavings; the claim is about all of them", "anchors": ["seq.go:seq.Run"]}
{"id": "C08", "title": "Deps never requests the main target before all dependencies succeeded", "statement": "Deps(t, d1..dn) requests t only after every di has completed with no error; if some di fails, t is not requested by this target and the failure is reported.", "quantifier": "all dependency lists, all outcomes, all schedules", "why_tests_cant": "tests exercise a handful of goroutine interleavings; the claim is about all of them", "anchors": ["deps.go:Deps", "seq.go:seq.Run", "all.go:all.Run"]}
{"id": "C09", "title": "All attempts every subtarget regardless of failures, and may run them all in parallel", "statement": "All(t1..tn) requests every ti even when others fail, returns the join of all their results, and nothing in the controller prevents all n distinct targets from being in progress at the same time.", "quantifier": "all lists of subtargets, all outcomes, all schedules", "why_tests_cant": "tests exercise a handful of goroutine interleavings; the claim is about all of them", "anchors": ["all.go:all.Run", "runner.go:Controller.Run"]}
{"id": "C10", "title": "Outcomes do not depend on the schedule", "statement": "If target bodies are deterministic (their result depends only on the results of the targets they request), the outcome recorded for each target is the same under every interleaving, and equals that of a sequential evaluation.", "quantifier": "all pairs of schedules, all deterministic target graphs", "why_tests_cant": "tests exercise a handful of goroutine interleavings; the claim is about all of them", "anchors": ["runner.go:Controller.Run"]}
{"id": "C11", "title": "Indentation depth equals the number of Run calls in progress", "statement": "At every moment the controller's nesting depth equals the number of calls to Run (with at least one target) that have begun and not returned; it is never negative, the clamp in decDepth never fires, and it is zero when no call is in progress.", "quantifier": "all schedules and nesting patterns", "why_tests_cant": "tests exercise a handful of goroutine interleavings; the claim is about all of them", "anchors": ["runner.go:incDepth", "runner.go:decDepth", "runner.go:Controller.Run"]}
{"id": "C12", "title": "A target run through ArgTarget sees the arguments given to that ArgTarget", "statement": "When ArgTarget(t, args...) runs, t's body runs with GetArgs(ctx) == args.", "quantifier": "all histories of earlier and concurrent requests of t", "why_tests_cant": "depends on the history of the controller: whoever requests t first fixes the context", "anchors": ["argtarg.go:argTarget.Run", "context.go:WithArgs", "runner.go:Controller.Run"]}
{"id": "C13", "title": "The gate loses no wake-ups and lets nobody through early", "statement": "A goroutine waiting on a gate returns from wait only at a moment when the gate is open, and once the gate has been opened (and not closed again) every waiter, including ones that arrive later or were already blocked, can return; no interleaving of Lock/Unlock/Broadcast/Wait leaves one blocked forever.", "quantifier": "all interleavings of any number of wait and set calls", "why_tests_cant": "tests exercise a handful of goroutine interleavings; the claim is about all of them", "anchors": ["gate.go:gate.set", "gate.go:gate.wait"]}
{"id": "C14", "title": "A Files target that skips its subtarget is in a previously successful state", "statement": "If a Files target returns success without running its subtarget, then the current contents of all its input and output files, the description of the rule and its type are exactly those observed right after an earlier successful run of a subtarget with that same rule (assuming SHA-224 does not collide).", "quantifier": "all histories of runs, external edits, expirations and concurrent Files runs", "why_tests_cant": "the claim ranges over all histories of edits and runs", "anchors": ["files.go:files.Run", "files.go:computeHash", "files.go:fileHashes"]}
{"id": "C15", "title": "A change to any input or output file causes a rebuild", "statement": "If the contents (or existence) of any input or output file differ from those in every recorded successful state of that rule, running the Files target runs the subtarget.", "quantifier": "all file sets, directory trees, edits and histories", "why_tests_cant": "ranges over all contents and histories", "anchors": ["files.go:files.Run", "files.go:computeHash"]}
{"id": "C16", "title": "An up-to-date Files target is not rebuilt", "statement": "If a Files target ran successfully with a hash database, and neither its files nor its rule have changed and the entry has not expired, then a new run (without force or dry-run) succeeds without running the subtarget and without changing files or database contents.", "quantifier": "all rules with an unchanging description, all file states", "why_tests_cant": "ranges over all file states and histories", "anchors": ["files.go:files.Run"]}
{"id": "C17", "title": "An up-to-date Files target whose subtarget is given by name is not rebuilt", "statement": "The documented pattern `Prog: !Files {Target: Build, ...}` skips Build in the next fab process when nothing changed.", "quantifier": "all named subtargets", "why_tests_cant": "needs two processes and the mutation of the reference during the run; existing tests use inline subtargets only", "anchors": ["yaml.go:deferredResolutionTarget.resolve", "files.go:computeHash", "Readme.md"]}
{"id": "C18", "title": "A change to the rule causes a rebuild", "statement": "If the nested subtarget of a Files target is changed (a different command, argument, or sequence of commands), the next run does not skip it.", "quantifier": "all pairs of different JSON-encodable subtargets built from Command, All, Seq, Deps, ArgTarget, Clean", "why_tests_cant": "ranges over all pairs of rules", "anchors": ["files.go:computeHash", "seq.go:seq", "all.go:all", "argtarg.go:argTarget", "command.go:Command"]}
{"id": "C19", "title": "Failures, dry runs and force interact correctly with the hash database", "statement": "A Files target records a hash only after its subtarget succeeded; if the subtarget or a prerequisite fails nothing is recorded and the error is returned; in dry-run mode the database is neither consulted nor updated; with force the database is not consulted, the subtarget always runs and success is recorded; with no database the subtarget always runs.", "quantifier": "all combinations of flags, database contents and subtarget behaviours", "why_tests_cant": "all combinations of flags, errors and states", "anchors": ["files.go:files.Run"]}
{"id": "C20", "title": "Editing an input while the rule is running does not mark a stale output as up to date", "statement": "If an input file is edited while the subtarget is running, after the subtarget has read it, a later run rebuilds.", "quantifier": "all points at which the edit can happen", "why_tests_cant": "depends on the moment of the edit", "anchors": ["files.go:files.Run"]}
{"id": "C21", "title": "The files covered by a Files hash are exactly the regular files at or under the listed names", "statement": "The list computed for a set of names contains each missing listed name (as missing) and each file at or below a listed name with the hash of its content, sorted by name, each once, and nothing else; it is unaffected by the order of the names, duplicates and overlaps.", "quantifier": "all lists of names and all directory trees", "why_tests_cant": "all trees and lists", "anchors": ["files.go:fileHashes", "files.go:fileHashesItemHelper"]}
{"id": "C22", "title": "Hashing files never crashes the process", "statement": "Whatever the state of the file system (missing, unreadable, not a directory, permission denied), Files.Run returns an error or nil; it does not panic.", "quantifier": "all file system states", "why_tests_cant": "all stat outcomes", "anchors": ["files.go:fileHashesItemHelper"]}
{"id": "C23", "title": "File chaining finds the target that produces an input, itself or an enclosing directory", "statement": "The prerequisites of a Files target are, for each input in order, the most recently declared Files target that lists that input, or failing that the nearest enclosing directory of it, as an output; the search always terminates; prerequisites complete before the target looks at its files, and if one fails the subtarget does not run.", "quantifier": "all input names, all histories of Files declarations", "why_tests_cant": "all path shapes and registries", "anchors": ["files.go:runPrereqs", "files.go:findInFilesRegistry", "registry.go:registry"]}
{"id": "C24", "title": "A Files target that lists a file as both input and output can run", "statement": "A Files target (say a formatter) with the same file in In and Out completes.", "quantifier": "all such targets, all schedules", "why_tests_cant": "non-termination cannot be observed by a test", "anchors": ["files.go:runPrereqs", "runner.go:Controller.Run"]}
{"id": "C25", "title": "The sqlite hash database behaves as a set with last-access times", "statement": "Has(h) is true exactly when h was added and not evicted since; Add makes h present; Has never adds or removes entries; with UpdateOnAccess a successful Has refreshes the entry and otherwise changes nothing; there is at most one row per hash.", "quantifier": "all sequences of Add and Has with arbitrary clock values and options", "why_tests_cant": "all operation sequences", "anchors": ["sqlite/db.go:DB.Has", "sqlite/db.go:DB.Add", "sqlite/schema.sql"]}
{"id": "C26", "title": "Eviction removes only entries unused for longer than the keep period, at any crash point", "statement": "An entry disappears only through an Add at a time more than the keep period (to the second) after the entry's recorded last access; without Keep nothing ever disappears; an entry just added survives its own Add; a crash between the statements of Add loses nothing else.", "quantifier": "all histories, clocks, keep values, crash points and interleavings of several processes", "why_tests_cant": "all histories and crash points", "anchors": ["sqlite/db.go:DB.Add", "sqlite/db.go:Keep", "main.go:OpenHashDB"]}
{"id": "C27", "title": "IndentingCopier indents every non-empty line and normalizes line endings, however the input is split into writes", "statement": "The total output after any sequence of Writes depends only on the concatenation of the inputs: CRLF and bare CR become LF, a CR at the very end is dropped, and each non-empty line is preceded by the indentation and prefix; nothing else is added or lost; Write reports all bytes consumed.", "quantifier": "all byte strings and all ways of splitting them into writes", "why_tests_cant": "all inputs and all chunkings", "anchors": ["runner.go:IndentingCopier", "runner.go:indentingCopier.Write", "runner.go:newline"]}
{"id": "C28", "title": "JoinPath: the last absolute segment wins, otherwise the path is under the top directory", "statement": "JoinPath(elts) is the lexically cleaned path denoting the same location as: the suffix of elts starting at the last absolute element, if any; else the top directory followed by all of elts.", "quantifier": "all element lists, all top directories", "why_tests_cant": "all path strings", "anchors": ["controller.go:JoinPath"]}
{"id": "C29", "title": "A relative reference from one directory's YAML file names the target registered by the other directory's file", "statement": "For a target T in directory D (relative to the top), the registry key obtained from a reference in directory D' by a relative path that leads to D/T is exactly the name under which D's YAML file registers T.", "quantifier": "all clean relative directories and reference paths, all top directories", "why_tests_cant": "all path shapes", "anchors": ["yaml.go:YAMLTarget", "yaml.go:ReadYAML", "controller.go:JoinPath", "controller.go:RelPath"]}
{"id": "C30", "title": "TopDir finds the nearest project root, consistently with _dir declarations", "statement": "TopDir returns the nearest enclosing directory with a _fab subdirectory or, if a fab.yaml is met first, that directory, or the ancestor of it such that ancestor/_dir is that directory; a _dir that does not match the actual path is an error, never a wrong answer; the search terminates.", "quantifier": "all directory layouts and _dir declarations", "why_tests_cant": "all layouts", "anchors": ["top.go:TopDir", "top.go:topDirHelper"]}
{"id": "C31", "title": "The target registry is a last-writer-wins map; names are listed sorted and exactly once; Describe reports the latest name", "statement": "RegistryTarget(n) returns the target and doc most recently registered as n (or nothing); RegistryNames is the sorted, duplicate-free list of all names ever registered; Describe(t) is the name under which t was most recently registered, or \"unnamed \"+Desc; a non-pointer target is refused and changes nothing.", "quantifier": "all histories of registrations, including concurrent ones", "why_tests_cant": "all histories", "anchors": ["register.go:RegisterTarget", "register.go:RegistryTarget", "register.go:RegistryNames", "register.go:Describe"]}
{"id": "C32", "title": "ParseArgs returns the named targets in order, or one ArgTarget, or names every unknown target", "statement": "With a second argument starting with '-', ParseArgs yields exactly one ArgTarget of the first name with the remaining arguments; otherwise the targets of all names in order; if any name is unknown it yields no target and an error naming exactly the unknown ones in order.", "quantifier": "all argument lists and registries", "why_tests_cant": "all argument lists", "anchors": ["controller.go:ParseArgs"]}
{"id": "C33", "title": "ParseArgs never crashes", "statement": "ParseArgs returns targets or an error for every list of strings.", "quantifier": "all argument lists, including empty strings", "why_tests_cant": "all argument lists", "anchors": ["controller.go:ParseArgs"]}
{"id": "C34", "title": "ListTargets prints every name once, sorted, and every doc line indented", "statement": "The output consists of each registered name on its own line in sorted order, each followed by its doc string, if not empty, with every line indented by four spaces.", "quantifier": "all registries and doc strings (including multi-line)", "why_tests_cant": "all doc strings; the test has single-line docs only", "anchors": ["controller.go:ListTargets", "main.go:bolRegex"]}
{"id": "C35", "title": "Reading a YAML file registers exactly its targets under directory-qualified names or fails", "statement": "ReadYAML of a document succeeds only if it is a mapping with scalar keys, no slash in target names, every value decodes to a target, and _dir (required outside the top directory) equals the directory; on success exactly the keys other than _dir are registered, as dir/key, with their doc comments, later duplicates winning; targets registered by earlier keys remain.", "quantifier": "all YAML documents", "why_tests_cant": "all documents", "anchors": ["yaml.go:ReadYAML"]}
{"id": "C36", "title": "Resolving references across YAML files terminates", "statement": "Reading a project's YAML files terminates whenever target definitions do not refer to each other cyclically.", "quantifier": "all sets of YAML files", "why_tests_cant": "non-termination cannot be observed by a test", "anchors": ["yaml.go:YAMLTarget", "yaml.go:ReadYAMLFile"]}
{"id": "C37", "title": "String and file lists in YAML are concatenated in order", "statement": "YAMLStringList(FromNodes) returns, in order, the scalar values and the expansions of tagged nodes, or the first error; an absent node is the empty list; YAMLFileList joins every element with the directory.", "quantifier": "all lists of nodes and registries of list functions", "why_tests_cant": "all node lists", "anchors": ["yaml.go:YAMLStringList", "yaml.go:YAMLStringListFromNodes", "yaml.go:YAMLFileList", "yaml.go:normalizeTag"]}
{"id": "C38", "title": "Command output goes where the configuration says", "statement": "For each stream: a file if a file is named (truncated, or appended to with >>), else the given writer, else the writer made by the function if it returns one, else the indented copier in verbose mode, else a buffer; when both streams name one file they share one open file; disagreement about appending to the same file is an error and runs nothing.", "quantifier": "all combinations of the Command fields and verbose mode", "why_tests_cant": "the combinations of fields are many; tests try six", "anchors": ["command.go:Command.Run"]}
{"id": "C39", "title": "A Command in dry-run mode has no effect", "statement": "With dry-run, Command.Run starts no process, opens, creates or truncates no file, calls no StdoutFn/StderrFn, and returns nil.", "quantifier": "all Command configurations and environments", "why_tests_cant": "all configurations", "anchors": ["command.go:Command.Run"]}
{"id": "C40", "title": "Command.Run reports errors: exit status with captured output, and failure to close output", "statement": "If the process fails the returned error wraps its error, together with the captured output exactly when a stream was captured and produced something; if the process succeeds but closing an output destination fails, an error is returned.", "quantifier": "all configurations and failures", "why_tests_cant": "close failures are hard to provoke in tests", "anchors": ["command.go:Command.Run", "command.go:CommandErr"]}
{"id": "C41", "title": "In YAML, a >> prefix on Stdout/Stderr means append", "statement": "A !Command whose Stdout (or Stderr) is \">>f\" appends to the file f relative to the YAML file's directory.", "quantifier": "all top directories, directories and file names", "why_tests_cant": "the test uses an empty top directory, the one case that works", "anchors": ["command.go:toTarget", "controller.go:JoinPath"]}
{"id": "C42", "title": "In YAML, Stdin may name a file", "statement": "A !Command whose Stdin is a file name reads its standard input from that file.", "quantifier": "all file names", "why_tests_cant": "no test covers it", "anchors": ["command.go:toTarget", "command.go:Command"]}
{"id": "C43", "title": "A multi-command Shell list becomes a Seq of commands that accumulate into the same output files", "statement": "A Shell list of n strings gives a Seq of n commands, identical except for the shell string, where commands after the first append to any output file.", "quantifier": "all lists of strings and fields", "why_tests_cant": "all lists", "anchors": ["command.go:commandDecoder", "command.go:toTarget"]}
{"id": "C44", "title": "The driver that is run was compiled from the current sources by the current version of fab", "statement": "Whenever getDriver succeeds (with version check), the binary it returns is the one compiled from the current contents of the _fab Go files by the running version of fab; this holds after any history of edits, upgrades, forced runs and crashes.", "quantifier": "all histories including crashes between file writes", "why_tests_cant": "all histories and crash points", "anchors": ["main.go:getDriver", "main.go:checkVersion", "dirhash.go:dirHasher", "compile.go:CompilePackage"]}
{"id": "C45", "title": "An up-to-date driver is not recompiled", "statement": "After one successful getDriver, another one with unchanged sources and version (and no force) does not compile.", "quantifier": "all histories", "why_tests_cant": "the test skips the version check", "anchors": ["main.go:getDriver", "main.go:checkVersion"]}
{"id": "C46", "title": "The flags given to fab reach the driver unchanged", "statement": "The argument vector fab passes to the driver is parsed by the driver's flags into the same Fabdir, Topdir, verbose, list, force, dry-run settings and the same remaining arguments.", "quantifier": "all settings and argument lists", "why_tests_cant": "all argument lists", "anchors": ["main.go:Main.Run", "driver.go.tmpl:main", "cmd/fab/main.go:main"]}
{"id": "C47", "title": "The directory hash ignores order and detects every change", "statement": "dirHasher's result does not depend on the order in which files are added, and two sets of files (with distinct base names) have equal hashes only if they have the same base names and contents (assuming SHA-224 does not collide).", "quantifier": "all file sets, contents and orders", "why_tests_cant": "all sets and orders", "anchors": ["dirhash.go:dirHasher"]}
{"id": "C48", "title": "checkImplementsTarget decides structural equality of method signatures, and terminates on recursive types", "statement": "The comparison of a go/types type with a reflect type terminates for all (finite, possibly cyclic) type graphs and accepts exactly when the two unfold to the same structure, names and tags included.", "quantifier": "all pairs of finite type graphs", "why_tests_cant": "all recursive type graphs", "anchors": ["types.go:checkTypesMatch", "types.go:checkSignaturesMatch", "types.go:checkImplementsTarget"]}
{"id": "C49", "title": "proto.Deps returns every transitively imported file and terminates on cyclic imports", "statement": "The result contains the file itself and, for each import in each file of the result, the first existing match among the include directories; it is sorted, duplicate-free, contains only files that exist and are imported, and the computation terminates even for cyclic imports.", "quantifier": "all file contents, include lists, import graphs", "why_tests_cant": "all graphs", "anchors": ["proto/proto.go:Deps", "proto/proto.go:protodeps", "proto/proto.go:protodepsImport"]}
{"id": "C50", "title": "proto.Deps lists no file that is shadowed by an earlier include directory", "statement": "Each import contributes only the first match among the include directories, as protoc resolves it.", "quantifier": "all include lists and import graphs", "why_tests_cant": "needs the same import twice and two matching include directories", "anchors": ["proto/proto.go:protodepsImport"]}
{"id": "C51", "title": "golang.Deps returns exactly the files of the same-module transitive imports", "statement": "Deps returns the sorted duplicate-free list of the files of all packages reachable from the loaded packages through imports without leaving the module.", "quantifier": "all import graphs", "why_tests_cant": "all graphs", "anchors": ["golang/go.go:Deps", "golang/go.go:gopkgAdd"]}
{"id": "C52", "title": "Clean removes exactly the listed files that exist", "statement": "A Clean target that returns nil leaves none of its files (nor, with Autoclean, of the autoclean registry) in place and touches nothing else; missing files are ignored; on failure the error names the file and only files before it in sorted order were removed; in dry-run mode nothing is removed.", "quantifier": "all file lists, file system states, registry contents", "why_tests_cant": "all states", "anchors": ["clean.go:Clean.Run", "files.go:Autoclean"]}
{"id": "C53", "title": "Running a Clean target does not alter the caller's data", "statement": "Clean.Run leaves the Files slice of the Clean value, and any slice sharing its storage, unchanged.", "quantifier": "all slices and capacities", "why_tests_cant": "depends on slice capacity and aliasing", "anchors": ["clean.go:Clean.Run"]}
{"id": "C54", "title": "Context values: the latest setting wins and settings are independent", "statement": "GetX of WithX(ctx, v) is v; WithX does not affect other settings; the defaults are false / nil; settings pass down to nested contexts.", "quantifier": "all sequences of With calls", "why_tests_cant": "all sequences", "anchors": ["context.go"]}
{"id": "C55", "title": "Compile registers exactly the exported identifiers that implement Target, producing valid driver source", "statement": "The generated driver registers each exported package-level identifier whose type implements Target exactly once under its own name with its doc string, and copies exactly the non-test Go files; the generated source is well-formed.", "quantifier": "all packages", "why_tests_cant": "all packages", "anchors": ["compile.go:CompilePackage", "driver.go.tmpl"]}
{"id": "C56", "title": "Distinct targets never suppress each other", "statement": "Requesting a target that has never been requested runs its body, whatever other targets have run on the controller.", "quantifier": "all histories of targets, including dynamically created and discarded ones", "why_tests_cant": "depends on address reuse", "anchors": ["register.go:targetAddr", "runner.go:Controller.Run"]}
{"id": "C57", "title": "Command.Run closes everything it opens, exactly once, on every path", "statement": "Every file Command.Run opens for a stream, the file it opens for standard input, and every closable writer returned by StdoutFn or StderrFn is closed exactly once before Run returns, whether or not the process starts or succeeds; nothing else (in particular no caller-supplied writer) is closed.", "quantifier": "all Command configurations, environments and failures of opening, running and closing", "why_tests_cant": "error paths between two opens are hard to provoke and leaks are invisible", "anchors": ["command.go:Command.Run"]}
{"id": "C58", "title": "Incremental builds are correct over any history", "statement": "Suppose commands succeed only when they have made their outputs right, touch only the files of their own Files target, and what is right depends only on the description of the subtarget and the contents of the files. Then whenever fab completes a Files target without error - by running its command, or by skipping it because the hash database says so - its outputs are right at the end of that build, after any history of earlier builds (complete, failed or killed at any point), edits of files, changes of the project and losses of database entries; and the database only ever holds hashes of right states.", "quantifier": "all projects, all schedules of all chained Files targets, all histories of builds, kills, edits and evictions", "why_tests_cant": "correctness of skipping depends on the whole history of earlier builds and on the interleaving of concurrently running prerequisites", "anchors": ["files.go:files.Run", "files.go:computeHash", "files.go:runPrereqs", "runner.go:Controller.Run", "sqlite/db.go:DB"]}
{"id": "C59", "title": "A repeated build does nothing", "statement": "When a build with a hash database has completed a Files target without error, and nothing else changes the files or the database, then the next build of the project without -f runs no command of that Files target or of its prerequisites, does not request their subtargets, and leaves their files unchanged.", "quantifier": "all projects of chained Files targets, all schedules of both builds", "why_tests_cant": "the recorded hash must still describe the files after every other target of the first build has run, in any interleaving", "anchors": ["files.go:files.Run", "files.go:runPrereqs", "runner.go:Controller.Run"]}
{"id": "C60", "title": "An incremental build gives the same files as a clean build", "statement": "Take two builds of the same project from states with the same sources, each state reached by any history of builds, kills and edits (in particular one may be a clean tree with an empty database). For every Files target that both builds complete without error, its inputs and outputs are the same at the end of both, provided that right outputs are determined by the inputs and that commands do not change sources.", "quantifier": "all projects of chained Files targets, all pairs of histories, all schedules", "why_tests_cant": "compares two unrelated histories over an unbounded chain of prerequisites", "anchors": ["files.go:files.Run", "files.go:computeHash", "files.go:runPrereqs", "runner.go:Controller.Run"]}
{"id": "C61", "title": "Exit status", "statement": "fab exits with status 0 exactly if it printed no error message. It makes at most one request to run targets, and then the status is 0 exactly if that request succeeds. If the project's YAML files cannot be read, fab fails and neither runs nor lists anything.", "quantifier": "all machines (files, YAML texts, packages, databases, outcomes of running), all command lines", "why_tests_cant": "the status must be right for every combination of flags, files, and failures, across two processes", "anchors": ["cmd/fab/main.go:main", "main.go:Main.Run", "main.go:Main.driverless", "driver.go.tmpl"]}
{"id": "C62", "title": "A Go package that adds nothing changes nothing", "statement": "A project with YAML targets behaves the same without a _fab package and with one that defines no targets: fab prints the same, requests the same targets with the same settings, and succeeds or fails alike.", "quantifier": "all projects and command lines", "why_tests_cant": "compares two different programs (fab itself and the generated driver) on all inputs", "anchors": ["main.go:Main.Run", "main.go:Main.driverless", "driver.go.tmpl"]}
{"id": "C63", "title": "-list only lists", "statement": "With -list, fab runs nothing and changes nothing; if it succeeds it prints the sorted names, with doc strings, of exactly the targets of the Go package and of the YAML files it reads.", "quantifier": "all projects and command lines with -list", "why_tests_cant": "the listing is produced by one of two programs after decoding files of unbounded size", "anchors": ["main.go:Main.driverless", "driver.go.tmpl", "controller.go:ListTargets"]}
{"id": "C64", "title": "Targets run with the settings of the command line", "statement": "When fab runs targets, the context they get has the values of -v, -f and -n, no arguments, and the hash database in the directory of -fab; the targets are those named by the arguments.", "quantifier": "all projects and command lines", "why_tests_cant": "flags pass through a second command line and a second flag parser", "anchors": ["cmd/fab/main.go:main", "main.go:Main.Run", "driver.go.tmpl", "controller.go:ParseArgs"]}
{"id": "C65", "title": "What a target name stands for", "statement": "Every target name that can be given to fab stands for the Go target of that name or for a definition of that name in a YAML file; the project file's definition wins over the Go target, and its last definition over the others.", "quantifier": "all projects and command lines", "why_tests_cant": "ranges over all Go packages and YAML documents", "anchors": ["driver.go.tmpl", "yaml.go:ReadYAML", "yaml.go:ReadYAMLFile", "register.go:RegisterTarget"]}
{"id": "C66", "title": "Relative paths mean the same for fab and its driver", "statement": "The hash database is opened in the place that the path given with -fab names from where fab is called, and the project read is at the place that Main.Topdir names from there, with or without a Go package.", "quantifier": "all working directories, top directories and paths", "why_tests_cant": "the driver runs in another working directory", "anchors": ["main.go:Main.Run", "main.go:Main.getDriver", "main.go:OpenHashDB", "driver.go.tmpl"]}
{"id": "C67", "title": "Binary builds what it says", "statement": "The target that !go.Binary (or golang.Binary) describes runs go build in the package directory and tells it to write the program to exactly the file that is the target's only output, whatever the working directory; Dir and Out are relative to the YAML file's directory; the inputs are the package's files; the output is registered for cleaning; without Out the output is a file in the YAML file's directory named like the last element of Dir.", "quantifier": "all nodes, directories, flag lists, dependency results and working directories", "why_tests_cant": "the relative path given to go build is computed from arbitrary pairs of paths", "anchors": ["golang/go.go:Binary", "golang/go.go:binaryDecoder", "golang/go.go:MustBinary"]}
{"id": "C68", "title": "!Clean removes the files named in YAML", "statement": "A !Clean target, sequence or mapping, when run without error has removed what was at the named places (relative to the YAML file's directory) and with Autoclean the registered outputs, and nothing else, whatever the working directory.", "quantifier": "all nodes, directories, registries, file systems and working directories", "why_tests_cant": "ranges over all file systems and path spellings", "anchors": ["clean.go:cleanDecoder", "clean.go:Clean.Run"]}
{"id": "C69", "title": "Dependency lists written in YAML name the files found", "statement": "!proto.Proto resolves inputs, outputs and includes from the YAML file's directory and its Files target depends on every file needed to compile the inputs; !proto.Deps and !go.Deps in a list of files give exactly the files that were found.", "quantifier": "all nodes, include lists, file systems, top directories", "why_tests_cant": "the dependency closure ranges over all import graphs, and names are joined with directories twice", "anchors": ["proto/proto.go:Proto", "proto/proto.go:protoDecoder", "proto/proto.go:protodepsDecoder", "golang/go.go:depsDecoder", "yaml.go:YAMLFileList"]}
{"id": "C70", "title": "ts.Decls", "statement": "!ts.Decls takes package and output from the YAML file's directory and depends on the package's files; running it changes only the output, and nothing in a dry run; success means the output is what the generator wrote; every failure is reported; a failed generation keeps the previous output.", "quantifier": "all nodes, generator results and failures of creating, writing and closing", "why_tests_cant": "ranges over all failure points", "anchors": ["ts/tsdecls.go:Decls", "ts/tsdecls.go:declsType.Run", "ts/tsdecls.go:declsDecoder"]}
{"id": "C71", "title": "Changed parameters of library targets cause a rebuild", "statement": "For targets made by go.Binary, proto.Proto and ts.Decls: a run that returns nil has successfully run the subtarget unless a success with the very same parameters was recorded before; two definitions with the same description agree on flags, type, prefix and the places of package and output.", "quantifier": "all histories of runs, edits and database changes; all pairs of definitions", "why_tests_cant": "ranges over all histories and parameter values", "anchors": ["golang/go.go:Binary", "proto/proto.go:Proto", "ts/tsdecls.go:declsType", "files.go:computeHash"]}
{"id": "C72", "title": "Success of Run means that everything the YAML definition requires was carried out", "statement": "If Run returns nil for a registered target whose definition is in YAML files, then before it returned a body was run without error for every part of the definition (recursively), for the definition of every name in it, and for the rule that makes an input file of a rule in it (if only one does and its file was read); every name is defined.", "quantifier": "all YAML documents, list functions, other decoders, registries, schedules, histories of calls", "why_tests_cant": "quantifies over all definitions and all interleavings; involves decoding, registry, deferred names, output registry and runner together", "anchors": ["yaml.go:YAMLTarget", "yaml.go:ReadYAMLFile", "yaml.go:deferredResolutionTarget", "all.go:all.Run", "seq.go:seq.Run", "deps.go:Deps", "argtarg.go:argTarget.Run", "files.go:files.Run", "runner.go:Controller.Run"]}
{"id": "C73", "title": "An error of Run has a cause in the YAML definition", "statement": "If Run returns an error for registered targets, something involved in the definition of one of them (parts, names, rules that make inputs, recursively) is a name that is not registered, a rule whose own hashing or database work failed, or a command whose body returned an error.", "quantifier": "all YAML documents, registries, schedules, bodies of commands", "why_tests_cant": "quantifies over all definitions, failures and interleavings", "anchors": ["yaml.go:YAMLTarget", "yaml.go:deferredResolutionTarget.resolve", "runner.go:Controller.Run", "files.go:files.Run"]}
{"id": "C74", "title": "Nothing runs that is not involved in what was asked for", "statement": "Every target body that is started belongs to something involved in the definition of a target that a client asked for: a part, the definition of a name, or a rule that makes an input file (or a directory containing it), recursively.", "quantifier": "all YAML documents, registries, schedules, clients", "why_tests_cant": "an absence claim over all executions", "anchors": ["runner.go:Controller.Run", "files.go:runPrereqs", "files.go:findInFilesRegistry", "yaml.go:YAMLTarget"]}
{"id": "C75", "title": "The order written in YAML is the order of execution", "statement": "What is written in place in a part of a !Seq (at any depth), or in the main part of a !Deps, starts only after everything required of the earlier parts, or of the prerequisites, has been carried out without error, however targets are shared and whoever else runs what. A running !Seq or !Deps asks for its parts, names and rules included, in that order only. A target written in place is part of nothing else, and starts only after what contains it.", "quantifier": "all YAML documents, nesting depths, registries, clients asking for registered targets, schedules", "why_tests_cant": "an ordering claim over all interleavings of concurrent requests and all definitions", "anchors": ["seq.go:seq.Run", "deps.go:Deps", "deps.go:depsDecoder", "yaml.go:YAMLTarget", "runner.go:Controller.Run", "all.go:all.Run"]}
{"id": "C76", "title": "Without a cycle of definitions every Run returns", "statement": "If no definition uses itself through parts, names and rules that make its inputs, every call of Run returns whatever the scheduler does; a cycle elsewhere does not keep a call from returning whose own definitions do not lead into it.", "quantifier": "all YAML documents without such cycles, registries, schedules, bodies that end", "why_tests_cant": "liveness over all fair schedules and all definitions", "anchors": ["runner.go:Controller.Run", "gate.go:gate", "yaml.go:deferredResolutionTarget", "files.go:files.Run"]}
{"id": "C77", "title": "How often what is written in YAML runs", "statement": "A target written in place runs at most once in the lifetime of a controller, whoever asks for what contains it. The target of a definition runs at most once for itself and once for each name reference to it that is resolved at run time. It is not so that each definition is carried out at most once: a file that is read again while it is being read leaves two targets for one definition, and both may run.", "quantifier": "all YAML documents, registries, schedules, histories", "why_tests_cant": "an absence claim over all executions and all definitions; the counterexample needs files referring to each other across directories", "anchors": ["runner.go:Controller.Run", "yaml.go:YAMLTarget", "yaml.go:ReadYAMLFile", "yaml.go:deferredResolutionTarget"]}
{"id": "C78", "title": "fab exits with 0 only if what was asked for has been done", "statement": "For a project whose targets are defined in YAML: if fab NAME... exits with status 0 and this was not -list, every NAME is defined, and everything its definition requires (parts, what names stand for, the rules that make input files; with -f or -n also the Targets of !Files) has been carried out without error.", "quantifier": "all command lines, YAML documents, environments, schedules, bodies of commands", "why_tests_cant": "the claim spans argument parsing, file reading, decoding, registry and concurrent execution, for all projects", "anchors": ["main.go:Main.Run", "main.go:Main.driverless", "driver.go.tmpl:main", "controller.go:ParseArgs", "yaml.go:ReadYAMLFile", "runner.go:Controller.Run"]}
{"id": "C79", "title": "If fab fails there is a cause in what was asked for", "statement": "For such a project: if fab exits with another status and this was not -list, then either nothing was asked for, and the project file is wrong, the hash database cannot be opened, a target named does not exist (or the second argument is empty, or a Go package is in the way), or among what the named targets involve there is a name that is not defined, a rule whose own work failed, or a command that failed.", "quantifier": "all command lines, YAML documents, environments, schedules, bodies of commands", "why_tests_cant": "no test enumerates all ways to fail; the claim is that there are no others", "anchors": ["main.go:Main.Run", "main.go:Main.driverless", "controller.go:ParseArgs", "runner.go:Controller.Run"]}
{"id": "C80", "title": "fab runs nothing but what the named targets involve", "statement": "For such a project, fab NAME... starts only targets that the definitions of the NAMEs involve: parts, what names stand for, rules that make input files, transitively.", "quantifier": "all command lines, YAML documents, environments, schedules, bodies of commands", "why_tests_cant": "an absence claim over all executions of all projects", "anchors": ["main.go:Main.driverless", "controller.go:ParseArgs", "runner.go:Controller.Run", "files.go:files.runPrereqs"]}
{"id": "C81", "title": "The settings of the command line reach every target", "statement": "For such a project, everything that fab runs sees -v, -f and -n as given on the command line, the hash database of the fab directory, and as arguments those after NAME on the command line, or those of the innermost !ArgTarget on the way.", "quantifier": "all command lines, YAML documents, environments, schedules, bodies of commands", "why_tests_cant": "settings pass through contexts on every path of every execution", "anchors": ["main.go:Main.driverless", "context.go", "argtarg.go:argTarget.Run", "controller.go:ParseArgs", "runner.go:Controller.Run"]}
{"id": "C82", "title": "fab ends if no definition uses itself", "statement": "For such a project: if no definition uses itself through parts, names and rules that make its inputs, and commands end, then after the request Run comes to its return however the goroutines are scheduled.", "quantifier": "all command lines, YAML documents without cycles, schedules, bodies that end", "why_tests_cant": "liveness over all schedules", "anchors": ["main.go:Main.driverless", "runner.go:Controller.Run", "gate.go:gate"]}
{"id": "C83", "title": "A dry run changes nothing; -f does not ask whether anything is up to date", "statement": "For such a project: with -n the only effects are those that commands themselves have in a dry run; no rule computes hashes, consults or changes the hash database. With -f no rule consults the hash database.", "quantifier": "all command lines, YAML documents, environments, schedules, bodies of commands", "why_tests_cant": "an absence claim over all executions", "anchors": ["files.go:files.Run", "main.go:Main.driverless", "context.go:WithDryRun", "context.go:WithForce"]}
{"id": "C84", "title": "fab that succeeds leaves the files up to date", "statement": "For a project whose targets are defined in YAML, in which each command touches only the files of its own rule (or of rules that need it) and does its job when it succeeds undisturbed: after any history of earlier runs of fab (completed, failed or killed at any point, in this or other versions of the project), edits of any files and losses of hash-database entries, if `fab NAME...` (without -n) exits with status 0, then the outputs of every rule that the definitions of the named targets require (a part, what a name stands for, the rule that makes an input) are right for its inputs. Even if it fails or is killed, the outputs of every rule that was completed are right.", "quantifier": "all histories, command lines, YAML documents, file contents, schedules, crash points, and predicates for what is right that depend only on what the hash covers", "why_tests_cant": "it must hold for every history, including kills at any point and edits in between, and every schedule", "anchors": ["main.go:Main.driverless", "yaml.go:Controller.ReadYAMLFile", "files.go:files.Run", "files.go:files.computeHash", "runner.go:Controller.Run"]}
{"id": "C85", "title": "The hash database never says that a wrong file is up to date", "statement": "For such projects: whatever runs of fab, edits and losses of database entries there have been, and wherever runs were killed, if the hash database contains the hash of a rule and the present contents of its files, then its outputs are right for its inputs.", "quantifier": "all histories of runs, kill points, schedules and edits", "why_tests_cant": "an invariant over all histories and crash points", "anchors": ["files.go:files.Run", "main.go:Main.driverless", "sqlite/db.go:DB.Add", "sqlite/db.go:DB.Has"]}
{"id": "C86", "title": "Repeating a successful fab runs no rule's command", "statement": "For such projects, if the hash database keeps what is added: when `fab NAME...` has exited with status 0 and is called again (without -f, for some of the same names) with nothing changed in between, no command of any rule is run. Whatever names it is called for, no command is run of a rule that was completed, and that rule's files stay as they are.", "quantifier": "all command lines, YAML documents, schedules of both runs, bodies of commands", "why_tests_cant": "an absence claim over all executions of two successive processes", "anchors": ["main.go:Main.driverless", "files.go:files.Run", "files.go:files.computeHash", "yaml.go:Controller.ReadYAMLFile"]}
{"id": "C87", "title": "Incremental fab leaves the same files as a clean build", "statement": "For such projects, if what is right is determined by the inputs and nothing in the build changes sources: when `fab NAME...` succeeds in two copies of a project with the same YAML files and the same sources, after different histories (one may be a clean start), then the files of every rule required by the named targets are the same in both.", "quantifier": "all pairs of histories, command lines, schedules, kill points and edits", "why_tests_cant": "relates two executions after arbitrary histories", "anchors": ["main.go:Main.driverless", "files.go:files.Run", "yaml.go:Controller.ReadYAMLFile", "runner.go:Controller.Run"]}
{"id": "C88", "title": "Up-to-date checking is right with the sqlite database that fab uses, shared and evicting", "statement": "The guarantees of C58-C60 and C84-C87 (outputs right after any history, the database never vouches for a wrong state, repetition runs nothing, same result as a clean build) hold when the hash database is the sqlite one that fab opens: whatever statements its Has and Add calls execute or fail to execute, whatever expired entries are evicted at any moment, and whatever other processes do with the same database file meanwhile, provided those add only hashes of right states. That repetition runs nothing needs that nobody else uses the database meanwhile and that nothing in it is older than the keep period (30 days).", "quantifier": "all histories of builds by any processes, kill points, failing calls, clock values, evictions and interleavings of SQL statements", "why_tests_cant": "combines arbitrary build histories with arbitrary interleavings of other users of the database and the passing of time", "anchors": ["sqlite/db.go:DB.Has", "sqlite/db.go:DB.Add", "main.go:OpenHashDB", "files.go:files.Run"]}
{"id": "C89", "title": "Controller.Run is free of data races", "statement": "In every execution of any number of concurrent and nested Run calls, registrations, lookups and descriptions of targets on one controller, any two accesses to the same shared variable (the registry, the outcome map, outcomes and their gates, the depth, each call's error slots and captured variables, resolved name references), one of them a write, are ordered by the happens-before relation of the Go memory model. In particular the result that a waiting requester returns is the one the runner of the target wrote.", "quantifier": "all programs, all schedules, any number of goroutines and calls", "why_tests_cant": "the race detector sees only the executions that are run; an absence of races must hold for all schedules", "anchors": ["runner.go:Controller.Run", "runner.go:Controller.indentf", "gate.go:gate", "register.go:Controller.RegisterTarget", "register.go:Controller.Describe", "yaml.go:deferredResolutionTarget.resolve"]}
{"id": "C90", "title": "Exit status in projects of any kind", "statement": "For a project with a Go package, YAML files, or both (Go functions may themselves call Run): if fab NAME... exits with 0 and this was not -list, each NAME stands for a target (the last Go target of that name or a YAML definition), and it and everything it cannot succeed without has succeeded: the parts of All and Seq, what names stand for, the Files targets responsible for inputs (also through directories); with -f or -n also the subtargets of Files. If it exits with another status, either nothing was asked for, for one of the listed reasons, or among what a named target asks for, directly or indirectly, is a cause: a name that stands for nothing, a failed hash or database access, or another body that returned an error.", "quantifier": "all command lines, Go packages, YAML documents, environments, schedules, bodies (which may call Run)", "why_tests_cant": "spans argument parsing, registration, YAML decoding and concurrent execution, for all projects", "anchors": ["main.go:Main.Run", "main.go:Main.driverless", "driver.go.tmpl:main", "controller.go:ParseArgs", "register.go:Controller.RegisterTarget", "runner.go:Controller.Run", "files.go:files.Run"]}
{"id": "C91", "title": "Only what is needed is run, with the settings of the command line", "statement": "In a project of any kind, finished, under way or killed: every target whose body is started is asked for by a target named on the command line, directly or through others; it sees the verbose, force, dry-run settings and the hash database of the command line (if Go functions pass on those of their contexts); so with -n Files targets neither hash nor touch the database.", "quantifier": "all command lines, projects, schedules, moments in a run", "why_tests_cant": "a claim about every target started in every schedule", "anchors": ["main.go:Main.Run", "main.go:Main.driverless", "driver.go.tmpl:main", "controller.go:ParseArgs", "register.go:Controller.RegisterTarget", "runner.go:Controller.Run", "files.go:files.Run", "context.go:WithForce"]}
{"id": "C92", "title": "Order of work in projects of any kind", "statement": "A running Seq asks for a part only after all earlier parts, and all that these cannot succeed without, have succeeded. A running Files target hashes files, uses the database, runs its subtarget or ends with success only after the Files targets responsible for its inputs, and all that these cannot succeed without, have succeeded.", "quantifier": "all projects, schedules, moments in a run, bodies (which may call Run)", "why_tests_cant": "an ordering over all schedules", "anchors": ["seq.go:seq.Run", "files.go:files.Run", "runner.go:Controller.Run"]}
{"id": "C93", "title": "fab ends if no target can ask for itself, in projects of any kind", "statement": "If no target can come to ask for itself (through parts, names, makers of inputs, or Run calls of Go functions) and bodies end, then once the request is made Run comes to its return, however goroutines are scheduled. A cycle elsewhere does no harm: under a fair schedule it is enough that the named targets do not lead into one.", "quantifier": "all projects, schedules, states reached", "why_tests_cant": "liveness over all schedules", "anchors": ["runner.go:Controller.Run", "gate.go:gate", "files.go:files.runPrereqs"]}
{"id": "C94", "title": "fab processes that run at the same time share the driver safely", "statement": "When several fab processes run in one project at the same time (any interleaving, processes killed, files of the driver directory deleted), each executes one whole driver that a process compiled from contents the sources really had; there is a driver to execute unless somebody deletes it; no process waits for another and each needs a bounded number of steps. The driver is made from the sources as they are, and by the version of fab that executes it. (The last sentence is false when a source is edited while two runs overlap: from then on every run takes the driver of old contents for up to date. It is proved for edits made while no run is deciding about the driver and for overlapping runs of one version.)", "quantifier": "all numbers of processes, interleavings, crash points (with torn writes), deletions and edits, hash functions without collisions", "why_tests_cant": "a property of all interleavings and crash points of any number of processes", "anchors": ["main.go:Main.getDriver", "main.go:Main.checkVersion", "compile.go:CompilePackage"]}
{"id": "C95", "title": "Progress messages of targets that run at the same time stay readable", "statement": "A message that a target prints through the controller (Indentf) goes to standard output whole, with exactly one newline at its end, and is preceded on its line by its own indentation, which shows a depth of nested Runs that the controller had meanwhile; the messages of each goroutine come in order. (False for goroutines that print at the same time within Run: the indentation and the text are two writes, so one line can carry the indentation of two messages and the next none. Proved: whole pieces, in order, for every schedule; whole lines when no two print at once, and whole lines at depth 0.)", "quantifier": "all numbers of goroutines, messages, depths and interleavings of their steps", "why_tests_cant": "which writes fall between which depends on the schedule", "anchors": ["runner.go:Controller.Indentf", "runner.go:Controller.indentf", "runner.go:Controller.incDepth"]}
{"id": "C96", "title": "How the command line is read", "statement": "A command line is accepted exactly if it is flags (-v, -list, -f, -n with or without =value, -fab with a value after = or in the next argument; one or two minus signs) followed by other arguments. For each flag the last setting counts, otherwise the default; the argument -- ends the flags, and so does the first argument that is no flag, after which nothing is read as a flag. A command line can be read in one way only. Any other command line does nothing but print the usage: after -h or -help the exit status is 0, otherwise there is a message and the exit status is 2. Errors that are not about the command line give exit status 1. The same holds for a compiled driver, which has the flag -top too.", "quantifier": "all command lines, machines and projects", "why_tests_cant": "the set of command lines is infinite, and what is refused is a statement about all of them", "anchors": ["cmd/fab/main.go:main", "driver.go.tmpl:main", "main.go:Main.Run"]}
{"id": "C97", "title": "Errors of Files targets are reported and stop the work", "statement": "When the hash of a Files target cannot be taken or looked up, running the target returns that error, records nothing and (before the subtarget) does not run the subtarget; when recording fails, that is returned as an error; no other errors are returned than those of prerequisites, subtarget, hashing and the hash DB. Taking the hash succeeds exactly if every file at or under the inputs and outputs can be looked at and the subtarget has a JSON encoding; its errors are about such a file or encoding. (An input or output that cannot even be looked at, e.g. one in a directory without search permission, is to be reported in the same way; this is false: the program panics.)", "quantifier": "all histories of runs, edits, evictions and crashes, all files and rules", "why_tests_cant": "which errors occur where depends on files and schedules; that there are no others is a statement about all histories", "anchors": ["files.go:files.Run", "files.go:files.computeHash", "files.go:fileHashes"]}
{"id": "C98", "title": "Built-in targets are free of data races", "statement": "When targets run concurrently (in any interleaving), two accesses to the same variable, one of them a write, that the package's own target types make are ordered by the Go memory model: the controller's maps, the list of Files targets that Files and running a Files target consult, the list of files that autoclean consults, the YAML tag registries, the list of files of a Clean target, and the targets that name references in YAML stand for (read when a Files target is described for hashing).", "quantifier": "all target graphs, all sets of concurrent and nested Run calls and registrations, all interleavings", "why_tests_cant": "A race detector sees only the interleavings that happened to run; an unordered pair of accesses may need a particular schedule of many goroutines.", "anchors": ["files.go:files.computeHash", "files.go:Files", "clean.go:Clean.Run", "registry.go:registry", "yaml.go:deferredResolutionTarget.resolve", "runner.go:Controller.Run"]}
{"id": "C99", "title": "Run's guarantees hold between any two memory accesses", "statement": "The guarantees of Run (each target runs at most once; every caller gets the outcome of that run; Run returns only after everything it was asked for, with the join of the results) hold when other goroutines may act between any two single accesses to the controller's shared memory and any two operations on its mutexes, gates and wait groups: looking up an address and inserting it, storing a result and opening the gate, reading and writing the depth are separate steps. Two goroutines never are in sections protected by the controller's mutex at once, no increment of the depth is lost, what callers can observe is exactly what they could observe if critical sections were indivisible, and no lock or gate is ever left in a state that keeps calls from returning.", "quantifier": "all programs (targets, references, nested calls), all client calls and registrations, all interleavings of single accesses, at all points", "why_tests_cant": "The windows between two accesses are nanoseconds long; tests exercise a handful of the unboundedly many interleavings and cannot show that none of them loses an update, lets a waiter read a result before it is stored, or leaves a lock held.", "anchors": ["runner.go:Controller.Run", "runner.go:Controller.incDepth", "runner.go:Controller.decDepth", "gate.go:gate.wait", "gate.go:gate.set"]}
{"id": "C100", "title": "Compile changes nothing but its own temporary directory, until the whole new driver replaces the old one", "statement": "CompilePackage works in one new temporary directory. Whatever fails, and whenever the process is killed, everything else is as it was, except that binfile may be replaced, as a whole, by what go build makes of exactly these files: the embedded fab sources without tests, the package's Go files without tests, driver.go, and a go.mod that replaces fab by the embedded sources. It returns nil only if binfile has been replaced, and an error only if it has not. The same holds when several processes call it at once, for one binfile or for several: binfile is always as it was or a whole driver that one of these calls built, and stays so. It can succeed wherever the temporary directory and binfile are.", "quantifier": "all packages, file systems, failures of operations and go commands, moments at which a process is killed, and interleavings of any number of calls", "why_tests_cant": "any of the operations can fail, and the process can be killed at any moment", "anchors": ["compile.go:CompilePackage", "compile.go:populateFabDir", "compile.go:populateFabSubdir", "compile.go:copyFile", "driver.go.tmpl"]}
