# Formal model of bobg/fab in Rocq (Coq 8.16.1)

Source: `/repo` (read as text, never executed).  Model and proofs: `rocq/theories/`.
Properties: `properties.jsonl` (C01...).  Status per property: `MANIFEST.json`.
Wrong-program experiments: `seeded/LOG.jsonl`.

## 1. Layout and conventions

For each area `X` there are up to four files:

* `XModel.v` - the model: total computable Gallina, one definition per Go function, each with a comment
  citing file and lines.  No proofs.
* `XSpec.v` - a small specification written independently of the model (what the English property says).
* `XProofs.v` - lemmas and proofs.
* `XProps.v` - only the property theorems (`Theorem ... Proof. exact lemma. Qed.`), the
  non-vacuity `Example`s beside them, and `Print Assumptions` under each.

Errors are values (`option err` or a result sum), Go panics are an explicit `Panic` result, nil is an
explicit case, fuel exhaustion is an explicit `OutOfFuel` result which theorems never identify with a
normal result.  Strings are Coq `string`s (sequences of bytes).  Maps are std++ `gmap`s or association
lists.  Names ending in `_refuted` prove that the English claim is false of the model of the code as
written (each is a finding about the code); names ending in `_partial` prove part of a claim.

## 2. What is modelled, per property, and how it is proved

`refuted` means: the English claim is false of the code as written; a theorem with the suffix `_refuted`
proves that for the model (for every input of a stated shape where possible, not just one example), and the
part that does hold is proved under conditions that are named in the theorem (`_partial`).

| Property | Files | What is modelled and how it is proved |
|---|---|---|
| C01, C02, C03, C07, C08, C09, C11 | RunnerModel, RunnerSpec, RunnerSteps, RunnerInv*, RunnerProofs*, RunnerPar, RunnerProps | executable small-step machine of `Controller.Run`: calls, goroutines, the `ran` map, gates, deferred resolution, depth, All/Seq/Deps/ArgTarget/F as programs; arbitrary schedules; invariants by induction over steps, relating the state to a ghost log of events in which the properties are stated |
| C04 | RunnerSpec2, RunnerProgress, MultisetOrder, RunnerTerm, RunnerFair, RunnerProps2 | progress (no reachable state with a pending call is stuck if dependencies are well-founded) + termination of every execution by a multiset order on pending work + return of every call under weak fairness when clients keep calling |
| C05 | RunnerProofs3, RunnerProps, RunnerFair, RunnerProps2 | refuted: no schedule returns from a cycle (invariant); calls that cannot reach a cycle return under every fair schedule |
| C06 | RunnerRefs, RunnerProps | refuted by a concrete diamond of named references; a target runs at most once per value through which it is requested |
| C10 | RunnerSpec2, RunnerDet, RunnerProps2 | sequential big-step evaluation as specification; every concurrent execution agrees with it |
| C12, C56 | RunnerProofs3, RunnerProps | refuted in general by concrete executions; proved if only the ArgTarget requests the target, resp. if addresses are injective |
| C13 | Gate* | machine with the mutex and condition variable explicit |
| C14-C20 | FilesModel, FilesSpec, FilesProofs*, FilesProps | phases of `files.Run` over a file system and a hash database, with any number of interleaved runs, edits, evictions and crashes; injectivity of the two hashes is a premise |
| C21, C22 | FileHash* | recursion over an abstract file system with fuel; exact characterisation of the set of files |
| C23 | Find, Path*, Chain*, FilesProps | search loop = nearest registered ancestor; ordering over all schedules of the runner |
| C24 | Chain* | refuted: such a target waits for itself in every schedule; without chaining cycles every call returns |
| C25, C26 | Sqlite* | statement-level model of the table, refinement to a set with last-access times; crash points and interleavings |
| C27 | Indent* | byte state machine vs. line-oriented specification |
| C28, C29 | Path* | component model of Go's `path/filepath` on Unix: Clean, Join, Dir, Rel |
| C30 | TopDir* | recursion with fuel over an abstract file system |
| C31-C34 | Registry*, StrOrd | controller registry as state machine, ParseArgs, ListTargets |
| C35-C37 | Yaml* | YAML node trees, decoders, recursive file reading with fuel |
| C38-C43, C57 | Command* | effects of `Command.Run` on files and streams, `toTarget`, `commandDecoder` |
| C44-C47 | Driver* | decision logic of `getDriver`/`checkVersion` over persistent files, crashes at every step; flag round trip; dirHasher |
| C48 | Types* | the algorithm over finite cyclic type graphs with its `seen` set; greatest fixed point as specification |
| C49, C50 | Proto* | transitive closure with a `seen` map; the import regular expression as a function on lines |
| C51 | GoDeps* | package graph, embed patterns |
| C52, C53 | Clean* | effects on a file system with aliases; slices with capacity over a heap |
| C54 | Context* | association chain |
| C55 | Compile* | selection of identifiers, rendering of the template, validity of the generated source |
| C58-C60 | Build* | whole projects: chained Files targets as programs of the runner (ChainModel), with files and database as the environment (BuildModel); what commands, other targets and the database do may depend on time, and the database may forget entries at any time and receive others from other processes, provided that those are hashes of right states (`database_honest`); what "right" means is an arbitrary predicate; induction over executions and over histories of sessions; rules may be run several times in a session (when they are referred to by name, C06): `settled` says what is needed of those runs, and follows from each being run once (`once`) or from commands that are single steps (`one_step`, with `distinct_descriptions`); for C59 `finished` and `needed`; C59 and C60 relate two processes (`same_rules`) |
| C61-C66 | Main* | whole runs of the command: cmd/fab, Main.Run, driverless mode and the generated driver as a second process with its own working directory and flag parsing, put together from the models of TopDir, Driver, Yaml, Registry and Context; the files, the result of loading the Go package, the database and the outcome of Controller.Run are arbitrary; for C65 with files in several directories: no reference leads back to the project file, so nested readings cannot touch its names (YamlProofs5) |
| C67-C71 | Lib* | constructors and YAML decoders of Clean, go.Binary, go.Deps, proto.Proto, proto.Deps, ts.Decls, and the Run method of ts.Decls' subtarget, on top of the models of paths, lists, Go and proto dependencies, Clean, and Files histories; places of paths as walks (PathSpec) |
| C72-C77 | Proj* | projects defined in YAML, end to end: the target values made by reading the files (YamlModel) as targets of the controller (RunnerModel), Files among them with the registry of outputs (ChainModel); what the text of the definitions says (parts, names, rules) against what every execution does; targets of other decoders are leaves, Seqs of leaves (the steps of a multi-line !Command), or Files with a leaf; clients ask for registered targets, or for ArgTargets made of them (as the command line NAME -flag makes). Order (C75): an invariant of decoding says that a target written in place is the part of one target only and stands for no name (ProjLaid) |
| C78-C83 | End* | the fab command end to end for projects whose targets are defined in YAML (no Go package, or one without targets): Main.v's `fab` gives the one request made; `carried_out` says that an execution of the controller model (Proj*) is the running of that request, and that the request's result (k_run, a parameter of Main*) is the one the execution returned; from there the theorems of Proj* apply. New in Proj*: settings and arguments followed through contexts (ProjProofs8). Commands and targets of other decoders are arbitrary bodies that do not call Run; their behaviour under -n is a premise of C83 (and proved for commands in C39 and for Clean in C52). A run that was killed is one that is merely `under_way`: C80, C81 and C83 are stated for those |
| C84-C87 | Make* | Build* and End* together: a fab run of a YAML project (`fab_run`: command line, project, execution under way, files and database) is a build in the sense of BuildSpec (MakeProofs-MakeProofs3: owner of each part of a rule is that rule, from the layout that decoding gives, ProjLaid); `fab_history` is any sequence of such runs, killed or not, of arbitrary projects, with edits, database losses and right additions by others between; then C58-C60 give the results. For C86 and C87 two processes reading the same YAML files build the same targets (MakeProofs5, `read_same`), and what the second starts was completed in the first (MakeProofs6). Premises: the Target of each !Files is written in place and is not itself a rule, commands touch only their own rule's files, do their job, hash functions are injective; MakeExample has a concrete project with such histories |
| C88 | Store* | Sqlite* (the table, its statements, other processes, evictions) under Build* and Make*: `uses` relates the events of a process to the SQL statements executed meanwhile (its own and those of others); whatever they are, the process sees the answers of a database as in BuildModel (StoreProofs, `uses_script`; StoreProofs2, `is_a_database`), whose additions are its own and right ones; so C58-C60 and C84-C87 apply. Conversely every build with a database that only adds can occur with sqlite (`realise`), which gives the concrete cases. Hash bytes are numbered by an injection `code`; SQL statements are atomic (sqlite's transactions), as in SqliteModel |
| C89 | Race* | The reads, writes, lock and unlock operations, go statements and wait-group operations of each step of RunnerModel, in code order (RaceModel); happens-before as the transitive closure of program order and synchronisation (RaceSpec). Proof: invariant over executions saying for each past access why the threads that can still make a conflicting access know of it (closed critical section, spawn, Done before Waited, gate). Not shown: what bodies do themselves; interleaving within a step, which hides nothing because no access lies between two critical sections of one step |
| C90-C93 | Mix* | the same end-to-end claims as C78-C83 for projects of any kind (a Go package with targets, YAML files, or both), said of target values instead of YAML nodes: `stands_for` (what a name stands for), `needs` (what a target cannot succeed without), `may_need` (what it may ask for, through Run calls of its body too). Bodies of Go functions, commands and types of the package are arbitrary programs of the controller model that may call Run; that they pass on the settings of their contexts (`keep_settings`) is a premise where it matters (a Go function that makes its own context escapes -n, by design). Proof: Main* gives the one request; invariants of the controller model over all its executions (MixProofs: what was started was asked for; MixProofs2: termination measure over may_need) |
| C94 | Fleet* | the steps of DriverModel taken by any number of processes, interleaved in any way (`cexec`); invariants: while the sources do not change, what the hash file holds is a prefix of some hash and a hash that is complete and right implies a right binary (`known`, `honest`), the same for the version file; a rank for the bound on steps; a concrete interleaving for the refutation |
| C95 | Talk* | Indentf as three steps (read the depth under the mutex, write the indentation, write the text), any number of goroutines, depth changing (`texec`); invariant on the list of pieces written so far, per goroutine; a generic interleaving for the refutation |
| C96 | Cli* (on DriverModel, MainModel) | a grammar of command lines (`reads`, CliSpec.v: flags with values, then the tail) against the walk of package flag (`parse`, `asks_help`); parse is shown equivalent to the grammar both ways by induction on the arguments; exit statuses by cases of `fab` |
| C97 | FilesSpec2, FilesProofs12, FilesProps2 (on FilesModel) | the event sequences of one run are enumerated (`replay`), every event of a history belongs to such a sequence (as for C19); the results of computeHash are characterized by C22's walk lemmas and an encodability predicate proved equivalent to `enc` |
| C98 | RaceModel2, RaceSpec2, RaceProofs5, RaceProps2 (on RaceModel) | executions of RunnerModel with the actions of C89 and those of the registries, Clean lists and JSON descriptions; the actions of C89 in it form an execution of C89 (so its order carries over); every access to a registry lies in a block of one thread between Lock and Unlock; for the plain case C01 and the log give each list one goroutine; the refutations are executions in which no edge leaves the first access |
| C99 | FineModel, FineSpec, FineProofs*, FineProps (on RunnerModel) | a machine for runner.go:20-120 and gate.go in which every access to shared memory and every operation on a mutex, gate lock or wait group is a step (its header lists the simplifications: a loop iteration with wg.Add and go, the resolution of a name and a registration are single steps, the latter two only when con.mu is free; sleepers may wake at any time); a simulation relation with RunnerModel (which access of the goroutine is the one at which the coarse step happens, who owns what meanwhile) gives one inclusion of traces, the coarse states as states where nobody is within a section give the other; progress by C04 of the coarse machine and a rank of the steps that the coarse machine does not see |
| C100 | Workdir* (on CompileModel) | CompilePackage after the package has been read, as a list of file operations and go commands on a file system (finite map of paths), each of which may succeed (precondition and effect given) or fail (leaving partial files in what it writes); MkdirTemp and the deferred RemoveAll; every state of an execution is a possible moment of a kill. Invariant: what has been done is a prefix of the list, all of it inside the temporary directory up to the rename; the files at the time of go build are computed by composing `over` (files written over what was there). Not modelled: symbolic links, what the go commands compute (parameters t_build, t_tidied, t_modinit), the text of the template (t_render; its variable parts are in C55). Sharing the file system (WorkdirSpec2, Proofs6, Props2): between any two steps others may change anything but the call's temporary directory and the package, binfile included; invariant: the call sees, on what it relies on, the state that it would see alone. Many calls at once (WorkdirSpec3, Proofs7, Props3): steps of any number of calls, each with its own package and binfile, interleaved; each call's run is a run of the shared system whose start is the state in which it made its directory. Assumed there: os.MkdirTemp never returns the directory of an unfinished call (it is there). Package changed meanwhile (WorkdirSpec4, Proofs8, Props4): binfile is still only replaced at once by the whole output of a successful go build, but of which sources is not known. |

Every property of `properties.jsonl` can be expressed in a model and is; there are no `not_applicable` entries.

## 3. Trusted base

* Coq 8.16.1's kernel (including `vm_compute`, used for concrete witnesses).
* std++ definitions (no axioms).
* The faithfulness of the hand-written model to the Go source (each definition cites the lines it models).
* The definitions in the `*Spec*.v` files and the statements in the `*Props*.v` files say what the English
  properties say.

## 4. What is not modelled

* The Go memory model, except for happens-before and data races in Controller.Run (C89; the absence of races is
  also why the interleaving model of the runner is adequate). The gate's mutex and condition
  variable are modelled explicitly for C13; the runner machine uses their proved behaviour. The garbage
  collector (C56 covers address reuse through addresses that need not be injective).
* Symbolic links in the real file system (CleanModel has aliases of files); permissions beyond "cannot be read".
* SHA-224 and the JSON text encoding: abstract functions, deterministic, and injective only where a theorem has
  that as a premise.
* SQLite itself: its statements are table operations, atomic each; the transaction behaviour is as in db.go.
* YAML parsing from text: models start from `yaml.Node` trees; merge keys are not modelled.
* The go tool chain (`go build`, `go/packages`): its results are inputs of the models (CompileModel, DriverModel,
  GoDepsModel); generic types are not modelled in TypesModel.
* Processes started by Command: an oracle giving chunks of output and an exit status; failing writes are not modelled.
* Not modelled at all: `_fab`/`_testdata` sample programs, message texts of errors (only which error and about what),
  progress messages printed with -v.

Simplifications local to one definition are stated in the comment of that definition.

## 5. Assumptions printed

`Print Assumptions` stands under every property theorem; for every one of them Coq prints
`Closed under the global context`: no axioms at all, of ours or of a library.  (The module `ssrunder` that std++ loads
declares the seven parameters `Coq.ssr.ssrunder.Under_rel.*` inside a module type instance of the standard library;
no theorem depends on them.)  There are no `Axiom`, `Parameter`, `Admitted`, `admit`, functors, module types, or
section-less variables in `rocq/theories`; `Context` and `Hypothesis` occur only inside sections and become premises.

## 6. Wrong-program experiments

`seeded/LOG.jsonl` has one line per experiment: a realistic bug put into a scratch copy of a model, the claim it
breaks, the theorems that failed, and what was tightened when nothing failed.

## 7. Findings about the code

Refuted claims are findings: see the `_refuted` theorems in MANIFEST.json and their notes.  Further observations made
while reading, not all modelled:

* `os.Rename` of the compiled driver from a temporary directory fails across file systems.
* The driver hash covers `pkg.GoFiles`, while Compile copies every non-test .go file of the directory; files used
  with `//go:embed` by the user's package are not copied.
* `Glob` with a `..` or absolute pattern silently matches nothing (fs.FS paths).
* proto.Deps' YAML decoder does not join Includes with the directory of the YAML file, but its results are joined with it
  afterwards: with relative includes the list has files that do not exist and misses those found (C69_deps_relative_includes_refuted).
* `!go.Binary` with a one-element Dir and no Out: the default output is the package's directory itself; go build gets
  `-o .`, the directory is the target's output and is put in the autoclean registry, so that a Clean with Autoclean fails
  (C67_default_out_is_new_file_refuted, C67_clean_then_fails).
* ts.Decls truncates its output before generating (C70_failure_keeps_output_refuted).
* A project file that refers to a target of a directory without YAML file is read up to that entry only, without any
  message: Main.driverless and the driver take every error that is fs.ErrNotExist to mean that there is no project file
  (C61_dangling_reference_refuted; YamlModel carries with each error whether it is fs.ErrNotExist).
* A key `.` (or `..`, or the empty key) in the YAML file of another directory defines a name of its parent, and so may
  take over a name of the project file (C65_dot_key_refuted).
* A Go package that does not import package golang makes the tags `!go.Binary` etc. unknown (C62_go_tags_refuted);
  without arguments fab lists the targets with a driver and does nothing without one; `-list` opens the hash database
  only with a driver; flags after `--` are parsed by the driver; a relative `-fab` fails with a driver unless fab is
  called in the top directory; a relative Main.Topdir makes the driver look for the project file in the wrong place.
* The doc comment of ReadYAML shows `!Command` with a sequence; the decoder accepts only mappings.
* Files that refer to each other (b: `z: !Command ..`, `w: c/y`; c: `y: b/z`, `k: b/w`) make fab read a file twice: two
  target values for one definition, of which a name reference found in between keeps the first; both can run
  (C77_definition_runs_twice_refuted).
* Two fab runs that overlap with an edit can leave the driver of the old sources together with the hash of the new
  ones: the first compiles A, the second compiles B and replaces the binary, then the first replaces the binary and
  writes its hash, then the second writes its hash.  Every later run takes the old driver for up to date until the
  sources change again or fab is called with -f (C94_sources_refuted).  Of all moments a process can be killed at, only
  the one between replacing the binary and opening the hash file can do harm, and only if old contents come back (C94).
  That the binary is replaced in one step, which C44 and C94 take as given, is C100_binary_whole and, for many processes, C100_many_whole.
* Indentf writes the indentation and the text separately and without a lock: two targets that print at the same time can
  produce a line with the indentation of both and one with none (C95_lines_refuted).
- C97: a Files target whose input cannot even be looked at (os.Stat fails with something else than
  'does not exist', e.g. no search permission on a directory) makes the program panic with a nil
  pointer instead of returning an error (C97_unreachable_input_refuted, files.go:285-292).
- C98: two data races: a Clean target with an unsorted list run twice at once through two name references
  (C98_clean_twice_refuted, clean.go:46, runner.go:66: the address of the reference is the key), and the
  JSON description of a Files target reading Target of a name reference without its mutex
  (C98_description_refuted, files.go:182).
