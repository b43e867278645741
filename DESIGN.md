# Formal model of hexdigest/gowrap in Rocq (Coq 8.16.1)

The Go source in /repo is read as text; it is neither built nor run. Every
definition of the model carries a comment with the file and lines it models.
Build: `cd rocq && coq_makefile -f _CoqProject -o Makefile && make -j4`.

## 1. How the code is modelled

**Generator side** (package printer, generator, loader, the commands and main):
executable Gallina functions, one per Go function. Go strings are byte strings;
maps are association lists whose order is universally quantified; errors are
values (`gerr`: a sentinel or a wrapped error), panics are an explicit outcome
(`res`), unbounded recursion is fuelled with "out of fuel" a third outcome
(`fres`). Effects (files, HTTP, standard streams, packages.Load) are requests to
an arbitrary world whose answers are functions of the history of requests.

**Template side**: the 18 stock templates are included byte for byte
(TemplateText.v). `Tmpl.v` lexes, parses and executes them like text/template;
`Render.v` builds the data gowrap passes. The text is cut into Go tokens
(`GoTok.v`). For every interface and all variables, the tokens of each template
are shown equal to the tokens of declarations whose bodies are syntax trees of a
fragment of Go (`Bodies.v`, theorems `*_generated`). The bodies are executed by an
interpreter (`MiniGo.v`) with defer, panics, closures, loops, select and
assignment; every operation on something outside the method (base, clock,
context, logger, mutex, channel, ...) is a question to an arbitrary world, which
may answer, panic or never answer. The files `Golden.v` holds are test vectors:
the model's output for the interfaces of /repo/templates_tests equals the files
committed there.

**Concurrent decorators** (circuitbreaker, fallback, ratelimit, robinpool,
syncpool): labelled transition systems (`Lts.v`) with one program counter per
call, for any number of calls and all interleavings.

## 2. Files

| files | content |
|---|---|
| GoStr, Utf8, Utf8Proofs, Trim, TrimSpec, TrimProofs | byte strings, strings/strconv/sort functions, UTF-8, white space |
| Ast | fragment of go/ast; go/printer for what is not modelled is an oracle |
| Printer, PrinterProofs, PropPrinter; TypeGrammar, ReadBack, PropReadBack | printer/printer.go |
| Generics, GenericsProofs, PropGenerics | generator/generics.go |
| Types, TypesSpec, TypesProofs, PropNaming, PropStructs | generator/types.go |
| Generator, GeneratorProofs, ResolveSpec, ResolveProofs, OrderProofs, TermProofs, PropResolve, PropErrors | generator/generator.go: interface resolution |
| NewGen, NewGenSpec, NewGenProofs, PathProofs, ImportProofs, PropGenerator | NewGenerator, imports, paths, pkg/package.go |
| Sharing, PropSharing | state shared between generators |
| Helpers, PropHelpers | template helper functions |
| Loader, PropLoader | loader/loader.go |
| Cmd, Main, PropCmd, PropMain, PropFlags | commands, flags, main |
| Tmpl, TemplateText, Render, Golden | text/template, template files, generated text |
| GoTok, MiniGo, Bodies, RenderProofs, Generated, Generated2-4 | generated code: tokens, syntax, interpreter, one theorem per template |
| Sem, Deco, Honest, Observed, Alike | reasoning about the interpreter |
| Retry, Timeout, Validate, TwirpError, Pools, BreakerCall, Log, Prometheus, Tracing, Apm | exact behaviour of one call per template |
| PropRetry, PropTimeout, PropValidate, PropTwirpError, PropLog, PropPrometheus, PropTracing, PropTransparent, PropImplements, PropHygiene | properties of the generated code |
| PropSource, PropEndToEnd | provenance of signatures; composition from command line to declarations |
| Threads, PropSyncPoolCalls, PropRobinPoolCalls, PropRateLimitCalls, PropBreakerCalls | interleaved calls of generated code |
| PropClashes | names of fields, methods and declarations in generated files |
| FieldName | the name an embedded field is called by |
| Construct | syntax and interpreter for the constructors |
| Constructors | the constructors of all stock templates, as syntax and as tokens of the templates |
| ConstructProofs | one-step equations and tactics |
| Feeder | the goroutine of a rate limiter, one channel operation at a time |
| PropConstructors, 2, 3, 4 | what the constructors return, the goroutine, initial states, examples |
| QualifierProofs, PropQualifiers | findSourcePackage and findImportPathForName against what Go binds qualifiers to (C70) |
| Pkg, PropPkg | pkg/package.go: Load, AST, Dir over a file system; which files are read (C71) |
| PropGenericDecorators | stock templates and type parameters (C72) |
| FloatDiv | correct rounding of the binary64 division 10^9 / rps of `templates/ratelimit:25` |
| PropTickRate, PropTickRateAll | C73: the period of the rate limiter's tokens for all float64 rates, and that none come when it is zero |
| PropScope | C74: what package names of generated signatures mean in the generated file |
| Output, OutputProofs | what main prints: fmt.Fprintf without operands, die, help, usage, flag.PrintDefaults |
| PropOutput | C75: failures are reported with the text that describes them |
| PropHelp | C76: the help texts |
| Scoping, ScopingProofs | Go's rules for declarations and scope over abstracts (blocks, declarations, uses) of the three modelled fragments of Go |
| ScopedFiles | C77: statement; the functions it is about are exactly the functions of generated files |
| ScopedBodies | the method bodies of the stock templates obey the rules |
| PropScoping | C77: constructors, whole files, refutations |
| Regen, RegenProofs | when two package contents mean the same to gowrap (before and after files were generated); resolution, printing and type parameters agree |
| RegenPaths | the output file seen from its own directory: Abs, Dir and Base agree |
| PropRegenerate | C78: two runs of gowrap gen |
| Typing | Go's rules for types; signatures of the packages the templates use; the three fragments of Go in one syntax |
| TypedFiles, TypedTactics | the names of a file, the statement's vocabulary, lemmas and tactics |
| TypedBodies, TypedBodies2, TypedBodies3, TypedFallback, TypedFallback2, TypedFallback3 | the method bodies obey the rules |
| TypedFuncs, TypedFuncs2 | the constructors and options obey the rules |
| PropTyping, PropTyping2 | C79: whole files, methods of NewMethod; refutations and an example |
| PropCompiles, PropCompilesRun | C80: all rules together; from the command line |
| Races, PropRaces | C81: data races, calls that obey a lock have none; templates/circuitbreaker |
| Quiet, PropRaces2 | C81: bodies that use no shared field; the 16 templates without shared fields but counters |
| PropPinned | C60: ParamsSlice.Pass; examples that pin down helpers no theorem depends on |
| PropRaces3 | C81: which variables goroutines share; templates/fallback |
| PropLocks | C82: calls that obey a read-write lock hold none in the implementation or at the end and do not deadlock; templates/circuitbreaker |
| PropNestedBreaker | C82: calls of a circuit breaker made by its own implementation; some call can go on, even if waiting writers stop new readers; templates/circuitbreaker |
| PropNestedLimit | C86: calls of a rate limiter made by its own implementation; all can finish with ticks, burst + 1 nested ones wait for ever without; templates/ratelimit |
| Loud, PropPanics | C83: how calls of MiniGo bodies end, given what they were answered; panics |
| PropNested | C84: calls of a pool made by its own implementations; templates/syncpool |
| PropLimitContext | C85: rate limited calls and their contexts |
| Goroutines, FallbackBody, FallbackCalls, FallbackProgress, PropFallbackCalls | goroutines and channels; generated fallback methods |
| Lts, Breaker, RobinPool, SyncPool, RateLimit, Fallback, FallbackProofs and their Prop files | concurrent decorators |

## 3. Trusted base

* Coq's kernel (also checked by coqchk). `Print Assumptions` stands under the
  property theorems: all are closed under the global context. coqchk lists seven
  axioms of `Coq.ssr.ssrunder.Under_rel`; they are the standard library's, from a
  module that is loaded by the standard library and used by no theorem here. No
  axiom of our own, no kernel check switched off, no functors.
* The reading of the Go code: every definition cites its lines.
* **Not modelled, taken as oracles or hypotheses**: go/parser and go/packages
  (the world consists of parsed packages); go/printer except on identifiers,
  qualified identifiers and literals (`o_fprint`); Unicode case mapping outside
  ASCII (`o_lower`); JSON decoding; golang.org/x/tools/imports.Process; the
  operating system below ReadFile/WriteFile/MkdirAll (a failing WriteFile may
  leave a part of a file).
* **Simplified**: the text of the
  flag package's boolean error is shortened; in the text/template model, functions
  and pipelines other than those the templates use are missing.
* **Generated code**: inserted names and types are lexed as one opaque word each;
  the interpreter looks identifiers up in its environment, then as predeclared,
  otherwise as package names; types inside expressions are not resolved; what a
  closure shares with its method is annotated in the syntax (`EShared`, the type
  checker's knowledge); pointers only occur to locals; runtime.Goexit is not
  modelled; function-valued fields, loggers, metrics, spans are outside objects.
  Constructors run in a small interpreter of their own (Constructors.v, C69).
* **Transition systems** are written from the templates. The atomic steps are the
  operations on shared objects (locks, channels, atomic counter, clock, calls of
  the base). For syncpool, robinpool, ratelimit and circuitbreaker it is proved
  (C62) that interleaved calls of the generated bodies are executions of these
  systems, and (C69) that the constructors set them up, the goroutine that feeds
  the rate limiter included; what stays by inspection is what the outside objects
  do (mutex, channel, atomic counter, clock). For fallback it is proved (C65) for a machine with goroutines,
  channels, contexts and tickers; the machine's step rules are the reading of the
  Go specification, the context and time packages; memory is sequentially
  consistent (C81 shows why that is what Go promises here).


## 4. Properties

Statements are in properties.jsonl. "Proved" means for all inputs, states and executions of the model; "partial" means that the full statement is false of the code (a `_refuted` theorem gives the witness) or that a restriction remains; what is missing is said in each entry.

### C01 Generated parameter and result names never collide

*proved.* `NewMethod`/`NewParam`/`genName` (Types.v); invariant on the set of used names, induction over the field lists.

For any oracle, printer and generic arguments.

Theorems: `C01_names_distinct`.

### C02 Generated signature keeps arity, order, types and variadicity

*proved.* Same model; the specification walks the declaration (TypesSpec.v) without the naming functions.

Type strings are the printer's output after whole-string type-parameter instantiation.

Theorems: `C02_signature`, `C02_arity`, `C02_only_methods`.

### C03 The forwarded call passes every declared parameter once, in order

*proved.* The `Call`/`Pass` strings are read back by a small parser of calls in TypesSpec.v.

Stated by reading the call string back with an independent parser.

Theorems: `C03_call`.

### C04 err and ctx mean what templates assume

*proved.* Types.v with panics as outcomes; case analysis on the last result and first parameter.

Boundary shown: an explicit empty result list panics.

Theorems: `C04_err`, `C04_ctx`, `C04_no_other_panic`, `C04_empty_results_refuted`.

### C05 Generated names are fresh and generation terminates

*proved.* `genName` recursion on decimal suffixes; pigeonhole on the used-name set gives termination without fuel artefacts.

Theorems: `C05_fresh`, `C05_fuel`.

### C06 Names chosen by gowrap are usable Go identifiers

*partial.* Validity predicate for Go identifiers; witnesses for blank parameters and non-ASCII type names.

False as stated: blank parameters and non-ASCII type names; proved otherwise.

Theorems: `C06_usable_names_partial`, `C06_refuted`, `C06_nonascii_refuted`.

### C07 User-chosen parameter names survive when they cannot clash

*proved.* Exact list of reasons for which a user-written name is replaced.

Exact list of reasons for losing a name.

Theorems: `C07_user_names`, `C07_user_names_exact`, `C07_ctx_placeholder_refuted`.

### C08 Local type references are qualified in another package, untouched in the same package

*proved.* Printer as state passing over its buffer (Printer.v), shown equal to a buffer-free form (PrinterProofs.v); the specification `qualify` rewrites the AST.

Boundary shown: type parameter with the name of a local type.

Theorems: `C08_qualified`, `C08_fails_iff_unexported`, `C08_exported_ascii`, `C08_same_package`.

### C09 A printed type reads back as the type that was declared

*partial.* TypeGrammar.v is a lexer (with automatic semicolons) and a recursive descent parser written from the Go specification. ReadBack.v: the printed string lexes to the expected tokens, these parse to the type; fuel monotonicity gives uniqueness.

Reading the printed text with a lexer and recursive descent parser written from the Go specification gives the declared type with source-package names qualified, for all nestings of names, pointers, arrays, slices, maps, channels, functions (grouped, anonymous, variadic parameters), structs and instantiated types; a text reads as one type at most, so printing is injective up to comments and tags. Missing: parenthesised types, interface literals with elements and computed array lengths, which go/printer prints. Refuted: struct tags are lost; parenthesised types keep unqualified names.

Theorems: `C09_partial`, `C09_variadic_partial`, `C09_unambiguous`, `C09_nothing_lost_partial`, `C09_tags_refuted`, `C09_parentheses_refuted`, `C09_channels_refuted`.

### C10 A Printer has no memory

*proved.* Every exit of `printType` resets the buffer.

Theorems: `C10_no_memory`.

### C11 Struct tags, constant array lengths and inline interfaces are preserved

*partial.* Witnesses.

False of the code; each failure proved with witnesses.

Theorems: `C11_tags_refuted`, `C11_tags_dropped_refuted`, `C11_lengths_unqualified_refuted`, `C11_interfaces_unqualified_refuted`.

### C12 The method list is exactly the interface's method set

*partial.* Generator.v (findTarget, processInterface, processEmbedded..., fuelled) against an inductive method-set relation (ResolveSpec.v): soundness and completeness. The specification of method sets also has the predeclared error and interfaces of packages imported with a dot; gowrap drops both (C12_error_refuted, C12_dot_import_refuted), so well_formed excludes them (wf_idents).

Exact for well-formed packages (qualifiers consistent across files, definitions resolvable, no embedded error or dot-imported interfaces); five classes of counterexample proved.

Theorems: `C12_method_set_partial`, `C12_no_duplicates`, `C12_refuted`, `C12_unresolved_dropped_refuted`, `C12_wrong_file_imports_refuted`, `C12_error_refuted`, `C12_dot_import_refuted`.

### C13 The outermost declaration of an overlapping method wins

*proved.* Merge of embedded methods as a left fold; position-wise characterisation.

Theorems: `C13_own_declaration_wins`, `C13_first_embedded_wins`, `C13_no_loss_no_invention`.

### C14 Generation does not depend on Go's random map iteration order

*proved.* Type and package maps are lists in arbitrary order; invariance under permutations when names are unique.

Needs also unique names of imported packages; both boundary cases proved.

Theorems: `C14_order_irrelevant`, `C14_duplicate_types_refuted`, `C14_duplicate_packages_refuted`.

### C15 Resolving an interface terminates

*partial.* Fuel suffices when declarations are ranked; a self-instantiating interface exhausts every fuel.

Non-recursive declarations; self-instantiating interfaces diverge.

Theorems: `C15_terminates_partial`, `C15_refuted`.

### C16 Embedding a generic interface substitutes its type arguments

*partial.* Substitution of type arguments is on printed strings, as in the code.

Only whole-type occurrences are substituted, and not through two levels.

Theorems: `C16_whole_types_partial`, `C16_parameter_replaced_partial`, `C16_refuted`, `C16_nested_refuted`.

### C17 Generics.Types and Generics.Params describe the same parameters

*proved.* String functions of Generics read back.

Theorems: `C17_generics_strings`, `C17_params_read_back`.

### C18 Type-parameter constraints are reproduced

*partial.* Constraint expressions of the supported shapes; witnesses for the others.

Identifier, selector, union constraints; others lost or unqualified.

Theorems: `C18_constraints_partial`, `C18_refuted`, `C18_dropped_refuted`.

### C19 No unexported method reaches generated code in another package

*partial.* NewGenerator over every iteration order of the method map; `unicode.ToLower` outside ASCII is an oracle with an explicit hypothesis.

Proved outright for names starting with an ASCII byte and, given that the Unicode tables map only upper-case letters to something else, for all names; title-case letters break that assumption (C19_title_case_refuted). Embedded foreign unexported methods pass when source and destination package agree (C19_foreign_refuted).

Theorems: `C19_exported_partial`, `C19_exported_ascii`, `C19_method_set_partial`, `C19_empty_rejected`, `C19_unexported_rejected`, `C19_accepted`, `C19_title_case_refuted`, `C19_foreign_refuted`.

### C20 Import() yields a sorted, duplicate-free import block independent of map order

*proved.* Insertion sort over the de-duplicated import strings; specification by sortedness, membership, quoting.

Spec: lexicographic order, trimming and quoting relations in NewGenSpec.v. TrimSpace is modelled for ASCII white space.

Theorems: `C20_import_block`, `C20_order_irrelevant`, `C20_read_back`.

### C21 Import() never fails on template-supplied strings

*partial.* Same model with `strings.Split(...)[..]` index panics.

The claim is false of the code: a blank non-empty template import panics and an aliased template import is corrupted. Proved: it panics exactly for blank non-empty strings; imports from the source file keep their text.

Theorems: `C21_panics_exactly_partial`, `C21_source_imports`, `C21_blank_refuted`, `C21_alias_refuted`.

### C22 Command line variables: first '=' splits, last assignment wins

*proved.* Cmd.v: vars.Set/toMap and Go's flag parsing.

vars.Set/toMap against a specification by 'last assignment'; parse_command_line ties it to the flag package's parsing of every sequence of string flags (-x v, -x=v, --x v, --x=v). Template lookup of .Vars is by this map.

Theorems: `vars_last_wins`, `vars_map_functional`, `parse_command_line`.

### C23 The go:generate directive reproduces the command

*partial.* Directive text, go generate's word splitting and variable expansion, flag parsing, filepath.Rel: composed and shown to be the identity.

Round trip through go generate's splitting, os.Expand and the gen flag set for all arguments without blanks, line ends, leading quotes and dollar signs; the relative template path leads back to the same file from the output directory. The claim as worded is false for arguments with a dollar sign (C23_refuted) and the -t of http:// templates is wrong (http_template_refuted). That imports.Process keeps the comment line is not modelled.

Theorems: `directive_reproduces_partial`, `directive_words`, `relative_template`, `directive_template`, `directive_refuted`, `C23_refuted`, `http_template_refuted`.

### C24 A failed run leaves the output untouched

*proved.* GenerateCommand.Run as a program over an effect trace; an arbitrary world answers.

Run over an arbitrary world: no MkdirAll/WriteFile unless parsing, checks, loading, NewGenerator, template execution and import processing succeeded, then exactly these two in this order. packages.Load, body template execution and imports.Process are oracles; partially written files (os.WriteFile failing half way) are outside the model.

Theorems: `run_nothing_written`, `run_prepared`, `run_done_iff`.

### C25 Template loading dispatch

*proved.* Loader.v: requests are effects; the server and the file system are functions of the history.

Exact requests of every load, for every server and file system (functions of the history). A URL that http.NewRequest rejects causes no request at all. JSON decoding is an oracle.

Theorems: `load_readable`, `load_unreadable`, `load_url`, `load_file_url`, `load_github`, `load_github_errors`.

### C26 HTTP responses are closed and only 200 counts

*proved.* Same; close events counted on the trace.

Exactly one close per response, directly after it was obtained or read; contents without error iff status 200, read ok, close ok.

Theorems: `get_ok_iff`, `get_status`, `get_errors`, `responses_closed_once`.

### C27 template list shows exactly the repository templates

*proved.* List against an inductive specification.

List against an inductive specification of the listed names. Tree entries that are directories are listed as well (the code ignores the entry type; so does the claim).

Theorems: `list_exact`, `list_errors`.

### C28 Exit codes

*partial.* Main.v: process from argument vector to exit status, arbitrary world.

All argument vectors and outcomes with working standard streams; exit_zero_iff holds for all streams. False parts: a broken stderr turns 2 into 1, failing to print help gives 2, and a lone -- panics (status 2 from the runtime).

Theorems: `exit_codes_partial`, `asks_total`, `exit_zero_iff`, `lone_dashes_refuted`, `usage_status_refuted`, `help_write_refuted`.

### C29 snake is lower-case, only inserts underscores and is idempotent

*proved.* The two regular expressions as leftmost non-overlapping replacement functions; one-pass specification.

toSnakeCase's two regular expressions are executed as leftmost non-overlapping replacement and shown equal to a one-pass specification of where underscores go (all byte strings before lowering, ASCII after); no capitals, equality modulo underscores and idempotence follow. strings.ToLower outside ASCII is an arbitrary function.

Theorems: `snake_exact`, `snake_properties`, `snake_raw_exact`.

### C30 upFirst/downFirst change only the first letter

*partial.* UTF-8 decoding with the code's slicing; witness for invalid first bytes.

True for the empty string and every string whose first rune is validly encoded; every other string starts with an invalid byte, for which the claim is false: two further bytes are lost, or the call panics when fewer than three bytes are there (upFirst_refuted).

Theorems: `first_letter_partial`, `first_rune_cases`, `upFirst_valid`, `downFirst_valid`, `upFirst_invalid`, `upFirst_refuted`.

### C31 Every stock decorator implements the interface

*partial.* The 18 template files verbatim (TemplateText.v) are parsed and executed by a model of text/template for an arbitrary interface (RenderProofs.v, Generated*.v); receivers and signatures are read off the generated tokens.

Proved for 17 of the 18 stock templates and all interfaces, on the tokens the template text generates. elasticapm: proved when every method takes a context; the unrestricted statement is refuted (methods without context are neither generated nor promoted).

Theorems: `C31_implements_partial`, `C31_elasticapm_partial`, `C31_elasticapm_refuted`.

### C32 Circuit breaker: open exactly after N consecutive counted errors

*proved.* Breaker.v: any number of concurrent calls as a transition system; the breaker state is a function of the history of completed calls.

Labelled transition system of any number of concurrent calls (read lock, check, base, write lock, update); rejection characterised over the completed-call history; rejected calls never reach the base; also deadlock freedom.

Theorems: `C32_open_exactly`, `C32_one_base_call`, `C32_no_deadlock`.

### C33 Circuit breaker: first call after the interval decides

*proved.* Corollaries of C32 over traces.

Corollaries over traces; the stronger reading 'once open it stays open for openInterval' is refuted by an in-flight success.

Theorems: `C33_passes_after_interval`, `C33_trips_again`, `C33_success_closes`, `C33_stays_open_refuted`.

### C34 Fallback (context+error methods): the answer is right

*proved.* Fallback.v: caller, launcher, n goroutines, ticker, contexts; invariants over reachable states.

Transition system of one call (caller, launcher, n implementation goroutines, ticker, contexts); answers characterised over execution traces.

Theorems: `C34_answer`, `C34_all_called`, `C34_returns_once`, `C34_answer_no_error`.

### C35 Fallback: implementations are started in order, at most once, no earlier than allowed

*partial.* Same; counting invariants.

Goroutines are launched in list order, each implementation is called at most once and launches beyond the first are paid for by ticks or failures; the order in which launched goroutines actually call their implementation is up to the scheduler, so that reading is refuted.

Theorems: `C35_launch_order`, `C35_called_once`, `C35_paid`, `C35_called_in_order_refuted`.

### C36 Fallback (context+error): the caller never blocks forever while implementations answer

*proved.* Progress in every reachable state plus a decreasing measure.

Deadlock freedom plus a bound on the number of steps; with no implementations the call waits for its context; non-positive interval panics.

Theorems: `C36_send_never_blocks`, `C36_no_deadlock`, `C36_bounded`, `C36_no_implementations`, `C36_interval`.

### C37 Fallback (methods without context): the caller gets an answer

*partial.* Witness schedule for the lost answer.

False of the code: an answer given before the caller reaches its receive is dropped by the select default. Proved: an answer arriving while the caller waits cannot be dropped and is returned.

Theorems: `C37_refuted`, `C37_partial`.

### C38 Fallback leaves no goroutine behind

*partial.* Witness schedule for the leaked launcher.

False of the code: the launcher goroutine leaks after an early answer. Proved: implementation goroutines never leak, and neither does the launcher when all implementations failed.

Theorems: `C38_refuted`, `C38_impls_partial`, `C38_launcher_partial`.

### C39 Retry: number of attempts and result

*partial.* The retry body (tied to the template by `retry_generated`) executed by the interpreter MiniGo against an arbitrary world; induction on the retry count.

Proved for every method shape, retry count, outcome sequence and cancellation point, over an arbitrary outside world: exact trace (retry_call) and its consequences. Refuted part: a non-positive interval makes time.NewTicker panic after a first failure, so the call has no result.

Theorems: `C39_retry_trace`, `C39_retry_attempts_partial`, `C39_interval_refuted`.

### C40 Rate limit: calls never outrun the ticks

*partial.* RateLimit.v: token conservation over ticks, feeder, buffer and callers.

Window bound proved for tokens taken and for base calls of calls made in the window; refuted for all base calls started in a window (a caller may be delayed between taking its token and calling the base).

Theorems: `C40_since_construction`, `C40_window_tokens`, `C40_window_starts`, `C40_token_conservation`, `C40_story`, `C40_no_starvation`, `C40_nonpositive_delay`, `C40_constructor`, `C40_window_starts_all_refuted`.

### C41 Rate limit: back-to-back calls are bounded by burst

*partial.* Same; burst+2 witness.

False of the code: after idling burst+2 calls go through back to back (full buffer, feeder holding a tick, one pending tick). Proved with burst+2, and with burst before the first tick.

Theorems: `C41_refuted`, `C41_partial`, `C41_fresh_partial`.

### C42 Round-robin pool: in bounds and fair

*proved.* RobinPool.v: atomic counter modulo 2^32; counting lemma.

Fairness proved for the first 2^32-1 tickets and for ever when the pool size divides 2^32; refuted at the wrap-around otherwise.

Theorems: `C42_constructors`, `C42_in_bounds`, `C42_cyclic`, `C42_fair`, `C42_cyclic_forever`, `C42_cyclic_refuted`.

### C43 Pool: an implementation is never used by two calls at once and is never lost

*proved.* SyncPool.v: multiset invariant.

Conservation invariant over any number of concurrent calls, including panicking ones.

Theorems: `C43_constructor`, `C43_exclusive`, `C43_never_shared`, `C43_return_never_blocks`, `C43_waits_only_if_busy`, `C43_never_lost`, `C43_story`.

### C44 Timeout decorator: deadline and cleanup

*proved.* Executed body; the world hypothesis says what context.WithTimeout and cancel do.

For every method with a context, every timeout and every base behaviour (result, panic, never returning): the deadline the base's context has is the earlier of the caller's and now+timeout, the context is cancelled after the base call and not before, the caller's context is not; without a positive timeout the caller's context is passed on unchanged. Context library reduced to WithTimeout and cancel functions as read off the trace; names of the method assumed not to clash with context/cancelFunc (see C51).

Theorems: `C44_timeout`.

### C45 Validation decorators call the base only with valid arguments

*proved.* Executed bodies of the three templates; induction over the parameters.

Exact trace of a call for all three templates (validate, twirp_validate, grpc_validate), every signature, argument list and behaviour of Validate/base. Elements of a variadic argument are not validated (the argument is the slice), see C45_variadic_not_validated. Names assumed not to clash with the identifiers of the body (see C51).

Theorems: `C45_validation`.

### C46 twirp_error annotates errors with the request

*partial.* Executed body and helper function.

Proved of the executed twirp_error body, tied token by token to the template, for every method with at least one non-context argument, in every world answering as the twirp helper does: nil stays nil, otherwise the error becomes a twirp error carrying the request metadata of the first non-context argument. Refuted for methods without such an argument, whose errors are passed through without annotation.

Theorems: `C46_annotates_partial`, `C46_no_argument_refuted`.

### C47 Logging decorators log one line before and one after every call

*proved.* Executed bodies.

Per-call traces of the bodies that log_generated and logrus_generated show to be the generated ones: exactly one message before and one after the base call, with the method's name, parameters and results; the second at the error sink iff a non-nil error was returned; results and panics pass through. Assumes the loggers return. Fields and sinks are references to the outside.

Theorems: `C47_log`, `C47_logrus`, `log_generated`, `logrus_generated`.

### C48 Prometheus decorator observes every call once with the right label

*proved.* Executed body.

Exactly one observation, after the base call, labelled with instance, method name and error/ok; the value is Seconds(Since(t)) for the t taken before the call. Assumes the functions of time and of the summary return. A panicking base is recorded as ok, which the statement allows.

Theorems: `C48_prometheus`, `prometheus_generated`.

### C49 Tracing decorators start and end exactly one span per call

*partial.* Executed bodies; deferred functions run with the recovered outcome.

Proved for calls during which every operation other than the base call returns. Without that it is false: the deferred function reads err.Error() (or calls the span decorator) before it ends the span, so a panic there leaves the span open (C49_error_text_panics_refuted, C49_decorator_panics).

Theorems: `C49_opencensus_partial`, `C49_opentelemetry_partial`, `C49_opentracing_partial`, `C49_elasticapm_partial`, `C49_error_text_panics_refuted`.

### C50 Observing decorators are transparent

*partial.* Consequences of the exact traces.

For log, logrus, prometheus, timeout, syncpool and robinpool: one call of the method with the caller's arguments (but for the derived context) and the same end, for every signature and base behaviour. The tracing decorators need the calls of the tracing library and of err.Error() to return; without that the statement is false (witness: an error whose Error method panics). The helpers (loggers, summary, clock, context.WithTimeout, channel, counter) are assumed to return.

Theorems: `C50_log`, `C50_logrus`, `C50_prometheus`, `C50_timeout`, `C50_syncpool`, `C50_robinpool`, `C50_opencensus_partial`, `C50_opentelemetry_partial`, `C50_opentracing_partial`, `C50_elasticapm_partial`, `C50_error_text_panics_refuted`.

### C51 Generated names never capture identifiers used by the template

*partial.* Alike.v: two runs of the interpreter, the second with all variables renamed injectively, related step by step; templates contribute the list of identifiers they use.

Renaming parameters and results by any injective renaming that spares the identifiers listed for a template gives the same outcome and the same questions to the outside (16 templates; elasticapm for results only; fallback not covered). Any two hygienic choices of names are such a renaming apart. Names made up by NewMethod never clash; names written by the user do: refuted with parameters called time, context, trace, otel, opentracing, atomic.

Theorems: `C51_partial`, `C51_elasticapm_partial`, `C51_renaming_exists`, `C51_only_written_names`, `C51_time_refuted`, `C51_retry_refuted`, `C51_breaker_refuted`, `C51_timeout_refuted`, `C51_opencensus_refuted`, `C51_opentelemetry_refuted`, `C51_opentracing_refuted`, `C51_robinpool_refuted`.

### C52 Concurrent generators do not disturb each other

*partial.* Sharing.v: slices with capacity, two-thread interleavings of the package variable.

False in general (both refutations). Proved for shared slices without spare capacity, for every interleaving; for LocalPrefix the exact condition, equal prefixes and serial runs.

Theorems: `C52_imports_partial`, `C52_prefix_exact_partial`, `C52_prefix_same_partial`, `C52_prefix_serial_partial`, `C52_imports_refuted`, `C52_prefix_refuted`.

### C53 The template header names the package of the output directory

*partial.* filepath.Abs/Dir/Base as functions, compared with a directory walk.

Proved for every output path that does not leave the working directory through '..'; there the directory name is taken to be '..' (refuted).

Theorems: `C53_package_name`, `C53_no_name`, `C53_every_path`, `C53_dotdot_refuted`.

### C54 template copy writes only what was loaded, after loading

*proved.* Cmd.v: effect traces.

template copy writes the destination exactly once and only after a successful load.

Theorems: `copy_writes_after_load`, `copy_usage`.

### C55 Generated methods with results end in a terminating statement

*partial.* Terminating-statement rules of the Go specification on the token-tied bodies.

Proved for all stock templates except fallback's error-returning methods without context, for which the unrestricted statement is refuted: the generated body ends in an append statement inside a plain loop and Go reports a missing return. elasticapm with its own restriction (C31).

Theorems: `C55_terminating_partial`, `C55_elasticapm_partial`, `C55_fallback_partial`, `C55_fallback_refuted`.

### C56 Flags of the gen command

*proved.* Go's flag package (parseOne) against an independent reading of the arguments.

Go's flag package is modelled (FlagSet.parseOne); the text of the boolean error is shortened.

Theorems: `C56_flags`, `C56_unknown`, `C56_no_value`, `C56_bad_bool`.

### C57 Required flags and the default package

*proved.* checkFlags and Run over an arbitrary world.

For every world; the flags are read off the command line by an independent specification.

Theorems: `C57_required`, `C57_wrong_flags`, `C57_default_package`.

### C58 The header of the generated source

*proved.* Header template executed by the text/template model.

The header template's text is verbatim and executed by the text/template model; imports.Process and the body are parameters.

Theorems: `C58_source`, `C58_header`.

### C59 Output of the template command

*proved.* Effect traces of the template command.

Errors of writing to standard output are dropped by the code and not modelled.

Theorems: `C59_list`, `C59_subcommands`, `C59_copy`.

### C60 Struct, map and return renderings describe the parameters exactly

*proved.* Renderings read back by small readers.

Read back by a small reader of struct types, map literals and return statements; hypotheses: identifiers as names, types printing on one line; C60_variadic discharges the shape of variadic types for every method made by NewMethod with the package's printer; ParamsSlice.Pass is what Call puts between its parentheses.

Theorems: `C60_params_struct`, `C60_ptrs_struct`, `C60_results_struct`, `C60_maps`, `C60_names`, `C60_return`, `C60_variadic`, `C60_params_pass`, `C60_params_pass_cons`.

### C61 A refused generation names its first cause

*proved.* Exhaustive list of causes, both directions.

Exhaustive list of causes with literal texts; both directions; panics and non-termination are separate outcomes (C15, C19).

Theorems: `C61_target_not_found`, `C61_unknown_package`, `C61_not_an_interface`, `C61_refused`, `C61_causes`.

### C62 Concurrent calls of generated pool, rate limit and circuit breaker methods behave as their transition systems

*proved.* Threads.v: a call is the tree of its operations (proved equal to the interpreted body by C62_*_call); calls are interleaved over a shared state whose operations answer as the specified objects do; simulation into the transition systems, for the breaker with a record of what each call under the lock knows; the history of completed calls is read off the events (`done_calls`).

Shared objects answer as specified (RWMutex, sync.Pool-like channel, atomic counter, ticker, clock, errors.Is a fixed function that does not panic); the rate limiter's feeding goroutine is an environment step; operations are the atomic steps. C62_*_is_run: every finished call is a run of the generated body.

Theorems: `C62_breaker_call`, `C62_breaker`, `C62_breaker_open`, `C62_breaker_closed`, `C62_breaker_finished`, `C62_breaker_no_deadlock`, `C62_breaker_is_run`, `C62_ratelimit_call`, `C62_ratelimit`, `C62_ratelimit_since_construction`, `C62_ratelimit_base_calls`, `C62_ratelimit_window`, `C62_ratelimit_story`, `C62_ratelimit_is_run`, `C62_robinpool_call`, `C62_robinpool`, `C62_robinpool_target`, `C62_robinpool_fair`, `C62_robinpool_finished`, `C62_robinpool_is_run`, `C62_syncpool_call`, `C62_syncpool`, `C62_syncpool_exclusive`, `C62_syncpool_never_shared`, `C62_syncpool_give_back`, `C62_syncpool_waits`, `C62_syncpool_finished`, `C62_syncpool_is_run`.

### C63 Every generated method has the signature of a declaration in the method set

*proved.* `decl_of` (where a method is declared, and by which name the declaring package goes) is a specification beside `in_set` of C12; induction over the resolution functions; C02 gives the signature.

Package graphs as in C12 (well_formed). With generics the type arguments substituted are not described here (C16).

Theorems: `C63_declared`, `C63_sourced`, `C63_signature`.

### C64 gen with a stock template: from the command line to the declarations

*proved.* Composition of C12, C24, C31, C56, C58, C63: `RunGen` inverted (and run forward) with template execution tied to Tmpl.v by `template_package`.

template_package: text/template does what Tmpl.v says where Tmpl.v says something. Package graphs as in C12. imports.Process is an arbitrary function; elasticapm is left out because it skips methods without a context (C31).

Theorems: `C64_body`, `C64_success`, `C64_succeeds`.

### C65 A call of a generated fallback method behaves as the fallback transition system

*proved.* Goroutines.v: goroutines with frames, memory segments, channels (rendezvous and buffered), select with default, contexts, tickers, deferred calls. FallbackBody.v: the body as statements, whose tokens are the template output. FallbackCalls.v: simulation relation between machine states and transition system states, one lemma per kind of step. FallbackProgress.v: no deadlock. Examples are executions computed by a scheduler proved sound.

Machine of goroutines, channels, contexts and tickers (Goroutines.v) running the statements whose tokens the template produces; every execution is simulated by the transition system of Fallback.v. Methods that return an error without taking a context do not compile (C55) and are excluded. C65_no_context_refuted: without a context the call can be stuck, as in C37.

Theorems: `C65_body`, `C65_no_panic`, `C65_simulated`, `C65_answer`, `C65_calls`, `C65_launches`, `C65_no_deadlock`, `C65_no_context_refuted`.

### C66 Fallback: no implementation is called once the call has returned

*partial.* refuted by a computed execution of the machine; the true part from the simulation and the invariant that the derived context is cancelled before the return.

False: a tick or failure pending at the return makes the launcher start the next implementation afterwards (C66_refuted). True: with a context, such a call gets a context that is done.

Theorems: `C66_refuted`, `C66_done_partial`.

### C67 No field of a generated decorator has the name of one of its methods

*partial.* read off the tokens of the generated text: the struct is found by its braces, its fields cut at the semicolons; the field lists of all templates are computed with the interface left symbolic, and every field is unexported or the interface name. False in general: an interface with a method of its own name, and unexported methods in the same package.

false as stated (two witnesses); proved: every field is unexported or named as the interface, so exported methods not named as the interface clash with none

Theorems: `C67_fields_partial`, `C67_elasticapm_partial`, `C67_exported_partial`, `C67_refuted`, `C67_unexported_refuted`.

### C68 The declarations of generated files have different names

*partial.* the names declared at brace depth 0 are computed from the generated tokens for every template (exact list), whatever the methods are (balanced bodies); disjointness is then string reasoning on the lists. False for twirp_error (a fixed helper name), prometheus (a variable named after the interface only) and elasticapm with DecoratorName (the option type gets the name of the decorator).

exact package-level names for every template; within one file and between files of different decorators proved except for the refuted templates

Theorems: `C68_names`, `C68_within_partial`, `C68_apart_partial`, `C68_elasticapm_names`, `C68_elasticapm_partial`, `C68_within_refuted`, `C68_apart_refuted`, `C68_prometheus_refuted`.

### C69 Constructors build the decorators their fields describe

*proved.* the constructors are Go syntax (Construct.v) with an interpreter for the sequential fragment they use (memory, channels, struct literals, loops, closures, floats from SpecFloat, calls of other packages recorded); their tokens are proved to be the generated ones for all 18 templates (C69_declared). Each constructor is then evaluated for all arguments and all machine states. The goroutine of the rate limiter runs in a small-step semantics beside ticks and receivers; it simulates, and is simulated by, the feeder of PropRateLimitCalls.v.

Hypotheses: an embedded interface is a field called by its name (C69_embedded_name) and is not called like another field of the decorator (C67 has the counterexample); burst below the loop bound of the interpreter, which is arbitrary. The conversion of floats outside int64 to time.Duration is a parameter. All 18 stock templates (validate, twirp_validate, grpc_validate and twirp_error have the same constructor: C69_validate).

Theorems: `C69_declared`, `C69_embedded_name`, `C69_retry`, `C69_timeout`, `C69_validate`, `C69_logrus`, `C69_prometheus`, `C69_log`, `C69_tracing`, `C69_circuitbreaker`, `C69_fallback`, `C69_robinpool_empty`, `C69_robinpool`, `C69_robinpool_must_empty`, `C69_robinpool_must`, `C69_syncpool_empty`, `C69_syncpool`, `C69_ratelimit_negative`, `C69_ratelimit`, `C69_ratelimit_starts`, `C69_feeder`, `C69_feeder_keeps_up`, `C69_syncpool_starts`, `C69_robinpool_starts`, `C69_robinpool_must_starts`, `C69_breaker_starts`, `C69_with_label`, `C69_with_type`, `C69_elasticapm`, `C69_end_span`, `C69_capture_error`, `C69_set_label`.

### C70 Package qualifiers in interface definitions resolve to the packages Go resolves them to

*partial.* `resolves_defined`/`resolves_embedded` compare findSourcePackage and findImportPathForName with `import_of`, what Go binds the qualifier to. C70_first_match characterises findSourcePackage exactly: the first import with that name or, without a name, that last path element (`guessed`, stated with no reference to the code). C70_defined_partial: it agrees with Go when unnamed imports have the names of their last path elements; C70_embedded_partial: it agrees when the name is given in the file, or the package imports only one package of that name. Refuted in general: yaml.v2 is not found (C70_version_refuted), another package is taken (C70_other_package_refuted), and with two packages of one name the map order decides (C70_same_name_refuted); in each the method set Go gives the type differs from what is generated.

False in general: refuted for packages whose name is not the last path element (e.g. gopkg.in/yaml.v2) and for two imported packages of one name. Proved when unnamed imports follow the convention (definitions) and when the name is given in the file or unique among the package's imports (embedding); findSourcePackage characterised exactly.

Theorems: `C70_first_match`, `C70_defined_partial`, `C70_embedded_partial`, `C70_version_refuted`, `C70_other_package_refuted`, `C70_same_name_refuted`.

### C71 Interfaces are read from exactly the files Go builds the package from

*partial.* Pkg.v models Load, AST and Dir over a file system (directory listings with parse results and a flag for build constraints); parser.ParseDir is modelled from the standard library. `built` restates the rules of go/build. C71_ast gives the exact result of AST, C71_complete that nothing built is left out, C71_exact_partial/C71_declared_partial exactness when all .go files parse and those of the package are built. Refuted in general: files excluded by build constraints are read and the map order decides between them (C71_constraints_refuted), interfaces of test files are accepted (C71_test_file_refuted), ignored files make gowrap fail (C71_ignored_file_refuted).

False in general: ParseDir reads every .go file of the directory, so test files and files excluded by build constraints are read and ignored broken files make it fail. Proved: AST exactly; nothing built is missed; exact when the .go files of the package are all built and every .go file parses.

Theorems: `C71_load`, `C71_ast`, `C71_complete`, `C71_exact_partial`, `C71_declared_partial`, `C71_constraints_refuted`, `C71_test_file_refuted`, `C71_ignored_file_refuted`.

### C72 Decorators of generic interfaces are generic

*partial.* False of the stock templates: C72_generics_ignored (the tokens generated do not depend on the type parameters, for any interface), C72_plain (the decorator is declared `type D struct {`), C72_refuted (an interface Store[T any] read by findTarget: all 18 templates print a method with T and declare no T).

False of the code, for every stock template: type parameters are ignored and the decorator is declared without them (elasticapm for interfaces whose contexts are first parameters).

Theorems: `C72_generics_ignored`, `C72_plain`, `C72_refuted`.

### C73 The rate limiter's token period is 1/rps

*partial.* The delay expression of the template, time.Duration(float64(time.Second) / rps), is evaluated by the constructor interpreter with binary64 division (SpecFloat of the standard library). FloatDiv proves the correct rounding of that division for all normal divisors from 2^-23 on: half an ulp, ties to even, no library about floats used. From it: the delay d satisfies 10^9/rps - 1 < d <= 10^9/rps (1 + 2^-53) (C73_delay); for whole rates d = floor(10^9/k) exactly (C73_whole, C73_period_partial); d = 0 exactly for rates above 10^9 (C73_too_fast). False as stated: rounding down makes three calls a second slightly faster than three (C73_never_faster_refuted), and with a delay of zero time.Tick returns a nil channel, so no token ever comes (C73_always_ticks_refuted); then every run of the goroutine that the constructor starts hands out at most burst tokens (C73_starves). PropTickRateAll goes through all other float64 values: rates below 2^-23 get a period exact to one part in 2^53, or one that does not fit an int64 and is converted as the machine pleases (C73_slow); negative rates get no positive delay (C73_negative); zero, infinities and NaN are computed (C73_special). With the conversions of amd64 a delay is positive only for positive rates up to 10^9 whose period fits (C73_ticks_amd64), so zero, negative and NaN rates and one call in 300 years starve the decorator (C73_slow_refuted, C73_no_rate_starves); with the saturating ones of arm64 slow rates do tick (C73_some_tick_arm64). Nothing is left out.

The delay for every float64 rate: within the rounding of one division of 10^9/rps wherever that fits an int64, exact for whole rates. False as stated: the delay is rounded down (never_faster), rates above 10^9 get no token after the burst (always_ticks), nor, on amd64, rates whose period does not fit an int64 (slow_refuted).

Theorems: `C73_delay`, `C73_too_fast`, `C73_whole`, `C73_period_partial`, `C73_starves`, `C73_slow`, `C73_negative`, `C73_special`, `C73_ticks_amd64`, `C73_slow_arm64`, `C73_some_tick_arm64`, `C73_no_rate_starves`, `C73_never_faster_refuted`, `C73_always_ticks_refuted`, `C73_slow_refuted`.

### C74 Package names in generated signatures mean what they mean in the source

*partial.* PropScope reads the imports of the generated file back: those of the header (the lines makeImports writes, read by a separate reader) and the import declaration at the start of the template, whose tokens the template pipeline yields. A name means a package when some import binds it to that package and none binds it to another. C74_scope_partial: the imports of the generated file are the source package under the name used for it and those of the file of the interface that was asked for, so qualifiers keep their meaning when the declaring file imports no more than that file and the template imports no other package under that name. C74_plain_partial: for interfaces without embedded elements all of C74 holds but for clashes with the template. C74_template_imports and C74_elasticapm_imports compute what each of the 18 stock templates imports, for all interfaces. Refuted as stated, three ways: an embedded interface declared in another file that imports more, an interface embedded from a package imported under another name, and a template that imports a package of the same name.

False in general: refuted for embedded interfaces of other files, for packages imported under another name and for packages with the name of one the template imports. Proved when the declaring file imports no more than the interface's file and no name is also the template's; import lists of all stock templates computed.

Theorems: `C74_scope_partial`, `C74_plain_partial`, `C74_template_imports`, `C74_elasticapm_imports`, `C74_other_file_refuted`, `C74_alias_refuted`, `C74_template_clash_refuted`.

### C75 Failures are reported with the text that describes them

*partial.* Output.v models what main prints: fmt.Fprintf without operands in full (flags, argument indices, width, precision, the error texts of package fmt), die, help and main. C75_reported_partial: texts without a percent sign are printed as they are; C75_command_line: wrong command lines always (they are operands, not formats). C75_doubled: doubling the percent signs would make every text come out right. C75_verb: what becomes of a percent sign and a letter. C75_ending ties the model to the exit codes of C28, C75_never_silent shows that a run fails exactly when it prints to standard error. False as stated, because die uses the text as a format: refuted with a file name, with generated source that cannot be formatted (whose own formats are lost) and with gowrap help 100%. Not modelled: what the runtime prints about a panic.

False for texts with a percent sign, which die uses as a format (three witnesses); proved for all others, for all wrong command lines, and that a run fails exactly when it prints to standard error.

Theorems: `C75_reported_partial`, `C75_command_line`, `C75_doubled`, `C75_verb`, `C75_ending`, `C75_never_silent`, `C75_file_name_refuted`, `C75_source_refuted`, `C75_topic_refuted`.

### C76 The help texts describe what gowrap accepts

*partial.* Output.v models Usage, PrintDefaults and UnquoteUsage of package flag and the texts of both commands. A separate reader takes help texts apart into entries; C76_read shows for all flag sets that the entries are those of the flags, C76_plain that descriptions without back quotes are read back as registered. C76_flags: help gen has one entry for each flag the parser of C56 accepts and for no other. C76_commands: the usage message has a line for each command main knows. Refuted for -t: the back quotes in its description are taken for the name of the value, so help shows -t gowrap template list.

Proved but for the description of -t, whose back-quoted words package flag takes for the name of the value (refuted).

Theorems: `C76_read`, `C76_plain`, `C76_flags`, `C76_described_partial`, `C76_template_flag_refuted`, `C76_commands`.

### C77 Generated functions obey Go's rules for declarations and scope

*partial.* Scoping.v states the rules of the Go specification (declarations and scope, short variable declarations, return statements, unused variables) over items: uses, assignments, := and var declarations, parameters, returns, blocks and function literals. The items of a body are computed from its syntax tree (MiniGo.v for methods, Goroutines.v for fallback, Construct.v for constructors). C77_code: every declaration of a generated file is an import, type or var declaration or the tokens of one of the functions listed, and each of these is in the file. C77_scoped_partial: all of them obey the rules in the scope of the file read off its own tokens (imports, top-level names) and the predeclared names, for methods as NewMethod makes them (C77_well_named). Refuted for every template without the hypotheses: names of parameters that a body declares itself, packages left to goimports (context in fallback, encoding/json in twirp_error), options of elasticapm decorators with DecoratorName set. Not stated: types (a parameter that has the name of the decorator hides it), unused imports (io in logrus is left to goimports), names in import, type and var declarations.

Proved for all stock templates, all interfaces and all variables, of methods as NewMethod makes them whose names differ from the names the body declares (listed), decorators not called _, and elasticapm decorators whose option type is declared; fallback and twirp_error given context and json, which goimports (not modelled) imports. Without each of these the statement is refuted.

Theorems: `C77_code`, `C77_scoped_partial`, `C77_well_named`, `C77_imports_refuted`, `C77_locals_refuted`, `C77_options_refuted`.

### C78 go generate on a generated file writes the same file again

*partial.* Two complete runs of RunGen are compared: the second in the directory of the output file, with the words go generate makes of the directive, and with a package that additionally has the generated file (same_but: same declarations, the new ones not named in the interfaces and their imports not changing what a qualifier means; same_packages for all others). The files are the same, seen from another directory (same_files speaks about absolute paths; that the directive names the same template and the same output is proved with a model of path/filepath). The interface may be resolved in any visiting order in both runs. Four conditions are shown to be needed by witnesses where the second run fails or writes another file: no generated import with the name of a package the interface embeds from, a destination that loads, no http template, no dollar sign or blank in the arguments.

Proved for two whole runs, all orders and working directories, when the directive's words are plain, the template is no http URL, the destination package loads in the second run, and the generated file's declarations and imports do not change what the names in the interface mean. Each of these conditions is needed: four witnesses in which the second run fails or writes another file.

Theorems: `C78_regenerates_partial`, `C78_embedded_package_refuted`, `C78_destination_refuted`, `C78_http_template_refuted`, `C78_dollar_refuted`.

### C79 Generated functions are well typed

*partial.* Typing.v states Go's rules for types (assignability, conversion, calls with variadic and spread arguments, selection, composite literals, short variable declarations, the statements the templates use) over one syntax, into which the three fragments of Go (MiniGo.v, Goroutines.v, Construct.v) are translated, and lists the functions, types, fields and methods of the packages that the templates use. A judgement is made in a list of blocks: the function's, the file's imports, the package (any set P that contains what the file declares and no predeclared name) and the predeclared names. C79_typed_partial: the functions of all 18 templates are well typed for all interfaces under conditions that are stated template by template in the table rules. C79_marks: methods made by NewMethod meet the conditions on ctx and err if the context type is printed as context.Context. With C77, C55, C64 and C31 this is that the file compiles.

The full statement (C79_statement) is false: any type called Context counts as a context (C79_context_refuted: Do(c gin.Context) with timeout), parameters hide packages and predeclared names the body uses (C79_hidden_refuted: a parameter called time with retry; C79_result_refuted: user string with a result user.User in fallback), a DecoratorName may be that of a constructor's parameter (C79_decorator_refuted), an interface may be called like a field (C79_field_refuted), and the interface's package like a constructor's parameter (C79_package_refuted). Proved outside of these. Simplified: the text of a type of the interface is one token and is the same type wherever its identifiers mean the same; signatures of library packages are taken from their documentation; the initializer of prometheus's variable is not typed; packages the templates do not import (context in fallback, encoding/json in twirp_error) are assumed to be found by goimports; results hidden at a return are C77's.

Theorems: `C79_typed_partial`, `C79_marks`, `C79_context_refuted`, `C79_hidden_refuted`, `C79_decorator_refuted`, `C79_field_refuted`, `C79_package_refuted`, `C79_result_refuted`.

### C80 Generated files of ordinary interfaces compile

*proved.* PropCompiles.v joins the rules of C31, C55, C67, C68, C77 and C79 in one definition (compiles) about one file. C80_compiles derives all of them from conditions on the declarations: declared names are not in reserved_names (two dozen names at most, per template); names made up by NewMethod end in a digit or are ctx or err, and no reserved name does or is. C80_unnamed: with unnamed parameters there is no condition on names left (15 templates). C80_run: for a run of gen that reports success, from the command line, with the conditions on the declarations of the method set (decl_of, C63) in the source packages; the qualifier of the interface begins with _source, so the clash of C79_package_refuted can only come from users of the generator package.

The rules of C31, C55, C67, C68, C77 and C79 together, under conditions on the source; each condition is needed (refutations of those claims). What goimports does afterwards (removing unused imports, adding context and encoding/json) is not modelled; simplifications as in C77 and C79.

Theorems: `C80_compiles`, `C80_unnamed`, `C80_run`.

### C81 Calls of generated methods that run at the same time have no data races

*proved.* Races.v defines data races as the Go memory model does: program order and what the lock synchronizes order the events; two accesses to a location by different calls, one a write, must be ordered. It proves that calls which read shared fields only while holding the lock and write only while holding it exclusively never race, whatever everything else answers (reads may yield anything). PropRaces.v shows the circuit breaker's calls obey this, and that the executions of C62 are among these: there the memory model itself promises the sequential consistency C62 assumes. Quiet.v proves of the interpreter that a body without shared fields never asks to read or write one, closures, deferred calls and helper functions included; PropRaces2.v applies it to the other 16 templates and checks on the syntax that nothing but local variables is assigned, that robinpool's counter occurs only as &_d.counter in atomic.AddUint32 and that the breaker never uses its changing fields in another way than through the shared accesses. PropRaces3.v defines for the statements of Goroutines.v which variables they use, resolving scopes, and proves for fallback that no goroutine conflicts with what its starter does afterwards, later loop iterations included; this is a static condition, not one on the executions of Goroutines.v. A parameter called _i refutes it without the condition on names. Races inside the wrapped implementations, the libraries and the values passed are outside.

circuitbreaker and the 16 other templates on all interleavings of calls; fallback by a static condition on the variables its goroutines share, refuted without the condition on names by a parameter called _i; objects outside the decorator are outside

Theorems: `C81_circuitbreaker`, `C81_circuitbreaker_executions`, `C81_unshared`, `C81_fields`, `C81_breaker_fields`, `C81_fallback`, `C81_names_refuted`.

### C82 Circuit breaker calls never deadlock and leave no lock behind

*proved.* PropLocks.v, over the same interleavings of calls as C81 (Races.v: the lock answers as sync.RWMutex without the rule that waiting writers stop new readers, which only removes runs in which a call that holds the lock or waits for it can go on). A call holds the lock if it has locked and not unlocked since; calls of class polite lock, unlock and call the implementation in order whatever the answers; the invariant counts the holders. The circuit breaker's calls (BreakerCall.v, proved equal to the generated body in PropBreakerCalls.v) are polite. Assumed: library calls other than errors.Is return; reads and library calls do not return the implementation or the lock itself. PropNestedBreaker.v (C82_nested), over the states of Breaker.v: each call may be made by the implementation another call is in, which returns only when that call is over; the step found is never a read lock while some call waits to write, so Go's writer preference does not matter. C82_finite and C82_finishes: a rank that every step of a call lowers. Assumed there: an implementation whose own calls are over returns.

for templates/circuitbreaker, the only stock template with a lock

Theorems: `C82_implementation`, `C82_released`, `C82_no_deadlock`, `C82_nested`, `C82_finite`, `C82_finishes`.

### C83 Decorators swallow no panic and make up none

*proved.* Loud.v proves, by induction over the interpreter of MiniGo.v, that the outcome of a call fits the answers in its trace; PropPanics.v states this for the bodies of the 17 templates that start no goroutine. The interpreter has no recover: C83_no_recover checks that no body calls it, so leaving it out is faithful. C83_same_value_refuted: a panic in a deferred logger call replaces the one of the implementation, as in Go. Not covered: fallback (a panic in a goroutine it starts ends the program; Goroutines.v has no panicking implementations), and runs the interpreter gives no meaning to (Stuck), which the theorems per template (C39-C50) exclude for worlds that answer with values of the declared types.

For the 17 templates without goroutines. The stronger reading, that the caller always gets the value the implementation panicked with, is refuted: a deferred call that panics replaces it.

Theorems: `C83_no_recover`, `C83_not_swallowed`, `C83_not_invented`, `C83_reaches`, `C83_blocked`, `C83_same_value_refuted`.

### C84 Implementations in a pool may call the pool again

*partial.* PropNested.v: the transition system of the pool (SyncPool.v, to which C62 ties the generated code) with a parent for each call: the implementation a call uses may make another call and goes on when that is over. C84_nested_refuted: for every pool size n, n+1 calls nested in each other wait for ever. Proved: at most n calls in progress never all wait, however nested (so n+1 is the least), and any number of calls does not if none is nested. Calls an implementation makes without waiting for them count as not nested. The circuit breaker has no such limit (C82); a rate limited call waits for the clock only. C84_finite and C84_few_finish: a rank that every step of a call lowers, so with at most n calls in progress all of them can be finished, in whatever order they went on before.

False of the code: n+1 calls nested in each other exhaust a pool of n implementations and wait for ever, for every n. Proved: with at most n calls in progress, however nested, or with no nested calls at all, some call can go on.

Theorems: `C84_few`, `C84_flat`, `C84_nested_refuted`, `C84_finite`, `C84_few_finish`.

### C85 A rate limited call ends when its context does

*partial.* PropLimitContext.v over the transition system of RateLimit.v, to which C62 ties the generated code. Proved for methods with context and error: the call can end at once when its context is done; a call that ends so took no token, did not call the implementation and its context was done before; without a token to take it ends in no other way. C85_not_called_refuted: if a token is there too, select may take it, and the implementation is called with a context that is done. C85_no_error_refuted: methods with a context but no error wait for a token only, possibly for ever.

False of the code in two ways: a call whose context is done may still take a token and call the implementation, and methods without an error ignore the context while waiting. Proved: methods with context and error can always stop at once, and then took no token and did not call the implementation; with no token to take they end in no other way.

Theorems: `C85_stops`, `C85_cancelled`, `C85_no_token`, `C85_not_called_refuted`, `C85_no_error_refuted`.

### C86 Implementations may call their own rate limiter as long as ticks come

*proved.* PropNestedLimit.v, over the states of RateLimit.v: each call may be made by the implementation another call is in, which returns only when that call is over. C86_finish finishes the calls from the last to the first: a call is made after the one it is nested in, so all calls nested in the last unfinished one are over, and a token for it comes from the buffer, the feeder or the next tick. C86_without_ticks builds the chain of burst + 1 calls. That the steps happen is the scheduler and the runtime ticker; the theorem says they can.

for templates/ratelimit

Theorems: `C86_finish`, `C86_without_ticks`.


## 5. Defects of the code found while proving

Each has a `_refuted` theorem with a concrete witness unless marked (prose).

* printer: struct tags are dropped; parenthesised types, interface literals and
  array lengths keep unqualified names of the source package (C09, C11).
* generics: arguments are substituted only for whole types and one level deep
  (C16); constraints other than names and unions are lost (C18); a
  self-instantiating interface makes resolution run forever (C15).
* resolution: embedded interfaces are resolved with the imports of the wrong file,
  unresolvable ones are dropped (C12); duplicates depend on map order (C14).
* types: an explicit empty result list panics (C04); blank parameters and
  non-ASCII type names give unusable identifiers (C06).
* NewGenerator: title-case letters count as unexported (C19); a blank template
  import panics, aliased ones are corrupted (C21); `..` output paths give a wrong
  package name (C53); Options.Imports and imports.LocalPrefix are shared (C52).
* commands: `$` in a flag is expanded by go generate, http templates get a wrong
  relative path (C23); a lone `--` panics, broken streams change the exit status
  (C28); invalid UTF-8 in upFirst/downFirst loses bytes or panics (C30).
* templates: elasticapm leaves out methods without context (C31); fallback
  methods without context that return errors do not compile (C55), lose answers
  (C37), leak the launcher (C38), call implementations after the return (C66); retry panics for non-positive intervals (C39);
  ratelimit lets burst+2 calls through (C41); robinpool is unfair at the counter's
  wrap-around (C42); twirp_error does not annotate methods without request (C46);
  spans stay open when err.Error() panics (C49); parameters named like identifiers
  of a template capture them (C51); fields clash with methods (C67); twirp_error,
  prometheus and elasticapm declare names twice (C68).
* (prose) die(1, err.Error()) uses an error text as a format string; a template
  name with a line end breaks the header comment; os.WriteFile is not atomic;
  committed templates_tests/interface_with_fallback.go does not match its template.

## 6. Mutation tests

seeded/LOG.jsonl has one line per attempt: a definition of the model is changed in
a scratch copy, everything is rebuilt, and the theorems that fail are recorded. A
surviving change led to a tightened theorem or is marked as equivalent.
