{"id": "C01", "title": "Generated parameter and result names never collide", "statement": "For every interface method gowrap accepts, the parameter and result names of the Method handed to templates are pairwise distinct (parameters and results taken together), so the generated declaration never has a duplicate argument.", "quantifier": "every method declaration: any number of parameters and results, named or anonymous, any names, any types", "why_tests_cant": "the clash depends on arbitrary combinations of user-chosen names, generated names and the reserved names err/ctx", "anchors": ["generator/types.go:NewMethod", "generator/types.go:NewParam", "generator/types.go:makeParams", "generator/types.go:genName"]}
{"id": "C02", "title": "Generated signature keeps arity, order, types and variadicity", "statement": "The Method's Params (resp. Results) list has exactly one entry per declared parameter (resp. result), in source order; the type of each entry is the printed type of its declaration (after generic substitution) and it is variadic exactly when declared with '...'.", "quantifier": "every method declaration and every printer outcome", "why_tests_cant": "any arity and any grouping of names (a, b T) must be handled", "anchors": ["generator/types.go:NewMethod", "generator/types.go:makeParams", "generator/types.go:NewParam"]}
{"id": "C03", "title": "The forwarded call passes every declared parameter once, in order", "statement": "Method.Call names the same method as Method.Declaration and its argument list is exactly the declared parameter names in the declared order, each once, with '...' after exactly the variadic ones.", "quantifier": "every Method value produced for every interface", "why_tests_cant": "needs to hold for all arities; a test fixes one arity", "anchors": ["generator/types.go:Method.Call", "generator/types.go:Method.Declaration", "generator/types.go:ParamsSlice.Pass", "generator/types.go:Param.Pass"]}
{"id": "C04", "title": "err and ctx mean what templates assume", "statement": "ReturnsError is true exactly when the last declared result has type identifier error, and then the last result is called err and nothing else is; AcceptsContext is true exactly when the first parameter's type is a selector X.Context, and then the first parameter is called ctx and no other parameter or result is.", "quantifier": "every method declaration", "why_tests_cant": "templates unconditionally use err/ctx, so one combination of names breaking this yields wrong generated code", "anchors": ["generator/types.go:NewMethod"]}
{"id": "C05", "title": "Generated names are fresh and generation terminates", "statement": "For every prefix and every finite set of used names, the name generator stops and returns prefix followed by the least decimal number >= 1 that makes the name unused.", "quantifier": "every prefix and every finite set of used names", "why_tests_cant": "unbounded recursion over an arbitrary set", "anchors": ["generator/types.go:genName"]}
{"id": "C06", "title": "Names chosen by gowrap are usable Go identifiers", "statement": "Every parameter name in the generated signature can be used as a value in the forwarded call: it is a valid Go identifier other than the blank identifier, provided the names and type names in the source are valid Go identifiers.", "quantifier": "every method declaration with valid source identifiers", "why_tests_cant": "depends on all identifiers incl. blank and non-ASCII type names", "anchors": ["generator/types.go:typePrefix", "generator/types.go:NewParam"]}
{"id": "C07", "title": "User-chosen parameter names survive when they cannot clash", "statement": "A parameter or result declared with a name keeps it in the generated signature (apart from a first context parameter and a last error result, which are always called ctx and err) unless the name was already taken by an earlier parameter/result of the same method or is the reserved err (method has results) or ctx (first parameter is a selector type).", "quantifier": "every method declaration", "why_tests_cant": "every position and every name", "anchors": ["generator/types.go:NewParam", "generator/types.go:NewMethod"]}
{"id": "C08", "title": "Local type references are qualified in another package, untouched in the same package", "statement": "When the output goes to another package, every identifier in a printed type built from pointers, slices, arrays, maps, channels, functions, structs, variadics and generic instantiations that names a type of the source package is printed with the package prefix and no other identifier is; when the prefix is empty nothing is changed; if a referenced source type is unexported the print fails.", "quantifier": "every type expression of the listed shapes and any nesting depth, every set of source types", "why_tests_cant": "unbounded nesting", "anchors": ["printer/printer.go:PrintType", "printer/printer.go:printIdent", "printer/printer.go:fieldList"]}
{"id": "C09", "title": "A printed type reads back as the type that was declared", "statement": "Lexing and parsing the string PrintType returns, by Go's type grammar, yields the declared type with source-package names qualified: printing loses nothing and is unambiguous.", "quantifier": "every type expression of the listed shapes and any nesting depth", "why_tests_cant": "round trip over an infinite set of types", "anchors": ["printer/printer.go:PrintType", "printer/printer.go:printFunc", "printer/printer.go:printStruct", "printer/printer.go:printChan", "printer/printer.go:printGenericList"]}
{"id": "C10", "title": "A Printer has no memory", "statement": "For any sequence of Print/PrintType calls on one Printer, including failing ones, the result of each call equals the result of the same call on a fresh Printer.", "quantifier": "every history of calls", "why_tests_cant": "histories are unbounded; the shared buffer is hidden state", "anchors": ["printer/printer.go:Printer.buf", "printer/printer.go:Print", "printer/printer.go:PrintType"]}
{"id": "C11", "title": "Struct tags, constant array lengths and inline interfaces are preserved", "statement": "The printed form of a struct type keeps field tags; array lengths that name source-package constants and types inside inline interface types are qualified like other references.", "quantifier": "every type expression", "why_tests_cant": "the failing cases are specific shapes nobody wrote a test for", "anchors": ["printer/printer.go:fieldList", "printer/printer.go:printArray", "printer/printer.go:PrintType"]}
{"id": "C12", "title": "The method list is exactly the interface's method set", "statement": "If generation succeeds, the set of method names handed to templates is exactly the set of methods the source interface declares or inherits, transitively, through embedded interfaces that are declared in the source package or imported packages (plain or generic instantiations).", "quantifier": "every package graph, every embedding depth", "why_tests_cant": "embedding graphs are unbounded", "anchors": ["generator/generator.go:processInterface", "generator/generator.go:processIdent", "generator/generator.go:processSelector", "generator/generator.go:processEmbedded", "generator/generator.go:findTarget"]}
{"id": "C13", "title": "The outermost declaration of an overlapping method wins", "statement": "When a method is declared in the interface itself and also in embedded ones, the signature used is the interface's own; among embedded ones the first embedded wins; merging never loses or invents a method.", "quantifier": "every pair of method lists", "why_tests_cant": "arbitrary overlaps", "anchors": ["generator/generator.go:mergeMethods", "generator/generator.go:processInterface"]}
{"id": "C14", "title": "Generation does not depend on Go's random map iteration order", "statement": "For packages in which every type name is declared once, the target found, its imports and the resulting methods are the same for every iteration order of the package's file map; with a method map, the templates see the methods in name order whatever the map order.", "quantifier": "every permutation of every file map and method map", "why_tests_cant": "map order is random at run time; a test sees one order", "anchors": ["generator/generator.go:iterateFiles", "generator/generator.go:findTarget", "generator/generator.go:findImportPathForName"]}
{"id": "C15", "title": "Resolving an interface terminates", "statement": "For every package graph that type-checks, resolving the interface's methods terminates.", "quantifier": "every package graph", "why_tests_cant": "non-termination needs a specific recursive shape", "anchors": ["generator/generator.go:processEmbedded", "generator/generator.go:processIdent", "generator/generator.go:findMethods"]}
{"id": "C16", "title": "Embedding a generic interface substitutes its type arguments", "statement": "When an interface embeds a generic interface with type arguments, every occurrence of a type parameter in the inherited methods is replaced by the corresponding argument.", "quantifier": "every embedded generic interface, every parameter type, every nesting of embeddings", "why_tests_cant": "type parameters can occur anywhere in a type", "anchors": ["generator/generics.go:buildGenericParamsString", "generator/generator.go:processEmbedded", "generator/generator.go:processIdent"]}
{"id": "C17", "title": "Generics.Types and Generics.Params describe the same parameters", "statement": "The two generics strings list exactly the interface's type parameter names in declaration order: Types with each group's constraint, Params without; both are empty exactly when there are no parameters.", "quantifier": "every list of type-parameter groups", "why_tests_cant": "any number of groups and names", "anchors": ["generator/generics.go:buildVars", "generator/generics.go:buildGenericTypesFromSpec"]}
{"id": "C18", "title": "Type-parameter constraints are reproduced", "statement": "The constraint string of each type parameter denotes the declared constraint with source-package names qualified.", "quantifier": "every constraint expression", "why_tests_cant": "constraints are arbitrary expressions", "anchors": ["generator/generics.go:parseGenericType", "generator/generics.go:parseBinaryExpr", "generator/generics.go:getPrefix"]}
{"id": "C19", "title": "No unexported method reaches generated code in another package", "statement": "If the destination package differs from the source package, generation succeeds only if every method in the method list has an exported name; an interface without methods is rejected.", "quantifier": "every interface and every map iteration order", "why_tests_cant": "for all method sets", "anchors": ["generator/generator.go:NewGenerator"]}
{"id": "C20", "title": "Import() yields a sorted, duplicate-free import block independent of map order", "statement": "TemplateInputs.Import returns an import block whose lines are strictly increasing, and which contains exactly the trimmed source imports plus the quoted template imports, for every iteration order of the intermediate map.", "quantifier": "every list of source imports and template imports, every map order", "why_tests_cant": "all permutations/duplicates", "anchors": ["generator/generator.go:TemplateInputs.Import"]}
{"id": "C21", "title": "Import() never fails on template-supplied strings", "statement": "TemplateInputs.Import returns normally for every list of strings, and every aliased import it is given appears unchanged.", "quantifier": "every list of strings", "why_tests_cant": "rare inputs (blank strings, aliases)", "anchors": ["generator/generator.go:TemplateInputs.Import"]}
{"id": "C22", "title": "Command line variables: first '=' splits, last assignment wins", "statement": "-v name=value sets name to the text after the first '=', -v name sets it to true; templates see for each name the value of its last occurrence and no other names.", "quantifier": "every sequence of -v arguments", "why_tests_cant": "arbitrary sequences and values containing '='", "anchors": ["cmd_generate.go:vars.Set", "cmd_generate.go:vars.toMap"]}
{"id": "C23", "title": "The go:generate directive reproduces the command", "statement": "Splitting the emitted //go:generate line the way `go generate` does and parsing the arguments with the gen flag set gives back the interface, package path, template, output file name, local prefix and variables of the original run, whenever no argument contains blanks or quotes and no name is empty.", "quantifier": "every option set and every list of variables", "why_tests_cant": "round trip over unbounded lists of strings", "anchors": ["cmd_generate.go:varsToArgs", "cmd_generate.go:headerTemplate", "cmd_generate.go:NewGenerateCommand"]}
{"id": "C24", "title": "A failed run leaves the output untouched", "statement": "GenerateCommand.Run creates directories or writes the output file only after flags, template loading, parsing, template execution and import processing have all succeeded; on any earlier error nothing is written and the error is returned.", "quantifier": "every combination of failures of the stages", "why_tests_cant": "every failure point", "anchors": ["cmd_generate.go:Run", "generator/generator.go:Generate"]}
{"id": "C25", "title": "Template loading dispatch", "statement": "A template argument that names a readable file is used as is without any network request; an unreadable existing file is an error; otherwise http(s) URLs cause exactly one GET to that URL, file:// causes no request, and other names cause one GET for the latest commit and one GET of the file at exactly that commit.", "quantifier": "every path, every file system and every HTTP server behaviour", "why_tests_cant": "all server behaviours", "anchors": ["cmd_generate.go:loader.Load", "loader/loader.go:Loader.Load", "loader/loader.go:fetchFromGithub"]}
{"id": "C26", "title": "HTTP responses are closed and only 200 counts", "statement": "Every response body obtained is closed exactly once; contents are returned without error only if the status was 200, the read succeeded and closing succeeded.", "quantifier": "every server behaviour", "why_tests_cant": "every failure combination", "anchors": ["loader/loader.go:get"]}
{"id": "C27", "title": "template list shows exactly the repository templates", "statement": "List returns, in order, exactly the tree paths under templates/ with that one prefix removed.", "quantifier": "every tree", "why_tests_cant": "arbitrary listings", "anchors": ["loader/loader.go:List"]}
{"id": "C28", "title": "Exit codes", "statement": "The gowrap process exits 0 exactly when the command succeeded, 2 on usage errors (no arguments, bad flags, unknown command, CommandLineError) and 1 on run-time errors.", "quantifier": "every argument vector and every command outcome", "why_tests_cant": "all argument vectors", "anchors": ["cmd/gowrap/gowrap.go:main", "command.go:GetCommand"]}
{"id": "C29", "title": "snake is lower-case, only inserts underscores and is idempotent", "statement": "For ASCII input toSnakeCase yields no upper-case letters, removing underscores from input and output gives equal text up to case, and applying it twice equals applying it once.", "quantifier": "every ASCII string", "why_tests_cant": "all strings", "anchors": ["cmd_generate.go:toSnakeCase"]}
{"id": "C30", "title": "upFirst/downFirst change only the first letter", "statement": "upFirst (downFirst) returns the input with its first rune upper-cased (lower-cased) and the rest unchanged, for every input.", "quantifier": "every byte string", "why_tests_cant": "invalid UTF-8 inputs", "anchors": ["cmd_generate.go:upFirst", "cmd_generate.go:downFirst"]}
{"id": "C31", "title": "Every stock decorator implements the interface", "statement": "For every interface and every stock template, the generated decorator type has a method for every interface method, either generated or promoted from the embedded interface.", "quantifier": "every interface, every stock template", "why_tests_cant": "all mixtures of methods with/without context and error", "anchors": ["templates/*"]}
{"id": "C32", "title": "Circuit breaker: open exactly after N consecutive counted errors", "statement": "In every interleaving of concurrent calls, a call is rejected without reaching the base exactly when, at its check, the latest completed calls form a run of at least max(1,N) consecutive non-ignored errors whose last one completed less than openInterval before.", "quantifier": "every interleaving, every outcome and clock history", "why_tests_cant": "schedules and clock histories are unbounded", "anchors": ["templates/circuitbreaker"]}
{"id": "C33", "title": "Circuit breaker: first call after the interval decides", "statement": "After openInterval without completed calls the next call reaches the base; if it fails with a counted error the circuit is open again immediately, if it succeeds (or fails with an ignored error) the circuit is closed and the count is zero.", "quantifier": "every reachable state", "why_tests_cant": "histories", "anchors": ["templates/circuitbreaker"]}
{"id": "C34", "title": "Fallback (context+error methods): the answer is right", "statement": "In every schedule, a nil-error answer is the answer some implementation gave; a non-context error is returned only after every implementation has been called and failed, and its text joins exactly the implementations' errors, one per implementation, in arrival order; a context error is returned only when the caller's context is done.", "quantifier": "every schedule, every implementation behaviour", "why_tests_cant": "interleavings of n goroutines, a ticker and cancellation", "anchors": ["templates/fallback"]}
{"id": "C35", "title": "Fallback: implementations are started in order, at most once, no earlier than allowed", "statement": "In every schedule implementations are started in list order, each at most once per call, and the k-th start beyond the first is preceded by at least k ticks or received errors in total.", "quantifier": "every schedule", "why_tests_cant": "interleavings", "anchors": ["templates/fallback"]}
{"id": "C36", "title": "Fallback (context+error): the caller never blocks forever while implementations answer", "statement": "In every reachable state in which the call has not returned and there is at least one implementation, some goroutine of the call can take a step once pending implementation calls return; sending the next-signal never blocks the caller.", "quantifier": "every schedule", "why_tests_cant": "deadlock freedom over all schedules", "anchors": ["templates/fallback"]}
{"id": "C37", "title": "Fallback (methods without context): the caller gets an answer", "statement": "For methods without a context parameter, once some implementation has returned the call returns.", "quantifier": "every schedule", "why_tests_cant": "needs a rare schedule", "anchors": ["templates/fallback"]}
{"id": "C38", "title": "Fallback leaves no goroutine behind", "statement": "After the call has returned and all started implementation calls have returned, no goroutine of the call remains blocked forever.", "quantifier": "every schedule", "why_tests_cant": "leaks are invisible to result-checking tests", "anchors": ["templates/fallback"]}
{"id": "C39", "title": "Retry: number of attempts and result", "statement": "A retry decorator calls the base at least once and at most 1+max(0,retryCount) times, stops at the first success, and returns exactly the results of the last attempt; without cancellation it makes exactly the number of attempts needed.", "quantifier": "every retry count, every sequence of outcomes, every cancellation point", "why_tests_cant": "unbounded sequences of outcomes", "anchors": ["templates/retry"]}
{"id": "C40", "title": "Rate limit: calls never outrun the ticks", "statement": "In every schedule, at any moment the number of base calls started since construction is at most burst plus the number of ticks so far, and in any window at most burst+2 plus the ticks in the window; every token is used by exactly one call and cancelled calls use none.", "quantifier": "every schedule of callers, ticks and cancellations", "why_tests_cant": "schedules", "anchors": ["templates/ratelimit"]}
{"id": "C41", "title": "Rate limit: back-to-back calls are bounded by burst", "statement": "Without a tick in between, at most burst base calls can start.", "quantifier": "every schedule", "why_tests_cant": "needs an idle period then a burst", "anchors": ["templates/ratelimit"]}
{"id": "C42", "title": "Round-robin pool: in bounds and fair", "statement": "Every call is served by an existing implementation; within the first 2^32-1 calls any n consecutive ticket values hit each of the n implementations exactly once, in cyclic order, for any interleaving of callers.", "quantifier": "every pool size below 2^32, every number of calls, every interleaving", "why_tests_cant": "counter wrap-around at 2^32 and interleavings", "anchors": ["templates/robinpool"]}
{"id": "C43", "title": "Pool: an implementation is never used by two calls at once and is never lost", "statement": "In every schedule each implementation is, at any time, either idle in the pool or used by exactly one running call; returning it never blocks, even if the call panicked.", "quantifier": "every schedule of concurrent calls", "why_tests_cant": "interleavings", "anchors": ["templates/syncpool"]}
{"id": "C44", "title": "Timeout decorator: deadline and cleanup", "statement": "With a positive timeout the base sees a context whose deadline is the earlier of the caller's deadline and start+timeout; the derived context is cancelled when the call returns or panics and the caller's context never is; otherwise the caller's context is passed unchanged.", "quantifier": "every context, timeout value and base behaviour", "why_tests_cant": "all behaviours incl. panics", "anchors": ["templates/timeout"]}
{"id": "C45", "title": "Validation decorators call the base only with valid arguments", "statement": "For a method that returns an error, the base is called only if every non-context argument that has a Validate method validated, in order; otherwise the first validation error is returned (as is, or wrapped as InvalidArgument for grpc/twirp) and the base is not called.", "quantifier": "every signature and argument list", "why_tests_cant": "all arities and failing positions", "anchors": ["templates/validate", "templates/grpc_validate", "templates/twirp_validate"]}
{"id": "C46", "title": "twirp_error annotates errors with the request", "statement": "A nil error stays nil; a non-nil error becomes a twirp error whose \"request\" metadata is the JSON of the first non-context argument and whose other parts are those of the base error (Internal if it was not a twirp error).", "quantifier": "every arity and base behaviour", "why_tests_cant": "order of deferred calls for any number of arguments", "anchors": ["templates/twirp_error"]}
{"id": "C47", "title": "Logging decorators log one line before and one after every call", "statement": "For every method and every base behaviour (including panic) exactly one message is logged before the base call and exactly one after it, the latter to the error sink exactly when the method returned a non-nil error; results are passed through unchanged.", "quantifier": "every signature and base behaviour", "why_tests_cant": "all signatures", "anchors": ["templates/log", "templates/logrus"]}
{"id": "C48", "title": "Prometheus decorator observes every call once with the right label", "statement": "For every method and base behaviour exactly one observation is recorded after the base call with the method's name and label error exactly when the method returned a non-nil error; results are unchanged.", "quantifier": "every signature and base behaviour", "why_tests_cant": "all signatures", "anchors": ["templates/prometheus"]}
{"id": "C49", "title": "Tracing decorators start and end exactly one span per call", "statement": "For every context method and base behaviour the decorator starts one span, calls the base once with the span's context and ends that span exactly once after the base call, marking it as failed exactly when the method returned a non-nil error and no custom span decorator is set.", "quantifier": "every signature and base behaviour incl. panic", "why_tests_cant": "all signatures and failures", "anchors": ["templates/opentracing", "templates/opencensus", "templates/opentelemetry", "templates/elasticapm"]}
{"id": "C50", "title": "Observing decorators are transparent", "statement": "log, logrus, prometheus, the tracing decorators, timeout, robinpool and syncpool call the base exactly once with the caller's arguments (up to the derived context) and return exactly its results or propagate its panic.", "quantifier": "every signature and base behaviour", "why_tests_cant": "all signatures", "anchors": ["templates/*"]}
{"id": "C51", "title": "Generated names never capture identifiers used by the template", "statement": "No user-chosen parameter name changes the meaning of identifiers that the stock templates use in method bodies (packages such as time, local variables such as _d or span).", "quantifier": "every method declaration", "why_tests_cant": "arbitrary user names", "anchors": ["templates/*", "generator/types.go:NewMethod"]}
{"id": "C52", "title": "Concurrent generators do not disturb each other", "statement": "Generators running Generate concurrently each use their own local import prefix; generators created from a shared Options value do not see each other's imports.", "quantifier": "every interleaving of Generate calls; every slice capacity", "why_tests_cant": "data shared through package variables and slice backing arrays", "anchors": ["generator/generator.go:Generate", "generator/generator.go:NewGenerator"]}
{"id": "C53", "title": "The template header names the package of the output directory", "statement": "The generated package clause is the name of the package found in the output directory or, if there is none, the directory's name; generation fails if no name can be determined.", "quantifier": "every output path", "why_tests_cant": "all paths", "anchors": ["generator/generator.go:makePackage", "generator/generator.go:loadDestinationPackage"]}
{"id": "C54", "title": "template copy writes only what was loaded, after loading", "statement": "gowrap template copy writes the destination file only after the template was loaded without error, exactly once and with exactly the loaded bytes; it succeeds exactly when that write succeeds, and with fewer than two arguments it is a usage error without any effect.", "quantifier": "every argument list, server and file system behaviour", "why_tests_cant": "The set of failures of the server and the file system is unbounded; tests use a few mocks.", "anchors": ["cmd_template.go:83-101"]}
{"id": "C55", "title": "Generated methods with results end in a terminating statement", "statement": "For every interface and every stock template, the body of each generated method that has results is brace balanced and its last statement is a return statement or a for loop without a condition, so the Go compiler does not reject it with 'missing return'.", "quantifier": "every interface, every stock template, every generated method", "why_tests_cant": "the body depends on the mix of context, error, parameters and results of every method; the golden tests cover one interface", "anchors": ["templates/*", "generator/types.go:227-249"]}
{"id": "C56", "title": "Flags of the gen command", "statement": "Every command line built from the documented spellings of the flags (one or two dashes, value as next argument or after '=', -g alone or with a boolean) is accepted; each string flag has the last value given, -g the last boolean given, and all -v values are kept in order. Parsing stops at the first non-flag or after '--'. Unknown flags, a missing last value and a wrong boolean are errors with the documented text; -h and -help ask for help.", "quantifier": "every sequence of flag spellings and values", "why_tests_cant": "unbounded sequences of repeated flags and arbitrary values", "anchors": ["cmd_generate.go:51-66", "cmd_generate.go:71-76"]}
{"id": "C57", "title": "Required flags and the default package", "statement": "Without -o, -i or -t (given empty or not at all) gen does nothing to the outside world and reports the first missing one as a command line error; with all three it never reports a command line error. A missing -p means exactly the same run as -p ./ .", "quantifier": "every command line, world and set of packages", "why_tests_cant": "all combinations of repeated and empty flags and all world behaviours", "anchors": ["cmd_generate.go:71-159"]}
{"id": "C58", "title": "The header of the generated source", "statement": "The source handed to imports.Process is the executed header template followed by the executed body; the header starts with the generated-code marker, the template's name and the package clause of the destination, and contains the go:generate directive exactly when -g was not given. A formatting error carries the whole source.", "quantifier": "every generator, option set and executor", "why_tests_cant": "arbitrary names, imports and variables", "anchors": ["cmd_generate.go:303-316", "generator/generator.go:301-340"]}
{"id": "C59", "title": "Output of the template command", "statement": "template list prints a heading and each remote template on its own line, or fails without printing when there is none or the listing fails; template copy reports the URL it copied from; any other subcommand is a command line error without effects.", "quantifier": "every server behaviour and argument list", "why_tests_cant": "unbounded server answers", "anchors": ["cmd_template.go:48-101"]}
{"id": "C60", "title": "Struct, map and return renderings describe the parameters exactly", "statement": "Reading ParamsStruct/ParamPtrsStruct/ResultsStruct as a Go struct type, ParamsMap/ResultsMap as a map literal, ParamsNames/ResultsNames as a list and ReturnStruct as a return statement gives exactly one item per parameter (result), in order, under its name; a variadic parameter ...T has field type []T (*[]T in the pointer struct), every other its own type.", "quantifier": "all methods whose names are identifiers and whose types print on one line", "why_tests_cant": "The tests check one fixed method; the claim is about every arity, every type text and every variadic element type.", "anchors": ["generator/types.go:251-348"]}
{"id": "C61", "title": "A refused generation names its first cause", "statement": "NewGenerator returns an error exactly when one of the listed causes holds (template does not parse, source package does not load, no destination package name, no AST, target unresolvable, no methods, unexported method seen from another package), checked in that order, and the error text is that cause's text; resolution failures are 'target declaration not found', 'unknown selector' and 'embedded type is not an interface', prefixed by the name at fault.", "quantifier": "all options, packages, loader answers, map orders and template parsers", "why_tests_cant": "Tests provoke single errors; they cannot show there is no other cause, nor that the first one wins in every combination.", "anchors": ["generator/generator.go:164-263", "generator/generator.go:344-364", "generator/generator.go:587-615", "generator/generator.go:638-682"]}
{"id": "C62", "title": "Concurrent calls of generated pool, rate limit and circuit breaker methods behave as their transition systems", "statement": "For any number of concurrent calls of methods generated from the syncpool, robinpool, ratelimit and circuitbreaker templates, in any interleaving of their operations on the shared objects: each call plays the operation tree of the interpreted generated body; every execution is matched step by step by an execution of the hand-written transition system; hence on the events of the generated code itself: a pooled object is never held by two calls and is given back on return and panic; robinpool's counter makes calls go round the pool; at most burst + ticks calls reach the base of a rate limiter; the breaker's After check answers true exactly when the latest completed calls are at least max counted errors in a row, the last less than the interval ago; no deadlock; and every finished call is a run of the generated body with exactly its history.", "quantifier": "all numbers of calls, interleavings, methods, arguments, pool sizes, bursts, thresholds, intervals, clock readings and base behaviours", "why_tests_cant": "Tests run a few goroutines under a scheduler of the runtime's choice; the claim is about every interleaving and every history of errors, ticks and cancellations.", "anchors": ["templates/syncpool:1-32", "templates/robinpool:1-41", "templates/ratelimit:1-51", "templates/circuitbreaker:1-73"]}
{"id": "C63", "title": "Every generated method has the signature of a declaration in the method set", "statement": "Each method found for an interface is NewMethod of an interface element that declares it, in the interface itself or in one reached through embedding, definition or imports; its types are printed with the qualifier the declaring package goes by (the source package's name in the generated file, an imported package's own name); without generics its parameters and results are that element's, in order, with their printed types and variadicity.", "quantifier": "every well-formed package graph, interface and iteration order", "why_tests_cant": "Chains of embeddings and imports are unbounded; the tests embed at most a few interfaces.", "anchors": ["generator/generator.go:344-416", "generator/generator.go:470-664"]}
{"id": "C64", "title": "gen with a stock template: from the command line to the declarations", "statement": "If gowrap gen succeeds with a stock template (elasticapm apart), it has written one file, last of all, with what imports.Process made of the executed header followed by a body whose declarations give the decorator type every method of the interface's method set in the package named by -p, none twice, each with the signature of a declaration in the set; the body template never fails; and it does succeed whenever the flags are given, package, template and interface are found, the methods may be used, imports.Process accepts the source and the file can be written.", "quantifier": "every command line built from the documented spellings, every world of files and packages, every interface, every value of the variables", "why_tests_cant": "Tests run single commands on fixed packages; this quantifies over command lines, packages, templates and failures.", "anchors": ["cmd_generate.go:71-187", "generator/generator.go:164-340", "templates/"]}
{"id": "C65", "title": "A call of a generated fallback method behaves as the fallback transition system", "statement": "For every call of a method generated from the fallback template whose names avoid the template's identifiers, in every interleaving of its goroutines, ticks, cancellation and implementation answers, the statements executed are the ones the template produces; no goroutine panics; the execution is one of the hand-written transition system; the call returns either what an implementation returned without error, or the joined errors of all implementations after each has failed, or, the caller's context being done, the context's error; each implementation is called at most once, with the call's arguments and the derived context; goroutines are started in order, all but the first implementation's paid for by a tick or a failure; with a context the call is never stuck unless an implementation is running.", "quantifier": "all methods, arguments, numbers of implementations, intervals, schedules and implementation behaviours", "why_tests_cant": "Tests see a few schedules; the claim is about every interleaving of the goroutines the generated code starts, executed statement by statement.", "anchors": ["templates/fallback:1-106"]}
{"id": "C66", "title": "Fallback: no implementation is called once the call has returned", "statement": "After a call of a generated fallback method has returned, no implementation is called any more on its behalf.", "quantifier": "all methods, numbers of implementations and schedules", "why_tests_cant": "needs a tick or a failure that arrives together with the answer", "anchors": ["templates/fallback:27-67"]}
{"id": "C67", "title": "No field of a generated decorator has the name of one of its methods", "statement": "The struct that a stock template declares has no field, embedded ones included, with the name of a method of the decorated interface; Go rejects such a type, or the field hides the promoted method.", "quantifier": "all stock templates, all interfaces, all variables", "why_tests_cant": "the test interfaces have no method named like the interface or like a field of a template", "anchors": ["templates/retry:8-12", "templates/prometheus:13-16", "templates/circuitbreaker:10-18"]}
{"id": "C68", "title": "The declarations of generated files have different names", "statement": "A generated file declares no package-level name twice, and the files generated by stock templates into one package for decorators of different names (neither beginning with New or MustNew nor ending in Config) declare disjoint sets of package-level names.", "quantifier": "all pairs of stock templates, all interfaces and all values of the variables", "why_tests_cant": "tests generate each template once per package, with default names", "anchors": ["templates/twirp_error:33-44", "templates/prometheus:18-27", "templates/elasticapm:7-38"]}
{"id": "C69", "title": "Constructors build the decorators their fields describe", "statement": "Every constructor of a generated decorator (and every option constructor) terminates and returns a decorator whose fields hold the arguments given: the base, limits, intervals, loggers, span decorators, the implementations in order. Empty pools are refused with the documented error or panic. A fresh circuit breaker is closed with no errors counted, a fresh round robin pool starts at counter 0 with its length as the size, a fresh pool's channel holds every implementation once, and a fresh rate limiter has exactly burst tokens and one goroutine, which does what the model of the feeder does and nothing else. Options of elasticapm are applied in the order given.", "quantifier": "all stock templates with a constructor, all interface and decorator names, all arguments, all machine states before the call, all interleavings of the goroutine with ticks and receivers", "why_tests_cant": "the constructors are generated text; tests compare that text or call single instances of it, and start concurrent tests from whatever they build", "anchors": ["templates/ratelimit:14-34", "templates/elasticapm:23-57", "templates/robinpool:17-33", "templates/syncpool:10-21", "templates/circuitbreaker:23-30", "templates/fallback:11-20", "templates/retry:8-21"]}
{"id": "C70", "title": "Package qualifiers in interface definitions resolve to the packages Go resolves them to", "statement": "In a file whose imports resolve, a qualifier q that Go binds to package P is resolved by gowrap to P: for a type definition or alias 'type T q.S' findSourcePackage returns an import path loading P, and for an embedded q.S findImportPathForName returns an import path of P, whatever order the map of imports is visited in.", "quantifier": "all worlds, packages, files with imports bound to distinct names, qualifiers, and map iteration orders", "why_tests_cant": "findSourcePackage guesses a package's name from the last element of its path, and findImportPathForName takes the first package of the right name that a map iteration yields: tests with conventional paths and single packages always agree with Go.", "anchors": ["generator/generator.go:378", "generator/generator.go:418-436", "generator/generator.go:591-599", "generator/generator.go:668-682"]}
{"id": "C71", "title": "Interfaces are read from exactly the files Go builds the package from", "statement": "For a package loaded from a directory, pkg.AST yields precisely the files go list reports as the package's Go files: every file built is read, no test file, no file excluded by build constraints and no file the go tool ignores is, and such files cannot make it fail. Load returns the first package listed unless it has errors.", "quantifier": "all file systems, directories and their listings, package clauses, parse results, loaded packages", "why_tests_cant": "fixture directories hold only files that are built on every platform; parser.ParseDir differs from go list exactly on the other ones", "anchors": ["pkg/package.go:21-37", "pkg/package.go:40-56", "pkg/package.go:59-66"]}
{"id": "C72", "title": "Decorators of generic interfaces are generic", "statement": "For an interface with type parameters every stock template declares the decorator with those type parameters, so that the type parameters its methods mention are declared.", "quantifier": "all stock templates, all interfaces (names, methods, imports, variables), all type parameter lists", "why_tests_cant": "the tests of generics compare the strings given to templates, with a template written for the test; no stock template is run on a generic interface", "anchors": ["generator/generator.go:313-326", "generator/generics.go:50-86", "templates/"]}
{"id": "C73", "title": "The rate limiter's token period is 1/rps", "statement": "A rate limiting decorator made with rps calls a second puts a token into its channel every 10^9/rps nanoseconds: never more often than the rate allows, and it does get tokens whatever positive rate it was made with.", "quantifier": "all float64 values as rates (normal, subnormal, zero, negative, infinite, NaN), all bursts, all runs of the decorator's goroutine and its callers", "why_tests_cant": "a test can run a few rates for a few seconds; the rounding of the division and of the conversion to an integer must be followed for all 2^62 rates, and that no token ever comes needs an infinite wait", "anchors": ["templates/ratelimit:14-34"]}
{"id": "C74", "title": "Package names in generated signatures mean what they mean in the source", "statement": "Every package name that the types of a generated method mention has in the generated file the meaning it has in the file where the method is declared: exactly one package is imported there under that name, and it is that package. The package of an interface's own types is imported under the name they are qualified with.", "quantifier": "all packages, files and imports that Go accepts, all interfaces with all embedding chains, all stock templates, all map orders", "why_tests_cant": "the imports come from the file of the named interface and from the template, the signatures from any file of any package; examples do not range over the pairs", "anchors": ["generator/generator.go:208-225", "generator/generator.go:248", "generator/generator.go:265-276", "cmd_generate.go:312-315", "templates/"]}
{"id": "C75", "title": "Failures are reported with the text that describes them", "statement": "When gowrap fails, standard error receives exactly the text of the error (for wrong command lines followed by the hint how to get help) and a newline, and standard output receives nothing from main. A run that fails always prints something on standard error, a run that succeeds nothing.", "quantifier": "all argument lists, all errors the commands can return (all texts, all nestings of wrapped errors)", "why_tests_cant": "error texts contain file names, URLs and generated source; no test suite enumerates their texts, and a text with a percent sign is not an error case anybody writes down", "anchors": ["cmd/gowrap/gowrap.go:21-61", "cmd/gowrap/gowrap.go:63-87", "generator/generator.go:335"]}
{"id": "C76", "title": "The help texts describe what gowrap accepts", "statement": "gowrap help lists every command with its description. gowrap help gen describes every flag that gen accepts exactly once and no other: with its name, the text registered for it and, for flags with a value, one word for the value.", "quantifier": "all flag names; for the printing of flag sets: all sets of flags", "why_tests_cant": "that nothing else is accepted ranges over all names; printing and the registered texts are far apart in the code", "anchors": ["command.go:55-90", "cmd/gowrap/gowrap.go:63-87", "cmd_generate.go:51-65", "cmd_template.go:19-36"]}
{"id": "C77", "title": "Generated functions obey Go's rules for declarations and scope", "statement": "In every function of a file generated by a stock template, every name that is used is declared in an enclosing block, the file or the language; no block declares a name twice; every := declares a new variable; every variable is used; and no return without values is inside of a block that hides a result.", "quantifier": "all stock templates, all interfaces, all variables", "why_tests_cant": "the names of parameters and results are the user's; tests compile files for a few interfaces, and goimports repairs missing imports silently", "anchors": ["templates/", "generator/types.go:69-170"]}
{"id": "C78", "title": "go generate on a generated file writes the same file again", "statement": "If gowrap gen has written a file, running the file's go:generate directive in the file's directory, with nothing changed but the file being there, succeeds and writes the same bytes to the same file: whatever the directory, the form of the path, the kind of template (file, https URL or name) and the orders in which files, imports and maps are visited in either run.", "quantifier": "all command lines, interfaces, templates, working directories, output paths and package contents; all visiting orders", "why_tests_cant": "two runs in different directories and with different package contents (the generated file is now part of the package) have to agree; tests run gowrap once, with fixed loaders", "anchors": ["cmd_generate.go:67-220", "generator/generator.go:170-330", "generator/generator.go:390-690", "loader/loader.go:30-110", "pkg/package.go:18-66"]}
{"id": "C79", "title": "Generated functions are well typed", "statement": "In every function of a file generated by a stock template, every expression and statement obeys Go's typing rules: operands, arguments, assigned, sent and returned values have types that fit, fields and methods that are selected exist, calls have the right number of arguments and values, literals name existing fields once, and conversions and assertions are allowed, given the declarations of the file, the methods of the interface and the packages the template uses.", "quantifier": "all stock templates, all interfaces (numbers, names and types of parameters and results, variadic ones), all variables, all other declarations of the package", "why_tests_cant": "tests compile files for a few interfaces; whether a file compiles depends on the user's types and names (a parameter called time, a gin.Context, a package called impls)", "anchors": ["templates/", "generator/types.go:69-170"]}
{"id": "C80", "title": "Generated files of ordinary interfaces compile", "statement": "If the interface and its methods are exported, no method is called like the interface, no parameter or result has a name that the template uses in methods (those without names never do), a first parameter of a type called Context is a context.Context, and nothing in the source is generic, then the file that a successful run of gowrap gen with a stock template and the default decorator name hands to goimports obeys the rules of the Go compiler: no name is declared twice, no method is called like a field, the decorator has all methods of the interface, functions with results end in terminating statements, and every function obeys the rules of scope and types. elasticapm needs contexts in all methods; fallback needs one in methods that return errors, and result types that do not mention the names of its body.", "quantifier": "all stock templates, all packages, interfaces with any embedding, all command lines, working directories and outcomes of external operations", "why_tests_cant": "tests compile the output for one interface per template; this is for all interfaces at once, from the command line to the typed functions", "anchors": ["cmd_generate.go", "generator/generator.go", "generator/types.go:69-170", "templates/"]}
{"id": "C81", "title": "Calls of generated methods that run at the same time have no data races", "statement": "Any number of goroutines may call the methods of a decorator at the same time. Whatever the wrapped implementations and libraries answer and however the calls interleave, two accesses to the same field of the decorator, one of which writes, are ordered by the circuit breaker's lock; the other decorators change no field, except robinpool its counter, which only atomic.AddUint32 touches. Within a call of a fallback method no goroutine assigns a variable that another may use at the same time.", "quantifier": "all stock templates, all methods whose parameters and results do not have the names of the template's variables, any number of calls, all interleavings and all answers from outside", "why_tests_cant": "the tests call one method at a time; a race detector sees only the interleavings that happen to occur", "anchors": ["templates/circuitbreaker:36-71", "templates/fallback:25-104", "templates/robinpool:38-39", "templates/"]}
{"id": "C82", "title": "Circuit breaker calls never deadlock and leave no lock behind", "statement": "Any number of goroutines may call the methods of a circuit breaker at the same time. While the wrapped implementation runs, its call does not hold the decorator's lock, so the implementation may call the decorator again and may panic or block. A call that is over, by a result, a panic or a rejection, holds no lock. Whenever some call is neither over nor inside the implementation, one of these calls can go on. If implementations call the decorator again, to any depth, and return when these calls are over, then some call can go on as long as any is unfinished, also if a waiting writer stops new readers. Calls are finite: without new calls, every execution ends after at most eight steps of each call, and until then it can be continued to one in which all calls are over.", "quantifier": "all methods, any number of calls, all interleavings, all answers of the implementation, including panics and none at all, and panics of errors.Is", "why_tests_cant": "the tests call one method at a time, and a deadlock needs a particular interleaving", "anchors": ["templates/circuitbreaker:35-72"]}
{"id": "C83", "title": "Decorators swallow no panic and make up none", "statement": "Whatever the wrapped implementation and the libraries answer, a call of a generated method that returns was never answered by a panic or left waiting. A call that panics does so with the value of the last operation that panicked, or with one of Go's own errors: a nil pointer, a division by zero or an index out of range. If only the implementation panics, the caller gets its value, unless deferred code blocks or runs into one of Go's errors. A call that never ends waits for exactly one operation.", "quantifier": "all stock templates except fallback, which calls implementations in goroutines of their own; all methods, receivers, arguments and answers", "why_tests_cant": "the tests of the templates have implementations that return; panics in deferred code are hardly ever tried", "anchors": ["templates/"]}
{"id": "C84", "title": "Implementations in a pool may call the pool again", "statement": "The implementations a pool decorator (templates/syncpool) wraps may themselves call the pool. However calls are nested and interleaved, some call in progress can go on.", "quantifier": "all pool sizes, any number of calls, all nestings and interleavings", "why_tests_cant": "a deadlock needs as many nested calls in progress as there are implementations, and one more", "anchors": ["templates/syncpool:25-31"]}
{"id": "C85", "title": "A rate limited call ends when its context does", "statement": "A call of a rate limited method that takes a context stops waiting for a token when its context is done: it returns the context's error, takes no token and does not call the implementation.", "quantifier": "all bursts and rates, any number of concurrent calls, all interleavings of calls, ticks and cancellations", "why_tests_cant": "whether a token or the end of the context wins depends on the choice select makes", "anchors": ["templates/ratelimit:39-48"]}
{"id": "C86", "title": "Implementations may call their own rate limiter as long as ticks come", "statement": "The implementation behind a rate limiter may call the limiter again, to any depth, and return when these calls are over. If the delay between ticks is positive, then from every state that can be reached all calls made so far can come to their end, without any context being cancelled: no call waits for a token that only another waiting call could release. If the delay is not positive there are no ticks, and burst + 1 calls, each made by the implementation the one before is in, wait for ever: nothing can happen any more but new calls and cancelled contexts.", "quantifier": "all bursts and delays, any number of calls, any nesting, all interleavings", "why_tests_cant": "the tests use an implementation that does not call the decorator, and a deadlock needs as many nested calls as the burst", "anchors": ["templates/ratelimit:14-34", "templates/ratelimit:36-50"]}
