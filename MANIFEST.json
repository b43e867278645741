{
 "claims": [
  {
   "property": "C01",
   "status": "proved",
   "theorems": [
    "C01_names_distinct"
   ],
   "note": "For any oracle, printer and generic arguments."
  },
  {
   "property": "C02",
   "status": "proved",
   "theorems": [
    "C02_signature",
    "C02_arity",
    "C02_only_methods"
   ],
   "note": "Type strings are the printer's output after whole-string type-parameter instantiation."
  },
  {
   "property": "C03",
   "status": "proved",
   "theorems": [
    "C03_call"
   ],
   "note": "Stated by reading the call string back with an independent parser."
  },
  {
   "property": "C04",
   "status": "proved",
   "theorems": [
    "C04_err",
    "C04_ctx",
    "C04_no_other_panic",
    "C04_empty_results_refuted"
   ],
   "note": "Boundary shown: an explicit empty result list panics."
  },
  {
   "property": "C05",
   "status": "proved",
   "theorems": [
    "C05_fresh",
    "C05_fuel"
   ],
   "note": ""
  },
  {
   "property": "C06",
   "status": "partial",
   "theorems": [
    "C06_usable_names_partial",
    "C06_refuted",
    "C06_nonascii_refuted"
   ],
   "note": "False as stated: blank parameters and non-ASCII type names; proved otherwise."
  },
  {
   "property": "C07",
   "status": "proved",
   "theorems": [
    "C07_user_names",
    "C07_user_names_exact",
    "C07_ctx_placeholder_refuted"
   ],
   "note": "Exact list of reasons for losing a name."
  },
  {
   "property": "C08",
   "status": "proved",
   "theorems": [
    "C08_qualified",
    "C08_fails_iff_unexported",
    "C08_exported_ascii",
    "C08_same_package"
   ],
   "note": "Boundary shown: type parameter with the name of a local type."
  },
  {
   "property": "C09",
   "status": "partial",
   "theorems": [
    "C09_partial",
    "C09_variadic_partial",
    "C09_unambiguous",
    "C09_nothing_lost_partial",
    "C09_tags_refuted",
    "C09_parentheses_refuted",
    "C09_channels_refuted"
   ],
   "note": "Reading the printed text with a lexer and recursive descent parser written from the Go specification gives the declared type with source-package names qualified, for all nestings of names, pointers, arrays, slices, maps, channels, functions (grouped, anonymous, variadic parameters), structs and instantiated types; a text reads as one type at most, so printing is injective up to comments and tags. Missing: parenthesised types, interface literals with elements and computed array lengths, which go/printer prints. Refuted: struct tags are lost; parenthesised types keep unqualified names."
  },
  {
   "property": "C10",
   "status": "proved",
   "theorems": [
    "C10_no_memory"
   ],
   "note": ""
  },
  {
   "property": "C11",
   "status": "partial",
   "theorems": [
    "C11_tags_refuted",
    "C11_tags_dropped_refuted",
    "C11_lengths_unqualified_refuted",
    "C11_interfaces_unqualified_refuted"
   ],
   "note": "False of the code; each failure proved with witnesses."
  },
  {
   "property": "C12",
   "status": "partial",
   "theorems": [
    "C12_method_set_partial",
    "C12_no_duplicates",
    "C12_refuted",
    "C12_unresolved_dropped_refuted",
    "C12_wrong_file_imports_refuted",
    "C12_error_refuted",
    "C12_dot_import_refuted"
   ],
   "note": "Exact for well-formed packages (qualifiers consistent across files, definitions resolvable, no embedded error or dot-imported interfaces); five classes of counterexample proved."
  },
  {
   "property": "C13",
   "status": "proved",
   "theorems": [
    "C13_own_declaration_wins",
    "C13_first_embedded_wins",
    "C13_no_loss_no_invention"
   ],
   "note": ""
  },
  {
   "property": "C14",
   "status": "proved",
   "theorems": [
    "C14_order_irrelevant",
    "C14_duplicate_types_refuted",
    "C14_duplicate_packages_refuted"
   ],
   "note": "Needs also unique names of imported packages; both boundary cases proved."
  },
  {
   "property": "C15",
   "status": "partial",
   "theorems": [
    "C15_terminates_partial",
    "C15_refuted"
   ],
   "note": "Non-recursive declarations; self-instantiating interfaces diverge."
  },
  {
   "property": "C16",
   "status": "partial",
   "theorems": [
    "C16_whole_types_partial",
    "C16_parameter_replaced_partial",
    "C16_refuted",
    "C16_nested_refuted"
   ],
   "note": "Only whole-type occurrences are substituted, and not through two levels."
  },
  {
   "property": "C17",
   "status": "proved",
   "theorems": [
    "C17_generics_strings",
    "C17_params_read_back"
   ],
   "note": ""
  },
  {
   "property": "C18",
   "status": "partial",
   "theorems": [
    "C18_constraints_partial",
    "C18_refuted",
    "C18_dropped_refuted"
   ],
   "note": "Identifier, selector, union constraints; others lost or unqualified."
  },
  {
   "property": "C19",
   "status": "partial",
   "theorems": [
    "C19_exported_partial",
    "C19_exported_ascii",
    "C19_method_set_partial",
    "C19_empty_rejected",
    "C19_unexported_rejected",
    "C19_accepted",
    "C19_title_case_refuted",
    "C19_foreign_refuted"
   ],
   "note": "Proved outright for names starting with an ASCII byte and, given that the Unicode tables map only upper-case letters to something else, for all names; title-case letters break that assumption (C19_title_case_refuted). Embedded foreign unexported methods pass when source and destination package agree (C19_foreign_refuted)."
  },
  {
   "property": "C20",
   "status": "proved",
   "theorems": [
    "C20_import_block",
    "C20_order_irrelevant",
    "C20_read_back"
   ],
   "note": "Spec: lexicographic order, trimming and quoting relations in NewGenSpec.v. TrimSpace is modelled for ASCII white space."
  },
  {
   "property": "C21",
   "status": "partial",
   "theorems": [
    "C21_panics_exactly_partial",
    "C21_source_imports",
    "C21_blank_refuted",
    "C21_alias_refuted"
   ],
   "note": "The claim is false of the code: a blank non-empty template import panics and an aliased template import is corrupted. Proved: it panics exactly for blank non-empty strings; imports from the source file keep their text."
  },
  {
   "property": "C22",
   "status": "proved",
   "theorems": [
    "vars_last_wins",
    "vars_map_functional",
    "parse_command_line"
   ],
   "note": "vars.Set/toMap against a specification by 'last assignment'; parse_command_line ties it to the flag package's parsing of every sequence of string flags (-x v, -x=v, --x v, --x=v). Template lookup of .Vars is by this map."
  },
  {
   "property": "C23",
   "status": "partial",
   "theorems": [
    "directive_reproduces_partial",
    "directive_words",
    "relative_template",
    "directive_template",
    "directive_refuted",
    "C23_refuted",
    "http_template_refuted"
   ],
   "note": "Round trip through go generate's splitting, os.Expand and the gen flag set for all arguments without blanks, line ends, leading quotes and dollar signs; the relative template path leads back to the same file from the output directory. The claim as worded is false for arguments with a dollar sign (C23_refuted) and the -t of http:// templates is wrong (http_template_refuted). That imports.Process keeps the comment line is not modelled."
  },
  {
   "property": "C24",
   "status": "proved",
   "theorems": [
    "run_nothing_written",
    "run_prepared",
    "run_done_iff"
   ],
   "note": "Run over an arbitrary world: no MkdirAll/WriteFile unless parsing, checks, loading, NewGenerator, template execution and import processing succeeded, then exactly these two in this order. packages.Load, body template execution and imports.Process are oracles; partially written files (os.WriteFile failing half way) are outside the model."
  },
  {
   "property": "C25",
   "status": "proved",
   "theorems": [
    "load_readable",
    "load_unreadable",
    "load_url",
    "load_file_url",
    "load_github",
    "load_github_errors"
   ],
   "note": "Exact requests of every load, for every server and file system (functions of the history). A URL that http.NewRequest rejects causes no request at all. JSON decoding is an oracle."
  },
  {
   "property": "C26",
   "status": "proved",
   "theorems": [
    "get_ok_iff",
    "get_status",
    "get_errors",
    "responses_closed_once"
   ],
   "note": "Exactly one close per response, directly after it was obtained or read; contents without error iff status 200, read ok, close ok."
  },
  {
   "property": "C27",
   "status": "proved",
   "theorems": [
    "list_exact",
    "list_errors"
   ],
   "note": "List against an inductive specification of the listed names. Tree entries that are directories are listed as well (the code ignores the entry type; so does the claim)."
  },
  {
   "property": "C28",
   "status": "partial",
   "theorems": [
    "exit_codes_partial",
    "asks_total",
    "exit_zero_iff",
    "lone_dashes_refuted",
    "usage_status_refuted",
    "help_write_refuted"
   ],
   "note": "All argument vectors and outcomes with working standard streams; exit_zero_iff holds for all streams. False parts: a broken stderr turns 2 into 1, failing to print help gives 2, and a lone -- panics (status 2 from the runtime)."
  },
  {
   "property": "C29",
   "status": "proved",
   "theorems": [
    "snake_exact",
    "snake_properties",
    "snake_raw_exact"
   ],
   "note": "toSnakeCase's two regular expressions are executed as leftmost non-overlapping replacement and shown equal to a one-pass specification of where underscores go (all byte strings before lowering, ASCII after); no capitals, equality modulo underscores and idempotence follow. strings.ToLower outside ASCII is an arbitrary function."
  },
  {
   "property": "C30",
   "status": "partial",
   "theorems": [
    "first_letter_partial",
    "first_rune_cases",
    "upFirst_valid",
    "downFirst_valid",
    "upFirst_invalid",
    "upFirst_refuted"
   ],
   "note": "True for the empty string and every string whose first rune is validly encoded; every other string starts with an invalid byte, for which the claim is false: two further bytes are lost, or the call panics when fewer than three bytes are there (upFirst_refuted)."
  },
  {
   "property": "C31",
   "status": "partial",
   "theorems": [
    "C31_implements_partial",
    "C31_elasticapm_partial",
    "C31_elasticapm_refuted"
   ],
   "note": "Proved for 17 of the 18 stock templates and all interfaces, on the tokens the template text generates. elasticapm: proved when every method takes a context; the unrestricted statement is refuted (methods without context are neither generated nor promoted)."
  },
  {
   "property": "C32",
   "status": "proved",
   "theorems": [
    "C32_open_exactly",
    "C32_one_base_call",
    "C32_no_deadlock"
   ],
   "note": "Labelled transition system of any number of concurrent calls (read lock, check, base, write lock, update); rejection characterised over the completed-call history; rejected calls never reach the base; also deadlock freedom."
  },
  {
   "property": "C33",
   "status": "proved",
   "theorems": [
    "C33_passes_after_interval",
    "C33_trips_again",
    "C33_success_closes",
    "C33_stays_open_refuted"
   ],
   "note": "Corollaries over traces; the stronger reading 'once open it stays open for openInterval' is refuted by an in-flight success."
  },
  {
   "property": "C34",
   "status": "proved",
   "theorems": [
    "C34_answer",
    "C34_all_called",
    "C34_returns_once",
    "C34_answer_no_error"
   ],
   "note": "Transition system of one call (caller, launcher, n implementation goroutines, ticker, contexts); answers characterised over execution traces."
  },
  {
   "property": "C35",
   "status": "partial",
   "theorems": [
    "C35_launch_order",
    "C35_called_once",
    "C35_paid",
    "C35_called_in_order_refuted"
   ],
   "note": "Goroutines are launched in list order, each implementation is called at most once and launches beyond the first are paid for by ticks or failures; the order in which launched goroutines actually call their implementation is up to the scheduler, so that reading is refuted."
  },
  {
   "property": "C36",
   "status": "proved",
   "theorems": [
    "C36_send_never_blocks",
    "C36_no_deadlock",
    "C36_bounded",
    "C36_no_implementations",
    "C36_interval"
   ],
   "note": "Deadlock freedom plus a bound on the number of steps; with no implementations the call waits for its context; non-positive interval panics."
  },
  {
   "property": "C37",
   "status": "partial",
   "theorems": [
    "C37_refuted",
    "C37_partial"
   ],
   "note": "False of the code: an answer given before the caller reaches its receive is dropped by the select default. Proved: an answer arriving while the caller waits cannot be dropped and is returned."
  },
  {
   "property": "C38",
   "status": "partial",
   "theorems": [
    "C38_refuted",
    "C38_impls_partial",
    "C38_launcher_partial"
   ],
   "note": "False of the code: the launcher goroutine leaks after an early answer. Proved: implementation goroutines never leak, and neither does the launcher when all implementations failed."
  },
  {
   "property": "C39",
   "status": "partial",
   "theorems": [
    "C39_retry_trace",
    "C39_retry_attempts_partial",
    "C39_interval_refuted"
   ],
   "note": "Proved for every method shape, retry count, outcome sequence and cancellation point, over an arbitrary outside world: exact trace (retry_call) and its consequences. Refuted part: a non-positive interval makes time.NewTicker panic after a first failure, so the call has no result."
  },
  {
   "property": "C40",
   "status": "partial",
   "theorems": [
    "C40_since_construction",
    "C40_window_tokens",
    "C40_window_starts",
    "C40_token_conservation",
    "C40_story",
    "C40_no_starvation",
    "C40_nonpositive_delay",
    "C40_constructor",
    "C40_window_starts_all_refuted"
   ],
   "note": "Window bound proved for tokens taken and for base calls of calls made in the window; refuted for all base calls started in a window (a caller may be delayed between taking its token and calling the base)."
  },
  {
   "property": "C41",
   "status": "partial",
   "theorems": [
    "C41_refuted",
    "C41_partial",
    "C41_fresh_partial"
   ],
   "note": "False of the code: after idling burst+2 calls go through back to back (full buffer, feeder holding a tick, one pending tick). Proved with burst+2, and with burst before the first tick."
  },
  {
   "property": "C42",
   "status": "proved",
   "theorems": [
    "C42_constructors",
    "C42_in_bounds",
    "C42_cyclic",
    "C42_fair",
    "C42_cyclic_forever",
    "C42_cyclic_refuted"
   ],
   "note": "Fairness proved for the first 2^32-1 tickets and for ever when the pool size divides 2^32; refuted at the wrap-around otherwise."
  },
  {
   "property": "C43",
   "status": "proved",
   "theorems": [
    "C43_constructor",
    "C43_exclusive",
    "C43_never_shared",
    "C43_return_never_blocks",
    "C43_waits_only_if_busy",
    "C43_never_lost",
    "C43_story"
   ],
   "note": "Conservation invariant over any number of concurrent calls, including panicking ones."
  },
  {
   "property": "C44",
   "status": "proved",
   "theorems": [
    "C44_timeout"
   ],
   "note": "For every method with a context, every timeout and every base behaviour (result, panic, never returning): the deadline the base's context has is the earlier of the caller's and now+timeout, the context is cancelled after the base call and not before, the caller's context is not; without a positive timeout the caller's context is passed on unchanged. Context library reduced to WithTimeout and cancel functions as read off the trace; names of the method assumed not to clash with context/cancelFunc (see C51)."
  },
  {
   "property": "C45",
   "status": "proved",
   "theorems": [
    "C45_validation"
   ],
   "note": "Exact trace of a call for all three templates (validate, twirp_validate, grpc_validate), every signature, argument list and behaviour of Validate/base. Elements of a variadic argument are not validated (the argument is the slice), see C45_variadic_not_validated. Names assumed not to clash with the identifiers of the body (see C51)."
  },
  {
   "property": "C46",
   "status": "partial",
   "theorems": [
    "C46_annotates_partial",
    "C46_no_argument_refuted"
   ],
   "note": "Proved of the executed twirp_error body, tied token by token to the template, for every method with at least one non-context argument, in every world answering as the twirp helper does: nil stays nil, otherwise the error becomes a twirp error carrying the request metadata of the first non-context argument. Refuted for methods without such an argument, whose errors are passed through without annotation."
  },
  {
   "property": "C47",
   "status": "proved",
   "theorems": [
    "C47_log",
    "C47_logrus",
    "log_generated",
    "logrus_generated"
   ],
   "note": "Per-call traces of the bodies that log_generated and logrus_generated show to be the generated ones: exactly one message before and one after the base call, with the method's name, parameters and results; the second at the error sink iff a non-nil error was returned; results and panics pass through. Assumes the loggers return. Fields and sinks are references to the outside."
  },
  {
   "property": "C48",
   "status": "proved",
   "theorems": [
    "C48_prometheus",
    "prometheus_generated"
   ],
   "note": "Exactly one observation, after the base call, labelled with instance, method name and error/ok; the value is Seconds(Since(t)) for the t taken before the call. Assumes the functions of time and of the summary return. A panicking base is recorded as ok, which the statement allows."
  },
  {
   "property": "C49",
   "status": "partial",
   "theorems": [
    "C49_opencensus_partial",
    "C49_opentelemetry_partial",
    "C49_opentracing_partial",
    "C49_elasticapm_partial",
    "C49_error_text_panics_refuted"
   ],
   "note": "Proved for calls during which every operation other than the base call returns. Without that it is false: the deferred function reads err.Error() (or calls the span decorator) before it ends the span, so a panic there leaves the span open (C49_error_text_panics_refuted, C49_decorator_panics)."
  },
  {
   "property": "C50",
   "status": "partial",
   "theorems": [
    "C50_log",
    "C50_logrus",
    "C50_prometheus",
    "C50_timeout",
    "C50_syncpool",
    "C50_robinpool",
    "C50_opencensus_partial",
    "C50_opentelemetry_partial",
    "C50_opentracing_partial",
    "C50_elasticapm_partial",
    "C50_error_text_panics_refuted"
   ],
   "note": "For log, logrus, prometheus, timeout, syncpool and robinpool: one call of the method with the caller's arguments (but for the derived context) and the same end, for every signature and base behaviour. The tracing decorators need the calls of the tracing library and of err.Error() to return; without that the statement is false (witness: an error whose Error method panics). The helpers (loggers, summary, clock, context.WithTimeout, channel, counter) are assumed to return."
  },
  {
   "property": "C51",
   "status": "partial",
   "theorems": [
    "C51_partial",
    "C51_elasticapm_partial",
    "C51_renaming_exists",
    "C51_only_written_names",
    "C51_time_refuted",
    "C51_retry_refuted",
    "C51_breaker_refuted",
    "C51_timeout_refuted",
    "C51_opencensus_refuted",
    "C51_opentelemetry_refuted",
    "C51_opentracing_refuted",
    "C51_robinpool_refuted"
   ],
   "note": "Renaming parameters and results by any injective renaming that spares the identifiers listed for a template gives the same outcome and the same questions to the outside (16 templates; elasticapm for results only; fallback not covered). Any two hygienic choices of names are such a renaming apart. Names made up by NewMethod never clash; names written by the user do: refuted with parameters called time, context, trace, otel, opentracing, atomic."
  },
  {
   "property": "C52",
   "status": "partial",
   "theorems": [
    "C52_imports_partial",
    "C52_prefix_exact_partial",
    "C52_prefix_same_partial",
    "C52_prefix_serial_partial",
    "C52_imports_refuted",
    "C52_prefix_refuted"
   ],
   "note": "False in general (both refutations). Proved for shared slices without spare capacity, for every interleaving; for LocalPrefix the exact condition, equal prefixes and serial runs."
  },
  {
   "property": "C53",
   "status": "partial",
   "theorems": [
    "C53_package_name",
    "C53_no_name",
    "C53_every_path",
    "C53_dotdot_refuted"
   ],
   "note": "Proved for every output path that does not leave the working directory through '..'; there the directory name is taken to be '..' (refuted)."
  },
  {
   "property": "C54",
   "status": "proved",
   "theorems": [
    "copy_writes_after_load",
    "copy_usage"
   ],
   "note": "template copy writes the destination exactly once and only after a successful load."
  },
  {
   "property": "C55",
   "status": "partial",
   "theorems": [
    "C55_terminating_partial",
    "C55_elasticapm_partial",
    "C55_fallback_partial",
    "C55_fallback_refuted"
   ],
   "note": "Proved for all stock templates except fallback's error-returning methods without context, for which the unrestricted statement is refuted: the generated body ends in an append statement inside a plain loop and Go reports a missing return. elasticapm with its own restriction (C31)."
  },
  {
   "property": "C56",
   "status": "proved",
   "theorems": [
    "C56_flags",
    "C56_unknown",
    "C56_no_value",
    "C56_bad_bool"
   ],
   "note": "Go's flag package is modelled (FlagSet.parseOne); the text of the boolean error is shortened."
  },
  {
   "property": "C57",
   "status": "proved",
   "theorems": [
    "C57_required",
    "C57_wrong_flags",
    "C57_default_package"
   ],
   "note": "For every world; the flags are read off the command line by an independent specification."
  },
  {
   "property": "C58",
   "status": "proved",
   "theorems": [
    "C58_source",
    "C58_header"
   ],
   "note": "The header template's text is verbatim and executed by the text/template model; imports.Process and the body are parameters."
  },
  {
   "property": "C59",
   "status": "proved",
   "theorems": [
    "C59_list",
    "C59_subcommands",
    "C59_copy"
   ],
   "note": "Errors of writing to standard output are dropped by the code and not modelled."
  },
  {
   "property": "C60",
   "status": "proved",
   "theorems": [
    "C60_params_struct",
    "C60_ptrs_struct",
    "C60_results_struct",
    "C60_maps",
    "C60_names",
    "C60_return",
    "C60_variadic",
    "C60_params_pass",
    "C60_params_pass_cons"
   ],
   "note": "Read back by a small reader of struct types, map literals and return statements; hypotheses: identifiers as names, types printing on one line; C60_variadic discharges the shape of variadic types for every method made by NewMethod with the package's printer; ParamsSlice.Pass is what Call puts between its parentheses."
  },
  {
   "property": "C61",
   "status": "proved",
   "theorems": [
    "C61_target_not_found",
    "C61_unknown_package",
    "C61_not_an_interface",
    "C61_refused",
    "C61_causes"
   ],
   "note": "Exhaustive list of causes with literal texts; both directions; panics and non-termination are separate outcomes (C15, C19)."
  },
  {
   "property": "C62",
   "status": "proved",
   "theorems": [
    "C62_breaker_call",
    "C62_breaker",
    "C62_breaker_open",
    "C62_breaker_closed",
    "C62_breaker_finished",
    "C62_breaker_no_deadlock",
    "C62_breaker_is_run",
    "C62_ratelimit_call",
    "C62_ratelimit",
    "C62_ratelimit_since_construction",
    "C62_ratelimit_base_calls",
    "C62_ratelimit_window",
    "C62_ratelimit_story",
    "C62_ratelimit_is_run",
    "C62_robinpool_call",
    "C62_robinpool",
    "C62_robinpool_target",
    "C62_robinpool_fair",
    "C62_robinpool_finished",
    "C62_robinpool_is_run",
    "C62_syncpool_call",
    "C62_syncpool",
    "C62_syncpool_exclusive",
    "C62_syncpool_never_shared",
    "C62_syncpool_give_back",
    "C62_syncpool_waits",
    "C62_syncpool_finished",
    "C62_syncpool_is_run"
   ],
   "note": "Shared objects answer as specified (RWMutex, sync.Pool-like channel, atomic counter, ticker, clock, errors.Is a fixed function that does not panic); the rate limiter's feeding goroutine is an environment step; operations are the atomic steps. C62_*_is_run: every finished call is a run of the generated body."
  },
  {
   "property": "C63",
   "status": "proved",
   "theorems": [
    "C63_declared",
    "C63_sourced",
    "C63_signature"
   ],
   "note": "Package graphs as in C12 (well_formed). With generics the type arguments substituted are not described here (C16)."
  },
  {
   "property": "C64",
   "status": "proved",
   "theorems": [
    "C64_body",
    "C64_success",
    "C64_succeeds"
   ],
   "note": "template_package: text/template does what Tmpl.v says where Tmpl.v says something. Package graphs as in C12. imports.Process is an arbitrary function; elasticapm is left out because it skips methods without a context (C31)."
  },
  {
   "property": "C65",
   "status": "proved",
   "theorems": [
    "C65_body",
    "C65_no_panic",
    "C65_simulated",
    "C65_answer",
    "C65_calls",
    "C65_launches",
    "C65_no_deadlock",
    "C65_no_context_refuted"
   ],
   "note": "Machine of goroutines, channels, contexts and tickers (Goroutines.v) running the statements whose tokens the template produces; every execution is simulated by the transition system of Fallback.v. Methods that return an error without taking a context do not compile (C55) and are excluded. C65_no_context_refuted: without a context the call can be stuck, as in C37."
  },
  {
   "property": "C66",
   "status": "partial",
   "theorems": [
    "C66_refuted",
    "C66_done_partial"
   ],
   "note": "False: a tick or failure pending at the return makes the launcher start the next implementation afterwards (C66_refuted). True: with a context, such a call gets a context that is done."
  },
  {
   "property": "C67",
   "status": "partial",
   "theorems": [
    "C67_fields_partial",
    "C67_elasticapm_partial",
    "C67_exported_partial",
    "C67_refuted",
    "C67_unexported_refuted"
   ],
   "note": "false as stated (two witnesses); proved: every field is unexported or named as the interface, so exported methods not named as the interface clash with none"
  },
  {
   "property": "C68",
   "status": "partial",
   "theorems": [
    "C68_names",
    "C68_within_partial",
    "C68_apart_partial",
    "C68_elasticapm_names",
    "C68_elasticapm_partial",
    "C68_within_refuted",
    "C68_apart_refuted",
    "C68_prometheus_refuted"
   ],
   "note": "exact package-level names for every template; within one file and between files of different decorators proved except for the refuted templates"
  },
  {
   "property": "C69",
   "status": "proved",
   "theorems": [
    "C69_declared",
    "C69_embedded_name",
    "C69_retry",
    "C69_timeout",
    "C69_validate",
    "C69_logrus",
    "C69_prometheus",
    "C69_log",
    "C69_tracing",
    "C69_circuitbreaker",
    "C69_fallback",
    "C69_robinpool_empty",
    "C69_robinpool",
    "C69_robinpool_must_empty",
    "C69_robinpool_must",
    "C69_syncpool_empty",
    "C69_syncpool",
    "C69_ratelimit_negative",
    "C69_ratelimit",
    "C69_ratelimit_starts",
    "C69_feeder",
    "C69_feeder_keeps_up",
    "C69_syncpool_starts",
    "C69_robinpool_starts",
    "C69_robinpool_must_starts",
    "C69_breaker_starts",
    "C69_with_label",
    "C69_with_type",
    "C69_elasticapm",
    "C69_end_span",
    "C69_capture_error",
    "C69_set_label"
   ],
   "note": "Hypotheses: an embedded interface is a field called by its name (C69_embedded_name) and is not called like another field of the decorator (C67 has the counterexample); burst below the loop bound of the interpreter, which is arbitrary. The conversion of floats outside int64 to time.Duration is a parameter. All 18 stock templates (validate, twirp_validate, grpc_validate and twirp_error have the same constructor: C69_validate)."
  },
  {
   "property": "C70",
   "status": "partial",
   "theorems": [
    "C70_first_match",
    "C70_defined_partial",
    "C70_embedded_partial",
    "C70_version_refuted",
    "C70_other_package_refuted",
    "C70_same_name_refuted"
   ],
   "note": "False in general: refuted for packages whose name is not the last path element (e.g. gopkg.in/yaml.v2) and for two imported packages of one name. Proved when unnamed imports follow the convention (definitions) and when the name is given in the file or unique among the package's imports (embedding); findSourcePackage characterised exactly."
  },
  {
   "property": "C71",
   "status": "partial",
   "theorems": [
    "C71_load",
    "C71_ast",
    "C71_complete",
    "C71_exact_partial",
    "C71_declared_partial",
    "C71_constraints_refuted",
    "C71_test_file_refuted",
    "C71_ignored_file_refuted"
   ],
   "note": "False in general: ParseDir reads every .go file of the directory, so test files and files excluded by build constraints are read and ignored broken files make it fail. Proved: AST exactly; nothing built is missed; exact when the .go files of the package are all built and every .go file parses."
  },
  {
   "property": "C72",
   "status": "partial",
   "theorems": [
    "C72_generics_ignored",
    "C72_plain",
    "C72_refuted"
   ],
   "note": "False of the code, for every stock template: type parameters are ignored and the decorator is declared without them (elasticapm for interfaces whose contexts are first parameters)."
  },
  {
   "property": "C73",
   "status": "partial",
   "theorems": [
    "C73_delay",
    "C73_too_fast",
    "C73_whole",
    "C73_period_partial",
    "C73_starves",
    "C73_slow",
    "C73_negative",
    "C73_special",
    "C73_ticks_amd64",
    "C73_slow_arm64",
    "C73_some_tick_arm64",
    "C73_no_rate_starves",
    "C73_never_faster_refuted",
    "C73_always_ticks_refuted",
    "C73_slow_refuted"
   ],
   "note": "The delay for every float64 rate: within the rounding of one division of 10^9/rps wherever that fits an int64, exact for whole rates. False as stated: the delay is rounded down (never_faster), rates above 10^9 get no token after the burst (always_ticks), nor, on amd64, rates whose period does not fit an int64 (slow_refuted)."
  },
  {
   "property": "C74",
   "status": "partial",
   "theorems": [
    "C74_scope_partial",
    "C74_plain_partial",
    "C74_template_imports",
    "C74_elasticapm_imports",
    "C74_other_file_refuted",
    "C74_alias_refuted",
    "C74_template_clash_refuted"
   ],
   "note": "False in general: refuted for embedded interfaces of other files, for packages imported under another name and for packages with the name of one the template imports. Proved when the declaring file imports no more than the interface's file and no name is also the template's; import lists of all stock templates computed."
  },
  {
   "property": "C75",
   "status": "partial",
   "theorems": [
    "C75_reported_partial",
    "C75_command_line",
    "C75_doubled",
    "C75_verb",
    "C75_ending",
    "C75_never_silent",
    "C75_file_name_refuted",
    "C75_source_refuted",
    "C75_topic_refuted"
   ],
   "note": "False for texts with a percent sign, which die uses as a format (three witnesses); proved for all others, for all wrong command lines, and that a run fails exactly when it prints to standard error."
  },
  {
   "property": "C76",
   "status": "partial",
   "theorems": [
    "C76_read",
    "C76_plain",
    "C76_flags",
    "C76_described_partial",
    "C76_template_flag_refuted",
    "C76_commands"
   ],
   "note": "Proved but for the description of -t, whose back-quoted words package flag takes for the name of the value (refuted)."
  },
  {
   "property": "C77",
   "status": "partial",
   "theorems": [
    "C77_code",
    "C77_scoped_partial",
    "C77_well_named",
    "C77_imports_refuted",
    "C77_locals_refuted",
    "C77_options_refuted"
   ],
   "note": "Proved for all stock templates, all interfaces and all variables, of methods as NewMethod makes them whose names differ from the names the body declares (listed), decorators not called _, and elasticapm decorators whose option type is declared; fallback and twirp_error given context and json, which goimports (not modelled) imports. Without each of these the statement is refuted."
  },
  {
   "property": "C78",
   "status": "partial",
   "theorems": [
    "C78_regenerates_partial",
    "C78_embedded_package_refuted",
    "C78_destination_refuted",
    "C78_http_template_refuted",
    "C78_dollar_refuted"
   ],
   "note": "Proved for two whole runs, all orders and working directories, when the directive's words are plain, the template is no http URL, the destination package loads in the second run, and the generated file's declarations and imports do not change what the names in the interface mean. Each of these conditions is needed: four witnesses in which the second run fails or writes another file."
  },
  {
   "property": "C79",
   "status": "partial",
   "theorems": [
    "C79_typed_partial",
    "C79_marks",
    "C79_context_refuted",
    "C79_hidden_refuted",
    "C79_decorator_refuted",
    "C79_field_refuted",
    "C79_package_refuted",
    "C79_result_refuted"
   ],
   "note": "The full statement (C79_statement) is false: any type called Context counts as a context (C79_context_refuted: Do(c gin.Context) with timeout), parameters hide packages and predeclared names the body uses (C79_hidden_refuted: a parameter called time with retry; C79_result_refuted: user string with a result user.User in fallback), a DecoratorName may be that of a constructor's parameter (C79_decorator_refuted), an interface may be called like a field (C79_field_refuted), and the interface's package like a constructor's parameter (C79_package_refuted). Proved outside of these. Simplified: the text of a type of the interface is one token and is the same type wherever its identifiers mean the same; signatures of library packages are taken from their documentation; the initializer of prometheus's variable is not typed; packages the templates do not import (context in fallback, encoding/json in twirp_error) are assumed to be found by goimports; results hidden at a return are C77's."
  },
  {
   "property": "C80",
   "status": "proved",
   "theorems": [
    "C80_compiles",
    "C80_unnamed",
    "C80_run"
   ],
   "note": "The rules of C31, C55, C67, C68, C77 and C79 together, under conditions on the source; each condition is needed (refutations of those claims). What goimports does afterwards (removing unused imports, adding context and encoding/json) is not modelled; simplifications as in C77 and C79."
  },
  {
   "property": "C81",
   "status": "proved",
   "theorems": [
    "C81_circuitbreaker",
    "C81_circuitbreaker_executions",
    "C81_unshared",
    "C81_fields",
    "C81_breaker_fields",
    "C81_fallback",
    "C81_names_refuted"
   ],
   "note": "circuitbreaker and the 16 other templates on all interleavings of calls; fallback by a static condition on the variables its goroutines share, refuted without the condition on names by a parameter called _i; objects outside the decorator are outside"
  },
  {
   "property": "C82",
   "status": "proved",
   "theorems": [
    "C82_implementation",
    "C82_released",
    "C82_no_deadlock",
    "C82_nested",
    "C82_finite",
    "C82_finishes"
   ],
   "note": "for templates/circuitbreaker, the only stock template with a lock"
  },
  {
   "property": "C83",
   "status": "proved",
   "theorems": [
    "C83_no_recover",
    "C83_not_swallowed",
    "C83_not_invented",
    "C83_reaches",
    "C83_blocked",
    "C83_same_value_refuted"
   ],
   "note": "For the 17 templates without goroutines. The stronger reading, that the caller always gets the value the implementation panicked with, is refuted: a deferred call that panics replaces it."
  },
  {
   "property": "C84",
   "status": "partial",
   "theorems": [
    "C84_few",
    "C84_flat",
    "C84_nested_refuted",
    "C84_finite",
    "C84_few_finish"
   ],
   "note": "False of the code: n+1 calls nested in each other exhaust a pool of n implementations and wait for ever, for every n. Proved: with at most n calls in progress, however nested, or with no nested calls at all, some call can go on."
  },
  {
   "property": "C85",
   "status": "partial",
   "theorems": [
    "C85_stops",
    "C85_cancelled",
    "C85_no_token",
    "C85_not_called_refuted",
    "C85_no_error_refuted"
   ],
   "note": "False of the code in two ways: a call whose context is done may still take a token and call the implementation, and methods without an error ignore the context while waiting. Proved: methods with context and error can always stop at once, and then took no token and did not call the implementation; with no token to take they end in no other way."
  },
  {
   "property": "C86",
   "status": "proved",
   "theorems": [
    "C86_finish",
    "C86_without_ticks"
   ],
   "note": "for templates/ratelimit"
  }
 ]
}
