-Q theories Verif
theories/GoStr.v
theories/Utf8.v
theories/Trim.v
theories/TrimSpec.v
theories/Ast.v
theories/Printer.v
theories/Generics.v
theories/Types.v
theories/GenericsProofs.v
theories/PrinterProofs.v
theories/TypesSpec.v
theories/TypesProofs.v
theories/PropNaming.v
theories/PropPrinter.v
theories/PropGenerics.v
theories/Generator.v
theories/GeneratorProofs.v
theories/ResolveSpec.v
theories/QualifierProofs.v
theories/ResolveProofs.v
theories/OrderProofs.v
theories/TermProofs.v
theories/PropResolve.v
theories/PropQualifiers.v
theories/NewGen.v
theories/NewGenProofs.v
theories/Utf8Proofs.v
theories/TrimProofs.v
theories/NewGenSpec.v
theories/PathProofs.v
theories/ImportProofs.v
theories/PropGenerator.v
theories/Sharing.v
theories/PropSharing.v
theories/Lts.v
theories/Breaker.v
theories/PropBreaker.v
theories/RobinPool.v
theories/PropRobinPool.v
theories/SyncPool.v
theories/PropSyncPool.v
theories/RateLimit.v
theories/PropRateLimit.v
theories/Fallback.v
theories/FallbackProofs.v
theories/PropFallback.v
theories/Helpers.v
theories/PropHelpers.v
theories/Loader.v
theories/PropLoader.v
theories/Cmd.v
theories/PropCmd.v
theories/Main.v
theories/PropMain.v
theories/Tmpl.v
theories/TemplateText.v
theories/Render.v
theories/Golden.v
theories/GoTok.v
theories/MiniGo.v
theories/Bodies.v
theories/RenderProofs.v
theories/Generated.v
theories/Generated2.v
theories/Generated3.v
theories/Generated4.v
theories/Sem.v
theories/Deco.v
theories/Retry.v
theories/PropRetry.v
theories/Timeout.v
theories/PropTimeout.v
theories/Validate.v
theories/PropValidate.v
theories/TwirpError.v
theories/Honest.v
theories/PropTwirpError.v
theories/Observed.v
theories/Pools.v
theories/BreakerCall.v
theories/Log.v
theories/Prometheus.v
theories/Tracing.v
theories/Apm.v
theories/PropLog.v
theories/PropPrometheus.v
theories/PropTracing.v
theories/PropTransparent.v
theories/PropImplements.v
theories/PropFlags.v
theories/PropStructs.v
theories/PropErrors.v
theories/Alike.v
theories/PropHygiene.v
theories/TypeGrammar.v
theories/ReadBack.v
theories/PropReadBack.v
theories/Threads.v
theories/PropSyncPoolCalls.v
theories/PropRobinPoolCalls.v
theories/PropRateLimitCalls.v
theories/PropBreakerCalls.v
theories/PropSource.v
theories/PropEndToEnd.v
theories/Goroutines.v
theories/FallbackBody.v
theories/FallbackCalls.v
theories/FallbackProgress.v
theories/PropFallbackCalls.v
theories/FieldName.v
theories/PropClashes.v
theories/Construct.v
theories/Constructors.v
theories/ConstructProofs.v
theories/PropConstructors.v
theories/PropConstructors2.v
theories/Feeder.v
theories/PropConstructors3.v
theories/PropConstructors4.v
theories/Pkg.v
theories/PropPkg.v
theories/PropGenericDecorators.v
theories/FloatDiv.v
theories/PropTickRate.v
theories/PropTickRateAll.v
theories/PropScope.v
theories/Output.v
theories/OutputProofs.v
theories/PropOutput.v
theories/PropHelp.v
theories/Scoping.v
theories/ScopingProofs.v
theories/ScopedFiles.v
theories/ScopedBodies.v
theories/PropScoping.v
theories/Regen.v
theories/RegenProofs.v
theories/RegenPaths.v
theories/PropRegenerate.v
theories/Typing.v
theories/TypedFiles.v
theories/TypedTactics.v
theories/TypedBodies.v
theories/TypedBodies2.v
theories/TypedBodies3.v
theories/TypedFallback.v
theories/TypedFallback2.v
theories/TypedFallback3.v
theories/TypedFuncs.v
theories/TypedFuncs2.v
theories/PropTyping.v
theories/PropTyping2.v
theories/PropCompiles.v
theories/PropCompilesRun.v
theories/Races.v
theories/PropRaces.v
theories/Quiet.v
theories/PropRaces2.v
theories/PropRaces3.v
theories/PropPinned.v
theories/PropLocks.v
theories/Loud.v
theories/PropPanics.v
theories/PropNested.v
theories/PropLimitContext.v
theories/PropNestedBreaker.v
theories/PropNestedLimit.v
