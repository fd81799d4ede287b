-Q theories Verif
theories/Machine.v
theories/BitOps.v
theories/StaticPow.v
theories/Fraction.v
theories/PowersTen.v
theories/Format.v
theories/DiyFp.v
theories/KComp.v
theories/Chars.v
theories/Grisu.v
theories/Prettify.v
theories/Ftoa.v
theories/Krosh.v
theories/Atof.v
theories/Print.v
theories/Show.v
theories/Spec.v
theories/Instances.v
theories/MachineFacts.v
theories/DiyFacts.v
theories/BoundFacts.v
theories/TableFacts.v
theories/DvalFacts.v
theories/DigitGenFacts.v
theories/GrisuFacts.v
theories/PrettifyFacts.v
theories/ShownFacts.v
theories/Api.v
theories/FtoaFacts.v
theories/RoundFacts.v
theories/WrittenFacts.v
theories/CmpFacts.v
theories/PrintProps.v
theories/Tight.v
theories/PrintProps2.v
theories/PrintProps3.v
theories/PrintExamples.v
theories/TightExamples.v
theories/DownFacts.v
theories/ArithProps.v
theories/DiyProps.v
theories/ArithExamples.v
theories/ScanFacts.v
theories/LoopFacts.v
theories/ParseSpec.v
theories/ParseFacts.v
theories/GapFacts.v
theories/KroshNum.v
theories/ShortFacts.v
theories/FracFacts.v
theories/LongFacts.v
theories/ParseApi.v
theories/RangeFacts.v
theories/ScaledFacts.v
theories/ParseProps.v
theories/RangeProps.v
theories/Refuted.v
theories/GoodFallback.v
theories/Protocol.v
theories/LocalFacts.v
theories/LocalProps.v
theories/ExpProps.v
theories/Tokens.v
theories/NegFacts.v
theories/NegProps.v
theories/Marker.v
theories/Truncate.v
theories/TextSpec.v
theories/ReadSpec.v
theories/MeanSpec.v
theories/Defined.v
theories/RoundTrip.v
theories/PowerTrip.v
theories/ParseExamples.v
theories/Ieee.v
theories/IeeeProps.v
theories/Beyond.v
theories/ErrorProps.v
theories/StringProps.v
theories/BeyondExamples.v
theories/MarkerExamples.v
theories/TruncateExamples.v
theories/DefinedExamples.v
theories/Ends.v
theories/Reading.v
theories/ReadingExamples.v
theories/Meaning.v
theories/MeaningExamples.v
theories/Status.v
theories/StatusExamples.v
theories/MoreExamples.v
theories/CutFacts.v
theories/Cut.v
theories/DecimalTrip.v
theories/Bounded.v
theories/FineFacts.v
theories/CrossType.v
theories/CrossExamples.v
theories/Locale.v
theories/LocaleProps.v
theories/Locales.v
theories/CrossExact.v
theories/SameSpec.v
theories/SameFacts.v
theories/Same.v
theories/SameExamples.v
theories/Order.v
theories/OrderExamples.v
theories/ExactSpec.v
theories/ExactFacts.v
theories/Exact.v
theories/ExactExamples.v
theories/PrintSpec.v
theories/PrintFacts.v
theories/PrintExact.v
theories/PrintExactExamples.v
theories/WholeSpec.v
theories/WholeFacts.v
theories/Whole.v
theories/WholeExamples.v
theories/ShowSpec.v
theories/ShownText.v
theories/ShownExamples.v
theories/Prefix.v
theories/PrefixExamples.v
theories/StdSpec.v
theories/Std.v
theories/StdExamples.v
theories/CycleSpec.v
theories/Cycle.v
theories/CycleExamples.v
theories/ListSpec.v
theories/Lists.v
theories/ListExamples.v
theories/Evaluation.v
theories/EvalSpec.v
theories/EvalProps.v
theories/EvalExamples.v
theories/Steps.v
theories/ReadSteps.v
theories/ThreadSpec.v
theories/StepsFacts.v
theories/ReadStepsFacts.v
theories/Threads.v
theories/ThreadExamples.v
theories/Platform.v
theories/PlatformProps.v
theories/PlatformExamples.v
theories/Capacity.v
theories/Work.v
theories/WorkPrint.v
theories/WorkExamples.v
theories/CharType.v
theories/CharTypeProps.v
theories/CharTypeExamples.v
theories/JsonSpec.v
theories/Json.v
theories/JsonExamples.v
theories/Narrow.v
theories/NarrowExamples.v
theories/Widen.v
theories/WidenExamples.v
theories/Relay.v
theories/RelayExamples.v
theories/Suite.v
theories/Flushed.v
theories/FlushProps.v
theories/Narrowed.v
theories/NarrowedExamples.v
theories/Writers.v
theories/WritersExamples.v
theories/Points.v
theories/PointsExamples.v
theories/Memory.v
theories/MemoryProps.v
theories/Strtod.v
theories/StrtodExamples.v
theories/Stream.v
theories/StreamProps.v
theories/Wider.v
theories/WiderExamples.v
theories/WiderFloat.v
theories/FracProps.v
