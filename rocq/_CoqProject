-Q theories Verif
theories/Str.v
theories/Classes.v
theories/Heap.v
theories/NodeOps.v
theories/Transformer.v
theories/Html.v
theories/Translator.v
theories/Handrails.v
theories/Build.v
theories/Tests.v
theories/Monad.v
theories/Spec.v
theories/SpecNodes.v
theories/NodeProofs.v
theories/Consistency.v
theories/Traverse.v
theories/Queries.v
theories/Sexp.v
theories/EditTotal.v
theories/Meta.v
theories/Built.v
theories/Properties_nodes.v
theories/Frames.v
theories/SpecTransform.v
theories/TreeFacts.v
theories/Labels.v
theories/Resolve.v
theories/ResolvePrev.v
theories/ResolveAll.v
theories/Subproofs.v
theories/Autonumber.v
theories/Passes.v
theories/HandrailDepth.v
theories/FullNumber.v
theories/TocPick.v
theories/TocBuild.v
theories/TocLoop.v
theories/TocEntries.v
theories/Comparable.v
theories/SpecResult.v
theories/Stages.v
theories/Forget.v
theories/Result.v
theories/ResultRefs.v
theories/ResultSteps.v
theories/ResultNumbers.v
theories/ResultToc.v
theories/ResultEnd.v
theories/RefText.v
theories/Transformed.v
theories/ResultKids.v
theories/TransformedMore.v
theories/ReadyDoc.v
theories/TransformDemo.v
theories/TrFrame.v
theories/TrLoop.v
theories/TrShape.v
theories/TrErr.v
theories/SpecHtml.v
theories/TrNest.v
theories/TrNeat.v
theories/TrNeatHr.v
theories/TrTitle.v
theories/TrMain.v
theories/TrLeave.v
theories/TrBase.v
theories/TrHand.v
theories/SpecMarks.v
theories/TrMarks.v
theories/TrOut.v
theories/SpecTranslate.v
theories/TrProps.v
theories/TrDemo.v
theories/Again.v
theories/AgainTwice.v
theories/Properties_translator.v
theories/EscString.v
theories/SpecEsc.v
theories/EscProofs.v
theories/EscSplit.v
theories/Properties_util.v
theories/Logger.v
theories/App.v
theories/Cli.v
theories/SpecApp.v
theories/AppProofs.v
theories/AppProps.v
theories/Properties_app.v
theories/Linter.v
theories/SpecLint.v
theories/LintProofs.v
theories/Builder.v
theories/SpecBuild.v
theories/BuildProofs.v
theories/Properties_build.v
theories/Parser.v
theories/SpecParse.v
theories/ParseSteps.v
theories/ParseHead.v
theories/ParseTree.v
theories/ParseSim.v
theories/ParseMirror.v
theories/ParseOrder.v
theories/ParseFuel.v
theories/SpecNorm.v
theories/NormFam.v
theories/NormSteps.v
theories/NormBody.v
theories/NormTree.v
theories/ParseWhole.v
theories/SpecText.v
theories/NormText.v
theories/NormLine.v
theories/NormEnd.v
theories/NormAll.v
theories/NormOrder.v
theories/ParseReady.v
theories/SpecTyped.v
theories/ParseTyped.v
theories/TypedStep.v
theories/TransformTyped.v
theories/ResultAll.v
theories/Render.v
theories/SpecRender.v
theories/RenderTree.v
theories/Rendered.v
theories/RenderTexts.v
theories/RenderProps.v
theories/ParseDemo.v
theories/ParseEnds.v
theories/ParseProps.v
theories/ParseRefute.v
theories/Properties_parser.v
theories/Shift.v
theories/ShiftNodes.v
theories/ShiftTransform.v
theories/ShiftParse.v
theories/ShiftTranslate.v
theories/ShiftHand.v
theories/SpecCalls.v
theories/Isolation.v
theories/RenderAny.v
theories/RenderDemo.v
theories/Properties_render.v
theories/Fuel.v
theories/TotalBase.v
theories/SpecTotal.v
theories/TotalResolve.v
theories/TotalPlaced.v
theories/TotalSub.v
theories/TotalNumber.v
theories/TotalToc.v
theories/TotalRest.v
theories/TransformTotal.v
theories/TotalDemo.v
theories/SpecFinish.v
theories/TrTotal.v
theories/TrTotal2.v
theories/TrTotal3.v
theories/TrTotal4.v
theories/TrTotal5.v
theories/TrTotal6.v
theories/SpecSource.v
theories/TemplateKept.v
theories/PresentDoc.v
theories/PresentDemo.v
theories/ParseShape.v
theories/RenderTotal.v
theories/RenderTotalDemo.v
theories/SpecShape.v
theories/ParseTotal.v
theories/NormTotal.v
theories/NormReady.v
theories/ParseGives.v
theories/MakeTotal.v
theories/Properties_total.v
theories/SpecPage.v
theories/BuiltTree.v
theories/TrPage.v
theories/TrPageDemo.v
theories/TrPageRender.v
theories/Properties_page.v
theories/SpecReuse.v
theories/Reuse.v
theories/ReuseDemo.v
theories/Properties_transformer.v
theories/SpecRead.v
theories/ReadBack.v
theories/TrPlain.v
theories/ReadDemo.v
theories/Properties_read.v
theories/SpecMistakes.v
theories/Mistakes.v
theories/MistakesDemo.v
theories/Late.v
theories/LateDemo.v
theories/Properties_mistakes.v
theories/ParseErr.v
theories/ParseErrDemo.v
theories/Properties_parse_errors.v
theories/ExnBound.v
theories/TransformErr.v
theories/SpecInput.v
theories/Mild.v
theories/Tidy.v
theories/TidyParse.v
theories/InputRead.v
theories/InputDemo.v
theories/Properties_input.v
theories/MakeTwice.v
theories/TitlePage.v
theories/TitleRails.v
theories/MakeDemo.v
theories/Properties_make.v
theories/SpecStuck.v
theories/Stuck.v
theories/Stuck2.v
theories/Stuck3.v
theories/Stuck4.v
theories/Stuck5.v
theories/StuckDec.v
theories/Stuck6.v
theories/Stuck7.v
theories/Stuck8.v
theories/Stuck9.v
theories/StuckDemo.v
theories/StuckDemo2.v
theories/StuckDemo3.v
theories/StuckDemo4.v
theories/Properties_stuck.v
