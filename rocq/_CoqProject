-Q theories Verif

theories/Base.v
theories/Fix.v
theories/Game.v
theories/GameTheory.v
theories/GameSound.v
theories/GameComplete.v
theories/Bdd.v
theories/Support.v
theories/SupportProofs.v
theories/EnumProofs.v
theories/Ops.v
theories/BGame.v
theories/OpsProofs.v
theories/SubProofs.v
theories/PSupport.v
theories/Strs.v
theories/Ptree.v
theories/Form.v
theories/PtreeProofs.v
theories/PPtree.v
theories/Solve.v
theories/FSpec.v
theories/SolveProofs.v
theories/Examples.v
theories/RealProofs.v
theories/Levels.v
theories/LevelProofs.v
theories/PSolve.v
theories/Automaton.v
theories/AutProofs.v
theories/AutProofs2.v
theories/PAut.v
theories/Synth.v
theories/SynthSets.v
theories/SynthBdd.v
theories/SynthInv.v
theories/SynthInit.v
theories/SynthCert.v
theories/SynthProg.v
theories/SynthSpec.v
theories/SynthFindings.v
theories/PSynth.v
theories/Nonbool.v
theories/ExpProofs.v
theories/RSpec.v
theories/GameIso.v
theories/NonboolProofs.v
theories/EncProofs.v
theories/PipeProofs.v
theories/PipeVerdict.v
theories/NbStateProofs.v
theories/NbProps.v
theories/NbExamples.v
theories/PNonbool.v
theories/Main.v
theories/MainSpec.v
theories/MainProofs.v
theories/MainExamples.v
theories/PMain.v
theories/FormCheck.v
theories/ListSpec.v
theories/ListProofs.v
theories/PLists.v
theories/AutIO.v
theories/AutIOSpec.v
theories/AutIOProofs.v
theories/PAutIO.v
theories/ReadState.v
theories/ReadSpec.v
theories/ReadProofs.v
theories/PRead.v
theories/Metric.v
theories/MetricSpec.v
theories/MetricProofs.v
theories/MetricLevels.v
theories/MetricNames.v
theories/PMetric.v
theories/Reach.v
theories/ReachSpec.v
theories/ReachSets.v
theories/ReachLevels.v
theories/ReachInv.v
theories/ReachCert.v
theories/ReachProofs.v
theories/ReachExamples.v
theories/PReach.v
theories/FormPrint.v
theories/Lex.v
theories/Parse.v
theories/Syntax.v
theories/LexProofs.v
theories/ParseProofs.v
theories/PrintProofs.v
theories/FileSpec.v
theories/FileProofs.v
theories/TextSpec.v
theories/TextProofs.v
theories/PParse.v
theories/Interactive.v
theories/InteractSpec.v
theories/InteractLevels.v
theories/InteractProofs.v
theories/InteractRun.v
theories/InteractText.v
theories/InteractUse.v
theories/InteractExamples.v
theories/PInteract.v
theories/LexSpec.v
theories/LexRegex.v
theories/LexLayout.v
theories/PLex.v
theories/AutWrite.v
theories/JsonSpec.v
theories/JsonProofs.v
theories/JsonWrite.v
theories/Output.v
theories/FormatSpec.v
theories/PJson.v
theories/WriteProofs.v
theories/DotProofs.v
theories/DotInj.v
theories/XmlProofs.v
theories/FormatProofs.v
theories/FormatExamples.v
theories/PFormats.v
theories/Options.v
theories/OptSpec.v
theories/OptProofs.v
theories/POptions.v
theories/Program.v
theories/ProgramSpec.v
theories/ProgramProofs.v
theories/PProgram.v
theories/Hotswap.v
theories/HotSpec.v
theories/HotProofs.v
theories/HotForm.v
theories/Lasso.v
theories/HotSem.v
theories/HotCore.v
theories/HotLoad.v
theories/HotSynth.v
theories/HotExamples.v
theories/PHotswap.v
theories/HotFollow.v
theories/HotTotal.v
theories/PHotTotal.v
theories/Spin.v
theories/PromelaSpec.v
theories/SpinSpec.v
theories/SpinForm.v
theories/SpinText.v
theories/SpinDump.v
theories/SpinRuns.v
theories/SpinPath.v
theories/SpinFinal.v
theories/SpinExamples.v
theories/PSpin.v
theories/Autman.v
theories/AutmanSpec.v
theories/AutmanProofs.v
theories/AutmanModel.v
theories/AutmanExamples.v
theories/PAutman.v
theories/AddGoal.v
theories/AddMerge.v
theories/AddSpec.v
theories/AddView.v
theories/AddSem.v
theories/AddEnd.v
theories/AddOrder.v
theories/AddCore.v
theories/AddLoad.v
theories/AddExamples.v
theories/PAddGoal.v
theories/Patch.v
theories/PatchMerge.v
theories/PatchView.v
theories/PatchSpec.v
theories/PatchSem.v
theories/PatchCore.v
theories/PatchEnd.v
theories/PatchRules.v
theories/PatchCommands.v
theories/PatchText.v
theories/PatchLoad.v
theories/PatchSynth.v
theories/PatchExamples.v
theories/PPatch.v
theories/RgIso.v
theories/RgParse.v
theories/RgParseProofs.v
theories/Rg.v
theories/RgPrep.v
theories/RgChain.v
theories/RgSpec.v
theories/RgOpts.v
theories/RgProofs.v
theories/PRg.v
theories/HotInt.v
theories/IntPatch.v
theories/GrPatch.v
theories/GrPatchSpec.v
theories/GrPatchOpts.v
theories/GrPatchPrep.v
theories/GrPatchSame.v
theories/GrPatchProofs.v
theories/GrPatchMade.v
theories/GrPatchRuns.v
theories/GrPatchExamples.v
theories/PGrPatch.v
theories/Sim.v
theories/SimSpec.v
theories/SimProofs.v
theories/SimLoop.v
theories/SimUse.v
theories/SimExamples.v
theories/PSim.v
theories/SessionSpec.v
theories/SessionProofs.v
theories/SessionRun.v
theories/SessionExamples.v
theories/PSession.v
theories/VerifySpec.v
theories/VerifyRun.v
theories/PVerify.v
theories/PtDump.v
theories/DumpSpec.v
theories/DumpProofs.v
theories/DumpRun.v
theories/PDump.v
theories/RgDump.v
theories/RgDumpSpec.v
theories/RgDumpProofs.v
theories/RgDumpRun.v
theories/PRgDump.v
theories/PatchDump.v
theories/PatchDumpSpec.v
theories/PatchDumpRun.v
theories/PPatchDump.v
theories/Logging.v
theories/LogSpec.v
theories/LogProofs.v
theories/PLog.v
theories/Statesets.v
theories/StatesetSpec.v
theories/StatesetProofs.v
theories/PStatesets.v
theories/Pprint.v
theories/PprintSpec.v
theories/PprintProofs.v
theories/PPprint.v
theories/Verbose.v
theories/VerboseSpec.v
theories/VerboseProofs.v
theories/PVerbose.v
theories/AutmanLog.v
theories/AutmanLogSpec.v
theories/AutmanLogProofs.v
theories/PAutmanLog.v
