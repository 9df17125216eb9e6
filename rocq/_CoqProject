-Q theories Verif
theories/Base.v
theories/Aig.v
theories/AigSem.v
theories/AigHash.v
theories/AigProofs.v
theories/AigApi.v
theories/Demo.v
theories/PropAig.v
theories/Tt.v
theories/TtProofs.v
theories/TtCache.v
theories/TtCacheProofs.v
theories/Range.v
theories/RangeProofs.v
theories/Klut.v
theories/KlutSem.v
theories/KlutProofs.v
theories/PropTt.v
theories/PropKlut.v
theories/Cut.v
theories/CutProofs.v
theories/PropCut.v
theories/CutEnum.v
theories/CutEnumProofs.v
theories/PropCutEnum.v
theories/AigReach.v
theories/Topo.v
theories/TopoProofs.v
theories/Clean.v
theories/NetProofs.v
theories/CleanProofs.v
theories/Depth.v
theories/DepthProofs.v
theories/NetDemo.v
theories/PropNet.v
theories/Isop.v
theories/IsopProofs.v
theories/Cnf.v
theories/CnfProofs.v
theories/PropCnf.v
theories/Mapping.v
theories/MappingProofs.v
theories/CollapseProofs.v
theories/ConvertProofs.v
theories/PropMapping.v
theories/Balance.v
theories/BalanceProofs.v
theories/PropBalance.v
theories/Subst.v
theories/SubstProofs.v
theories/TakeOutProofs.v
theories/PropSubst.v
theories/Sim.v
theories/SimProofs.v
theories/PropSim.v
theories/Aiger.v
theories/AigerProofs.v
theories/PropAiger.v
theories/Factor.v
theories/FactorProofs.v
theories/FactorKernel.v
theories/FactorCircuit.v
theories/PropFactor.v
theories/Choice.v
theories/ChoiceProofs.v
theories/PropChoice.v
theories/ChoiceSat.v
theories/ChoiceSatProofs.v
theories/PropChoiceSat.v
theories/ChoiceMiter.v
theories/ChoiceMiterProofs.v
theories/PropChoiceMiter.v
theories/RefDeref.v
theories/RefDerefProofs.v
theories/PropRefDeref.v
theories/Rewrite.v
theories/RewriteProofs.v
theories/PropRewrite.v
theories/Npn.v
theories/NpnProofs.v
theories/NodeRewriting.v
theories/NodeRewritingProofs.v
theories/NpnDatabase.v
theories/PropNodeRewriting.v
theories/Refactor.v
theories/RefactorProofs.v
theories/PropRefactor.v
theories/Shell.v
theories/PropShell.v
theories/Verilog.v
theories/Writers.v
theories/VerilogProofs.v
theories/WriteLutProofs.v
theories/WriteVerilogProofs.v
theories/PropWriters.v
theories/ChoiceCompute.v
theories/ChoiceComputeProofs.v
theories/ChoiceDeriveProofs.v
theories/ChoiceDupProofs.v
theories/PropChoiceCompute.v
theories/ChoiceClasses.v
theories/ChoiceClassesProofs.v
theories/ChoiceRefineProofs.v
theories/ChoiceSimProofs.v
theories/ChoiceResimProofs.v
theories/ChoiceCSweepProofs.v
theories/PropChoiceClasses.v
theories/KlutMapping.v
theories/KlutMappingProofs.v
theories/KlutDeriveProofs.v
theories/PropKlutMapping.v
theories/RewriteSelect.v
theories/RewriteSelectProofs.v
theories/PropRewriteSelect.v
theories/CleanPartial.v
theories/RefactorPass.v
theories/RefactorPassProofs.v
theories/RefactorInfoProofs.v
theories/PropRefactorPass.v
theories/SopBalance.v
theories/SopBalanceProofs.v
theories/PropSopBalance.v
theories/Flow.v
theories/FlowProofs.v
theories/FlowSynthProofs.v
theories/PropFlow.v
theories/Checker.v
theories/CheckerProofs.v
theories/CheckerComplete.v
theories/PropChecker.v
theories/Debugger.v
theories/DebuggerProofs.v
theories/CollapseShaped.v
theories/PropDebugger.v
