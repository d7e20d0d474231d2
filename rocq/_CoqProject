-Q theories Verif
theories/Base.v
theories/DD.v
theories/Spec.v
theories/Zdd2Model.v
theories/Zdd2Node.v
theories/Zdd2Node2.v
theories/Zdd2Univ.v
theories/Zdd2Forest.v
theories/Zdd2Forest2.v
theories/Zdd2Exact.v
theories/Zdd2Sink.v
theories/Zdd2Settle.v
theories/Zdd2Resort.v
theories/Zdd2Forest3.v
theories/Zdd2Exact2.v
theories/Zdd2Laws.v
theories/ArenaModel.v
theories/ArenaProofs.v
theories/Zdd2Prog.v
theories/Zdd2ProgProofs.v
theories/Zdd2Thm.v
theories/ConcThm.v
theories/BddSpec.v
theories/BddModel.v
theories/BddRun.v
theories/BddNode.v
theories/BddCloset.v
theories/BddThm.v
theories/BddAnyThm.v
theories/BddCount64.v
theories/BddLawsThm.v
theories/MatrixModel.v
theories/MatrixProofs.v
theories/MatrixThm.v
theories/ZddModel.v
theories/ZddSpec.v
theories/ZddProofs.v
theories/ZddExact.v
theories/ZddThm.v
theories/ParserModel.v
theories/ParserSpec.v
theories/ParserProofs.v
theories/ParserPlaced.v
theories/ParserThm.v
theories/ZLoadThm.v
theories/PoolModel.v
theories/PoolProofs.v
theories/ZddProg.v
theories/ZddProgProofs.v
theories/BddProg.v
theories/BddProgProofs.v
theories/Conc2Thm.v
theories/ArenaSim.v
theories/PoolStore.v
theories/Zdd2Sim.v
theories/ZddSim.v
theories/BddSim.v
theories/StoreThm.v
theories/LoadModel.v
theories/PanicProofs.v
theories/LoadProofs.v
theories/LoadThm.v
theories/GrowthSpec.v
theories/GrowthProofs.v
theories/GrowthCalls.v
theories/GrowthThm.v
theories/HashModel.v
theories/HashSpec.v
theories/HashThm.v
theories/AlgebraThm.v
theories/DebugModel.v
theories/DebugThm.v
theories/VizModel.v
theories/VizSpec.v
theories/VizThm.v
theories/AgreeSpec.v
theories/AgreeThm.v
theories/HandModel.v
theories/HandThm.v
theories/Properties_Zdd2.v
theories/Properties_Conc.v
theories/Properties_Bdd.v
theories/Properties_Matrix.v
theories/Properties_Zdd.v
theories/Properties_Parser.v
theories/Properties_Conc2.v
theories/Properties_Hash.v
theories/Properties_Algebra.v
theories/Properties_BddLaws.v
theories/Properties_Debug.v
theories/Properties_Viz.v
theories/Properties_Agree.v
theories/Properties_Store.v
theories/Properties_Growth.v
theories/Properties_Load.v
theories/Properties_Hand.v
theories/Properties_ZLoad.v
theories/Properties_BddAny.v
theories/LockModel.v
theories/LockProofs.v
theories/LockThm.v
theories/Properties_Lock.v
theories/WordModel.v
theories/WordProofs.v
theories/WordThm.v
theories/Properties_Word.v
theories/RenameSpec.v
theories/RenameBase.v
theories/RenameZdd2.v
theories/RenameZdd.v
theories/RenameBdd.v
theories/RenameAny.v
theories/RenameAny2.v
theories/RenameThm.v
theories/Properties_Rename.v
theories/EqThm.v
theories/Properties_Eq.v
theories/TreeEqThm.v
theories/Properties_TreeEq.v
theories/TextSpec.v
theories/TextThm.v
theories/StatusModel.v
theories/StatusThm.v
theories/Properties_Status.v
theories/LoadOpsSpec.v
theories/LoadOpsThm.v
theories/Properties_LoadOps.v
theories/NodeOrdModel.v
theories/NodeOrdSpec.v
theories/NodeOrdThm.v
theories/Properties_NodeOrd.v
theories/OutlineSpec.v
theories/OutlineThm.v
theories/Properties_Outline.v
theories/Properties_Text.v
theories/Growth2Spec.v
theories/Growth2Proofs.v
theories/Growth2B.v
theories/Growth2C.v
theories/Growth2D.v
theories/Growth2E.v
theories/Growth2F.v
theories/Growth2G.v
theories/Growth2H.v
theories/Growth2Thm.v
theories/Properties_Growth2.v
theories/ForestLoadSpec.v
theories/ForestLoadThm.v
theories/Properties_ForestLoad.v
theories/ZEqThm.v
theories/Properties_ZEq.v
theories/RepoPrelude.v
theories/RepoPrelude_Zdd2.v
theories/RepoPrelude_Zdd2Tree.v
theories/RepoPrelude_Matrix.v
theories/RepoPrelude_MatrixTree.v
theories/RepoPrelude_Zdd.v
theories/RepoPrelude_Bdd.v
theories/RepoTests_Zdd2.v
theories/RepoTests_Zdd2Tree.v
theories/RepoTests_Matrix.v
theories/RepoTests_MatrixTree.v
theories/RepoTests_Zdd.v
theories/RepoTests_Bdd.v
theories/StackNode.v
theories/StackModel.v
theories/StackForest.v
theories/StackThm.v
theories/StackZModel.v
theories/StackZFits.v
theories/StackZdd.v
theories/StackZThm.v
theories/StackBModel.v
theories/StackB.v
theories/StackBThm.v
theories/Properties_Stack.v
theories/Properties_StackZ.v
theories/Properties_StackB.v
theories/StepsModel.v
theories/Steps.v
theories/StepsF.v
theories/StepsZ.v
theories/StepsB.v
theories/StepsThm.v
theories/Properties_Steps.v
theories/CostModel.v
theories/Cost.v
theories/CostF.v
theories/CostL.v
theories/CostThm.v
theories/Properties_Cost.v
