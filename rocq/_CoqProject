-Q theories Verif
theories/Base.v
theories/CompareModel.v
theories/CompareSpec.v
theories/CompareProofs.v
theories/CompareProps.v
theories/ConfigModel.v
theories/ConfigSpec.v
theories/ConfigProofs.v
theories/ConfigProps.v
theories/PathModel.v
theories/PathSpec.v
theories/PathProofs.v
theories/ConfigFileModel.v
theories/ConfigFileSpec.v
theories/ConfigFileProofs.v
theories/GroupProofs.v
theories/ManyProofs.v
theories/CompanionProofs.v
theories/ConfigMiscProofs.v
theories/ConfigFileExamples.v
theories/ConfigFileProps.v
theories/RegexModel.v
theories/LintModel.v
theories/LintSpec.v
theories/LintProofs.v
theories/LintPathProofs.v
theories/LintRunProofs.v
theories/TweakSpec.v
theories/TweakProofs.v
theories/LintExamples.v
theories/LintProps.v
theories/TranslateModel.v
theories/TranslateSpec.v
theories/TranslateProofs.v
theories/TranslateExamples.v
theories/TranslateProps.v
theories/CacheModel.v
theories/CacheSpec.v
theories/CacheProofs.v
theories/CacheExamples.v
theories/CacheProps.v
theories/VersionModel.v
theories/VersionSpec.v
theories/VersionProofs.v
theories/VersionExamples.v
theories/VersionProps.v
theories/PyModel.v
theories/PySpec.v
theories/PyProofs.v
theories/IfModel.v
theories/IfSpec.v
theories/IfProofs.v
theories/IfExamples.v
theories/IfProps.v
theories/FoldModel.v
theories/FoldSpec.v
theories/FoldProofs.v
theories/FoldExamples.v
theories/FoldProps.v
theories/TypeModel.v
theories/TypeSpec.v
theories/TypeProofs.v
theories/TypeExamples.v
theories/TypeProps.v
theories/TextProofs.v
theories/LocalModel.v
theories/LocalSpec.v
theories/LocalProofs.v
theories/LetterProofs.v
theories/RangeProofs.v
theories/SmallProofs.v
theories/LocalExamples.v
theories/LocalProps.v
theories/MergeModel.v
theories/MergeSpec.v
theories/MergeProofs.v
theories/BalanceProofs.v
theories/RemainderProofs.v
theories/MergeExamples.v
theories/MergeProps.v
theories/SolverModel.v
theories/SolverSpec.v
theories/SolverProofs.v
theories/RedundantProofs.v
theories/SortProofs.v
theories/SolverExamples.v
theories/SolverProps.v
theories/ChainModel.v
theories/ChainSpec.v
theories/ChainProofs.v
theories/ChainRightProofs.v
theories/ChainEndProofs.v
theories/ChainExamples.v
theories/ChainProps.v
theories/SequenceModel.v
theories/SequenceSpec.v
theories/SequenceProofs.v
theories/SequenceEndProofs.v
theories/SequenceExamples.v
theories/SequenceProps.v
theories/CfgModel.v
theories/CfgSpec.v
theories/CfgBlockProofs.v
theories/CfgWfProofs.v
theories/CfgOpProofs.v
theories/CfgVisitProofs.v
theories/CfgTryProofs.v
theories/CfgLoopModel.v
theories/CfgLoopSpec.v
theories/CfgTidyProofs.v
theories/CfgLoopProofs.v
theories/CfgExamples.v
theories/CfgProps.v
theories/ReachModel.v
theories/ReachSpec.v
theories/ReachProofs.v
theories/ReachEventProofs.v
theories/ReachAllProofs.v
theories/ReachCallProofs.v
theories/ReachExamples.v
theories/ReachProps.v
theories/AuModel.v
theories/AuSpec.v
theories/AuProofs.v
theories/AuMergeProofs.v
theories/AuResultProofs.v
theories/AuNameProofs.v
theories/AuWholeProofs.v
theories/AuTotalProofs.v
theories/AuExamples.v
theories/AuProps.v
theories/DupModel.v
theories/DupSpec.v
theories/DupProofs.v
theories/DupMoveProofs.v
theories/DupJoinProofs.v
theories/DupTableProofs.v
theories/DupExamples.v
theories/DupProps.v
theories/IterModel.v
theories/IterSpec.v
theories/IterProofs.v
theories/IterConstProofs.v
theories/IterValueProofs.v
theories/IterNumsProofs.v
theories/IterMixedProofs.v
theories/IterMergeProofs.v
theories/IterRepeatProofs.v
theories/IterExamples.v
theories/IterProps.v
theories/LoopModel.v
theories/LoopSpec.v
theories/LoopProofs.v
theories/LoopRangeProofs.v
theories/LoopCountProofs.v
theories/LoopRunProofs.v
theories/LoopExamples.v
theories/LoopProps.v
theories/EachModel.v
theories/EachSpec.v
theories/EachProofs.v
theories/EachEventProofs.v
theories/EachModProofs.v
theories/EachExamples.v
theories/EachProps.v
theories/ScopeModel.v
theories/ScopeSpec.v
theories/ScopeProofs.v
theories/ScopeCoverProofs.v
theories/ScopeExamples.v
theories/ScopeProps.v
theories/WalkModel.v
theories/WalkSpec.v
theories/WalkProofs.v
theories/WalkStartProofs.v
theories/WalkBackProofs.v
theories/WalkCfgProofs.v
theories/WalkExamples.v
theories/WalkProps.v
theories/BlockModel.v
theories/BlockSpec.v
theories/BlockProofs.v
theories/BlockEnvProofs.v
theories/BlockStepProofs.v
theories/BlockChoiceProofs.v
theories/BlockAssignProofs.v
theories/BlockRunProofs.v
theories/BlockFollowProofs.v
theories/BlockMainProofs.v
theories/BlockImpliesProofs.v
theories/BlockLoopProofs.v
theories/BlockExamples.v
theories/BlockProps.v
theories/EarlyModel.v
theories/EarlySpec.v
theories/EarlyProofs.v
theories/EarlyExamples.v
theories/EarlyProps.v
theories/SwitchModel.v
theories/SwitchSpec.v
theories/SwitchProofs.v
theories/SwitchExamples.v
theories/SwitchProps.v
theories/AlikeModel.v
theories/AlikeSpec.v
theories/AlikeProofs.v
theories/AlikeExamples.v
theories/AlikeProps.v
theories/GlobalModel.v
theories/GlobalSpec.v
theories/GlobalProofs.v
theories/GlobalExamples.v
theories/GlobalProps.v
theories/DuringModel.v
theories/DuringSpec.v
theories/DuringProofs.v
theories/DuringExamples.v
theories/DuringProps.v
theories/BetweenModel.v
theories/BetweenSpec.v
theories/BetweenProofs.v
theories/BetweenExamples.v
theories/BetweenProps.v
theories/TargetModel.v
theories/TargetSpec.v
theories/TargetProofs.v
theories/TargetExamples.v
theories/TargetProps.v
theories/SureModel.v
theories/SureSpec.v
theories/SureProofs.v
theories/SureExamples.v
theories/SureProps.v
theories/MagicModel.v
theories/MagicSpec.v
theories/MagicProofs.v
theories/MagicExamples.v
theories/MagicProps.v
theories/SeekModel.v
theories/SeekSpec.v
theories/SeekProofs.v
theories/SeekExamples.v
theories/SeekProps.v
