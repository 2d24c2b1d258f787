-Q theories Verif
theories/Base.v
theories/TextModel.v
theories/EventLogModel.v
theories/TextProofs.v
theories/EventLogSpec.v
theories/EventLogProofs.v
theories/EventLogNavProofs.v
theories/EventLogRefProofs.v
theories/EventLogProps.v
theories/UndoModel.v
theories/UndoSpec.v
theories/UndoProofs.v
theories/EvolveModel.v
theories/EvolveSpec.v
theories/EvolveProofs.v
theories/UndoProps.v
theories/DagModel.v
theories/DagSpec.v
theories/DagProofs.v
theories/DagCompProofs.v
theories/DagProps.v
theories/RevsetSyntaxModel.v
theories/RevsetSyntaxSpec.v
theories/RevsetSyntaxProofs.v
theories/RevsetSyntaxProps.v
theories/RevsetModel.v
theories/RevsetSpec.v
theories/RevsetTextProofs.v
theories/RevsetProofs.v
theories/RevsetProps.v
theories/StrModel.v
theories/StrProofs.v
theories/HookModel.v
theories/HookSpec.v
theories/HookProofs.v
theories/HookProps.v
theories/PlanModel.v
theories/PlanSpec.v
theories/PlanProofs.v
theories/PlanCycleProofs.v
theories/PlanDfsProofs.v
theories/PlanLabelProofs.v
theories/PlanBuildProofs.v
theories/PlanProps.v
theories/PlanCheckModel.v
theories/PlanCheckProps.v
theories/ExecModel.v
theories/ExecSpec.v
theories/ExecProofs.v
theories/ExecBuildProofs.v
theories/ExecAfterProofs.v
theories/ExecDiskProofs.v
theories/ExecProps.v
theories/ModeModel.v
theories/TreeModel.v
theories/TreeSpec.v
theories/TreeProofs.v
theories/TreeDiffProofs.v
theories/TreeOpsProofs.v
theories/TreePickProofs.v
theories/TreeAmendProofs.v
theories/TreeWitness.v
theories/TreeProps.v
theories/ModeProps.v
theories/BisectModel.v
theories/BisectSpec.v
theories/BisectProofs.v
theories/BisectSearchProofs.v
theories/BisectRunProofs.v
theories/BisectProps.v
theories/RunnerModel.v
theories/RunnerSpec.v
theories/QueueProofs.v
theories/RunnerProofs.v
theories/RunnerRunProofs.v
theories/RunnerProps.v
theories/PoolModel.v
theories/PoolSpec.v
theories/PoolProofs.v
theories/PoolProps.v
theories/InitModel.v
theories/InitSpec.v
theories/InitProofs.v
theories/InitProps.v
theories/RewordModel.v
theories/RewordSpec.v
theories/RewordProofs.v
theories/RewordTextProofs.v
theories/RewordProps.v
theories/Utf8Model.v
theories/RecordModel.v
theories/RecordSpec.v
theories/RecordProofs.v
theories/RecordProps.v
theories/StatusModel.v
theories/StatusSpec.v
theories/StatusProofs.v
theories/StatusProps.v
theories/SnapModel.v
theories/SnapSpec.v
theories/SnapProofs.v
theories/SnapWitness.v
theories/SnapProps.v
theories/TrailerModel.v
theories/TrailerSpec.v
theories/TrailerProofs.v
theories/TrailerProps.v
theories/NavModel.v
theories/NavSpec.v
theories/NavProofs.v
theories/NavCheckoutProofs.v
theories/NavProps.v
theories/SlogModel.v
theories/SlogSpec.v
theories/SlogProofs.v
theories/SlogPlaceProofs.v
theories/SlogProps.v
theories/HideModel.v
theories/HideSpec.v
theories/HideProofs.v
theories/HideUndoProofs.v
theories/HideProps.v
theories/RestackModel.v
theories/RestackSpec.v
theories/RestackProofs.v
theories/RestackProps.v
theories/SyncModel.v
theories/SyncSpec.v
theories/SyncProofs.v
theories/SyncProps.v
theories/MoveModel.v
theories/MoveSpec.v
theories/MoveProofs.v
theories/MoveReqProofs.v
theories/MoveExactProofs.v
theories/MovePublicProofs.v
theories/MoveProps.v
theories/InsertSpec.v
theories/InsertProofs.v
theories/InsertProps.v
theories/SquashSpec.v
theories/PlanRunProofs.v
theories/SquashProofs.v
theories/SquashProps.v
theories/RefuseSpec.v
theories/RefuseProofs.v
theories/RefuseProps.v
theories/AmendModel.v
theories/AmendSpec.v
theories/AmendProofs.v
theories/AmendProps.v
theories/SubmitModel.v
theories/SubmitSpec.v
theories/SubmitProofs.v
theories/SubmitProps.v
theories/RecCmdModel.v
theories/RecCmdSpec.v
theories/RecCmdProofs.v
theories/RecCmdProps.v
theories/TestCacheModel.v
theories/TestCacheSpec.v
theories/TestCacheProofs.v
theories/TestCacheProps.v
theories/FixModel.v
theories/FixSpec.v
theories/FixProofs.v
theories/FixProps.v
theories/GithubModel.v
theories/GithubSpec.v
theories/GithubProofs.v
theories/GithubDoneProofs.v
theories/GithubNewProofs.v
theories/GithubNameProofs.v
theories/GithubProps.v
theories/RewordCmdModel.v
theories/RewordCmdSpec.v
theories/SwapProofs.v
theories/SwapRunProofs.v
theories/RewordCmdProofs.v
theories/RewordCmdProps.v
theories/PhabModel.v
theories/PhabSpec.v
theories/PhabProofs.v
theories/PhabRunProofs.v
theories/PhabProps.v
theories/UpstreamModel.v
theories/UpstreamSpec.v
theories/UpstreamProofs.v
theories/UpstreamProps.v
theories/ReportModel.v
theories/ReportSpec.v
theories/ReportProofs.v
theories/ReportLikeProofs.v
theories/ReportProps.v
theories/SeqModel.v
theories/SeqSpec.v
theories/SeqProofs.v
theories/SeqRunProofs.v
theories/SeqBuildProofs.v
theories/SeqProps.v
theories/SameProofs.v
theories/SameProps.v
theories/QueryProps.v
theories/QueryProofs.v
theories/QuerySpec.v
theories/QueryModel.v
theories/DiskModel.v
theories/DiskProofs.v
theories/DiskProps.v
theories/DiskEndProofs.v
theories/DiskEndProps.v
theories/WrapModel.v
theories/WrapSpec.v
theories/WrapProofs.v
theories/WrapProps.v
theories/WarnModel.v
theories/WarnSpec.v
theories/WarnProofs.v
theories/WarnProps.v
theories/SnapCmdModel.v
theories/SnapCmdSpec.v
theories/SnapCmdProofs.v
theories/SnapCmdProps.v
theories/SeqUserModel.v
theories/SeqUserSpec.v
theories/SeqUserProofs.v
theories/SeqUserProps.v
theories/BrowseModel.v
theories/BrowseSpec.v
theories/BrowseProps.v
theories/TrapModel.v
theories/TrapSpec.v
theories/TrapProofs.v
theories/TrapProps.v
theories/ArgsModel.v
theories/ArgsSpec.v
theories/ArgsProofs.v
theories/ArgsProps.v
theories/TestOutputModel.v
theories/TestOutputSpec.v
theories/TestOutputProofs.v
theories/TestOutputProps.v
theories/UndoShowModel.v
theories/UndoShowSpec.v
theories/UndoShowProofs.v
theories/UndoShowProps.v
theories/TestAliasModel.v
theories/TestAliasSpec.v
theories/TestAliasProofs.v
theories/TestAliasProps.v
theories/ColourModel.v
theories/ColourSpec.v
theories/ColourProofs.v
theories/ColourProps.v
theories/EditorModel.v
theories/EditorSpec.v
theories/EditorProofs.v
theories/EditorProps.v
