-Q theories Verif
theories/LoadPartitioningModel.v
theories/PartitionSpec.v
theories/LoadPartitioningProofs.v
theories/LoadPartitioning.v
theories/ListUtil.v
theories/TaskQueueModel.v
theories/TaskQueueSpec.v
theories/TaskQueueProofs.v
theories/TaskQueueLive.v
theories/TaskQueue.v
theories/WorkStealingModel.v
theories/WorkStealingProofs.v
theories/WorkStealing.v
theories/CppBase.v
theories/CSRModel.v
theories/CSRSpec.v
theories/CSRProofs.v
theories/CSRAppendProofs.v
theories/CSR.v
theories/DenseModel.v
theories/DenseSpec.v
theories/DenseProofs.v
theories/Dense.v
theories/Mem.v
theories/DistributedModel.v
theories/DistributedSpec.v
theories/Distributed.v
theories/FrameModel.v
theories/Frame.v
theories/UtilModel.v
theories/BoundedSet.v
theories/StringRef.v
theories/ScopedSymbols.v
theories/RefCountModel.v
theories/RefCountSpec.v
theories/RefCount.v
theories/PipelineModel.v
theories/PipelineSpec.v
theories/PipelineProofs.v
theories/PipelineAgg.v
theories/Pipeline.v
theories/CSRView.v
theories/SinkModel.v
theories/SinkSpec.v
theories/SinkProofs.v
theories/Sink.v
theories/SerModel.v
theories/SerSpec.v
theories/SerProofs.v
theories/Ser.v
theories/SparseLoops.v
theories/TransposeModel.v
theories/TransposeProofs.v
theories/Transpose.v
theories/CastModel.v
theories/CastProofs.v
theories/Cast.v
theories/AggModel.v
theories/AggSpec.v
theories/AggProofs.v
theories/MachInt.v
theories/Agg.v
theories/MatMulModel.v
theories/MatMulSpec.v
theories/MatMulProofs.v
theories/SparseSpec.v
theories/MatMul.v
theories/SymModel.v
theories/Sym.v
theories/BitmapModel.v
theories/Bitmap.v
theories/RandModel.v
theories/RandProofs.v
theories/Rand.v
theories/ExtractModel.v
theories/Extract.v
theories/OrderModel.v
theories/OrderSpec.v
theories/OrderProofs.v
theories/Order.v
theories/RecodeModel.v
theories/Recode.v
theories/JoinModel.v
theories/Join.v
theories/CsvModel.v
theories/Csv.v
theories/CooModel.v
theories/Coo.v
theories/SparseBuild.v
theories/ReorgModel.v
theories/Reorg.v
theories/InsertModel.v
theories/Insert.v
theories/EwModel.v
theories/Ew.v
theories/RefsModel.v
theories/Refs.v
theories/FrontModel.v
theories/Front.v
theories/GroupModel.v
theories/Group.v
theories/FoldModel.v
theories/Fold.v
theories/FusionModel.v
theories/FusionSpec.v
theories/FusionProofs.v
theories/Fusion.v
theories/EarlyModel.v
theories/EarlySpec.v
theories/EarlyProofs.v
theories/EarlySound.v
theories/EarlyWf.v
theories/Early.v
theories/ShapeModel.v
theories/ShapeSpec.v
theories/ShapeProofs.v
theories/ShapePass.v
theories/ShapeRounds.v
theories/Shape.v
theories/DenseMMModel.v
theories/DenseMMSpec.v
theories/DenseMMProofs.v
theories/DenseMM.v
theories/ShapeKnown.v
theories/ColumnarModel.v
theories/ColumnarSpec.v
theories/ColumnarProofs.v
theories/ColumnarGroup.v
theories/Columnar.v
theories/SplitModel.v
theories/Split.v
theories/SimpSpec.v
theories/SimpModel.v
theories/SimpFloat.v
theories/SimpProofs.v
theories/Simp.v
theories/HFuseModel.v
theories/HFuseSpec.v
theories/HFuseProofs.v
theories/HFuseLoop.v
theories/HFuse.v
theories/PipeSigModel.v
theories/PipeSigSpec.v
theories/PipeSigProofs.v
theories/PipeSig.v
theories/VecOpModel.v
theories/VecOpSpec.v
theories/VecOpProofs.v
theories/VecOpOps.v
theories/VecOp.v
theories/TensorModel.v
theories/TensorSpec.v
theories/TensorProofs.v
theories/TensorOps.v
theories/TensorOps2.v
theories/TensorOps3.v
theories/Tensor.v
theories/SqlSyntax.v
theories/SqlModel.v
theories/SqlSpec.v
theories/SqlSort.v
theories/SqlNames.v
theories/SqlRows.v
theories/SqlVisit.v
theories/SqlTables.v
theories/SqlQuery.v
theories/SqlSelect.v
theories/SqlGroup.v
theories/SqlAnswer.v
theories/Sql.v
theories/ThetaModel.v
theories/Theta.v
theories/PlaceModel.v
theories/Place.v
theories/EncodeModel.v
theories/EncodeProofs.v
theories/EncodeProofs2.v
theories/Encode.v
theories/HdfsModel.v
theories/HdfsSpec.v
theories/HdfsProofs.v
theories/HdfsCsvProofs.v
theories/Hdfs.v
theories/PyModel.v
theories/PySpec.v
theories/PyProofs.v
theories/PyCtlProofs.v
theories/PyTopProofs.v
theories/Py.v
theories/PyClear.v
theories/LabelsModel.v
theories/LabelsSpec.v
theories/LabelsProofs.v
theories/LabelsCanon.v
theories/Labels.v
theories/UdfModel.v
theories/UdfSpec.v
theories/UdfProofs.v
theories/UdfInv.v
theories/UdfTypes.v
theories/Udf.v
theories/ConvModel.v
theories/ConvSpec.v
theories/ConvProofs.v
theories/Conv.v
theories/ConvBackModel.v
theories/ConvBackSpec.v
theories/ConvBackProofs.v
theories/ConvFilterProofs.v
theories/ConvDataProofs.v
theories/ConvBack.v
theories/MmModel.v
theories/MmSpec.v
theories/MmProofs.v
theories/MmReadProofs.v
theories/Mm.v
theories/PromoteModel.v
theories/PromoteSpec.v
theories/PromoteProofs.v
theories/Promote.v
theories/FrameCsvModel.v
theories/FrameCsvSpec.v
theories/FrameCsvProofs.v
theories/FrameCsv.v
theories/SparsityModel.v
theories/SparsitySpec.v
theories/SparsityProofs.v
theories/SparsityInfer.v
theories/KernelModel.v
theories/KernelSpec.v
theories/KernelProofs.v
theories/KernelChoice.v
theories/CallArgsModel.v
theories/CallArgsSpec.v
theories/CallArgsProofs.v
theories/CallArgs.v
theories/LiteralModel.v
theories/LiteralSpec.v
theories/LiteralProofs.v
theories/Literal.v
theories/IndexingModel.v
theories/IndexingSpec.v
theories/IndexingProofs.v
theories/Indexing.v
theories/GroupJoinModel.v
theories/GroupJoin.v
theories/CondModel.v
theories/Cond.v
theories/CastExprModel.v
theories/CastExpr.v
theories/StrValModel.v
theories/StrVal.v
theories/NNLayerModel.v
theories/NNLayer.v
theories/ListModel.v
theories/Lists.v
theories/PropRecModel.v
theories/PropRec.v
theories/ConfigModel.v
theories/Config.v
theories/ApproxModel.v
theories/Approx.v
