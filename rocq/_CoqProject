-Q theories Verif
theories/ArgModel.v
theories/ArgProofs.v
theories/ArgProps.v
theories/ArgSpec.v
theories/Base.v
theories/BaseLemmas.v
theories/BcModel.v
theories/BcProofs.v
theories/BcProps.v
theories/BcSpec.v
theories/BinModel.v
theories/BinOutModel.v
theories/BinOutProofs.v
theories/BinOutProps.v
theories/BinProofs.v
theories/BinProofs2.v
theories/BinProofs3.v
theories/BinProps.v
theories/BinSpec.v
theories/BucketModel.v
theories/BucketProps.v
theories/BucketSpec.v
theories/CdistModel.v
theories/CdistProofs.v
theories/CdistProofs2.v
theories/CdistProofs3.v
theories/CdistProofs4.v
theories/CdistProps.v
theories/CgModel.v
theories/CgProps.v
theories/CgProps2.v
theories/CgProps3.v
theories/CgSpec.v
theories/CloseModel.v
theories/CloseProofs.v
theories/CloseProofs2.v
theories/CloseProps.v
theories/CloseSpec.v
theories/CollModel.v
theories/CollProofs.v
theories/CollProps.v
theories/ConcatModel.v
theories/ConcatProofs.v
theories/ConcatProofs2.v
theories/ConcatProofs3.v
theories/ConcatProps.v
theories/ConcatSpec.v
theories/ConvModel.v
theories/ConvProofs.v
theories/ConvProofs2.v
theories/ConvProofs3.v
theories/ConvProps.v
theories/ConvProps2.v
theories/ConvSpec.v
theories/CrossModel.v
theories/CrossProofs.v
theories/CrossProps.v
theories/CrossSpec.v
theories/CsvModel.v
theories/CsvProofs.v
theories/CsvProofs2.v
theories/CsvProofs3.v
theories/CsvProofs4.v
theories/CsvProofs5.v
theories/CsvProofs6.v
theories/CsvProps.v
theories/CsvSpec.v
theories/DasoModel.v
theories/DasoProofs.v
theories/DasoProofs2.v
theories/DasoProps.v
theories/DasoSpec.v
theories/DiagModel.v
theories/DiagProofs.v
theories/DiagProps.v
theories/DiagProps2.v
theories/DiagProps3.v
theories/DiagSpec.v
theories/DiffModel.v
theories/DiffProofs.v
theories/DiffProofs2.v
theories/DiffProps.v
theories/DiffSpec.v
theories/DotModel.v
theories/DotProps.v
theories/DotProps2.v
theories/DotSpec.v
theories/DpModel.v
theories/DpProofs.v
theories/DpProofs2.v
theories/DpProps.v
theories/DpSpec.v
theories/DsetModel.v
theories/DsetProofs.v
theories/DsetProps.v
theories/DtypeModel.v
theories/DtypeProofs.v
theories/DtypeProofs2.v
theories/DtypeProofs3.v
theories/DtypeProofs4.v
theories/DtypeProps.v
theories/DtypeSpec.v
theories/FactoryModel.v
theories/FactoryProps.v
theories/FftModel.v
theories/FftProps.v
theories/FftSpec.v
theories/GaussAlg.v
theories/GaussModel.v
theories/GaussProofs.v
theories/GaussProps.v
theories/GaussTop.v
theories/GnbModel.v
theories/GnbProofs.v
theories/GnbProofs2.v
theories/GnbProps.v
theories/GnbSpec.v
theories/HaloModel.v
theories/HaloProofs.v
theories/HaloProps.v
theories/HistModel.v
theories/HistProofs.v
theories/HistProps.v
theories/HistSpec.v
theories/IndexModel.v
theories/IndexProofs.v
theories/IndexProofs2.v
theories/IndexProps.v
theories/KmModel.v
theories/KmProofs.v
theories/KmProps.v
theories/KmSpec.v
theories/LayoutModel.v
theories/LayoutProofs.v
theories/LayoutProps.v
theories/LayoutSpec.v
theories/LocalModel.v
theories/LocalProofs.v
theories/LocalProps.v
theories/MaskModel.v
theories/MaskProofs.v
theories/MaskProps.v
theories/MaskProps2.v
theories/MaskSpec.v
theories/MatmulModel.v
theories/MatmulProofs.v
theories/MatmulProofs2.v
theories/MatmulProofs3.v
theories/MatmulProps.v
theories/MatmulProps2.v
theories/MatmulProps3.v
theories/MatmulSpec.v
theories/MeshModel.v
theories/MeshProps.v
theories/MeshSpec.v
theories/MetaModel.v
theories/MetaProofs.v
theories/NdLemmas.v
theories/NdPerm.v
theories/NdSpec.v
theories/NonzeroProps.v
theories/OpsModel.v
theories/OpsProofs.v
theories/OpsProofs2.v
theories/OpsProofs3.v
theories/OpsProofs4.v
theories/OpsProofs5.v
theories/OpsProofs6.v
theories/OpsProps.v
theories/OuterModel.v
theories/OuterProofs.v
theories/OuterProps.v
theories/PadModel.v
theories/PadProofs.v
theories/PadProofs2.v
theories/PadProofs3.v
theories/PadProps.v
theories/PadProps2.v
theories/PadSpec.v
theories/PartModel.v
theories/PartProps.v
theories/PartSpec.v
theories/PdsModel.v
theories/PdsProofs.v
theories/PdsProofs2.v
theories/PdsProofs3.v
theories/PdsProps.v
theories/PercFloat.v
theories/PercModel.v
theories/PercProofs.v
theories/PercProofs2.v
theories/PercProofs3.v
theories/PercProofs4.v
theories/PercProps.v
theories/PercProps2.v
theories/PercSpec.v
theories/PlatModel.v
theories/PlatProofs.v
theories/PlatProps.v
theories/PlatSpec.v
theories/PrintModel.v
theories/PrintProofs.v
theories/PrintProofs2.v
theories/PrintProps.v
theories/PrintSpec.v
theories/PtpModel.v
theories/PtpProofs.v
theories/PtpProofs2.v
theories/PtpProps.v
theories/PtpSpec.v
theories/PySpec.v
theories/PySpecSel.v
theories/QrColModel.v
theories/QrColProofs.v
theories/QrColProps.v
theories/QrModel.v
theories/QrProofs.v
theories/QrProofs2.v
theories/QrProps.v
theories/QrRowModel.v
theories/QrRowProofs.v
theories/QrRowProofs2.v
theories/QrRowProps.v
theories/QrSpec.v
theories/RandFloat.v
theories/RandFloatProps.v
theories/RandModel.v
theories/RandProofs.v
theories/RandProofs2.v
theories/RandProofs3.v
theories/RandProofs4.v
theories/RandProofs5.v
theories/RandProps.v
theories/RandSpec.v
theories/RedistModel.v
theories/RedistProofs.v
theories/RedistProps.v
theories/RepeatModel.v
theories/RepeatProofs.v
theories/RepeatProofs2.v
theories/RepeatProofs3.v
theories/RepeatProps.v
theories/RepeatProps2.v
theories/RepeatSpec.v
theories/ReshapeModel.v
theories/ReshapeProofs.v
theories/ReshapeProps.v
theories/RingModel.v
theories/RingProofs.v
theories/RollModel.v
theories/RollProofs.v
theories/RollProofs2.v
theories/RollProofs3.v
theories/RollProofs4.v
theories/RollProps.v
theories/RollSpec.v
theories/SampModel.v
theories/SampProofs.v
theories/SampProofs2.v
theories/SampProps.v
theories/SampProps2.v
theories/SampSpec.v
theories/SaveModel.v
theories/SaveProofs.v
theories/SaveProofs2.v
theories/SaveProofs3.v
theories/SaveProofs4.v
theories/SaveProofs5.v
theories/SaveProofs6.v
theories/SaveProps.v
theories/SaveSpec.v
theories/ScalerModel.v
theories/ScalerProps.v
theories/ScalerProps2.v
theories/ScalerProps3.v
theories/SchedModel.v
theories/SchedProofs.v
theories/SchedProps.v
theories/ShapeModel.v
theories/ShapeProofs.v
theories/ShapeProofs2.v
theories/ShapeProofs3.v
theories/ShapeProofs4.v
theories/ShapeProofs5.v
theories/ShapeProofs6.v
theories/ShapeProps.v
theories/ShapeSpec.v
theories/SlabLemmas.v
theories/SliceLemmas.v
theories/SortModel.v
theories/SortNd.v
theories/SortProofs.v
theories/SortProofs2.v
theories/SortProofs3.v
theories/SortProofs4.v
theories/SortProps.v
theories/SortProps2.v
theories/SortSpec.v
theories/SparseModel.v
theories/SparseProofs.v
theories/SparseProofs2.v
theories/SparseProps.v
theories/SparseProps2.v
theories/SparseProps3.v
theories/SparseSpec.v
theories/SplitModel.v
theories/SplitProofs.v
theories/SplitProps.v
theories/SplitProps2.v
theories/SplitSpec.v
theories/StatModel.v
theories/StatProofs.v
theories/StatProps.v
theories/StatSpec.v
theories/TensorLemmas.v
theories/TensorSpec.v
theories/TileModel.v
theories/TileProofs.v
theories/TileProofs2.v
theories/TileProps.v
theories/TileProps2.v
theories/TopkModel.v
theories/TopkProofs.v
theories/TopkProps.v
theories/TopkProps2.v
theories/TopkSpec.v
theories/TraceModel.v
theories/TraceProofs.v
theories/TraceProps.v
theories/TraceSpec.v
theories/TriModel.v
theories/TriProofs.v
theories/TriProps.v
theories/TriSpec.v
theories/TypesModel.v
theories/TypesProps.v
theories/TypesSpec.v
theories/UnfoldModel.v
theories/UnfoldProofs.v
theories/UnfoldProps.v
theories/UnfoldSpec.v
theories/UniqueInvModel.v
theories/UniqueModel.v
theories/UniqueProps.v
theories/UniqueProps2.v
theories/UniqueProps3.v
theories/UniqueProps4.v
theories/UniqueSpec.v
theories/VmapModel.v
theories/VmapProofs.v
theories/VmapProps.v
theories/VmapSpec.v
theories/WhereProps.v
