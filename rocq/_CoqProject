-Q theories Verif
theories/ArrayModel.v
theories/ArrayProofs.v
theories/ArrayProps.v
theories/ArraySpec.v
theories/AttrModel.v
theories/AttrProofs.v
theories/AttrProps.v
theories/AttrSpec.v
theories/Base.v
theories/BaseProofs.v
theories/BinaryModel.v
theories/BinaryProofs.v
theories/BinaryProps.v
theories/BinarySpec.v
theories/BufferModel.v
theories/BufferProofs.v
theories/BufferProps.v
theories/BufferSpec.v
theories/CodeGenDeclProofs.v
theories/CodeGenFileProofs.v
theories/CodeGenFwdProofs.v
theories/CodeGenModel.v
theories/CodeGenProofs.v
theories/CodeGenProps.v
theories/CodeGenSpec.v
theories/CodeGenTreeProofs.v
theories/DatabaseModel.v
theories/ExportFlagProofs.v
theories/ExportLinkProofs.v
theories/ExportMainProofs.v
theories/ExportModel.v
theories/ExportParentProofs.v
theories/ExportProofs.v
theories/ExportProps.v
theories/ExportSpec.v
theories/ExportTablesProofs.v
theories/ExportWitness.v
theories/FileUtilsModel.v
theories/FileUtilsProofs.v
theories/FileUtilsProps.v
theories/FileUtilsSpec.v
theories/HashModel.v
theories/HashProofs.v
theories/HashProps.v
theories/HashSpec.v
theories/ImageLayout.v
theories/ImageModel.v
theories/ImageProofs.v
theories/ImageProps.v
theories/ImageSpec.v
theories/JsonCutProofs.v
theories/JsonLexModel.v
theories/JsonLexProofs.v
theories/JsonLexProps.v
theories/JsonLexSpec.v
theories/JsonNumModel.v
theories/JsonNumProofs.v
theories/JsonNumProps.v
theories/JsonNumSpec.v
theories/JsonObjModel.v
theories/JsonObjProofs.v
theories/JsonObjProps.v
theories/JsonObjSpec.v
theories/JsonRoundProofs.v
theories/JsonSafeProofs.v
theories/JsonSafeProps.v
theories/JsonSafeSpec.v
theories/JsonSaveProofs.v
theories/JsonStoreProofs.v
theories/LaidImageProofs.v
theories/LaidLinkProofs.v
theories/LaidMemProofs.v
theories/LaidMemProps.v
theories/LaidModel.v
theories/LaidProofs.v
theories/LaidProps.v
theories/LaidReadProofs.v
theories/LaidSpec.v
theories/LaidWitness.v
theories/LifeModel.v
theories/LifeProofs.v
theories/LifeProps.v
theories/LifeSpec.v
theories/LogFileProofs.v
theories/LogModel.v
theories/LogProofs.v
theories/LogProps.v
theories/LogSpec.v
theories/MacModel.v
theories/MacProofs.v
theories/MacProps.v
theories/MacSpec.v
theories/MapFileModel.v
theories/MapFileProps.v
theories/MapFileSpec.v
theories/MapNameProofs.v
theories/MapNestProofs.v
theories/MapParamProofs.v
theories/MapSafeProofs.v
theories/MapTableProofs.v
theories/Maps.v
theories/MergeModel.v
theories/MergeProofs.v
theories/MergeProps.v
theories/MergeSpec.v
theories/MethodModel.v
theories/MethodProofs.v
theories/MethodProps.v
theories/MmapModel.v
theories/MmapProofs.v
theories/MmapProps.v
theories/MmapSpec.v
theories/ModuleModel.v
theories/ModuleProofs.v
theories/ModuleProps.v
theories/ModuleSpec.v
theories/MsvcModel.v
theories/MsvcProofs.v
theories/MsvcProps.v
theories/MsvcSignProofs.v
theories/MsvcSpec.v
theories/NamesProofs.v
theories/NamesProps.v
theories/ObjectsIterProofs.v
theories/ObjectsModel.v
theories/ObjectsProofs.v
theories/ObjectsProps.v
theories/ObjectsSpec.v
theories/ParamJsonProofs.v
theories/ParamModel.v
theories/ParamProofs.v
theories/ParamProps.v
theories/ParamSpec.v
theories/PipeExportProofs.v
theories/PipeExportProps.v
theories/PipeExportWitness.v
theories/PipeFileProofs.v
theories/PipeInvProofs.v
theories/PipeMergeProofs.v
theories/PipeProps.v
theories/PipeScanProofs.v
theories/PipeSpec.v
theories/PipeWitness.v
theories/QueryFindProps.v
theories/QueryLoadProofs.v
theories/QueryLoadProps.v
theories/QueryModel.v
theories/QueryProofs.v
theories/QuerySearchProofs.v
theories/QuerySpec.v
theories/QueryStillProofs.v
theories/QueryViewProofs.v
theories/RuntimeModel.v
theories/RuntimeProofs.v
theories/RuntimeProps.v
theories/ScanAttrProofs.v
theories/ScanFunProofs.v
theories/ScanGroupProofs.v
theories/ScanModel.v
theories/ScanParseProofs.v
theories/ScanProps.v
theories/ScanRunProofs.v
theories/ScanSpec.v
theories/ScanTableProofs.v
theories/ScanTermProofs.v
theories/ScanTypeProofs.v
theories/ScanWalkProofs.v
theories/ScanWitness.v
theories/SearchModel.v
theories/SearchProofs.v
theories/SearchProps.v
theories/Text.v
theories/TextDbModel.v
theories/TextDbProofs.v
theories/TextDbProps.v
theories/TextDbSpec.v
theories/ToolsModel.v
theories/ToolsProofs.v
theories/ToolsProps.v
theories/ToolsSpec.v
theories/ToolsWitness.v
theories/VersBinCoreProofs.v
theories/VersBinModel.v
theories/VersBinProofs.v
theories/VersBinProps.v
theories/VersBinSafeProofs.v
theories/VersBinSpec.v
theories/VersBinTopProofs.v
theories/VisitModel.v
theories/VisitProofs.v
theories/VisitProps.v
theories/VisitSpec.v
