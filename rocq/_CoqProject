-Q theories Verif
theories/AnalyzeCount.v
theories/AnalyzeModel.v
theories/AnalyzeProofs.v
theories/AnalyzeProps.v
theories/AnalyzeSpec.v
theories/AnimFields.v
theories/AnimModel.v
theories/AnimProofs.v
theories/AnimProps.v
theories/AnimSpec.v
theories/AtModel.v
theories/AtProofs.v
theories/AtProps.v
theories/AtSpec.v
theories/AtlasModel.v
theories/AtlasProofs.v
theories/AtlasProps.v
theories/AtlasSpec.v
theories/Base.v
theories/BaseLemmas.v
theories/BlurExact.v
theories/BlurModel.v
theories/BlurProofs.v
theories/BlurProps.v
theories/BlurSpec.v
theories/BlurTheory.v
theories/BuilderModel.v
theories/BuilderProofs.v
theories/BuilderProps.v
theories/BuilderSpec.v
theories/CacheModel.v
theories/CacheProofs.v
theories/CacheProps.v
theories/CacheSpec.v
theories/ChannelModel.v
theories/ChannelProofs.v
theories/ChannelProps.v
theories/ChannelSpec.v
theories/CollideModel.v
theories/CollideMore.v
theories/CollideProofs.v
theories/CollideProps.v
theories/CollideSpec.v
theories/ColorModel.v
theories/ColorProofs.v
theories/ColorProps.v
theories/ColorSpec.v
theories/CompareModel.v
theories/CompareProofs.v
theories/CompareProps.v
theories/CompareSpec.v
theories/CompleteGroups.v
theories/CompleteModel.v
theories/CompleteProofs.v
theories/CompleteProps.v
theories/CompleteSpec.v
theories/DiagModel.v
theories/DiagProps.v
theories/DocModel.v
theories/DocProofs.v
theories/DocProps.v
theories/DocSpec.v
theories/DrawModel.v
theories/DrawPath.v
theories/DrawProofs.v
theories/DrawProps.v
theories/DrawSpec.v
theories/EffectLines.v
theories/EffectModel.v
theories/EffectPlugModel.v
theories/EffectPlugProps.v
theories/EffectProofs.v
theories/EffectProps.v
theories/EffectSpec.v
theories/EventCmdDelete.v
theories/EventCmdEdit.v
theories/EventCmdLine.v
theories/EventCmdModel.v
theories/EventCmdProofs.v
theories/EventCmdProps.v
theories/EventCmdScan.v
theories/EventCmdSpec.v
theories/EventsModel.v
theories/EventsProofs.v
theories/EventsProps.v
theories/EventsSpec.v
theories/ExtModel.v
theories/ExtProofs.v
theories/ExtProps.v
theories/ExtSpec.v
theories/FloatModel.v
theories/FloatProofs.v
theories/FloatProps.v
theories/FloatSpec.v
theories/FloatTextProofs.v
theories/FontModel.v
theories/FontProofs.v
theories/FontProps.v
theories/FontSpec.v
theories/FormatFile.v
theories/FormatModel.v
theories/FormatMore.v
theories/FormatMoreProps.v
theories/FormatMoreSpec.v
theories/FormatProofs.v
theories/FormatProps.v
theories/FormatRegModel.v
theories/FormatRegProps.v
theories/FormatSpec.v
theories/FormatText.v
theories/FormatTotal.v
theories/FrameModel.v
theories/FrameProofs.v
theories/FrameProps.v
theories/FrameSpec.v
theories/GpuCalls.v
theories/GpuGeom.v
theories/GpuModel.v
theories/GpuPlaceSpec.v
theories/GpuProofs.v
theories/GpuProps.v
theories/GpuRun.v
theories/GpuSpec.v
theories/GpuTiles.v
theories/HandlerBlock.v
theories/HandlerBlockSpec.v
theories/HandlerModel.v
theories/HandlerProofs.v
theories/HandlerProps.v
theories/HandlerSpec.v
theories/HighlightDoc.v
theories/HighlightLine.v
theories/HighlightModel.v
theories/HighlightProofs.v
theories/HighlightProps.v
theories/HighlightSpec.v
theories/IncrBounds.v
theories/IncrModel.v
theories/IncrParseProofs.v
theories/IncrProofs.v
theories/IncrProps.v
theories/IncrSpec.v
theories/InfoCmdModel.v
theories/InfoCmdProofs.v
theories/InfoCmdProps.v
theories/InfoCmdSpec.v
theories/InspectModel.v
theories/InspectProps.v
theories/IssueModel.v
theories/IssueProps.v
theories/KaraokeBeat.v
theories/KaraokeModel.v
theories/KaraokeMore.v
theories/KaraokeProofs.v
theories/KaraokeProps.v
theories/KaraokeSpec.v
theories/LayoutModel.v
theories/LayoutMove.v
theories/LayoutProofs.v
theories/LayoutProps.v
theories/LayoutSpec.v
theories/LineEditModel.v
theories/LineEditProofs.v
theories/LineEditProps.v
theories/LineEditSpec.v
theories/LintModel.v
theories/LintProofs.v
theories/LintProps.v
theories/LintRunProofs.v
theories/LintSpec.v
theories/LintSpeedProofs.v
theories/MapLib.v
theories/MatrixModel.v
theories/MatrixProofs.v
theories/MatrixProps.v
theories/MatrixSpec.v
theories/MediaCmdModel.v
theories/MediaCmdProofs.v
theories/MediaCmdProps.v
theories/MediaCmdSpec.v
theories/MemModel.v
theories/MemProps.v
theories/NumProofs.v
theories/NumSpec.v
theories/ParseAgainProofs.v
theories/ParseLineProofs.v
theories/ParseLines.v
theories/ParseMain.v
theories/ParseModel.v
theories/ParseProofs.v
theories/ParseProps.v
theories/ParseScriptProofs.v
theories/ParseSections.v
theories/ParseSpec.v
theories/ParseTracker.v
theories/PixelCrop.v
theories/PixelLib.v
theories/PixelModel.v
theories/PixelProofs.v
theories/PixelProps.v
theories/PixelRgba.v
theories/PixelSpec.v
theories/PlaceAnchor.v
theories/PlaceLines.v
theories/PlaceModel.v
theories/PlaceProofs.v
theories/PlaceProps.v
theories/PlaceSpec.v
theories/PlayerModel.v
theories/PlayerProofs.v
theories/PlayerProps.v
theories/PlayerSpec.v
theories/PluginModel.v
theories/PluginProofs.v
theories/PluginProps.v
theories/PluginSpec.v
theories/QueryModel.v
theories/QueryProofs.v
theories/QueryProps.v
theories/QuerySpec.v
theories/RasterArea.v
theories/RasterBound.v
theories/RasterDeposit.v
theories/RasterEdge.v
theories/RasterLine.v
theories/RasterModel.v
theories/RasterPath.v
theories/RasterProps.v
theories/RasterSafe.v
theories/RasterShare.v
theories/RasterSpec.v
theories/RasterTile.v
theories/RasterWhole.v
theories/RunModel.v
theories/RunProofs.v
theories/RunProps.v
theories/RunSpec.v
theories/RunStill.v
theories/ScoreProofs.v
theories/ScriptDeltaModel.v
theories/ScriptDeltaProofs.v
theories/ScriptDeltaProps.v
theories/ScriptDeltaSpec.v
theories/ScriptLayout.v
theories/ScriptModel.v
theories/ScriptMoreProofs.v
theories/ScriptProofs.v
theories/ScriptProps.v
theories/ScriptSpec.v
theories/SearchFst.v
theories/SearchModel.v
theories/SearchMore.v
theories/SearchProofs.v
theories/SearchProps.v
theories/SearchSpec.v
theories/SearchUpdate.v
theories/SegmentBlock.v
theories/SegmentEvent.v
theories/SegmentModel.v
theories/SegmentProofs.v
theories/SegmentProps.v
theories/SegmentSpec.v
theories/SegmentWalk.v
theories/SelectModel.v
theories/SelectProofs.v
theories/SelectProps.v
theories/SelectRunProofs.v
theories/SelectSpec.v
theories/SessionModel.v
theories/SessionProofs.v
theories/SessionProps.v
theories/SessionSpec.v
theories/ShapeCache.v
theories/ShapeModel.v
theories/ShapeProofs.v
theories/ShapeProps.v
theories/ShapeSpec.v
theories/ShowModel.v
theories/ShowProofs.v
theories/ShowProps.v
theories/ShowSpec.v
theories/SortLib.v
theories/SpanModel.v
theories/SpanProps.v
theories/StreamModel.v
theories/StreamProofs.v
theories/StreamProps.v
theories/StreamSpec.v
theories/StyleCmdApply.v
theories/StyleCmdModel.v
theories/StyleCmdProofs.v
theories/StyleCmdProps.v
theories/StyleCmdSpec.v
theories/StyleGraphProofs.v
theories/StyleLinkProofs.v
theories/StyleModel.v
theories/StyleProofs.v
theories/StyleProps.v
theories/StyleResolveProofs.v
theories/StyleSpec.v
theories/SyncModel.v
theories/SyncProofs.v
theories/SyncProps.v
theories/SyncSpec.v
theories/TagCmdModel.v
theories/TagCmdProofs.v
theories/TagCmdProps.v
theories/TagCmdSpec.v
theories/TagModel.v
theories/TagProofs.v
theories/TagProps.v
theories/TagSpec.v
theories/TextProofs.v
theories/TileEmit.v
theories/TileHistory.v
theories/TileModel.v
theories/TileProofs.v
theories/TileProps.v
theories/TileSpec.v
theories/TimeModel.v
theories/TimeProofs.v
theories/TimeProps.v
theories/TimeSpec.v
theories/TokenLexProofs.v
theories/TokenModel.v
theories/TokenProofs.v
theories/TokenProps.v
theories/TokenSpec.v
theories/TrackModel.v
theories/TrackProofs.v
theories/TrackProps.v
theories/TrackSpec.v
theories/Utf8Model.v
theories/Utf8Proofs.v
theories/Utf8Props.v
theories/Utf8Spec.v
theories/UuModel.v
theories/UuProofs.v
theories/UuProps.v
theories/UuSpec.v
theories/ValidModel.v
theories/ValidProofs.v
theories/ValidProps.v
theories/ValidSpec.v
theories/WrapModel.v
theories/WrapProofs.v
theories/WrapProps.v
theories/WrapSpec.v
