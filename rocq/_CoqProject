-Q theories Verif
theories/Lib.v
theories/Base.v
theories/Scan.v
theories/Parser.v
theories/ParserSpec.v
theories/ParserProofs.v
theories/ScanProofs.v
theories/ParserProps.v
theories/Convert110.v
theories/Convert110Spec.v
theories/Convert110Proofs.v
theories/Convert110Props.v
theories/Unwrap.v
theories/UnwrapSpec.v
theories/UnwrapProofs.v
theories/UnwrapProps.v
theories/Calendar.v
theories/CalendarSpec.v
theories/CalendarProofs.v
theories/CalendarProps.v
theories/Process.v
theories/ProcessSpec.v
theories/ProcessProofs.v
theories/ProcessProps.v
theories/ReadSeveral.v
theories/ReadSeveralSpec.v
theories/ReadSeveralProofs.v
theories/ReadSeveralProps.v
theories/Drift.v
theories/DriftSpec.v
theories/DriftProofs.v
theories/DriftProps.v
theories/Segments.v
theories/SegmentsSpec.v
theories/SegmentsProofs.v
theories/SegmentsProps.v
theories/Interp.v
theories/InterpSpec.v
theories/InterpProofs.v
theories/InterpProps.v
theories/Stream.v
theories/StreamSpec.v
theories/StreamProofs.v
theories/StreamProps.v
theories/Convert.v
theories/ConvertSpec.v
theories/ConvertProofs.v
theories/ConvertProps.v
theories/Select.v
theories/SelectSpec.v
theories/SelectProofs.v
theories/SelectProps.v
theories/Names.v
theories/NamesSpec.v
theories/NamesProofs.v
theories/NamesProps.v
theories/Specs.v
theories/SpecsSpec.v
theories/SpecsProofs.v
theories/SpecsProps.v
theories/GemCat.v
theories/GemCatSpec.v
theories/GemCatProofs.v
theories/GemCatProps.v
theories/Outliers.v
theories/OutliersSpec.v
theories/OutliersProofs.v
theories/OutliersProps.v
theories/Stations.v
theories/StationsSpec.v
theories/StationsProofs.v
theories/StationsProps.v
theories/Inventory.v
theories/InventorySpec.v
theories/InventoryProofs.v
theories/InventoryProps.v
theories/Gps.v
theories/GpsSpec.v
theories/GpsProofs.v
theories/GpsProps.v
theories/Windows.v
theories/WindowsSpec.v
theories/WindowsProofs.v
theories/WindowsProps.v
theories/Slowness.v
theories/SlownessSpec.v
theories/SlownessProofs.v
theories/SlownessProps.v
theories/Ids.v
theories/IdsSpec.v
theories/IdsProofs.v
theories/IdsProps.v
theories/Days.v
theories/DaysSpec.v
theories/DaysProofs.v
theories/DaysProps.v
theories/Workers.v
theories/WorkersSpec.v
theories/WorkersProofs.v
theories/WorkersProps.v
theories/Cli.v
theories/CliSpec.v
theories/CliProofs.v
theories/CliProps.v
theories/Huddle.v
theories/HuddleSpec.v
theories/HuddleProofs.v
theories/HuddleGroupProofs.v
theories/HuddleTempProofs.v
theories/HuddleProps.v
theories/Fields.v
theories/FieldsProofs.v
theories/FieldsProps.v
theories/Breaks.v
theories/BreaksSpec.v
theories/BreaksProofs.v
theories/BreaksProps.v
theories/Block.v
theories/BlockSpec.v
theories/BlockProofs.v
theories/BlockProps.v
theories/Reference.v
theories/ReferenceSpec.v
theories/ReferenceProofs.v
theories/ReferenceProps.v
theories/Header.v
theories/HeaderSpec.v
theories/HeaderProofs.v
theories/HeaderProps.v
theories/Single.v
theories/SingleSpec.v
theories/SingleProofs.v
theories/SingleProps.v
theories/Patch.v
theories/PatchSpec.v
theories/PatchProofs.v
theories/PatchProps.v
theories/Daily.v
theories/DailySpec.v
theories/DailyProofs.v
theories/DailyProps.v
theories/Xcorr.v
theories/XcorrSpec.v
theories/XcorrProofs.v
theories/XcorrProps.v
theories/Directions.v
theories/DirectionsProps.v
theories/Pandas.v
theories/PandasSpec.v
theories/PandasProofs.v
theories/PandasFallback.v
theories/PandasProps.v
theories/Again.v
theories/AgainProofs.v
theories/AgainGps.v
theories/AgainProps.v
theories/Database.v
theories/DatabaseSpec.v
theories/DatabaseProofs.v
theories/DatabaseProps.v
theories/Response.v
theories/ResponseSpec.v
theories/ResponseProps.v
theories/RecordingSpec.v
theories/RecordingProofs.v
theories/RecordingTotal.v
theories/RecordingProps.v
theories/RecordingCase.v
theories/RecordingWhole.v
theories/Commands.v
theories/CommandsSpec.v
theories/CommandsProofs.v
theories/CommandsProps.v
theories/Convert095.v
theories/Convert095Spec.v
theories/Convert095Proofs.v
theories/Convert095Props.v
theories/Pool.v
theories/PoolSpec.v
theories/PoolProofs.v
theories/PoolProps.v
theories/Card.v
theories/CardSpec.v
theories/CardProofs.v
theories/CardProps.v
theories/CardCase.v
theories/Merge.v
theories/MergeSpec.v
theories/MergeProofs.v
theories/MergeProps.v
theories/MergeCase.v
theories/BlankSpec.v
theories/BlankProps.v
theories/PausesSpec.v
theories/PausesProofs.v
theories/PausesBlock.v
theories/PausesWhole.v
theories/PausesProps.v
theories/PausesCase.v
theories/LogsSpec.v
theories/LogsProofs.v
theories/LogsBlock.v
theories/LogsProps.v
theories/LogsCase.v
theories/Noise.v
theories/NoiseSpec.v
theories/NoiseProps.v
theories/Continuity.v
theories/ContinuitySpec.v
theories/ContinuityProps.v
theories/Site.v
theories/SiteSpec.v
theories/SiteProofs.v
theories/SiteProps.v
theories/SiteCase.v
theories/DoubleSpec.v
theories/Double.v
theories/DoubleProofs.v
theories/DoubleRound.v
theories/DoubleProps.v
theories/DoubleInterpSpec.v
theories/DoubleInterp.v
theories/DoubleInterpProofs.v
theories/DoubleInterpProps.v
theories/DoubleTimesSpec.v
theories/DoubleTimes.v
theories/DoubleTimesProofs.v
theories/DoubleTimesProps.v
theories/InterpLimits.v
theories/DoubleSeveral.v
theories/DoubleSeveralSpec.v
theories/DoubleSeveralProofs.v
theories/DoubleSeveralLoop.v
theories/DoubleSeveralProps.v
theories/DoubleWholeSpec.v
theories/DoubleWholeProofs.v
theories/DoubleWholeProps.v
theories/DoubleWholeCase.v
theories/Bearing.v
theories/BearingSpec.v
theories/BearingProofs.v
theories/BearingProps.v
theories/BearingRecord.v
theories/CorrelateSpec.v
theories/Correlate.v
theories/CorrelateProofs.v
theories/CorrelateProps.v
theories/CorrelateRecord.v
theories/Polyfit.v
theories/PolyfitSpec.v
theories/PolyfitProofs.v
theories/PolyfitWrong.v
theories/PolyfitProps.v
theories/Spline.v
theories/SplineSpec.v
theories/SplineProofs.v
theories/SplineProps.v
theories/SplineCard.v
theories/SplineCase.v
theories/Lags.v
theories/LagsSpec.v
theories/LagsProps.v
theories/CorrelateNoise.v
theories/VisitsSpec.v
theories/OutliersVisits.v
theories/VisitsProps.v
theories/VisitsCase.v
theories/MergePausesSpec.v
theories/MergePauses.v
theories/MergePausesCase.v
theories/LagsNoiseSpec.v
theories/LagsNoise.v
theories/DirectionsNoiseSpec.v
theories/DirectionsNoise.v
theories/CliAccepted.v
theories/StreamPlaces.v
theories/StreamPlacesProps.v
theories/PlotLags.v
theories/PlotLagsProps.v
theories/PlotAmp.v
theories/PlotAmpProps.v
