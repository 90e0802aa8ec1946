-Q theories Verif
theories/Base.v
theories/F64.v
theories/BaseLemmas.v
theories/BaseSpec.v
theories/BaseSpecLemmas.v
theories/Tson.v
theories/TsonInd.v
theories/Serial.v
theories/TextSpec.v
theories/GoText.v
theories/ParseComplete.v
theories/ParseSound.v
theories/PanicLemmas.v
theories/MarshalText.v
theories/TextLemmas.v
theories/TsonSpec.v
theories/F64Lemmas.v
theories/TsonLemmas.v
theories/ConvLemmas.v
theories/ReadLemmas.v
theories/Bytes.v
theories/BytesSpec.v
theories/BytesLemmas.v
theories/BytesDemo.v
theories/Prop_Bytes.v
theories/TextDemo.v
theories/Prop_Text.v
theories/TsonDemo.v
theories/FromJsonErr.v
theories/Prop_Tson.v
theories/Heap.v
theories/Patch.v
theories/Logument.v
theories/LogSpec.v
theories/LogLemmas.v
theories/ChangeLemmas.v
theories/CompactLemmas.v
theories/HistoryLemmas.v
theories/SliceLemmas.v
theories/LogDemo.v
theories/Prop_Log.v
theories/Diff.v
theories/HeapSpec.v
theories/Own.v
theories/PatchSpec.v
theories/TreePatch.v
theories/PatchLemmas.v
theories/PatchDemo.v
theories/Prop_Patch.v
theories/ReplaySpec.v
theories/ReplayLemmas.v
theories/SetLemmas.v
theories/CompactReplay.v
theories/ReplayDemo.v
theories/SnapAnySpec.v
theories/SnapAny.v
theories/SnapAnyDemo.v
theories/TempFail.v
theories/TempFailDemo.v
theories/Prop_Replay.v
theories/DiffSpec.v
theories/DiffLemmas.v
theories/ArrayDiff.v
theories/DiffPaths.v
theories/DiffGrow.v
theories/DiffApply.v
theories/DiffExact.v
theories/DiffDemo.v
theories/Prop_Diff.v
theories/Tjson.v
theories/TjsonSpec.v
theories/TjsonLemmas.v
theories/TjsonDemo.v
theories/TjsonSource.v
theories/TjsonSourceDemo.v
theories/Prop_Tjson.v
theories/Initial.v
theories/InitialSpec.v
theories/InitialLemmas.v
theories/InitialDemo.v
theories/Prop_Initial.v
theories/Json.v
theories/JsonSpec.v
theories/JsonLemmas.v
theories/JsonChars.v
theories/JsonParse.v
theories/JsonRead.v
theories/JsonWrite.v
theories/JsonPatch.v
theories/JsonDiff.v
theories/JsonTson.v
theories/JsonErr.v
theories/JsonDemo.v
theories/Prop_Json.v
theories/Alias.v
theories/AliasSpec.v
theories/AliasLemmas.v
theories/Prop_Alias.v
theories/Share.v
theories/ShareSpec.v
theories/ShareLemmas.v
theories/ShareRun.v
theories/ShareDemo.v
theories/Prop_Share.v
theories/Family.v
theories/FamilySpec.v
theories/FamilyLemmas.v
theories/FamilyDemo.v
theories/Prop_Family.v
theories/Vss.v
theories/VssSpec.v
theories/VssLemmas.v
theories/VssPlace.v
theories/VssFloat.v
theories/VssGen.v
theories/VssData.v
theories/FrameDiff.v
theories/FrameDemo.v
theories/TotalSpec.v
theories/DiffTotal.v
theories/TotalDemo.v
theories/Prop_Frame.v
theories/VssNext.v
theories/VssDemo.v
theories/Prop_Vss.v
theories/VssPatchSpec.v
theories/VssTidy.v
theories/VssRead.v
theories/VssPatch.v
theories/VssRenew.v
theories/VssPatchDemo.v
theories/Prop_VssPatch.v
theories/VssBuild.v
theories/VssBuildDemo.v
theories/VssIndexSpec.v
theories/VssIndex.v
theories/VssIndexDemo.v
theories/Prop_VssIndex.v
theories/NotJson.v
theories/VssFileSpec.v
theories/VssSave.v
theories/VssFile.v
theories/VssSaveDemo.v
theories/Prop_VssFile.v
theories/F64Round.v
theories/VssPatchFileSpec.v
theories/VssPatchFile.v
theories/VssPatchFileDemo.v
theories/Prop_VssPatchFile.v
theories/VssRun.v
theories/VssRunSpec.v
theories/VssRunLemmas.v
theories/VssMeta.v
theories/VssWeb.v
theories/VssSentSpec.v
theories/VssSent.v
theories/VssRunDemo.v
theories/VssStop.v
theories/VssSentDemo.v
theories/Prop_VssRun.v
theories/Prop_VssSent.v
theories/Sensor.v
theories/Scenario.v
theories/Sim.v
theories/SimTrace.v
theories/SimSpec.v
theories/SimLemmas.v
theories/SimTimes.v
theories/SimDocs.v
theories/SimFinal.v
theories/SimInit.v
theories/SimPlace.v
theories/SimExp.v
theories/SimRows.v
theories/SimDemo.v
theories/Prop_Sim.v
theories/RangeSpec.v
theories/FloatOrder.v
theories/SimRange.v
theories/SimTrans.v
theories/SimQuiet.v
theories/SimStart.v
theories/SimTable.v
theories/SimLine.v
theories/RangeDemo.v
theories/Prop_SimRange.v
theories/Query.v
theories/QuerySpec.v
theories/QueryLemmas.v
theories/QueryTrack.v
theories/QueryAgree.v
theories/QueryDemo.v
theories/QueryCreate.v
theories/QueryFail.v
theories/QueryCreateDemo.v
theories/Prop_Query.v
theories/Temporal.v
theories/TemporalSpec.v
theories/TempDocs.v
theories/TempLog.v
theories/TempTrack.v
theories/TempTimes.v
theories/TempRun.v
theories/TempUrban.v
theories/TempZero.v
theories/TempCharge.v
theories/TempDir.v
theories/TempDemo.v
theories/Prop_Temporal.v
theories/Report.v
theories/ReportFloat.v
theories/ReportLemmas.v
theories/ReportDemo.v
theories/Prop_Report.v
theories/Snaps.v
theories/SnapsSpec.v
theories/SnapsLemmas.v
theories/SnapsDemo.v
theories/Prop_Snaps.v
theories/PatchCongr.v
theories/ChainSpec.v
theories/ChainLemmas.v
theories/ChainDemo.v
theories/Prop_Chain.v
theories/Store.v
theories/StoreSpec.v
theories/StoreText.v
theories/StoreFiles.v
theories/StoreRead.v
theories/SimNumber.v
theories/StoreUrban.v
theories/ExactFloat.v
theories/ExactNum.v
theories/StoreDemo.v
theories/Disk.v
theories/DiskSpec.v
theories/DiskLemmas.v
theories/DiskDemo.v
theories/Prop_Store.v
theories/Prop_Disk.v
theories/Csv.v
theories/CsvSpec.v
theories/TableSpec.v
theories/CsvLemmas.v
theories/CsvOrder.v
theories/CsvFiles.v
theories/CsvDemo.v
theories/Prop_Csv.v
theories/Listing.v
theories/ListingSpec.v
theories/ListingLemmas.v
theories/ListingDemo.v
theories/Prop_Listing.v
theories/ArrayRootSpec.v
theories/ArrayRoot.v
theories/ArrayRootDemo.v
theories/Prop_ArrayRoot.v
theories/EditSpec.v
theories/Edit.v
theories/EditDemo.v
theories/Prop_Edit.v
theories/VssAnySpec.v
theories/VssAny.v
theories/VssAnyNext.v
theories/VssAnyDemo.v
theories/Prop_VssAny.v
theories/TjsonPrint.v
theories/TjsonPrintSpec.v
theories/TjsonPrintLemmas.v
theories/TjsonPrintDemo.v
theories/Prop_TjsonPrint.v
theories/Serve.v
theories/ServeSpec.v
theories/ServeLemmas.v
theories/ServeDemo.v
theories/Prop_Serve.v
theories/SliceUseSpec.v
theories/SliceUseLemmas.v
theories/SliceUseDemo.v
theories/Prop_SliceUse.v
theories/TimeUseSpec.v
theories/TimeUseLemmas.v
theories/TimeUseDemo.v
theories/Prop_TimeUse.v
theories/RecompactLemmas.v
theories/RecompactDemo.v
theories/Prop_Recompact.v
theories/TrackUseLemmas.v
theories/TrackUseDemo.v
theories/Prop_TrackUse.v
theories/RegroupLemmas.v
theories/RegroupDemo.v
theories/Prop_Regroup.v
theories/AgreeLemmas.v
theories/AgreeDemo.v
theories/Prop_Agree.v
theories/SaveNames.v
theories/SaveNamesLemmas.v
theories/SaveNamesDemo.v
theories/Prop_SaveNames.v
theories/OriginSpec.v
theories/OriginLemmas.v
theories/OriginDemo.v
theories/Prop_Origin.v
theories/RepoTests.v
