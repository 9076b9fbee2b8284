-Q theories Verif
theories/Py.v
theories/PyFacts.v
theories/Consts.v
theories/Nx.v
theories/NxFacts.v
theories/Rep.v
theories/SpecRep.v
theories/RepFacts.v
theories/Prop_Rep.v
theories/Metrics.v
theories/SpecMetrics.v
theories/MetricsFacts.v
theories/MetricsFacts2.v
theories/Prop_Metrics.v
theories/LayoutMetrics.v
theories/SpecLayoutMetrics.v
theories/GeomFacts.v
theories/CrossFacts.v
theories/PathFacts.v
theories/Prop_LayoutMetrics.v
theories/Classify.v
theories/Layouter.v
theories/SpecLayout.v
theories/ClassifyFacts.v
theories/TopoFacts.v
theories/GridFacts.v
theories/LayoutFacts.v
theories/LayoutFacts2.v
theories/Prop_Layout.v
theories/CsvRegex.v
theories/CsvImport.v
theories/CsvExport.v
theories/SpecCsv.v
theories/RegexFacts.v
theories/CsvFacts.v
theories/CsvTable.v
theories/Prop_CsvRows.v
theories/SpecFlow.v
theories/CsvGhost.v
theories/CsvFill.v
theories/CsvLast.v
theories/CsvTotal.v
theories/Prop_CsvImport.v
theories/SpecCsvExport.v
theories/CsvExportFacts.v
theories/CsvChain.v
theories/CsvOrders.v
theories/Prop_CsvExport.v
theories/Xml.v
theories/Export.v
theories/Import.v
theories/XmlOps.v
theories/ImportFacts.v
theories/ActionFacts.v
theories/DiFacts.v
theories/SpecXml.v
theories/XmlScopes.v
theories/LoadFacts.v
theories/Prop_XmlImport.v
theories/XmlLayout.v
theories/Prop_XmlLayout.v
theories/LoadOk.v
theories/Prop_XmlLoads.v
theories/ExportFacts.v
theories/ExportTree.v
theories/RoundDemo.v
theories/Prop_XmlExported.v
theories/SpecRound.v
theories/ExportScopes.v
theories/RoundNodes.v
theories/RoundLoad.v
theories/RoundBack.v
theories/Prop_XmlRound.v
theories/RoundDi.v
theories/Prop_XmlDrawn.v
theories/Prop_XmlLanes.v
theories/Prop_XmlNoDi.v
theories/SpecWrite.v
theories/ExportOk.v
theories/RoundLoads.v
theories/Prop_XmlWrites.v
theories/CsvXml.v
theories/Prop_CsvXml.v
theories/Classes.v
theories/ClassFacts.v
theories/Prop_Classes.v
theories/ApiSave.v
theories/Prop_XmlApi.v
theories/Visual.v
theories/Prop_Visual.v
theories/SpecBlocks.v
theories/BlockExport.v
theories/Prop_CsvBlocks.v
theories/SpecFlat.v
theories/FlatTable.v
theories/FlatLines.v
theories/Prop_CsvFlat.v
theories/CsvGraph.v
theories/CsvCoherent.v
theories/LayoutSave.v
theories/Prop_CsvLayout.v
theories/Prop_CsvAcyclic.v
theories/SpecPlan.v
theories/PlanFacts.v
theories/PlanBlocks.v
theories/PlanRules.v
theories/Prop_BlockLayout.v
theories/Prop_BlockCsv.v
theories/SpecGoto.v
theories/GotoFacts.v
theories/CsvGoto.v
theories/CsvJump.v
theories/Prop_CsvGoto.v
theories/SpecSame.v
theories/SameFacts.v
theories/SameApi.v
theories/SameRound.v
theories/Prop_Stable.v
theories/CsvJoin.v
theories/SpecJoin.v
theories/Prop_CsvJoin.v
theories/Prop_CsvMeet.v
theories/SplitFacts.v
theories/Prop_Splits.v
theories/Prop_GotoLayout.v
theories/SpecPicture.v
theories/SameLayout.v
theories/Prop_SamePicture.v
theories/SpecOrder.v
theories/KeyOrder.v
theories/OrderRound.v
theories/Prop_Order.v
theories/CsvFan.v
theories/FlatAgain.v
theories/Prop_CsvAgain.v
theories/SpecCells.v
theories/CellFacts.v
theories/CellPlan.v
theories/Prop_Cells.v
theories/SpecDraw.v
theories/DrawFacts.v
theories/DrawRun.v
theories/DrawBack.v
theories/DrawTree.v
theories/Prop_Draw.v
theories/SpecOptions.v
theories/OptionShape.v
theories/OptionPlan.v
theories/Prop_Options.v
theories/SpecCrossing.v
theories/CrossGrid.v
theories/CrossPicture.v
theories/RouteFacts.v
theories/Prop_Crossing.v
theories/SpecMeasure.v
theories/MeasureFacts.v
theories/Prop_Measure.v
theories/Prop_Turn.v
theories/SpecSheet.v
theories/SheetFacts.v
theories/Prop_Sheet.v
theories/EdgeOrder.v
theories/ProcOrder.v
theories/SpecResave.v
theories/MessageBack.v
theories/ResaveFacts.v
theories/Prop_Resave.v
theories/ScopeOrder.v
theories/RoundTidy.v
theories/ResaveScopes.v
theories/Settled.v
theories/Prop_Settled.v
theories/SpecTally.v
theories/TallyFacts.v
theories/Prop_Tally.v
theories/CsvMeasure.v
theories/Prop_CsvMeasure.v
theories/Prop_CsvCrossing.v
theories/Prop_ResaveLimits.v
theories/SpecLines.v
theories/Prop_Lines.v
theories/SpecExportEnds.v
theories/Prop_ExportEnds.v
theories/SpecTruth.v
theories/Prop_Truth.v
theories/SpecOptional.v
theories/OptionalTable.v
theories/Prop_CsvOptional.v
theories/OptionalDraw.v
theories/Prop_OptionalDraw.v
theories/OptionalCount.v
theories/Prop_OptionalCount.v
theories/SpecLoose.v
theories/LooseExport.v
theories/Prop_Loose.v
theories/CsvGotoFan.v
theories/SpecAgain.v
theories/OptionalAgain.v
theories/Prop_OptionalAgain.v
theories/SpecTrips.v
theories/OptionalTidy.v
theories/Prop_OptionalTrips.v
theories/Prop_OptionalGates.v
theories/Prop_OptionalTripsCount.v
theories/Prop_CsvAnyGoto.v
theories/Prop_OptionalTripsDraw.v
theories/Prop_CsvChains.v
theories/Prop_ChainLoops.v
theories/Prop_ChainLayout.v
theories/Prop_ChainSaved.v
