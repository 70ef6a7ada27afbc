-Q theories Verif
theories/Base.v
theories/DofModel.v
theories/DofProofs.v
theories/PropertiesDof.v
theories/ZMap.v
theories/ReferenceModel.v
theories/ReferenceProofs.v
theories/PropertiesReference.v
theories/MeshNodeModel.v
theories/MeshNodeProofs.v
theories/MeshPartProofs.v
theories/PropertiesMeshNodes.v
theories/MeshCellModel.v
theories/MeshCellProofs.v
theories/PropertiesMeshCells.v
theories/MeshGroupModel.v
theories/MeshGroupProofs.v
theories/PropertiesMeshGroups.v
theories/FaceModel.v
theories/FaceProofs.v
theories/PropertiesFaces.v
theories/ConnectModel.v
theories/ConnectProofs.v
theories/PropertiesConnect.v
theories/TextModel.v
theories/TextProofs.v
theories/TokenizerModel.v
theories/TokenizerProofs.v
theories/NextIntsProofs.v
theories/PropertiesTokenizer.v
theories/RealModel.v
theories/RealProofs.v
theories/WriterLineModel.v
theories/WriterLineProofs.v
theories/WriterRealProofs.v
theories/PropertiesReal.v
theories/PropertiesWriterLine.v
theories/CardModel.v
theories/CardProofs.v
theories/PropertiesCards.v
theories/PropertiesCards2.v
theories/CaseControlModel.v
theories/CaseControlProofs.v
theories/PropertiesCaseControl.v
theories/PropertiesCaseControl2.v
theories/MatrixElementModel.v
theories/MatrixElementProofs.v
theories/MatrixSplitProofs.v
theories/SystusMatrixProofs.v
theories/DisassembleProofs.v
theories/PropertiesMatrixElement.v
theories/GeomModel.v
theories/GeomProofs.v
theories/EulerProofs.v
theories/PropertiesGeom.v
theories/RigidModel.v
theories/PropertiesRigid.v
theories/LoadModel.v
theories/PropertiesLoads.v
theories/SupportModel.v
theories/SupportProofs.v
theories/LiftProofs.v
theories/PropertiesSupports.v
theories/CombineModel.v
theories/PropertiesCombine.v
theories/AnalysisModel.v
theories/PropertiesAnalysis.v
theories/SectionModel.v
theories/PropertiesSections.v
theories/CsvModel.v
theories/PropertiesCsv.v
theories/GridModel.v
theories/PropertiesGrid.v
theories/LoadCardModel.v
theories/FieldProofs.v
theories/PropertiesLoadCards.v
theories/PropCardModel.v
theories/PropertiesPropCards.v
theories/SpringModel.v
theories/PropertiesSprings.v
theories/DiscreteExportModel.v
theories/PropertiesDiscreteExport.v
theories/FreqModel.v
theories/PropertiesFreq.v
theories/MembershipModel.v
theories/PropertiesMembership.v
theories/RelationCellsModel.v
theories/PropertiesRelationCells.v
theories/AsterScriptModel.v
theories/AsterScriptProofs.v
theories/AsterScriptReady.v
theories/AsterScriptAnalysis.v
theories/AsterScriptNames.v
theories/AsterScriptOne.v
theories/PropertiesAsterScript.v
theories/DynaLoadModel.v
theories/PropertiesDynaLoad.v
theories/RbarModel.v
theories/PropertiesRbar.v
theories/AsterConstraintModel.v
theories/PropertiesAsterConstraint.v
theories/AsterLoadModel.v
theories/PropertiesAsterLoad.v
theories/SystusVectorModel.v
theories/SystusVectorProofs.v
theories/PropertiesSystusVector.v
theories/OrientModel.v
theories/OrientProofs.v
theories/PropertiesOrient.v
theories/SystusAxesModel.v
theories/PropertiesSystusAxes.v
theories/SystusElementModel.v
theories/PropertiesSystusElement.v
theories/SystusMaterialModel.v
theories/SystusMaterialProofs.v
theories/PropertiesSystusMaterial.v
theories/NastranControlModel.v
theories/NastranControlProofs.v
theories/PropertiesNastranControl.v
theories/NastranElementModel.v
theories/NastranElementProofs.v
theories/PropertiesNastranElement.v
theories/MaterialModel.v
theories/PropertiesMaterial.v
theories/PropertiesAsterMaterial.v
theories/PropertiesLayers.v
theories/PropertiesNastranMaterial.v
theories/MedModel.v
theories/MedProofs.v
theories/PropertiesMed.v
theories/OffsetModel.v
theories/OffsetProofs.v
theories/PropertiesOffset.v
theories/ForceLineModel.v
theories/PropertiesForceLine.v
theories/SpringSplitModel.v
theories/PropertiesSpringSplit.v
theories/ParamModel.v
theories/ParamProofs.v
theories/PropertiesParam.v
theories/SegmentModel.v
theories/SegmentProofs.v
theories/PropertiesSegment.v
theories/OptistructModel.v
theories/PropertiesOptistruct.v
theories/GapModel.v
theories/PropertiesGap.v
theories/F06Model.v
theories/F06Proofs.v
theories/PropertiesF06.v
theories/ContactSurfModel.v
theories/ContactSurfProofs.v
theories/PropertiesContactSurf.v
theories/VirtualModel.v
theories/VirtualProofs.v
theories/PropertiesVirtual.v
theories/DirectCardModel.v
theories/PropertiesDirectCards.v
theories/FinishModel.v
theories/PropertiesFinish.v
theories/ResultTestModel.v
theories/PropertiesResultTest.v
theories/SystusCaseModel.v
theories/PropertiesSystusCase.v
theories/SystusRigidModel.v
theories/SystusRigidProofs.v
theories/PropertiesSystusRigid.v
theories/SystusTableModel.v
theories/SystusTableProofs.v
theories/PropertiesSystusTable.v
theories/MeshStatsModel.v
theories/MeshStatsProofs.v
theories/PropertiesMeshStats.v
theories/OptionsModel.v
theories/OptionsProofs.v
theories/PropertiesOptions.v
theories/SlideCellModel.v
theories/SlideCellProofs.v
theories/PropertiesSlideCell.v
theories/ValidateModel.v
theories/ValidateProofs.v
theories/PropertiesValidate.v
theories/IncludeModel.v
theories/IncludeProofs.v
theories/PropertiesInclude.v
theories/PruneModel.v
theories/PruneProofs.v
theories/PropertiesPrune.v
theories/SystusDatModel.v
theories/PropertiesSystusDat.v
theories/SystusCheckModel.v
theories/PropertiesSystusCheck.v
theories/RunnerModel.v
theories/PropertiesRunner.v
theories/ProcessModel.v
theories/PropertiesProcess.v
theories/PropertiesProcessRun.v
theories/ReasonModel.v
theories/PropertiesReason.v
