-Q theories Verif
theories/Base.v
theories/Num.v
theories/XR.v
theories/FloatInst.v
theories/Binning_model.v
theories/Tests_Binning.v
theories/SortLib.v
theories/RList.v
theories/Spec_Binning.v
theories/Binning_proofs.v
theories/BinTest_proofs.v
theories/Fmd_proofs.v
theories/Props_Binning.v
theories/Props_Binning2.v
theories/BValue_model.v
theories/Tests_BValue.v
theories/BValue_run.v
theories/Spec_BValue.v
theories/BValue_real.v
theories/Likelihood.v
theories/BValue_proofs.v
theories/Props_BValue.v
theories/Props_BValue2.v
theories/Spec_Positive.v
theories/Positive_proofs.v
theories/Props_Positive.v
theories/Props_MoreIncomplete.v
theories/Simulate_model.v
theories/Spec_Simulate.v
theories/Props_Simulate.v
theories/StateM.v
theories/AValue_model.v
theories/Tests_AValue.v
theories/AValue_proofs.v
theories/Props_AValue.v
theories/Props_AValue2.v
theories/BSig_model.v
theories/Tests_BSig.v
theories/Spec_BSig.v
theories/Props_BSig.v
theories/Moran_proofs.v
theories/Props_BSig2.v
theories/Props_BSig3.v
theories/Props_BSig4.v
theories/Props_BSig5.v
theories/Mc_model.v
theories/Tests_Mc.v
theories/Spec_Mc.v
theories/Props_Mc.v
theories/Props_Mc2.v
theories/Props_Mc3.v
theories/Props_Mc4.v
theories/Props_Mc5.v
theories/Props_KsWeights.v
theories/Decluster_model.v
theories/Spec_Decluster.v
theories/Decluster_proofs.v
theories/Spec_Sphere.v
theories/Props_Sphere.v
theories/Tests_Decluster.v
theories/Props_Windows.v
theories/Props_Decluster.v
theories/Props_Decluster2.v
theories/Props_Decluster3.v
theories/Props_Decluster4.v
theories/Props_Decluster5.v
theories/Props_Decluster6.v
theories/Dict.v
theories/Client_model.v
theories/QuakeML_model.v
theories/Spec_QuakeML.v
theories/QuakeML_proofs.v
theories/Props_QuakeML.v
theories/Props_QuakeML2.v
theories/Props_QuakeML3.v
theories/Props_QuakeML4.v
theories/Periods_model.v
theories/Weichert_real.v
theories/Spec_Periods.v
theories/Periods_proofs.v
theories/Props_KijkoSmit.v
theories/Weichert_proofs.v
theories/Props_Weichert.v
theories/Props_Weichert2.v
theories/Props_Weichert3.v
theories/Spec_Client.v
theories/Props_Client.v
theories/Utils_model.v
theories/Spec_Utils.v
theories/Utils_proofs.v
theories/Props_Utils.v
theories/Props_Dates.v
theories/Props_Dates2.v
theories/Props_Coordinates.v
theories/Plots_model.v
theories/Spec_Plots.v
theories/Props_Plots.v
theories/Props_FmdPlot.v
theories/Props_TimePlots.v
theories/Props_TimePlots2.v
theories/Props_BPlots.v
theories/Tests_Plots.v
theories/Catalog_model.v
theories/Spec_Catalog.v
theories/Props_Catalog.v
theories/Props_Catalog2.v
theories/Rategrid_model.v
theories/Spec_Rategrid.v
theories/Rategrid_proofs.v
theories/Props_Rategrid.v
theories/Props_Rategrid2.v
theories/Props_Rategrid3.v
theories/Props_Rategrid4.v
theories/Tests_Rategrid.v
theories/Spec_Export.v
theories/Export_model.v
theories/Export_proofs.v
theories/Props_Export.v
theories/Props_Export2.v
theories/Spec_Openquake.v
theories/Openquake_model.v
theories/Openquake_proofs.v
theories/Props_Openquake.v
theories/Props_Openquake2.v
theories/F64.v
theories/Spec_F64.v
theories/F64_proofs.v
theories/F64_test.v
theories/F64_select.v
theories/F64_fmd.v
theories/Props_F64.v
theories/Props_F64b.v
theories/F64_acc.v
theories/F64_est.v
theories/F64_near.v
theories/F64_weights.v
theories/Props_F64c.v
theories/Props_General.v
theories/Times_model.v
theories/Spec_Times.v
theories/Props_Times.v
theories/Props_F64d.v
theories/Props_F64e.v
theories/Props_F64f.v
theories/Spec_Xml.v
theories/Xml_model.v
theories/Xml_proofs.v
theories/Recut_proofs.v
theories/Xml_cut.v
theories/Props_Xml.v
theories/Props_Xml2.v
theories/Props_Xml3.v
theories/ExportText_model.v
theories/ExportText_proofs.v
theories/Props_ExportText.v
theories/Props_ExportText2.v
theories/Tests_Xml.v
theories/Spec_Spelling.v
theories/Spelling_proofs.v
theories/Props_Spelling.v
theories/Props_Spelling2.v
theories/Escape_proofs.v
theories/Props_Escape.v
theories/Props_KijkoSmit2.v
theories/Props_AValue3.v
theories/Props_Mask.v
theories/Props_Blanks.v
theories/ClientText_model.v
theories/Spec_Download.v
theories/Props_Download.v
theories/Tests_Download.v
theories/Props_Warnings.v
theories/Props_PValue.v
theories/Numeric_model.v
theories/Spec_Numeric.v
theories/Numeric_proofs.v
theories/Numeric_f64.v
theories/Props_Numeric.v
theories/Props_Kwargs.v
theories/Table_model.v
theories/Spec_Table.v
theories/Table_proofs.v
theories/Props_Table.v
theories/Download_model.v
theories/Props_Table2.v
theories/Tests_Table.v
theories/CatalogPlots_model.v
theories/Props_Catalog3.v
theories/Workflow_model.v
theories/Props_Workflow.v
theories/Props_Workflow2.v
theories/Props_Workflow3.v
theories/Props_F64g.v
theories/Tests_Workflow.v
theories/Props_BPlots2.v
